From Verif Require Export L_Rotations M_Panel.

(** Move every vertex of a panel by [f]. *)
Definition panel_map (f : vec -> vec) (p : panel) : panel :=
  new_panel (f (p_front_right p)) (f (p_front_left p)) (f (p_back_left p)) (f (p_back_right p))
            (p_is_leading_edge p) (p_is_trailing_edge p).

Lemma panel_points p :
  p_front_right_vortex_vertex p = along (p_front_right p) (p_back_right p) (1 / 4) /\
  p_front_left_vortex_vertex p = along (p_front_left p) (p_back_left p) (1 / 4) /\
  p_collocation_point p = midpoint (along (p_front_right p) (p_back_right p) (3 / 4))
                                   (along (p_front_left p) (p_back_left p) (3 / 4)).
Proof.
  unfold p_front_right_vortex_vertex, p_front_left_vortex_vertex, p_collocation_point,
    p_right_leg, p_left_leg, along, midpoint.
  repeat split; vunfold; apply vec_ext; cbn; field.
Qed.

Definition rigid (m : mat) (t : vec) (p : vec) : vec := vadd (mvmul m p) t.

Lemma panel_points_affine m t p :
  let f := rigid m t in
  p_front_right_vortex_vertex (panel_map f p) = f (p_front_right_vortex_vertex p) /\
  p_front_left_vortex_vertex (panel_map f p) = f (p_front_left_vortex_vertex p) /\
  p_collocation_point (panel_map f p) = f (p_collocation_point p).
Proof.
  cbn zeta. unfold p_front_right_vortex_vertex, p_front_left_vortex_vertex, p_collocation_point,
    p_right_leg, p_left_leg, rigid; cbn.
  repeat split; vunfold; apply vec_ext; cbn; field.
Qed.

Lemma p_cross_rigid m t p : proper_rotation m ->
  p_cross (panel_map (rigid m t) p) = mvmul m (p_cross p).
Proof.
  intros H. unfold p_cross. rewrite <- proper_cross by exact H. f_equal;
  unfold p_first_diagonal, p_second_diagonal, rigid; cbn; vring.
Qed.

Lemma normal_unit p : p_cross p <> vzero ->
  vnorm (p_unit_normal p) = 1 /\
  vdot (p_unit_normal p) (vsub (p_front_right p) (p_back_left p)) = 0 /\
  vdot (p_unit_normal p) (vsub (p_front_left p) (p_back_right p)) = 0.
Proof.
  intros H; split; [apply vnorm_unit, H|].
  unfold p_unit_normal; rewrite vdiv_scale, !vdot_scale_l.
  fold (p_first_diagonal p) (p_second_diagonal p).
  unfold p_cross. rewrite (vdot_comm (vcross _ _) (p_first_diagonal p)), vdot_cross_l.
  rewrite (vdot_comm (vcross _ _) (p_second_diagonal p)), vdot_cross_r. split; ring.
Qed.

Lemma normal_rigid m t p : proper_rotation m ->
  p_unit_normal (panel_map (rigid m t) p) = mvmul m (p_unit_normal p).
Proof.
  intros H. unfold p_unit_normal. rewrite p_cross_rigid by exact H.
  rewrite (orthogonal_norm m (p_cross p)) by (apply proper_orthogonal, H).
  rewrite !vdiv_scale, mvmul_scale; reflexivity.
Qed.
Lemma area_rigid m t p : proper_rotation m -> p_area (panel_map (rigid m t) p) = p_area p.
Proof.
  intros H. unfold p_area. rewrite p_cross_rigid by exact H.
  rewrite orthogonal_norm by (apply proper_orthogonal, H). reflexivity.
Qed.
Lemma area_nonneg p : 0 <= p_area p.
Proof. unfold p_area; pose proof (vnorm_nonneg (p_cross p)); lra. Qed.

(** The projected area is the area times |cos| of the angle to the normal. *)
Lemma projected_cross d1 d2 n : vdot n n = 1 ->
  vcross (vsub d1 (vscale (vdot d1 n) n)) (vsub d2 (vscale (vdot d2 n) n))
  = vscale (vdot (vcross d1 d2) n) n.
Proof.
  intros Hn. set (c := vcross d1 d2).
  transitivity (vadd c (vcross n (vcross n c))); [unfold c; vring|].
  transitivity (vadd c (vsub (vscale (vdot n c) n) (vscale (vdot n n) c))); [vring|].
  rewrite Hn; vring.
Qed.
Lemma projected_area_dot p n : vnorm n = 1 ->
  p_projected_area p n = Rabs (vdot (p_cross p) n) / 2.
Proof.
  intros Hn. unfold p_projected_area. rewrite projected_cross by (apply vnorm_1_dot, Hn).
  rewrite vnorm_scale, Hn. unfold p_cross. field.
Qed.
Lemma projected_area_bounds p n : vnorm n = 1 -> 0 <= p_projected_area p n <= p_area p.
Proof.
  intros Hn. rewrite projected_area_dot by exact Hn. unfold p_area.
  pose proof (vnorm_dot_le (p_cross p) n) as H. rewrite Hn in H.
  pose proof (Rabs_pos (vdot (p_cross p) n)). lra.
Qed.
Lemma projected_area_own p : p_cross p <> vzero -> p_projected_area p (p_unit_normal p) = p_area p.
Proof.
  intros H. rewrite projected_area_dot by (apply vnorm_unit, H).
  unfold p_area, p_unit_normal. rewrite vdiv_scale, vdot_scale_r, <- vnorm_mul.
  pose proof (vnorm_pos _ H). rewrite Rabs_pos_eq.
  - field; lra.
  - replace (/ vnorm (p_cross p) * (vnorm (p_cross p) * vnorm (p_cross p))) with (vnorm (p_cross p)) by (field; lra). lra.
Qed.
(** translation + any direction: *)
Lemma projected_area_zero_iff p n : vnorm n = 1 ->
  (p_projected_area p n = 0 <-> vdot (p_cross p) n = 0).
Proof.
  intros Hn. rewrite projected_area_dot by exact Hn. split.
  - intros H. assert (E : Rabs (vdot (p_cross p) n) = 0) by lra.
    destruct (Req_dec (vdot (p_cross p) n) 0) as [?|Hne]; [assumption|]. apply Rabs_no_R0 in Hne; lra.
  - intros ->. rewrite Rabs_R0; field.
Qed.

Lemma normal_side p :
  let c := vcross (vsub (p_front_right p) (p_back_left p)) (vsub (p_front_left p) (p_back_right p)) in
  c <> vzero -> 0 < vdot (p_unit_normal p) c.
Proof.
  intros c Hc. unfold p_unit_normal. change (p_cross p) with c.
  rewrite vdiv_scale, vdot_scale_l. apply Rmult_lt_0_compat.
  - apply Rinv_0_lt_compat, vnorm_pos, Hc.
  - apply vdot_self_pos, Hc.
Qed.
Lemma area_formula p :
  p_area p = vnorm (vcross (vsub (p_front_right p) (p_back_left p)) (vsub (p_front_left p) (p_back_right p))) / 2
  /\ 0 <= p_area p.
Proof. split; [reflexivity | apply area_nonneg]. Qed.
Lemma area_triangles p :
  let t1 := vcross (vsub (p_front_left p) (p_front_right p)) (vsub (p_back_left p) (p_front_right p)) in
  let t2 := vcross (vsub (p_back_left p) (p_front_right p)) (vsub (p_back_right p) (p_front_right p)) in
  p_area p = vnorm (vadd t1 t2) / 2.
Proof.
  cbn zeta. unfold p_area. f_equal. f_equal. unfold p_cross, p_first_diagonal, p_second_diagonal. vring.
Qed.
Lemma projected_area_cosine p n : vnorm n = 1 -> p_cross p <> vzero ->
  p_projected_area p n = p_area p * Rabs (vdot (p_unit_normal p) n).
Proof.
  intros Hn Hc. rewrite projected_area_dot by exact Hn. unfold p_area, p_unit_normal.
  rewrite vdiv_scale, vdot_scale_l, Rabs_mult.
  pose proof (vnorm_pos _ Hc). rewrite (Rabs_pos_eq (/ _)) by (left; apply Rinv_0_lt_compat; assumption).
  field; lra.
Qed.
Lemma unit_square_nondegenerate :
  let p := new_panel (mkvec 0 1 0) (mkvec 0 0 0) (mkvec 1 0 0) (mkvec 1 1 0) true true in
  vcross (vsub (p_front_right p) (p_back_left p)) (vsub (p_front_left p) (p_back_right p)) <> vzero /\
  vnorm (mkvec 0 0 1) = 1.
Proof.
  cbn zeta. split.
  - intros H. apply (f_equal vz) in H. cbn in H. lra.
  - apply vdot_1_norm; unfold vdot; cbn; ring.
Qed.

(** ** Directions and average dimensions *)
Definition across (p : panel) : vec := vsub (midpoint (p_front_right p) (p_back_right p)) (midpoint (p_front_left p) (p_back_left p)).
Definition backwards (p : panel) : vec := vsub (midpoint (p_back_left p) (p_back_right p)) (midpoint (p_front_left p) (p_front_right p)).
Lemma spanwise_across p : p_unit_spanwise p = vdiv (across p) (vnorm (across p)).
Proof.
  unfold p_unit_spanwise. cbn zeta. replace (vdiv (vadd (vopp (p_front_leg p)) (p_back_leg p)) 2) with (across p); [reflexivity|].
  unfold across, midpoint, p_front_leg, p_back_leg. vunfold; apply vec_ext; cbn; field.
Qed.
Lemma chordwise_backwards p : p_unit_chordwise p = vdiv (backwards p) (vnorm (backwards p)).
Proof.
  unfold p_unit_chordwise. cbn zeta. replace (vdiv (vadd (vopp (p_right_leg p)) (p_left_leg p)) 2) with (backwards p); [reflexivity|].
  unfold backwards, midpoint, p_right_leg, p_left_leg. vunfold; apply vec_ext; cbn; field.
Qed.
Lemma unit_of v : v <> vzero -> vnorm (vdiv v (vnorm v)) = 1 /\ vscale (vnorm v) (vdiv v (vnorm v)) = v.
Proof.
  intros H. split; [apply vnorm_unit, H|]. pose proof (vnorm_neq_0 _ H). rewrite vdiv_scale. unfold vscale. apply vec_ext; cbn; field; assumption.
Qed.
Lemma panel_directions p :
  let across := vsub (midpoint (p_front_right p) (p_back_right p)) (midpoint (p_front_left p) (p_back_left p)) in
  let backwards := vsub (midpoint (p_back_left p) (p_back_right p)) (midpoint (p_front_left p) (p_front_right p)) in
  (across <> vzero -> vnorm (p_unit_spanwise p) = 1 /\ vscale (vnorm across) (p_unit_spanwise p) = across) /\
  (backwards <> vzero -> vnorm (p_unit_chordwise p) = 1 /\ vscale (vnorm backwards) (p_unit_chordwise p) = backwards).
Proof. cbn zeta. rewrite spanwise_across, chordwise_backwards. split; apply unit_of. Qed.
Lemma directions_rigid m t p : proper_rotation m ->
  p_unit_spanwise (panel_map (rigid m t) p) = mvmul m (p_unit_spanwise p) /\ p_unit_chordwise (panel_map (rigid m t) p) = mvmul m (p_unit_chordwise p).
Proof.
  intros H. rewrite !spanwise_across, !chordwise_backwards.
  assert (E1 : across (panel_map (rigid m t) p) = mvmul m (across p)). { unfold across, midpoint, rigid. cbn. vunfold; apply vec_ext; cbn; field. }
  assert (E2 : backwards (panel_map (rigid m t) p) = mvmul m (backwards p)). { unfold backwards, midpoint, rigid. cbn. vunfold; apply vec_ext; cbn; field. }
  rewrite E1, E2, !(orthogonal_norm m) by (apply proper_orthogonal, H). rewrite !vdiv_scale, !mvmul_scale. auto.
Qed.
Lemma average_dimensions p :
  p_average_span p = (vnorm (vsub (p_front_right p) (p_front_left p)) + vnorm (vsub (p_back_right p) (p_back_left p))) / 2 /\
  p_average_chord p = (vnorm (vsub (p_back_right p) (p_front_right p)) + vnorm (vsub (p_back_left p) (p_front_left p))) / 2.
Proof.
  unfold p_average_span, p_average_chord, p_front_leg, p_back_leg, p_right_leg, p_left_leg. 
  rewrite <- (vnorm_opp (vsub (p_front_left p) (p_front_right p))), <- (vnorm_opp (vsub (p_front_right p) (p_back_right p))).
  replace (vopp (vsub (p_front_left p) (p_front_right p))) with (vsub (p_front_right p) (p_front_left p)) by vring.
  replace (vopp (vsub (p_front_right p) (p_back_right p))) with (vsub (p_back_right p) (p_front_right p)) by vring. auto.
Qed.
Lemma average_bounds p :
  vnorm (vsub (midpoint (p_front_right p) (p_back_right p)) (midpoint (p_front_left p) (p_back_left p))) <= p_average_span p /\
  vnorm (vsub (midpoint (p_back_left p) (p_back_right p)) (midpoint (p_front_left p) (p_front_right p))) <= p_average_chord p.
Proof.
  destruct (average_dimensions p) as [-> ->]. split.
  - replace (vsub (midpoint (p_front_right p) (p_back_right p)) (midpoint (p_front_left p) (p_back_left p)))
      with (vscale (/ 2) (vadd (vsub (p_front_right p) (p_front_left p)) (vsub (p_back_right p) (p_back_left p)))) by (unfold midpoint; vring).
    rewrite vnorm_scale, Rabs_pos_eq by lra. pose proof (vnorm_triangle (vsub (p_front_right p) (p_front_left p)) (vsub (p_back_right p) (p_back_left p))). lra.
  - replace (vsub (midpoint (p_back_left p) (p_back_right p)) (midpoint (p_front_left p) (p_front_right p)))
      with (vscale (/ 2) (vadd (vsub (p_back_right p) (p_front_right p)) (vsub (p_back_left p) (p_front_left p)))) by (unfold midpoint; vring).
    rewrite vnorm_scale, Rabs_pos_eq by lra. pose proof (vnorm_triangle (vsub (p_back_right p) (p_front_right p)) (vsub (p_back_left p) (p_front_left p))). lra.
Qed.
Lemma averages_rigid m t p : proper_rotation m ->
  p_average_span (panel_map (rigid m t) p) = p_average_span p /\ p_average_chord (panel_map (rigid m t) p) = p_average_chord p.
Proof.
  intros H. destruct (average_dimensions p) as [-> ->]. destruct (average_dimensions (panel_map (rigid m t) p)) as [-> ->].
  assert (E : forall a b, vnorm (vsub (rigid m t a) (rigid m t b)) = vnorm (vsub a b)).
  { intros a b. rewrite <- (orthogonal_norm m (vsub a b)) by (apply proper_orthogonal, H). f_equal. unfold rigid. vring. }
  cbn [panel_map new_panel p_front_right p_front_left p_back_left p_back_right]. rewrite !E. auto.
Qed.
Lemma square_dimensions :
  let p := new_panel (mkvec 0 1 0) (mkvec 0 0 0) (mkvec 2 0 0) (mkvec 2 1 0) true true in
  p_unit_spanwise p = mkvec 0 1 0 /\ p_unit_chordwise p = mkvec 1 0 0 /\ p_average_span p = 1 /\ p_average_chord p = 2 /\
  vsub (midpoint (p_front_right p) (p_back_right p)) (midpoint (p_front_left p) (p_back_left p)) <> vzero.
Proof.
  cbn zeta. set (p := new_panel _ _ _ _ _ _). assert (A : across p = mkvec 0 1 0). { unfold across, midpoint, p. cbn. vunfold; apply vec_ext; cbn; lra. }
  assert (B : backwards p = mkvec 2 0 0). { unfold backwards, midpoint, p. cbn. vunfold; apply vec_ext; cbn; lra. }
  assert (N1 : vnorm (mkvec 0 1 0) = 1). { apply vdot_1_norm. vunfold. ring. }
  assert (N2 : vnorm (mkvec 2 0 0) = 2). { replace (mkvec 2 0 0) with (vscale 2 (mkvec 1 0 0)) by (vunfold; apply vec_ext; cbn; lra). rewrite vnorm_scale, (vdot_1_norm (mkvec 1 0 0)) by (vunfold; ring). rewrite Rabs_pos_eq; lra. }
  rewrite spanwise_across, chordwise_backwards, A, B, N1, N2. destruct (average_dimensions p) as [-> ->]. unfold p. cbn [new_panel p_front_right p_front_left p_back_left p_back_right].
  replace (vsub (mkvec 0 1 0) (mkvec 0 0 0)) with (mkvec 0 1 0) by (vunfold; apply vec_ext; cbn; lra). replace (vsub (mkvec 2 1 0) (mkvec 2 0 0)) with (mkvec 0 1 0) by (vunfold; apply vec_ext; cbn; lra).
  replace (vsub (mkvec 2 1 0) (mkvec 0 1 0)) with (mkvec 2 0 0) by (vunfold; apply vec_ext; cbn; lra). replace (vsub (mkvec 2 0 0) (mkvec 0 0 0)) with (mkvec 2 0 0) by (vunfold; apply vec_ext; cbn; lra).
  rewrite N1, N2. split; [vunfold; apply vec_ext; cbn; lra|]. split; [vunfold; apply vec_ext; cbn; lra|]. split; [lra|]. split; [lra|].
  intros E. apply (f_equal vy) in E. unfold midpoint in E. cbn in E. lra.
Qed.
