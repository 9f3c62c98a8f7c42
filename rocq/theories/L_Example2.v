(** A wing of two unequal panels in a stream normal to it, solved by the ring
    solver: the leg between the panels carries a force and both panels get it. *)
From Coq Require Import Lra Lia.
From Verif Require Import M_Geometry M_SteadyRing S_Solve S_Loads S_Geometry S_Vortices.
From Verif Require Import L_Base L_Functions L_Rotations L_Panel L_Aero L_Loads L_Horseshoe L_SteadyRing L_RingLegs L_Gauss L_Example.

Definition ex2_row : list panel :=
  [p_set_position false true 0 0 (plain_panel 0 1); p_set_position true false 0 1 (plain_panel 1 3)].
Definition ex2_wing : wing :=
  mkwing [ex_placed 0; ex_placed 1; ex_placed 3] "wing" 0 0 0 (mkvec 0 1 0) false (mkvec 1 0 0) 1 "uniform"
         2 2 [ex2_row] [] [].
Lemma ex2_wing_ok :
  new_wing [ex_section 0; ex_section 1; ex_section 3] "wing" 0 0 0 (mkvec 0 1 0) false (mkvec 1 0 0) 1 "uniform" = Ok ex2_wing.
Proof.
  unfold new_wing. cbn [length Nat.leb check bind String.eqb Ascii.eqb Bool.eqb orb index nth_error forallb].
  assert (E : forall u v, u = v -> veqb u v = true) by (intros; apply veqb_true; assumption).
  rewrite (E (mkvec 0 1 0) (cs_unit_normal (ex_section 0)) eq_refl).
  rewrite (E (cs_leading_edge (ex_section 0)) vzero eq_refl).
  rewrite (E (vcross (vcross (mkvec 0 1 0) (cs_unit_normal (ex_section 0))) (mkvec 1 0 0)) vzero)
    by (cbn; vunfold; apply vec_ext; cbn; ring).
  rewrite (E (vcross (vcross (mkvec 0 1 0) (cs_unit_normal (ex_section 1))) (mkvec 1 0 0)) vzero)
    by (cbn; vunfold; apply vec_ext; cbn; ring).
  rewrite (E (vcross (vcross (mkvec 0 1 0) (cs_unit_normal (ex_section 3))) (mkvec 1 0 0)) vzero)
    by (cbn; vunfold; apply vec_ext; cbn; ring).
  replace (Reqb (vdot (mkvec 1 0 0) (mkvec 0 1 0)) 0) with true by (symmetry; apply Reqb_true; vunfold; ring).
  cbn [check bind andb map]. fold (ex_placed 0) (ex_placed 1) (ex_placed 3).
  unfold mesh_wing. change (mkmesh (mkvec 0 0 0) (mkvec 0 1 0) false 1 "uniform") with (ex_spec false).
  cbn [mesh_sections]. rewrite !ex_right. cbn [bind].
  cbn [ex_spec ms_symmetric ms_num_chordwise repeat]. reflexivity.
Qed.
Definition ex2_airplane : airplane :=
  mkairplane [ex2_wing] "plane" 0 0 0 0 12 4 3 2 None None None None.
Lemma ex2_airplane_ok :
  new_airplane [ex2_wing] "plane" 0 0 0 0 (Some 12) (Some 4) (Some 3) = Ok ex2_airplane.
Proof. reflexivity. Qed.
Lemma ex2_well_meshed : well_meshed_airplane ex2_airplane.
Proof.
  split; [|reflexivity]. intros w [<-|[]]. cbn [ex2_wing w_panels]. split.
  - intros row [<-|[]]. reflexivity.
  - intros [|c] row s p Hr Hp; [|destruct c; discriminate Hr]. injection Hr as <-.
    destruct s as [|[|s]]; cbn in Hp; try discriminate Hp;
      try (injection Hp as <-; repeat split; reflexivity); destruct s; discriminate Hp.
Qed.
Lemma ex2_watertight : spanwise_watertight (w_panels ex2_wing).
Proof.
  intros c s p q (row & Hc & Hp) (row' & Hc' & Hq). rewrite Hc in Hc'. injection Hc' as <-.
  destruct c as [|c]; [|destruct c; discriminate Hc]. injection Hc as <-.
  destruct s as [|s]; [|destruct s as [|s]; [|destruct s]; discriminate Hq].
  injection Hp as <-. injection Hq as <-. split; reflexivity.
Qed.

(** The stream is along z. *)
Definition ex2_op (rho v : R) : operating_point := mkop rho v 90 0 0 0.
Lemma ex2_direction rho v : freestream_direction (ex2_op rho v) = mkvec 0 0 1.
Proof.
  rewrite freestream_direction_explicit; unfold ex2_op; cbn [op_alpha op_beta]. unfold radians.
  replace (90 * (PI / 180)) with (PI / 2) by field. rewrite Rmult_0_l, cos_0, sin_0, cos_PI2, sin_PI2.
  apply vec_ext; cbn; ring.
Qed.
Lemma ex2_span : w_span ex2_wing = 3.
Proof.
  unfold w_span; cbn [ex2_wing w_sections w_symmetric w_unit_normal length Nat.sub nth_leading_edge nth_error].
  replace (vscale _ _) with (vscale 3 (mkvec 0 1 0)).
  - rewrite vnorm_scale, (vdot_1_norm (mkvec 0 1 0)) by (vunfold; ring). rewrite Rabs_pos_eq; lra.
  - unfold ex_placed, ex_section, cs_set_wing_chordwise, cs_leading_edge; cbn. vunfold; apply vec_ext; cbn; ring.
Qed.
Lemma plain_points y0 y1 l r c s : y0 < y1 -> let p := p_set_position r l c s (plain_panel y0 y1) in
  p_collocation_point p = mkvec 3 ((y0 + y1) / 2) 0 /\ p_unit_normal p = mkvec 0 0 1 /\
  p_front_right_vortex_vertex p = mkvec 1 y1 0 /\ p_front_left_vortex_vertex p = mkvec 1 y0 0.
Proof.
  intros Hy p. unfold p, p_collocation_point, p_unit_normal, p_front_right_vortex_vertex, p_front_left_vortex_vertex, p_right_leg, p_left_leg,
    p_cross, p_first_diagonal, p_second_diagonal; cbn [p_set_position plain_panel new_panel p_front_right p_front_left p_back_left p_back_right].
  repeat split; try (vunfold; apply vec_ext; cbn; lra).
  replace (vcross (vsub (mkvec 0 y1 0) (mkvec 4 y0 0)) (vsub (mkvec 0 y0 0) (mkvec 4 y1 0))) with (vscale (8 * (y1 - y0)) (mkvec 0 0 1))
    by (vunfold; apply vec_ext; cbn; lra).
  rewrite vnorm_scale, (vdot_1_norm (mkvec 0 0 1)) by (vunfold; ring). rewrite Rabs_pos_eq by lra.
  unfold vdiv; apply vec_ext; cbn; field; lra.
Qed.

(** Rows of the solver. *)
Definition ex2_ring_row (y0 y1 : R) (p : panel) : ring_row :=
  mkringrow p vzero (new_ring (mkvec 1 y0 0) (mkvec 1 y1 0) (mkvec 5 y0 0) (mkvec 5 y1 0) 0)
    (mkvec 5 y1 60) (mkvec 5 y1 0) (mkvec 5 y0 0) (mkvec 5 y0 60).
Lemma ex2_rows rho v l0 rows : ring_init (ex2_op rho v) [ex2_airplane] = Ok l0 -> ring_collapse l0 = Ok rows ->
  exists p q, same_panel (p_set_position false true 0 0 (plain_panel 0 1)) p /\
              same_panel (p_set_position true false 0 1 (plain_panel 1 3)) q /\
    rows = [ex2_ring_row 0 1 p; ex2_ring_row 1 3 q].
Proof.
  intros E0 Er. assert (H01 : 0 < 1) by lra. assert (H13 : 1 < 3) by lra.
  destruct (plain_points 0 1 true false 0 0 H01) as (_ & _ & Hfr & Hfl).
  destruct (plain_points 1 3 false true 0 1 H13) as (_ & _ & Gfr & Gfl).
  unfold ring_init in E0. cbn [mapM] in E0. unfold ring_init_airplane in E0. cbn [ex2_airplane a_wings mapM] in E0.
  unfold ring_init_wing in E0. rewrite ex2_direction, ex2_span in E0. cbn [ex2_wing w_panels ex2_row] in E0.
  unfold mapiM in E0. cbn [length seq combine mapM fst snd] in E0.
  unfold ring_init_panel in E0. cbn [p_set_position plain_panel new_panel p_is_trailing_edge bind] in E0.
  injection E0 as <-.
  unfold ring_collapse, flat_panels in Er. cbn [map a_wings a_set_wings w_set_panels w_panels ravel concat app mapM] in Er.
  unfold ring_make_row in Er. cbn [p_set_ring p_set_horseshoe p_ring_vortex p_horseshoe_vortex p_is_trailing_edge] in Er.
  cbn [p_set_position plain_panel new_panel p_is_trailing_edge bind] in Er.
  injection Er as <-.
  match goal with |- exists p q, _ /\ _ /\ [mkringrow ?x _ _ _ _ _ _; mkringrow ?y _ _ _ _ _ _] = _ => exists x, y end.
  split; [repeat split; reflexivity|]. split; [repeat split; reflexivity|].
  cbn [p_set_position plain_panel new_panel p_front_right p_front_left p_back_left p_back_right] in Hfr, Hfl, Gfr, Gfl |- *.
  unfold p_front_right_vortex_vertex, p_front_left_vortex_vertex, p_right_leg, p_left_leg.
  cbn [p_set_position plain_panel new_panel p_front_right p_front_left p_back_left p_back_right].
  unfold ex2_ring_row. f_equal; [|f_equal]; f_equal; try reflexivity; try (apply vec_ext; cbn; lra).
  all: f_equal; apply vec_ext; cbn; lra.
Qed.

(** ** Velocities of the legs *)
Lemma line_velocity_dot p a b n nu : singular p a b = false ->
  let u := vsub a p in let w := vsub b p in
  vdot (line_velocity p a b 1 0 nu) n =
  / (4 * PI) * (vdot (vcross u w) n / vdot (vcross u w) (vcross u w) *
                ((vdot u u - vdot u w) / vnorm u + (vdot w w - vdot u w) / vnorm w)).
Proof.
  intros E u w. rewrite line_velocity_regular by exact E. rewrite vdot_scale_l.
  destruct (regular_nonzero _ _ _ E) as (H1 & H2 & H3). fold u w in H1, H2, H3.
  unfold line_coefficient. rewrite core_radius_age0. fold u w. rewrite vnorm_sqr in *. pose proof PI_RGT_0.
  rewrite <- (vnorm_mul u), <- (vnorm_mul w). field. repeat split; lra.
Qed.
Definition ex_u (d : R) : R := / sqrt (4 + d * d).
Lemma chord_leg y Y nu : 1 <= 16 * ((Y - y) * (Y - y)) ->
  vdot (line_velocity (mkvec 3 y 0) (mkvec 5 Y 0) (mkvec 1 Y 0) 1 0 nu) (mkvec 0 0 1) =
  / (4 * PI) * (4 / (Y - y) * ex_u (Y - y)).
Proof.
  intros H. set (d := Y - y) in *. assert (Hd : d <> 0) by (intros X; rewrite X in H; lra).
  assert (0 <= d * d) by nra. assert (Hs : 0 < sqrt (4 + d * d)) by (apply sqrt_lt_R0; lra).
  rewrite line_velocity_dot.
  - replace (vsub (mkvec 5 Y 0) (mkvec 3 y 0)) with (mkvec 2 d 0) by (vunfold; apply vec_ext; cbn; unfold d; lra).
    replace (vsub (mkvec 1 Y 0) (mkvec 3 y 0)) with (mkvec (-2) d 0) by (vunfold; apply vec_ext; cbn; unfold d; lra).
    assert (N : forall x, x * x = 4 -> vnorm (mkvec x d 0) = sqrt (4 + d * d)).
    { intros x Hx. unfold vnorm, vdot; cbn. f_equal. lra. }
    rewrite !N by lra. unfold ex_u. clearbody d. unfold vdot, vcross; cbn. f_equal. pose proof PI_RGT_0. field. repeat split; lra.
  - apply regular_if; vunfold; unfold d in *; nra.
Qed.
Lemma chord_leg_back y Y nu : 1 <= 16 * ((Y - y) * (Y - y)) ->
  vdot (line_velocity (mkvec 3 y 0) (mkvec 1 Y 0) (mkvec 5 Y 0) 1 0 nu) (mkvec 0 0 1) =
  - (/ (4 * PI) * (4 / (Y - y) * ex_u (Y - y))).
Proof.
  intros H. rewrite line_velocity_reverse, vopp_scale, vdot_scale_l, chord_leg by exact H. ring.
Qed.
Lemma front_leg y y0 y1 nu : 1 <= y1 - y0 ->
  vdot (line_velocity (mkvec 3 y 0) (mkvec 1 y1 0) (mkvec 1 y0 0) 1 0 nu) (mkvec 0 0 1) =
  / (4 * PI) * (/ 2 * ((y1 - y) * ex_u (y1 - y) - (y0 - y) * ex_u (y0 - y))).
Proof.
  intros H.
  assert (Hs : forall d, 0 < sqrt (4 + d * d)) by (intros d; apply sqrt_lt_R0; nra).
  rewrite line_velocity_dot.
  - replace (vsub (mkvec 1 y1 0) (mkvec 3 y 0)) with (mkvec (-2) (y1 - y) 0) by (vunfold; apply vec_ext; cbn; lra).
    replace (vsub (mkvec 1 y0 0) (mkvec 3 y 0)) with (mkvec (-2) (y0 - y) 0) by (vunfold; apply vec_ext; cbn; lra).
    set (d1 := y1 - y). set (d0 := y0 - y). assert (Hd : 1 <= d1 - d0) by (unfold d1, d0; lra). clearbody d1 d0.
    assert (N : forall d, vnorm (mkvec (-2) d 0) = sqrt (4 + d * d)).
    { intros d. unfold vnorm, vdot; cbn. f_equal. lra. }
    rewrite !N. unfold ex_u. unfold vdot, vcross; cbn. f_equal. pose proof (Hs d1); pose proof (Hs d0). field. repeat split; try lra.
  - assert (Q : forall t, 0 <= t * t) by (intros; nra). apply regular_if; vunfold; [pose proof (Q (y1 - y)); lra | pose proof (Q (y0 - y)); lra|]. replace (_ + _ + _) with (4 * ((y1 - y0) * (y1 - y0))) by ring. nra.
Qed.
(** legs along z have no z velocity, legs in the plane nothing but z velocity *)
Lemma vertical_leg_z p x y z z' nu g : vdot (line_velocity p (mkvec x y z) (mkvec x y z') g 0 nu) (mkvec 0 0 1) = 0.
Proof.
  destruct (singular p (mkvec x y z) (mkvec x y z')) eqn:E.
  - rewrite line_velocity_singular by exact E. apply vdot_0_l.
  - rewrite line_velocity_regular by exact E. rewrite vdot_scale_l. destruct p as [px py pz]. unfold vdot, vcross; cbn. ring.
Qed.
Lemma flat_leg_y x y ax ay bx by_ nu g : vdot (line_velocity (mkvec x y 0) (mkvec ax ay 0) (mkvec bx by_ 0) g 0 nu) (mkvec 0 1 0) = 0.
Proof.
  destruct (singular (mkvec x y 0) (mkvec ax ay 0) (mkvec bx by_ 0)) eqn:E.
  - rewrite line_velocity_singular by exact E. apply vdot_0_l.
  - rewrite line_velocity_regular by exact E. rewrite vdot_scale_l. unfold vdot, vcross; cbn. ring.
Qed.
Definition ex_w (d : R) : R := / ((4 + d * d) * sqrt (3604 + d * d)).
Lemma up_leg_y Y nu :
  vdot (line_velocity (mkvec 3 1 0) (mkvec 5 Y 0) (mkvec 5 Y 60) 1 0 nu) (mkvec 0 1 0) = / (4 * PI) * (- 120 * ex_w (Y - 1)).
Proof.
  assert (Hs : forall d, 0 < sqrt (4 + d * d)) by (intros d; apply sqrt_lt_R0; nra).
  assert (Ht : forall d, 0 < sqrt (3604 + d * d)) by (intros d; apply sqrt_lt_R0; nra).
  rewrite line_velocity_dot.
  - replace (vsub (mkvec 5 Y 0) (mkvec 3 1 0)) with (mkvec 2 (Y - 1) 0) by (vunfold; apply vec_ext; cbn; lra).
    replace (vsub (mkvec 5 Y 60) (mkvec 3 1 0)) with (mkvec 2 (Y - 1) 60) by (vunfold; apply vec_ext; cbn; lra).
    set (d := Y - 1). clearbody d.
    assert (N : vnorm (mkvec 2 d 0) = sqrt (4 + d * d)) by (unfold vnorm, vdot; cbn; f_equal; lra).
    assert (M : vnorm (mkvec 2 d 60) = sqrt (3604 + d * d)) by (unfold vnorm, vdot; cbn; f_equal; lra).
    rewrite N, M. unfold ex_w. unfold vdot, vcross; cbn. f_equal. pose proof (Hs d); pose proof (Ht d). field. repeat split; try lra; nra.
  - apply regular_if; vunfold; nra.
Qed.
Lemma down_leg_y Y nu :
  vdot (line_velocity (mkvec 3 1 0) (mkvec 5 Y 60) (mkvec 5 Y 0) 1 0 nu) (mkvec 0 1 0) = / (4 * PI) * (120 * ex_w (Y - 1)).
Proof. rewrite line_velocity_reverse, vopp_scale, vdot_scale_l, up_leg_y. ring. Qed.

(** Normal velocity of a unit ring with its trailing horseshoe at (3, y, 0). *)
Definition ex2_normal (y y0 y1 : R) : R :=
  4 / (y1 - y) * ex_u (y1 - y) - 4 / (y0 - y) * ex_u (y0 - y) + / 2 * ((y1 - y) * ex_u (y1 - y) - (y0 - y) * ex_u (y0 - y)).
Lemma ex2_influence y y0 y1 p : 1 <= y1 - y0 -> 1 <= 16 * ((y1 - y) * (y1 - y)) -> 1 <= 16 * ((y0 - y) * (y0 - y)) ->
  vdot (ring_row_velocity (mkvec 3 y 0) (ex2_ring_row y0 y1 p) 1 1) (mkvec 0 0 1) = / (4 * PI) * ex2_normal y y0 y1.
Proof.
  intros H H1 H0. unfold ring_row_velocity, quad_velocity, shoe_velocity.
  unfold rr_back_right, rr_front_right, rr_front_left, rr_back_left.
  cbn [ex2_ring_row rr_vortex rr_hs_back_right rr_hs_front_right rr_hs_front_left rr_hs_back_left new_ring rv_right_leg rv_left_leg new_line_vortex lv_origin lv_termination].
  rewrite !vdot_add_l, chord_leg, chord_leg_back, front_leg, !vertical_leg_z by assumption.
  rewrite (line_velocity_reverse _ (mkvec 5 y1 0) (mkvec 5 y0 0)), vopp_scale, vdot_scale_l.
  unfold ex2_normal. ring.
Qed.
(** Sideways velocity at the middle of the shared leg. *)
Lemma ex2_sideways y0 y1 p g :
  vdot (ring_row_velocity (mkvec 3 1 0) (ex2_ring_row y0 y1 p) g g) (mkvec 0 1 0) =
  g * (/ (4 * PI) * (120 * (ex_w (y1 - 1) - ex_w (y0 - 1)))).
Proof.
  replace g with (g * 1) at 1 2 by ring. rewrite ring_row_velocity_linear, vdot_scale_l. f_equal.
  unfold ring_row_velocity, quad_velocity, shoe_velocity.
  unfold rr_back_right, rr_front_right, rr_front_left, rr_back_left.
  cbn [ex2_ring_row rr_vortex rr_hs_back_right rr_hs_front_right rr_hs_front_left rr_hs_back_left new_ring rv_right_leg rv_left_leg new_line_vortex lv_origin lv_termination].
  rewrite !vdot_add_l, !flat_leg_y, up_leg_y, down_leg_y. ring.
Qed.
Lemma inv_sqrt_bounds x lo hi : 0 < lo -> 0 < hi -> 0 < x -> lo * lo * x <= 1 -> 1 <= hi * hi * x -> lo <= / sqrt x <= hi.
Proof.
  intros Hl Hh Hx H1 H2. assert (Hs : 0 < sqrt x) by (apply sqrt_lt_R0; lra). assert (Q : sqrt x * sqrt x = x) by (apply sqrt_sqrt; lra).
  assert (Hi : / sqrt x * sqrt x = 1) by (field; lra). assert (0 < / sqrt x) by (apply Rinv_0_lt_compat; lra).
  assert (Hy : / sqrt x * / sqrt x * x = 1) by (rewrite <- Q at 3; field; lra).
  split; apply Rnot_lt_le; intros C.
  - assert (/ sqrt x * / sqrt x < lo * lo) by nra. nra.
  - assert (hi * hi < / sqrt x * / sqrt x) by nra. nra.
Qed.
Lemma ex2_numbers :
  let a11 := ex2_normal (1 / 2) 0 1 in let a12 := ex2_normal (1 / 2) 1 3 in
  let a21 := ex2_normal 2 0 1 in let a22 := ex2_normal 2 1 3 in
  0 < a22 - a12 /\ a22 - a12 < a11 - a21 /\ 0 < a11 /\ 0 < a22 /\ a12 < 0 /\ a21 < 0 /\ a12 * a21 < a11 * a22.
Proof.
  cbv zeta. unfold ex2_normal.
  assert (S : forall d, ex_u (- d) = ex_u d) by (intros d; unfold ex_u; do 2 f_equal; ring).
  replace (1 - 1 / 2) with (1 / 2) by lra. replace (0 - 1 / 2) with (- (1 / 2)) by lra.
  replace (3 - 1 / 2) with (5 / 2) by lra. replace (0 - 2) with (- 2) by lra. replace (1 - 2) with (- 1) by lra.
  replace (3 - 2) with 1 by lra. rewrite !S.
  replace (ex_u (-1)) with (ex_u 1) by (rewrite <- S; f_equal; lra). replace (ex_u (-2)) with (ex_u 2) by (rewrite <- S; f_equal; lra).
  assert (B1 : 4850 / 10000 <= ex_u (1 / 2) <= 4851 / 10000) by (apply inv_sqrt_bounds; lra).
  assert (B2 : 3123 / 10000 <= ex_u (5 / 2) <= 3124 / 10000) by (apply inv_sqrt_bounds; lra).
  assert (B3 : 3535 / 10000 <= ex_u 2 <= 3536 / 10000) by (apply inv_sqrt_bounds; lra).
  assert (B4 : 4472 / 10000 <= ex_u 1 <= 4473 / 10000) by (apply inv_sqrt_bounds; lra).
  set (u1 := ex_u (1 / 2)) in *. set (u2 := ex_u (5 / 2)) in *. set (u3 := ex_u 2) in *. set (u4 := ex_u 1) in *. clearbody u1 u2 u3 u4. clear S.
  replace (4 / (1 / 2)) with 8 by field. replace (4 / (- (1 / 2))) with (-8) by field. replace (4 / (5 / 2)) with (8 / 5) by field.
  replace (4 / -2) with (-2) by field. replace (4 / -1) with (-4) by field. replace (4 / 1) with 4 by field.
  split; [lra|]. split; [lra|]. split; [lra|]. split; [lra|]. split; [lra|]. split; [lra|].
  match goal with |- ?x * ?y < ?z * ?w => assert (-4 < x < 0) by lra; assert (-2 < y < 0) by lra; assert (7 < z) by lra; assert (3 < w) by lra; nra end.
Qed.
Lemma ex_w_numbers : ex_w (3 - 1) < ex_w (0 - 1) < ex_w (1 - 1) /\ 0 < ex_w (3 - 1).
Proof.
  unfold ex_w. replace (3 - 1) with 2 by lra. replace (0 - 1) with (-1) by lra. replace (1 - 1) with 0 by lra.
  assert (forall d, 0 < sqrt (3604 + d * d)) as Hs by (intros; apply sqrt_lt_R0; nra).
  assert (sqrt (3604 + 0 * 0) < sqrt (3604 + -1 * -1)) by (apply sqrt_lt_1; lra).
  assert (sqrt (3604 + -1 * -1) < sqrt (3604 + 2 * 2)) by (apply sqrt_lt_1; lra).
  pose proof (Hs 0); pose proof (Hs (-1)); pose proof (Hs 2).
  split; [split|].
  - apply Rinv_lt_contravar; [apply Rmult_lt_0_compat; apply Rmult_lt_0_compat; lra | nra].
  - apply Rinv_lt_contravar; [apply Rmult_lt_0_compat; apply Rmult_lt_0_compat; lra | nra].
  - apply Rinv_0_lt_compat. apply Rmult_lt_0_compat; lra.
Qed.
Lemma solve_2x2 solve a b c d e f : SolveSpec solve -> a * d - b * c <> 0 ->
  solve [[a; b]; [c; d]] [e; f] = Ok [(e * d - b * f) / (a * d - b * c); (a * f - e * c) / (a * d - b * c)].
Proof.
  intros HS Hd. apply HS; [intros row [<-|[<-|[]]]; reflexivity | reflexivity|]. split; [split; [reflexivity|]|].
  - unfold matvec, rsum; cbn. f_equal; [|f_equal]; field; exact Hd.
  - intros y [Ly Ey]. destruct y as [|x [|y [|]]]; try discriminate Ly. unfold matvec, rsum in Ey; cbn in Ey.
    injection Ey as E1 E2. f_equal; [|f_equal]; rewrite <- E1, <- E2; field; exact Hd.
Qed.

(** ** The solved wing *)
Lemma ex2_fresh op : fresh_ring (ring_new [ex2_airplane] op).
Proof. apply ring_new_fresh. intros a [<-|[]]. apply (proj2 ex2_well_meshed). Qed.
Lemma ex2_meshed : forall a w, In a [ex2_airplane] -> In w (a_wings a) -> well_meshed (w_panels w).
Proof. intros a w [<-|[]]. apply (proj1 ex2_well_meshed). Qed.
Lemma ex2_run solve rho v : SolveSpec solve -> v <> 0 ->
  exists s' p q x1 x2, ring_run solve (ring_new [ex2_airplane] (ex2_op rho v)) = Ok s' /\
    rso_strengths s' = [x1; x2] /\ rso_rows s' = [ex2_ring_row 0 1 p; ex2_ring_row 1 3 q] /\
    0 < x1 * x2 /\ x1 * x1 < x2 * x2.
Proof.
  intros HS Hv. set (s := ring_new [ex2_airplane] (ex2_op rho v)).
  destruct (ring_run_total solve s HS) as (l0 & rows & E0 & Er & Hrun).
  - apply fresh_sized, ex2_fresh.
  - exact ex2_meshed.
  - destruct (ex2_rows _ _ _ _ E0 Er) as (p & q & Hp & Hq & ->).
    assert (H01 : 0 < 1) by lra. assert (H13 : 1 < 3) by lra.
    destruct (plain_points 0 1 true false 0 0 H01) as (Cp & Np & _ & _).
    destruct (plain_points 1 3 false true 0 1 H13) as (Cq & Nq & _ & _).
    destruct (same_panel_collocation _ _ Hp) as [Hpc Hpn]. rewrite Cp in Hpc. rewrite Np in Hpn.
    destruct (same_panel_collocation _ _ Hq) as [Hqc Hqn]. rewrite Cq in Hqc. rewrite Nq in Hqn.
    replace ((0 + 1) / 2) with (1 / 2) in Hpc by lra. replace ((1 + 3) / 2) with 2 in Hqc by lra.
    destruct ex2_numbers as (B1 & B2 & B3 & B4 & B5 & B6 & B7).
    set (a11 := ex2_normal (1 / 2) 0 1) in *. set (a12 := ex2_normal (1 / 2) 1 3) in *.
    set (a21 := ex2_normal 2 0 1) in *. set (a22 := ex2_normal 2 1 3) in *.
    pose (k := / (4 * PI)). assert (Hk : 0 < k) by (unfold k; apply Rinv_0_lt_compat; pose proof PI_RGT_0; lra).
    set (det := k * a11 * (k * a22) - k * a12 * (k * a21)).
    assert (Hdet : 0 < det).
    { unfold det. replace (k * a11 * (k * a22) - k * a12 * (k * a21)) with (k * k * (a11 * a22 - a12 * a21)) by ring.
      apply Rmult_lt_0_compat; [apply Rmult_lt_0_compat; lra | lra]. }
    destruct (Hrun [(- v * (k * a22) - k * a12 * - v) / det; (k * a11 * - v - - v * (k * a21)) / det]) as (s' & E & Hs').
    + change (rso_strengths s) with (repeat 1 2). change (rso_hs_strengths s) with (repeat 0 2).
      rewrite ring_influences_explicit; [| |reflexivity].
      2:{ eapply Forall_impl with (P := row_ok); [auto|].
          apply ring_collapse_ok in Er. clear -Er. inversion Er as [|? ? ? ? [H1 _] Er2]; subst. inversion Er2 as [|? ? ? ? [H2 _] Er3]; subst. inversion Er3; subst.
          repeat constructor; apply H1 || apply H2. }
      cbn [map]. unfold freestream_influences; cbn [map]. unfold rr_normal, rr_collocation.
      change (rr_panel (ex2_ring_row 0 1 p)) with p. change (rr_panel (ex2_ring_row 1 3 q)) with q.
      rewrite Hpc, Hpn, Hqc, Hqn. rewrite !ex2_influence by lra. fold a11 a12 a21 a22 k.
      replace (vdot (mkvec 0 0 1) (rso_freestream s)) with v.
      * apply solve_2x2; [exact HS|]. fold det. lra.
      * unfold s; cbn [ring_new rso_freestream]. unfold freestream_velocity. rewrite ex2_direction. cbn. clear. vunfold. lra.
    + pose proof (ring_run_inv _ _ _ E) as (l0' & l1 & loads & I0 & Ir & _).
      rewrite E0 in I0. injection I0 as <-. rewrite Er in Ir. injection Ir as Ir.
      exists s', p, q. do 2 eexists. split; [exact E|]. split; [exact Hs'|]. split; [auto|].
      replace ((- v * (k * a22) - k * a12 * - v) / det) with (- (v * k / det) * (a22 - a12)) by (field; lra).
      replace ((k * a11 * - v - - v * (k * a21)) / det) with (- (v * k / det) * (a11 - a21)) by (field; lra).
      assert (Ht : v * k / det <> 0).
      { unfold Rdiv. repeat apply Rmult_integral_contrapositive_currified; try lra. apply Rinv_neq_0_compat; lra. }
      set (t := v * k / det) in *. clearbody t. assert (Htt : 0 < t * t) by nra.
      assert (0 < (a22 - a12) * (a11 - a21)) by (apply Rmult_lt_0_compat; lra).
      assert ((a22 - a12) * (a22 - a12) < (a11 - a21) * (a11 - a21)) by nra.
      split.
      * replace (- t * (a22 - a12) * (- t * (a11 - a21))) with (t * t * ((a22 - a12) * (a11 - a21))) by ring. apply Rmult_lt_0_compat; assumption.
      * replace (- t * (a22 - a12) * (- t * (a22 - a12))) with (t * t * ((a22 - a12) * (a22 - a12))) by ring.
        replace (- t * (a11 - a21) * (- t * (a11 - a21))) with (t * t * ((a11 - a21) * (a11 - a21))) by ring.
        apply Rmult_lt_compat_l; assumption.
Qed.

Lemma leg_is_new l a b s : leg_is l a b s -> l = new_line_vortex a b s.
Proof.
  destruct l as [o t g vv c]. unfold leg_is, new_line_vortex; cbn. intros (-> & -> & -> & -> & ->). f_equal.
  clear. unfold midpoint. vunfold. apply vec_ext; cbn; lra.
Qed.
Lemma shared_leg_counted_twice solve : SolveSpec solve ->
  exists airplanes op s' a w p q r r' v vp up vq uq fp fq,
    (forall b, In b airplanes -> well_meshed_airplane b /\ forall u, In u (a_wings b) -> spanwise_watertight (w_panels u)) /\
    ring_run solve (ring_new airplanes op) = Ok s' /\
    rso_airplanes s' = [a] /\ a_wings a = [w] /\ w_panels w = [[p; q]] /\
    p_ring_vortex p = Some r /\ p_ring_vortex q = Some r' /\
    rv_front_right r = rv_front_left r' /\ rv_back_right r = rv_back_left r' /\
    ring_solution_velocity s' [lv_center (rv_right_leg r)] = [v] /\
    ring_solution_velocity s' [lv_center (rv_front_leg r)] = [vp] /\
    ring_solution_velocity s' [lv_center (rv_left_leg r)] = [up] /\
    ring_solution_velocity s' [lv_center (rv_front_leg r')] = [vq] /\
    ring_solution_velocity s' [lv_center (rv_right_leg r')] = [uq] /\
    p_force_geometry p = Some fp /\ p_force_geometry q = Some fq /\
    let rho := op_density (rso_op s') in
    let gp := rv_strength r in
    let gq := rv_strength r' in
    let outer_p := vadd (vscale (rho * gp) (vcross vp (lv_vector (rv_front_leg r))))
                        (vscale (rho * gp) (vcross up (lv_vector (rv_left_leg r)))) in
    let outer_q := vadd (vscale (rho * gq) (vcross vq (lv_vector (rv_front_leg r'))))
                        (vscale (rho * gq) (vcross uq (lv_vector (rv_right_leg r')))) in
    let shared := vscale (rho * (gp - gq)) (vcross v (lv_vector (rv_right_leg r))) in
    shared <> vzero /\
    vadd fp fq = vadd (vadd outer_p outer_q) (vadd shared shared) /\
    vadd fp fq <> vadd (vadd outer_p outer_q) shared.
Proof.
  intros HS. assert (H1 : 1 <> 0) by lra. destruct (ex2_run solve 1 1 HS H1) as (s' & pr & qr & x1 & x2 & E & Hx & Hrows & Hpos & Hlt).
  set (s := ring_new [ex2_airplane] (ex2_op 1 1)) in *.
  pose proof (ex2_fresh (ex2_op 1 1)) as Hf. fold s in Hf. pose proof (fresh_sized _ Hf) as Hsz.
  pose proof (ring_final_strengths _ _ _ HS Hsz E) as Hst.
  pose proof (ring_run_same _ _ _ E) as Hsame. cbn [s ring_new rso_airplanes] in Hsame.
  destruct (rso_airplanes s') as [|a [|b l]] eqn:Ea; [inversion Hsame | | inversion Hsame as [|? ? ? ? ? Z]; inversion Z].
  inversion Hsame as [|? ? ? ? Ha _]; subst. destruct Ha as (Hw & _). cbn [ex2_airplane a_wings] in Hw.
  destruct (a_wings a) as [|w [|b l]] eqn:Ew; [inversion Hw | | inversion Hw as [|? ? ? ? ? Z]; inversion Z].
  inversion Hw as [|? ? ? ? [_ Hm] _]; subst. cbn [ex2_wing w_panels] in Hm.
  destruct (w_panels w) as [|row [|b l]] eqn:Em; [inversion Hm | | inversion Hm as [|? ? ? ? ? Z]; inversion Z].
  inversion Hm as [|? ? ? ? Hrow _]; subst. unfold ex2_row in Hrow.
  destruct row as [|p [|q [|b l]]]; [inversion Hrow | inversion Hrow as [|? ? ? ? ? Z]; inversion Z | | inversion Hrow as [|? ? ? ? ? Z]; inversion Z as [|? ? ? ? ? Z']; inversion Z'].
  assert (Hstr : map (fun p => option_map rv_strength (p_ring_vortex p)) [p; q] = [Some x1; Some x2]).
  { rewrite Hx in Hst. etransitivity; [|exact Hst]. unfold all_panels, airplane_panels. cbn [map]. rewrite Ew. cbn [map]. rewrite Em. reflexivity. }
  destruct (ring_shared_leg_twice solve s s' HS Hsz) with (a := a) (w := w) (c := 0%nat) (j := 0%nat) (p := p) (q := q)
    as (r & r' & v & vp & up & vq & uq & Hr & Hr' & S1 & S2 & V1 & V2 & V3 & V4 & V5 & F1 & F2).
  - intros a0 w0 [<-|[]] [<-|[]]. split; [apply (proj1 ex2_well_meshed); left; reflexivity | exact ex2_watertight].
  - exact E.
  - rewrite Ea; left; reflexivity.
  - rewrite Ew; left; reflexivity.
  - rewrite Em. exists [p; q]; split; reflexivity.
  - rewrite Em. exists [p; q]; split; reflexivity.
  - cbn [map] in Hstr. rewrite Hr, Hr' in Hstr. cbn in Hstr. injection Hstr as G1 G2.
    exists [ex2_airplane], (ex2_op 1 1), s', a, w, p, q, r, r', v, vp, up, vq, uq. do 2 eexists.
    split. { intros b [<-|[]]. split; [exact ex2_well_meshed|]. intros u [<-|[]]. exact ex2_watertight. }
    split; [exact E|]. split; [exact Ea|]. split; [exact Ew|]. split; [exact Em|]. repeat (split; [eassumption|]).
    cbv zeta.
    assert (N1 : net_front (w_panels w) 0 0 = rv_strength r) by (unfold net_front, circulation; rewrite Em; cbn; rewrite Hr; ring).
    assert (N2 : net_left (w_panels w) 0 0 = rv_strength r) by (unfold net_left, circulation; rewrite Em; cbn; rewrite Hr; ring).
    assert (N3 : net_front (w_panels w) 0 1 = rv_strength r') by (unfold net_front, circulation; rewrite Em; cbn; rewrite Hr'; ring).
    assert (N4 : net_right (w_panels w) 0 1 = rv_strength r') by (unfold net_right, circulation; rewrite Em; cbn; rewrite Hr'; ring).
    rewrite N1, N2, N3, N4.
    pose proof (ring_run_inv _ _ _ E) as (l0 & l1 & loads & I0 & Ir & Iop & Ifs & _).
    set (shared := vscale (op_density (rso_op s') * (rv_strength r - rv_strength r')) (vcross v (lv_vector (rv_right_leg r)))).
    assert (Hsh : shared <> vzero).
    { unfold shared. rewrite Iop. cbn [s ring_new rso_op ex2_op op_density].
      destruct (ring_final_wing _ _ _ a w E) as (a0 & w0 & Ha0 & Hw0 & _ & Hpp); [rewrite Ea; left; reflexivity | rewrite Ew; left; reflexivity|].
      destruct Ha0 as [<-|[]]. destruct Hw0 as [<-|[]].
      destruct (Hpp 0%nat 0%nat p) as (p0 & q0 & (row & Hrow0 & Hp0) & Hinit & [_ Hstay] & _); [rewrite Em; exists [p; q]; split; reflexivity|].
      injection Hrow0 as <-. injection Hp0 as <-.
      assert (Hring : rv_right_leg r = new_line_vortex (mkvec 5 1 0) (mkvec 1 1 0) x1).
      { destruct (ring_kutta_joukowski solve s s' HS Hsz ex2_meshed E a w 0 0 p) as (r1 & _ & _ & _ & Hr1 & Cr & _).
        { rewrite Ea; left; reflexivity. } { rewrite Ew; left; reflexivity. } { rewrite Em; exists [p; q]; split; reflexivity. }
        rewrite Hr in Hr1. injection Hr1 as <-. destruct Cr as (_ & _ & _ & C & _).
        cbn in Hinit. injection Hinit as <-. cbn in Hstay.
        destruct (Hstay _ eq_refl) as (r1 & Hr1 & Epos). rewrite Hr in Hr1. injection Hr1 as <-.
        unfold ring_position in Epos. injection Epos as _ P2 _ P4.
        assert (H01 : 0 < 1) by lra. destruct (plain_points 0 1 true false 0 0 H01) as (_ & _ & Hfr & Hfl).
        assert (Q2 : rv_front_right r = mkvec 1 1 0) by (rewrite P2; exact Hfr).
        assert (Q4 : rv_back_right r = mkvec 5 1 0).
        { rewrite P4. cbn. apply vec_ext; cbn; lra. }
        rewrite (leg_is_new _ _ _ _ C), Q2, Q4, G1. reflexivity. }
      rewrite Hring. cbn [new_line_vortex lv_vector].
      assert (Hvy : vy v <> 0).
      { destruct (ring_solution solve s s' HS Hf E) as (_ & _ & Hvel & _).
        rewrite Hvel in V1. injection V1 as V1. rewrite Hring in V1. cbn [new_line_vortex lv_center] in V1.
        replace (vadd (mkvec 5 1 0) (vscale _ _)) with (mkvec 3 1 0) in V1 by (clear; vunfold; apply vec_ext; cbn; lra).
        assert (Y : vy v = vdot v (mkvec 0 1 0)) by (clear; vunfold; ring). rewrite Y, <- V1.
        rewrite Hrows, Hx. cbn [combine map fst snd]. rewrite !vsum_cons, vsum_nil, vadd_0_r, !vdot_add_l, !ex2_sideways.
        rewrite Ifs. replace (vdot (rso_freestream s) (mkvec 0 1 0)) with 0.
        2:{ unfold s; cbn [ring_new rso_freestream]. unfold freestream_velocity. rewrite ex2_direction. cbn. clear. vunfold. ring. }
        destruct ex_w_numbers as [[W1 W2] W3]. set (w0 := ex_w (1 - 1)) in *. set (w1 := ex_w (0 - 1)) in *. set (w2 := ex_w (3 - 1)) in *.
        pose (k := / (4 * PI)). fold k. assert (Hk : 0 < k) by (unfold k; apply Rinv_0_lt_compat; pose proof PI_RGT_0; lra).
        clearbody w0 w1 w2 k. intros X.
        assert (X' : k * (x1 * (w0 - w1) - x2 * (w0 - w2)) = 0) by lra.
        apply Rmult_integral in X'. destruct X' as [X'|X']; [lra|].
        assert (X2 : x1 * (x1 * (w0 - w1) - x2 * (w0 - w2)) = 0) by (rewrite X'; ring).
        assert (X3 : x2 * (x1 * (w0 - w1) - x2 * (w0 - w2)) = 0) by (rewrite X'; ring).
        assert (Y1 : 0 < (x1 * x2) * (w1 - w2)) by (apply Rmult_lt_0_compat; lra).
        assert (Y2 : 0 <= (x2 * x2) * (w1 - w2)) by (apply Rmult_le_pos; [apply Rle_0_sqr | lra]).
        assert (Y3 : 0 < (x2 * x2 - x1 * x1) * (w0 - w1)) by (apply Rmult_lt_0_compat; lra). lra. }
      intros X. apply (f_equal vz) in X. cbn in X.
      assert (Hne : x1 - x2 <> 0) by nra. rewrite G1, G2 in X.
      assert (X' : (x1 - x2) * vy v = 0) by (clear -X; lra). apply Rmult_integral in X'. tauto. }
    split; [exact Hsh|]. split; [clear; vring|].
    intros X. apply Hsh. clear -X.
    match type of X with vadd (vadd (vadd ?a ?b) ?c) (vadd (vadd ?d ?e) ?c') = _ => set (A := a) in *; set (B := b) in *; set (D := d) in *; set (F := e) in * end.
    assert (Y : forall u z : vec, vadd u z = u -> z = vzero) by (intros u z Z; assert (Z' := f_equal (fun t => vsub t u) Z); cbv beta in Z'; transitivity (vsub (vadd u z) u); [vring | rewrite Z'; vring]).
    apply (Y (vadd (vadd (vadd A B) (vadd D F)) shared)). rewrite <- X at 2. vring.
Qed.
