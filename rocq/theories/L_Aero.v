From Verif Require Export L_Rotations M_Aero S_Vortices.

(** ** Vortex objects *)
Lemma new_line_is a b s : leg_is (new_line_vortex a b s) a b s.
Proof.
  unfold leg_is, new_line_vortex; cbn; repeat split. unfold midpoint; vfield.
Qed.
Lemma set_strength_is l a b s s' : leg_is l a b s -> leg_is (line_set_strength s' l) a b s'.
Proof. unfold leg_is, line_set_strength; cbn; intuition. Qed.
Lemma centroid_is fl fr bl br :
  centroid_of_quadrilateral fl fr bl br = vscale (/ 4) (vadd (vadd fl fr) (vadd bl br)).
Proof. unfold centroid_of_quadrilateral; vfield. Qed.
Lemma new_ring_consistent fl fr bl br s : ring_consistent (new_ring fl fr bl br s).
Proof.
  unfold ring_consistent, new_ring; cbn [rv_front_leg rv_left_leg rv_back_leg rv_right_leg rv_front_left
    rv_front_right rv_back_left rv_back_right rv_strength rv_center].
  repeat split; try apply new_line_is. apply centroid_is.
Qed.
Lemma ring_step_consistent r o : ring_consistent r -> ring_consistent (ring_step r o).
Proof.
  intros (H1 & H2 & H3 & H4 & H5). destruct o as [s|fl fr bl br|a]; unfold ring_consistent, ring_step.
  - cbn [ring_update_strength rv_front_leg rv_left_leg rv_back_leg rv_right_leg rv_front_left
    rv_front_right rv_back_left rv_back_right rv_strength rv_center].
    repeat split; try (eapply set_strength_is; eassumption); exact H5.
  - cbn [ring_update_position rv_front_leg rv_left_leg rv_back_leg rv_right_leg rv_front_left
    rv_front_right rv_back_left rv_back_right rv_strength rv_center].
    repeat split; try apply new_line_is. apply centroid_is.
  - cbn [ring_set_age rv_front_leg rv_left_leg rv_back_leg rv_right_leg rv_front_left
    rv_front_right rv_back_left rv_back_right rv_strength rv_center]. auto.
Qed.
Lemma ring_history fl fr bl br s ops :
  let r := fold_left ring_step ops (new_ring fl fr bl br s) in
  ring_consistent r /\
  rv_strength r = last_strength s ops /\
  rv_age r = last_age 0 ops /\
  ring_position r = last_position (fl, fr, bl, br) ops.
Proof.
  cbn zeta.
  assert (G : forall r0, ring_consistent r0 ->
    let r := fold_left ring_step ops r0 in
    ring_consistent r /\ rv_strength r = last_strength (rv_strength r0) ops /\
    rv_age r = last_age (rv_age r0) ops /\ ring_position r = last_position (ring_position r0) ops).
  { cbn zeta; induction ops as [|o ops IH]; intros r0 H0.
    - cbn; auto.
    - cbn [fold_left]. specialize (IH _ (ring_step_consistent _ o H0)).
      destruct IH as (I1 & I2 & I3 & I4).
      unfold last_strength, last_age, last_position in *; cbn [fold_left].
      rewrite I2, I3, I4. destruct o; cbn; auto. }
  apply (G (new_ring fl fr bl br s)), new_ring_consistent.
Qed.
Lemma new_horseshoe_consistent o t s d len : horseshoe_consistent (new_horseshoe o t s d len).
Proof.
  unfold horseshoe_consistent, new_horseshoe; cbn [hs_infinite_leg_length hs_infinite_leg_direction
   hs_right_leg hs_finite_leg hs_left_leg hs_finite_leg_origin hs_finite_leg_termination hs_strength
   hs_right_leg_origin hs_left_leg_termination].
  repeat split; try apply new_line_is.
Qed.
Lemma hs_update_consistent h s :
  horseshoe_consistent h -> horseshoe_consistent (hs_update_strength s h) /\
  hs_strength (hs_update_strength s h) = s /\
  hs_finite_leg_origin (hs_update_strength s h) = hs_finite_leg_origin h /\
  hs_finite_leg_termination (hs_update_strength s h) = hs_finite_leg_termination h.
Proof.
  intros (H1 & H2 & H3 & H4 & H5). unfold horseshoe_consistent, hs_update_strength; cbn [hs_infinite_leg_length hs_infinite_leg_direction
   hs_right_leg hs_finite_leg hs_left_leg hs_finite_leg_origin hs_finite_leg_termination hs_strength
   hs_right_leg_origin hs_left_leg_termination].
  repeat split; auto; try (eapply set_strength_is; eassumption).
Qed.
Lemma horseshoe_history o t s d len ss :
  let h := fold_left (fun h s => hs_update_strength s h) ss (new_horseshoe o t s d len) in
  horseshoe_consistent h /\ hs_strength h = last ss s /\
  hs_finite_leg_origin h = o /\ hs_finite_leg_termination h = t /\
  hs_infinite_leg_direction h = d /\ hs_infinite_leg_length h = len.
Proof.
  cbn zeta.
  assert (G : forall h0, horseshoe_consistent h0 ->
    let h := fold_left (fun h s => hs_update_strength s h) ss h0 in
    horseshoe_consistent h /\ hs_strength h = last ss (hs_strength h0) /\
    hs_finite_leg_origin h = hs_finite_leg_origin h0 /\
    hs_finite_leg_termination h = hs_finite_leg_termination h0 /\
    hs_infinite_leg_direction h = hs_infinite_leg_direction h0 /\
    hs_infinite_leg_length h = hs_infinite_leg_length h0).
  { cbn zeta; induction ss as [|x xs IH]; intros h0 H0; [cbn; auto 7|].
    cbn [fold_left]. destruct (hs_update_consistent h0 x H0) as (Hc & Hs & _).
    destruct (IH _ Hc) as (I1 & I2 & I3 & I4 & I5 & I6).
    repeat split; auto; try apply I1. rewrite I2, Hs. destruct xs as [|y ys]; [reflexivity|].
    cbn [last]. clear. revert y; induction ys as [|z zs IH]; intros y; [reflexivity|]. cbn [last] in *. apply IH. }
  apply (G _ (new_horseshoe_consistent o t s d len)).
Qed.

(** ** One filament *)
Definition singular (p a b : vec) : bool :=
  Rltb (vnorm (vsub a p)) eps || Rltb (vnorm (vsub b p)) eps
  || Rltb (vnorm (vcross (vsub a p) (vsub b p)) ^ 2) eps.

Lemma line_velocity_singular p a b g age nu :
  singular p a b = true -> line_velocity p a b g age nu = vzero.
Proof. intros H; unfold line_velocity; fold (singular p a b); rewrite H; reflexivity. Qed.

Definition line_coefficient (p a b : vec) (g age nu : R) : R :=
  g / (4 * PI) * (vnorm (vsub a p) + vnorm (vsub b p))
  * (vnorm (vsub a p) * vnorm (vsub b p) - vdot (vsub a p) (vsub b p))
  / (vnorm (vsub a p) * vnorm (vsub b p) *
     (vnorm (vcross (vsub a p) (vsub b p)) ^ 2 + vnorm (vsub b a) ^ 2 * core_radius g age nu ^ 2)).
Lemma line_velocity_regular p a b g age nu :
  singular p a b = false ->
  line_velocity p a b g age nu = vscale (line_coefficient p a b g age nu) (vcross (vsub a p) (vsub b p)).
Proof. intros H; unfold line_velocity; fold (singular p a b); rewrite H; reflexivity. Qed.

Lemma eps_pos : 0 < eps.
Proof. unfold eps; apply Rinv_0_lt_compat, pow_lt; lra. Qed.

Lemma regular_nonzero p a b : singular p a b = false ->
  0 < vnorm (vsub a p) /\ 0 < vnorm (vsub b p) /\ 0 < vnorm (vcross (vsub a p) (vsub b p)) ^ 2.
Proof.
  unfold singular; intros H. apply orb_false_iff in H as [H H3]. apply orb_false_iff in H as [H1 H2].
  apply Rltb_false in H1, H2, H3. pose proof eps_pos. lra.
Qed.
Lemma regular_denominator p a b g age nu : singular p a b = false ->
  0 < vnorm (vsub a p) * vnorm (vsub b p) *
     (vnorm (vcross (vsub a p) (vsub b p)) ^ 2 + vnorm (vsub b a) ^ 2 * core_radius g age nu ^ 2).
Proof.
  intros H; destruct (regular_nonzero _ _ _ H) as (H1 & H2 & H3).
  apply Rmult_lt_0_compat; [apply Rmult_lt_0_compat; assumption|].
  pose proof (pow2_ge_0 (vnorm (vsub b a) * core_radius g age nu)).
  replace (vnorm (vsub b a) ^ 2 * core_radius g age nu ^ 2) with ((vnorm (vsub b a) * core_radius g age nu) ^ 2) by ring.
  lra.
Qed.

Lemma singular_on_line p a b : vcross (vsub a p) (vsub b p) = vzero -> singular p a b = true.
Proof.
  intros H; unfold singular; rewrite H, vnorm_zero.
  assert (E : Rltb (0 ^ 2) eps = true) by (apply Rltb_true; pose proof eps_pos; lra).
  rewrite E. apply orb_true_r.
Qed.
(** Every point of the line through the end points. *)
Lemma line_velocity_on_filament a b t g age nu : line_velocity (along a b t) a b g age nu = vzero.
Proof. apply line_velocity_singular, singular_on_line; unfold along; vring. Qed.

Lemma core_radius_opp g age nu : core_radius (- g) age nu = core_radius g age nu.
Proof. unfold core_radius; rewrite Rabs_Ropp; reflexivity. Qed.
Lemma core_radius_age0 g nu : core_radius g 0 nu = 0.
Proof. unfold core_radius; rewrite Rmult_0_r, sqrt_0; ring. Qed.

Lemma line_velocity_perp p a b g age nu :
  vdot (vsub p a) (line_velocity p a b g age nu) = 0 /\
  vdot (vsub p b) (line_velocity p a b g age nu) = 0 /\
  vdot (vsub b a) (line_velocity p a b g age nu) = 0.
Proof.
  destruct (singular p a b) eqn:E.
  - rewrite line_velocity_singular by exact E. rewrite !vdot_0_r; auto.
  - rewrite line_velocity_regular by exact E. rewrite !vdot_scale_r.
    set (c := line_coefficient _ _ _ _ _ _). repeat split; vring.
Qed.
Lemma line_velocity_odd p a b g age nu :
  line_velocity p a b (- g) age nu = vopp (line_velocity p a b g age nu).
Proof.
  destruct (singular p a b) eqn:E.
  - rewrite !line_velocity_singular by exact E; vring.
  - rewrite !line_velocity_regular by exact E. unfold line_coefficient. rewrite core_radius_opp.
    rewrite vopp_scale, vscale_scale; f_equal. unfold Rdiv; ring.
Qed.
Lemma singular_swap p a b : singular p b a = singular p a b.
Proof.
  unfold singular. rewrite (vcross_anti (vsub b p) (vsub a p)), vnorm_opp.
  rewrite (orb_comm (Rltb (vnorm (vsub b p)) eps)); reflexivity.
Qed.
Lemma line_velocity_reverse p a b g age nu :
  line_velocity p b a g age nu = vopp (line_velocity p a b g age nu).
Proof.
  destruct (singular p a b) eqn:E.
  - rewrite !line_velocity_singular by (first [exact E | rewrite singular_swap; exact E]); vring.
  - rewrite !line_velocity_regular by (first [exact E | rewrite singular_swap; exact E]). unfold line_coefficient.
    rewrite (vcross_anti (vsub b p) (vsub a p)), vnorm_opp, (vdot_comm (vsub b p)).
    assert (Hn : vnorm (vsub a b) = vnorm (vsub b a)).
    { replace (vsub a b) with (vopp (vsub b a)) by vring. apply vnorm_opp. }
    rewrite Hn. rewrite !vopp_scale, !vscale_scale. f_equal.
    rewrite (Rmult_comm (vnorm (vsub b p)) (vnorm (vsub a p))), (Rplus_comm (vnorm (vsub b p))). ring.
Qed.
Lemma line_velocity_linear p a b k g nu :
  line_velocity p a b (k * g) 0 nu = vscale k (line_velocity p a b g 0 nu).
Proof.
  destruct (singular p a b) eqn:E.
  - rewrite !line_velocity_singular by exact E; rewrite vscale_0_r; reflexivity.
  - rewrite !line_velocity_regular by exact E. unfold line_coefficient. rewrite !core_radius_age0.
    rewrite vscale_scale; f_equal. unfold Rdiv; ring.
Qed.
Lemma line_velocity_nu_age0 p a b g nu nu' :
  line_velocity p a b g 0 nu = line_velocity p a b g 0 nu'.
Proof.
  destruct (singular p a b) eqn:E.
  - rewrite !line_velocity_singular by exact E; reflexivity.
  - rewrite !line_velocity_regular by exact E. unfold line_coefficient. rewrite !core_radius_age0; reflexivity.
Qed.
Lemma line_velocity_zero_strength p a b age nu : line_velocity p a b 0 age nu = vzero.
Proof.
  destruct (singular p a b) eqn:E; [apply line_velocity_singular; exact E|].
  rewrite line_velocity_regular by exact E. unfold line_coefficient.
  unfold Rdiv; rewrite !Rmult_0_l, vscale_0_l; reflexivity.
Qed.
(** degenerate filament *)
Lemma line_velocity_degenerate p a g age nu : line_velocity p a a g age nu = vzero.
Proof. apply line_velocity_singular, singular_on_line, vcross_self. Qed.

(** Isometries: orthogonal part [m], translation [t]. *)
Lemma line_velocity_isometry m t p a b g age nu : orthogonal m ->
  line_velocity (vadd (mvmul m p) t) (vadd (mvmul m a) t) (vadd (mvmul m b) t) g age nu
  = vscale (mdet m) (mvmul m (line_velocity p a b g age nu)).
Proof.
  intros Ho.
  assert (D : forall x y, vsub (vadd (mvmul m x) t) (vadd (mvmul m y) t) = mvmul m (vsub x y)) by (intros; vring).
  assert (Hdet : Rabs (mdet m) = 1).
  { pose proof (orthogonal_det_sqr m Ho). unfold Rabs; destruct (Rcase_abs (mdet m)); nra. }
  assert (Hc : vnorm (vcross (mvmul m (vsub a p)) (mvmul m (vsub b p))) = vnorm (vcross (vsub a p) (vsub b p))).
  { rewrite orthogonal_cross, vnorm_scale, Hdet, orthogonal_norm by exact Ho; ring. }
  assert (S : singular (vadd (mvmul m p) t) (vadd (mvmul m a) t) (vadd (mvmul m b) t) = singular p a b).
  { unfold singular. rewrite !D, !orthogonal_norm, Hc by exact Ho; reflexivity. }
  destruct (singular p a b) eqn:E.
  - rewrite !line_velocity_singular by congruence. rewrite mvmul_zero, vscale_0_r; reflexivity.
  - rewrite !line_velocity_regular by congruence. unfold line_coefficient.
    rewrite !D, !orthogonal_norm, Hc, Ho by exact Ho.
    rewrite (orthogonal_cross m) by exact Ho.
    rewrite mvmul_scale, !vscale_scale. f_equal; ring.
Qed.

(** The code's closed form is the textbook law when there is no core. *)
Lemma line_velocity_biot_savart p a b g nu : singular p a b = false ->
  line_velocity p a b g 0 nu = biot_savart p a b g.
Proof.
  intros E. rewrite line_velocity_regular by exact E.
  destruct (regular_nonzero _ _ _ E) as (H1 & H2 & H3).
  unfold line_coefficient, biot_savart. rewrite core_radius_age0.
  assert (Ea : vnorm (vsub p a) = vnorm (vsub a p))
    by (replace (vsub p a) with (vopp (vsub a p)) by vring; apply vnorm_opp).
  assert (Eb : vnorm (vsub p b) = vnorm (vsub b p))
    by (replace (vsub p b) with (vopp (vsub b p)) by vring; apply vnorm_opp).
  assert (Ec : vcross (vsub p a) (vsub p b) = vcross (vsub a p) (vsub b p)) by vring.
  rewrite Ea, Eb, Ec. rewrite vnorm_sqr in *. f_equal.
  assert (D : vdot (vsub b a) (vsub (vscale (/ vnorm (vsub a p)) (vsub p a)) (vscale (/ vnorm (vsub b p)) (vsub p b)))
    = (vnorm (vsub a p) + vnorm (vsub b p)) * (vnorm (vsub a p) * vnorm (vsub b p) - vdot (vsub a p) (vsub b p))
      / (vnorm (vsub a p) * vnorm (vsub b p))).
  { rewrite vdot_sub_r, !vdot_scale_r.
    assert (Da : vdot (vsub b a) (vsub p a) = vnorm (vsub a p) * vnorm (vsub a p) - vdot (vsub a p) (vsub b p))
      by (rewrite vnorm_mul; vring).
    assert (Db : vdot (vsub b a) (vsub p b) = vdot (vsub a p) (vsub b p) - vnorm (vsub b p) * vnorm (vsub b p))
      by (rewrite vnorm_mul; vring).
    rewrite Da, Db. field; lra. }
  rewrite D. pose proof PI_RGT_0. field. repeat split; lra.
Qed.

(** Right-hand rule. *)
Lemma line_velocity_right_hand p a b g age nu : 0 <= g ->
  0 <= vdot (line_velocity p a b g age nu) (vcross (vsub p a) (vsub p b)).
Proof.
  intros Hg. destruct (singular p a b) eqn:E.
  - rewrite line_velocity_singular by exact E. rewrite vdot_0_l; lra.
  - rewrite line_velocity_regular by exact E.
    destruct (regular_nonzero _ _ _ E) as (H1 & H2 & H3).
    replace (vcross (vsub p a) (vsub p b)) with (vcross (vsub a p) (vsub b p)) by vring.
    rewrite vdot_scale_l, <- vnorm_sqr.
    apply Rmult_le_pos; [|lra]. unfold line_coefficient.
    apply Rmult_le_pos; [|left; apply Rinv_0_lt_compat, regular_denominator, E].
    pose proof PI_RGT_0.
    apply Rmult_le_pos; [apply Rmult_le_pos; [|lra]|].
    + apply Rmult_le_pos; [exact Hg|left; apply Rinv_0_lt_compat; lra].
    + pose proof (vnorm_dot_le (vsub a p) (vsub b p)). pose proof (Rle_abs (vdot (vsub a p) (vsub b p))). lra.
Qed.

(** ** Arrays *)
Lemma segments_map {A} (o t : A -> vec) (s a : A -> R) l :
  segments (map o l) (map t l) (map s l) (Some (map a l)) = map (fun x => mkseg (o x) (t x) (s x) (a x)) l.
Proof. unfold segments; rewrite !combine_map, map2_map_map; reflexivity. Qed.
Lemma repeat_map {A B} (b : B) (l : list A) : repeat b (length l) = map (fun _ => b) l.
Proof. induction l as [|x xs IH]; cbn; f_equal; auto. Qed.
Lemma segments_map_None {A} (o t : A -> vec) (s : A -> R) l :
  segments (map o l) (map t l) (map s l) None = map (fun x => mkseg (o x) (t x) (s x) 0) l.
Proof.
  unfold segments. rewrite map_length, repeat_map, !combine_map, map2_map_map; reflexivity.
Qed.

(** A quadrilateral vortex: its corners, strength and age. *)
Definition quad_velocity (x br fr fl bl : vec) (g age nu : R) : vec :=
  vadd (vadd (vadd (line_velocity x br fr g age nu) (line_velocity x fr fl g age nu))
             (line_velocity x fl bl g age nu))
       (line_velocity x bl br g age nu).
Definition shoe_velocity (x br fr fl bl : vec) (g age nu : R) : vec :=
  vadd (vadd (line_velocity x br fr g age nu) (line_velocity x fr fl g age nu))
       (line_velocity x fl bl g age nu).
Definition chordwise_velocity (x br fr fl bl : vec) (g age nu : R) : vec :=
  vadd (line_velocity x br fr g age nu) (line_velocity x fl bl g age nu).

Lemma add_rows_zeros l : add_rows (zeros (length l)) l = l.
Proof.
  unfold zeros; induction l as [|x xs IH]; cbn; [reflexivity|]. rewrite vadd_0_l; f_equal; exact IH.
Qed.
Lemma zeros_map {A} (l : list A) : zeros (length l) = map (fun _ => vzero) l.
Proof. apply repeat_map. Qed.

Section Arrays.
  Context {A : Type} (br fr fl bl : A -> vec) (s a : A -> R) (l : list A) (nu : R).

  Lemma collapsed_ring_map points :
    collapsed_ring points (map br l) (map fr l) (map fl l) (map bl l) (map s l) (Some (map a l)) nu
    = map (fun x => vsum (map (fun y => quad_velocity x (br y) (fr y) (fl y) (bl y) (s y) (a y) nu) l)) points.
  Proof.
    unfold collapsed_ring, collapsed_line; cbn [fold_left fst snd]. rewrite !segments_map, zeros_map.
    unfold add_rows; rewrite !map2_map_map. apply map_ext; intros x.
    rewrite !map_map. unfold quad_velocity, segment_velocity; cbn [sg_origin sg_termination sg_strength sg_age].
    rewrite !vsum_map_add, vadd_0_l; reflexivity.
  Qed.
  Lemma collapsed_horseshoe_map points :
    collapsed_horseshoe points (map br l) (map fr l) (map fl l) (map bl l) (map s l) (Some (map a l)) nu
    = map (fun x => vsum (map (fun y => shoe_velocity x (br y) (fr y) (fl y) (bl y) (s y) (a y) nu) l)) points.
  Proof.
    unfold collapsed_horseshoe, collapsed_line; cbn [fold_left fst snd]. rewrite !segments_map, zeros_map.
    unfold add_rows; rewrite !map2_map_map. apply map_ext; intros x.
    rewrite !map_map. unfold shoe_velocity, segment_velocity; cbn [sg_origin sg_termination sg_strength sg_age].
    rewrite !vsum_map_add, vadd_0_l; reflexivity.
  Qed.
  Lemma collapsed_chordwise_map points :
    collapsed_ring_chordwise points (map br l) (map fr l) (map fl l) (map bl l) (map s l) (Some (map a l)) nu
    = map (fun x => vsum (map (fun y => chordwise_velocity x (br y) (fr y) (fl y) (bl y) (s y) (a y) nu) l)) points.
  Proof.
    unfold collapsed_ring_chordwise, collapsed_line; cbn [fold_left fst snd]. rewrite !segments_map, zeros_map.
    unfold add_rows; rewrite !map2_map_map. apply map_ext; intros x.
    rewrite !map_map. unfold chordwise_velocity, segment_velocity; cbn [sg_origin sg_termination sg_strength sg_age].
    rewrite !vsum_map_add, vadd_0_l; reflexivity.
  Qed.
  Lemma zeros2_map (points : list vec) :
    zeros2 (length points) (length (map s l)) = map (fun _ => map (fun _ => vzero) l) points.
  Proof. unfold zeros2. rewrite repeat_map, map_length. apply map_ext; intros _; apply zeros_map. Qed.
  Lemma expanded_ring_map points :
    expanded_ring points (map br l) (map fr l) (map fl l) (map bl l) (map s l) (Some (map a l)) nu
    = map (fun x => map (fun y => quad_velocity x (br y) (fr y) (fl y) (bl y) (s y) (a y) nu) l) points.
  Proof.
    unfold expanded_ring, expanded_line; cbn [fold_left fst snd]. rewrite !segments_map, zeros2_map.
    unfold add_grids; rewrite !map2_map_map. apply map_ext; intros x.
    unfold add_rows. rewrite !map_map, !map2_map_map. apply map_ext; intros y.
    rewrite vadd_0_l; reflexivity.
  Qed.
  Lemma expanded_horseshoe_map points :
    expanded_horseshoe points (map br l) (map fr l) (map fl l) (map bl l) (map s l) (Some (map a l)) nu
    = map (fun x => map (fun y => shoe_velocity x (br y) (fr y) (fl y) (bl y) (s y) (a y) nu) l) points.
  Proof.
    unfold expanded_horseshoe, expanded_line; cbn [fold_left fst snd]. rewrite !segments_map, zeros2_map.
    unfold add_grids; rewrite !map2_map_map. apply map_ext; intros x.
    unfold add_rows. rewrite !map_map, !map2_map_map. apply map_ext; intros y.
    rewrite vadd_0_l; reflexivity.
  Qed.
End Arrays.

(** [ages=None] is the array of zeros. *)
Lemma segments_None_eq {A} (o t : A -> vec) (s : A -> R) l :
  segments (map o l) (map t l) (map s l) None = segments (map o l) (map t l) (map s l) (Some (map (fun _ => 0) l)).
Proof. rewrite segments_map, segments_map_None; reflexivity. Qed.
Section ArraysNone.
  Context {A : Type} (br fr fl bl : A -> vec) (s : A -> R) (l : list A) (nu : R).
  Lemma collapsed_ring_map_None points :
    collapsed_ring points (map br l) (map fr l) (map fl l) (map bl l) (map s l) None nu
    = map (fun x => vsum (map (fun y => quad_velocity x (br y) (fr y) (fl y) (bl y) (s y) 0 nu) l)) points.
  Proof.
    rewrite <- (collapsed_ring_map br fr fl bl s (fun _ => 0)).
    unfold collapsed_ring; cbn [fold_left fst snd]. rewrite !segments_None_eq; reflexivity.
  Qed.
  Lemma collapsed_horseshoe_map_None points :
    collapsed_horseshoe points (map br l) (map fr l) (map fl l) (map bl l) (map s l) None nu
    = map (fun x => vsum (map (fun y => shoe_velocity x (br y) (fr y) (fl y) (bl y) (s y) 0 nu) l)) points.
  Proof.
    rewrite <- (collapsed_horseshoe_map br fr fl bl s (fun _ => 0)).
    unfold collapsed_horseshoe; cbn [fold_left fst snd]. rewrite !segments_None_eq; reflexivity.
  Qed.
  Lemma expanded_ring_map_None points :
    expanded_ring points (map br l) (map fr l) (map fl l) (map bl l) (map s l) None nu
    = map (fun x => map (fun y => quad_velocity x (br y) (fr y) (fl y) (bl y) (s y) 0 nu) l) points.
  Proof.
    rewrite <- (expanded_ring_map br fr fl bl s (fun _ => 0)).
    unfold expanded_ring; cbn [fold_left fst snd]. rewrite !segments_None_eq; reflexivity.
  Qed.
  Lemma expanded_horseshoe_map_None points :
    expanded_horseshoe points (map br l) (map fr l) (map fl l) (map bl l) (map s l) None nu
    = map (fun x => map (fun y => shoe_velocity x (br y) (fr y) (fl y) (bl y) (s y) 0 nu) l) points.
  Proof.
    rewrite <- (expanded_horseshoe_map br fr fl bl s (fun _ => 0)).
    unfold expanded_horseshoe; cbn [fold_left fst snd]. rewrite !segments_None_eq; reflexivity.
  Qed.
End ArraysNone.

(** ** Vortex arrays as one list of quadrilaterals *)
Record quad : Type := mkquad { q_br : vec; q_fr : vec; q_fl : vec; q_bl : vec; q_strength : R; q_age : R }.

Lemma zip_quads br fr fl bl s a :
  length fr = length br -> length fl = length br -> length bl = length br ->
  length s = length br -> length a = length br ->
  exists qs, br = map q_br qs /\ fr = map q_fr qs /\ fl = map q_fl qs /\ bl = map q_bl qs /\
             s = map q_strength qs /\ a = map q_age qs.
Proof.
  revert fr fl bl s a; induction br as [|b br IH]; intros [|f fr] [|f' fl] [|b' bl] [|g s] [|t a]; cbn; intros; try discriminate.
  - exists []; auto 7.
  - destruct (IH fr fl bl s a) as (qs & E); try lia.
    exists (mkquad b f f' b' g t :: qs). destruct E as (-> & -> & -> & -> & -> & ->). cbn; auto 7.
Qed.

Lemma collapsed_is_sum_of_expanded_ring points br fr fl bl s ages nu i :
  length fr = length br -> length fl = length br -> length bl = length br -> length s = length br ->
  (forall a, ages = Some a -> length a = length br) ->
  nth_error (collapsed_ring points br fr fl bl s ages nu) i =
  option_map vsum (nth_error (expanded_ring points br fr fl bl s ages nu) i).
Proof.
  intros H1 H2 H3 H4 H5. destruct ages as [a|].
  - destruct (zip_quads br fr fl bl s a) as (qs & -> & -> & -> & -> & -> & ->); auto.
    rewrite collapsed_ring_map, expanded_ring_map, !nth_error_map. destruct (nth_error points i); reflexivity.
  - destruct (zip_quads br fr fl bl s (repeat 0 (length br))) as (qs & -> & -> & -> & -> & -> & _); auto using repeat_length.
    rewrite collapsed_ring_map_None, expanded_ring_map_None, !nth_error_map. destruct (nth_error points i); reflexivity.
Qed.
Lemma collapsed_is_sum_of_expanded_horseshoe points br fr fl bl s ages nu i :
  length fr = length br -> length fl = length br -> length bl = length br -> length s = length br ->
  (forall a, ages = Some a -> length a = length br) ->
  nth_error (collapsed_horseshoe points br fr fl bl s ages nu) i =
  option_map vsum (nth_error (expanded_horseshoe points br fr fl bl s ages nu) i).
Proof.
  intros H1 H2 H3 H4 H5. destruct ages as [a|].
  - destruct (zip_quads br fr fl bl s a) as (qs & -> & -> & -> & -> & -> & ->); auto.
    rewrite collapsed_horseshoe_map, expanded_horseshoe_map, !nth_error_map. destruct (nth_error points i); reflexivity.
  - destruct (zip_quads br fr fl bl s (repeat 0 (length br))) as (qs & -> & -> & -> & -> & -> & _); auto using repeat_length.
    rewrite collapsed_horseshoe_map_None, expanded_horseshoe_map_None, !nth_error_map. destruct (nth_error points i); reflexivity.
Qed.
Lemma collapsed_is_sum_of_expanded_line points segs nu i :
  nth_error (collapsed_line points segs nu) i = option_map vsum (nth_error (expanded_line points segs nu) i).
Proof.
  unfold collapsed_line, expanded_line; rewrite !nth_error_map. destruct (nth_error points i); reflexivity.
Qed.

Lemma superposition_ring points (q1 q2 : list quad) nu :
  let vel q := collapsed_ring points (map q_br q) (map q_fr q) (map q_fl q) (map q_bl q)
                              (map q_strength q) (Some (map q_age q)) nu in
  vel (q1 ++ q2) = map2 vadd (vel q1) (vel q2).
Proof.
  cbn beta zeta. rewrite !collapsed_ring_map, map2_map_map. apply map_ext; intros x.
  rewrite map_app, vsum_app; reflexivity.
Qed.
Lemma superposition_horseshoe points (q1 q2 : list quad) nu :
  let vel q := collapsed_horseshoe points (map q_br q) (map q_fr q) (map q_fl q) (map q_bl q)
                              (map q_strength q) (Some (map q_age q)) nu in
  vel (q1 ++ q2) = map2 vadd (vel q1) (vel q2).
Proof.
  cbn beta zeta. rewrite !collapsed_horseshoe_map, map2_map_map. apply map_ext; intros x.
  rewrite map_app, vsum_app; reflexivity.
Qed.
Lemma superposition_line points s1 s2 nu :
  collapsed_line points (s1 ++ s2) nu = map2 vadd (collapsed_line points s1 nu) (collapsed_line points s2 nu).
Proof.
  unfold collapsed_line; rewrite map2_map_map. apply map_ext; intros x.
  rewrite map_app, vsum_app; reflexivity.
Qed.

(** Two rings sharing an edge, the same strength, no core: only the outer
    circuit remains.  Ring 1 is (br, fr, fl, bl); ring 2 lies to its left and
    has fl, bl as its right-hand corners. *)
Lemma shared_edge_cancels x br fr fl bl fl' bl' g nu :
  vadd (quad_velocity x br fr fl bl g 0 nu) (quad_velocity x bl fl fl' bl' g 0 nu) =
  vsum [line_velocity x br fr g 0 nu; line_velocity x fr fl g 0 nu; line_velocity x fl fl' g 0 nu;
        line_velocity x fl' bl' g 0 nu; line_velocity x bl' bl g 0 nu; line_velocity x bl br g 0 nu].
Proof.
  unfold quad_velocity. rewrite (line_velocity_reverse x fl bl).
  rewrite !vsum_cons, vsum_nil. vring.
Qed.

Lemma quad_velocity_linear x br fr fl bl k g nu :
  quad_velocity x br fr fl bl (k * g) 0 nu = vscale k (quad_velocity x br fr fl bl g 0 nu).
Proof. unfold quad_velocity; rewrite !line_velocity_linear, !vscale_add; reflexivity. Qed.
Lemma shoe_velocity_linear x br fr fl bl k g nu :
  shoe_velocity x br fr fl bl (k * g) 0 nu = vscale k (shoe_velocity x br fr fl bl g 0 nu).
Proof. unfold shoe_velocity; rewrite !line_velocity_linear, !vscale_add; reflexivity. Qed.
Lemma quad_velocity_zero x br fr fl bl age nu : quad_velocity x br fr fl bl 0 age nu = vzero.
Proof. unfold quad_velocity; rewrite !line_velocity_zero_strength, !vadd_0_l; reflexivity. Qed.
Lemma shoe_velocity_zero x br fr fl bl age nu : shoe_velocity x br fr fl bl 0 age nu = vzero.
Proof. unfold shoe_velocity; rewrite !line_velocity_zero_strength, !vadd_0_l; reflexivity. Qed.
Lemma shoe_velocity_degenerate x o g age nu : shoe_velocity x o o o o g age nu = vzero.
Proof. unfold shoe_velocity; rewrite !line_velocity_degenerate, !vadd_0_l; reflexivity. Qed.

(** ** Size of the induced velocity *)
Lemma line_velocity_bound p a b g age nu :
  vnorm (line_velocity p a b g age nu) * vnorm (vcross (vsub a p) (vsub b p))
  <= Rabs g / (2 * PI) * (vnorm (vsub a p) + vnorm (vsub b p)).
Proof.
  pose proof PI_RGT_0 as Hpi. pose proof (Rabs_pos g) as Hg.
  pose proof (vnorm_nonneg (vsub a p)) as Na. pose proof (vnorm_nonneg (vsub b p)) as Nb.
  assert (Hg' : 0 <= Rabs g / (2 * PI)) by (apply Rmult_le_pos; [lra | left; apply Rinv_0_lt_compat; lra]).
  destruct (singular p a b) eqn:E.
  - rewrite line_velocity_singular by exact E. rewrite vnorm_zero, Rmult_0_l.
    apply Rmult_le_pos; lra.
  - rewrite line_velocity_regular by exact E. rewrite vnorm_scale.
    destruct (regular_nonzero _ _ _ E) as (H1 & H2 & H3).
    set (r3 := vnorm (vcross (vsub a p) (vsub b p))) in *.
    pose proof (regular_denominator p a b g age nu E) as Hd. fold r3 in Hd.
    set (K := core_radius g age nu) in *.
    unfold line_coefficient. fold r3 K.
    set (n1 := vnorm (vsub a p)) in *. set (n2 := vnorm (vsub b p)) in *.
    set (c2 := vnorm (vsub b a) ^ 2 * K ^ 2) in *.
    assert (Hc2 : 0 <= c2) by (unfold c2; apply Rmult_le_pos; apply pow2_ge_0).
    pose proof (vnorm_dot_le (vsub a p) (vsub b p)) as Hcs. fold n1 n2 in Hcs.
    set (c3 := vdot (vsub a p) (vsub b p)) in *.
    assert (Hc3 : 0 <= n1 * n2 - c3 <= 2 * (n1 * n2)).
    { pose proof (Rle_abs c3). pose proof (Rle_abs (- c3)) as H0. rewrite Rabs_Ropp in H0. split; lra. }
    unfold Rdiv. rewrite !Rabs_mult, (Rabs_pos_eq (n1 + n2)), (Rabs_pos_eq (n1 * n2 - c3)) by lra.
    rewrite (Rabs_pos_eq (/ (4 * PI))) by (left; apply Rinv_0_lt_compat; lra).
    rewrite (Rabs_pos_eq (/ (n1 * n2 * (r3 ^ 2 + c2)))) by (left; apply Rinv_0_lt_compat; exact Hd).
    assert (Hn : 0 < n1 * n2) by (apply Rmult_lt_0_compat; assumption).
    apply Rle_trans with (Rabs g * / (4 * PI) * (n1 + n2) * (2 * (n1 * n2)) * / (n1 * n2 * r3 ^ 2) * (r3 * r3)).
    + rewrite Rmult_assoc. apply Rmult_le_compat; [| nra | | right; unfold r3; reflexivity].
      * apply Rmult_le_pos; [apply Rmult_le_pos; [apply Rmult_le_pos; [apply Rmult_le_pos|]|]|]; try lra;
          left; apply Rinv_0_lt_compat; try assumption; lra.
      * apply Rmult_le_compat.
        -- apply Rmult_le_pos; [apply Rmult_le_pos; [apply Rmult_le_pos|]|]; try lra; left; apply Rinv_0_lt_compat; lra.
        -- left; apply Rinv_0_lt_compat; exact Hd.
        -- apply Rmult_le_compat_l; [|lra].
           apply Rmult_le_pos; [apply Rmult_le_pos|]; try lra; left; apply Rinv_0_lt_compat; lra.
        -- apply Rinv_le_contravar; [apply Rmult_lt_0_compat; assumption|]. apply Rmult_le_compat_l; lra.
    + right. field. repeat split; try lra. intros Z; rewrite Z in H3; lra.
Qed.
(** Off the cut-off region the velocity is bounded outright. *)
Lemma line_velocity_finite p a b g age nu :
  vnorm (line_velocity p a b g age nu) <= Rabs g / (2 * PI) * (vnorm (vsub a p) + vnorm (vsub b p)) * 2 ^ 26.
Proof.
  pose proof PI_RGT_0 as Hpi. pose proof (Rabs_pos g) as Hg.
  pose proof (vnorm_nonneg (vsub a p)) as Na. pose proof (vnorm_nonneg (vsub b p)) as Nb.
  assert (Hg' : 0 <= Rabs g / (2 * PI)) by (apply Rmult_le_pos; [lra | left; apply Rinv_0_lt_compat; lra]).
  assert (HB : 0 <= Rabs g / (2 * PI) * (vnorm (vsub a p) + vnorm (vsub b p))) by (apply Rmult_le_pos; lra).
  destruct (singular p a b) eqn:E.
  - rewrite line_velocity_singular by exact E. rewrite vnorm_zero.
    apply Rmult_le_pos; [exact HB | apply pow_le; lra].
  - pose proof (line_velocity_bound p a b g age nu) as H.
    assert (H3 : / 2 ^ 26 <= vnorm (vcross (vsub a p) (vsub b p))).
    { unfold singular in E. apply orb_false_iff in E as [_ E]. apply Rltb_false in E.
      apply Rsqr_incr_0_var; [|apply vnorm_nonneg].
      rewrite !Rsqr_pow2. eapply Rle_trans; [|exact E]. right; unfold eps. field. }
    set (n3 := vnorm (vcross _ _)) in *. set (v := vnorm (line_velocity _ _ _ _ _ _)) in *.
    assert (Hv : 0 <= v) by apply vnorm_nonneg.
    assert (H4 : v * / 2 ^ 26 <= v * n3) by (apply Rmult_le_compat_l; assumption).
    assert (Hp : 0 < 2 ^ 26) by (apply pow_lt; lra).
    apply Rmult_le_reg_r with (/ 2 ^ 26); [apply Rinv_0_lt_compat, Hp|].
    rewrite (Rmult_assoc _ (2 ^ 26)), Rinv_r by lra. lra.
Qed.

(** The guards are absolute, so a filament shorter than about 1e-4 induces
    nothing at a point off its line. *)
Lemma cutoff_example :
  let p := mkvec 0 (/ 10 ^ 4) 0 in let a := mkvec 0 0 0 in let b := mkvec (/ 10 ^ 4) 0 0 in
  vcross (vsub p a) (vsub p b) <> vzero /\ line_velocity p a b 1 0 0 = vzero.
Proof.
  cbn zeta. split.
  - intros H. apply (f_equal vz) in H. vunfold. lra.
  - apply line_velocity_singular. unfold singular. apply orb_true_iff; right. apply Rltb_true.
    rewrite vnorm_sqr. vunfold. unfold eps. lra.
Qed.
Lemma cutoff_refutes_biot_savart :
  exists p a b g, vcross (vsub p a) (vsub p b) <> vzero /\
    line_velocity p a b g 0 0 = vzero /\ biot_savart p a b g <> vzero.
Proof.
  exists (mkvec 0 (/ 10 ^ 4) 0), (mkvec 0 0 0), (mkvec (/ 10 ^ 4) 0 0), 1.
  destruct cutoff_example as [H1 H2]. split; [exact H1 | split; [exact H2|]].
  unfold biot_savart. set (p := mkvec 0 (/ 10 ^ 4) 0) in *. set (a := mkvec 0 0 0) in *. set (b := mkvec (/ 10 ^ 4) 0 0) in *.
  intros H. set (c := vcross (vsub p a) (vsub p b)) in *.
  assert (Hk : 1 / (4 * PI) * vdot (vsub b a) (vsub (vscale (/ vnorm (vsub p a)) (vsub p a))
      (vscale (/ vnorm (vsub p b)) (vsub p b))) / vdot c c = 0).
  { apply (f_equal (vdot c)) in H. rewrite vdot_scale_r, vdot_0_r in H.
    apply Rmult_integral in H as [H|H]; [exact H|]. exfalso; apply H1, vdot_self_zero, H. }
  assert (Hcc : vdot c c <> 0) by (intros Z; apply H1, vdot_self_zero, Z).
  pose proof PI_RGT_0 as Hpi.
  assert (Hd : vdot (vsub b a) (vsub (vscale (/ vnorm (vsub p a)) (vsub p a))
      (vscale (/ vnorm (vsub p b)) (vsub p b))) = 0).
  { apply Rmult_integral in Hk as [Hk|Hk]; [|exfalso; revert Hk; apply Rinv_neq_0_compat; exact Hcc].
    apply Rmult_integral in Hk as [Hk|Hk]; [|exact Hk].
    exfalso. unfold Rdiv in Hk. rewrite Rmult_1_l in Hk. revert Hk; apply Rinv_neq_0_compat; lra. }
  rewrite vdot_sub_r, !vdot_scale_r in Hd.
  replace (vdot (vsub b a) (vsub p a)) with 0 in Hd by (unfold a, b, p; vunfold; ring).
  replace (vdot (vsub b a) (vsub p b)) with (- (/ 10 ^ 4) ^ 2) in Hd by (unfold a, b, p; vunfold; ring).
  assert (Hn : 0 < vnorm (vsub p b)).
  { apply vnorm_pos. intros E. apply (f_equal vy) in E. unfold p, b in E. vunfold. lra. }
  apply Rinv_0_lt_compat in Hn. assert (0 < (/ 10 ^ 4) ^ 2) by (apply pow_lt; lra). nra.
Qed.
Lemma regular_example :
  (Rltb (vnorm (vsub vzero (mkvec 0 1 0))) eps || Rltb (vnorm (vsub (mkvec 1 0 0) (mkvec 0 1 0))) eps
   || Rltb (vnorm (vcross (vsub vzero (mkvec 0 1 0)) (vsub (mkvec 1 0 0) (mkvec 0 1 0))) ^ 2) eps)%bool = false.
Proof.
  assert (Heps : eps < 1) by (unfold eps; lra).
  repeat (apply orb_false_iff; split); apply Rltb_false.
  - left. rewrite (vdot_1_norm (vsub vzero (mkvec 0 1 0))); [exact Heps | vunfold; ring].
  - left. eapply Rlt_le_trans; [exact Heps|]. unfold vnorm. rewrite <- sqrt_1 at 1. apply sqrt_le_1; vunfold; lra.
  - rewrite vnorm_sqr. vunfold. lra.
Qed.
Lemma ring_four_legs x br fr fl bl g age nu :
  collapsed_ring [x] [br] [fr] [fl] [bl] [g] (Some [age]) nu =
  [vsum [line_velocity x br fr g age nu; line_velocity x fr fl g age nu;
         line_velocity x fl bl g age nu; line_velocity x bl br g age nu]].
Proof.
  cbn [collapsed_ring fold_left fst snd collapsed_line segments combine map2 map List.length zeros repeat add_rows
       segment_velocity sg_origin sg_termination sg_strength sg_age].
  f_equal. unfold segment_velocity; cbn [sg_origin sg_termination sg_strength sg_age]. rewrite !vsum_cons, !vsum_nil. vring.
Qed.
Lemma horseshoe_three_legs x br fr fl bl g age nu :
  collapsed_horseshoe [x] [br] [fr] [fl] [bl] [g] (Some [age]) nu =
  [vsum [line_velocity x br fr g age nu; line_velocity x fr fl g age nu; line_velocity x fl bl g age nu]].
Proof.
  cbn [collapsed_horseshoe fold_left fst snd collapsed_line segments combine map2 map List.length zeros repeat add_rows
       segment_velocity sg_origin sg_termination sg_strength sg_age].
  f_equal. unfold segment_velocity; cbn [sg_origin sg_termination sg_strength sg_age]. rewrite !vsum_cons, !vsum_nil. vring.
Qed.
Lemma two_quads x q1 q2 nu : q_age q1 = 0 -> q_age q2 = 0 ->
  collapsed_ring [x] [q_br q1; q_br q2] [q_fr q1; q_fr q2] [q_fl q1; q_fl q2] [q_bl q1; q_bl q2]
                 [q_strength q1; q_strength q2] None nu =
  [vadd (quad_velocity x (q_br q1) (q_fr q1) (q_fl q1) (q_bl q1) (q_strength q1) 0 nu)
        (quad_velocity x (q_br q2) (q_fr q2) (q_fl q2) (q_bl q2) (q_strength q2) 0 nu)].
Proof.
  intros _ _. etransitivity.
  - exact (collapsed_ring_map_None q_br q_fr q_fl q_bl q_strength [q1; q2] nu [x]).
  - cbn [map]. rewrite !vsum_cons, vsum_nil, vadd_0_r. reflexivity.
Qed.
Lemma shared_side_cancels x br fr fl bl fl' bl' g nu :
  collapsed_ring [x] [br; bl] [fr; fl] [fl; fl'] [bl; bl'] [g; g] None nu =
  [vsum [line_velocity x br fr g 0 nu; line_velocity x fr fl g 0 nu; line_velocity x fl fl' g 0 nu;
         line_velocity x fl' bl' g 0 nu; line_velocity x bl' bl g 0 nu; line_velocity x bl br g 0 nu]].
Proof.
  rewrite (two_quads x (mkquad br fr fl bl g 0) (mkquad bl fl fl' bl' g 0)) by reflexivity.
  cbn [q_br q_fr q_fl q_bl q_strength]. rewrite shared_edge_cancels. reflexivity.
Qed.
Lemma shared_back_cancels x br fr fl bl br' bl' g nu :
  collapsed_ring [x] [br; br'] [fr; br] [fl; bl] [bl; bl'] [g; g] None nu =
  [vsum [line_velocity x br' br g 0 nu; line_velocity x br fr g 0 nu; line_velocity x fr fl g 0 nu;
         line_velocity x fl bl g 0 nu; line_velocity x bl bl' g 0 nu; line_velocity x bl' br' g 0 nu]].
Proof.
  rewrite (two_quads x (mkquad br fr fl bl g 0) (mkquad br' br bl bl' g 0)) by reflexivity.
  cbn [q_br q_fr q_fl q_bl q_strength]. unfold quad_velocity. rewrite (line_velocity_reverse x br bl).
  f_equal. rewrite !vsum_cons, !vsum_nil. vring.
Qed.

(** ** Any number of points and vortices *)
Lemma vsum4 a b c d : vsum [a; b; c; d] = vadd (vadd (vadd a b) c) d.
Proof. cbn. vring. Qed.
Lemma vsum3 a b c : vsum [a; b; c] = vadd (vadd a b) c.
Proof. cbn. vring. Qed.
Lemma vsum2 a b : vsum [a; b] = vadd a b.
Proof. cbn. vring. Qed.
Lemma rings_at_points points (qs : list quad) nu :
  collapsed_ring points (map q_br qs) (map q_fr qs) (map q_fl qs) (map q_bl qs) (map q_strength qs) (Some (map q_age qs)) nu =
  map (fun x => vsum (map (fun q => let v o t := line_velocity x o t (q_strength q) (q_age q) nu in
    vsum [v (q_br q) (q_fr q); v (q_fr q) (q_fl q); v (q_fl q) (q_bl q); v (q_bl q) (q_br q)]) qs)) points.
Proof. rewrite collapsed_ring_map. apply map_ext. intros x. f_equal. apply map_ext. intros q. cbn beta zeta. rewrite vsum4. reflexivity. Qed.
Lemma horseshoes_at_points points (qs : list quad) nu :
  collapsed_horseshoe points (map q_br qs) (map q_fr qs) (map q_fl qs) (map q_bl qs) (map q_strength qs) (Some (map q_age qs)) nu =
  map (fun x => vsum (map (fun q => let v o t := line_velocity x o t (q_strength q) (q_age q) nu in
    vsum [v (q_br q) (q_fr q); v (q_fr q) (q_fl q); v (q_fl q) (q_bl q)]) qs)) points.
Proof. rewrite collapsed_horseshoe_map. apply map_ext. intros x. f_equal. apply map_ext. intros q. cbn beta zeta. rewrite vsum3. reflexivity. Qed.
Lemma chordwise_legs_at_points points (qs : list quad) nu :
  collapsed_ring_chordwise points (map q_br qs) (map q_fr qs) (map q_fl qs) (map q_bl qs) (map q_strength qs) (Some (map q_age qs)) nu =
  map (fun x => vsum (map (fun q => let v o t := line_velocity x o t (q_strength q) (q_age q) nu in
    vsum [v (q_br q) (q_fr q); v (q_fl q) (q_bl q)]) qs)) points.
Proof. rewrite collapsed_chordwise_map. apply map_ext. intros x. f_equal. apply map_ext. intros q. cbn beta zeta. rewrite vsum2. reflexivity. Qed.
