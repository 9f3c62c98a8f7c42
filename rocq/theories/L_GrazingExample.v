(** Example runs for wings that only graze the stream: the plate at zero angle of attack. *)
From Coq Require Import List ZArith Lia Lra Bool Reals String.
From Verif Require Import M_Horseshoe M_Unsteady S_Unsteady S_UnsteadyRun S_Geometry S_Vortices S_Loads S_Solve S_Movement S_Mirror S_Solvable S_Grazing L_Base L_Loads L_Horseshoe L_SteadyRing L_Aero L_Frames L_Mirror
  L_Geometry L_Movement L_Snapshots L_Problems L_Rotations L_Scaling L_Example L_Example3 L_Example4 L_Gauss L_Wake L_UnsteadyRun L_UnsteadyFinal L_UnsteadyProps L_UnsteadyProps2 L_UnsteadyFlow L_UnsteadyStill L_SymmetricExample L_ImageExample L_FlapExample L_Grazing.
Import ListNotations.
Local Open Scope R_scope.
Local Open Scope list_scope.

Definition level_op (v nu : R) : operating_point := mkop 1 v 0 0 0 nu.
Lemma level_direction v nu : freestream_direction (level_op v nu) = mkvec 1 0 0.
Proof. rewrite freestream_direction_explicit. unfold level_op. cbn [op_alpha op_beta]. unfold radians. replace (0 * _) with 0 by field. rewrite sin_0, cos_0. apply vec_ext; cbn; ring. Qed.
Lemma level_velocity v nu : freestream_velocity (level_op v nu) = mkvec v 0 0.
Proof. unfold freestream_velocity. rewrite level_direction. cbn. vunfold. apply vec_ext; cbn; ring. Qed.
Lemma level_grazes v nu p : same_panel ex_panel p -> grazes (level_op v nu) p.
Proof. intros H. unfold grazes. rewrite level_velocity. destruct (same_panel_collocation _ _ H) as [_ ->]. destruct ex_panel_points as (_ & -> & _). clear. vunfold. ring. Qed.

(** ** The steady solvers *)
Lemma level_shoe : 0 < vdot (shoe_velocity (mkvec 3 (1 / 2) 0) (vadd (mkvec 1 1 0) (vscale 20 (mkvec 1 0 0))) (mkvec 1 1 0) (mkvec 1 0 0)
                          (vadd (mkvec 1 0 0) (vscale 20 (mkvec 1 0 0))) 1 0 0) (mkvec 0 0 1).
Proof.
  unfold shoe_velocity. rewrite !vdot_add_l.
  assert (P1 : 0 < vdot (line_velocity (mkvec 3 (1 / 2) 0) (vadd (mkvec 1 1 0) (vscale 20 (mkvec 1 0 0))) (mkvec 1 1 0) 1 0 0) (mkvec 0 0 1)) by (apply line_velocity_positive; [apply regular_if|]; vunfold; lra).
  assert (P2 : 0 < vdot (line_velocity (mkvec 3 (1 / 2) 0) (mkvec 1 1 0) (mkvec 1 0 0) 1 0 0) (mkvec 0 0 1)) by (apply line_velocity_positive; [apply regular_if|]; vunfold; lra).
  assert (P3 : 0 < vdot (line_velocity (mkvec 3 (1 / 2) 0) (mkvec 1 0 0) (vadd (mkvec 1 0 0) (vscale 20 (mkvec 1 0 0))) 1 0 0) (mkvec 0 0 1)) by (apply line_velocity_positive; [apply regular_if|]; vunfold; lra).
  lra.
Qed.
Lemma level_horseshoe solve v : SolveSpec solve -> exists s, hs_run solve (hs_new [ex_airplane false] (level_op v 0)) = Ok s.
Proof.
  intros HS. destruct ex_panel_points as (Hp & Hn & Hfr & Hfl). pose proof level_shoe as HA. set (A := vdot (shoe_velocity _ _ _ _ _ _ _ _) _) in HA.
  destruct (hs_run_total solve (hs_new [ex_airplane false] (level_op v 0)) [- 0 / A] HS) as (s' & E & Hs'); [|exists s'; exact E].
  cbn [hs_new hso_op hso_airplanes hso_freestream]. unfold hs_rows_of. rewrite ex_flat_panels, hs_influences_explicit. cbn [map]. unfold freestream_influences; cbn [map].
  match goal with |- solve [[?a]] [?b] = _ => assert (Ea : a = A); [|assert (Eb : b = - 0)] end.
  - unfold A, hs_row_velocity, hs_row_of, hs_vortex_of, hr_collocation, hr_normal, hr_back_right, hr_front_right, hr_front_left, hr_back_left.
    cbn [hr_vortex hr_panel new_horseshoe hs_right_leg hs_left_leg new_line_vortex lv_origin lv_termination].
    rewrite level_direction, ex_span, Hfr, Hfl.
    change (p_collocation_point (hs_init_panel (mkvec 1 0 0) (1 * 20) ex_panel)) with (p_collocation_point ex_panel).
    change (p_unit_normal (hs_init_panel (mkvec 1 0 0) (1 * 20) ex_panel)) with (p_unit_normal ex_panel).
    rewrite Hp, Hn, Rmult_1_l. reflexivity.
  - unfold hs_row_of, hr_normal. cbn [hr_panel].
    match goal with |- context [p_unit_normal (hs_init_panel ?x ?y ex_panel)] => change (p_unit_normal (hs_init_panel x y ex_panel)) with (p_unit_normal ex_panel) end.
    rewrite Hn, level_velocity. cbn. clear. vunfold. ring.
  - rewrite Ea, Eb. apply solve_1x1; [exact HS | lra].
Qed.
Lemma level_ring_influence : 0 < ex_Q + ex_H (mkvec 1 0 0).
Proof.
  unfold ex_Q, ex_H, quad_velocity, shoe_velocity. rewrite !vdot_add_l. rewrite (line_velocity_reverse (mkvec 3 (1 / 2) 0) (mkvec 5 0 0) (mkvec 5 1 0)). rewrite vopp_scale, vdot_scale_l.
  assert (P1 : 0 < vdot (line_velocity (mkvec 3 (1 / 2) 0) (mkvec 5 1 0) (mkvec 1 1 0) 1 0 0) (mkvec 0 0 1)) by (apply line_velocity_positive; [apply regular_if|]; vunfold; lra).
  assert (P2 : 0 < vdot (line_velocity (mkvec 3 (1 / 2) 0) (mkvec 1 1 0) (mkvec 1 0 0) 1 0 0) (mkvec 0 0 1)) by (apply line_velocity_positive; [apply regular_if|]; vunfold; lra).
  assert (P3 : 0 < vdot (line_velocity (mkvec 3 (1 / 2) 0) (mkvec 1 0 0) (mkvec 5 0 0) 1 0 0) (mkvec 0 0 1)) by (apply line_velocity_positive; [apply regular_if|]; vunfold; lra).
  assert (P4 : 0 < vdot (line_velocity (mkvec 3 (1 / 2) 0) (vadd (mkvec 5 1 0) (vscale 20 (mkvec 1 0 0))) (mkvec 5 1 0) 1 0 0) (mkvec 0 0 1)) by (apply line_velocity_positive; [apply regular_if|]; vunfold; lra).
  assert (P5 : 0 < vdot (line_velocity (mkvec 3 (1 / 2) 0) (mkvec 5 0 0) (vadd (mkvec 5 0 0) (vscale 20 (mkvec 1 0 0))) 1 0 0) (mkvec 0 0 1)) by (apply line_velocity_positive; [apply regular_if|]; vunfold; lra).
  lra.
Qed.
Lemma level_ring_rows op airplanes airplanes0 rows : Forall2 same_airplane [ex_airplane false] airplanes ->
  ring_init op airplanes = Ok airplanes0 -> ring_collapse airplanes0 = Ok rows ->
  exists p, same_panel ex_panel p /\ rows = [ex_ring_row (freestream_direction op) p].
Proof.
  intros Hs E0 Er. destruct ex_panel_points as (_ & _ & Hfr & Hfl).
  inversion Hs as [|? a ? l Ha Hl]; subst. inversion Hl; subst. clear Hs Hl.
  destruct Ha as (Hw & Hname & Href & _). cbn [ex_airplane a_wings] in Hw.
  inversion Hw as [|? w ? ws Hw1 Hws EQ1 EQ2]; subst. inversion Hws; subst. clear Hws Hw.
  pose proof (same_wing_span _ _ Hw1) as Hspan. rewrite ex_span in Hspan.
  destruct Hw1 as [Hw1 Hp]. change (w_panels (ex_wing false)) with [[ex_panel]] in Hp.
  inversion Hp as [|? row ? m Hrow Hm Ea Eb]; subst. inversion Hm; subst. clear Hm Hp.
  inversion Hrow as [|? p ? r Hpp Hr Ec Ed]; subst. inversion Hr; subst. clear Hrow Hr.
  unfold ring_init in E0. cbn [mapM] in E0. unfold ring_init_airplane in E0. rewrite <- EQ2 in E0. cbn [mapM] in E0.
  unfold ring_init_wing in E0. rewrite <- Eb in E0. unfold mapiM in E0. cbn [length seq combine mapM fst snd] in E0.
  unfold ring_init_panel in E0.
  pose proof (L_Horseshoe.same_panel_vertices _ _ Hpp) as [Hvr Hvl]. rewrite Hfr in Hvr. rewrite Hfl in Hvl.
  pose proof Hpp as (Q1 & Q2 & Q3 & Q4 & Q5 & Q6 & _). 
  rewrite Q6 in E0. cbn [ex_panel p_set_position plain_panel new_panel p_is_trailing_edge bind] in E0.
  injection E0 as <-. 
  unfold ring_collapse, flat_panels in Er. cbn [map a_wings a_set_wings w_set_panels w_panels ravel concat app mapM] in Er.
  unfold ring_make_row in Er. cbn [p_set_ring p_set_horseshoe p_ring_vortex p_horseshoe_vortex p_is_trailing_edge] in Er.
  rewrite Q6 in Er. cbn [ex_panel p_set_position plain_panel new_panel p_is_trailing_edge bind] in Er.
  injection Er as <-. eexists; split; [|unfold ex_ring_row; f_equal; f_equal].
  - exact Hpp.
  - transitivity (a_xyz_ref a); [reflexivity | rewrite Href; reflexivity].
  - rewrite Hvl, Hvr, Q1, Q2, Q3, Q4. f_equal; cbn; vunfold; apply vec_ext; cbn; lra.
  - rewrite Hvr, Q1, Q4, Hspan. cbn. vunfold; apply vec_ext; cbn; lra.
  - rewrite Hvr, Q1, Q4. cbn. vunfold; apply vec_ext; cbn; lra.
  - rewrite Hvl, Q2, Q3. cbn. vunfold; apply vec_ext; cbn; lra.
  - rewrite Hvl, Q2, Q3, Hspan. cbn. vunfold; apply vec_ext; cbn; lra.
Qed.
Lemma level_ring solve v : SolveSpec solve -> exists s, ring_run solve (ring_new [ex_airplane false] (level_op v 0)) = Ok s.
Proof.
  intros HS. set (s := ring_new [ex_airplane false] (level_op v 0)). pose proof level_ring_influence as HA.
  assert (Hair : Forall2 same_airplane [ex_airplane false] (rso_airplanes s)).
  { constructor; [|constructor]. repeat split; try reflexivity. repeat constructor; apply same_panel_refl. }
  destruct (ring_run_total solve s HS) as (l0 & rows & E0 & Er & Hrun).
  - apply fresh_sized, ex_fresh.
  - intros a w [<-|[]]. apply (proj1 (ex_well_meshed false)).
  - change (rso_op s) with (level_op v 0) in E0. destruct (level_ring_rows (level_op v 0) _ _ _ Hair E0 Er) as (p & Hp & ->). rewrite level_direction in *.
    destruct (Hrun [- 0 / (ex_Q + ex_H (mkvec 1 0 0))]) as (s' & E & _); [|exists s'; exact E].
    change (rso_strengths s) with [1]. change (rso_hs_strengths s) with [0]. change (rso_freestream s) with (freestream_velocity (level_op v 0)). cbn [ring_collapse_hs_strengths map2 map].
    replace (p_is_trailing_edge (rr_panel (ex_ring_row (mkvec 1 0 0) p))) with true by (cbn; symmetry; apply Hp).
    rewrite ring_influences_general by reflexivity. cbn [map combine fst snd]. unfold freestream_influences; cbn [map].
    destruct (same_panel_collocation _ _ Hp) as [Hc Hnn]. destruct ex_panel_points as (Hpc & Hpn & _). rewrite Hpc in Hc. rewrite Hpn in Hnn.
    unfold rr_normal, rr_collocation. change (rr_panel (ex_ring_row (mkvec 1 0 0) p)) with p. rewrite Hc, Hnn.
    match goal with |- solve [[?a]] [?b] = _ => assert (Ea : a = ex_Q + ex_H (mkvec 1 0 0)); [|assert (Eb : b = - 0)] end.
    + unfold ex_Q, ex_H, ring_row_velocity. rewrite vdot_add_l. reflexivity.
    + rewrite level_velocity. cbn. clear. vunfold. ring.
    + rewrite Ea, Eb. apply solve_1x1; [exact HS | lra].
Qed.
Lemma level_grazing v : forall p, In p (panels_of [ex_airplane false]) -> grazes (level_op v 0) p.
Proof. intros p Hp. change (panels_of [ex_airplane false]) with [ex_panel] in Hp. destruct Hp as [<-|[]]. apply level_grazes, same_panel_refl. Qed.
(** At another angle the stream crosses the panel. *)
Lemma ex_not_grazed rho v : v <> 0 -> ~ grazes (ex_op rho v) ex_panel.
Proof.
  intros Hv. destruct (ex_direction rho v) as (c & _ & _ & E). unfold grazes, freestream_velocity. rewrite E. destruct ex_panel_points as (_ & -> & _). cbn [ex_op op_velocity].
  vunfold. cbn. lra.
Qed.

(** ** The unsteady solver *)
Lemma glide_problem only : exists m up a,
  new_movement [plate_about 0] calm (Some 3%Z) None None (Some 1) = Ok m /\ new_unsteady_problem m only = Ok up /\
  up_delta_time up = 1 /\ List.length (up_steady_problems up) = 3%nat /\
  new_airplane [ex_wing false] "plane" 0 0 0 0 None None None = Ok a /\
  forall k sp, nth_error (up_steady_problems up) k = Some sp -> sp_airplanes sp = [a] /\ sp_operating_point sp = level_op 4 (1506 / 100000000).
Proof.
  assert (Hg : good_spacing resting) by (left; reflexivity).
  assert (HA : Forall airplane_movable [plate_about 0]) by (constructor; [apply plate_about_movable | constructor]).
  destruct (proj2 (movement_succeeds [plate_about 0] calm (Some 3%Z) None None 1 3 eq_refl ltac:(lia))) as [m Hm]; [auto|].
  destruct (movement_built _ _ _ _ _ _ _ Hm) as (_ & _ & HD & (HN & _) & EA & EO).
  assert (HP : populated [plate_about 0]) by (apply movable_populated; [discriminate | exact HA]).
  destruct (unsteady_succeeds _ _ _ _ _ _ _ only Hm HP) as [up Hup].
  destruct (unsteady_built _ _ _ Hup) as (_ & _ & Edt & _ & _ & _ & _ & _ & _ & _ & HL & HS). rewrite HN in *. cbn [given] in HD. rewrite HD in *.
  cbn [mapM] in EA. apply bind_Ok in EA. destruct EA as (l & El & EA). apply bind_Ok in EA. destruct EA as (nil' & E0 & EA). apply Ok_eq in E0. subst nil'. apply Ok_eq in EA.
  destruct (generated_airplanes _ _ _ _ El) as (Ll & _ & xs & ys & zs & hs & Ex & Ey & Ez & EH & HNa).
  cbn [am_wings plate_about mapM] in EH. apply bind_Ok in EH. destruct EH as (ws & EW & EH). apply bind_Ok in EH. destruct EH as (nil' & E0 & EH). apply Ok_eq in E0. subst nil'. apply Ok_eq in EH. subst hs.
  pose proof (static_wings _ _ _ _ EW resting_wing (ex_plain resting)) as ->. cbn [ex_wing_movement plate_movement wm_base] in *.
  assert (HU : unmoving resting) by (left; reflexivity).
  assert (HA1 : forall i a, nth_error l i = Some a -> new_airplane [ex_wing false] "plane" 0 0 0 0 None None None = Ok a).
  { intros i a Hi. destruct (HNa i a Hi) as (x & y' & z & wings & Hx & Hy & Hz & EC & Ea).
    apply (unmoving_value _ _ _ _ _ _ _ HU Ex) in Hx. apply (unmoving_value _ _ _ _ _ _ _ HU Ey) in Hy. apply (unmoving_value _ _ _ _ _ _ _ HU Ez) in Hz. cbn [plate_about am_base a_x_ref a_y_ref a_z_ref] in Hx, Hy, Hz. subst x y' z.
    apply column_spec in EC. inversion EC as [|? w ? rest Hw Hr X1 X2]; subst. inversion Hr; subst. apply nth_error_In in Hw. assert (w = ex_wing false) by (destruct Hw as [<-|[<-|[<-|[]]]]; reflexivity). subst w. exact Ea. }
  destruct l as [|a l]; [cbn in Ll; lia|]. pose proof (HA1 0%nat a eq_refl) as Ea0.
  exists m, up, a. split; [exact Hm|]. split; [exact Hup|]. split; [exact Edt|]. split; [exact HL|]. split; [exact Ea0|].
  intros k sp Hk. destruct (HS k sp Hk) as [FA FO]. rewrite <- EA in FA. inversion FA as [|? b ? rest Hb Hr X1 X2]; subst. inversion Hr; subst.
  split; [f_equal; pose proof (HA1 k b Hb); congruence|].
  destruct (generated_operating_points _ _ _ _ EO) as (_ & _ & vs & Evs & HNo). destruct (HNo _ _ FO) as (v & Hv & ->). rewrite (unmoving_value _ _ _ _ _ _ _ HU Evs Hv). reflexivity.
Qed.
Lemma glide_area : w_projected_area (ex_wing false) = 4.
Proof.
  unfold w_projected_area. change (ravel (w_panels (ex_wing false))) with [ex_panel]. cbn [map]. rewrite rsum_cons. change (rsum []) with 0.
  assert (E : w_unit_up (ex_wing false) = mkvec 0 0 1) by (unfold w_unit_up; cbn [ex_wing w_unit_normal w_unit_chordwise]; vunfold; apply vec_ext; cbn; ring). rewrite E.
  unfold p_projected_area, p_first_diagonal, p_second_diagonal, ex_panel, plain_panel, p_set_position, new_panel. cbn [p_front_right p_front_left p_back_left p_back_right].
  match goal with |- vnorm ?x / 2 + 0 = _ => replace x with (mkvec 0 0 8) by (vunfold; apply vec_ext; cbn; ring) end.
  unfold vnorm, vdot; cbn. replace (0 * 0 + 0 * 0 + 8 * 8) with (8 * 8) by ring. rewrite sqrt_square; lra.
Qed.
Lemma glide_chord : w_mean_aerodynamic_chord (ex_wing false) = 4.
Proof.
  unfold w_mean_aerodynamic_chord. rewrite glide_area. cbn [ex_wing map w_sections w_symmetric w_unit_normal tl map2]. rewrite rsum_cons. change (rsum []) with 0.
  unfold mac_term. replace (vscale _ _) with (mkvec 0 1 0).
  - replace (vnorm (mkvec 0 1 0)) with 1; [unfold ex_placed, ex_section; cbn; field|]. symmetry. apply vdot_1_norm. vunfold; ring.
  - unfold ex_placed, ex_section, cs_set_wing_chordwise, cs_leading_edge; cbn. vunfold; apply vec_ext; cbn; ring.
Qed.
Lemma level_ring_alone x nu : 5 <= x -> 0 < vdot (quad_velocity (mkvec 3 (1 / 2) 0) (mkvec x 1 0) (mkvec 1 1 0) (mkvec 1 0 0) (mkvec x 0 0) 1 0 nu) (mkvec 0 0 1).
Proof.
  intros Hx. unfold quad_velocity. rewrite !vdot_add_l.
  assert (P1 : 0 < vdot (line_velocity (mkvec 3 (1 / 2) 0) (mkvec x 1 0) (mkvec 1 1 0) 1 0 nu) (mkvec 0 0 1)) by (apply line_velocity_positive; [apply regular_if|]; unfold vdot, vsub, vcross; cbn [vx vy vz]; nra).
  assert (P2 : 0 < vdot (line_velocity (mkvec 3 (1 / 2) 0) (mkvec 1 1 0) (mkvec 1 0 0) 1 0 nu) (mkvec 0 0 1)) by (apply line_velocity_positive; [apply regular_if|]; vunfold; lra).
  assert (P3 : 0 < vdot (line_velocity (mkvec 3 (1 / 2) 0) (mkvec 1 0 0) (mkvec x 0 0) 1 0 nu) (mkvec 0 0 1)) by (apply line_velocity_positive; [apply regular_if|]; unfold vdot, vsub, vcross; cbn [vx vy vz]; nra).
  assert (P4 : 0 < vdot (line_velocity (mkvec 3 (1 / 2) 0) (mkvec x 0 0) (mkvec x 1 0) 1 0 nu) (mkvec 0 0 1)) by (apply line_velocity_positive; [apply regular_if|]; unfold vdot, vsub, vcross; cbn [vx vy vz]; nra).
  lra.
Qed.
Section Glide.
  Variable solve : list (list R) -> list R -> result (list R).
  Hypothesis HS : SolveSpec solve.
  Variable prescribed : bool.
  Variables (up : unsteady_problem) (a : airplane).
  Hypothesis HC : created up.
  Hypothesis HT : up_delta_time up = 1.
  Hypothesis Hlen : (0 < List.length (up_steady_problems up))%nat.
  Hypothesis Ea : a_wings a = [ex_wing false].
  Hypothesis Hsteps : forall k sp, nth_error (up_steady_problems up) k = Some sp -> sp_airplanes sp = [a] /\ sp_operating_point sp = level_op 4 (1506 / 100000000).
  Lemma glide_panel n s k sp : has_run solve prescribed up n s -> step_at s k sp ->
    exists p r, step_panels sp = [p] /\ same_panel ex_panel p /\ p_ring_vortex p = Some r /\ ring_consistent r /\
      rv_front_left r = mkvec 1 0 0 /\ rv_front_right r = mkvec 1 1 0 /\ rv_back_left r = mkvec 6 0 0 /\ rv_back_right r = mkvec 6 1 0.
  Proof.
    clear Hlen. intros HR Hsp. pose proof (steps_kept _ HS _ _ _ _ HC HR) as FK.
    destruct (Forall2_nth _ _ _ FK _ _ Hsp) as (sp0 & H0 & K). destruct (Hsteps _ _ H0) as (EA & EO).
    pose proof (kept_step_wings _ _ K) as FW. unfold step_wings at 1 in FW. rewrite EA in FW. cbn [map concat] in FW. rewrite Ea in FW. cbn [app] in FW.
    inversion FW as [|? w ? ws [Ew Fw] Fr X1 X2]; subst. inversion Fr; subst. symmetry in X2.
    cbn [ex_wing w_panels ex_panels] in Fw. change (set_positions 1 [[plain_panel 0 1]]) with [[ex_panel]] in Fw.
    inversion Fw as [|? row ? rows Frow Frows Y1 Y2]; subst. inversion Frows; subst. inversion Frow as [|? p ? ps HP Fps Z1 Z2]; subst. inversion Fps; subst. symmetry in Y2.
    assert (EP : step_panels sp = [p]) by (rewrite panels_of_wings, X2; cbn [map concat app]; rewrite Y2; reflexivity).
    assert (Hw : wing_at s k 0 w) by (exists sp; split; [exact Hsp | rewrite X2; reflexivity]).
    assert (Hp : at_position (w_panels w) 0 0 p) by (rewrite Y2; exists [p]; auto).
    destruct (bound_rings _ HS _ _ _ _ _ _ _ _ _ _ HC HR Hw Hp) as (r & Hr & (HCr & B1 & B2 & B3 & _)). rewrite Y2 in B3. destruct (B3 eq_refl) as [B4 B5].
    change (same_panel ex_panel p) in HP. destruct (L_UnsteadyRun.same_panel_vertices _ _ HP) as [V1 V2]. destruct ex_panel_points as (_ & _ & Q1 & Q2). rewrite V1, Q2 in B1. rewrite V2, Q1 in B2.
    assert (EOs : sp_operating_point sp = level_op 4 (1506 / 100000000)) by (rewrite (proj1 K); exact EO).
    assert (EV : drift_at s k = mkvec 1 0 0).
    { unfold drift_at, freestream_at. unfold step_at in Hsp. rewrite Hsp, EOs. destruct (has_run_history _ HS _ _ _ _ HC HR) as (F & up1 & conv & sa & HH). rewrite (hi_time _ _ _ _ _ _ _ _ _ HH), HT, level_velocity. clear. vunfold. apply vec_ext; cbn; field. }
    destruct HP as (E1 & E2 & E3 & E4 & HP). rewrite EV, B1, E2, E3 in B4. rewrite EV, B2, E1, E4 in B5.
    exists p, r. split; [exact EP|]. split; [unfold same_panel; auto|]. split; [exact Hr|]. split; [exact HCr|]. split; [exact B1|]. split; [exact B2|].
    rewrite B4, B5. clear. split; unfold ex_panel, plain_panel, p_set_position, new_panel; cbn [p_front_right p_front_left p_back_left p_back_right]; vunfold; apply vec_ext; cbn; field.
  Qed.
  Lemma glide_solvable k s sp A b : has_run solve prescribed up k s -> step_at s k sp -> influence_matrix sp A -> List.length b = List.length A -> exists x, solve A b = Ok x.
  Proof.
    clear Hlen. intros HR Hsp (rs & Frs & EA) Lb. destruct (glide_panel _ _ _ _ HR Hsp) as (p & r & EP & HP & Hr & HCr & R1 & R2 & R3 & R4).
    rewrite EP in *. inversion Frs as [|? r' ? rs' Hr' Frs' X1 X2]; subst. inversion Frs'; subst. assert (r' = r) by congruence. subst r'. cbn [map] in *.
    destruct b as [|y [|]]; try discriminate. eexists. apply solve_1x1; [exact HS|]. apply Rgt_not_eq. apply Rlt_gt.
    rewrite (ring_velocity_quad _ _ _ (ring_update_strength 1 r) (update_strength_consistent 1 r HCr)). cbn [ring_update_strength rv_back_right rv_front_right rv_front_left rv_back_left rv_strength].
    rewrite R1, R2, R3, R4. destruct (same_panel_collocation _ _ HP) as [-> ->]. destruct ex_panel_points as (-> & -> & _). apply level_ring_alone. lra.
  Qed.
  Lemma glide_run lines : exists s, finished solve prescribed lines up s.
  Proof.
    destruct (nth_in_range _ _ Hlen) as [sp0 H0]. assert (exists s0, unsteady_new up = Ok s0) as [s0 E0] by (unfold unsteady_new, index; rewrite H0; cbn; eauto).
    destruct (run_outcome _ HS prescribed up lines s0 HC E0) as [[s Es]|(k & s & sp & A & b & e & HA & Hsp & HI & Lb & Hs & _)].
    - exists s, s0. auto.
    - exfalso. destruct (glide_solvable k s sp A b (or_introl HA) Hsp HI Lb) as (x & X). congruence.
  Qed.
End Glide.
Lemma glide_case (only prescribed lines : bool) : exists up s, created up /\ up_delta_time up = 1 /\ up_max_period up = 0 /\ (up_first_results_step up < 3)%Z /\ List.length (up_steady_problems up) = 3%nat /\
  grazes_all_along up 3 /\ measured up /\ (exists sp, nth_error (up_steady_problems up) 2 = Some sp /\ freestream_velocity (sp_operating_point sp) = mkvec 4 0 0) /\ finished gauss_solve prescribed lines up s.
Proof.
  destruct (glide_problem only) as (m & up & a & Hm & Hup & Edt & L & Ha & Hst). assert (HC : created up) by (do 7 eexists; exists only; split; [exact Hm | exact Hup]).
  unfold new_airplane in Ha. cbn [override] in Ha. rewrite glide_area, glide_chord, ex_span in Ha. apply Ok_eq in Ha.
  assert (Ea : a_wings a = [ex_wing false]) by (subst a; reflexivity).
  destruct (glide_run gauss_solve gauss_solve_spec prescribed up a HC Edt ltac:(lia) Ea Hst lines) as [s Hs]. exists up, s. split; [exact HC|]. split; [exact Edt|].
  assert (HPn : forall k sp, nth_error (up_steady_problems up) k = Some sp -> step_panels sp = [ex_panel]).
  { intros k sp Hk. destruct (Hst _ _ Hk) as [E _]. unfold step_panels. rewrite E. unfold all_panels. subst a. reflexivity. }
  assert (HP0 : up_max_period up = 0).
  { destruct (unsteady_built _ _ _ Hup) as (_ & _ & _ & _ & EP & _). destruct (movement_built _ _ _ _ _ _ _ Hm) as (MA & MO & _). unfold mv_max_period in EP. rewrite MA, MO in EP.
    pose proof (proj1 (max_period_largest _ _ _ EP)) as X. cbn in X. decompose [or] X; first [symmetry; assumption | contradiction]. }
  split; [exact HP0|]. split.
  { destruct (created_fields _ HC) as (_ & _ & _ & C4 & C5 & _). destruct (finished_meshed _ _ _ _ _ HC Hs) as [F HM]. pose proof (mp_size _ _ HM) as Hsz. rewrite L in Hsz.
    rewrite C5, C4, HP0, window_static. destruct (up_only_final_results up); lia. }
  split; [exact L|]. split; [|split; [|split]].
  - intros k sp i q Hk Hsp Hq. rewrite (HPn _ _ Hsp) in Hq. destruct i as [|[|i]]; try discriminate. apply Some_eq in Hq. subst q. destruct (Hst _ _ Hsp) as [_ ->]. destruct k as [|k]; [apply level_grazes, same_panel_refl|].
    intros sp' p Hsp' Hp. rewrite (HPn _ _ Hsp') in Hp. apply Some_eq in Hp. subst p. rewrite level_velocity. destruct ex_panel_points as (-> & -> & _). clear. vunfold. ring.
  - intros sp b Hsp Hb. apply In_nth_error in Hsp. destruct Hsp as [k Hsp]. destruct (Hst _ _ Hsp) as [E ->]. rewrite E in Hb. destruct Hb as [<-|[]]. subst a. unfold dynamic_pressure, level_op. cbn. lra.
  - destruct (nth_in_range (up_steady_problems up) 2 ltac:(lia)) as [sp Hsp]. exists sp. split; [exact Hsp|]. destruct (Hst _ _ Hsp) as [_ ->]. apply level_velocity.
  - exact Hs.
Qed.
