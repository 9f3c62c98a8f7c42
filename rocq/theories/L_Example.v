(** Concrete wings built by the modelled constructors, used to show that the
    hypotheses of the solver theorems are met by reachable states. *)
From Coq Require Import Lra Lia.
From Verif Require Import M_Geometry M_Horseshoe M_SteadyRing S_Solve S_Loads S_Geometry S_Vortices.
From Verif Require Import L_Base L_Functions L_Rotations L_Panel L_Aero L_Loads L_Horseshoe L_SteadyRing L_Gauss.

Ltac rdec :=
  repeat match goal with
  | |- context [Reqb ?a ?b] =>
      first [ replace (Reqb a b) with true by (symmetry; apply Reqb_true; lra)
            | replace (Reqb a b) with false by (symmetry; apply Reqb_false; lra) ]
  | |- context [Rltb ?a ?b] =>
      first [ replace (Rltb a b) with true by (symmetry; apply Rltb_true; lra)
            | replace (Rltb a b) with false by (symmetry; apply Rltb_false; lra) ]
  | |- context [Rleb ?a ?b] =>
      first [ replace (Rleb a b) with true by (symmetry; apply Rleb_true; lra)
            | replace (Rleb a b) with false by (symmetry; apply Rleb_false; lra) ]
  end.

(** A flat plate given by coordinates. *)
Definition flat_coordinates : list (R * R) := [(1, 0); (0, 0); (1, 0)].
Definition flat_named (name : string) : airfoil :=
  mkairfoil name flat_coordinates [(0, 0); (1, 0)] [(0, 0); (0, 0)] [(0, 0); (1, 0)] false 400.
Lemma with_mcl_flat name : with_mcl name false 400 flat_coordinates = Ok (flat_named name).
Proof.
  unfold with_mcl, upper_coordinates, lower_coordinates, leading_edge_index, flat_coordinates.
  cbn [map fst argmin argmin_from]. rdec. cbn [bind firstn skipn rev app].
  unfold broadcast, pair_mean, pair_sub.
  cbn [length Nat.eqb map2 bind fst snd map combine]. unfold flat_named, flat_coordinates.
  do 2 f_equal; repeat (f_equal; try lra).
  all: try (match goal with |- sqrt ?x * 2 = _ => replace x with 0 by field; rewrite sqrt_0; ring end).
  all: field.
Qed.
Lemma new_flat pchip database name :
  new_airfoil pchip database name (Some flat_coordinates) false 400 = Ok (flat_named name).
Proof. unfold new_airfoil; cbn [bind]. apply with_mcl_flat. Qed.
Lemma flat_flapped name : add_control_surface (flat_named name) 0 (75 / 100) = Ok (flat_named (append name " flapped")).
Proof.
  unfold add_control_surface. rdec. cbn [orb negb check bind].
  unfold get_camber_at_chord_fraction, flat_named; cbn [af_mcl_coordinates af_upper_minus_mcl af_name interp1d bind first_index fst].
  rdec. cbn [bind]. etransitivity; [|apply with_mcl_flat]. f_equal.
  unfold flapped_mcl, flapped_umm, rot2, pair_add, pair_sub, radians.
  replace (- 0 * (PI / 180)) with 0 by lra. 
  cbn [firstn skipn app map map2 rev fst snd tl]. rewrite ?Ropp_0, ?Rmult_0_l, ?sin_0, ?cos_0. unfold flat_coordinates.
  repeat (f_equal; try field).
Qed.

Lemma flat_downsampled : get_downsampled_mcl [0; 1] [(0, 0); (1, 0)] = Ok [(0, 0); (1, 0)].
Proof.
  unfold get_downsampled_mcl, arc_lengths, point_distance. cbn [tl map2 map cumsum_from last fst snd combine mapM].
  replace (sqrt ((0 - 1) ^ 2 + (0 - 0) ^ 2)) with 1 by (replace ((0 - 1) ^ 2 + (0 - 0) ^ 2) with 1 by ring; rewrite sqrt_1; reflexivity).
  cbn [np_interp bind]. rdec. cbn [bind combine]. repeat (f_equal; try field).
Qed.
Lemma uniform_2 : spaced "uniform" 2 = [0; 1].
Proof. unfold spaced, linspace; cbn. repeat (f_equal; try field). Qed.

(** Root and tip sections of a rectangular wing, chord 4. *)
Definition ex_section (y : R) : section :=
  mksection (flat_named "plate") 0 y 0 4 (mkvec 0 1 0) 0 "symmetric" (75 / 100) 0 1 "uniform" None.
Lemma ex_section_ok y :
  new_section (flat_named "plate") 0 y 0 4 (mkvec 0 1 0) 0 "symmetric" (75 / 100) 0 1 "uniform" = Ok (ex_section y).
Proof. unfold new_section. rdec. reflexivity. Qed.
Definition ex_placed (y : R) : section := cs_set_wing_chordwise (mkvec 1 0 0) (ex_section y).
Lemma ex_chordwise y : cs_unit_chordwise (ex_placed y) = Ok (mkvec 1 0 0).
Proof.
  unfold cs_unit_chordwise, ex_placed, cs_set_wing_chordwise, ex_section; cbn [cs_wing_unit_chordwise cs_twist cs_unit_normal].
  rewrite aarm. replace (0 * PI / 180) with 0 by field. rewrite rodrigues_0, mvmul_mid. reflexivity.
Qed.
Lemma ex_mcl y : section_mcl vzero (ex_placed y) [(0, 0); (1, 0)] = Ok [mkvec 0 y 0; mkvec 4 y 0].
Proof.
  unfold section_mcl, cs_unit_up. rewrite ex_chordwise. cbn [bind map fst snd]. cbn.
  repeat f_equal; apply vec_ext; cbn; ring.
Qed.
Lemma ex_camber d y z : d = 0 -> flapped_camber [0; 1] (ex_placed y) (ex_placed z) d = Ok ([(0, 0); (1, 0)], [(0, 0); (1, 0)]).
Proof.
  intros ->. unfold flapped_camber, ex_placed, ex_section; cbn [cs_set_wing_chordwise cs_airfoil cs_control_surface_hinge_point].
  rewrite flat_flapped. cbn [bind af_mcl_coordinates flat_named]. rewrite flat_downsampled. reflexivity.
Qed.
Definition ex_spec (sym : bool) : mesh_spec := mkmesh vzero (mkvec 0 1 0) sym 1 "uniform".
Definition plain_panel (y0 y1 : R) : panel :=
  new_panel (mkvec 0 y1 0) (mkvec 0 y0 0) (mkvec 4 y0 0) (mkvec 4 y1 0) true true.
Lemma ex_right sym y z : right_section (ex_spec sym) (ex_placed y) (ex_placed z) = Ok [[plain_panel y z]].
Proof.
  unfold right_section, ex_spec; cbn [ms_chordwise_spacing ms_num_chordwise ms_leading_edge].
  change (cs_spanwise_spacing (ex_placed y)) with "uniform"%string. change (cs_num_spanwise_panels (ex_placed y)) with 1%nat.
  rewrite uniform_2, ex_camber by reflexivity. cbn [bind fst snd]. unfold section_vertices. rewrite !ex_mcl. cbn [bind].
  unfold interp_between_points, split_vertices, but_last; cbn [map2 map removelast tl v_front_inner v_front_outer v_back_inner v_back_outer].
  cbn [check Nat.leb bind]. unfold section_panels, plain_panel; cbn [combine mapi mapi_from map length Nat.eqb].
  repeat f_equal; vring.
Qed.
Lemma ex_left sym y z : left_section (ex_spec sym) (ex_placed y) (ex_placed z) = Ok [[plain_panel (- z) (- y)]].
Proof.
  unfold left_section, ex_spec; cbn [ms_chordwise_spacing ms_num_chordwise ms_leading_edge].
  change (cs_spanwise_spacing (ex_placed y)) with "uniform"%string. change (cs_num_spanwise_panels (ex_placed y)) with 1%nat.
  rewrite uniform_2, ex_camber by reflexivity. cbn [bind fst snd]. unfold section_vertices. rewrite !ex_mcl. cbn [bind].
  unfold interp_between_points, split_vertices, but_last, reflect_grid; cbn [map2 map removelast tl v_front_inner v_front_outer v_back_inner v_back_outer ms_unit_normal ms_leading_edge].
  cbn [check Nat.leb bind]. unfold section_panels, plain_panel; cbn [combine mapi mapi_from map length Nat.eqb rev app].
  unfold reflect_point_across_plane.
  repeat f_equal; vring.
Qed.
Definition ex_panels (sym : bool) : list (list panel) :=
  set_positions (if sym then 2 else 1)%nat
    [if sym then [plain_panel (- 1) (- 0); plain_panel 0 1] else [plain_panel 0 1]].
Definition ex_wing (sym : bool) : wing :=
  mkwing [ex_placed 0; ex_placed 1] "wing" 0 0 0 (mkvec 0 1 0) sym (mkvec 1 0 0) 1 "uniform"
         (if sym then 2 else 1)%nat (if sym then 2 else 1)%nat (ex_panels sym) [] [].
Lemma ex_wing_ok sym :
  new_wing [ex_section 0; ex_section 1] "wing" 0 0 0 (mkvec 0 1 0) sym (mkvec 1 0 0) 1 "uniform" = Ok (ex_wing sym).
Proof.
  unfold new_wing. cbn [length Nat.leb check bind String.eqb Ascii.eqb Bool.eqb orb index nth_error forallb].
  assert (E : forall u v, u = v -> veqb u v = true) by (intros; apply veqb_true; assumption).
  rewrite (E (mkvec 0 1 0) (cs_unit_normal (ex_section 0)) eq_refl).
  rewrite (E (cs_leading_edge (ex_section 0)) vzero eq_refl).
  rewrite (E (vcross (vcross (mkvec 0 1 0) (cs_unit_normal (ex_section 0))) (mkvec 1 0 0)) vzero)
    by (cbn; vunfold; apply vec_ext; cbn; ring).
  rewrite (E (vcross (vcross (mkvec 0 1 0) (cs_unit_normal (ex_section 1))) (mkvec 1 0 0)) vzero)
    by (cbn; vunfold; apply vec_ext; cbn; ring).
  replace (Reqb (vdot (mkvec 1 0 0) (mkvec 0 1 0)) 0) with true by (symmetry; apply Reqb_true; vunfold; ring).
  cbn [check bind andb map]. fold (ex_placed 0) (ex_placed 1).
  unfold mesh_wing. change (mkmesh (mkvec 0 0 0) (mkvec 0 1 0) sym 1 "uniform") with (ex_spec sym).
  cbn [mesh_sections]. rewrite ex_right. cbn [bind].
  destruct sym; cbn [ex_spec ms_symmetric ms_num_chordwise repeat].
  - change (mkmesh vzero (mkvec 0 1 0) true 1 "uniform") with (ex_spec true). rewrite ex_left. reflexivity.
  - reflexivity.
Qed.
Definition ex_airplane (sym : bool) : airplane :=
  mkairplane [ex_wing sym] "plane" 0 0 0 0 8 4 (if sym then 2 else 1) (if sym then 2 else 1)%nat None None None None.
Lemma ex_airplane_ok sym :
  new_airplane [ex_wing sym] "plane" 0 0 0 0 (Some 8) (Some 4) (Some (if sym then 2 else 1)) = Ok (ex_airplane sym).
Proof. destruct sym; reflexivity. Qed.
Lemma ex_well_meshed sym : well_meshed_airplane (ex_airplane sym).
Proof.
  split.
  - intros w [<-|[]]. cbn [ex_wing w_panels]. split.
    + intros row [<-|[]]. reflexivity.
    + intros [|c] row s p Hr Hp; [|destruct c; discriminate Hr]. injection Hr as <-.
      destruct sym; destruct s as [|[|s]]; cbn in Hp; try discriminate Hp;
        try (injection Hp as <-; repeat split; reflexivity); destruct s; discriminate Hp.
  - destruct sym; reflexivity.
Qed.

(** ** A solved case: the one-panel wing at 30 degrees of incidence *)
Definition ex_op (rho v : R) : operating_point := mkop rho v 30 0 0 0.
Lemma ex_direction rho v : exists c, 0 < c /\ c * c = 3 / 4 /\ freestream_direction (ex_op rho v) = mkvec c 0 (1 / 2).
Proof.
  exists (cos (PI / 6)). rewrite freestream_direction_explicit; unfold ex_op; cbn [op_alpha op_beta]. unfold radians.
  replace (30 * (PI / 180)) with (PI / 6) by field. rewrite Rmult_0_l, cos_0, sin_0, sin_PI6, cos_PI6.
  assert (0 < sqrt 3) by (apply sqrt_lt_R0; lra). assert (sqrt 3 * sqrt 3 = 3) by (apply sqrt_sqrt; lra).
  repeat split; [lra | nra | apply vec_ext; cbn; lra].
Qed.
Lemma norm_ge1 u : 1 <= vdot u u -> eps <= vnorm u.
Proof.
  intros H. assert (1 <= vnorm u).
  { unfold vnorm. rewrite <- sqrt_1 at 1. apply sqrt_le_1; lra. }
  unfold eps; lra.
Qed.
Lemma regular_if p a b : 1 <= vdot (vsub a p) (vsub a p) -> 1 <= vdot (vsub b p) (vsub b p) ->
  1 <= vdot (vcross (vsub a p) (vsub b p)) (vcross (vsub a p) (vsub b p)) -> singular p a b = false.
Proof.
  intros H1 H2 H3. unfold singular. repeat (apply orb_false_iff; split); apply Rltb_false.
  - apply norm_ge1; exact H1.
  - apply norm_ge1; exact H2.
  - rewrite vnorm_sqr. unfold eps; lra.
Qed.
Lemma dot_ge_sq u : vx u * vx u <= vdot u u /\ vy u * vy u <= vdot u u /\ vz u * vz u <= vdot u u.
Proof. unfold vdot. repeat split; nra. Qed.
Ltac big := eapply Rle_trans; [|first [apply (proj2 (proj2 (dot_ge_sq _))) | apply (proj1 (dot_ge_sq _))]]; vunfold; nra.
Ltac bigx := eapply Rle_trans; [|apply (proj1 (dot_ge_sq _))]; vunfold; nra.
Lemma line_velocity_positive p a b n nu : singular p a b = false ->
  0 < vdot (vcross (vsub a p) (vsub b p)) n -> 0 < vdot (line_velocity p a b 1 0 nu) n.
Proof.
  intros E Hn. rewrite line_velocity_regular by exact E. rewrite vdot_scale_l. apply Rmult_lt_0_compat; [|exact Hn].
  destruct (regular_nonzero _ _ _ E) as (H1 & H2 & H3). pose proof (regular_denominator p a b 1 0 nu E) as HD.
  unfold line_coefficient. apply Rmult_lt_0_compat; [|apply Rinv_0_lt_compat; exact HD].
  pose proof PI_RGT_0.
  assert (vdot (vsub a p) (vsub b p) < vnorm (vsub a p) * vnorm (vsub b p)).
  { destruct (Rle_lt_dec (vnorm (vsub a p) * vnorm (vsub b p)) (vdot (vsub a p) (vsub b p))) as [L|L]; [|exact L].
    exfalso. rewrite vnorm_sqr, lagrange in H3. rewrite <- !vnorm_mul in H3.
    assert (Hm : 0 < vnorm (vsub a p) * vnorm (vsub b p)) by (apply Rmult_lt_0_compat; assumption).
    pose proof (Rmult_le_compat _ _ _ _ (Rlt_le _ _ Hm) (Rlt_le _ _ Hm) L L). lra. }
  apply Rmult_lt_0_compat; [apply Rmult_lt_0_compat; [|lra]|lra].
  apply Rmult_lt_0_compat; [lra | apply Rinv_0_lt_compat; lra].
Qed.
Definition ex_panel : panel := p_set_position true true 0 0 (plain_panel 0 1).
Lemma ex_panel_points : p_collocation_point ex_panel = mkvec 3 (1 / 2) 0 /\ p_unit_normal ex_panel = mkvec 0 0 1 /\
  p_front_right_vortex_vertex ex_panel = mkvec 1 1 0 /\ p_front_left_vortex_vertex ex_panel = mkvec 1 0 0.
Proof.
  unfold p_collocation_point, p_unit_normal, p_front_right_vortex_vertex, p_front_left_vortex_vertex, p_right_leg, p_left_leg,
    p_cross, p_first_diagonal, p_second_diagonal; cbn [ex_panel p_set_position plain_panel new_panel p_front_right p_front_left p_back_left p_back_right].
  repeat split; try (vunfold; apply vec_ext; cbn; lra).
  replace (vcross (vsub (mkvec 0 1 0) (mkvec 4 0 0)) (vsub (mkvec 0 0 0) (mkvec 4 1 0))) with (mkvec 0 0 8)
    by (vunfold; apply vec_ext; cbn; lra).
  replace (vnorm (mkvec 0 0 8)) with 8.
  - unfold vdiv; apply vec_ext; cbn; field.
  - unfold vnorm, vdot; cbn. replace (0 * 0 + 0 * 0 + 8 * 8) with (8 * 8) by ring. rewrite sqrt_square; lra.
Qed.
Lemma ex_span : w_span (ex_wing false) = 1.
Proof.
  unfold w_span; cbn [ex_wing w_sections w_symmetric w_unit_normal length Nat.sub nth_leading_edge nth_error].
  replace (vscale _ _) with (mkvec 0 1 0).
  - apply vdot_1_norm. vunfold; ring.
  - unfold ex_placed, ex_section, cs_set_wing_chordwise, cs_leading_edge; cbn. vunfold; apply vec_ext; cbn; ring.
Qed.
Lemma ex_flat_panels : flat_panels [ex_airplane false] = [(ex_airplane false, ex_wing false, ex_panel)].
Proof. reflexivity. Qed.
(** The velocity a unit vortex with the shape of the panel's horseshoe induces. *)
Lemma ex_influence_positive c nu : 0 < c -> c * c = 3 / 4 ->
  let d := mkvec c 0 (1 / 2) in
  0 < vdot (shoe_velocity (mkvec 3 (1 / 2) 0) (vadd (mkvec 1 1 0) (vscale 20 d)) (mkvec 1 1 0) (mkvec 1 0 0)
                          (vadd (mkvec 1 0 0) (vscale 20 d)) 1 0 nu) (mkvec 0 0 1).
Proof.
  intros Hc Hcc d. unfold shoe_velocity. rewrite !vdot_add_l.
  assert (0 < c < 1) by nra.
  assert (P1 : 0 < vdot (line_velocity (mkvec 3 (1 / 2) 0) (vadd (mkvec 1 1 0) (vscale 20 d)) (mkvec 1 1 0) 1 0 nu) (mkvec 0 0 1)).
  { apply line_velocity_positive; [apply regular_if; unfold d; first [big | bigx]|]; unfold d; vunfold; nra. }
  assert (P2 : 0 < vdot (line_velocity (mkvec 3 (1 / 2) 0) (mkvec 1 1 0) (mkvec 1 0 0) 1 0 nu) (mkvec 0 0 1)).
  { apply line_velocity_positive; [apply regular_if; unfold d; first [big | bigx]|]; unfold d; vunfold; nra. }
  assert (P3 : 0 < vdot (line_velocity (mkvec 3 (1 / 2) 0) (mkvec 1 0 0) (vadd (mkvec 1 0 0) (vscale 20 d)) 1 0 nu) (mkvec 0 0 1)).
  { apply line_velocity_positive; [apply regular_if; unfold d; first [big | bigx]|]; unfold d; vunfold; nra. }
  lra.
Qed.
Lemma solve_1x1 solve a b : SolveSpec solve -> a <> 0 -> solve [[a]] [b] = Ok [b / a].
Proof.
  intros HS Ha. apply HS; [intros row [<-|[]]; reflexivity | reflexivity|]. split; [split; [reflexivity|]|].
  - unfold matvec, rsum; cbn. f_equal. field; exact Ha.
  - intros y [Ly Ey]. destruct y as [|y [|]]; try discriminate Ly. unfold matvec, rsum in Ey; cbn in Ey.
    injection Ey as Ey. f_equal. rewrite <- Ey. field; exact Ha.
Qed.
Lemma ex_horseshoe_run solve rho v : SolveSpec solve ->
  exists A s', 0 < A /\ hs_run solve (hs_new [ex_airplane false] (ex_op rho v)) = Ok s' /\ hso_strengths s' = [- (v / 2) / A].
Proof.
  intros HS. destruct (ex_direction rho v) as (c & Hc & Hcc & Hd).
  destruct ex_panel_points as (Hp & Hn & Hfr & Hfl).
  set (A := vdot (shoe_velocity (mkvec 3 (1 / 2) 0) (vadd (mkvec 1 1 0) (vscale 20 (mkvec c 0 (1 / 2)))) (mkvec 1 1 0) (mkvec 1 0 0)
                          (vadd (mkvec 1 0 0) (vscale 20 (mkvec c 0 (1 / 2)))) 1 0 0) (mkvec 0 0 1)).
  assert (HA : 0 < A) by (apply ex_influence_positive; assumption).
  exists A.
  destruct (hs_run_total solve (hs_new [ex_airplane false] (ex_op rho v)) [- (v / 2) / A] HS) as (s' & E & Hs').
  - cbn [hs_new hso_op hso_airplanes hso_freestream]. unfold hs_rows_of. rewrite ex_flat_panels, hs_influences_explicit.
    cbn [map]. unfold freestream_influences; cbn [map].
    match goal with |- solve [[?a]] [?b] = _ => assert (Ea : a = A); [|assert (Eb : b = - (v / 2))] end.
    + unfold A, hs_row_velocity, hs_row_of, hs_vortex_of, hr_collocation, hr_normal, hr_back_right, hr_front_right, hr_front_left, hr_back_left.
      cbn [hr_vortex hr_panel new_horseshoe hs_right_leg hs_left_leg new_line_vortex lv_origin lv_termination].
      rewrite Hd, ex_span, Hfr, Hfl.
      change (p_collocation_point (hs_init_panel (mkvec c 0 (1 / 2)) (1 * 20) ex_panel)) with (p_collocation_point ex_panel).
      change (p_unit_normal (hs_init_panel (mkvec c 0 (1 / 2)) (1 * 20) ex_panel)) with (p_unit_normal ex_panel).
      rewrite Hp, Hn, Rmult_1_l. reflexivity.
    + unfold hs_row_of, hr_normal. cbn [hr_panel].
      match goal with |- context [p_unit_normal (hs_init_panel ?x ?y ex_panel)] =>
        change (p_unit_normal (hs_init_panel x y ex_panel)) with (p_unit_normal ex_panel) end.
      rewrite Hn. unfold freestream_velocity. rewrite Hd. cbn. vunfold. lra.
    + rewrite Ea, Eb. apply solve_1x1; [exact HS | lra].
  - exists s'. auto.
Qed.

(** The ring solver on the same wing. *)
Definition ex_ring_row (d : vec) (p : panel) : ring_row :=
  mkringrow p vzero (new_ring (mkvec 1 0 0) (mkvec 1 1 0) (mkvec 5 0 0) (mkvec 5 1 0) 0)
    (vadd (mkvec 5 1 0) (vscale 20 d)) (mkvec 5 1 0) (mkvec 5 0 0) (vadd (mkvec 5 0 0) (vscale 20 d)).
Lemma ex_ring_rows rho v airplanes airplanes0 rows : Forall2 same_airplane [ex_airplane false] airplanes ->
  ring_init (ex_op rho v) airplanes = Ok airplanes0 -> ring_collapse airplanes0 = Ok rows ->
  exists p, same_panel ex_panel p /\ rows = [ex_ring_row (freestream_direction (ex_op rho v)) p].
Proof.
  intros Hs E0 Er. destruct ex_panel_points as (_ & _ & Hfr & Hfl).
  inversion Hs as [|? a ? l Ha Hl]; subst. inversion Hl; subst. clear Hs Hl.
  destruct Ha as (Hw & Hname & Href & _). cbn [ex_airplane a_wings] in Hw.
  inversion Hw as [|? w ? ws Hw1 Hws EQ1 EQ2]; subst. inversion Hws; subst. clear Hws Hw.
  pose proof (same_wing_span _ _ Hw1) as Hspan. rewrite ex_span in Hspan.
  destruct Hw1 as [Hw1 Hp]. change (w_panels (ex_wing false)) with [[ex_panel]] in Hp.
  inversion Hp as [|? row ? m Hrow Hm Ea Eb]; subst. inversion Hm; subst. clear Hm Hp.
  inversion Hrow as [|? p ? r Hpp Hr Ec Ed]; subst. inversion Hr; subst. clear Hrow Hr.
  unfold ring_init in E0. cbn [mapM] in E0. unfold ring_init_airplane in E0. rewrite <- EQ2 in E0. cbn [mapM] in E0.
  unfold ring_init_wing in E0. rewrite <- Eb in E0. unfold mapiM in E0. cbn [length seq combine mapM fst snd] in E0.
  unfold ring_init_panel in E0.
  pose proof (same_panel_vertices _ _ Hpp) as [Hvr Hvl]. rewrite Hfr in Hvr. rewrite Hfl in Hvl.
  pose proof Hpp as (Q1 & Q2 & Q3 & Q4 & Q5 & Q6 & _). 
  rewrite Q6 in E0. cbn [ex_panel p_set_position plain_panel new_panel p_is_trailing_edge bind] in E0.
  injection E0 as <-. 
  unfold ring_collapse, flat_panels in Er. cbn [map a_wings a_set_wings w_set_panels w_panels ravel concat app mapM] in Er.
  unfold ring_make_row in Er. cbn [p_set_ring p_set_horseshoe p_ring_vortex p_horseshoe_vortex p_is_trailing_edge] in Er.
  rewrite Q6 in Er. cbn [ex_panel p_set_position plain_panel new_panel p_is_trailing_edge bind] in Er.
  injection Er as <-. eexists; split; [|unfold ex_ring_row; f_equal; f_equal].
  - exact Hpp.
  - transitivity (a_xyz_ref a); [reflexivity | rewrite Href; reflexivity].
  - rewrite Hvl, Hvr, Q1, Q2, Q3, Q4. f_equal; cbn; vunfold; apply vec_ext; cbn; lra.
  - rewrite Hvr, Q1, Q4, Hspan. cbn. vunfold; apply vec_ext; cbn; lra.
  - rewrite Hvr, Q1, Q4. cbn. vunfold; apply vec_ext; cbn; lra.
  - rewrite Hvl, Q2, Q3. cbn. vunfold; apply vec_ext; cbn; lra.
  - rewrite Hvl, Q2, Q3, Hspan. cbn. vunfold; apply vec_ext; cbn; lra.
Qed.

Definition ex_Q : R := vdot (quad_velocity (mkvec 3 (1 / 2) 0) (mkvec 5 1 0) (mkvec 1 1 0) (mkvec 1 0 0) (mkvec 5 0 0) 1 0 0) (mkvec 0 0 1).
Definition ex_H (d : vec) : R :=
  vdot (shoe_velocity (mkvec 3 (1 / 2) 0) (vadd (mkvec 5 1 0) (vscale 20 d)) (mkvec 5 1 0) (mkvec 5 0 0)
                      (vadd (mkvec 5 0 0) (vscale 20 d)) 1 0 0) (mkvec 0 0 1).
Lemma ex_Q_positive : 0 < ex_Q.
Proof.
  unfold ex_Q, quad_velocity. rewrite !vdot_add_l.
  assert (P1 : 0 < vdot (line_velocity (mkvec 3 (1 / 2) 0) (mkvec 5 1 0) (mkvec 1 1 0) 1 0 0) (mkvec 0 0 1)).
  { apply line_velocity_positive; [apply regular_if; vunfold; lra | vunfold; lra]. }
  assert (P2 : 0 < vdot (line_velocity (mkvec 3 (1 / 2) 0) (mkvec 1 1 0) (mkvec 1 0 0) 1 0 0) (mkvec 0 0 1)).
  { apply line_velocity_positive; [apply regular_if; vunfold; lra | vunfold; lra]. }
  assert (P3 : 0 < vdot (line_velocity (mkvec 3 (1 / 2) 0) (mkvec 1 0 0) (mkvec 5 0 0) 1 0 0) (mkvec 0 0 1)).
  { apply line_velocity_positive; [apply regular_if; vunfold; lra | vunfold; lra]. }
  assert (P4 : 0 < vdot (line_velocity (mkvec 3 (1 / 2) 0) (mkvec 5 0 0) (mkvec 5 1 0) 1 0 0) (mkvec 0 0 1)).
  { apply line_velocity_positive; [apply regular_if; vunfold; lra | vunfold; lra]. }
  lra.
Qed.
Lemma ex_QH_positive c : 0 < c -> c * c = 3 / 4 -> 0 < ex_Q + ex_H (mkvec c 0 (1 / 2)).
Proof.
  intros Hc Hcc. set (d := mkvec c 0 (1 / 2)). unfold ex_Q, ex_H, quad_velocity, shoe_velocity. rewrite !vdot_add_l.
  rewrite (line_velocity_reverse (mkvec 3 (1 / 2) 0) (mkvec 5 0 0) (mkvec 5 1 0)).
  rewrite vopp_scale, vdot_scale_l.
  assert (0 < c < 1) by nra.
  assert (P1 : 0 < vdot (line_velocity (mkvec 3 (1 / 2) 0) (mkvec 5 1 0) (mkvec 1 1 0) 1 0 0) (mkvec 0 0 1)).
  { apply line_velocity_positive; [apply regular_if; vunfold; lra | vunfold; lra]. }
  assert (P2 : 0 < vdot (line_velocity (mkvec 3 (1 / 2) 0) (mkvec 1 1 0) (mkvec 1 0 0) 1 0 0) (mkvec 0 0 1)).
  { apply line_velocity_positive; [apply regular_if; vunfold; lra | vunfold; lra]. }
  assert (P3 : 0 < vdot (line_velocity (mkvec 3 (1 / 2) 0) (mkvec 1 0 0) (mkvec 5 0 0) 1 0 0) (mkvec 0 0 1)).
  { apply line_velocity_positive; [apply regular_if; vunfold; lra | vunfold; lra]. }
  assert (P4 : 0 < vdot (line_velocity (mkvec 3 (1 / 2) 0) (vadd (mkvec 5 1 0) (vscale 20 d)) (mkvec 5 1 0) 1 0 0) (mkvec 0 0 1)).
  { apply line_velocity_positive; [apply regular_if; unfold d; first [big | bigx]|]; unfold d; vunfold; nra. }
  assert (P5 : 0 < vdot (line_velocity (mkvec 3 (1 / 2) 0) (mkvec 5 0 0) (vadd (mkvec 5 0 0) (vscale 20 d)) 1 0 0) (mkvec 0 0 1)).
  { apply line_velocity_positive; [apply regular_if; unfold d; first [big | bigx]|]; unfold d; vunfold; nra. }
  lra.
Qed.
Lemma ex_ring_system rho v s : rso_op s = ex_op rho v -> rso_freestream s = freestream_velocity (ex_op rho v) ->
  Forall2 same_airplane [ex_airplane false] (rso_airplanes s) -> forall g h,
  rso_strengths s = [g] -> rso_hs_strengths s = [h] -> forall solve, SolveSpec solve ->
  let k := g * ex_Q + ex_H (freestream_direction (ex_op rho v)) in
  k <> 0 -> exists s', ring_run solve s = Ok s' /\ rso_strengths s' = [- (v / 2) / k].
Proof.
  intros Hop Hfs Hair g h Hg Hh solve HS k Hk.
  assert (Hn : length (all_panels (rso_airplanes s)) = 1%nat).
  { apply same_all_panels, Forall2_length in Hair. rewrite <- Hair. reflexivity. }
  destruct (ring_run_total solve s HS) as (l0 & rows & E0 & Er & Hrun).
  - split; rewrite Hn; [rewrite Hg | rewrite Hh]; reflexivity.
  - eapply well_meshed_airplanes_same; [exact Hair|]. intros a w [<-|[]]. apply (proj1 (ex_well_meshed false)).
  - rewrite Hop in E0. destruct (ex_ring_rows rho v _ _ _ Hair E0 Er) as (p & Hp & ->).
    apply Hrun. rewrite Hg, Hh, Hfs. cbn [ring_collapse_hs_strengths map2 map].
    replace (p_is_trailing_edge (rr_panel (ex_ring_row (freestream_direction (ex_op rho v)) p))) with true
      by (cbn; symmetry; apply Hp).
    rewrite ring_influences_general by reflexivity. cbn [map combine fst snd]. unfold freestream_influences; cbn [map].
    destruct (same_panel_collocation _ _ Hp) as [Hc Hnn]. destruct ex_panel_points as (Hpc & Hpn & _).
    rewrite Hpc in Hc. rewrite Hpn in Hnn.
    unfold rr_normal, rr_collocation.
    change (rr_panel (ex_ring_row (freestream_direction (ex_op rho v)) p)) with p. rewrite Hc, Hnn.
    match goal with |- solve [[?a]] [?b] = _ => assert (Ea : a = k); [|assert (Eb : b = - (v / 2))] end.
    + unfold k, ex_Q, ex_H, ring_row_velocity. rewrite vdot_add_l, <- vdot_scale_l, <- quad_velocity_linear, Rmult_1_r. reflexivity.
    + destruct (ex_direction rho v) as (c & _ & _ & Hd). unfold freestream_velocity. rewrite Hd. cbn. clear. vunfold. lra.
    + rewrite Ea, Eb. apply solve_1x1; [exact HS | exact Hk].
Qed.

Lemma ex_fresh op : fresh_ring (ring_new [ex_airplane false] op).
Proof. apply ring_new_fresh. intros a [<-|[]]. apply (proj2 (ex_well_meshed false)). Qed.
Lemma ex_ring_first solve rho v : SolveSpec solve ->
  exists A s', 0 < A /\ A = ex_Q + ex_H (freestream_direction (ex_op rho v)) /\
    ring_run solve (ring_new [ex_airplane false] (ex_op rho v)) = Ok s' /\ rso_strengths s' = [- (v / 2) / A].
Proof.
  intros HS. destruct (ex_direction rho v) as (c & Hc & Hcc & Hd).
  pose proof (ex_QH_positive c Hc Hcc) as HA. rewrite <- Hd in HA.
  destruct (ex_ring_system rho v (ring_new [ex_airplane false] (ex_op rho v)) eq_refl eq_refl) with (g := 1) (h := 0) (solve := solve)
    as (s' & E & Hs'); try reflexivity; try assumption.
  - constructor; [|constructor]. repeat split; try reflexivity. repeat constructor; apply same_panel_refl.
  - rewrite Rmult_1_l. lra.
  - rewrite Rmult_1_l in Hs'. eauto 6.
Qed.
(** Running the ring solver again gives another answer. *)
Lemma ring_rerun_differs solve : SolveSpec solve ->
  exists airplanes op s1 s2, fresh_ring (ring_new airplanes op) /\
    (forall a, In a airplanes -> well_meshed_airplane a) /\
    ring_run solve (ring_new airplanes op) = Ok s1 /\ ring_run solve s1 = Ok s2 /\
    rso_strengths s2 <> rso_strengths s1.
Proof.
  intros HS. pose proof ex_Q_positive as HQ.
  destruct (ex_ring_first solve 1 0 HS) as (A & _ & HA & EA & _).
  assert (ED : forall v, freestream_direction (ex_op 1 v) = freestream_direction (ex_op 1 0)) by reflexivity.
  set (H := ex_H (freestream_direction (ex_op 1 0))) in *.
  set (t := Rabs H / ex_Q + 1).
  assert (Ht : t * ex_Q = Rabs H + ex_Q) by (unfold t; field; lra).
  pose proof (Rabs_pos H). pose proof (Rle_abs H).
  assert (Htp : 0 < t) by (unfold t; apply Rplus_le_lt_0_compat; [apply Rmult_le_pos; [lra | left; apply Rinv_0_lt_compat; lra] | lra]).
  destruct (ex_ring_first solve 1 (2 * (t * A)) HS) as (A' & s1 & _ & EA' & E1 & Hs1).
  rewrite ED in EA'. fold H in EA'. rewrite <- EA in EA'. subst A'.
  assert (Hg : rso_strengths s1 = [- t]) by (rewrite Hs1; f_equal; field; lra).
  pose proof (ring_run_inv _ _ _ E1) as (l0 & l1 & loads & I0 & Ir & Iop & Ifs & _ & _ & Ihs & _).
  assert (Hk : - t * ex_Q + H <> 0) by lra.
  assert (Hh : exists h, rso_hs_strengths s1 = [h]).
  { destruct (ring_sized_run _ _ _ HS (fresh_sized _ (ex_fresh _)) E1) as (L1 & L2 & _). rewrite Hg in L1. cbn in L1.
    rewrite <- L1 in L2. destruct (rso_hs_strengths s1) as [|h [|]]; try discriminate L2. eauto. }
  destruct Hh as [h Hh].
  destruct (ex_ring_system 1 (2 * (t * A)) s1) with (g := - t) (h := h) (solve := solve) as (s2 & E2 & Hs2); try assumption.
  - exact (ring_run_same _ _ _ E1).
  - exists [ex_airplane false], (ex_op 1 (2 * (t * A))), s1, s2.
    split; [apply ex_fresh|]. split; [intros a [<-|[]]; apply ex_well_meshed|]. split; [exact E1|]. split; [exact E2|].
    rewrite Hs2, Hg, ED. fold H. intros X. injection X as X.
    assert (Y : - (2 * (t * A) / 2) = - t * (- t * ex_Q + H)) by (transitivity (- (2 * (t * A) / 2) / (- t * ex_Q + H) * (- t * ex_Q + H)); [field; exact Hk | rewrite X; reflexivity]).
    rewrite EA in Y. assert (Z : t * (ex_Q * (1 + t)) = 0) by lra.
    assert (0 < t * (ex_Q * (1 + t))) by (apply Rmult_lt_0_compat; [lra | apply Rmult_lt_0_compat; lra]). lra.
Qed.
