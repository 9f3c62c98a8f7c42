(** A convergence analysis that succeeds: one flat plate, 4 by 4, at 30 degrees. *)
From Coq Require Import Lra Lia.
From Verif Require Import M_Convergence S_Convergence S_Geometry S_Wing S_Solve S_Loads.
From Verif Require Import L_Base L_Aero L_Loads L_Meshing L_Geometry L_Frames L_Horseshoe L_Search L_Convergence L_Remesh L_Analysis L_Example L_Gaps L_Decay L_Rotations.

Definition wide_panel : panel := p_set_position true true 0 0 (plain_panel 0 4).
Definition wide_sections (k : nat) : list section := [plate 0 "symmetric" 0 1; plate 4 "symmetric" 0 k].
Definition wide_wing (k : nat) : wing :=
  mkwing (map placed (wide_sections k)) "wing" 0 0 0 (mkvec 0 1 0) false (mkvec 1 0 0) 1 "uniform" 1 1 [[wide_panel]] [] [].
Lemma wide_wing_ok k : new_wing (wide_sections k) "wing" 0 0 0 (mkvec 0 1 0) false (mkvec 1 0 0) 1 "uniform" = Ok (wide_wing k).
Proof.
  assert (HC : exists w, new_wing (wide_sections k) "wing" 0 0 0 (mkvec 0 1 0) false (mkvec 1 0 0) 1 "uniform" = Ok w).
  { apply wing_created_iff; [exact y_nonzero|]. split.
    - apply plate_rules; [cbn; lia | reflexivity | | intros root [= <-]; plates]. intros s Hs. unfold wide_sections in Hs. plates.
    - split; [lia|]. intros i o Hio. unfold wide_sections, adjacent in Hio. cbn in Hio.
      destruct Hio as [[= <- <-]|[]]; cbn [cs_control_surface_deflection cs_control_surface_hinge_point plate];
        (split; [|split; [|discriminate]]); apply plate_takes; eauto. }
  destruct HC as [w Hw]. rewrite Hw. f_equal.
  apply wing_mesh in Hw. destruct Hw as (m0 & HL & ->). cbn [w_panels w_sections] in *.
  destruct HL as (rights & lefts & HR & _ & -> & ->). cbn [ms_num_chordwise] in *.
  unfold wide_sections in HR. cbn [map] in HR. change (mkmesh (mkvec 0 0 0) (mkvec 0 1 0) false 1 "uniform") with (ex_spec false) in *.
  apply strips_cons in HR. destruct HR as (m1 & ms1 & -> & H1 & HR). inversion HR; subst ms1.
  apply (plate_strip _ _ _ _ _ _ _ _ _ 1 0) in H1; [|left; auto]. subst m1.
  unfold wide_wing. f_equal. cbn. unfold wide_panel, plain_panel, p_set_position. cbn. repeat f_equal; ring.
Qed.
Definition wide_airplane (k : nat) : airplane := mkairplane [wide_wing k] "plane" 0 0 0 0 16 4 4 1 None None None None.
Lemma wide_span k : w_span (wide_wing k) = 4.
Proof.
  unfold w_span; cbn [wide_wing wide_sections map w_sections w_symmetric w_unit_normal length Nat.sub nth_leading_edge nth_error].
  replace (vscale _ _) with (mkvec 0 4 0).
  - unfold vnorm, vdot; cbn. replace (0 * 0 + 4 * 4 + 0 * 0) with (4 * 4) by ring. apply sqrt_square; lra.
  - unfold plate, cs_set_wing_chordwise, cs_leading_edge; cbn. vunfold; apply vec_ext; cbn; ring.
Qed.
Lemma wide_area k : w_projected_area (wide_wing k) = 16.
Proof.
  unfold w_projected_area. cbn [wide_wing w_panels ravel concat app map]. rewrite rsum_cons. change (rsum []) with 0.
  assert (E : w_unit_up (wide_wing k) = mkvec 0 0 1) by (unfold w_unit_up; cbn [wide_wing w_unit_normal w_unit_chordwise]; vunfold; apply vec_ext; cbn; ring).
  rewrite E.
  unfold p_projected_area, p_first_diagonal, p_second_diagonal, wide_panel, plain_panel, p_set_position, new_panel.
  cbn [p_front_right p_front_left p_back_left p_back_right].
  match goal with |- vnorm ?x / 2 + 0 = _ => replace x with (mkvec 0 0 32) by (vunfold; apply vec_ext; cbn; ring) end.
  unfold vnorm, vdot; cbn. replace (0 * 0 + 0 * 0 + 32 * 32) with (32 * 32) by ring. rewrite sqrt_square; lra.
Qed.
Lemma wide_mean_chord k : w_mean_aerodynamic_chord (wide_wing k) = 4.
Proof.
  unfold w_mean_aerodynamic_chord. rewrite wide_area. cbn [wide_wing wide_sections map w_sections w_symmetric w_unit_normal tl map2]. rewrite rsum_cons. change (rsum []) with 0.
  unfold mac_term. replace (vscale _ _) with (mkvec 0 4 0).
  - replace (vnorm (mkvec 0 4 0)) with 4; [unfold plate; cbn; field|].
    unfold vnorm, vdot; cbn. replace (0 * 0 + 4 * 4 + 0 * 0) with (4 * 4) by ring. symmetry. apply sqrt_square; lra.
  - unfold plate, cs_set_wing_chordwise, cs_leading_edge; cbn. vunfold; apply vec_ext; cbn; ring.
Qed.
Lemma wide_airplane_ok k : new_airplane [wide_wing k] "plane" 0 0 0 0 None None None = Ok (wide_airplane k).
Proof. unfold new_airplane, override. rewrite wide_area, wide_mean_chord, wide_span. reflexivity. Qed.

(** ** The copies *)
Lemma plate_copied pchip database y c k : (0 <= k)%Z ->
  copy_section pchip database (placed (plate y "symmetric" 0 c)) k = Ok (plate y "symmetric" 0 (Z.to_nat k)).
Proof.
  intros Hk. unfold copy_section. change (cs_airfoil (placed (plate y "symmetric" 0 c))) with (flat_named "plate").
  change (af_coordinates (flat_named "plate")) with flat_coordinates. change (af_name (flat_named "plate")) with "plate"%string.
  change (af_repanel (flat_named "plate")) with false. change (af_n_points_per_side (flat_named "plate")) with 400%nat.
  rewrite new_flat. cbn [bind]. unfold count. replace (Z.leb 0 k) with true by (symmetry; apply Z.leb_le; exact Hk). cbn [bind].
  unfold new_section, plate, cs_set_wing_chordwise; cbn [cs_x_le cs_y_le cs_z_le cs_chord cs_twist cs_control_surface_type cs_control_surface_hinge_point cs_control_surface_deflection cs_spanwise_spacing].
  rdec. reflexivity.
Qed.
Lemma plates_between c k y n ar z : y <> 0 -> IZR ar <> 0 -> nearest (y * IZR n / (4 * IZR ar)) z ->
  section_spanwise (placed (plate 0 "symmetric" 0 c)) (placed (plate y "symmetric" 0 k)) n ar = Ok z.
Proof.
  intros Hy Ha Hz. unfold section_spanwise, plate, cs_set_wing_chordwise; cbn [cs_y_le cs_chord].
  replace (Reqb (y - 0) 0) with false by (symmetry; apply Reqb_false; lra).
  replace ((y - 0) * (4 + 4) / 2 / (y - 0)) with 4 by (field; lra).
  replace (Reqb (4 * IZR ar) 0) with false by (symmetry; apply Reqb_false; lra).
  f_equal. rewrite Rminus_0_r. exact (nearest_unique _ _ _ (py_round_nearest _) Hz).
Qed.
Lemma wide_copied pchip database k : copy_airplane pchip database 1 1 (wide_airplane k) = Ok (wide_airplane 0).
Proof.
  unfold copy_airplane. cbn [wide_airplane a_wings mapM]. unfold copy_wing. cbn [wide_wing w_sections wide_sections map copy_sections spanwise_after].
  rewrite (plates_between _ _ _ _ _ 1); [|lra|lra|left; replace (4 * 1 / (4 * 1) - 1) with 0 by field; rewrite Rabs_R0; lra].
  cbn [bind]. rewrite !plate_copied by lia. cbn [bind]. change [plate 0 "symmetric" 0 (Z.to_nat 1); plate 4 "symmetric" 0 (Z.to_nat 0)] with (wide_sections 0).
  unfold copy_wing_with. cbn [wide_wing w_name w_x_le w_y_le w_z_le w_symmetric w_chordwise_spacing]. change (count 1) with (Ok 1%nat). cbn [bind].
  unfold default_unit_normal, default_unit_chordwise. rewrite wide_wing_ok. cbn [bind]. unfold copy_airplane_with.
  cbn [wide_airplane a_name a_x_ref a_y_ref a_z_ref a_weight]. apply wide_airplane_ok.
Qed.

(** ** The run *)
Lemma wide_points : p_collocation_point wide_panel = mkvec 3 2 0 /\ p_unit_normal wide_panel = mkvec 0 0 1 /\
  p_front_right_vortex_vertex wide_panel = mkvec 1 4 0 /\ p_front_left_vortex_vertex wide_panel = mkvec 1 0 0.
Proof.
  unfold p_collocation_point, p_unit_normal, p_front_right_vortex_vertex, p_front_left_vortex_vertex, p_right_leg, p_left_leg,
    p_cross, p_first_diagonal, p_second_diagonal; cbn [wide_panel p_set_position plain_panel new_panel p_front_right p_front_left p_back_left p_back_right].
  repeat split; try (vunfold; apply vec_ext; cbn; lra).
  match goal with |- vdiv ?x _ = _ => replace x with (mkvec 0 0 32) by (vunfold; apply vec_ext; cbn; ring) end.
  replace (vnorm (mkvec 0 0 32)) with 32.
  - unfold vdiv; apply vec_ext; cbn; field.
  - unfold vnorm, vdot; cbn. replace (0 * 0 + 0 * 0 + 32 * 32) with (32 * 32) by ring. rewrite sqrt_square; lra.
Qed.
Lemma wide_influence_positive c nu : 0 < c -> c * c = 3 / 4 ->
  let d := mkvec c 0 (1 / 2) in
  0 < vdot (shoe_velocity (mkvec 3 2 0) (vadd (mkvec 1 4 0) (vscale 80 d)) (mkvec 1 4 0) (mkvec 1 0 0)
                          (vadd (mkvec 1 0 0) (vscale 80 d)) 1 0 nu) (mkvec 0 0 1).
Proof.
  intros Hc Hcc d. unfold shoe_velocity. rewrite !vdot_add_l.
  assert (0 < c < 1) by nra.
  assert (P1 : 0 < vdot (line_velocity (mkvec 3 2 0) (vadd (mkvec 1 4 0) (vscale 80 d)) (mkvec 1 4 0) 1 0 nu) (mkvec 0 0 1)).
  { apply line_velocity_positive; [apply regular_if; unfold d; first [big | bigx]|]; unfold d; vunfold; nra. }
  assert (P2 : 0 < vdot (line_velocity (mkvec 3 2 0) (mkvec 1 4 0) (mkvec 1 0 0) 1 0 nu) (mkvec 0 0 1)).
  { apply line_velocity_positive; [apply regular_if; unfold d; first [big | bigx]|]; unfold d; vunfold; nra. }
  assert (P3 : 0 < vdot (line_velocity (mkvec 3 2 0) (mkvec 1 0 0) (vadd (mkvec 1 0 0) (vscale 80 d)) 1 0 nu) (mkvec 0 0 1)).
  { apply line_velocity_positive; [apply regular_if; unfold d; first [big | bigx]|]; unfold d; vunfold; nra. }
  lra.
Qed.
Lemma leg_at_most p a b n nu : vnorm n = 1 ->
  0 < vdot (vcross (vsub a p) (vsub b p)) (vcross (vsub a p) (vsub b p)) ->
  4 * vdot (vsub b a) (vsub b a) <= vdot (vcross (vsub a p) (vsub b p)) (vcross (vsub a p) (vsub b p)) ->
  vdot (line_velocity p a b 1 0 nu) n <= 1 / 12.
Proof.
  intros Hn Hx He. pose proof (vnorm_dot_le (line_velocity p a b 1 0 nu) n) as HD. rewrite Hn, Rmult_1_r in HD. pose proof (Rle_abs (vdot (line_velocity p a b 1 0 nu) n)) as HA.
  pose proof (line_velocity_decay p a b 1 0 nu) as K. rewrite Rabs_R1 in K. set (x := vcross (vsub a p) (vsub b p)) in *. set (e := vsub b a) in *.
  assert (Hxp : 0 < vnorm x) by (apply sqrt_lt_R0; exact Hx). assert (HE : 2 * vnorm e <= vnorm x).
  { apply Rsqr_incr_0; [|pose proof (vnorm_nonneg e); lra | lra]. unfold Rsqr. replace (2 * vnorm e * (2 * vnorm e)) with (4 * (vnorm e * vnorm e)) by ring. rewrite !vnorm_mul. exact He. }
  pose proof PI2_3_2 as HPI. assert (H6 : 1 / (2 * PI) <= 1 / 6). { unfold Rdiv. rewrite !Rmult_1_l. apply Rinv_le_contravar; lra. }
  assert (H2 : vnorm (line_velocity p a b 1 0 nu) * vnorm x <= 1 / 12 * vnorm x).
  { apply Rle_trans with (1 := K). apply Rle_trans with (1 / 6 * vnorm e); [apply Rmult_le_compat_r; [apply vnorm_nonneg | exact H6] | lra]. }
  apply Rmult_le_reg_r in H2; [lra | exact Hxp].
Qed.
Lemma wide_influence_at_most c nu : 0 < c -> c * c = 3 / 4 ->
  let d := mkvec c 0 (1 / 2) in
  vdot (shoe_velocity (mkvec 3 2 0) (vadd (mkvec 1 4 0) (vscale 80 d)) (mkvec 1 4 0) (mkvec 1 0 0)
                          (vadd (mkvec 1 0 0) (vscale 80 d)) 1 0 nu) (mkvec 0 0 1) <= 1 / 4.
Proof.
  intros Hc Hcc d. unfold shoe_velocity. rewrite !vdot_add_l. assert (Hn : vnorm (mkvec 0 0 1) = 1) by (apply vdot_1_norm; vunfold; ring).
  pose proof (leg_at_most (mkvec 3 2 0) (vadd (mkvec 1 4 0) (vscale 80 d)) (mkvec 1 4 0) _ nu Hn) as P1.
  pose proof (leg_at_most (mkvec 3 2 0) (mkvec 1 4 0) (mkvec 1 0 0) _ nu Hn) as P2.
  pose proof (leg_at_most (mkvec 3 2 0) (mkvec 1 0 0) (vadd (mkvec 1 0 0) (vscale 80 d)) _ nu Hn) as P3.
  specialize (P1 ltac:(unfold d; vunfold; nra) ltac:(unfold d; vunfold; nra)). specialize (P2 ltac:(vunfold; nra) ltac:(vunfold; nra)). specialize (P3 ltac:(unfold d; vunfold; nra) ltac:(unfold d; vunfold; nra)). lra.
Qed.
Lemma wide_flat k : flat_panels [wide_airplane k] = [(wide_airplane k, wide_wing k, wide_panel)].
Proof. reflexivity. Qed.
Lemma wide_run solve rho v k : SolveSpec solve ->
  exists A s', 0 < A <= 1 / 4 /\ hs_run solve (hs_new [wide_airplane k] (ex_op rho v)) = Ok s' /\ hso_strengths s' = [- (v / 2) / A].
Proof.
  intros HS. destruct (ex_direction rho v) as (c & Hc & Hcc & Hd).
  destruct wide_points as (Hp & Hn & Hfr & Hfl).
  set (A := vdot (shoe_velocity (mkvec 3 2 0) (vadd (mkvec 1 4 0) (vscale 80 (mkvec c 0 (1 / 2)))) (mkvec 1 4 0) (mkvec 1 0 0)
                          (vadd (mkvec 1 0 0) (vscale 80 (mkvec c 0 (1 / 2)))) 1 0 0) (mkvec 0 0 1)).
  assert (HA : 0 < A <= 1 / 4) by (split; [apply wide_influence_positive | apply wide_influence_at_most]; assumption).
  exists A.
  destruct (hs_run_total solve (hs_new [wide_airplane k] (ex_op rho v)) [- (v / 2) / A] HS) as (s' & E & Hs').
  - cbn [hs_new hso_op hso_airplanes hso_freestream]. unfold hs_rows_of. rewrite wide_flat, hs_influences_explicit.
    cbn [map]. unfold freestream_influences; cbn [map].
    match goal with |- solve [[?a]] [?b] = _ => assert (Ea : a = A); [|assert (Eb : b = - (v / 2))] end.
    + unfold A, hs_row_velocity, hs_row_of, hs_vortex_of, hr_collocation, hr_normal, hr_back_right, hr_front_right, hr_front_left, hr_back_left.
      cbn [hr_vortex hr_panel new_horseshoe hs_right_leg hs_left_leg new_line_vortex lv_origin lv_termination].
      rewrite Hd, wide_span, Hfr, Hfl.
      change (p_collocation_point (hs_init_panel (mkvec c 0 (1 / 2)) (4 * 20) wide_panel)) with (p_collocation_point wide_panel).
      change (p_unit_normal (hs_init_panel (mkvec c 0 (1 / 2)) (4 * 20) wide_panel)) with (p_unit_normal wide_panel).
      rewrite Hp, Hn. replace (4 * 20) with 80 by ring. reflexivity.
    + unfold hs_row_of, hr_normal. cbn [hr_panel].
      match goal with |- context [p_unit_normal (hs_init_panel ?x ?y wide_panel)] =>
        change (p_unit_normal (hs_init_panel x y wide_panel)) with (p_unit_normal wide_panel) end.
      rewrite Hn. unfold freestream_velocity. rewrite Hd. cbn. vunfold. lra.
    + rewrite Ea, Eb. apply solve_1x1; [exact HS | lra].
  - exists s'. auto.
Qed.
(** The force on the plate is not zero: the velocity at its bound vortex has the
    freestream's component along the trailing legs. *)
Lemma along_legs d x fr fl L g : vcross (vsub fr x) (vsub fl x) = vzero -> 0 < L ->
  vdot (shoe_velocity x (vadd fr (vscale L d)) fr fl (vadd fl (vscale L d)) g 0 0) d = 0.
Proof.
  intros HX HL. unfold shoe_velocity. rewrite !vdot_add_l.
  rewrite (line_velocity_singular x fr fl) by (apply singular_on_line; exact HX).
  pose proof (proj2 (proj2 (line_velocity_perp x (vadd fr (vscale L d)) fr g 0 0))) as H1.
  pose proof (proj2 (proj2 (line_velocity_perp x fl (vadd fl (vscale L d)) g 0 0))) as H2.
  replace (vsub fr (vadd fr (vscale L d))) with (vscale (- L) d) in H1 by vring.
  replace (vsub (vadd fl (vscale L d)) fl) with (vscale L d) in H2 by vring.
  rewrite vdot_scale_l in H1, H2. rewrite vdot_comm in H1, H2.
  assert (Hz : vdot vzero d = 0) by (vunfold; ring). rewrite Hz. nra.
Qed.
Lemma wide_lift rho v c u g fw k : freestream_direction (ex_op rho v) = mkvec c 0 (1 / 2) -> vdot u (mkvec c 0 (1 / 2)) = k ->
  mvmul (rotation_wind_to_geometry (ex_op rho v)) fw = vscale g (vcross u (mkvec 0 (-4) 0)) -> vz fw = 4 * k * g.
Proof.
  intros Hd Hu Rf. rewrite <- (proj2 (geometry_wind_roundtrip (ex_op rho v) fw)), Rf. clear Rf. subst k. rewrite freestream_direction_explicit in Hd. rewrite w2g_explicit. cbn [ex_op op_alpha op_beta] in *.
  replace (radians 0) with 0 in * by (unfold radians; ring). rewrite cos_0, sin_0 in *.
  pose proof (f_equal vx Hd) as Q1. pose proof (f_equal vz Hd) as Q2. clear Hd. cbn [vx vz] in Q1, Q2. replace (sin (radians 30)) with (1 / 2) by lra. replace (cos (radians 30)) with c by lra. clear.
  destruct u as [ux uy uz]. vunfold. lra.
Qed.
Lemma wide_loads solve k : SolveSpec solve -> exists s' f m a,
  hs_run solve (hs_new [wide_airplane k] (ex_op 1 10)) = Ok s' /\ hso_airplanes s' = [a] /\
  a_force_coefficients a = Some f /\ a_moment_coefficients a = Some m /\ vnorm f <> 0 /\ vnorm m <> 0 /\
  exists fw, a_force_wind a = Some fw /\ vz fw <= -1 /\ 1 <= vz f.
Proof.
  intros HS. destruct (wide_run solve 1 10 k HS) as (A & s' & HA & E & Hs). destruct (ex_direction 1 10) as (c & Hc & Hcc & Hd).
  destruct wide_points as (Hp & Hn & Hfr & Hfl). pose proof (hs_run_same _ _ _ E) as Fs.
  assert (Ha : exists a, hso_airplanes s' = [a] /\ same_airplane (wide_airplane k) a).
  { cbn [hs_new hso_airplanes] in Fs. inversion Fs as [|x a l l' H0 H1]; subst. inversion H1; subst. eauto. }
  destruct Ha as (a & Ea & Hsame). pose proof (hs_run_inv _ _ _ E) as (Eop & Efs & Er & _ & _ & _ & airplanes1 & Eu & Ep).
  cbn [hs_new hso_op hso_airplanes hso_freestream] in *. rewrite Hs in *.
  set (g := - (10 / 2) / A) in *. unfold hs_rows_of in Ep, Er. rewrite wide_flat in Ep, Er. cbn [map] in Ep, Er.
  rewrite hs_moments_explicit in Ep by reflexivity. rewrite hs_forces_explicit in Ep by reflexivity. cbn [combine map fst snd] in Ep.
  set (row := hs_row_of (freestream_direction (ex_op 1 10)) (wide_airplane k, wide_wing k, wide_panel)) in *.
  set (vel := hs_velocity_at [row] [g] (freestream_velocity (ex_op 1 10))) in *.
  refine (_ (totals_frames _ _ _ _ _ _ Ep 0%nat a _)); [|reflexivity | rewrite Ea; reflexivity]. intros T.
  assert (HF : exists u, vdot u (mkvec c 0 (1 / 2)) = 10 /\
     hs_row_force (op_density (ex_op 1 10)) vel row g = vscale g (vcross u (mkvec 0 (-4) 0)) /\
     hs_row_moment (op_density (ex_op 1 10)) vel row g = vcross (mkvec 1 2 0) (vscale g (vcross u (mkvec 0 (-4) 0)))).
  { assert (EC : hr_bound_center row = mkvec 1 2 0).
    { unfold row, hr_bound_center, hs_row_of, hs_vortex_of. cbn. unfold lv_center. cbn. rewrite Hfr, Hfl. vunfold; apply vec_ext; cbn; lra. }
    assert (EV : hr_bound_vector row = mkvec 0 (-4) 0).
    { unfold row, hr_bound_vector, hs_row_of, hs_vortex_of. cbn. unfold lv_vector. cbn. rewrite Hfr, Hfl. vunfold; apply vec_ext; cbn; lra. }
    exists (vel (mkvec 1 2 0)). split; [|split].
    - unfold vel, hs_velocity_at. cbn [combine map fst snd]. 
      rewrite vdot_add_l. unfold row, hs_row_velocity, hs_row_of, hs_vortex_of, hr_back_right, hr_front_right, hr_front_left, hr_back_left.
      cbn [hr_vortex new_horseshoe hs_right_leg hs_left_leg new_line_vortex lv_origin lv_termination]. rewrite Hd, Hfr, Hfl, wide_span.
      rewrite vsum_cons, vdot_add_l, along_legs; [|vunfold; apply vec_ext; cbn; ring | lra].
      change (vsum []) with vzero. unfold freestream_velocity. rewrite Hd. cbn [op_velocity ex_op]. vunfold. nra.
    - unfold hs_row_force, leg_force. rewrite EC, EV. cbn [ex_op op_density]. vunfold; apply vec_ext; cbn; ring.
    - unfold hs_row_moment, hs_row_force, leg_force. rewrite EC, EV. cbn [ex_op op_density].
      change (hr_ref row) with (mkvec 0 0 0). vunfold; apply vec_ext; cbn; ring. }
  destruct HF as (u & Hu & HF & HM). rewrite HF, HM in T.
  destruct T as (fw & mw & cf & cm & Efw & _ & Ecf & Ecm & Rf & _ & Nf & Nm & _ & Cf & Cm).
  assert (EO : forall x : vec, own_entries airplanes1 0 [x] = [x]).
  { apply update_panels_sound in Eu. destruct Eu as (us & rest & _ & Fu). apply airplanes_updated_same in Fu; [|apply hs_set_strength_same].
    assert (F1 : Forall2 same_airplane [wide_airplane k] airplanes1) by (eapply same_airplanes_trans; [apply hs_init_same | exact Fu]).
    intros x. inversion F1 as [|b a1 l l' H0 H1]; subst. inversion H1; subst. apply same_airplane_panels, Forall2_length in H0.
    unfold own_entries, panels_before. cbn [nth_error firstn all_panels map concat length skipn]. rewrite <- H0. reflexivity. }
  rewrite EO in Rf. rewrite !EO in Nf, Nm. destruct Hsame as (_ & _ & _ & _ & ES & EC & EB & _). rewrite ES, EC, EB in *. cbn [wide_airplane a_s_ref a_c_ref a_b_ref] in *.
  cbn [ex_op op_density op_velocity] in Cf, Cm. specialize (Cf ltac:(lra) ltac:(lra)). specialize (Cm ltac:(lra) ltac:(lra) ltac:(lra) ltac:(lra)).
  assert (Hg : g < 0). { unfold g. assert (0 < / A) by (apply Rinv_0_lt_compat; apply HA). unfold Rdiv. nra. }
  assert (Hz : vz fw = 40 * g).
  { replace 40 with (4 * 10) by ring. apply (wide_lift 1 10 c u g fw 10 Hd Hu). rewrite Rf, vsum_cons. change (vsum []) with vzero. apply vadd_0_r. }
  assert (Hg20 : g <= -20). { unfold g, Rdiv. assert (4 <= / A) by (replace 4 with (/ (1 / 4)) by lra; apply Rinv_le_contravar; lra). lra. }
  assert (Z : forall x, vnorm (vsum [x]) = 0 -> x = vzero). { intros x H. apply vnorm_eq_0 in H. rewrite vsum_cons in H. change (vsum []) with vzero in H. rewrite <- H. vring. }
  destruct u as [ux uy uz]. unfold vdot in Hu; cbn in Hu.
  exists s', cf, cm, a. repeat (split; [assumption|]). split; [|split]; [intros H | intros H | exists fw; split; [exact Efw | lra]].
  - apply vnorm_eq_0 in H. subst cf. destruct fw as [fx fy fz]. cbn in Cf. destruct Cf as (C1 & C2 & C3).
    assert (EF : mkvec fx fy fz = vzero) by (apply vec_ext; cbn; lra). rewrite EF, vnorm_zero in Nf. symmetry in Nf. apply Z in Nf.
    pose proof (f_equal vx Nf) as Q1. pose proof (f_equal vz Nf) as Q2. vunfold. cbn in Q1, Q2. clear - Hu Q1 Q2 Hg.
    assert (ux = 0) by nra. assert (uz = 0) by nra. subst. lra.
  - apply vnorm_eq_0 in H. subst cm. destruct mw as [fx fy fz]. cbn in Cm. destruct Cm as (C1 & C2 & C3).
    assert (EF : mkvec fx fy fz = vzero) by (apply vec_ext; cbn; lra). rewrite EF, vnorm_zero in Nm. symmetry in Nm. apply Z in Nm.
    pose proof (f_equal vx Nm) as Q1. pose proof (f_equal vz Nm) as Q2. vunfold. cbn in Q1, Q2. clear - Hu Q1 Q2 Hg.
    assert (ux = 0) by nra. assert (uz = 0) by nra. subst. lra.
Qed.

(** ** The analysis *)
Definition wide_problem : steady_problem := mksteady [wide_airplane 1] (ex_op 1 10).
Notation horseshoe_method := "steady horseshoe vortex lattice method"%string.
Lemma wide_trial pchip database solve : SolveSpec solve -> exists x y, x <> 0 /\ y <> 0 /\
  steady_trial pchip database solve horseshoe_method wide_problem 1 1 = Ok [(x, y)].
Proof.
  intros HS. destruct (wide_loads solve 0 HS) as (s' & f & m & a & E & Ea & Ef & Em & Nf & Nm & _). exists (vnorm f), (vnorm m). repeat (split; [assumption|]).
  unfold steady_trial. cbn [wide_problem sp_airplanes sp_operating_point mapM]. rewrite wide_copied. cbn [bind].
  unfold run_steady. cbn [String.eqb Ascii.eqb Bool.eqb sp_airplanes sp_operating_point]. rewrite E. cbn [bind]. rewrite Ea. cbn [mapM]. unfold coefficient_norms. rewrite Ef, Em. reflexivity.
Qed.
Lemma wide_nonzero pchip database solve ar n p : SolveSpec solve -> in_ranges 1 1 1 1 ar n ->
  In p (results2 (steady_trial pchip database solve horseshoe_method wide_problem) ar n) -> fst p <> 0 /\ snd p <> 0.
Proof.
  intros HS [[H1 H2] [H3 H4]]. replace ar with 1%Z by lia. replace n with 1%Z by lia. destruct (wide_trial pchip database solve HS) as (x & y & Hx & Hy & E).
  unfold results2. rewrite E. intros [<-|[]]. auto.
Qed.
Lemma wide_analysis pchip database solve criteria : SolveSpec solve ->
  analyze_steady_convergence pchip database solve wide_problem horseshoe_method (1, 1)%Z (1, 1)%Z criteria = Ok (Some (1, 1)%Z).
Proof.
  intros HS. destruct (wide_trial pchip database solve HS) as (x & y & Hx & Hy & E).
  unfold analyze_steady_convergence, steady_search. cbn [fst snd]. change (range_down 1 1) with [1%Z]. change (range_up 1 1) with [1%Z].
  cbn [enumerate length seq combine list_prod map app steady_loop]. rewrite E. reflexivity.
Qed.

(** The returned mesh was not itself compared with a finer one. *)
Definition corner (ar n : Z) : R := if (Z.eqb ar 3 && Z.eqb n 1)%bool then 100 else 1.
Lemma corner_search :
  steady_search (fun ar n => Ok [(corner ar n, corner ar n)]) 3 2 1 2 50 = Ok (Some (3, 1)%Z) /\
  forall ar n, in_ranges 3 2 1 2 ar n -> (ar, n) <> (3, 1)%Z ->
    ~ close 50 [corner ar n] [corner 3 1] /\ ~ close 50 [corner 3 1] [corner ar n].
Proof.
  split.
  - assert (HC : forall ar n v, in_ranges 3 2 1 2 ar n -> Ok [(corner ar n, corner ar n)] = Ok v ->
      v = [(corner ar n, corner ar n)] /\ regular 1 v).
    { intros ar n v _ H. apply Ok_eq in H. subst v. split; [reflexivity|]. split; [reflexivity|]. constructor; [|constructor]. cbn. unfold corner. destruct (_ && _)%bool; lra. }
    apply (steady_found 50 3 2 1 2 (fun ar n => Ok [(corner ar n, corner ar n)]) (fun ar n => [(corner ar n, corner ar n)]) 0 HC).
    assert (S1 : forall x y, settled 50 [(x, x)] [(y, y)] <-> 100 * Rabs (x - y) < 50 * Rabs y).
    { intros x y. unfold settled, close. cbn [map fst snd]. split; [intros [H _]; inversion H; assumption | intros H; split; repeat constructor; assumption]. }
    assert (N : forall x y, x = 1 -> y = 100 -> ~ 100 * Rabs (x - y) < 50 * Rabs y).
    { intros x y -> ->. rewrite (Rabs_left (1 - 100)), (Rabs_pos_eq 100) by lra. lra. }
    assert (Y : 100 * Rabs (1 - 1) < 50 * Rabs 1) by (replace (1 - 1) with 0 by ring; rewrite Rabs_R0, Rabs_R1; lra).
    exists 2%Z, 2%Z. split; [|split; [reflexivity|split]].
    + split; [unfold in_ranges; lia|]. intros ar n [HA HN] HE. split; [reflexivity|]. unfold earlier in HE.
      assert (Hcase : (ar = 3 /\ n = 1 \/ ar = 3 /\ n = 2 \/ ar = 2 /\ n = 1)%Z) by lia.
      unfold acceptable, ar_settled, chord_settled. rewrite !S1.
      destruct Hcase as [[-> ->]|[[-> ->]|[-> ->]]]; intros [_ [HB|HB]]; try lia; cbn in HB; try lia; try (destruct HB; lia).
      destruct HB as [_ HB]. revert HB. apply N; unfold corner; reflexivity.
    + split; left; (split; [lia|]); apply S1; unfold corner; cbn; exact Y.
    + unfold answer, ar_settled. repeat split; try lia. intros H. exfalso. apply H. split; [lia|]. apply S1. unfold corner; cbn. exact Y.
  - intros ar n [HA HN] HD. assert (E : corner ar n = 1).
    { unfold corner. destruct (Z.eqb_spec ar 3); destruct (Z.eqb_spec n 1); cbn; try reflexivity. subst. elim HD. reflexivity. }
    change (corner 3 1) with 100. rewrite E. split; intros H; inversion H as [|? ? ? ? HH ?]; subst.
    + rewrite (Rabs_left (1 - 100)), (Rabs_pos_eq 100) in HH by lra. lra.
    + rewrite (Rabs_pos_eq (100 - 1)), (Rabs_pos_eq 1) in HH by lra. lra.
Qed.

(** ** Numbers of panels *)
Lemma count_positive x k : nearest x (Z.of_nat k) -> ((1 <= k)%nat <-> 1 / 2 < x) /\ (k = 0%nat <-> Rabs x <= 1 / 2).
Proof.
  intros H. pose proof (nearest_within _ _ H) as W. rewrite <- INR_IZR_INZ in W.
  assert (B : INR k - 1 / 2 <= x <= INR k + 1 / 2) by (revert W; unfold Rabs; destruct (Rcase_abs _); lra).
  destruct k as [|k].
  - cbn [INR] in *. rewrite Rminus_0_r in W. split; split; intros HH; try lia; try assumption; lra.
  - rewrite S_INR in B. pose proof (pos_INR k). split; split; intros HH; try lia.
    + destruct k as [|k]; [|rewrite S_INR in B; pose proof (pos_INR k); lra]. cbn [INR] in *.
      destruct (Req_dec x (1 / 2)) as [->|]; [|lra]. exfalso. destruct H as [H|[_ H]]; [|discriminate H]. change (IZR (Z.of_nat 1)) with 1 in H.
      rewrite Rabs_left in H by lra. lra.
    + exfalso. destruct (Req_dec x (1 / 2)) as [->|]; [|unfold Rabs in HH; destruct (Rcase_abs _) in HH; lra].
      assert (k = 0)%nat by (destruct k as [|k]; [reflexivity | rewrite S_INR in B; pose proof (pos_INR k); lra]). subst k.
      destruct H as [H|[_ H]]; [|discriminate H]. change (IZR (Z.of_nat 1)) with 1 in H. rewrite Rabs_left in H by lra. lra.
Qed.
Lemma strip_count n ar w w' i s t s' : remeshed_wing n ar w w' -> nth_error (w_sections w) i = Some s -> nth_error (w_sections w) (Datatypes.S i) = Some t ->
  nth_error (w_sections w') i = Some s' ->
  ((1 <= cs_num_spanwise_panels s')%nat <-> 1 / 2 < wanted_across n ar s t) /\
  (cs_num_spanwise_panels s' = 0%nat <-> Rabs (wanted_across n ar s t) <= 1 / 2) /\
  Rabs (INR (cs_num_spanwise_panels s') - wanted_across n ar s t) <= 1 / 2.
Proof.
  intros (_ & _ & _ & _ & _ & _ & _ & HR) Hs Ht Hs'. destruct HR as [_ HR]. destruct (HR i s s' Hs Hs') as (k & HK & HN). rewrite Ht in HN.
  destruct HK as (_ & _ & _ & _ & _ & _ & _ & _ & _ & ->). destruct (count_positive _ _ HN) as [H1 H2]. split; [exact H1|]. split; [exact H2|].
  apply nearest_within in HN. rewrite <- INR_IZR_INZ in HN. rewrite Rabs_minus_sym. exact HN.
Qed.
Definition thin_wing (k : nat) : wing :=
  mkwing (map placed [plate 0 "symmetric" 0 1; plate 1 "symmetric" 0 k]) "wing" 0 0 0 (mkvec 0 1 0) false (mkvec 1 0 0) 1 "uniform" 1 1
         [[ex_panel]] [] [].
Lemma strip_wing_ok c y k : exists w, new_wing [plate 0 "symmetric" 0 c; plate y "symmetric" 0 k] "wing" 0 0 0 (mkvec 0 1 0) false (mkvec 1 0 0) 1 "uniform" = Ok w.
Proof.
  apply wing_created_iff; [exact y_nonzero|]. split.
  - apply plate_rules; [cbn; lia | reflexivity | | intros root [= <-]; plates]. intros s Hs. plates.
  - split; [lia|]. intros i o Hio. unfold adjacent in Hio. cbn in Hio.
    destruct Hio as [[= <- <-]|[]]; cbn [cs_control_surface_deflection cs_control_surface_hinge_point plate];
      (split; [|split; [|discriminate]]); apply plate_takes; eauto.
Qed.
(** A wing of one panel is copied to a wing of none. *)
Lemma no_panels : exists w, new_wing [plate 0 "symmetric" 0 1; plate 1 "symmetric" 0 1] "wing" 0 0 0 (mkvec 0 1 0) false (mkvec 1 0 0) 1 "uniform" = Ok w /\
  length (concat (w_panels w)) = 1%nat /\
  forall pchip database, exists w', copy_wing pchip database 1 1 w = Ok w' /\ concat (w_panels w') = [].
Proof.
  destruct (strip_wing_ok 1 1 1) as [w Hw]. exists w. split; [exact Hw|].
  assert (EW : w = thin_wing 1).
  { apply wing_mesh in Hw. destruct Hw as (m0 & HL & ->). cbn [w_panels w_sections] in *.
    destruct HL as (rights & lefts & HR & _ & -> & ->). cbn [ms_num_chordwise] in *.
    cbn [map] in HR. change (mkmesh (mkvec 0 0 0) (mkvec 0 1 0) false 1 "uniform") with (ex_spec false) in *.
    apply strips_cons in HR. destruct HR as (m1 & ms1 & -> & H1 & HR). inversion HR; subst ms1.
    apply (plate_strip _ _ _ _ _ _ _ _ _ 1 0) in H1; [|left; auto]. subst m1.
    unfold thin_wing. f_equal. cbn. unfold ex_panel, plain_panel, p_set_position. cbn. repeat f_equal; ring. }
  subst w. split; [reflexivity|]. intros pchip database. destruct (strip_wing_ok 0 1 0) as [w' Hw']. exists w'. split.
  - unfold copy_wing. cbn [thin_wing w_sections map copy_sections spanwise_after].
    rewrite (plates_between _ _ _ _ _ 0); [|lra|lra|left; replace (1 * 1 / (4 * 1) - 0) with (1 / 4) by field; rewrite Rabs_pos_eq; lra].
    cbn [bind]. rewrite !plate_copied by lia. cbn [bind]. change (Z.to_nat 0) with 0%nat.
    unfold copy_wing_with. cbn [thin_wing w_name w_x_le w_y_le w_z_le w_symmetric w_chordwise_spacing]. change (count 1) with (Ok 1%nat). cbn [bind]. exact Hw'.
  - apply wing_mesh in Hw'. destruct Hw' as (m0 & HL & ->). cbn [w_panels w_sections] in *.
    destruct HL as (rights & lefts & HR & _ & -> & ->). cbn [ms_num_chordwise] in *.
    cbn [map] in HR. change (mkmesh (mkvec 0 0 0) (mkvec 0 1 0) false 1 "uniform") with (ex_spec false) in *.
    apply strips_cons in HR. destruct HR as (m1 & ms1 & -> & H1 & HR). inversion HR; subst ms1.
    apply (plate_strip_empty _ _ _ _ _ _ _ _ 1 0) in H1; [|left; auto]. subst m1. reflexivity.
Qed.
Lemma adjacent_nth {A} (l : list A) i s t : nth_error l i = Some s -> nth_error l (Datatypes.S i) = Some t -> In (s, t) (adjacent l).
Proof.
  revert i. induction l as [|x l IH]; intros [|i] Hs Ht; try discriminate Hs; cbn [nth_error] in Hs, Ht.
  - apply Some_eq in Hs. subst x. destruct l as [|y l]; [discriminate Ht|]. apply Some_eq in Ht. subst y. left. reflexivity.
  - destruct l as [|y l]; [destruct i; discriminate Hs|]. right. exact (IH i Hs Ht).
Qed.
Lemma symmetric_needs_panels pchip database n ar w i s t : interpolating pchip -> Forall (fun x => built_airfoil pchip database (cs_airfoil x)) (w_sections w) ->
  w_symmetric w = true -> nth_error (w_sections w) i = Some s -> nth_error (w_sections w) (Datatypes.S i) = Some t ->
  wanted_across n ar s t <= 1 / 2 -> exists e, copy_wing pchip database n ar w = Err e.
Proof.
  intros HI HB HY Hs Ht HX. destruct (copy_wing pchip database n ar w) as [w'|e] eqn:E; [|eauto]. exfalso.
  unfold copy_wing in E. apply bind_Ok in E. destruct E as (l & El & E). apply (copy_sections_spec _ _ HI) in El; [|exact HB].
  destruct El as [HL HR]. unfold copy_wing_with in E. apply bind_Ok in E. destruct E as (k & Ek & E). rewrite HY in E.
  match type of E with ?x = _ => assert (G : exists w0, x = Ok w0) by eauto end.
  apply wing_created_iff in G; [|exact y_nonzero]. destruct G as [_ [_ G]].
  assert (Li : (i < length l)%nat) by (rewrite HL; apply nth_error_Some; congruence). assert (Lj : (Datatypes.S i < length l)%nat) by (rewrite HL; apply nth_error_Some; congruence).
  destruct (nth_error l i) as [s'|] eqn:Es; [|apply nth_error_None in Es; lia]. destruct (nth_error l (Datatypes.S i)) as [t'|] eqn:Et; [|apply nth_error_None in Et; lia].
  destruct (G s' t' (adjacent_nth _ _ _ _ Es Et)) as (_ & _ & G3). destruct (G3 eq_refl) as [G4 _].
  destruct (HR i s s' Hs Es) as (k' & HK & HN). rewrite Ht in HN. destruct HK as (_ & _ & _ & _ & _ & _ & _ & _ & _ & EK). rewrite EK in G4.
  apply (count_positive _ _ HN) in G4. lra.
Qed.

(** ** An interpolation that looks the values up *)
Fixpoint lookup (points : list (R * R)) (x : R) : R :=
  match points with [] => 0 | p :: rest => if Reqb x (fst p) then snd p else lookup rest x end.
Definition table (points : list (R * R)) : result (R -> R) :=
  if forallb (fun p => forallb (fun q => negb (Reqb (fst p) (fst q)) || Reqb (snd p) (snd q)) points) points then Ok (lookup points) else Err EValueError.
Lemma table_interpolating : interpolating table.
Proof.
  intros points f x y H Hin. unfold table in H. destruct (forallb _ points) eqn:E; [|discriminate]. apply Ok_eq in H. subst f. rewrite forallb_forall in E.
  assert (G : forall l, (forall q, In q l -> In q points) -> In (x, y) l -> lookup l x = y); [|apply G; auto].
  induction l as [|p l IH]; intros HS Hl; [destruct Hl|]. cbn [lookup]. destruct (Reqb x (fst p)) eqn:EX.
  - apply Reqb_true in EX. specialize (E p (HS p (or_introl eq_refl))). rewrite forallb_forall in E. specialize (E (x, y) (HS _ Hl)).
    cbn [fst snd] in E. apply orb_true_iff in E. destruct E as [E|E]; [|apply Reqb_true in E; exact E]. apply negb_true_iff, Reqb_false in E. congruence.
  - apply Reqb_false in EX. destruct Hl as [->|Hl]; [elim EX; reflexivity|]. apply IH; [intros q Hq; apply HS; right; exact Hq | exact Hl].
Qed.
Lemma plate_built pchip database y kind d c : built_airfoil pchip database (cs_airfoil (placed (plate y kind d c))).
Proof. left. exists "plate"%string, (Some flat_coordinates), false, 400%nat. split; [discriminate | apply new_flat]. Qed.
