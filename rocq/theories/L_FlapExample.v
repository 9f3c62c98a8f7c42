(** A symmetric wing whose inner half has its flaps down: its wake is not symmetric. *)
From Coq Require Import List ZArith Lia Lra Bool Reals String.
From Verif Require Import M_Unsteady S_Unsteady S_UnsteadyRun S_Geometry S_Wing S_Vortices S_Loads S_Solve S_Movement S_Mirror S_Rigid S_Image L_Base L_Loads L_Horseshoe L_SteadyRing L_Aero L_Frames
  L_Meshing L_Geometry L_Movement L_Snapshots L_Problems L_Symmetry L_Example L_Example2 L_Example3 L_Gaps L_Example4 L_Example6 L_Gauss L_Dominant L_Wake L_UnsteadyRun L_UnsteadyFinal L_UnsteadyProps L_UnsteadyProps2 L_UnsteadyFlow L_UnsteadyStill L_SymmetricFlight L_ImageRun L_SymmetricExample.
Import ListNotations.
Local Open Scope R_scope.
Local Open Scope list_scope.

(** ** The wing *)
Definition flat_panel (y0 y1 : R) : panel := new_panel (mkvec 0 y1 0) (mkvec 0 y0 0) (mkvec 4 y0 0) (mkvec 4 y1 0) true true.
Definition bent_panel (y0 y1 : R) : panel := new_panel (mkvec 0 y1 0) (mkvec 0 y0 0) (mkvec 2 y0 (-2)) (mkvec 2 y1 (-2)) true true.
Definition flap_sections : list section := [plate 0 "symmetric" 90 1; plate 200 "symmetric" 0 1; plate 400 "symmetric" 0 1].
Definition flap_panels : list panel :=
  [p_set_position false true 0 0 (flat_panel (-400) (-200)); p_set_position false false 0 1 (bent_panel (-200) 0);
   p_set_position false false 0 2 (bent_panel 0 200); p_set_position true false 0 3 (flat_panel 200 400)].
Lemma flap_meshable : meshable flap_sections true 1.
Proof.
  assert (H90 : steep 90 (- (1 / 2))) by (left; auto).
  split; [lia|]. intros i o Hio. unfold flap_sections, adjacent in Hio. cbn in Hio.
  destruct Hio as [[= <- <-]|[[= <- <-]|[]]]; unfold port_deflection; cbn [cs_control_surface_deflection cs_control_surface_hinge_point cs_control_surface_type cs_num_spanwise_panels plate String.eqb Ascii.eqb Bool.eqb];
    (split; [|split; [|intros _; split; [lia|split]]]); apply plate_takes; eauto.
Qed.
Lemma flap_wing : exists w, new_wing flap_sections "wing" 0 0 0 (mkvec 0 1 0) true (mkvec 1 0 0) 1 "uniform" = Ok w /\ w_panels w = [flap_panels] /\ mirrored_wing mirrored_panel w w.
Proof.
  assert (H90 : steep 90 (- (1 / 2))) by (left; auto).
  assert (HC : exists w, new_wing flap_sections "wing" 0 0 0 (mkvec 0 1 0) true (mkvec 1 0 0) 1 "uniform" = Ok w).
  { apply wing_created_iff; [exact y_nonzero|]. split; [|exact flap_meshable].
    apply plate_rules; [cbn; lia | reflexivity | | intros root [= <-]; plates]. intros s Hs. unfold flap_sections in Hs. plates. }
  destruct HC as [w Hw]. exists w. split; [exact Hw|]. split.
  - apply wing_mesh in Hw. destruct Hw as (m0 & HL & ->). cbn [w_panels w_sections] in *.
    destruct HL as (rights & lefts & HR & _ & [HL _] & ->). cbn [ms_num_chordwise] in *.
    unfold flap_sections in HR, HL. cbn [map] in HR, HL. change (mkmesh (mkvec 0 0 0) (mkvec 0 1 0) true 1 "uniform") with (ex_spec true) in *.
    apply strips_cons in HR. destruct HR as (m1 & ms1 & -> & H1 & HR). apply strips_cons in HR. destruct HR as (m2 & ms2 & -> & H2 & HR). inversion HR; subst ms2.
    apply strips_cons in HL. destruct HL as (m3 & ms3 & -> & H3 & HL). apply strips_cons in HL. destruct HL as (m4 & ms4 & -> & H4 & HL). inversion HL; subst ms4.
    apply (plate_strip _ _ _ _ _ _ _ _ _ (1 / 2) (- (1 / 2))) in H1; [|right; auto]. apply (plate_strip _ _ _ _ _ _ _ _ _ 1 0) in H2; [|left; auto].
    apply (plate_strip _ _ _ _ _ _ _ _ _ (1 / 2) (- (1 / 2))) in H3; [|right; auto]. apply (plate_strip _ _ _ _ _ _ _ _ _ 1 0) in H4; [|left; auto]. subst m1 m2 m3 m4.
    match goal with |- set_positions ?n ?m = _ => change n with 4%nat; let x := eval cbn -[Rmult Rplus Rminus Rdiv Ropp reflect] in (set_positions 4 m) in change (set_positions 4 m) with x end.
    unfold flap_panels, flat_panel, bent_panel, mirror_panel, reflect. rewrite !reflect_is_mirror. unfold mirror, new_panel, p_set_position. cbn.
    f_equal. repeat (apply f_equal2; [f_equal; vunfold; apply vec_ext; cbn; lra|]). reflexivity.
  - apply (symmetric_wing_mirrored _ _ _ _ _ _ _ _ _ Hw); try reflexivity.
    + apply vdot_1_norm. vunfold; ring.
    + intros s [<-|[<-|[]]]; left; reflexivity.
Qed.

(** ** Its influences *)
Lemma norm_y u m : m <= Rabs (vy u) -> m <= vnorm u.
Proof.
  intros H. apply Rle_trans with (1 := H). unfold vnorm. rewrite <- sqrt_Rsqr_abs. apply sqrt_le_1; [apply Rle_0_sqr | apply vdot_self_nonneg|]. unfold Rsqr, vdot. nra.
Qed.
Lemma pb x y m n : -m <= x <= m -> -n <= y <= n -> - (m * n) <= x * y <= m * n.
Proof. intros H1 H2. nra. Qed.
Lemma far_leg p a b k l nu : -5 <= vx a - vx p <= 5 -> -5 <= vz a - vz p <= 5 -> -5 <= vx b - vx p <= 5 -> -5 <= vz b - vz p <= 5 ->
  (100 <= vy a - vy p <= 700 /\ 100 <= vy b - vy p <= 700) \/ (-700 <= vy a - vy p <= -100 /\ -700 <= vy b - vy p <= -100) -> 0 <= k <= 1 -> 0 <= l <= 1 ->
  Rabs (vdot (line_velocity p a b 1 0 nu) (mkvec k 0 l)) <= / (4 * PI) * (3 / 200).
Proof.
  intros A1 A3 B1 B3 HY Hk Hl. assert (HK : 0 < / (4 * PI)) by (pose proof PI_RGT_0; apply Rinv_0_lt_compat; lra).
  destruct (singular p a b) eqn:E.
  { rewrite line_velocity_singular by exact E. replace (vdot vzero (mkvec k 0 l)) with 0 by (vunfold; ring). rewrite Rabs_R0. nra. }
  rewrite (leg_along _ _ _ _ _ E), Rabs_mult. destruct (leg_numbers _ _ _ E) as (R1 & R2 & R3).
  assert (HC : Rabs (co (vnorm (vsub a p)) (vnorm (vsub b p)) (vdot (vsub a p) (vsub b p))) <= / (4 * PI) * (/ 50 * / 19950)).
  { rewrite Rabs_pos_eq by (apply Rlt_le, co_pos; assumption). unfold co. apply Rmult_le_compat_l; [lra|].
    assert (N1 : 100 <= vnorm (vsub a p)) by (apply norm_y; unfold vsub; cbn [vy]; unfold Rabs; destruct (Rcase_abs _); lra).
    assert (N2 : 100 <= vnorm (vsub b p)) by (apply norm_y; unfold vsub; cbn [vy]; unfold Rabs; destruct (Rcase_abs _); lra).
    assert (I1 : / vnorm (vsub a p) <= / 100) by (apply Rinv_le_contravar; lra). assert (I2 : / vnorm (vsub b p) <= / 100) by (apply Rinv_le_contravar; lra).
    pose proof (Rinv_0_lt_compat _ R1). pose proof (Rinv_0_lt_compat _ R2). apply Rmult_le_compat; [lra | apply Rlt_le, Rinv_0_lt_compat, R3 | lra|].
    apply Rinv_le_contravar; [lra|]. assert (10000 <= vnorm (vsub a p) * vnorm (vsub b p)) by nra.
    assert (9950 <= vdot (vsub a p) (vsub b p)); [|lra]. unfold vdot, vsub. cbn [vx vy vz].
    pose proof (pb _ _ 5 5 A1 B1). pose proof (pb _ _ 5 5 A3 B3). assert (10000 <= (vy a - vy p) * (vy b - vy p)) by nra. lra. }
  assert (HX : Rabs (vdot (vcross (vsub a p) (vsub b p)) (mkvec k 0 l)) <= 14000).
  { unfold vdot, vcross, vsub. cbn [vx vy vz]. apply Rabs_le.
    assert (Ya : - 700 <= vy a - vy p <= 700) by lra. assert (Yb : - 700 <= vy b - vy p <= 700) by lra.
    pose proof (pb _ _ 700 5 Ya B3) as P1. pose proof (pb _ _ 5 700 A3 Yb) as P2. pose proof (pb _ _ 5 700 A1 Yb) as P3. pose proof (pb _ _ 700 5 Ya B1) as P4.
    assert (Q1 : - 7000 <= (vy a - vy p) * (vz b - vz p) - (vz a - vz p) * (vy b - vy p) <= 7000) by lra.
    assert (Q2 : - 7000 <= (vx a - vx p) * (vy b - vy p) - (vy a - vy p) * (vx b - vx p) <= 7000) by lra.
    assert (K1 : -1 <= k <= 1) by lra. assert (L1 : -1 <= l <= 1) by lra.
    pose proof (pb _ _ 7000 1 Q1 K1). pose proof (pb _ _ 7000 1 Q2 L1). lra. }
  eapply Rle_trans; [apply Rmult_le_compat; [apply Rabs_pos | apply Rabs_pos | exact HC | exact HX]|]. nra.
Qed.
Notation K := (/ (4 * PI)).
Lemma K_pos : 0 < K. Proof. pose proof PI_RGT_0. apply Rinv_0_lt_compat; lra. Qed.
(** The ring of a panel: at spanwise positions [y0] and [y1], front and back. *)
Definition ring_at (P : vec) (x z x' z' y0 y1 nu : R) (n : vec) : R :=
  vdot (quad_velocity P (mkvec x' y1 z') (mkvec x y1 z) (mkvec x y0 z) (mkvec x' y0 z') 1 0 nu) n.
Lemma far_ring px py pz x z x' z' y0 y1 nu k l : -5 <= x - px <= 5 -> -5 <= z - pz <= 5 -> -5 <= x' - px <= 5 -> -5 <= z' - pz <= 5 ->
  (100 <= y0 - py <= 700 /\ 100 <= y1 - py <= 700) \/ (-700 <= y0 - py <= -100 /\ -700 <= y1 - py <= -100) -> 0 <= k <= 1 -> 0 <= l <= 1 ->
  Rabs (ring_at (mkvec px py pz) x z x' z' y0 y1 nu (mkvec k 0 l)) <= K * (3 / 50).
Proof.
  intros A1 A3 B1 B3 HY Hk Hl. unfold ring_at, quad_velocity. rewrite !vdot_add_l.
  assert (F : forall xa za xb zb ya yb, In (xa, za) [(x, z); (x', z')] -> In (xb, zb) [(x, z); (x', z')] -> In ya [y0; y1] -> In yb [y0; y1] ->
    Rabs (vdot (line_velocity (mkvec px py pz) (mkvec xa ya za) (mkvec xb yb zb) 1 0 nu) (mkvec k 0 l)) <= K * (3 / 200)).
  { intros xa za xb zb ya yb Ha Hb Hya Hyb. apply far_leg; cbn [vx vy vz]; try assumption;
      try (destruct Ha as [[= <- <-]|[[= <- <-]|[]]]; assumption); try (destruct Hb as [[= <- <-]|[[= <- <-]|[]]]; assumption).
    destruct Hya as [<-|[<-|[]]], Hyb as [<-|[<-|[]]]; lra. }
  pose proof K_pos.
  eapply Rle_trans; [apply Rabs_triang|]. eapply Rle_trans; [apply Rplus_le_compat; [apply Rabs_triang | apply F; cbn; auto]|].
  eapply Rle_trans; [apply Rplus_le_compat_r, Rplus_le_compat; [apply Rabs_triang | apply F; cbn; auto]|].
  eapply Rle_trans; [apply Rplus_le_compat_r, Rplus_le_compat_r, Rplus_le_compat; apply F; cbn; auto|]. lra.
Qed.
Lemma near_leg p a b n nu q : singular p a b = false -> 0 < q -> vdot (vsub a p) (vsub a p) <= 40000 -> vdot (vsub b p) (vsub b p) = vdot (vsub a p) (vsub a p) ->
  vdot (vsub a p) (vsub a p) + vdot (vsub a p) (vsub b p) = q -> 50 * q <= vdot (vcross (vsub a p) (vsub b p)) n ->
  K * (1 / 2) <= vdot (line_velocity p a b 1 0 nu) n.
Proof.
  intros E Hq H1 H2 H3 H4. rewrite (leg_along _ _ _ _ _ E). destruct (leg_numbers _ _ _ E) as (R1 & R2 & _).
  assert (N : vnorm (vsub b p) = vnorm (vsub a p)) by (unfold vnorm; rewrite H2; reflexivity). rewrite N. pose proof (vnorm_mul (vsub a p)) as M.
  set (r := vnorm (vsub a p)) in *. unfold co. rewrite M, H3. assert (HR : r <= 200) by nra. pose proof K_pos.
  rewrite Rmult_assoc. apply Rmult_le_compat_l; [lra|]. assert (HI : / 200 <= / r) by (apply Rinv_le_contravar; lra).
  apply Rle_trans with ((/ 200 + / 200) * / q * (50 * q)); [right; field; lra|].
  apply Rmult_le_compat; [|nra| |exact H4].
  - apply Rmult_le_pos; [lra | apply Rlt_le, Rinv_0_lt_compat, Hq].
  - apply Rmult_le_compat_r; [apply Rlt_le, Rinv_0_lt_compat, Hq | lra].
Qed.
Ltac dots := unfold vdot, vsub, vcross; cbn [vx vy vz].
Lemma own_ring px py pz x z x' z' k l nu q : px - x = 2 /\ pz - z = 0 /\ x' - px = 3 /\ z' - pz = 0 /\ k = 0 /\ l = 1 /\ q = 8 \/
    px - x = 1 /\ z - pz = 1 /\ x' - px = 2 /\ pz - z' = 1 /\ k = l /\ 1 / 2 <= l <= 1 /\ q = 4 ->
  K * (1 / 2) <= ring_at (mkvec px py pz) x z x' z' (py - 100) (py + 100) nu (mkvec k 0 l).
Proof.
  intros H. unfold ring_at, quad_velocity. rewrite !vdot_add_l.
  assert (H1 : 0 < vdot (line_velocity (mkvec px py pz) (mkvec x' (py + 100) z') (mkvec x (py + 100) z) 1 0 nu) (mkvec k 0 l)).
  { apply line_velocity_positive; [apply regular_if|]; dots; destruct H as [(? & ? & ? & ? & -> & -> & _)|(? & ? & ? & ? & -> & ? & _)]; nra. }
  assert (H2 : K * (1 / 2) <= vdot (line_velocity (mkvec px py pz) (mkvec x (py + 100) z) (mkvec x (py - 100) z) 1 0 nu) (mkvec k 0 l)).
  { apply (near_leg _ _ _ _ _ q); [apply regular_if| | | | |]; dots; destruct H as [(? & ? & ? & ? & -> & -> & ->)|(? & ? & ? & ? & -> & ? & ->)]; nra. }
  assert (H3 : 0 < vdot (line_velocity (mkvec px py pz) (mkvec x (py - 100) z) (mkvec x' (py - 100) z') 1 0 nu) (mkvec k 0 l)).
  { apply line_velocity_positive; [apply regular_if|]; dots; destruct H as [(? & ? & ? & ? & -> & -> & _)|(? & ? & ? & ? & -> & ? & _)]; nra. }
  assert (H4 : 0 < vdot (line_velocity (mkvec px py pz) (mkvec x' (py - 100) z') (mkvec x' (py + 100) z') 1 0 nu) (mkvec k 0 l)).
  { apply line_velocity_positive; [apply regular_if|]; dots; destruct H as [(? & ? & ? & ? & -> & -> & _)|(? & ? & ? & ? & -> & ? & _)]; nra. }
  lra.
Qed.

(** ** In calm air *)
Definition calm : op_movement := mkopmove (mkop 1 4 0 0 0 0) resting.
Lemma calm_problem m only : wing_movable m -> wing_unmoving m -> plain_base m -> exists mv up,
  new_movement [still_airplane m] calm (Some 3%Z) None None (Some 1) = Ok mv /\ mv_delta_time mv = 1 /\ new_unsteady_problem mv only = Ok up /\
  up_delta_time up = 1 /\ List.length (up_steady_problems up) = 3%nat /\
  forall k sp, nth_error (up_steady_problems up) k = Some sp -> step_wings sp = [wm_base m] /\ sp_operating_point sp = mkop 1 4 0 0 0 (1506 / 100000000).
Proof.
  intros HM HU HB. assert (Hg : good_spacing resting) by (left; reflexivity).
  assert (HA : Forall airplane_movable [still_airplane m]).
  { constructor; [|constructor]. split; [discriminate|]. split; [|repeat split; apply resting_good]. constructor; [exact HM | constructor]. }
  destruct (proj2 (movement_succeeds [still_airplane m] calm (Some 3%Z) None None 1 3 eq_refl ltac:(lia))) as [mv Hm]; [auto|].
  destruct (movement_built _ _ _ _ _ _ _ Hm) as (B1 & B2 & HD & (HN & _) & EA & EO).
  assert (HP : populated [still_airplane m]) by (apply movable_populated; [discriminate | exact HA]).
  destruct (unsteady_succeeds _ _ _ _ _ _ _ only Hm HP) as [up Hup].
  destruct (unsteady_built _ _ _ Hup) as (_ & U1 & Edt & U3 & U4 & U5 & _ & _ & _ & _ & HL & HS). rewrite HN in *. cbn [given] in HD. rewrite HD in *.
  cbn [mapM] in EA. apply bind_Ok in EA. destruct EA as (l & El & EA). apply bind_Ok in EA. destruct EA as (nil' & E0 & EA). apply Ok_eq in E0. subst nil'. apply Ok_eq in EA.
  destruct (generated_airplanes _ _ _ _ El) as (Ll & _ & xs & ys & zs & hs & Ex & Ey & Ez & EH & HNa).
  cbn [am_wings still_airplane mapM] in EH. apply bind_Ok in EH. destruct EH as (ws & EW & EH). apply bind_Ok in EH. destruct EH as (nil' & E0 & EH). apply Ok_eq in E0. subst nil'. apply Ok_eq in EH. subst hs.
  pose proof (static_wings _ _ _ _ EW HU HB) as ->.
  exists mv, up. split; [exact Hm|]. split; [exact HD|]. split; [exact Hup|]. split; [exact Edt|]. split; [exact HL|].
  intros k sp Hk. destruct (HS k sp Hk) as [FA FO]. rewrite <- EA in FA. inversion FA as [|? b ? rest Hb Hr X1 X2]; subst. inversion Hr; subst. split.
  - destruct (HNa k b Hb) as (x & y' & z & wings & _ & _ & _ & EC & Ea). apply column_spec in EC. inversion EC as [|? w ? rest Hw Hr' Y1 Y2]; subst. inversion Hr'; subst.
    apply nth_error_In in Hw. assert (w = wm_base m) by (destruct Hw as [<-|[<-|[<-|[]]]]; reflexivity). subst w. unfold step_wings. rewrite <- X2. cbn [map concat]. rewrite app_nil_r.
    unfold new_airplane in Ea. cbn in Ea. apply Ok_eq in Ea. subst b. reflexivity.
  - destruct (generated_operating_points _ _ _ _ EO) as (_ & _ & vs & Evs & HNo). destruct (HNo _ _ FO) as (v & Hv & ->).
    assert (HU' : unmoving resting) by (left; reflexivity). rewrite (unmoving_value _ _ _ _ _ _ _ HU' Evs Hv). reflexivity.
Qed.
(** Collocation point, ring vortex and normal of each panel. *)
Definition px (i : nat) : R := match i with 1%nat | 2%nat => 3 / 2 | _ => 3 end.
Definition pz (i : nat) : R := match i with 1%nat | 2%nat => - (3 / 2) | _ => 0 end.
Definition py (i : nat) : R := match i with 0%nat => -300 | 1%nat => -100 | 2%nat => 100 | _ => 300 end.
Definition fx (i : nat) : R := match i with 1%nat | 2%nat => 1 / 2 | _ => 1 end.
Definition fz (i : nat) : R := match i with 1%nat | 2%nat => - (1 / 2) | _ => 0 end.
Definition bx (i : nat) : R := match i with 1%nat | 2%nat => 7 / 2 | _ => 6 end.
Definition bz (i : nat) : R := match i with 1%nat | 2%nat => - (5 / 2) | _ => 0 end.
Definition diag : R := / sqrt 2.
Definition nn (i : nat) : vec := match i with 1%nat | 2%nat => mkvec diag 0 diag | _ => mkvec 0 0 1 end.
Lemma diag_range : 1 / 2 <= diag <= 1.
Proof.
  assert (H : sqrt 2 * sqrt 2 = 2) by (apply sqrt_sqrt; lra). pose proof (sqrt_pos 2). assert (1 <= sqrt 2 <= 2) by nra. unfold diag. split.
  - replace (1 / 2) with (/ 2) by field. apply Rinv_le_contravar; lra.
  - rewrite <- Rinv_1. apply Rinv_le_contravar; lra.
Qed.
Lemma panel_points_at i p : nth_error flap_panels i = Some p ->
  p_collocation_point p = mkvec (px i) (py i) (pz i) /\ p_unit_normal p = nn i /\
  p_front_left_vortex_vertex p = mkvec (fx i) (py i - 100) (fz i) /\ p_front_right_vortex_vertex p = mkvec (fx i) (py i + 100) (fz i) /\
  vadd (vadd (p_front_left_vortex_vertex p) (vsub (p_back_left p) (p_front_left p))) (mkvec 1 0 0) = mkvec (bx i) (py i - 100) (bz i) /\
  vadd (vadd (p_front_right_vortex_vertex p) (vsub (p_back_right p) (p_front_right p))) (mkvec 1 0 0) = mkvec (bx i) (py i + 100) (bz i).
Proof.
  assert (HN : forall k : R, 0 < k -> vdiv (vscale k (mkvec 1 0 1)) (vnorm (vscale k (mkvec 1 0 1))) = mkvec diag 0 diag).
  { intros k Hk. rewrite vnorm_scale, (norm_of _ 2) by (vunfold; ring). rewrite Rabs_pos_eq by lra. assert (0 < sqrt 2) by (apply sqrt_lt_R0; lra). unfold diag, vdiv, vscale. apply vec_ext; cbn; field; lra. }
  assert (HN' : forall k : R, 0 < k -> vdiv (vscale k (mkvec 0 0 1)) (vnorm (vscale k (mkvec 0 0 1))) = mkvec 0 0 1).
  { intros k Hk. rewrite vnorm_scale, (vdot_1_norm (mkvec 0 0 1)) by (vunfold; ring). rewrite Rabs_pos_eq by lra. unfold vdiv, vscale. apply vec_ext; cbn; field; lra. }
  unfold flap_panels. intros H. destruct i as [|[|[|[|i]]]]; [| | | |destruct i; discriminate]; apply Some_eq in H; subst p;
    (split; [|split; [|repeat split]]);
    unfold p_collocation_point, p_unit_normal, p_front_right_vortex_vertex, p_front_left_vortex_vertex, p_right_leg, p_left_leg, p_cross, p_first_diagonal, p_second_diagonal;
    cbn [p_set_position flat_panel bent_panel new_panel p_front_right p_front_left p_back_left p_back_right px py pz fx fz bx bz nn];
    try (vunfold; apply vec_ext; cbn; lra).
  all: match goal with |- vdiv ?u _ = mkvec 0 0 1 => replace u with (vscale 1600 (mkvec 0 0 1)) by (vunfold; apply vec_ext; cbn; lra); apply HN'; lra
                     | |- vdiv ?u _ = _ => replace u with (vscale 800 (mkvec 1 0 1)) by (vunfold; apply vec_ext; cbn; lra); apply HN; lra end.
Qed.
Definition influence (nu : R) (i j : nat) : R := ring_at (mkvec (px i) (py i) (pz i)) (fx j) (fz j) (bx j) (bz j) (py j - 100) (py j + 100) nu (nn i).
Lemma flap_kernel nu : trivial_kernel (map (fun i => map (influence nu i) (seq 0 4)) (seq 0 4)).
Proof.
  pose proof K_pos. pose proof diag_range. apply (dominant4 _ (K * (1 / 2)) (K * (3 / 50))); [lra | lra | |].
  - intros i Hi. unfold influence. destruct i as [|[|[|[|i]]]]; [| | | |lia]; cbn [px py pz fx fz bx bz nn];
      first [apply (own_ring _ _ _ _ _ _ _ _ _ _ 8); left; repeat split; lra | apply (own_ring _ _ _ _ _ _ _ _ _ _ 4); right; repeat split; lra].
  - intros i j Hi Hj Hij. unfold influence. destruct i as [|[|[|[|i]]]]; [| | | |lia]; (destruct j as [|[|[|[|j]]]]; [| | | |lia]); try lia; cbn [px py pz fx fz bx bz nn]; apply far_ring; lra.
Qed.

Section Flight.
  Variable solve : list (list R) -> list R -> result (list R).
  Hypothesis HS : SolveSpec solve.
  Variable prescribed : bool.
  Variables (up : unsteady_problem) (w0 : wing).
  Hypothesis HC : created up.
  Hypothesis HT : up_delta_time up = 1.
  Hypothesis Hlen : (0 < List.length (up_steady_problems up))%nat.
  Hypothesis Hw0 : w_panels w0 = [flap_panels].
  Hypothesis Hsteps : forall k sp, nth_error (up_steady_problems up) k = Some sp -> step_wings sp = [w0] /\ sp_operating_point sp = mkop 1 4 0 0 0 (1506 / 100000000).
  Lemma flap_flight n s k sp : has_run solve prescribed up n s -> step_at s k sp ->
    exists w ps, step_wings sp = [w] /\ w_panels w = [ps] /\ Forall2 same_panel flap_panels ps /\
      forall j p, nth_error ps j = Some p -> exists r, p_ring_vortex p = Some r /\ ring_consistent r /\
        rv_front_left r = mkvec (fx j) (py j - 100) (fz j) /\ rv_front_right r = mkvec (fx j) (py j + 100) (fz j) /\
        rv_back_left r = mkvec (bx j) (py j - 100) (bz j) /\ rv_back_right r = mkvec (bx j) (py j + 100) (bz j).
  Proof.
    clear Hlen. intros HR Hsp. pose proof (steps_kept _ HS _ _ _ _ HC HR) as FK.
    destruct (Forall2_nth _ _ _ FK _ _ Hsp) as (sp0 & H0 & HK). destruct (Hsteps _ _ H0) as (EA & EO).
    pose proof (kept_step_wings _ _ HK) as FW. rewrite EA in FW.
    inversion FW as [|? w ? ws [Ew Fw] Fr X1 X2]; subst. inversion Fr; subst. symmetry in X2. rewrite Hw0 in Fw.
    inversion Fw as [|? ps ? rows Frow Frows Y1 Y2]; subst. inversion Frows; subst. symmetry in Y2.
    exists w, ps. split; [first [reflexivity | exact X2]|]. split; [first [reflexivity | exact Y2]|]. split; [exact Frow|]. intros j p Hj.
    assert (Hw : wing_at s k 0 w) by (exists sp; split; [exact Hsp | rewrite X2; reflexivity]).
    assert (Hp : at_position (w_panels w) 0 j p) by (rewrite Y2; exists ps; auto).
    destruct (bound_rings _ HS _ _ _ _ _ _ _ _ _ _ HC HR Hw Hp) as (r & Hr & (HCr & B1 & B2 & B3 & _)). rewrite Y2 in B3. destruct (B3 eq_refl) as [B4 B5].
    destruct (Forall2_nth _ _ _ Frow _ _ Hj) as (p0 & Hp0 & HP). destruct (panel_points_at _ _ Hp0) as (_ & _ & Q1 & Q2 & Q3 & Q4).
    change (same_panel p0 p) in HP. destruct (L_UnsteadyRun.same_panel_vertices _ _ HP) as [V1 V2]. rewrite V1 in B1. rewrite V2 in B2.
    assert (EOs : sp_operating_point sp = mkop 1 4 0 0 0 (1506 / 100000000)) by (rewrite (proj1 HK); exact EO).
    assert (EV : drift_at s k = mkvec 1 0 0).
    { unfold drift_at, freestream_at. unfold step_at in Hsp. rewrite Hsp, EOs. destruct (has_run_history _ HS _ _ _ _ HC HR) as (F & up1 & conv & sa & HH). rewrite (hi_time _ _ _ _ _ _ _ _ _ HH), HT.
      unfold freestream_velocity. cbn [op_velocity]. rewrite freestream_direction_explicit. cbn [op_alpha op_beta]. unfold radians. replace (0 * _) with 0 by field. rewrite ?sin_0, ?cos_0. vunfold. apply vec_ext; cbn; field. }
    destruct HP as (E1 & E2 & E3 & E4 & HP). rewrite EV, B1, E2, E3, Q3 in B4. rewrite EV, B2, E1, E4, Q4 in B5. rewrite Q1 in B1. rewrite Q2 in B2.
    exists r. repeat (split; [assumption|]). assumption.
  Qed.
  Lemma flap_solvable k s sp A b : has_run solve prescribed up k s -> step_at s k sp -> influence_matrix sp A -> List.length b = List.length A -> exists x, solve A b = Ok x.
  Proof.
    clear Hlen. intros HR Hsp (rs & Frs & EA) Lb. destruct (flap_flight _ _ _ _ HR Hsp) as (w & ps & EW & EP & FP & HV).
    assert (EPs : step_panels sp = ps) by (rewrite panels_of_wings, EW; cbn [map concat app]; rewrite EP; cbn [concat]; rewrite !app_nil_r; reflexivity). rewrite EPs in *.
    assert (LP : List.length ps = 4%nat) by (rewrite <- (Forall2_length _ _ _ FP); reflexivity).
    assert (LR : List.length rs = 4%nat) by (rewrite <- (Forall2_length _ _ _ Frs); exact LP).
    assert (E : A = map (fun i => map (influence (op_nu (sp_operating_point sp)) i) (seq 0 4)) (seq 0 4)).
    { assert (EV : forall i j p r, nth_error ps i = Some p -> nth_error rs j = Some r ->
        vdot (ring_velocity (op_nu (sp_operating_point sp)) 0 (p_collocation_point p) (ring_update_strength 1 r)) (p_unit_normal p) = influence (op_nu (sp_operating_point sp)) i j).
      { intros i j p r Hi Hj. destruct (Forall2_nth _ _ _ Frs _ _ Hj) as (q & Hq & Hr). destruct (HV _ _ Hq) as (r' & Hr' & HCr & V1 & V2 & V3 & V4). assert (r' = r) by congruence. subst r'.
        rewrite (ring_velocity_quad _ _ _ (ring_update_strength 1 r) (update_strength_consistent 1 r HCr)). cbn [ring_update_strength rv_back_right rv_front_right rv_front_left rv_back_left rv_strength]. rewrite V1, V2, V3, V4.
        destruct (Forall2_nth _ _ _ FP _ _ Hi) as (p0 & Hp0 & HP). destruct (same_panel_collocation _ _ HP) as [-> ->]. destruct (panel_points_at _ _ Hp0) as (-> & -> & _). reflexivity. }
      rewrite EA. clear - LP LR EV. destruct ps as [|p0 [|p1 [|p2 [|p3 [|]]]]]; try discriminate LP. destruct rs as [|r0 [|r1 [|r2 [|r3 [|]]]]]; try discriminate LR.
      cbn [map seq]. repeat f_equal; apply EV; reflexivity. }
    assert (LA : List.length A = 4%nat) by (rewrite EA, map_length; exact LP).
    apply solvable; [exact HS | | exact Lb | rewrite E; apply flap_kernel].
    intros row Hrow. rewrite LA. rewrite E in Hrow. apply in_map_iff in Hrow. destruct Hrow as (i & <- & _). rewrite map_length. reflexivity.
  Qed.
  Lemma flap_run lines : exists s, finished solve prescribed lines up s.
  Proof.
    destruct (nth_in_range _ _ Hlen) as [sp0 H0]. assert (exists s0, unsteady_new up = Ok s0) as [s0 E0] by (unfold unsteady_new, index; rewrite H0; cbn; eauto).
    destruct (run_outcome _ HS prescribed up lines s0 HC E0) as [[s Es]|(k & s & sp & A & b & e & HA & Hsp & HI & Lb & Hs & _)].
    - exists s, s0. auto.
    - exfalso. destruct (flap_solvable k s sp A b (or_introl HA) Hsp HI Lb) as (x & X). congruence.
  Qed.
End Flight.

Definition flap_movement (w : wing) : wing_movement := mkwingmove w (map (fun s => moving s resting) flap_sections) resting resting resting.
Lemma flap_movable w : w_symmetric w = true -> w_chordwise_spacing w = "uniform"%string -> w_num_chordwise_panels w = 1%nat -> wing_movable (flap_movement w).
Proof.
  intros H0 H1 H2. split; [cbn; lia|]. split; [cbn [flap_movement wm_base]; rewrite H1; right; left; reflexivity|].
  split; [cbn [flap_movement wm_base wm_sections flap_sections map moving sm_base]; rewrite H0, H2; exact flap_meshable|].
  assert (HG : Forall section_movable (wm_sections (flap_movement w))).
  { repeat constructor; try (left; apply resting_good); intros P e H; repeat (destruct H as [[= <- <-]|H]; [first [cbn; lra | cbn; tauto]|]); destruct H. }
  split; [exact HG|]. split; [intros root [= <-]; repeat split | repeat split; apply resting_good].
Qed.
Lemma flap_problem (only : bool) : exists w mv up,
  new_movement [still_airplane (flap_movement w)] calm (Some 3%Z) None None (Some 1) = Ok mv /\ new_unsteady_problem mv only = Ok up /\ up_delta_time up = 1 /\
  List.length (up_steady_problems up) = 3%nat /\ w_panels w = [flap_panels] /\ w_num_spanwise_panels w = 4%nat /\
  forall k sp, nth_error (up_steady_problems up) k = Some sp -> step_wings sp = [w] /\ sp_operating_point sp = mkop 1 4 0 0 0 (1506 / 100000000).
Proof.
  destruct flap_wing as (w & Hw & EP & _). destruct (wing_attributes _ _ _ _ _ _ _ _ _ _ _ Hw) as (A1 & A2 & A3 & A4 & A5 & A6 & A7 & A8 & A9 & A10).
  assert (EL : w_x_le w = 0 /\ w_y_le w = 0 /\ w_z_le w = 0) by (unfold w_leading_edge in A2; injection A2; auto). destruct EL as (L1 & L2 & L3).
  destruct (calm_problem (flap_movement w) only) as (mv & up & Hm & Hdt & Hup & Edt & L & Hst).
  - apply flap_movable; assumption.
  - split; [repeat constructor; left; reflexivity | repeat split; left; reflexivity].
  - split; [|split; [intros sm H; repeat (destruct H as [<-|H]; [reflexivity|]); destruct H|]].
    + cbn [flap_movement wm_base wm_sections]. rewrite A1, L1, L2, L3, A4, A6, A7. rewrite map_map. exact Hw.
    + intros [|[|[|i]]] p q Hp Hq; try (destruct i; discriminate Hq); try discriminate Hq; injection Hp as <-; injection Hq as <-; right; cbn; lra.
  - exists w, mv, up. do 4 (split; [assumption|]). split; [exact EP|]. split; [rewrite A9; reflexivity | exact Hst].
Qed.
Lemma flap_wake (only prescribed : bool) : exists am mv up s g l r,
  symmetric_but_for_flaps am /\ (forall w, In w (am_wings am) -> mirrored_wing mirrored_panel (wm_base w) (wm_base w)) /\ no_sideslip (om_base calm) /\
  new_movement [am] calm (Some 3%Z) None None (Some 1) = Ok mv /\ mv_delta_time mv <> 0 /\ new_unsteady_problem mv only = Ok up /\ after gauss_solve prescribed up 3 s /\
  wake_is s 1 [g] /\ (exists w, wing_at s 1 0 w /\ w_num_spanwise_panels w = 4%nat) /\
  entry g 0 1 l /\ entry g 0 2 r /\ across (rv_front_left l) <> rv_front_right r.
Proof.
  destruct flap_wing as (w & Hw & EP & MW). destruct (wing_attributes _ _ _ _ _ _ _ _ _ _ _ Hw) as (A1 & A2 & A3 & A4 & A5 & A6 & A7 & A8 & A9 & A10).
  assert (EL : w_x_le w = 0 /\ w_y_le w = 0 /\ w_z_le w = 0) by (unfold w_leading_edge in A2; injection A2; auto). destruct EL as (L1 & L2 & L3).
  destruct (calm_problem (flap_movement w) only) as (mv & up & Hm & Hdt & Hup & Edt & L & Hst).
  - apply flap_movable; assumption.
  - split; [repeat constructor; left; reflexivity | repeat split; left; reflexivity].
  - split; [|split; [intros sm H; repeat (destruct H as [<-|H]; [reflexivity|]); destruct H|]].
    + cbn [flap_movement wm_base wm_sections]. rewrite A1, L1, L2, L3, A4, A6, A7. rewrite map_map. exact Hw.
    + intros [|[|[|i]]] p q Hp Hq; try (destruct i; discriminate Hq); try discriminate Hq; injection Hp as <-; injection Hq as <-; right; cbn; lra.
  - assert (HC : created up) by (do 7 eexists; exists only; split; [exact Hm | exact Hup]).
    destruct (flap_run gauss_solve gauss_solve_spec prescribed up w HC Edt ltac:(lia) EP Hst false) as [s0 Hs0].
    destruct (created_some up HC ltac:(lia)) as [F HM]. destruct (finished_inv _ _ _ _ _ F Hs0 HM) as (s & _ & _ & _ & HA & _). rewrite L in HA.
    assert (HR : has_run gauss_solve prescribed up 3 s) by (left; exact HA).
    pose proof (steps_kept _ gauss_solve_spec _ _ _ _ HC HR) as FK. pose proof (Forall2_length _ _ _ FK) as LK. rewrite L in LK.
    destruct (nth_in_range (up_steady_problems (us_problem s)) 1 ltac:(lia)) as [sp Hsp].
    destruct (flap_flight gauss_solve gauss_solve_spec prescribed up w HC Edt EP Hst _ _ _ _ HR Hsp) as (w1 & ps & EW & EPs & FP & HV).
    assert (Hw1 : wing_at s 1 0 w1) by (exists sp; split; [exact Hsp | rewrite EW; reflexivity]).
    assert (ES : w_num_spanwise_panels w1 = 4%nat).
    { destruct (Forall2_nth _ _ _ FK _ _ Hsp) as (sp0 & H0 & HK). destruct (Hst _ _ H0) as (EA & _). pose proof (kept_step_wings _ _ HK) as FW. rewrite EA, EW in FW. inversion FW as [|? ? ? ? [E _] _ X1 X2]; subst.
      rewrite E. cbn [w_set_wake w_set_panels w_num_spanwise_panels flap_movement wm_base]. rewrite A9. reflexivity. }
    destruct (wake_recorded _ gauss_solve_spec _ _ _ _ 1 HC HR ltac:(lia)) as (grids & Hg & _).
    assert (exists g, grids = [g] /\ grid 1 4 g) as (g & -> & HG).
    { destruct Hg as (sp' & Hsp' & FG & _). assert (sp' = sp) by (unfold step_at in *; congruence). subst sp'. rewrite EW in FG. inversion FG as [|? g ? gs G FG' X1 X2]; subst. inversion FG'; subst. rewrite ES in G. eauto. }
    destruct (entry_exists _ _ _ 0 1 HG ltac:(lia) ltac:(lia)) as [l Hl]. destruct (entry_exists _ _ _ 0 2 HG ltac:(lia) ltac:(lia)) as [r Hr].
    exists (still_airplane (flap_movement w)), mv, up, s, g, l, r.
    split. { split; [reflexivity|]. split; [left; reflexivity|]. intros w' [<-|[]]. split; [exact A4|]. split; [exact L2|]. split; [left; reflexivity|].
             intros s' H. repeat (destruct H as [<-|H]; [split; [cbn; lia | left; reflexivity]|]). destruct H. }
    split; [intros w' [<-|[]]; exact MW|]. split; [reflexivity|]. split; [exact Hm|]. split; [rewrite Hdt; lra|]. split; [exact Hup|]. split; [exact HA|]. split; [exact Hg|]. split; [eauto|]. split; [exact Hl|]. split; [exact Hr|].
    assert (ET : trailing_panels w1 = ps) by (unfold trailing_panels; rewrite EPs; reflexivity).
    assert (LP : List.length ps = 4%nat) by (rewrite <- (Forall2_length _ _ _ FP); reflexivity).
    destruct (nth_in_range ps 1 ltac:(lia)) as [p1 Hp1]. destruct (nth_in_range ps 2 ltac:(lia)) as [p2 Hp2]. destruct (nth_in_range ps 3 ltac:(lia)) as [p3 Hp3].
    destruct (wake_attached _ gauss_solve_spec prescribed up 3 s 1 [g] 0 g w1 1 l p1 HC HR (le_n_S 0 2 (Nat.le_0_l 2)) Hg eq_refl Hl Hw1) as (W1 & _ & _); [rewrite ET; exact Hp1|].
    destruct (wake_attached _ gauss_solve_spec prescribed up 3 s 1 [g] 0 g w1 2 r p2 HC HR (le_n_S 0 2 (Nat.le_0_l 2)) Hg eq_refl Hr Hw1) as (_ & W2 & _); [rewrite ET; exact Hp2|].
    rewrite W1, (W2 p3 ltac:(rewrite ET; exact Hp3)).
    destruct (HV _ _ Hp1) as (r1 & R1 & _ & _ & _ & B1 & _). destruct (HV _ _ Hp3) as (r3 & R3 & _ & _ & _ & B3 & _).
    unfold back_left_of. rewrite R1, R3, B1, B3. intros E. apply (f_equal vz) in E. cbn in E. lra.
Qed.
