(** Symmetric flight: airplanes that are their own mirror images at every time step. *)
From Coq Require Import String List ZArith Lia Lra Reals Bool Permutation.
From Verif Require Import M_Unsteady S_Solve S_Vortices S_Loads S_Mirror S_Rigid S_Movement
  L_Base L_Loads L_Aero L_Rotations L_Horseshoe L_SteadyRing L_Frames L_Mirror L_MirrorRing L_Symmetry L_Geometry L_Movement L_Snapshots L_Problems L_Unsteady L_Statements3 L_Rigid L_Wake L_UnsteadyStep L_UnsteadyRun L_UnsteadyFlow
  L_UnsteadyProps L_UnsteadyLoads L_UnsteadyFinal S_Unsteady S_UnsteadyRun S_Image L_Pairs L_ImageGeometry L_ImageRun L_ImageFinal.
Import ListNotations.
Local Open Scope R_scope.
Local Open Scope list_scope.

Lemma across_own v : v = across v -> vy v = 0.
Proof. intros H. apply (f_equal vy) in H. cbn in H. lra. Qed.
Lemma across_moment_own v : v = across_moment v -> vx v = 0 /\ vz v = 0.
Proof. intros H. pose proof (f_equal vx H) as H1. pose proof (f_equal vz H) as H2. cbn in H1, H2. lra. Qed.
Lemma totals_own a : totals_image true a a -> no_lateral_loads a.
Proof.
  intros (f & n & cf & cn & H1 & H2 & H3 & H4 & H5 & H6 & H7 & H8). exists f, n, cf, cn. repeat (split; [assumption|]). cbn [wind_image wind_image_moment] in *.
  rewrite H1 in H5. rewrite H2 in H6. rewrite H3 in H7. rewrite H4 in H8. apply Some_eq in H5, H6, H7, H8.
  apply across_own in H5, H7. apply across_moment_own in H6, H8. tauto.
Qed.
Lemma own_image m t pr up (solve : list (list R) -> list R -> result (list R)) (prescribed : bool) n s : SolveSpec solve -> isometric true m -> created up -> up_delta_time up <> 0 -> problem_image true m t pr up up ->
  after solve prescribed up n s -> run_image true m t pr (up_first_results_step up) n s s /\
  forall k sp i a, (k < n)%nat -> (up_first_results_step up <= Z.of_nat k)%Z -> step_at s k sp -> nth_error (sp_airplanes sp) i = Some a -> partner pr i = i -> no_lateral_loads a.
Proof.
  intros HS HI HC Hdt HP A. destruct (image_run true m t pr up up solve prescribed n s HS HI HC HC Hdt HP A) as (s' & A' & HR).
  rewrite (after_unique _ _ _ _ _ _ A' A) in HR. split; [exact HR|]. intros k sp i a Hk Hf Hsp Ha Hi.
  destruct (ri_loads _ _ _ _ _ _ _ _ HR k sp sp Hk Hf Hsp Hsp) as [_ (_ & _ & HT)]. destruct (HT i a Ha) as (a' & Ha' & H). rewrite Hi in Ha'. apply totals_own. congruence.
Qed.

(** ** Flapping *)
Definition alone : pairing := {| partner := fun k => k; wing_partner := fun _ k => k; keeps_sides := fun _ _ => false |}.
Lemma reflect_across v : mvmul reflection v = across v. Proof. unfold reflection, across; vring. Qed.
Lemma moved_across v : moved reflection vzero v = across v. Proof. unfold moved. rewrite reflect_across, vadd_0_r. reflexivity. Qed.
Lemma reflection_isometric : isometric true reflection.
Proof. split; [intros u v; rewrite !reflect_across; apply across_dot | unfold mdet, reflection; vunfold; ring]. Qed.
Lemma flow_own op : no_sideslip op -> flow_image true reflection op op.
Proof.
  intros H. repeat (split; [reflexivity|]). intros v. rewrite reflect_across. apply mirrored_to_wind, own_flow, H.
Qed.
Lemma symmetric_rows sections name x z n c nc sp w : new_wing sections name x 0 z n true c nc sp = Ok w -> vx n = 0 -> vz n = 0 -> vnorm n = 1 ->
  (forall s, In s (removelast sections) -> cs_control_surface_type s = "symmetric"%string \/ cs_control_surface_deflection s = 0) ->
  rows_image false (panel_image reflection vzero false) (w_panels w) (w_panels w).
Proof.
  intros H Hx Hz Hn HO. apply (rows_mirror_intro false); [reflexivity|].
  intros r row row' Hr Hr'. rewrite Hr in Hr'. apply Some_eq in Hr'. subst row'. split; [reflexivity|].
  intros s p p' Hp Hp'. pose proof (wing_lengths _ _ _ _ _ _ _ _ _ _ _ _ _ H Hr) as L. cbn [column_of] in Hp'. rewrite L in Hp'.
  assert (Hs : (s < length row)%nat) by (apply nth_error_Some; congruence). rewrite L in Hs.
  assert (X : mirrored_panel false p p').
  { apply mirrored_panel_sym, (mirror_image_panel n (mkvec x 0 z)); auto. apply (wing_mirror _ _ _ _ _ _ _ _ _ _ H Hn HO r s p' p Hs); [exists row; auto | exists row; auto]. }
  unfold panel_image. cbn [mirrored_panel] in X. rewrite !moved_across. exact X.
Qed.
Lemma last_row (w : wing) : w_panels w <> [] -> exists c, nth_error (w_panels w) c = Some (trailing_panels w).
Proof.
  intros H. unfold trailing_panels. exists (length (removelast (w_panels w))). rewrite (app_removelast_last [] H) at 1. rewrite nth_error_app2 by lia. rewrite Nat.sub_diag. reflexivity.
Qed.
Lemma watertight_joined (w : wing) : w_panels w <> [] -> spanwise_watertight (w_panels w) -> joined (trailing_panels w).
Proof.
  intros HN H s p q Hp Hq. destruct (last_row w HN) as [c Hc]. apply (H c s p q); eexists; split; eassumption.
Qed.
Lemma default_normal_unit : vnorm default_unit_normal = 1.
Proof. apply vdot_1_norm. unfold default_unit_normal. vunfold. cbn. ring. Qed.
Lemma snapshot_own m n dt ws i w : symmetric_wing_movement m -> generate_wings m n dt = Ok ws -> nth_error ws i = Some w -> wing_image reflection vzero false w w.
Proof.
  intros (S1 & S2 & S3 & S4 & S5) H Hw. destruct (generated_wing_kept _ _ _ _ _ _ H Hw) as [K _]. destruct (generated_wings _ _ _ _ H) as (LW & H0 & xs & ys & zs & hs & _ & Ey & _ & _ & HN).
  destruct (HN i w Hw) as (x & y & z & sections & _ & Hy & _ & _ & EW). pose proof (unmoving_value _ _ _ _ _ _ _ S3 Ey Hy) as Hy0. rewrite S2 in Hy0. subst y. rewrite S1 in EW.
  pose proof (wing_attributes _ _ _ _ _ _ _ _ _ _ _ EW) as (_ & _ & _ & _ & _ & A6 & _ & A8 & _). destruct K as (_ & _ & _ & _ & KF). rewrite A8 in KF.
  assert (HK : Forall2 (fun sm s => section_kept (sm_base sm) s) (wm_sections m) sections).
  { revert KF. generalize (wm_sections m). clear. induction sections as [|s l IH]; intros sms KF; inversion KF as [|sm s' sms' l' HK KF']; subst; constructor; [|auto]. exact HK. }
  pose proof (removelast_Forall2 _ _ _ HK) as HR.
  assert (G1 : forall s, In s (removelast sections) -> (1 <= cs_num_spanwise_panels s)%nat /\ (cs_control_surface_type s = "symmetric"%string \/ cs_control_surface_deflection s = 0)).
  { intros s Hs. destruct (Forall2_in_r _ _ _ _ HR Hs) as (sm & Hsm & (_ & _ & K3 & _ & K5 & K6 & _)). rewrite K3, K5, K6. exact (S4 sm Hsm). }
  assert (G2 : forall s t, In s (removelast sections) -> In t (removelast sections) -> cs_control_surface_deflection s = cs_control_surface_deflection t /\ cs_control_surface_hinge_point s = cs_control_surface_hinge_point t).
  { intros s t Hs Ht. destruct (Forall2_in_r _ _ _ _ HR Hs) as (sm & Hsm & (_ & _ & _ & K4 & K5 & _)). destruct (Forall2_in_r _ _ _ _ HR Ht) as (tm & Htm & (_ & _ & _ & T4 & T5 & _)).
    rewrite K4, K5, T4, T5. exact (S5 sm tm Hsm Htm). }
  assert (HT : spanwise_watertight (w_panels w)).
  { apply (wing_uniform_watertight _ _ _ _ _ _ _ _ _ _ _ EW default_normal_unit); [intros s Hs; apply (G1 s Hs) | exact G2 | intros _ s Hs; apply (G1 s Hs)]. }
  assert (H1 : (1 <= n)%Z). { assert ((i < length ws)%nat) by (apply nth_error_Some; congruence). lia. }
  destruct (proj1 (wings_succeed m n dt H1) (ex_intro _ ws H)) as (L2 & _). destruct (snapshot_wing _ _ _ _ _ _ H Hw) as ((_ & HC & HD & _) & HLay & _).
  destruct (wing_shape _ _ _ _ _ _ _ _ _ _ _ EW) as (_ & W2 & W3 & W4 & _).
  assert (NE : w_panels w <> []). { intros X. rewrite X in W2. cbn [length] in W2. rewrite A6 in HC. lia. }
  split; [|split].
  - apply (symmetric_rows _ _ _ _ _ _ _ _ _ EW); [reflexivity | reflexivity | exact default_normal_unit | intros s Hs; apply (G1 s Hs)].
  - destruct (last_row w NE) as [c Hc]. intros X. rewrite X in Hc. apply nth_error_In in Hc. specialize (W3 _ Hc). cbn [length] in W3. rewrite W4 in W3.
    apply Forall2_length in HK. destruct sections as [|s1 [|s2 l]]; cbn [length] in HK; try lia. change (removelast (s1 :: s2 :: l)) with (s1 :: removelast (s2 :: l)) in *.
    cbn [map list_sum fold_right] in W3. destruct (G1 s1 (or_introl eq_refl)) as [X1 _]. lia.
  - intros _. exact (watertight_joined w NE HT).
Qed.
Lemma pairs_own {A} (P : nat -> A -> A -> Prop) l : (forall k x, nth_error l k = Some x -> P k x x) -> pairs (fun k => k) P l l.
Proof. intros H. split; [reflexivity|]. split; [auto|]. intros k x Hx. exists x. split; [exact Hx | exact (H k x Hx)]. Qed.
Lemma snapshot_airplane_own m n dt l i a : symmetric_movement m -> generate_airplanes m n dt = Ok l -> nth_error l i = Some a ->
  airplane_image reflection vzero (fun k => k) (fun _ => false) (wing_image reflection vzero) a a.
Proof.
  intros (S1 & S2 & S3) H Ha. destruct (generated_airplanes _ _ _ _ H) as (_ & _ & xs & ys & zs & hs & _ & Ey & _ & EH & HN).
  destruct (HN i a Ha) as (x & y & z & wings & _ & Hy & _ & EC & EA). pose proof (unmoving_value _ _ _ _ _ _ _ S2 Ey Hy) as Hy0. rewrite S1 in Hy0. subst y.
  apply mapM_Forall2 in EH.
  assert (EW : a_wings a = wings /\ a_xyz_ref a = mkvec x 0 z).
  { unfold new_airplane in EA. destruct wings; [discriminate|]. apply Ok_eq in EA. rewrite <- EA. split; reflexivity. }
  destruct EW as [EW ER]. split; [rewrite ER, moved_across; unfold across; apply vec_ext; cbn; lra|]. repeat (split; [reflexivity|]).
  apply pairs_own. intros k w Hw. rewrite EW in Hw.
  assert (HF : Forall2 (fun wm w => In wm (am_wings m) /\ exists ws, generate_wings wm n dt = Ok ws /\ nth_error ws i = Some w) (am_wings m) wings).
  { assert (EH' : Forall2 (fun wm ws => In wm (am_wings m) /\ generate_wings wm n dt = Ok ws) (am_wings m) hs).
    { clear -EH. assert (X : forall l0, incl l0 (am_wings m) -> Forall2 (fun w l => generate_wings w n dt = Ok l) l0 hs -> Forall2 (fun wm ws => In wm (am_wings m) /\ generate_wings wm n dt = Ok ws) l0 hs).
      { clear. intros l0 Hi F. induction F as [|wm ws l0 hs E F IH]; constructor; [split; [apply Hi; left; reflexivity | exact E] | apply IH; intros y Hy; apply Hi; right; exact Hy]. }
      apply X; [apply incl_refl | exact EH]. }
    eapply column_Forall2; [|exact EH' | exact EC]. cbn beta. intros wm ws w0 [Hin E] E0. eauto. }
  destruct (Forall2_nth _ _ _ HF _ _ Hw) as (wm & _ & Hin & ws & E & E0). exact (snapshot_own _ _ _ _ _ _ (S3 wm Hin) E E0).
Qed.
Lemma symmetric_problem ams om ns cy ch d mv only up : new_movement ams om ns cy ch d = Ok mv -> new_unsteady_problem mv only = Ok up ->
  (forall am, In am ams -> symmetric_movement am) -> no_sideslip (om_base om) -> problem_image true reflection vzero alone up up.
Proof.
  intros Em Eup HS HB. constructor; [reflexivity | reflexivity|]. destruct (unsteady_built _ _ _ Eup) as (_ & _ & _ & _ & _ & _ & _ & _ & _ & _ & _ & U3).
  destruct (movement_lengths _ _ _ _ _ _ _ Em) as (_ & _ & FG). apply movement_built in Em. destruct Em as (_ & _ & _ & _ & _ & HO).
  apply Forall2_from_nth; [reflexivity|]. intros k sp sp' Hsp Hsp'. rewrite Hsp in Hsp'. apply Some_eq in Hsp'. subst sp'. destruct (U3 k sp Hsp) as [FL HOp]. split.
  - apply flow_own. destruct (operating_point_kept _ _ _ _ _ _ HO HOp) as (_ & _ & HBeta & _). unfold no_sideslip in *. congruence.
  - apply pairs_own. intros i a Ha. cbn [alone wing_partner keeps_sides]. destruct (Forall2_nth _ _ _ FL _ _ Ha) as (h & Hh & Hk).
    destruct (Forall2_nth _ _ _ FG _ _ Hh) as (am & Ham & E & _). exact (snapshot_airplane_own _ _ _ _ _ _ (HS am (nth_error_In _ _ Ham)) E Hk).
Qed.
Lemma symmetric_flight ams om ns cy ch d mv only up (solve : list (list R) -> list R -> result (list R)) (prescribed : bool) n s : SolveSpec solve ->
  new_movement ams om ns cy ch d = Ok mv -> new_unsteady_problem mv only = Ok up ->
  (forall am, In am ams -> symmetric_movement am) -> no_sideslip (om_base om) -> mv_delta_time mv <> 0 ->
  after solve prescribed up n s ->
  (forall x u, unsteady_solution_velocity s [x] = Ok [u] -> unsteady_solution_velocity s [across x] = Ok [across u]) /\
  forall k sp a, (k < n)%nat -> (up_first_results_step up <= Z.of_nat k)%Z -> step_at s k sp -> In a (sp_airplanes sp) -> no_lateral_loads a.
Proof.
  intros HS Em Eup HM HB Hdt A. assert (HC : created up) by (repeat eexists; eassumption). pose proof (symmetric_problem _ _ _ _ _ _ _ _ _ Em Eup HM HB) as HP.
  destruct (unsteady_built _ _ _ Eup) as (_ & _ & U & _). assert (Hdt' : up_delta_time up <> 0) by congruence.
  destruct (own_image _ _ _ _ solve prescribed n s HS reflection_isometric HC Hdt' HP A) as [HR HL]. split.
  - intros x u Hu. pose proof (ri_velocity _ _ _ _ _ _ _ _ HR x u Hu) as H. rewrite moved_across, reflect_across in H. exact H.
  - intros k sp a Hk Hf Hsp Ha. apply In_nth_error in Ha. destruct Ha as [i Hi]. exact (HL k sp i a Hk Hf Hsp Hi eq_refl).
Qed.
Lemma symmetric_finals ams om ns cy ch d mv only up (solve : list (list R) -> list R -> result (list R)) (prescribed lines : bool) s : SolveSpec solve ->
  new_movement ams om ns cy ch d = Ok mv -> new_unsteady_problem mv only = Ok up ->
  (forall am, In am ams -> symmetric_movement am) -> no_sideslip (om_base om) -> mv_delta_time mv <> 0 -> (up_first_averaging_step up < up_num_steps up)%Z ->
  finished solve prescribed lines up s ->
  forall fl, In fl [up_final (us_problem s); up_final_mean (us_problem s)] ->
    (forall f, In f (fl_forces fl ++ fl_force_coefficients fl) -> vy f = 0) /\
    (forall m, In m (fl_moments fl ++ fl_moment_coefficients fl) -> vx m = 0 /\ vz m = 0).
Proof.
  intros HS Em Eup HM HB Hdt Hw HF fl Hfl. assert (HC : created up) by (repeat eexists; eassumption). pose proof (symmetric_problem _ _ _ _ _ _ _ _ _ Em Eup HM HB) as HP.
  destruct (unsteady_built _ _ _ Eup) as (_ & _ & U & _). assert (Hdt' : up_delta_time up <> 0) by congruence.
  destruct (image_finished solve HS prescribed lines true reflection vzero reflection_isometric alone up up HC HC HP Hdt' eq_refl Hw s HF) as (s' & HF' & _ & F1 & F2 & _).
  assert (ES : s' = s). { destruct HF as (s0 & E0 & E). destruct HF' as (s0' & E0' & E'). congruence. } subst s'.
  assert (HX : final_image alone (wind_image true) (wind_image_moment true) fl fl) by (destruct Hfl as [<-|[<-|[]]]; assumption).
  destruct HX as (X1 & X2 & X3 & X4). cbn [alone partner wind_image wind_image_moment] in *.
  assert (Own : forall (f : vec -> vec) l, pairs (fun k => k) (fun _ v v' => v' = f v) l l -> forall v, In v l -> v = f v).
  { intros f l (_ & _ & H) v Hv. apply In_nth_error in Hv. destruct Hv as [k Hk]. destruct (H k v Hk) as (v' & Hk' & E). congruence. }
  split; intros v Hv; apply in_app_or in Hv.
  - apply across_own. destruct Hv as [Hv|Hv]; [exact (Own _ _ X1 v Hv) | exact (Own _ _ X2 v Hv)].
  - apply across_moment_own. destruct Hv as [Hv|Hv]; [exact (Own _ _ X3 v Hv) | exact (Own _ _ X4 v Hv)].
Qed.
