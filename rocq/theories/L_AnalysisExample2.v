(** An unsteady convergence analysis that succeeds: the plate of 4 by 4, at rest in a level flow. *)
From Coq Require Import List ZArith Lia Lra Bool Reals String.
From Verif Require Import M_Convergence M_Unsteady S_Unsteady S_UnsteadyRun S_Convergence S_Geometry S_Wing S_Vortices S_Loads S_Solve S_Movement S_Mirror S_Solvable
  L_Base L_Loads L_Aero L_Horseshoe L_Frames L_Geometry L_Movement L_Snapshots L_Problems L_Example L_Example3 L_Example4 L_Gauss L_Wake L_Unsteady L_UnsteadyRun L_UnsteadyFinal L_UnsteadyProps L_UnsteadyProps2
  L_UnsteadyFlow L_UnsteadyStill L_FlapExample L_GrazingExample L_Gaps L_Search L_Convergence L_Analysis L_AnalysisExample.
Import ListNotations.
Local Open Scope R_scope.
Local Open Scope list_scope.

Definition wide_wing_movement (k : nat) : wing_movement :=
  mkwingmove (wide_wing k) [moving (placed (plate 0 "symmetric" 0 1)) resting; moving (placed (plate 4 "symmetric" 0 k)) resting] resting resting resting.
Definition wide_movement (k : nat) : airplane_movement := mkairmove (wide_airplane k) [wide_wing_movement k] resting resting resting.

Lemma wide_movement_copied pchip database k : copy_airplane_movement pchip database 1 1 (wide_movement k) = Ok (wide_movement 0).
Proof.
  unfold copy_airplane_movement. cbn [wide_movement am_wings mapM]. unfold copy_wing_movement. cbn [wide_wing_movement wm_sections copy_section_movements map spanwise_after moving sm_base].
  rewrite (plates_between _ _ _ _ _ 1); [|lra|lra|left; replace (4 * 1 / (4 * 1) - 1) with 0 by field; rewrite Rabs_R0; lra].
  cbn [bind]. rewrite !plate_copied by lia. cbn [bind map sm_base]. change [plate 0 "symmetric" 0 (Z.to_nat 1); plate 4 "symmetric" 0 (Z.to_nat 0)] with (wide_sections 0).
  unfold copy_wing_with. cbn [wm_base wide_wing w_name w_x_le w_y_le w_z_le w_symmetric w_chordwise_spacing]. change (count 1) with (Ok 1%nat). cbn [bind].
  unfold default_unit_normal, default_unit_chordwise. rewrite wide_wing_ok. cbn [bind]. unfold copy_airplane_with.
  cbn [am_base wide_airplane a_name a_x_ref a_y_ref a_z_ref a_weight map wm_base]. rewrite wide_airplane_ok. reflexivity.
Qed.
Lemma wide_plain k : plain_base (wide_wing_movement k).
Proof.
  split; [|split].
  - exact (wide_wing_ok k).
  - intros sm [<-|[<-|[]]]; reflexivity.
  - intros [|[|i]] p q Hp Hq; [|discriminate Hq|destruct i; discriminate Hq]. injection Hp as <-. injection Hq as <-. right. cbn. lra.
Qed.
Lemma wide_unmoving k : wing_unmoving (wide_wing_movement k).
Proof. split; [repeat constructor; left; reflexivity | repeat split; left; reflexivity]. Qed.
Lemma plate_still_movable y c : section_movable (moving (placed (plate y "symmetric" 0 c)) resting).
Proof.
  split; [|split; [left; apply resting_good | split; left; apply resting_good]].
  intros P e H. repeat (destruct H as [[= <- <-]|H]; [first [cbn; lra | cbn; tauto]|]). destruct H.
Qed.
Lemma wide_movable k : airplane_movable (wide_movement k).
Proof.
  split; [discriminate|]. split; [|repeat split; apply resting_good]. constructor; [|constructor].
  split; [cbn; lia|]. split; [right; left; reflexivity|]. split.
  - cbn [wide_wing_movement wm_base wm_sections map moving sm_base wide_wing w_num_chordwise_panels w_symmetric]. split; [lia|]. intros i o [[= <- <-]|[]].
    cbn [cs_set_wing_chordwise cs_control_surface_deflection cs_control_surface_hinge_point plate]. split; [|split; [|discriminate]].
    + exact (plate_takes 0 "symmetric" 0 1 0 (or_introl eq_refl)).
    + exact (plate_takes 4 "symmetric" 0 k 0 (or_introl eq_refl)).
  - split; [constructor; [apply plate_still_movable | constructor; [apply plate_still_movable | constructor]]|].
    split; [intros root [= <-]; repeat split | repeat split; apply resting_good].
Qed.
Lemma wide_period k : max_period [wide_movement k] calm = Ok 0.
Proof.
  destruct (proj2 (max_period_total [wide_movement k] calm)) as [p Hp].
  { apply movable_populated; [discriminate|]. constructor; [|constructor]. apply wide_movable. }
  rewrite Hp. f_equal. apply (largest_unique _ _ _ (max_period_largest _ _ _ Hp)). split.
  - cbn. tauto.
  - intros q Hq. cbn in Hq. decompose [or] Hq; subst; try lra; try contradiction.
Qed.
Lemma wide_built k n : (1 <= n)%Z -> exists m, new_movement [wide_movement k] calm None None (Some (IZR n)) None = Ok m /\ (1 <= mv_num_steps m)%Z /\ 0 < mv_delta_time m.
Proof.
  intros Hn. apply (movement_accepted [wide_movement k] calm None None (Some (IZR n)) None 0); try discriminate.
  - constructor; [apply wide_movable | constructor].
  - left; reflexivity.
  - apply wide_period.
  - lra.
  - intros P e [[= <- <-]|[[= <- <-]|[[= <- <-]|[[= <- <-]|[]]]]]; auto.
  - cbn. lra.
  - intros am [<-|[]]. split; [cbn; lra|]. exists (wide_wing k). split; [reflexivity | cbn; lia].
  - intros c [= <-]. apply IZR_lt. lia.
Qed.
Lemma wide_steps k n m only up : new_movement [wide_movement k] calm None None (Some (IZR n)) None = Ok m -> new_unsteady_problem m only = Ok up ->
  forall i sp, nth_error (up_steady_problems up) i = Some sp -> sp_airplanes sp = [wide_airplane k] /\ sp_operating_point sp = level_op 4 (1506 / 100000000).
Proof.
  intros Hm Hup. destruct (movement_built _ _ _ _ _ _ _ Hm) as (_ & _ & _ & _ & EA & EO). destruct (unsteady_built _ _ _ Hup) as (_ & _ & _ & _ & _ & _ & _ & _ & _ & _ & _ & HS).
  cbn [mapM] in EA. apply bind_Ok in EA. destruct EA as (l & El & EA). apply bind_Ok in EA. destruct EA as (nil' & E0 & EA). apply Ok_eq in E0. subst nil'. apply Ok_eq in EA.
  destruct (generated_airplanes _ _ _ _ El) as (Ll & _ & xs & ys & zs & hs & Ex & Ey & Ez & EH & HNa).
  cbn [am_wings wide_movement mapM] in EH. apply bind_Ok in EH. destruct EH as (ws & EW & EH). apply bind_Ok in EH. destruct EH as (nil' & E0 & EH). apply Ok_eq in E0. subst nil'. apply Ok_eq in EH. subst hs.
  pose proof (static_wings _ _ _ _ EW (wide_unmoving k) (wide_plain k)) as ->. cbn [wide_wing_movement wm_base] in *.
  assert (HU : unmoving resting) by (left; reflexivity).
  assert (HA1 : forall i a, nth_error l i = Some a -> a = wide_airplane k).
  { intros i a Hi. destruct (HNa i a Hi) as (x & y' & z & wings & Hx & Hy & Hz & EC & Ea).
    apply (unmoving_value _ _ _ _ _ _ _ HU Ex) in Hx. apply (unmoving_value _ _ _ _ _ _ _ HU Ey) in Hy. apply (unmoving_value _ _ _ _ _ _ _ HU Ez) in Hz. cbn [wide_movement am_base wide_airplane a_x_ref a_y_ref a_z_ref] in Hx, Hy, Hz. subst x y' z.
    apply column_spec in EC. inversion EC as [|? w ? rest Hw Hr X1 X2]; subst. inversion Hr; subst. apply nth_error_In in Hw. apply repeat_spec in Hw. subst w.
    cbn [wide_movement am_base wide_airplane a_name] in Ea. rewrite wide_airplane_ok in Ea. apply Ok_eq in Ea. symmetry. exact Ea. }
  intros i sp Hk. destruct (HS i sp Hk) as [FA FO]. rewrite <- EA in FA. inversion FA as [|? b ? rest Hb Hr X1 X2]; subst. inversion Hr; subst.
  split; [f_equal; exact (HA1 _ _ Hb)|].
  destruct (generated_operating_points _ _ _ _ EO) as (_ & _ & vs & Evs & HNo). destruct (HNo _ _ FO) as (v & Hv & ->). rewrite (unmoving_value _ _ _ _ _ _ _ HU Evs Hv). reflexivity.
Qed.
Lemma wide_ring_alone x nu : 5 <= x -> 0 < vdot (quad_velocity (mkvec 3 2 0) (mkvec x 4 0) (mkvec 1 4 0) (mkvec 1 0 0) (mkvec x 0 0) 1 0 nu) (mkvec 0 0 1).
Proof.
  intros Hx. unfold quad_velocity. rewrite !vdot_add_l.
  assert (P1 : 0 < vdot (line_velocity (mkvec 3 2 0) (mkvec x 4 0) (mkvec 1 4 0) 1 0 nu) (mkvec 0 0 1)) by (apply line_velocity_positive; [apply regular_if|]; unfold vdot, vsub, vcross; cbn [vx vy vz]; nra).
  assert (P2 : 0 < vdot (line_velocity (mkvec 3 2 0) (mkvec 1 4 0) (mkvec 1 0 0) 1 0 nu) (mkvec 0 0 1)) by (apply line_velocity_positive; [apply regular_if|]; vunfold; lra).
  assert (P3 : 0 < vdot (line_velocity (mkvec 3 2 0) (mkvec 1 0 0) (mkvec x 0 0) 1 0 nu) (mkvec 0 0 1)) by (apply line_velocity_positive; [apply regular_if|]; unfold vdot, vsub, vcross; cbn [vx vy vz]; nra).
  assert (P4 : 0 < vdot (line_velocity (mkvec 3 2 0) (mkvec x 0 0) (mkvec x 4 0) 1 0 nu) (mkvec 0 0 1)) by (apply line_velocity_positive; [apply regular_if|]; unfold vdot, vsub, vcross; cbn [vx vy vz]; nra).
  lra.
Qed.
Section Wide.
  Variable solve : list (list R) -> list R -> result (list R).
  Hypothesis HS : SolveSpec solve.
  Variable prescribed : bool.
  Variable up : unsteady_problem.
  Hypothesis HC : created up.
  Hypothesis HT : 0 < up_delta_time up.
  Hypothesis Hlen : (0 < List.length (up_steady_problems up))%nat.
  Hypothesis Hsteps : forall k sp, nth_error (up_steady_problems up) k = Some sp -> sp_airplanes sp = [wide_airplane 0] /\ sp_operating_point sp = level_op 4 (1506 / 100000000).
  Lemma wide_bound n s k sp : has_run solve prescribed up n s -> step_at s k sp ->
    exists p r x, step_panels sp = [p] /\ same_panel wide_panel p /\ p_ring_vortex p = Some r /\ ring_consistent r /\ 5 <= x /\
      rv_front_left r = mkvec 1 0 0 /\ rv_front_right r = mkvec 1 4 0 /\ rv_back_left r = mkvec x 0 0 /\ rv_back_right r = mkvec x 4 0.
  Proof.
    clear Hlen. intros HR Hsp. pose proof (steps_kept _ HS _ _ _ _ HC HR) as FK.
    destruct (Forall2_nth _ _ _ FK _ _ Hsp) as (sp0 & H0 & K). destruct (Hsteps _ _ H0) as (EA & EO).
    pose proof (kept_step_wings _ _ K) as FW. unfold step_wings at 1 in FW. rewrite EA in FW. cbn [map concat wide_airplane a_wings app] in FW.
    inversion FW as [|? w ? ws [Ew Fw] Fr X1 X2]; subst. inversion Fr; subst. symmetry in X2. cbn [wide_wing w_panels] in Fw.
    inversion Fw as [|? row ? rows Frow Frows Y1 Y2]; subst. inversion Frows; subst. inversion Frow as [|? p ? ps HP Fps Z1 Z2]; subst. inversion Fps; subst. symmetry in Y2.
    assert (EP : step_panels sp = [p]) by (rewrite panels_of_wings, X2; cbn [map concat app]; rewrite Y2; reflexivity).
    assert (Hw : wing_at s k 0 w) by (exists sp; split; [exact Hsp | rewrite X2; reflexivity]).
    assert (Hp : at_position (w_panels w) 0 0 p) by (rewrite Y2; exists [p]; auto).
    destruct (bound_rings _ HS _ _ _ _ _ _ _ _ _ _ HC HR Hw Hp) as (r & Hr & (HCr & B1 & B2 & B3 & _)). rewrite Y2 in B3. destruct (B3 eq_refl) as [B4 B5].
    change (same_panel wide_panel p) in HP. destruct (L_UnsteadyRun.same_panel_vertices _ _ HP) as [V1 V2]. destruct wide_points as (_ & _ & Q1 & Q2). rewrite V1, Q2 in B1. rewrite V2, Q1 in B2.
    assert (EOs : sp_operating_point sp = level_op 4 (1506 / 100000000)) by (rewrite (proj1 K); exact EO).
    assert (EV : drift_at s k = mkvec (up_delta_time up) 0 0).
    { unfold drift_at, freestream_at. unfold step_at in Hsp. rewrite Hsp, EOs. destruct (has_run_history _ HS _ _ _ _ HC HR) as (F & up1 & conv & sa & HH). rewrite (hi_time _ _ _ _ _ _ _ _ _ HH), level_velocity. clear. vunfold. apply vec_ext; cbn; field. }
    destruct HP as (E1 & E2 & E3 & E4 & HP). rewrite EV, B1, E2, E3 in B4. rewrite EV, B2, E1, E4 in B5.
    exists p, r, (5 + up_delta_time up). split; [exact EP|]. split; [unfold same_panel; auto|]. split; [exact Hr|]. split; [exact HCr|]. split; [lra|]. split; [exact B1|]. split; [exact B2|].
    rewrite B4, B5. clear. split; unfold wide_panel, plain_panel, p_set_position, new_panel; cbn [p_front_right p_front_left p_back_left p_back_right]; vunfold; apply vec_ext; cbn; field.
  Qed.
  Lemma wide_finished lines : exists s, finished solve prescribed lines up s.
  Proof.
    destruct (nth_in_range _ _ Hlen) as [sp0 H0]. assert (exists s0, unsteady_new up = Ok s0) as [s0 E0] by (unfold unsteady_new, index; rewrite H0; cbn; eauto).
    destruct (run_outcome _ HS prescribed up lines s0 HC E0) as [[s Es]|(k & s & sp & A & b & e & HA & Hsp & HI & Lb & Hs & _)]; [exists s, s0; auto|]. exfalso.
    destruct HI as (rs & Frs & EA). destruct (wide_bound _ _ _ _ (or_introl HA) Hsp) as (p & r & x & EP & HP & Hr & HCr & Hx & R1 & R2 & R3 & R4).
    rewrite EP in *. inversion Frs as [|? r' ? rs' Hr' Frs' X1 X2]; subst. inversion Frs'; subst. assert (r' = r) by congruence. subst r'. cbn [map] in *.
    destruct b as [|y [|]]; try discriminate Lb. match type of Hs with ?t = _ => enough (exists z, t = Ok z) as [z Ez] by congruence end.
    eexists. apply solve_1x1; [exact HS|]. apply Rgt_not_eq. apply Rlt_gt.
    rewrite (ring_velocity_quad _ _ _ (ring_update_strength 1 r) (update_strength_consistent 1 r HCr)). cbn [ring_update_strength rv_back_right rv_front_right rv_front_left rv_back_left rv_strength].
    rewrite R1, R2, R3, R4. destruct (same_panel_collocation _ _ HP) as [-> ->]. destruct wide_points as (-> & -> & _). apply wide_ring_alone, Hx.
  Qed.
End Wide.

(** ** The analysis *)
Lemma wide_trial4 pchip database solve (wake : bool) l : SolveSpec solve -> (1 <= l)%Z -> forall m, mv_airplane_movements m = [wide_movement 1] -> mv_op_movement m = calm ->
  exists v, List.length v = 6%nat /\ unsteady_trial pchip database solve (repeat true 6) true m wake l 1 1 = Ok [v].
Proof.
  intros HS Hl m Em Eo. destruct (wide_built 0 l Hl) as (m' & Hm & Hn & Hd). destruct (unsteady_succeeds _ _ _ _ _ _ _ true Hm) as [up Hup].
  { apply movable_populated; [discriminate|]. constructor; [apply wide_movable | constructor]. }
  destruct (unsteady_built _ _ _ Hup) as (_ & _ & Edt & _ & EP & _ & _ & _ & _ & _ & HL & _). assert (HC : created up) by (do 7 eexists; exists true; split; [exact Hm | exact Hup]).
  pose proof (wide_steps _ _ _ _ _ Hm Hup) as Hst. destruct (movement_built _ _ _ _ _ _ _ Hm) as (MA & MO & _).
  destruct (wide_finished solve HS wake up HC ltac:(rewrite Edt; exact Hd) ltac:(lia) Hst false) as (s & s0 & E0 & E1).
  unfold unsteady_trial. rewrite Em, Eo. cbn [mapM]. rewrite wide_movement_copied. cbn [bind]. unfold convergence_movement. rewrite Hm. cbn [bind]. rewrite Hup. cbn [bind]. rewrite E0. cbn [bind]. rewrite E1. cbn [bind List.length seq mapM].
  assert (HP0 : up_max_period up = 0). { unfold mv_max_period in EP. rewrite MA, MO, wide_period in EP. apply Ok_eq in EP. symmetry. exact EP. }
  assert (HF : finished solve wake false up s) by (exists s0; auto).
  assert (HI : forall load final, In (load, final) load_lists -> exists v, final (up_final (us_problem s)) = [v]).
  { intros load final Hin. destruct (final_loads_static _ HS _ _ _ _ HC HF HP0 load final Hin) as (sp & Hsp & F2 & _).
    pose proof (steps_kept _ HS _ _ _ _ HC (or_intror (conj (ex_intro _ false HF) eq_refl))) as FK. destruct (Forall2_nth _ _ _ FK _ _ Hsp) as (sp0 & H0 & K).
    destruct (Hst _ _ H0) as [EA _]. pose proof (Forall2_length _ _ _ (proj2 K)) as EL. rewrite EA in EL. apply Forall2_length in F2. rewrite <- EL in F2. destruct (final (up_final (us_problem s))) as [|v [|]]; try discriminate F2. exists v. reflexivity. }
  destruct (HI a_force_coefficients fl_force_coefficients) as [f Ef]; [unfold load_lists; cbn; tauto|]. destruct (HI a_moment_coefficients fl_moment_coefficients) as [g Eg]; [unfold load_lists; cbn; tauto|].
  unfold final_coefficients. rewrite Ef, Eg. cbn [index nth_error bind components app masked List.length repeat Nat.eqb combine filter fst snd map]. eexists. split; [|reflexivity]. reflexivity.
Qed.
Lemma wide_unsteady_analysis : exists m ref, new_movement [wide_movement 1] calm None None (Some 2) None = Ok m /\ new_unsteady_problem m false = Ok ref /\
  mv_max_period (up_movement ref) = Ok 0 /\ mv_airplane_movements (up_movement ref) <> [] /\
  forall pchip database criteria, (forall wake l, (1 <= l)%Z -> exists v, List.length v = 6%nat /\ unsteady_trial pchip database gauss_solve (repeat true 6) true (up_movement ref) wake l 1 1 = Ok [v]) /\
    analyze_unsteady_convergence pchip database gauss_solve ref false true (1, 1)%Z (2, 2)%Z (1, 1)%Z (1, 1)%Z None criteria = Ok (Some (false, 2, 1, 1)%Z).
Proof.
  destruct (wide_built 1 2 ltac:(lia)) as (m & Hm & Hn & Hd). destruct (unsteady_succeeds _ _ _ _ _ _ _ false Hm) as [up Hup].
  { apply movable_populated; [discriminate|]. constructor; [apply wide_movable | constructor]. }
  destruct (unsteady_built _ _ _ Hup) as (EM & _ & _ & _ & EP & _). destruct (movement_built _ _ _ _ _ _ _ Hm) as (MA & MO & _).
  assert (HP : mv_max_period (up_movement up) = Ok 0) by (rewrite EM; unfold mv_max_period; rewrite MA, MO; apply wide_period).
  exists m, up. split; [exact Hm|]. split; [exact Hup|]. split; [exact HP|]. split; [rewrite EM, MA; discriminate|]. intros pchip database criteria.
  assert (HT : forall wake l, (1 <= l)%Z -> exists v, List.length v = 6%nat /\ unsteady_trial pchip database gauss_solve (repeat true 6) true (up_movement up) wake l 1 1 = Ok [v])
    by (intros wake l Hl; apply wide_trial4; [exact gauss_solve_spec | exact Hl | rewrite EM; exact MA | rewrite EM; exact MO]).
  split; [exact HT|]. destruct (HT false 2%Z ltac:(lia)) as (v & _ & E).
  unfold analyze_unsteady_convergence. rewrite HP. cbn [bind]. assert (Z0 : Reqb 0 0 = true) by (apply Reqb_true; reflexivity). rewrite Z0. cbn [fst snd].
  generalize dependent (unsteady_trial pchip database gauss_solve (repeat true 6) true (up_movement up)). intros trial _ E. unfold unsteady_search. change (wake_list false true) with [false]. change (range_up 2 2) with [2%Z]. change (range_up 1 1) with [1%Z]. change (range_down 1 1) with [1%Z].
  cbn [enumerate List.length seq combine list_prod map app unsteady_loop]. rewrite E. reflexivity.
Qed.
