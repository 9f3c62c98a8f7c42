(** Runs whose time step is computed. *)
From Coq Require Import List ZArith Lia Lra Reals String.
From Verif Require Import M_Unsteady S_Solve S_Mirror S_Unsteady S_UnsteadyRun S_Continuous S_ContinuousUnsteady S_ContinuousMovement S_ContinuousDefault
  L_Base L_Geometry L_Limits L_ContinuousUnsteady L_ContinuousMovement L_ContinuousMovementRun L_ContinuousDefault L_Problems
  L_Gauss L_Example L_Example3 L_Example4 L_Example5 L_ContinuousExample L_ContinuousFlight.
Import ListNotations.
Local Open Scope R_scope.

Lemma default_flight solve prescribed (lines : bool) AMS ams OM om s cy ch m only up sol : SolveSpec solve ->
  each (approaching_airplane_movement (fun n => default_time_step (AMS n) (OM n)) (mv_delta_time m)) AMS ams -> each approaching_base AMS ams ->
  approaching_op_movement OM om -> op_velocity (om_base om) <> 0 ->
  same_clock AMS ams OM om s cy (fun n => default_time_step (AMS n) (OM n)) (mv_delta_time m) (mv_num_steps m) ->
  new_movement ams om s cy ch None = Ok m -> new_unsteady_problem m only = Ok up -> 0 < mv_delta_time m -> (0 < mv_num_steps m)%Z ->
  no_vertical_wings ams (mv_airplanes m) -> main_wings_wide (mv_airplanes m) -> solid_steps up ->
  steps_off_edges solve prescribed up (List.length (up_steady_problems up)) -> finished solve prescribed lines up sol ->
  exists UPS ss N, (forall n, (N <= n)%nat -> exists m', new_movement (AMS n) (OM n) s cy ch None = Ok m' /\ new_unsteady_problem m' only = Ok (UPS n) /\
      finished solve prescribed lines (UPS n) (ss n)) /\ approaching_run (List.length (up_steady_problems up)) ss sol.
Proof.
  intros HS HA HB HO H0 HK Hm Hup Hdt Hn HV HW HD HE HF. destruct (default_continuous _ _ _ _ _ _ _ _ HB HO H0 Hm) as (E1 & _ & HT & E2).
  destruct (flight_continuous solve prescribed lines AMS ams OM om s cy ch _ _ m only up sol HS HT HA HO HK E1 Hup Hdt Hn HV HW HD HE HF) as (UPS & ss & N & HN & HR).
  exists UPS, ss, N. split; [|exact HR]. intros n Hle. rewrite E2. exact (HN n Hle).
Qed.
Lemma plate_default : default_time_step [ex_airplane_movement 0 resting] (windy resting) = 1.
Proof. unfold default_time_step, panel_time, rsum. cbn. field. Qed.
Lemma default_example (lines : bool) : exists AMS ams OM om m up sol,
  each (approaching_airplane_movement (fun n => default_time_step (AMS n) (OM n)) (mv_delta_time m)) AMS ams /\ each approaching_base AMS ams /\
  approaching_op_movement OM om /\ op_velocity (om_base om) <> 0 /\
  (forall n, default_time_step (AMS n) (OM n) <> mv_delta_time m) /\
  same_clock AMS ams OM om (Some 3%Z) None (fun n => default_time_step (AMS n) (OM n)) (mv_delta_time m) (mv_num_steps m) /\
  new_movement ams om (Some 3%Z) None None None = Ok m /\ new_unsteady_problem m false = Ok up /\ 0 < mv_delta_time m /\ (0 < mv_num_steps m)%Z /\
  no_vertical_wings ams (mv_airplanes m) /\ main_wings_wide (mv_airplanes m) /\ solid_steps up /\
  steps_off_edges gauss_solve true up (List.length (up_steady_problems up)) /\ finished gauss_solve true lines up sol.
Proof.
  destruct (windy_runs resting true lines false (or_introl eq_refl)) as (up & sol & HW). destruct (windy_facts _ _ _ _ _ _ (or_introl eq_refl) HW) as (HC & Ed & HL & _ & _ & m & a & Hm & Hup & Ea & Hst).
  pose proof (given_step _ _ _ _ _ _ _ Hm) as Edt. destruct (movement_built _ _ _ _ _ _ _ Hm) as (_ & _ & _ & (EN & _) & EA & _).
  exists (fun n => [nudged_airplane n]), [ex_airplane_movement 0 resting], nudged_wind, (windy resting), m, up, sol. rewrite Edt.
  split; [refine (each_cons _ _ nudged_airplane (fun _ => []) _ _ (fun n => eq_refl) (nudged_airplane_near _ _) _); constructor; reflexivity|].
  split; [refine (each_cons _ _ nudged_airplane (fun _ => []) _ _ (fun n => eq_refl) _ _); [|constructor; reflexivity]; split; [exact (tends_const (a_c_ref (am_base (ex_airplane_movement 0 resting)))) | reflexivity]|].
  split; [exact nudged_wind_near|]. split; [cbn; lra|]. split.
  { intros n H. change (default_time_step [nudged_airplane n] (nudged_wind n)) with ((0 + 4 / 1 / (4 + / INR (S n))) / 1) in H. pose proof (small_pos n) as HP. revert H HP. generalize (/ INR (S n)). intros e H HP.
    assert (F : (0 + 4 / 1 / (4 + e)) / 1 * (4 + e) = 4) by (field; lra). rewrite H in F. lra. }
  split.
  { exists 0%nat. intros n p _ Hp. rewrite resting_periods in Hp. apply Ok_eq in Hp. subst p. exists 0. split; [apply nudged_periods|]. split; [tauto|]. split; [|discriminate].
    unfold first_averaging_step. replace (Reqb 0 0) with true by (symmetry; apply Reqb_true; reflexivity). reflexivity. }
  split; [rewrite default_used; [rewrite plate_default; exact Hm | discriminate | constructor; [discriminate | constructor]]|]. split; [exact Hup|]. split; [lra|]. split; [rewrite EN; lia|].
  destruct (plate_fine m up _ _ _ _ _ _ a Hm Hup Ea (fun k sp Hk => proj1 (Hst k sp Hk))) as [HV HWd]. split; [exact HV|]. split; [exact HWd|].
  split.
  { intros sp p Hsp Hp. apply In_nth_error in Hsp. destruct Hsp as [k Hk]. destruct (Hst k sp Hk) as (EA' & _). rewrite EA' in Hp. unfold all_panels, airplane_panels in Hp. cbn [map concat] in Hp. rewrite Ea in Hp. cbn in Hp. destruct Hp as [<-|[]].
    apply cross_area. intros H. apply (f_equal vz) in H. revert H. unfold p_cross, p_first_diagonal, p_second_diagonal. unfold ex_panel, plain_panel, p_set_position, new_panel; cbn [p_front_right p_front_left p_back_left p_back_right]; vunfold; cbn. lra. }
  rewrite HL. split; [exact (calm_off _ _ _ _ HW) | exact (proj2 HW)].
Qed.
