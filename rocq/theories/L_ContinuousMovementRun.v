(** Runs of movements whose arguments come closer and closer to given ones. *)
From Coq Require Import List Lia Lra Bool ZArith Reals String.
From Verif Require Import M_Unsteady S_Solve S_Mirror S_Unsteady S_UnsteadyRun S_Size S_SizeUnsteady S_Continuous S_ContinuousShape S_ContinuousUnsteady S_ContinuousMovement S_Movement
  L_Base L_Geometry L_Limits L_Loads L_Camber L_Movement L_Frames L_Continuous L_ContinuousShape L_Problems L_ContinuousUnsteady L_ContinuousMovement
  L_Gauss L_Example L_Example3 L_Example4 L_Example5 L_GrazingExample L_ContinuousExample L_ContinuousShapeExample L_ContinuousFlight.
Import ListNotations.
Local Open Scope R_scope.
Local Open Scope list_scope.

Lemma snapshots_viscous ams om s cy ch d m only up : new_movement ams om s cy ch d = Ok m -> new_unsteady_problem m only = Ok up -> viscous up.
Proof.
  intros Hm Hup sp Hsp. apply In_nth_error in Hsp. destruct Hsp as [i Hi].
  destruct (unsteady_built _ _ _ Hup) as (_ & _ & _ & _ & _ & _ & _ & _ & _ & _ & _ & HS). destruct (HS i sp Hi) as [_ HO].
  destruct (movement_built _ _ _ _ _ _ _ Hm) as (_ & _ & _ & _ & _ & EO). unfold generate_operating_points in EO. cbv zeta in EO. apply bind_Ok in EO. destruct EO as (vs & _ & EO).
  destruct (mapM_seq _ _ _ EO) as [_ H]. specialize (H _ _ HO). cbn beta in H. apply bind_Ok in H. destruct H as (v & _ & H). apply Ok_eq in H. rewrite <- H. cbn. lra.
Qed.
Lemma flight_continuous solve prescribed (lines : bool) AMS ams OM om s cy ch DT dt m only up sol : SolveSpec solve -> tends DT dt ->
  each (approaching_airplane_movement DT dt) AMS ams -> approaching_op_movement OM om -> same_clock AMS ams OM om s cy DT dt (mv_num_steps m) ->
  new_movement ams om s cy ch (Some dt) = Ok m -> new_unsteady_problem m only = Ok up -> 0 < dt -> (0 < mv_num_steps m)%Z ->
  no_vertical_wings ams (mv_airplanes m) -> main_wings_wide (mv_airplanes m) -> solid_steps up ->
  steps_off_edges solve prescribed up (List.length (up_steady_problems up)) -> finished solve prescribed lines up sol ->
  exists UPS ss N, (forall n, (N <= n)%nat -> exists m', new_movement (AMS n) (OM n) s cy ch (Some (DT n)) = Ok m' /\ new_unsteady_problem m' only = Ok (UPS n) /\
      finished solve prescribed lines (UPS n) (ss n)) /\ approaching_run (List.length (up_steady_problems up)) ss sol.
Proof.
  intros HS HD HA HO HN Hm Hup Hdt Hpos HV HW Hsolid Hoff Hf.
  destruct (movement_continuous _ _ HD _ _ _ _ _ _ _ _ _ _ HA HO HN Hm Hup Hpos HV HW) as (MS & UPS & N1 & HB & HP).
  assert (HC : created up) by (exists ams, om, s, cy, ch, (Some dt), m, only; auto).
  assert (Ed : up_delta_time up = dt).
  { destruct (unsteady_built _ _ _ Hup) as (_ & _ & -> & _). destruct (movement_built _ _ _ _ _ _ _ Hm) as (_ & _ & E & _). exact E. }
  destruct (unsteady_run_continuous solve HS prescribed lines UPS up sol HC HP ltac:(rewrite Ed; exact Hdt) Hsolid (snapshots_viscous _ _ _ _ _ _ _ _ _ Hm Hup) Hoff Hf) as (ss & N2 & HF & HR).
  exists UPS, ss, (Nat.max N1 N2). split; [|exact HR]. intros n Hn. exists (MS n). destruct (HB n ltac:(lia)) as [H1 H2]. split; [exact H1|]. split; [exact H2|]. apply HF. lia.
Qed.

(** ** An example: the tip, the freestream and the amplitude of a gust change. *)
Definition nearly (o : oscillation) (n : nat) : oscillation := mkosc (osc_amplitude o + / INR (S n)) (osc_period o) (osc_spacing o).
Lemma nearly_near o : approaching_oscillation (nearly o) o.
Proof. split; [exact (inverse_plus (osc_amplitude o))|]. split; [exact (tends_const (osc_period o)) | intros n; split; [exact (fun H => H) | reflexivity]]. Qed.
Lemma same_osc o : approaching_oscillation (fun _ => o) o.
Proof. split; [apply tends_const|]. split; [apply tends_const | intros n; split; [exact (fun H => H) | reflexivity]]. Qed.
Lemma no_custom DT dt U o : custom_fine DT dt U o None.
Proof. intros g H. discriminate H. Qed.
Definition nudged_airplane (n : nat) : airplane_movement :=
  mkairmove (am_base (ex_airplane_movement 0 resting))
    [mkwingmove (ex_wing false) [moving (section_of vzero (mkvec 0 1 0)) resting; moving (near_tip n) (nearly resting n)] resting resting (nearly resting n)] (nearly resting n) resting resting.
Definition nudged_wind (n : nat) : op_movement := let e := / INR (S n) in mkopmove (mkop (1 + e) (4 + e) (30 + e) (0 + e) 0 0) (nearly resting n).
Lemma nudged_airplane_near DT dt : approaching_airplane_movement DT dt nudged_airplane (ex_airplane_movement 0 resting).
Proof.
  split; [exact (vtends_const (a_xyz_ref (am_base (ex_airplane_movement 0 resting))))|]. split; [reflexivity|]. split; [|split; [exact (nearly_near _) | split; exact (same_osc _)]].
  refine (each_cons _ _ (fun n => mkwingmove (ex_wing false) [moving (section_of vzero (mkvec 0 1 0)) resting; moving (near_tip n) (nearly resting n)] resting resting (nearly resting n)) (fun _ => []) _ _ (fun n => eq_refl) _ _); [|constructor; reflexivity].
  split; [exact (vtends_const (w_leading_edge (ex_wing false)))|]. split; [|split; [|split; [exact (same_osc _) | split; [exact (same_osc _) | split; [exact (nearly_near _) | intros n; repeat split]]]]].
  - refine (each_cons _ _ (fun _ => moving (section_of vzero (mkvec 0 1 0)) resting) (fun n => [moving (near_tip n) (nearly resting n)]) _ _ (fun n => eq_refl) _ _);
      [|refine (each_cons _ _ (fun n => moving (near_tip n) (nearly resting n)) (fun _ => []) _ _ (fun n => eq_refl) _ _); [|constructor; reflexivity]].
    + split; [|split; [exact (same_osc _) | split; [exact (same_osc _) | split; [exact (same_osc _) | split; [apply no_custom | split; [apply no_custom | split; [apply no_custom | intros n; repeat split]]]]]]].
      split; [exact (vtends_const (cs_leading_edge (section_of vzero (mkvec 0 1 0))))|]. split; [exact (tends_const 4)|]. split; [exact (tends_const 0)|]. intros n. repeat split.
    + split; [exact near_tip_tends|]. split; [exact (nearly_near _) | split; [exact (same_osc _) | split; [exact (same_osc _) | split; [apply no_custom | split; [apply no_custom | split; [apply no_custom | intros n; repeat split]]]]]].
  - intros n root H. injection H as <-. split; reflexivity.
Qed.
Lemma nudged_wind_near : approaching_op_movement nudged_wind (windy resting).
Proof. split; [|exact (nearly_near _)]. unfold approaching_op, nudged_wind. cbv zeta. cbn [om_base windy op_density op_velocity op_alpha op_beta]. repeat split; apply inverse_plus. Qed.
Lemma plate_fine m up o ns cy ch dt only a : new_movement [ex_airplane_movement 0 resting] (windy o) ns cy ch dt = Ok m -> new_unsteady_problem m only = Ok up -> a_wings a = [ex_wing false] ->
  (forall k sp, nth_error (up_steady_problems up) k = Some sp -> sp_airplanes sp = [a]) -> no_vertical_wings [ex_airplane_movement 0 resting] (mv_airplanes m) /\ main_wings_wide (mv_airplanes m).
Proof.
  intros Hm Hup Ea Hst.
  assert (HSn : forall h b, In h (mv_airplanes m) -> In b h -> a_wings b = [ex_wing false]).
  { intros h b Hh Hb. apply In_nth_error in Hh. destruct Hh as [j Hj]. apply In_nth_error in Hb. destruct Hb as [i Hi].
    destruct (unsteady_built _ _ _ Hup) as (_ & _ & _ & _ & _ & _ & _ & _ & _ & _ & HLu & HS).
    destruct (movement_lengths _ _ _ _ _ _ _ Hm) as (_ & _ & HLm). destruct (Forall2_nth_r _ _ _ HLm _ _ Hj) as (am & _ & _ & HLh).
    assert (Hlt : (i < List.length h)%nat) by (apply nth_error_Some; congruence). rewrite HLh, <- HLu in Hlt.
    destruct (nth_error (up_steady_problems up) i) as [sp|] eqn:Esp; [|apply nth_error_None in Esp; lia]. destruct (HS i sp Esp) as [FA _]. pose proof (Hst i sp Esp) as EAi. rewrite EAi in FA.
    destruct (Forall2_nth_l _ _ _ FA _ _ Hj) as (b' & Hb' & Eb). rewrite Hi in Eb. injection Eb as <-. destruct j as [|[|j]]; try discriminate Hb'. injection Hb' as <-. exact Ea. }
  split.
  { intros i j am h b wm w Hi Hh Hb Hwm Hw k inb out Hin Hout. rewrite (HSn h b (nth_error_In _ _ Hh) (nth_error_In _ _ Hb)) in Hw. destruct j as [|[|j]]; try discriminate Hw. injection Hw as <-.
    destruct i as [|[|i]]; try discriminate Hi. injection Hi as <-. injection Hwm as <-. destruct k as [|[|k]]; try discriminate Hout. injection Hout as <-. injection Hin as <-. cbn. lra. }
  intros h b main Hh Hb Hmain; rewrite (HSn h b Hh Hb) in Hmain; injection Hmain as <-; rewrite glide_area; lra.
Qed.
Definition nudged_step (dt : R) (n : nat) : R := dt + / INR (S n).
Lemma resting_periods : max_period [ex_airplane_movement 0 resting] (windy resting) = Ok 0.
Proof. unfold max_period. cbn. unfold wm_max_period, sm_max_period, om_max_period. cbn. repeat (rewrite (Rmax_left 0 0) by lra). reflexivity. Qed.
Lemma nudged_periods n : max_period [nudged_airplane n] (nudged_wind n) = Ok 0.
Proof. unfold max_period. cbn. unfold wm_max_period, sm_max_period, om_max_period. cbn. repeat (rewrite (Rmax_left 0 0) by lra). reflexivity. Qed.
Lemma flight_example (lines : bool) : exists AMS ams OM om dts m up sol, SolveSpec gauss_solve /\ tends dts 1 /\ (forall n, dts n <> 1) /\
  each (approaching_airplane_movement dts 1) AMS ams /\ (forall n, AMS n <> ams) /\ approaching_op_movement OM om /\ same_clock AMS ams OM om (Some 3%Z) None dts 1 (mv_num_steps m) /\
  new_movement ams om (Some 3%Z) None None (Some 1) = Ok m /\ new_unsteady_problem m false = Ok up /\ (0 < mv_num_steps m)%Z /\
  no_vertical_wings ams (mv_airplanes m) /\ main_wings_wide (mv_airplanes m) /\ solid_steps up /\
  steps_off_edges gauss_solve true up (List.length (up_steady_problems up)) /\ finished gauss_solve true lines up sol.
Proof.
  destruct (windy_runs resting true lines false (or_introl eq_refl)) as (up & sol & HW). destruct (windy_facts _ _ _ _ _ _ (or_introl eq_refl) HW) as (HC & Ed & HL & _ & _ & m & a & Hm & Hup & Ea & Hst).
  destruct (movement_built _ _ _ _ _ _ _ Hm) as (_ & _ & _ & (EN & _) & EA & _).
  exists (fun n => [nudged_airplane n]), [ex_airplane_movement 0 resting], nudged_wind, (windy resting), (nudged_step 1), m, up, sol.
  split; [exact gauss_solve_spec|]. split; [exact (inverse_plus 1)|]. split; [intros n; unfold nudged_step; pose proof (small_pos n); lra|].
  split; [refine (each_cons _ _ nudged_airplane (fun _ => []) _ _ (fun n => eq_refl) (nudged_airplane_near _ _) _); constructor; reflexivity|].
  split.
  { intros n H. apply (f_equal (fun l => match l with am :: _ => osc_amplitude (am_x_ref am) | [] => 0 end)) in H. cbn [nudged_airplane am_x_ref nearly osc_amplitude ex_airplane_movement resting] in H. pose proof (small_pos n). lra. }
  split; [exact nudged_wind_near|].
  split.
  { exists 0%nat. intros n p _ Hp. rewrite resting_periods in Hp. apply Ok_eq in Hp. subst p. exists 0. split; [apply nudged_periods|]. split; [tauto|]. split; [|discriminate].
    unfold first_averaging_step. replace (Reqb 0 0) with true by (symmetry; apply Reqb_true; reflexivity). reflexivity. }
  split; [exact Hm|]. split; [exact Hup|]. split; [rewrite EN; lia|].
  destruct (plate_fine m up _ _ _ _ _ _ a Hm Hup Ea (fun k sp Hk => proj1 (Hst k sp Hk))) as [HV HWd]. split; [exact HV|]. split; [exact HWd|].
  split.
  { intros sp p Hsp Hp. apply In_nth_error in Hsp. destruct Hsp as [k Hk]. destruct (Hst k sp Hk) as (EA' & _). rewrite EA' in Hp. unfold all_panels, airplane_panels in Hp. cbn [map concat] in Hp. rewrite Ea in Hp. cbn in Hp. destruct Hp as [<-|[]].
    apply cross_area. intros H. apply (f_equal vz) in H. revert H. unfold p_cross, p_first_diagonal, p_second_diagonal. unfold ex_panel, plain_panel, p_set_position, new_panel; cbn [p_front_right p_front_left p_back_left p_back_right]; vunfold; cbn. lra. }
  rewrite HL. split; [exact (calm_off _ _ _ _ HW) | exact (proj2 HW)].
Qed.

(** The period of a gust and the time step change; the number of steps follows from them. *)
Definition longer_gust (n : nat) : op_movement := mkopmove (om_base (nudged_wind n)) (mkosc (1 + / INR (S n)) (4 + / INR (S n)) "sine").
Lemma longer_gust_near : approaching_op_movement longer_gust (windy gust).
Proof. split; [exact (proj1 nudged_wind_near)|]. split; [exact (inverse_plus 1)|]. split; [exact (inverse_plus 4)|]. intros n. split; [cbn; lra | reflexivity]. Qed.
Lemma gust_periods : max_period [ex_airplane_movement 0 resting] (windy gust) = Ok 4.
Proof. unfold max_period. cbn. unfold wm_max_period, sm_max_period, om_max_period. cbn. repeat (rewrite (Rmax_left 0 0) by lra). rewrite Rmax_right by lra. reflexivity. Qed.
Lemma not_whole x k : IZR k < x < IZR k + 1 -> ~ whole x.
Proof. intros [H1 H2] [j ->]. apply lt_IZR in H1. rewrite <- plus_IZR in H2. apply lt_IZR in H2. lia. Qed.
Lemma gust_between : between_steps [ex_airplane_movement 0 resting] (windy gust) None None (7 / 5).
Proof.
  exists 4. split; [exact gust_periods|]. split; [lra|]. split; [apply (not_whole _ 2); lra|]. intros _. apply (not_whole _ 8). lra.
Qed.
Lemma gust_example : exists AMS ams OM om dts m up, tends dts (7 / 5) /\ (forall n, dts n <> 7 / 5) /\
  each (approaching_airplane_movement dts (7 / 5)) AMS ams /\ approaching_op_movement OM om /\ (forall n, max_period (AMS n) (OM n) <> max_period ams om) /\ between_steps ams om None None (7 / 5) /\
  new_movement ams om None None None (Some (7 / 5)) = Ok m /\ new_unsteady_problem m false = Ok up /\ mv_num_steps m = 9%Z /\
  no_vertical_wings ams (mv_airplanes m) /\ main_wings_wide (mv_airplanes m).
Proof.
  assert (HA : Forall airplane_movable [ex_airplane_movement 0 resting]) by (constructor; [apply ex_movable; left; reflexivity | constructor]).
  assert (EK : py_ceil (3 * 4 / (7 / 5)) = 9%Z).
  { destruct (ceil_spec (3 * 4 / (7 / 5))) as [H1 H2]. assert (IZR (py_ceil (3 * 4 / (7 / 5))) < IZR 10) by lra. assert (IZR 8 < IZR (py_ceil (3 * 4 / (7 / 5)))) by lra. apply lt_IZR in H, H0. lia. }
  assert (Hm : exists m, new_movement [ex_airplane_movement 0 resting] (windy gust) None None None (Some (7 / 5)) = Ok m).
  { destruct (proj2 (movement_succeeds [ex_airplane_movement 0 resting] (windy gust) (Some 9%Z) None None (7 / 5) 9 eq_refl ltac:(lia))) as [m Hm]; [split; [reflexivity | split; [reflexivity | split; [exact HA | left; reflexivity]]]|].
    destruct (movement_built _ _ _ _ _ _ _ Hm) as (_ & _ & Ed & (EN & _) & EA & EO). rewrite EN, Ed in *. exists (mkmovement [ex_airplane_movement 0 resting] (windy gust) 9 (Some 3) None (7 / 5) (mv_airplanes m) (mv_operating_points m)).
    unfold new_movement. cbv zeta. cbn [is_some bind]. rewrite gust_periods. cbn [bind]. replace (Reqb 4 0) with false by (symmetry; apply Reqb_false; lra). rewrite EK. cbn [bind]. rewrite EA. cbn [bind]. rewrite EO. reflexivity. }
  destruct Hm as [m Hm]. assert (EN : mv_num_steps m = 9%Z).
  { pose proof Hm as E. unfold new_movement in E. cbv zeta in E. cbn [is_some bind] in E. rewrite gust_periods in E. cbn [bind] in E. replace (Reqb 4 0) with false in E by (symmetry; apply Reqb_false; lra). rewrite EK in E. cbn [bind] in E.
    apply bind_Ok in E. destruct E as (a & _ & E). apply bind_Ok in E. destruct E as (o & _ & E). apply Ok_eq in E. subst m. reflexivity. }
  assert (HD : mv_delta_time m = 7 / 5) by (destruct (movement_built _ _ _ _ _ _ _ Hm) as (_ & _ & E & _); exact E).
  destruct (windy_problem_at (7 / 5) gust false _ _ _ _ _ 9 (or_intror (or_introl eq_refl)) ltac:(lia) Hm EN HD) as (up & a & Hup & _ & _ & Ea & Hst).
  exists (fun n => [nudged_airplane n]), [ex_airplane_movement 0 resting], longer_gust, (windy gust), (nudged_step (7 / 5)), m, up.
  split; [exact (inverse_plus (7 / 5))|]. split; [intros n; unfold nudged_step; pose proof (small_pos n); lra|].
  split; [refine (each_cons _ _ nudged_airplane (fun _ => []) _ _ (fun n => eq_refl) (nudged_airplane_near _ _) _); constructor; reflexivity|]. split; [exact longer_gust_near|].
  split.
  { intros n H. rewrite gust_periods in H. revert H. unfold max_period. cbn. unfold wm_max_period, sm_max_period, om_max_period. cbn [longer_gust om_velocity osc_period]. cbn. repeat (rewrite (Rmax_left 0 0) by lra). pose proof (small_pos n) as Hp. rewrite Rmax_right by (change (0 <= 4 + / INR (S n)); lra). intros H. apply Ok_eq in H. change (4 + / INR (S n) = 4) in H. lra. }
  split; [exact gust_between|]. split; [exact Hm|]. split; [exact Hup|]. split; [exact EN|].
  exact (plate_fine m up _ _ _ _ _ _ a Hm Hup Ea (fun k sp Hk => proj1 (Hst k sp Hk))).
Qed.
