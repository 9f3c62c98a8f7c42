(** Pictures, plots and printed results of example runs. *)
From Coq Require Import List ZArith Lia Lra Bool Reals String Arith.
From Verif Require Import M_Output S_Output S_Loads S_Convergence S_Unsteady S_UnsteadyRun S_Vortices S_Solve S_Geometry S_Movement L_Snapshots L_Base L_Loads L_Horseshoe L_SteadyRing L_Frames L_Functions L_Movement L_Geometry L_Remesh
  L_Problems L_Wake L_UnsteadyStep L_UnsteadyRun L_UnsteadyFinal L_UnsteadyProps L_UnsteadyProps2 L_UnsteadyFlow L_UnsteadyStill L_NoLoads L_UnsteadyLoads L_Statements4
  L_Example L_Example3 L_Gauss L_Example4 L_Example5 L_AnalysisExample L_Output L_Print.
Import ListNotations.
Local Open Scope R_scope.
Local Open Scope list_scope.

(** Three steps of length [T] with a flat plate in steady wind. *)
Lemma steady_wind T only prescribed lines : 0 < T -> exists up s, created up /\ finished gauss_solve prescribed lines up s /\ up_delta_time up = T /\
  List.length (up_steady_problems up) = 3%nat /\ up_only_final_results up = only /\ up_max_period up = 0 /\
  forall k, (k < 3)%nat -> exists sp p, step_at s k sp /\ step_panels sp = [p] /\ sp_airplanes sp <> [].
Proof.
  intros HT. assert (Ho : In resting [resting; gust]) by (left; reflexivity). assert (Hg : good_spacing resting) by (left; reflexivity).
  assert (HA : Forall airplane_movable [ex_airplane_movement 0 resting]) by (constructor; [apply ex_movable; left; reflexivity | constructor]).
  destruct (proj2 (movement_succeeds [ex_airplane_movement 0 resting] (windy resting) (Some 3%Z) None None T 3 eq_refl ltac:(lia))) as [m Hm]; [auto|]. 
  destruct (movement_built _ _ _ _ _ _ _ Hm) as (MA & MO & HD & (HN & _) & _). destruct (windy_problem_at T resting only _ _ _ _ _ 3 Ho ltac:(lia) Hm HN HD) as (up & a & Hup & Edt & Hlen & Ea & Hst).
  assert (HC : created up) by (do 7 eexists; exists only; split; eassumption).
  assert (Hst' : forall k sp, nth_error (up_steady_problems up) k = Some sp -> sp_airplanes sp = [a] /\
    exists v, 3 <= v /\ sp_operating_point sp = mkop 1 v 30 0 0 (1506 / 100000000) /\ (k = 0%nat -> v = 4) /\ (resting = gust -> k = 1%nat -> v = 5) /\ (resting = resting -> v = 4)).
  { intros k sp Hk. destruct (Hst k sp Hk) as (H1 & v & V1 & V2 & V3 & V4 & V5). split; [exact H1|]. exists v. repeat (split; [assumption|]). split; [intros X; destruct (gust_resting (eq_sym X)) | exact V5]. }
  destruct (windy_run_at gauss_solve gauss_solve_spec prescribed resting up a HC ltac:(lra) ltac:(lia) Ea Hst' lines) as [s HF].
  destruct (unsteady_built _ _ _ Hup) as (_ & _ & _ & U & EP & _).
  exists up, s. split; [exact HC|]. split; [exact HF|]. split; [exact Edt|]. split; [exact Hlen|]. split; [exact U|]. split.
  - unfold mv_max_period in EP. rewrite MA, MO in EP. pose proof (proj1 (max_period_largest _ _ _ EP)) as X. cbn in X. decompose [or] X; first [symmetry; assumption | contradiction].
  - intros k Hk. destruct (finished_fields _ gauss_solve_spec _ _ _ _ HC HF) as (HR & _ & HL & _). destruct (nth_in_range (up_steady_problems (us_problem s)) k ltac:(lia)) as [sp Hsp].
    destruct (windy_panel_at gauss_solve gauss_solve_spec prescribed resting up a HC Ea Hst' _ _ _ _ HR Hsp) as (p & r & v & d & EPn & _). exists sp, p. split; [exact Hsp|]. split; [exact EPn|].
    intros E. unfold step_panels in EPn. rewrite E in EPn. discriminate.
Qed.
Lemma steady_wind_first T (only prescribed lines : bool) : 0 < T -> exists up s, created up /\ finished gauss_solve prescribed lines up s /\ up_delta_time up = T /\
  List.length (up_steady_problems up) = 3%nat /\ up_first_results_step up = (if only then 2 else 0)%Z /\ up_max_period up = 0 /\
  forall k, (k < 3)%nat -> exists sp p, step_at s k sp /\ step_panels sp = [p] /\ sp_airplanes sp <> [].
Proof.
  intros HT. destruct (steady_wind T only prescribed lines HT) as (up & s & HC & HF & Edt & Hlen & Eo & Ep & HK). exists up, s. repeat (split; [assumption|]). split; [|auto].
  destruct (created_fields _ HC) as (_ & _ & _ & C4 & C5 & _). rewrite C5, Eo. destruct only; [|reflexivity]. rewrite C4. unfold first_averaging_step. rewrite Ep.
  destruct (finished_meshed _ _ _ _ _ HC HF) as [F HM]. pose proof (mp_size _ _ HM) as Hs. rewrite Hlen in Hs. rewrite <- Hs. replace (Reqb 0 0) with true by (symmetry; apply Reqb_true; reflexivity). reflexivity.
Qed.

(** Every kind of solver can have been run. *)
Lemma solved_wind : exists s sp p, solved gauss_solve (UnsteadySolver s) (sp_airplanes sp) /\ all_panels (sp_airplanes sp) = [p] /\ streamline_points (UnsteadySolver s) <> None.
Proof.
  destruct (steady_wind_first 1 true false true Rlt_0_1) as (up & s & HC & HF & Edt & Hlen & Ef & Ep & HK). destruct (HK 2%nat ltac:(lia)) as (sp & p & Hsp & EPn & _). exists s, sp, p.
  destruct (finished_fields _ gauss_solve_spec _ _ _ _ HC HF) as (HR & Hpos & HL & _ & _ & _ & v & Ev & _). split; [|split; [exact EPn | cbn [streamline_points]; rewrite Ev; discriminate]].
  apply (solved_unsteady gauss_solve false true up s sp HC HF); [rewrite Ef, Hlen; lia | rewrite Hlen; exact Hsp].
Qed.
Lemma solved_plate : exists s a p, solved gauss_solve (HorseshoeSolver s) [a] /\ all_panels [a] = [p] /\ streamline_points (HorseshoeSolver s) <> None.
Proof.
  destruct (wide_loads gauss_solve 1 gauss_solve_spec) as (s & f & m & a & E & Ea & _). exists s, a. pose proof (hs_run_same _ _ _ E) as Fs. cbn [hs_new hso_airplanes] in Fs. rewrite Ea in Fs.
  inversion Fs as [|? ? ? ? H0 ?]; subst. apply same_airplane_panels, Forall2_length in H0. destruct (airplane_panels a) as [|p [|]] eqn:EPn; try discriminate. exists p. split; [|split].
  - rewrite <- Ea. econstructor. exact E.
  - unfold all_panels. cbn [map concat]. rewrite EPn. reflexivity.
  - cbn [streamline_points]. apply hs_run_inv in E. cbv zeta in E. destruct E as (_ & _ & _ & _ & _ & El & _). rewrite El. discriminate.
Qed.

(** Printed with opposite signs. *)
Lemma printed_opposite : exists s reports lift cl,
  hs_run gauss_solve (hs_new [wide_airplane 1] (ex_op 1 10)) = Ok s /\ print_steady_results (hso_airplanes s) = Ok [reports] /\
  In ("Lift"%string, Some lift) reports /\ In ("CL"%string, Some cl) reports /\ lift < 0 /\ 0 < cl.
Proof.
  destruct (wide_loads gauss_solve 1 gauss_solve_spec) as (s & f & m & a & E & Ea & Ef & _ & _ & _ & fw & Efw & H1 & H2).
  destruct (print_horseshoe _ _ _ E) as (reports & Er & FR). rewrite Ea in *. inversion FR as [|? r ? rs Hr FR']; subst. inversion FR'; subst.
  destruct Hr as (f' & m' & cf & cm & E1 & _ & E3 & _ & HP). rewrite Efw in E1. apply Some_eq in E1. subst f'. rewrite Ef in E3. apply Some_eq in E3. subst cf.
  destruct HP as (v1 & v2 & v3 & m1 & m2 & m3 & c1 & c2 & c3 & d1 & d2 & d3 & -> & _ & _ & R3 & _ & _ & _ & _ & _ & R9 & _).
  apply rounded_close in R3, R9. exists s. eexists. exists v3, c3. split; [exact E|]. split; [rewrite Ea; exact Er|]. cbn [pow] in R3, R9.
  split; [cbn [In]; tauto|]. split; [cbn [In]; tauto|]. unfold Rabs in R3, R9. destruct (Rcase_abs (v3 - vz fw)), (Rcase_abs (c3 - vz f)); lra.
Qed.

(** ** Statements as the properties have them *)
Lemma draw_empty solve s airplanes t coefficient lines wake : SolveSpec solve -> solved solve s airplanes -> all_panels airplanes = [] -> In (t, coefficient) scalar_types ->
  draw s (Some t) lines wake = Err EValueError.
Proof.
  intros HS H He Ht. destruct (drawn_parts _ HS s airplanes wake H) as (Ed & _ & (w & Ew & _) & _). unfold draw. rewrite Ed. cbn [bind]. rewrite Ew. cbn [bind].
  rewrite (shown_scalars_in _ _ Ht), (scalars_are _ _ _ Ht), He. reflexivity.
Qed.
Lemma printed_signs_steady solve s : (forall s', hs_run solve s = Ok s' ->
    let q := op_density (hso_op s) * (op_velocity (hso_op s) * op_velocity (hso_op s)) / 2 in
    forall a f cf, In a (hso_airplanes s') -> a_force_wind a = Some f -> a_force_coefficients a = Some cf -> q <> 0 -> a_s_ref a <> 0 ->
      vx f = - (vx cf * q * a_s_ref a) /\ vy f = vy cf * q * a_s_ref a /\ vz f = - (vz cf * q * a_s_ref a)).
Proof.
  intros s' E. apply hs_run_inv in E. cbv zeta in E. destruct E as (_ & _ & _ & _ & _ & _ & l & _ & Ep). exact (printed_signs _ _ _ _ _ Ep).
Qed.
Lemma printed_signs_ring solve s : (forall s', ring_run solve s = Ok s' ->
    let q := op_density (rso_op s) * (op_velocity (rso_op s) * op_velocity (rso_op s)) / 2 in
    forall a f cf, In a (rso_airplanes s') -> a_force_wind a = Some f -> a_force_coefficients a = Some cf -> q <> 0 -> a_s_ref a <> 0 ->
      vx f = - (vx cf * q * a_s_ref a) /\ vy f = vy cf * q * a_s_ref a /\ vz f = - (vz cf * q * a_s_ref a)).
Proof.
  intros s' E. apply ring_run_inv in E. cbv zeta in E. destruct E as (l0 & l1 & loads & _ & _ & _ & _ & _ & _ & _ & _ & _ & Ep). exact (printed_signs _ _ _ _ _ Ep).
Qed.
Lemma animation_refuted : exists up s, created up /\ finished gauss_solve true false up s /\ up_delta_time up <> 0 /\ animate s (Some "lift"%string) false = Err ETypeError /\
  exists pic, draw (UnsteadySolver s) (Some "lift"%string) false false = Ok pic.
Proof.
  destruct (steady_wind_first 1 true true false Rlt_0_1) as (up & s & HC & HF & Edt & Hlen & Ef & Ep & HK). exists up, s. split; [exact HC|]. split; [exact HF|]. split; [lra|].
  assert (Ht : In ("lift"%string, p_lift_coefficient) scalar_types) by (right; right; left; reflexivity). split.
  - destruct (HK 0%nat ltac:(lia)) as (sp & p & Hsp & EPn & _). apply (animate_late _ gauss_solve_spec true false up s "lift" p_lift_coefficient false 0 sp p HC HF); [lra | exact Ht | rewrite Ef; lia | exact Hsp | rewrite EPn; left; reflexivity].
  - destruct (HK 2%nat ltac:(lia)) as (sp & p & Hsp & EPn & _). destruct (draw_coloured _ gauss_solve_spec (UnsteadySolver s) (sp_airplanes sp) "lift" p_lift_coefficient false false) as (pic & E & _); [| | exact Ht | left; reflexivity | eauto].
    + apply (solved_unsteady gauss_solve true false up s sp HC HF); [rewrite Ef, Hlen; lia | rewrite Hlen; exact Hsp].
    + unfold step_panels in EPn. rewrite EPn. discriminate.
Qed.
Lemma playback_spec s st wake an : animate s st wake = Ok an -> let dt := up_delta_time (us_problem s) in 0 < dt ->
  0 < an_speed an <= 1 /\ IZR (an_fps an) <= an_speed an / dt < IZR (an_fps an) + 1 /\ (an_fps an <= 50)%Z /\
  (50 * dt < 1 -> an_fps an = 50%Z /\ IZR (an_fps an) * dt = an_speed an) /\ (1 <= 50 * dt -> an_speed an = 1) /\
  (forall n, 1 <= 50 * dt -> IZR n * dt = 1 -> an_fps an = n /\ IZR (an_fps an) * dt = an_speed an).
Proof.
  intros E dt Hd. destruct (animate_rate _ _ _ _ E) as [_ Er]. destruct (frame_rate_spec _ _ _ Hd Er) as (H1 & H2 & H3 & H4 & H5). repeat (split; [assumption|]).
  intros n H50 Hn. exact (frame_rate_exact _ _ _ n Hd Er H50 Hn).
Qed.
Lemma playback_at T : 0 < T -> exists up s an, created up /\ finished gauss_solve true false up s /\ up_delta_time (us_problem s) = T /\ animate s None true = Ok an /\
  (an_speed an, an_fps an) = frame_rate T.
Proof.
  intros HT. destruct (steady_wind_first T false true false HT) as (up & s & HC & HF & Edt & Hlen & Ef & Ep & HK). destruct (finished_fields _ gauss_solve_spec _ _ _ _ HC HF) as (_ & _ & _ & _ & Ed & _).
  destruct (animate_plain _ gauss_solve_spec true false up s None true HC HF ltac:(lra) ltac:(discriminate)) as (an & E & _). exists up, s, an. split; [exact HC|]. split; [exact HF|]. split; [congruence|]. split; [exact E|].
  destruct (animate_rate _ _ _ _ E) as [_ Er]. rewrite Ed, Edt in Er. exact Er.
Qed.
Lemma playback_refuted : (exists up s an, created up /\ finished gauss_solve true false up s /\ up_delta_time (us_problem s) = 2 / 5 /\ animate s None true = Ok an /\
    an_speed an = 1 /\ an_fps an = 2%Z /\ IZR (an_fps an) * up_delta_time (us_problem s) <> an_speed an) /\
  exists up s an, created up /\ finished gauss_solve true false up s /\ up_delta_time (us_problem s) = 2 /\ animate s None true = Ok an /\ an_speed an = 1 /\ an_fps an = 0%Z.
Proof.
  split.
  - destruct (playback_at (2 / 5) ltac:(lra)) as (up & s & an & HC & HF & Ed & E & Er). rewrite frame_rate_two_fifths in Er. injection Er as E1 E2. exists up, s, an. repeat (split; [assumption|]). rewrite E1, E2, Ed. lra.
  - destruct (playback_at 2 ltac:(lra)) as (up & s & an & HC & HF & Ed & E & Er). rewrite frame_rate_slow in Er by lra. injection Er as E1 E2. exists up, s, an. auto 8.
Qed.
Lemma animation_applies : exists up s k sp p, created up /\ finished gauss_solve false true up s /\ up_delta_time up <> 0 /\ up_first_results_step up = 0%Z /\ step_at s k sp /\ In p (step_panels sp).
Proof.
  destruct (steady_wind_first 1 false false true Rlt_0_1) as (up & s & HC & HF & Edt & Hlen & Ef & Ep & HK). destruct (HK 0%nat ltac:(lia)) as (sp & p & Hsp & EPn & _).
  exists up, s, 0%nat, sp, p. split; [exact HC|]. split; [exact HF|]. split; [lra|]. split; [exact Ef|]. split; [exact Hsp|]. rewrite EPn. left. reflexivity.
Qed.
Lemma plots_apply (only : bool) : exists up s, created up /\ finished gauss_solve false true up s /\ (up_first_results_step up <= up_num_steps up)%Z /\ exists sp, step_at s 0 sp /\ sp_airplanes sp <> [].
Proof.
  destruct (steady_wind_first 1 only false true Rlt_0_1) as (up & s & HC & HF & Edt & Hlen & Ef & Ep & HK). destruct (HK 0%nat ltac:(lia)) as (sp & p & Hsp & _ & Hne). exists up, s. split; [exact HC|]. split; [exact HF|].
  split; [|eauto]. destruct (finished_meshed _ _ _ _ _ HC HF) as [F HM]. pose proof (mp_size _ _ HM) as Hs. rewrite Hlen in Hs. rewrite <- Hs, Ef. destruct only; lia.
Qed.
Lemma print_static_refuted : exists up s, created up /\ finished gauss_solve true false up s /\ print_unsteady_results s = Err EIndexError.
Proof.
  destruct (steady_wind_first 1 false true false Rlt_0_1) as (up & s & HC & HF & Edt & Hlen & Ef & Ep & HK). destruct (HK 0%nat ltac:(lia)) as (sp & p & Hsp & _ & Hne). exists up, s. split; [exact HC|]. split; [exact HF|].
  exact (print_static _ gauss_solve_spec _ _ _ _ _ HC HF Ep Hsp Hne).
Qed.
