(** The end of a run: final loads. *)
From Coq Require Import List ZArith Lia Lra Bool Reals.
From Verif Require Import M_Unsteady S_Unsteady S_UnsteadyRun S_Loads S_Solve S_Movement L_Base L_Loads L_SteadyRing L_Frames
  L_Geometry L_Problems L_Wake L_WakeWings L_Unsteady L_UnsteadyStep L_UnsteadyRun.
Import ListNotations.
Local Open Scope R_scope.
Local Open Scope list_scope.

Lemma sum_of_squares (x : R) l : 0 <= rsum (map (fun y => y * y) l) - 2 * x * rsum l + INR (length l) * (x * x).
Proof.
  induction l as [|y l IH]; [cbn; lra|]. cbn [map length]. rewrite !rsum_cons, S_INR.
  pose proof (Rle_0_sqr (y - x)) as H. unfold Rsqr in H. lra.
Qed.
Lemma cauchy_schwarz l : rsum l * rsum l <= INR (length l) * rsum (map (fun y => y * y) l).
Proof.
  induction l as [|x l IH]; [cbn; lra|]. cbn [map length]. rewrite !rsum_cons, S_INR. pose proof (sum_of_squares x l). lra.
Qed.
Lemma squares_nonneg l : 0 <= rsum (map (fun y => y * y) l).
Proof. induction l as [|x l IH]; [cbn; lra|]. cbn [map]. rewrite rsum_cons. pose proof (Rle_0_sqr x) as H. unfold Rsqr in H. lra. Qed.
Lemma mean_value l : INR (length l) * mean_of l = rsum l.
Proof.
  unfold mean_of. destruct l as [|x l]; [cbn; lra|]. assert (INR (length (x :: l)) <> 0) by (apply not_0_INR; discriminate). field. assumption.
Qed.
Lemma mean_squares_nonneg l : 0 <= mean_of (map (fun y => y * y) l).
Proof.
  unfold mean_of. destruct l as [|x l]; [cbn; unfold Rdiv; lra|]. rewrite map_length. assert (0 < INR (length (x :: l))) by (apply lt_0_INR; cbn; lia).
  apply Rmult_le_pos; [apply squares_nonneg | left; apply Rinv_0_lt_compat; assumption].
Qed.
Lemma rms_value l : 0 <= rms_of l /\ INR (length l) * rms_of l ^ 2 = rsum (map (fun y => y * y) l).
Proof.
  unfold rms_of. split; [apply sqrt_pos|]. rewrite pow2_sqrt by apply mean_squares_nonneg.
  rewrite <- (map_length (fun y => y * y) l). apply mean_value.
Qed.
Lemma mean_le_rms l : Rabs (mean_of l) <= rms_of l.
Proof.
  destruct (rms_value l) as [H0 H1]. destruct l as [|x l].
  { assert (E : mean_of [] = 0) by (unfold mean_of; cbn; unfold Rdiv; lra). rewrite E, Rabs_R0. exact H0. }
  set (n := INR (length (x :: l))) in *. assert (Hn : 0 < n) by (apply lt_0_INR; cbn; lia).
  pose proof (mean_value (x :: l)) as HM. fold n in HM. pose proof (cauchy_schwarz (x :: l)) as HC. fold n in HC.
  rewrite <- HM in HC. rewrite <- H1 in HC. set (m := mean_of (x :: l)) in *. set (r := rms_of (x :: l)) in *.
  apply Rsqr_incr_0_var; [|exact H0]. rewrite <- Rsqr_abs. unfold Rsqr.
  apply (Rmult_le_reg_l (n * n)); [apply Rmult_lt_0_compat; exact Hn|]. lra.
Qed.

Lemma vscale_vsum_components k vs m : (k * vx m = rsum (map vx vs)) -> (k * vy m = rsum (map vy vs)) -> (k * vz m = rsum (map vz vs)) -> vscale k m = vsum vs.
Proof.
  intros H1 H2 H3.
  assert (E : vsum vs = mkvec (rsum (map vx vs)) (rsum (map vy vs)) (rsum (map vz vs))).
  { clear. induction vs as [|v vs IH]; [reflexivity|]. rewrite vsum_cons, IH. cbn [map]. rewrite !rsum_cons. reflexivity. }
  rewrite E, <- H1, <- H2, <- H3. reflexivity.
Qed.
Lemma each_mean vs : mean_is vs (each_component mean_of vs).
Proof.
  unfold mean_is, each_component. apply vscale_vsum_components; cbn [vx vy vz]; [rewrite <- (mean_value (map vx vs)) | rewrite <- (mean_value (map vy vs)) | rewrite <- (mean_value (map vz vs))];
    rewrite map_length; reflexivity.
Qed.
Lemma each_rms vs : rms_is vs (each_component rms_of vs).
Proof.
  assert (G : forall coordinate : vec -> R, 0 <= rms_of (map coordinate vs) /\ INR (length vs) * rms_of (map coordinate vs) ^ 2 = rsum (map (fun v => coordinate v ^ 2) vs)).
  { intros co. destruct (rms_value (map co vs)) as [H0 H1]. split; [exact H0|]. rewrite map_length, map_map in H1. rewrite H1. f_equal. apply map_ext. intros v. lra. }
  intros co Hco. cbn in Hco. unfold each_component. destruct Hco as [<-|[<-|[<-|[]]]]; cbn [vx vy vz]; apply G.
Qed.
Lemma each_bound vs coordinate : In coordinate [vx; vy; vz] -> Rabs (coordinate (each_component mean_of vs)) <= coordinate (each_component rms_of vs).
Proof. intros Hco. cbn in Hco. unfold each_component. destruct Hco as [<-|[<-|[<-|[]]]]; cbn [vx vy vz]; apply mean_le_rms. Qed.

(** ** The loop over the airplanes *)
Definition append_loads (f : final_loads) (l : list load) : final_loads := fold_left append_load l f.
Lemma append_loads_lists f l : append_loads f l =
  mkfinal (fl_forces f ++ map ld_force l) (fl_force_coefficients f ++ map ld_force_coefficients l)
          (fl_moments f ++ map ld_moment l) (fl_moment_coefficients f ++ map ld_moment_coefficients l).
Proof.
  revert f; induction l as [|x l IH]; intros f; cbn [append_loads fold_left map].
  - rewrite !app_nil_r. destruct f; reflexivity.
  - unfold append_loads in IH. rewrite IH. cbn [append_load fl_forces fl_force_coefficients fl_moments fl_moment_coefficients]. rewrite <- !app_assoc. reflexivity.
Qed.
Lemma up_set_final_steps f m r up : load_history (up_set_final f m r up) = load_history up.
Proof. reflexivity. Qed.
Lemma set_final_twice f m r f' m' r' up : up_set_final f m r (up_set_final f' m' r' up) = up_set_final f m r up.
Proof. reflexivity. Qed.
Lemma set_final_self up : up_set_final (up_final up) (up_final_mean up) (up_final_rms up) up = up.
Proof. destruct up; reflexivity. Qed.
Lemma final_static up ids up' : up_max_period up = 0 -> foldM finalize_airplane up ids = Ok up' ->
  exists ls, Forall2 (fun id l => exists h, load_history up id = Ok h /\ index h (length h - 1) = Ok l) ids ls /\
             up' = up_set_final (append_loads (up_final up) ls) (up_final_mean up) (up_final_rms up) up.
Proof.
  revert up; induction ids as [|id ids IH]; intros up Hp E; cbn [foldM] in E.
  - apply Ok_eq in E. subst up'. exists []. split; [constructor|]. cbn. symmetry. apply set_final_self.
  - apply bind_Ok in E. destruct E as (up1 & E1 & E). unfold finalize_airplane in E1. apply bind_Ok in E1. destruct E1 as (h & Eh & E1).
    rewrite Hp in E1. assert (HR : Reqb 0 0 = true) by (apply Reqb_true; reflexivity). rewrite HR in E1. apply bind_Ok in E1. destruct E1 as (l & El & E1). apply Ok_eq in E1. subst up1.
    match type of E with foldM _ ?u _ = _ => destruct (IH u Hp E) as (ls & F & ->) end. exists (l :: ls). split; [constructor; [eauto | exact F]|]. reflexivity.
Qed.
Lemma final_periodic up ids up' : up_max_period up <> 0 -> foldM finalize_airplane up ids = Ok up' ->
  exists hs, Forall2 (fun id h => load_history up id = Ok h) ids hs /\
             up' = up_set_final (up_final up) (append_loads (up_final_mean up) (map (each_load mean_of) hs)) (append_loads (up_final_rms up) (map (each_load rms_of) hs)) up.
Proof.
  revert up; induction ids as [|id ids IH]; intros up Hp E; cbn [foldM] in E.
  - apply Ok_eq in E. subst up'. exists []. split; [constructor|]. cbn. symmetry. apply set_final_self.
  - apply bind_Ok in E. destruct E as (up1 & E1 & E). unfold finalize_airplane in E1. apply bind_Ok in E1. destruct E1 as (h & Eh & E1).
    assert (HR : Reqb (up_max_period up) 0 = false) by (apply Reqb_false; exact Hp). rewrite HR in E1. apply Ok_eq in E1. subst up1.
    match type of E with foldM _ ?u _ = _ => destruct (IH u Hp E) as (hs & F & ->) end. exists (h :: hs). split; [constructor; [exact Eh | exact F]|]. reflexivity.
Qed.

Lemma finalize_kept up up' : finalize up = Ok up' -> exists f m r, up' = up_set_final f m r up.
Proof.
  unfold finalize. intros E. apply bind_Ok in E. destruct E as (sp & _ & E). destruct (Req_EM_T (up_max_period up) 0) as [Hp|Hp].
  - apply (final_static _ _ _ Hp) in E. destruct E as (ls & _ & ->). eauto.
  - apply (final_periodic _ _ _ Hp) in E. destruct E as (hs & _ & ->). eauto.
Qed.

Lemma history_entries up id h : load_history up id = Ok h ->
  Forall2 (fun k l => exists sp a, nth_error (up_steady_problems up) k = Some sp /\ nth_error (sp_airplanes sp) id = Some a /\ loads_of a = Ok l) (averaging_steps up) h.
Proof.
  unfold load_history. intros E. apply mapM_Forall2 in E. eapply Forall2_impl; [|exact E]. cbn beta. intros k l El.
  apply bind_Ok in El. destruct El as (sp & Esp & El). apply bind_Ok in El. destruct El as (a & Ea & El).
  apply index_Some in Esp. apply index_Some in Ea. eauto 6.
Qed.
Lemma loads_of_fields a l : loads_of a = Ok l ->
  a_force_wind a = Some (ld_force l) /\ a_force_coefficients a = Some (ld_force_coefficients l) /\
  a_moment_wind a = Some (ld_moment l) /\ a_moment_coefficients a = Some (ld_moment_coefficients l).
Proof.
  unfold loads_of. destruct (a_force_wind a) as [f|], (a_force_coefficients a) as [cf|], (a_moment_wind a) as [m|], (a_moment_coefficients a) as [cm|]; try discriminate.
  intros E. apply Ok_eq in E. subst l. auto.
Qed.

(** ** Runs *)
Lemma finished_inv solve prescribed lines up s F : finished solve prescribed lines up s -> meshed_problem F up ->
  exists sf f m r, after solve prescribed up (length (up_steady_problems up)) sf /\ finalize (us_problem sf) = Ok (us_problem s) /\
    us_problem s = up_set_final f m r (us_problem sf) /\ up_steady_problems (us_problem s) = up_steady_problems (us_problem sf) /\
    us_heap s = us_heap sf /\ us_num_wake s = us_num_wake sf /\ us_wakes s = us_wakes sf /\ us_current s = us_current sf /\
    us_streamline_points s =
      (if lines then match us_current sf with Some c => Some (calculate_streamlines (current_velocity c) (cu_seeds c) 25 (2 / 100)) | None => None end
       else us_streamline_points sf).
Proof.
  intros (s0 & E0 & E) HM. unfold unsteady_run, unsteady_run_with in E. apply bind_Ok in E. destruct E as (s1 & E1 & E).
  apply bind_Ok in E. destruct E as (sf & Ef & E). apply bind_Ok in E. destruct E as (upf & Eup & E). apply bind_Ok in E. destruct E as (ls & El & E). apply Ok_eq in E.
  destruct (unsteady_start_ok 0 F up HM) as (s0' & s1' & E0' & E1' & Ep & _). assert (s0' = s0) by congruence. subst s0'. assert (s1' = s1) by congruence. subst s1'.
  assert (EN : Z.to_nat (up_num_steps (us_problem s1)) = length (up_steady_problems up)). { rewrite Ep. cbn [up_set_steps up_num_steps]. rewrite <- (mp_size _ _ HM), Nat2Z.id. reflexivity. }
  rewrite EN in Ef. destruct (finalize_kept _ _ Eup) as (f & m & r & Ek). exists sf, f, m, r. subst s. cbn [us_problem us_heap us_num_wake us_wakes us_current us_streamline_points].
  split; [exists s0, s1; auto|]. split; [exact Eup|]. split; [exact Ek|]. split; [rewrite Ek; reflexivity|]. repeat (split; [reflexivity|]).
  destruct lines; [destruct (us_current sf); [|discriminate]|]; apply Ok_eq in El; symmetry; exact El.
Qed.
Lemma after_problem solve (HS : SolveSpec solve) prescribed up n s F : after solve prescribed up n s -> meshed_problem F up -> (n <= length (up_steady_problems up))%nat ->
  us_problem s = up_set_steps (up_steady_problems (us_problem s)) up.
Proof.
  intros HA HM Hn. destruct (after_ran solve HS prescribed F up n s HM HA Hn) as (s1 & conv & _ & R). destruct R as [_ E _ RI _ _ _]. destruct RI as [Ep _ _ _ _ _ _ _ _].
  rewrite Ep, E. reflexivity.
Qed.
Lemma created_fields up : created up -> up_final up = no_final_loads /\ up_final_mean up = no_final_loads /\ up_final_rms up = no_final_loads /\
  up_first_averaging_step up = first_averaging_step (up_num_steps up) (up_delta_time up) (up_max_period up) /\
  up_first_results_step up = (if up_only_final_results up then up_first_averaging_step up else 0%Z) /\ (0 <= up_num_steps up)%Z.
Proof.
  intros (ams & om & ns & cy & ch & d & m & only & Em & Eup). destruct (movement_lengths _ _ _ _ _ _ _ Em) as (Hn & _).
  destruct (unsteady_built _ _ _ Eup) as (_ & U1 & U2 & U3 & _ & U4 & U5 & U6 & U7 & U8 & _). rewrite U1, U2, U3, U5, U6, U7, U8. repeat (split; [first [reflexivity | exact U4]|]). exact Hn.
Qed.
Lemma seq_Forall2_nth {B} (P : nat -> B -> Prop) a n l : Forall2 P (seq a n) l -> length l = n /\ forall i y, nth_error l i = Some y -> P (a + i)%nat y.
Proof.
  intros FF. split; [rewrite <- (Forall2_length _ _ _ FF); apply seq_length|]. intros i y Hy. destruct (Forall2_nth _ _ _ FF _ _ Hy) as (k & Hk & HP).
  assert (E : nth_error (seq a n) i = Some (a + i)%nat).
  { assert ((i < n)%nat) by (rewrite <- (seq_length n a); apply nth_error_Some; congruence). rewrite (nth_error_nth' _ 0%nat) by (rewrite seq_length; lia). rewrite seq_nth by lia. reflexivity. }
  congruence.
Qed.

(** The loads with their places in a [load]. *)
Lemma load_kind get fl : In (get, fl) load_lists -> exists proj : load -> vec,
  (forall a l, loads_of a = Ok l -> get a = Some (proj l)) /\
  (forall ls, fl (append_loads no_final_loads ls) = map proj ls) /\ fl no_final_loads = [] /\
  forall f h, proj (each_load f h) = each_component f (map proj h).
Proof.
  intros Hin. cbn in Hin.
  assert (G : forall ls, append_loads no_final_loads ls = mkfinal (map ld_force ls) (map ld_force_coefficients ls) (map ld_moment ls) (map ld_moment_coefficients ls)) by (intros; apply append_loads_lists).
  destruct Hin as [H|[H|[H|[H|[]]]]]; assert (E1 := f_equal fst H); assert (E2 := f_equal snd H); cbn [fst snd] in E1, E2; subst get fl;
    [exists ld_force | exists ld_force_coefficients | exists ld_moment | exists ld_moment_coefficients];
    (split; [intros a l El; apply (loads_of_fields _ _ El) | split; [intros ls; rewrite G; reflexivity | split; reflexivity]]).
Qed.
Lemma window_history s id up h (get : airplane -> option vec) (proj : load -> vec) : up_steady_problems (us_problem s) = up_steady_problems up -> load_history up id = Ok h ->
  (forall a l, loads_of a = Ok l -> get a = Some (proj l)) ->
  Forall2 (fun k v => exists sp a, step_at s k sp /\ nth_error (sp_airplanes sp) id = Some a /\ get a = Some v) (averaging_steps up) (map proj h).
Proof.
  intros Es Eh Hproj. apply history_entries in Eh. rewrite <- (map_id (averaging_steps up)).
  apply (Forall2_map_both (fun k v => exists sp a, step_at s k sp /\ nth_error (sp_airplanes sp) id = Some a /\ get a = Some v) (fun x => x) proj).
  eapply Forall2_impl; [|exact Eh]. intros k l (sp & a & Hsp & Ha & El). exists sp, a. unfold step_at. rewrite Es. auto.
Qed.
Section Final.
  Variable solve : list (list R) -> list R -> result (list R).
  Hypothesis HS : SolveSpec solve.
  Variables prescribed lines : bool.

  Lemma finished_meshed up s : created up -> finished solve prescribed lines up s -> exists F, meshed_problem F up.
  Proof. intros HC (s0 & E0 & _). exact (created_meshed _ _ HC E0). Qed.
  Lemma final_loads_static up s : created up -> finished solve prescribed lines up s -> up_max_period up = 0 ->
    forall get fl, In (get, fl) load_lists ->
    exists sp, step_at s (length (up_steady_problems up) - 1) sp /\
      Forall2 (fun a v => get a = Some v) (sp_airplanes sp) (fl (up_final (us_problem s))) /\
      fl (up_final_mean (us_problem s)) = [] /\ fl (up_final_rms (us_problem s)) = [].
  Proof.
    intros HC HF Hp get fl Hin. destruct (finished_meshed _ _ HC HF) as [F HM]. destruct (created_fields _ HC) as (C1 & C2 & C3 & C4 & _ & C5).
    destruct (finished_inv _ _ _ _ _ F HF HM) as (sf & f & m & r & HA & Efin & _ & Esteps & _). pose proof (after_problem solve HS _ _ _ _ F HA HM (le_n _)) as EP.
    set (N := length (up_steady_problems up)) in *. pose proof (mp_size _ _ HM) as HN. pose proof (mp_some _ _ HM) as HN0. fold N in HN, HN0.
    assert (Hp' : up_max_period (us_problem sf) = 0) by (rewrite EP; exact Hp).
    unfold finalize in Efin. apply bind_Ok in Efin. destruct Efin as (sp0 & Esp0 & Efin). apply (final_static _ _ _ Hp') in Efin. destruct Efin as (ls & FL & Eup).
    destruct (load_kind _ _ Hin) as (proj & K1 & K2 & K3 & K4).
    assert (EW : averaging_steps (us_problem sf) = [(N - 1)%nat]).
    { unfold averaging_steps. rewrite EP. cbn [up_set_steps up_first_averaging_step up_num_steps]. rewrite C4, Hp, window_static, <- HN.
      replace (Z.to_nat (Z.of_nat N - 1)) with (N - 1)%nat by lia. replace (Z.to_nat (Z.of_nat N - (Z.of_nat N - 1))) with 1%nat by lia. reflexivity. }
    assert (LST : length (up_steady_problems (us_problem s)) = N).
    { rewrite Esteps. destruct (after_ran solve HS _ F up _ sf HM HA (le_n _)) as (s1 & conv & _ & R). rewrite <- (Forall2_length _ _ _ (ri_kept _ _ _ _ (rn_inv _ _ _ _ _ _ _ _ R))).
      symmetry. apply (Forall2_length _ _ _ (rn_started _ _ _ _ _ _ _ _ R)). }
    destruct (nth_in_range (up_steady_problems (us_problem s)) (N - 1) ltac:(lia)) as [sp Hsp]. exists sp. split; [exact Hsp|].
    assert (EL : length (sp_airplanes sp) = length (sp_airplanes sp0)).
    { destruct (after_ran solve HS _ F up _ sf HM HA (le_n _)) as (s1 & conv & _ & R). pose proof (rn_inv _ _ _ _ _ _ _ _ R) as RI.
      assert (HL : forall sp, In sp (up_steady_problems (us_problem sf)) -> layout (sp_airplanes sp) = F).
      { intros q Hq. destruct (Forall2_in_r _ _ _ _ (ri_kept _ _ _ _ RI) Hq) as (q0 & Hq0 & Hs). apply (solved_ready _ _ _ Hs). apply (rp_steps _ _ (rn_ready _ _ _ _ _ _ _ _ R)). exact Hq0. }
      apply index_Some in Esp0. rewrite Esteps in Hsp. pose proof (HL _ (nth_error_In _ _ Hsp)) as H1. pose proof (HL _ (nth_error_In _ _ Esp0)) as H2.
      apply (f_equal (@length _)) in H1. apply (f_equal (@length _)) in H2. unfold layout in H1, H2. rewrite map_length in H1, H2. congruence. }
    rewrite Eup, EP. cbn [up_set_final up_set_steps up_final up_final_mean up_final_rms]. rewrite C1, C2, C3, K2, K3. split; [|auto].
    destruct (seq_Forall2_nth _ _ _ _ FL) as [LL FN]. apply Forall2_of_nth; [rewrite map_length; lia|].
    intros i a v Ha Hv. rewrite nth_error_map in Hv. destruct (nth_error ls i) as [l|] eqn:El; [|discriminate]. cbn in Hv. apply Some_eq in Hv. subst v.
    destruct (FN _ _ El) as (h & Eh & Ei). cbn [plus] in Eh. pose proof (history_entries _ _ _ Eh) as FH. rewrite EW in FH.
    inversion FH as [|k0 l0 ks h' (sp' & a' & Hsp' & Ha' & Ela) FH']; subst. inversion FH'; subst. cbn in Ei. apply Ok_eq in Ei. subst l0.
    rewrite <- Esteps in Hsp'. rewrite Hsp in Hsp'. apply Some_eq in Hsp'. subst sp'. rewrite Ha in Ha'. apply Some_eq in Ha'. subst a'. apply K1. exact Ela.
  Qed.
  Lemma final_loads_periodic up s : created up -> finished solve prescribed lines up s -> up_max_period up <> 0 ->
    forall get fl, In (get, fl) load_lists ->
    let n := length (up_steady_problems up) in
    let first := Z.to_nat (up_first_averaging_step up) in
    fl (up_final (us_problem s)) = [] /\
    (forall k sp, step_at s k sp -> length (fl (up_final_mean (us_problem s))) = length (sp_airplanes sp) /\ length (fl (up_final_rms (us_problem s))) = length (sp_airplanes sp)) /\
    forall i m r, nth_error (fl (up_final_mean (us_problem s))) i = Some m -> nth_error (fl (up_final_rms (us_problem s))) i = Some r ->
      exists vs, window s first n i get vs /\ mean_is vs m /\ rms_is vs r /\
        forall coordinate, In coordinate [vx; vy; vz] -> Rabs (coordinate m) <= coordinate r.
  Proof.
    intros HC HF Hp get fl Hin N first. destruct (finished_meshed _ _ HC HF) as [F HM]. destruct (created_fields _ HC) as (C1 & C2 & C3 & C4 & _ & C5).
    destruct (finished_inv _ _ _ _ _ F HF HM) as (sf & f & m & r & HA & Efin & _ & Esteps & _). pose proof (after_problem solve HS _ _ _ _ F HA HM (le_n _)) as EP.
    fold N in HA, EP |- *. pose proof (mp_size _ _ HM) as HN. fold N in HN.
    assert (Hp' : up_max_period (us_problem sf) <> 0) by (rewrite EP; exact Hp).
    unfold finalize in Efin. apply bind_Ok in Efin. destruct Efin as (sp0 & Esp0 & Efin). apply (final_periodic _ _ _ Hp') in Efin. destruct Efin as (hs & FH & Eup).
    destruct (load_kind _ _ Hin) as (proj & K1 & K2 & K3 & K4).
    rewrite EP in Eup. cbn [up_set_final up_set_steps up_final up_final_mean up_final_rms] in Eup. rewrite C1, C2, C3 in Eup.
    assert (E1 : fl (up_final (us_problem s)) = []) by (rewrite Eup; exact K3).
    assert (E2 : fl (up_final_mean (us_problem s)) = map (fun h => each_component mean_of (map proj h)) hs). { rewrite Eup. cbn [up_set_final up_final_mean]. rewrite K2, map_map. apply map_ext. intros h. apply K4. }
    assert (E3 : fl (up_final_rms (us_problem s)) = map (fun h => each_component rms_of (map proj h)) hs). { rewrite Eup. cbn [up_set_final up_final_rms]. rewrite K2, map_map. apply map_ext. intros h. apply K4. }
    destruct (seq_Forall2_nth _ _ _ _ FH) as [LL FN].
    split; [exact E1|]. split.
    - intros k sp Hsp. rewrite E2, E3, !map_length, LL.
      assert (EL : length (sp_airplanes sp0) = length (sp_airplanes sp)); [|auto].
      destruct (after_ran solve HS _ F up _ sf HM HA (le_n _)) as (s1 & conv & _ & R). pose proof (rn_inv _ _ _ _ _ _ _ _ R) as RI.
      assert (HL : forall sp, In sp (up_steady_problems (us_problem sf)) -> layout (sp_airplanes sp) = F).
      { intros q Hq. destruct (Forall2_in_r _ _ _ _ (ri_kept _ _ _ _ RI) Hq) as (q0 & Hq0 & Hs). apply (solved_ready _ _ _ Hs). apply (rp_steps _ _ (rn_ready _ _ _ _ _ _ _ _ R)). exact Hq0. }
      apply index_Some in Esp0. unfold step_at in Hsp. rewrite Esteps in Hsp. pose proof (HL _ (nth_error_In _ _ Hsp)) as H1. pose proof (HL _ (nth_error_In _ _ Esp0)) as H2.
      apply (f_equal (@length _)) in H1. apply (f_equal (@length _)) in H2. unfold layout in H1, H2. rewrite map_length in H1, H2. congruence.
    - intros i mm rr Hm Hr. rewrite E2, nth_error_map in Hm. rewrite E3, nth_error_map in Hr. destruct (nth_error hs i) as [h|] eqn:Eh; [|discriminate]. cbn in Hm, Hr.
      apply Some_eq in Hm. apply Some_eq in Hr. subst mm rr. exists (map proj h). split; [|split; [apply each_mean | split; [apply each_rms | intros co Hco; apply each_bound; exact Hco]]].
      pose proof (FN _ _ Eh) as Ehist. cbn [plus] in Ehist. unfold window. pose proof (window_history s i (us_problem sf) h get proj Esteps Ehist K1) as FW.
      assert (EW : averaging_steps (us_problem sf) = seq first (N - first)).
      { unfold averaging_steps. rewrite EP. cbn [up_set_steps up_first_averaging_step up_num_steps]. fold first. f_equal. rewrite <- HN. unfold first.
        assert ((0 <= up_first_averaging_step up)%Z). { rewrite C4. unfold first_averaging_step. assert (ER : Reqb (up_max_period up) 0 = false) by (apply Reqb_false; exact Hp). rewrite ER. lia. } lia. }
      rewrite EW in FW. exact FW.
  Qed.

  Lemma after_prefix up n s k : after solve prescribed up n s -> (k <= n)%nat -> exists sk, after solve prescribed up k sk.
  Proof.
    revert s. induction n as [|n IH]; intros s HA Hk; [assert (k = 0)%nat by lia; subst; eauto|]. destruct (Nat.eq_dec k (S n)) as [->|Hne]; [eauto|].
    apply after_S in HA. destruct HA as (s' & HA & _). apply (IH s' HA). lia.
  Qed.
  Lemma after_layout F up n s : meshed_problem F up -> after solve prescribed up n s -> (n <= length (up_steady_problems up))%nat ->
    length (up_steady_problems (us_problem s)) = length (up_steady_problems up) /\
    forall k sp, step_at s k sp -> layout (sp_airplanes sp) = F.
  Proof.
    intros HM HA Hn. destruct (after_ran solve HS _ F up _ s HM HA Hn) as (s1 & conv & _ & R). pose proof (rn_inv _ _ _ _ _ _ _ _ R) as RI. split.
    - rewrite <- (Forall2_length _ _ _ (ri_kept _ _ _ _ RI)). symmetry. apply (Forall2_length _ _ _ (rn_started _ _ _ _ _ _ _ _ R)).
    - intros k sp Hsp. destruct (Forall2_in_r _ _ _ _ (ri_kept _ _ _ _ RI) (nth_error_In _ _ Hsp)) as (q0 & Hq0 & Hs).
      apply (solved_ready _ _ _ Hs). apply (rp_steps _ _ (rn_ready _ _ _ _ _ _ _ _ R)). exact Hq0.
  Qed.
  Lemma layout_length F a b : layout a = F -> layout b = F -> length a = length b.
  Proof. intros <- H. apply (f_equal (@length _)) in H. unfold layout in H. rewrite !map_length in H. auto. Qed.
  (** Every step from the first one with results on has loads. *)
  Lemma after_loaded F up n s k sp a : meshed_problem F up -> after solve prescribed up n s -> (n <= length (up_steady_problems up))%nat ->
    (k < n)%nat -> (up_first_results_step up <= Z.of_nat k)%Z -> step_at s k sp -> In a (sp_airplanes sp) -> exists l, loads_of a = Ok l.
  Proof.
    intros HM HA Hn Hk Hr Hsp Ha. destruct (after_prefix _ _ _ (S k) HA ltac:(lia)) as [sk HAk].
    destruct (after_later solve HS prescribed up _ _ _ _ F HM HAk HA ltac:(lia) Hn k ltac:(lia)) as [E _]. unfold step_at in Hsp. rewrite E in Hsp. clear E.
    destruct (after_stepped solve HS prescribed F up k sk HM HAk ltac:(lia)) as (s1 & s' & conv & conv' & _ & _ & R & _ & St & _).
    destruct St as (sp' & rows & la & xs & a1 & a' & _ & _ & _ & _ & _ & _ & St). cbn zeta in St. destruct St as (_ & _ & _ & El & _ & _ & _ & Hn' & _).
    rewrite Hn' in Hsp. apply Some_eq in Hsp. subst sp. cbn [sp_airplanes] in Ha.
    assert (Er : up_first_results_step (us_problem s1) = up_first_results_step up) by (rewrite (rn_start _ _ _ _ _ _ _ _ R); reflexivity). rewrite Er in El.
    destruct (Z.leb_spec (up_first_results_step up) (Z.of_nat k)) as [_|X]; [|lia]. destruct El as (loads & _ & Ep).
    apply process_forces_sound in Ep. destruct Ep as (us & rest & _ & Fp).
    assert (G : forall l us l', Forall3 (totalled (sp_operating_point sp')) l us l' -> forall a, In a l' -> exists l, loads_of a = Ok l).
    { clear. intros l us l' FF. induction FF as [|x y z xs ys zs HT FF IH]; intros a Ha; [destruct Ha|]. destruct Ha as [<-|Ha]; [|auto].
      destruct HT as (_ & _ & _ & T1 & T2 & T3 & T4). unfold loads_of. rewrite T1, T2, T3, T4. eauto. }
    exact (G _ _ _ Fp a Ha).
  Qed.
  Lemma foldM_total {A S} (f : S -> A -> result S) (P : S -> Prop) l st : P st -> (forall st x, In x l -> P st -> exists st', f st x = Ok st' /\ P st') -> exists st', foldM f st l = Ok st'.
  Proof.
    revert st. induction l as [|x l IH]; intros st HP H; cbn [foldM]; [eauto|]. destruct (H st x (or_introl eq_refl) HP) as (st' & E & HP'). rewrite E. cbn [bind].
    apply IH; [exact HP'|]. intros; apply H; [right; assumption | assumption].
  Qed.
  Lemma finalize_total F up s : meshed_problem F up -> created up -> after solve prescribed up (length (up_steady_problems up)) s -> exists up', finalize (us_problem s) = Ok up'.
  Proof.
    intros HM HC HA. set (N := length (up_steady_problems up)) in *. destruct (after_layout F up N s HM HA (le_n _)) as [LN LF].
    pose proof (after_problem solve HS _ _ _ _ F HA HM (le_n _)) as EP. pose proof (mp_size _ _ HM) as HN. pose proof (mp_some _ _ HM) as HN0. fold N in HN, HN0, LN.
    destruct (created_fields _ HC) as (_ & _ & _ & C4 & C5 & _).
    unfold finalize. destruct (nth_in_range (up_steady_problems (us_problem s)) 0 ltac:(lia)) as [sp0 Hsp0]. assert (E0 := proj2 (index_Some _ _ _) Hsp0). rewrite E0. cbn [bind].
    apply (foldM_total finalize_airplane (fun up' => exists f m r, up' = up_set_final f m r (us_problem s))).
    - exists (up_final (us_problem s)), (up_final_mean (us_problem s)), (up_final_rms (us_problem s)). symmetry. apply set_final_self.
    - intros up' id Hid (f & m & r & ->). apply in_seq in Hid.
      assert (H0 : (0 <= up_first_averaging_step up)%Z). { rewrite C4. unfold first_averaging_step. destruct (Reqb (up_max_period up) 0); lia. }
      assert (EH : exists h, load_history (us_problem s) id = Ok h /\ length h = length (averaging_steps (us_problem s))).
      { unfold load_history.
        assert (HX : exists h, mapM (fun k => let* sp := index (up_steady_problems (us_problem s)) k in let* a := index (sp_airplanes sp) id in loads_of a) (averaging_steps (us_problem s)) = Ok h); [|destruct HX as [h HX]; exists h; split; [exact HX | apply (mapM_Ok_length _ _ _ HX)]].
        apply mapM_ok. intros k Hk. unfold averaging_steps in Hk. rewrite EP in Hk. cbn [up_set_steps up_first_averaging_step up_num_steps] in Hk. apply in_seq in Hk.
        assert (HkN : (k < N)%nat) by lia.
        destruct (nth_in_range (up_steady_problems (us_problem s)) k ltac:(lia)) as [sp Hsp]. assert (E1 := proj2 (index_Some _ _ _) Hsp). rewrite E1. cbn [bind].
        assert (LA : length (sp_airplanes sp) = length (sp_airplanes sp0)) by (apply (layout_length F); [apply (LF k); exact Hsp | apply (LF 0%nat); exact Hsp0]).
        destruct (nth_in_range (sp_airplanes sp) id ltac:(lia)) as [a Ha]. assert (E2 := proj2 (index_Some _ _ _) Ha). rewrite E2. cbn [bind].
        apply (after_loaded F up N s k sp a HM HA (le_n _) HkN); [rewrite C5; destruct (up_only_final_results up); lia | exact Hsp | eapply nth_error_In; exact Ha]. }
      destruct EH as (h & Eh & Lh). unfold finalize_airplane. rewrite up_set_final_steps, Eh. cbn [bind up_set_final up_max_period].
      destruct (Reqb (up_max_period (us_problem s)) 0) eqn:ER; [|eexists; split; [reflexivity | do 3 eexists; apply set_final_twice]].
      assert (EW : length h = 1%nat).
      { rewrite Lh. unfold averaging_steps. rewrite seq_length, EP. cbn [up_set_steps up_first_averaging_step up_num_steps]. rewrite EP in ER. cbn in ER. apply Reqb_true in ER. rewrite C4, ER, window_static. lia. }
      destruct h as [|l [|l' h]]; cbn in EW; try lia. cbn [length Nat.sub index nth_error bind]. eexists; split; [reflexivity | do 3 eexists; apply set_final_twice].
  Qed.
  Lemma run_total up s0 : created up -> unsteady_new up = Ok s0 ->
    (exists s, unsteady_run solve prescribed lines s0 = Ok s) \/
    exists k s e, (k < length (up_steady_problems up))%nat /\ after solve prescribed up k s /\ unsolved solve k s e /\ unsteady_run solve prescribed lines s0 = Err e.
  Proof.
    intros HC E0. destruct (created_meshed _ _ HC E0) as [F HM]. destruct (unsteady_start_ok 0 F up HM) as (s0' & s1 & E0' & E1 & Ep & _). assert (s0' = s0) by congruence. subst s0'.
    unfold unsteady_run, unsteady_run_with. rewrite E1. cbn [bind].
    assert (EN : Z.to_nat (up_num_steps (us_problem s1)) = length (up_steady_problems up)). { rewrite Ep. cbn [up_set_steps up_num_steps]. rewrite <- (mp_size _ _ HM), Nat2Z.id. reflexivity. }
    rewrite EN. assert (A1 : after solve prescribed up 0 s1) by (exists s0, s1; auto).
    destruct (run_progress solve HS prescribed F up s1 _ HM A1 (le_n _)) as [[sf Ef]|(k & sk & e & H1 & H2 & H3 & Ef)]; rewrite Ef; cbn [bind].
    - left. assert (HA : after solve prescribed up (length (up_steady_problems up)) sf) by (exists s0, s1; auto).
      destruct (finalize_total F up sf HM HC HA) as [upf Efin]. rewrite Efin. cbn [bind]. destruct lines; [|cbn [bind]; eauto].
      pose proof (mp_some _ _ HM) as HN0. destruct (length (up_steady_problems up)) as [|N] eqn:EL; [lia|].
      destruct (after_stepped solve HS prescribed F up N sf HM HA ltac:(lia)) as (? & s' & conv & conv' & _ & _ & _ & _ & St & _).
      destruct St as (sp' & rows & la & xs & a1 & a' & _ & _ & _ & _ & _ & _ & St). cbn zeta in St. destruct St as (_ & _ & _ & _ & _ & _ & Ec & _). rewrite Ec. cbn [bind]. eauto.
    - right. exists k, sk, e. auto 6.
  Qed.
End Final.
