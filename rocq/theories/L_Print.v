(** Playback rates, plots and printed results. *)
From Coq Require Import List ZArith Lia Lra Bool Reals String Arith.
From Verif Require Import M_Output S_Output S_Loads S_Convergence S_Unsteady S_UnsteadyRun S_Vortices S_Solve L_Base L_Loads L_Horseshoe L_SteadyRing L_Frames L_Functions L_Movement L_Geometry L_Remesh
  L_Problems L_Wake L_UnsteadyStep L_UnsteadyRun L_UnsteadyFinal L_UnsteadyProps L_UnsteadyProps2 L_UnsteadyFlow L_UnsteadyStill L_NoLoads L_UnsteadyLoads L_Statements4 L_Example L_Gauss L_Example4 L_AnalysisExample L_Output.
Import ListNotations.
Local Open Scope R_scope.
Local Open Scope list_scope.

(** ** Playback *)
Lemma int_part_IZR z : Int_part (IZR z) = z.
Proof. unfold Int_part. rewrite <- (tech_up (IZR z) (z + 1)); [lia | rewrite plus_IZR; lra | rewrite plus_IZR; lra]. Qed.
Lemma int_part_bounds x : IZR (Int_part x) <= x < IZR (Int_part x) + 1.
Proof. destruct (base_Int_part x). lra. Qed.
Lemma animate_rate s st wake an : animate s st wake = Ok an -> up_delta_time (us_problem s) <> 0 /\ (an_speed an, an_fps an) = frame_rate (up_delta_time (us_problem s)).
Proof.
  unfold animate. cbn zeta. intros E. apply bind_Ok in E. destruct E as (u & E0 & E). destruct (Reqb (up_delta_time (us_problem s)) 0) eqn:Ed; [discriminate|]. split; [apply Reqb_false in Ed; exact Ed|].
  apply bind_Ok in E. destruct E as (shown & _ & E). destruct (map sp_airplanes _); [discriminate|]. apply bind_Ok in E. destruct E as (frames & _ & E). apply Ok_eq in E. subst an. cbn [an_speed an_fps].
  destruct (frame_rate _). reflexivity.
Qed.
Lemma frame_rate_spec dt speed fps : 0 < dt -> (speed, fps) = frame_rate dt ->
  0 < speed <= 1 /\ IZR fps <= speed / dt < IZR fps + 1 /\ (fps <= 50)%Z /\
  (50 * dt < 1 -> fps = 50%Z /\ IZR fps * dt = speed) /\ (1 <= 50 * dt -> speed = 1).
Proof.
  intros Hd E. unfold frame_rate in E. cbn zeta in E. assert (Hr : 0 < 1 / dt) by (unfold Rdiv; rewrite Rmult_1_l; apply Rinv_0_lt_compat; exact Hd).
  assert (Hx : 1 / dt * dt = 1) by (field; lra). set (r := 1 / dt) in *.
  assert (Hfl : forall x, 0 < x -> 1 / dt * x = x / dt) by (intros x _; field; lra).
  destruct (Rltb 50 r) eqn:E50.
  - apply Rltb_true in E50. assert (Er : r * (50 / r) = 50) by (field; lra). rewrite Er in E. change 50 with (IZR 50) in E at 2. rewrite int_part_IZR in E. injection E as -> ->.
    assert (Ed : 50 / r = 50 * dt) by (unfold r; field; lra). assert (50 * dt < 1) by nra. rewrite Ed. split; [lra|]. split; [replace (50 * dt / dt) with 50 by (field; lra); lra|]. split; [lia|]. split; [auto | lra].
  - apply Rltb_false in E50. injection E as -> ->. rewrite Rmult_1_r. pose proof (int_part_bounds r) as HB. assert (1 <= 50 * dt) by nra. split; [lra|]. split; [exact HB|].
    split; [apply le_IZR; lra|]. split; [lra | auto].
Qed.
Lemma frame_rate_exact dt speed fps n : 0 < dt -> (speed, fps) = frame_rate dt -> 1 <= 50 * dt -> IZR n * dt = 1 -> fps = n /\ IZR fps * dt = speed.
Proof.
  intros Hd E H50 Hn. destruct (frame_rate_spec _ _ _ Hd E) as (_ & HB & _ & _ & H1). specialize (H1 H50). subst speed. assert (E1 : 1 / dt = IZR n) by (apply Rmult_eq_reg_r with dt; [|lra]; rewrite Hn; field; lra).
  rewrite E1 in HB. assert (fps = n). { destruct HB as [B1 B2]. apply le_IZR in B1. replace (IZR fps + 1) with (IZR (fps + 1)) in B2 by (rewrite plus_IZR; reflexivity). apply lt_IZR in B2. lia. }
  subst fps. auto.
Qed.
Lemma frame_rate_slow dt : 1 < dt -> frame_rate dt = (1, 0%Z).
Proof.
  intros Hd. destruct (frame_rate dt) as [speed fps] eqn:E. symmetry in E. destruct (frame_rate_spec dt speed fps ltac:(lra) E) as (_ & HB & _ & _ & H1). specialize (H1 ltac:(lra)). subst speed. f_equal.
  assert (0 < 1 / dt < 1). { split; [unfold Rdiv; rewrite Rmult_1_l; apply Rinv_0_lt_compat; lra|]. apply Rmult_lt_reg_r with dt; [lra|]. replace (1 / dt * dt) with 1 by (field; lra). lra. }
  assert (B1 : IZR fps < 1) by lra. assert (B2 : -1 < IZR fps) by lra. apply lt_IZR in B1. apply lt_IZR in B2. lia.
Qed.
Lemma frame_rate_two_fifths : frame_rate (2 / 5) = (1, 2%Z).
Proof.
  destruct (frame_rate (2 / 5)) as [speed fps] eqn:E. symmetry in E. destruct (frame_rate_spec (2 / 5) speed fps ltac:(lra) E) as (_ & HB & _ & _ & H1). specialize (H1 ltac:(lra)). subst speed. f_equal.
  assert (B1 : IZR fps < 3) by lra. assert (B2 : 1 < IZR fps) by lra. apply lt_IZR in B1. apply lt_IZR in B2. lia.
Qed.

(** ** Plots *)
Lemma plot_times_ok first n dt : (0 <= first)%Z -> (first <= n)%Z ->
  let times := plot_times first n dt in
  List.length times = Z.to_nat (n - first) /\ forall k t, nth_error times k = Some t -> t = dt * (IZR first + INR k).
Proof.
  intros H0 Hn times. split; [apply linspace_length|]. intros k t Hk. unfold times, plot_times, linspace in Hk. rewrite nth_error_map in Hk.
  destruct (nth_error (seq 0 (Z.to_nat (n - first))) k) as [j|] eqn:Ej; [|discriminate]. assert (Hkl : (k < Z.to_nat (n - first))%nat) by (rewrite <- (seq_length (Z.to_nat (n - first)) 0); apply nth_error_Some; congruence).
  rewrite nth_error_seq0, (proj2 (Nat.ltb_lt _ _) Hkl) in Ej. apply Some_eq in Ej. subst j. apply Some_eq in Hk. subst t. cbn beta.
  destruct (Nat.eq_dec (Z.to_nat (n - first)) 1) as [E1|E1].
  - assert (k = 0)%nat by lia. subst k. cbn [INR]. ring.
  - assert (HN : INR (Z.to_nat (n - first) - 1) = IZR (n - 1) - IZR first). { rewrite INR_IZR_INZ, <- minus_IZR. f_equal. lia. }
    rewrite HN. assert (0 < IZR (n - 1) - IZR first) by (rewrite <- minus_IZR; apply IZR_lt; lia). field. lra.
Qed.
Section Plots.
  Variables (solve : list (list R) -> list R -> result (list R)) (HS : SolveSpec solve).
  Lemma created_first up prescribed lines s : created up -> finished solve prescribed lines up s -> (0 <= up_first_results_step up)%Z.
  Proof.
    intros HC HF. destruct (created_fields _ HC) as (_ & _ & _ & C4 & C5 & C6). rewrite C5. destruct (up_only_final_results up); [|lia]. rewrite C4. unfold first_averaging_step.
    destruct (finished_meshed _ _ _ _ _ HC HF) as [F HM]. pose proof (mp_size _ _ HM) as MS. pose proof (mp_some _ _ HM) as MP. destruct (Reqb (up_max_period up) 0); [rewrite <- MS; lia | apply Z.le_max_l].
  Qed.
  Lemma finished_layout prescribed lines up s : created up -> finished solve prescribed lines up s ->
    exists A, forall k sp, step_at s k sp -> List.length (sp_airplanes sp) = A.
  Proof.
    intros HC HF. destruct (finished_meshed _ _ _ _ _ HC HF) as [F HM]. destruct (finished_inv _ _ _ _ _ F HF HM) as (sf & f & m & r & HA & _ & _ & Esteps & _).
    destruct (after_layout solve HS prescribed F up _ sf HM HA (le_n _)) as [_ HL]. exists (List.length F). intros k sp Hsp. unfold step_at in *. rewrite Esteps in Hsp. rewrite <- (HL k sp Hsp). unfold layout. rewrite map_length. reflexivity.
  Qed.
  Lemma load_there prescribed lines up s k sp i a get : created up -> finished solve prescribed lines up s -> (up_first_results_step up <= Z.of_nat k)%Z ->
    step_at s k sp -> nth_error (sp_airplanes sp) i = Some a -> In get (map (fun f => snd (fst f)) load_figures) -> exists v, get a = Some v.
  Proof.
    intros HC HF Hk Hsp Ha Hget. destruct (finished_fields _ HS _ _ _ _ HC HF) as (HR & Hpos & HL & _).
    assert (Hlt : (k < List.length (up_steady_problems up))%nat) by (rewrite <- HL; apply nth_error_Some; unfold step_at in Hsp; congruence).
    destruct (unsteady_totals _ HS _ _ _ _ _ _ _ HC HR Hlt Hk Hsp (nth_error_In _ _ Ha)) as (fs & ms & fw & mw & cf & cm & _ & _ & E1 & E2 & E3 & E4 & _).
    destruct Hget as [<-|[<-|[<-|[<-|[]]]]]; eauto.
  Qed.
  Lemma window_row prescribed lines up s steps first i get : created up -> finished solve prescribed lines up s -> (up_first_results_step up <= Z.of_nat first)%Z ->
    (forall k sp, step_at s k sp -> (i < List.length (sp_airplanes sp))%nat) ->
    In get (map (fun f => snd (fst f)) load_figures) ->
    forall n, Forall2 (fun k sp => step_at s k sp) (seq first (n - first)) steps ->
    exists vs, window s first n i get vs /\ forall component, total_row steps get i component = map (fun v => Some (component v)) vs.
  Proof.
    intros HC HF Hfirst Hi Hget n. unfold window. generalize (n - first)%nat. clear n. intros m H. revert first Hfirst steps H. induction m as [|m IH]; intros first Hfirst steps H.
    - inversion H; subst. exists []. split; [constructor | reflexivity].
    - cbn [seq] in H. inversion H as [|k sp ks sps Hsp H']; subst. destruct (IH (Datatypes.S first) ltac:(lia) _ H') as (vs & W & R). destruct (nth_in_range _ _ (Hi _ _ Hsp)) as [a Ha].
      destruct (load_there _ _ _ _ _ _ _ _ _ HC HF Hfirst Hsp Ha Hget) as [v Ev]. exists (v :: vs). split.
      + cbn [seq]. constructor; [eauto | exact W].
      + intros component. unfold total_row in *. cbn [map]. unfold total_entry at 1. rewrite Ha, Ev. f_equal. apply R.
  Qed.
  Lemma plots prescribed lines up s : created up -> finished solve prescribed lines up s -> (up_first_results_step up <= up_num_steps up)%Z ->
    exists groups sp0, plot_results_versus_time s = Ok (concat groups) /\ step_at s 0 sp0 /\ List.length groups = List.length (sp_airplanes sp0) /\
      forall i a group, nth_error (sp_airplanes sp0) i = Some a -> nth_error groups i = Some group ->
        Forall2 (figure_ok s (Z.to_nat (up_first_results_step up)) (List.length (up_steady_problems up)) i (a_name a) (up_delta_time up)) load_figures group.
  Proof.
    intros HC HF Hle. destruct (finished_fields _ HS _ _ _ _ HC HF) as (HR & Hpos & HL & HN & Hd & Hfr & _). pose proof (created_first _ _ _ _ HC HF) as H0.
    set (N := List.length (up_steady_problems up)) in *. set (first := Z.to_nat (up_first_results_step up)).
    assert (EN : up_num_steps up = Z.of_nat N) by (destruct (finished_meshed _ _ _ _ _ HC HF) as [F HM]; symmetry; exact (mp_size _ _ HM)).
    unfold plot_results_versus_time. cbn zeta. rewrite HN, Hd, Hfr. fold first. destruct (Z.leb_spec (up_first_results_step up) (Z.of_nat N)) as [_|X]; [|lia]. cbn [check bind]. rewrite Nat2Z.id.
    assert (Hst : exists steps, mapM (index (up_steady_problems (us_problem s))) (seq first (N - first)) = Ok steps /\ Forall2 (fun k sp => step_at s k sp) (seq first (N - first)) steps).
    { assert (Hb : forall k, In k (seq first (N - first)) -> exists sp, step_at s k sp) by (intros k Hk; apply in_seq in Hk; apply nth_in_range; rewrite HL; lia).
      revert Hb. generalize (seq first (N - first)). intros ks. induction ks as [|k ks IH]; intros Hb; [exists []; split; [reflexivity | constructor]|].
      destruct (Hb k (or_introl eq_refl)) as [sp Hsp]. destruct IH as (steps & E & F2); [intros; apply Hb; right; assumption|]. exists (sp :: steps). split; [|constructor; assumption].
      cbn [mapM]. rewrite (proj2 (index_Some _ _ _) Hsp). cbn [bind]. rewrite E. reflexivity. }
    destruct Hst as (steps & Est & Fst). rewrite Est. cbn [bind]. destruct (nth_in_range (up_steady_problems (us_problem s)) 0 ltac:(lia)) as [sp0 Hsp0]. rewrite (proj2 (index_Some _ _ _) Hsp0). cbn [bind].
    destruct (finished_layout _ _ _ _ HC HF) as [A HA].
    assert (Ef : forallb (fun sp => (List.length (sp_airplanes sp) <=? List.length (sp_airplanes sp0))%nat) steps = true).
    { apply forallb_forall. intros sp Hsp. apply Nat.leb_le. apply In_nth_error in Hsp. destruct Hsp as [j Hj]. destruct (Forall2_nth _ _ _ Fst _ _ Hj) as (k & _ & Hsp).
      rewrite (HA k sp Hsp), (HA 0%nat sp0 Hsp0). lia. }
    rewrite Ef. cbn [check bind]. eexists. exists sp0. split; [reflexivity|]. split; [exact Hsp0|]. split; [rewrite map2_length, seq_length, map_length; lia|].
    intros i a group Ha Hg. assert (Hi : (i < List.length (sp_airplanes sp0))%nat) by (apply nth_error_Some; congruence).
    rewrite nth_error_map2, nth_error_seq0, (proj2 (Nat.ltb_lt _ _) Hi) in Hg. rewrite nth_error_map, Ha in Hg. cbn [option_map] in Hg. apply Some_eq in Hg. subst group.
    destruct (plot_times_ok (up_first_results_step up) (Z.of_nat N) (up_delta_time up) H0 ltac:(lia)) as [T1 T2].
    assert (Hall : forall k sp, step_at s k sp -> (i < List.length (sp_airplanes sp))%nat) by (intros k sp Hsp; rewrite (HA k sp Hsp), <- (HA 0%nat sp0 Hsp0); exact Hi).
    assert (Hf1 : (up_first_results_step up <= Z.of_nat first)%Z) by lia.
    assert (TT : List.length (plot_times (up_first_results_step up) (Z.of_nat N) (up_delta_time up)) = (N - first)%nat /\
      forall k t, nth_error (plot_times (up_first_results_step up) (Z.of_nat N) (up_delta_time up)) k = Some t -> t = up_delta_time up * (INR first + INR k)).
    { split; [rewrite T1; lia|]. intros k t Hk. rewrite (T2 k t Hk), (INR_IZR_INZ first). unfold first. rewrite Z2Nat.id by exact H0. reflexivity. }
    assert (W : forall get, In get (map (fun f => snd (fst f)) load_figures) -> exists vs, window s first N i get vs /\ forall component, total_row steps get i component = map (fun v => Some (component v)) vs).
    { intros get Hget. exact (window_row _ _ _ _ steps first i get HC HF Hf1 Hall Hget N Fst). }
    unfold figures_of, load_figures. cbn zeta.
    repeat (constructor; [unfold figure_ok; cbn [fig_title fig_times fig_lines]; split; [reflexivity|]; split; [apply TT|]; split; [apply TT|]|]); [| | | |constructor].
    - destruct (W a_force_wind (or_introl eq_refl)) as (vs & Wv & R). exists vs. split; [exact Wv|]. cbn [map2 map fst snd]. rewrite !R. reflexivity.
    - destruct (W a_force_coefficients (or_intror (or_introl eq_refl))) as (vs & Wv & R). exists vs. split; [exact Wv|]. cbn [map2 map fst snd]. rewrite !R. reflexivity.
    - destruct (W a_moment_wind (or_intror (or_intror (or_introl eq_refl)))) as (vs & Wv & R). exists vs. split; [exact Wv|]. cbn [map2 map fst snd]. rewrite !R. reflexivity.
    - destruct (W a_moment_coefficients (or_intror (or_intror (or_intror (or_introl eq_refl))))) as (vs & Wv & R). exists vs. split; [exact Wv|]. cbn [map2 map fst snd]. rewrite !R. reflexivity.
  Qed.
  Lemma plots_negative s : (up_num_steps (us_problem s) < up_first_results_step (us_problem s))%Z -> plot_results_versus_time s = Err EValueError.
  Proof using. intros H. unfold plot_results_versus_time. cbn zeta. destruct (Z.leb_spec (up_first_results_step (us_problem s)) (up_num_steps (us_problem s))); [lia | reflexivity]. Qed.

  (** ** Printed results *)
  Lemma report_prints title final f m cf cm : prints (report title final f m cf cm) title final f m cf cm.
  Proof using. unfold prints. do 12 eexists. split; [reflexivity|]. repeat split; apply round_to_rounded. Qed.
  Lemma print_airplanes l : (forall a, In a l -> exists f m cf cm, a_force_wind a = Some f /\ a_moment_wind a = Some m /\ a_force_coefficients a = Some cf /\ a_moment_coefficients a = Some cm) ->
    exists reports, print_steady_results l = Ok reports /\
      Forall2 (fun a r => exists f m cf cm, a_force_wind a = Some f /\ a_moment_wind a = Some m /\ a_force_coefficients a = Some cf /\ a_moment_coefficients a = Some cm /\
                prints r ("Airplane " ++ a_name a)%string "" f m cf cm) l reports.
  Proof using.
    unfold print_steady_results. induction l as [|a l IH]; intros H; [exists []; split; [reflexivity | constructor]|]. destruct IH as (reports & E & F2); [intros; apply H; right; assumption|].
    destruct (H a (or_introl eq_refl)) as (f & m & cf & cm & E1 & E2 & E3 & E4). cbn [mapM]. rewrite E1, E2, E3, E4. cbn [present bind]. rewrite E. cbn [bind]. eexists. split; [reflexivity|]. constructor; [|exact F2].
    exists f, m, cf, cm. repeat (split; [assumption || reflexivity|]). apply report_prints.
  Qed.
  Lemma print_missing l : (exists a, In a l /\ (a_force_wind a = None \/ a_moment_wind a = None \/ a_force_coefficients a = None \/ a_moment_coefficients a = None)) -> print_steady_results l = Err ETypeError.
  Proof using.
    unfold print_steady_results. intros (a & Ha & HN). induction l as [|b l IH]; [destruct Ha|]. cbn [mapM].
    destruct (a_force_wind b) eqn:E1; cbn [present bind]; [|reflexivity]. destruct (a_moment_wind b) eqn:E2; cbn [present bind]; [|reflexivity].
    destruct (a_force_coefficients b) eqn:E3; cbn [present bind]; [|reflexivity]. destruct (a_moment_coefficients b) eqn:E4; cbn [present bind]; [|reflexivity].
    destruct Ha as [->|Ha]; [decompose [or] HN; congruence|]. rewrite (IH Ha). reflexivity.
  Qed.
  (** What a steady solver leaves is printed, forces with the sign opposite to that of
      the coefficients for drag and lift. *)
  Lemma print_horseshoe s s' : hs_run solve s = Ok s' ->
    exists reports, print_steady_results (hso_airplanes s') = Ok reports /\
      Forall2 (fun a r => exists f m cf cm, a_force_wind a = Some f /\ a_moment_wind a = Some m /\ a_force_coefficients a = Some cf /\ a_moment_coefficients a = Some cm /\
                prints r ("Airplane " ++ a_name a)%string "" f m cf cm) (hso_airplanes s') reports.
  Proof using.
    intros E. apply print_airplanes. apply hs_run_inv in E. cbv zeta in E. destruct E as (_ & _ & _ & _ & _ & _ & l & _ & Ep). apply process_forces_sound in Ep. destruct Ep as (us & rest & _ & F).
    clear -F. induction F as [|a u b l0 us l' H F IH]; intros x [].
    - subst x. destruct H as (_ & _ & _ & F1 & F2 & F3 & F4). eauto 10.
    - auto.
  Qed.
  Lemma print_ring s s' : ring_run solve s = Ok s' ->
    exists reports, print_steady_results (rso_airplanes s') = Ok reports /\
      Forall2 (fun a r => exists f m cf cm, a_force_wind a = Some f /\ a_moment_wind a = Some m /\ a_force_coefficients a = Some cf /\ a_moment_coefficients a = Some cm /\
                prints r ("Airplane " ++ a_name a)%string "" f m cf cm) (rso_airplanes s') reports.
  Proof using.
    intros E. apply print_airplanes. apply ring_run_inv in E. cbv zeta in E. destruct E as (l0 & l1 & loads & _ & _ & _ & _ & _ & _ & _ & _ & _ & Ep). apply process_forces_sound in Ep. destruct Ep as (us & rest & _ & F).
    clear -F. induction F as [|a u b l0 us l' H F IH]; intros x [].
    - subst x. destruct H as (_ & _ & _ & F1 & F2 & F3 & F4). eauto 10.
    - auto.
  Qed.
  Lemma printed_signs op forces moments l l' : process_forces op forces moments l = Ok l' ->
    let q := op_density op * (op_velocity op * op_velocity op) / 2 in
    forall a f cf, In a l' -> a_force_wind a = Some f -> a_force_coefficients a = Some cf -> q <> 0 -> a_s_ref a <> 0 ->
      vx f = - (vx cf * q * a_s_ref a) /\ vy f = vy cf * q * a_s_ref a /\ vz f = - (vz cf * q * a_s_ref a).
  Proof using.
    intros E q a f cf Ha Ef Ecf Hq Hs. apply process_forces_sound in E. destruct E as (us & rest & _ & F). 
    assert (G : exists b fms, a_s_ref a = a_s_ref b /\ totalled op b fms a).
    { clear -F Ha. induction F as [|b u c l us l' H F IH]; [destruct Ha|]. destruct Ha as [->|Ha]; [|auto]. exists b, u. pose proof H as ((_ & _ & _ & _ & H1 & _) & _). auto. }
    destruct G as (b & fms & Es & (_ & _ & _ & F1 & _ & F3 & _)). rewrite F1 in Ef. rewrite F3 in Ecf. apply Some_eq in Ef. apply Some_eq in Ecf. subst f cf. rewrite <- Es.
    unfold force_coefficients. cbn [vx vy vz]. 
    assert (Eq : dynamic_pressure op = q) by (unfold dynamic_pressure, q; field). rewrite Eq. repeat split; field; auto.
  Qed.
  Lemma print_static prescribed lines up s sp : created up -> finished solve prescribed lines up s -> up_max_period up = 0 -> step_at s 0 sp -> sp_airplanes sp <> [] ->
    print_unsteady_results s = Err EIndexError.
  Proof.
    intros HC HF Hp Hsp Hne. destruct (final_loads_static _ HS _ _ _ _ HC HF Hp a_force_wind fl_forces (or_introl eq_refl)) as (_ & _ & _ & EM & _).
    unfold print_unsteady_results. rewrite (proj2 (index_Some _ _ _) Hsp). cbn [bind]. rewrite EM. destruct (sp_airplanes sp) as [|a l]; [congruence|]. reflexivity.
  Qed.
  Lemma print_periodic prescribed lines up s : created up -> finished solve prescribed lines up s -> up_max_period up <> 0 ->
    exists sp reports, step_at s 0 sp /\ print_unsteady_results s = Ok reports /\ List.length reports = List.length (sp_airplanes sp) /\
      forall i a r, nth_error (sp_airplanes sp) i = Some a -> nth_error reports i = Some r -> exists f m cf cm,
        let means := up_final_mean (us_problem s) in
        nth_error (fl_forces means) i = Some f /\ nth_error (fl_moments means) i = Some m /\ nth_error (fl_force_coefficients means) i = Some cf /\ nth_error (fl_moment_coefficients means) i = Some cm /\
        prints r (a_name a) "Final " f m cf cm.
  Proof.
    intros HC HF Hp. destruct (finished_fields _ HS _ _ _ _ HC HF) as (HR & Hpos & HL & _). destruct (nth_in_range (up_steady_problems (us_problem s)) 0 ltac:(lia)) as [sp Hsp].
    pose proof (final_loads_periodic _ HS _ _ _ _ HC HF Hp) as FP.
    assert (L : forall get fl, In (get, fl) load_lists -> List.length (fl (up_final_mean (us_problem s))) = List.length (sp_airplanes sp)) by (intros get fl Hin; destruct (FP get fl Hin) as (_ & HLn & _); apply (HLn 0%nat sp Hsp)).
    pose proof (L _ _ (or_introl eq_refl)) as L1. pose proof (L _ _ (or_intror (or_introl eq_refl))) as L2. pose proof (L _ _ (or_intror (or_intror (or_introl eq_refl)))) as L3. pose proof (L _ _ (or_intror (or_intror (or_intror (or_introl eq_refl))))) as L4. clear L FP.
    exists sp. unfold print_unsteady_results. rewrite (proj2 (index_Some _ _ _) Hsp). cbn [bind]. generalize dependent (up_final_mean (us_problem s)). intros means L1 L2 L3 L4.
    assert (G : forall l k, (k + List.length l = List.length (sp_airplanes sp))%nat -> exists reports, mapM (fun ia =>
        let* f := index (fl_forces means) (fst ia) in let* m := index (fl_moments means) (fst ia) in let* cf := index (fl_force_coefficients means) (fst ia) in
        let* cm := index (fl_moment_coefficients means) (fst ia) in Ok (report (a_name (snd ia)) "Final " f m cf cm)) (combine (seq k (List.length l)) l) = Ok reports /\ List.length reports = List.length l /\
      forall i a r, nth_error l i = Some a -> nth_error reports i = Some r -> exists f m cf cm, nth_error (fl_forces means) (k + i) = Some f /\ nth_error (fl_moments means) (k + i) = Some m /\
        nth_error (fl_force_coefficients means) (k + i) = Some cf /\ nth_error (fl_moment_coefficients means) (k + i) = Some cm /\ prints r (a_name a) "Final " f m cf cm).
    { intros l. induction l as [|a l IH]; intros k Hk; [exists []; split; [reflexivity|]; split; [reflexivity|]; intros [|i]; discriminate|]. cbn [List.length] in Hk.
      destruct (IH (Datatypes.S k) ltac:(lia)) as (reports & E & LR & HI). cbn [List.length seq combine mapM fst snd].
      destruct (nth_in_range (fl_forces means) k ltac:(lia)) as [f Ef]. destruct (nth_in_range (fl_moments means) k ltac:(lia)) as [m Em]. destruct (nth_in_range (fl_force_coefficients means) k ltac:(lia)) as [cf Ecf]. destruct (nth_in_range (fl_moment_coefficients means) k ltac:(lia)) as [cm Ecm].
      rewrite (proj2 (index_Some _ _ _) Ef), (proj2 (index_Some _ _ _) Em), (proj2 (index_Some _ _ _) Ecf), (proj2 (index_Some _ _ _) Ecm). cbn [bind]. rewrite E. cbn [bind]. eexists. split; [reflexivity|]. split; [cbn [List.length]; lia|].
      intros [|i] b r Hb Hr; cbn [nth_error] in Hb, Hr.
      - apply Some_eq in Hb. apply Some_eq in Hr. subst b r. rewrite Nat.add_0_r. exists f, m, cf, cm. repeat (split; [assumption|]). apply report_prints.
      - destruct (HI i b r Hb Hr) as (f' & m' & cf' & cm' & X). exists f', m', cf', cm'. rewrite <- plus_n_Sm. exact X. }
    destruct (G (sp_airplanes sp) 0%nat eq_refl) as (reports & E & LR & HI). exists reports. split; [exact Hsp|]. split; [exact E|]. split; [exact LR|]. exact HI.
  Qed.
End Plots.
