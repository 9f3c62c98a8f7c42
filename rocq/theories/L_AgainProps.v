(** Running the unsteady solver again: what users see. *)
From Coq Require Import List ZArith Lia Lra Bool Reals String.
From Verif Require Import M_Unsteady M_Output S_Loads S_Solve S_Unsteady S_UnsteadyRun S_Again L_Base L_Loads L_Geometry L_Gauss L_Frames L_Mirror L_Wake L_UnsteadyFinal L_UnsteadyRun L_ImageRun L_ImageExample
  S_Movement L_Movement L_Problems L_Example3 L_Example4 L_Example5 L_Print L_Statements4 L_Similar L_Again L_AgainRun.
Import ListNotations.
Local Open Scope R_scope.
Local Open Scope list_scope.

Section Props.
Variable solve : list (list R) -> list R -> result (list R).
Hypothesis HS : SolveSpec solve.
Lemma used_first up u : used solve up u -> exists s0, unsteady_new up = Ok s0.
Proof. induction 1; eauto. Qed.
Lemma run_repeats prescribed (lines : bool) up u t : created up -> used solve up u -> unsteady_run solve prescribed lines u = Ok t ->
  exists s, finished solve prescribed lines up s /\ repeats u s t.
Proof.
  intros HC HU E. destruct (used_first up u HU) as [s0 E0]. pose proof (run_again solve HS prescribed lines up u s0 HC HU E0) as X. rewrite E in X.
  destruct (unsteady_run solve prescribed lines s0) as [s|e] eqn:Es; [|destruct X]. exists s. split; [exists s0; auto | exact X].
Qed.
Lemma both_prefix load final f g i v : In (load, final) load_lists -> nth_error (final f) i = Some v -> nth_error (final (both_loads f g)) i = Some v.
Proof.
  intros HL E. assert (Hl : (i < List.length (final f))%nat) by (apply nth_error_Some; congruence).
  cbn in HL. repeat (destruct HL as [HL|HL]; [apply (f_equal snd) in HL; cbn [snd] in HL; subst final; cbn [both_loads fl_forces fl_force_coefficients fl_moments fl_moment_coefficients]; rewrite nth_error_app1 by exact Hl; exact E|]). destruct HL.
Qed.
Lemma run_stale prescribed (lines : bool) up u t : created up -> used solve up u -> unsteady_run solve prescribed lines u = Ok t ->
  forall kind load final i v, In kind [up_final; up_final_mean; up_final_rms] -> In (load, final) load_lists ->
  nth_error (final (kind (us_problem u))) i = Some v -> nth_error (final (kind (us_problem t))) i = Some v.
Proof.
  intros HC HU E kind load final i v HK HL Hi. destruct (run_repeats prescribed lines up u t HC HU E) as (s & _ & R).
  cbn in HK. destruct HK as [<-|[<-|[<-|[]]]]; [rewrite (re_final _ _ _ R) | rewrite (re_mean _ _ _ R) | rewrite (re_rms _ _ _ R)]; eapply both_prefix; eassumption.
Qed.
Lemma worn_names b m sp sp' : sw b m sp sp' -> map a_name (sp_airplanes sp') = map a_name (sp_airplanes sp).
Proof. intros [_ F]. induction F as [|a c l l' (_ & E & _) F IH]; [reflexivity|]. cbn [map]. rewrite IH, E. reflexivity. Qed.
Lemma printed_from (means means' : final_loads) (k : nat) l l' reports :
  (forall load final i v, In (load, final) load_lists -> nth_error (final means) i = Some v -> nth_error (final means') i = Some v) -> map a_name l' = map a_name l ->
  mapM (fun ia => let* f := index (fl_forces means) (fst ia) in let* m := index (fl_moments means) (fst ia) in let* cf := index (fl_force_coefficients means) (fst ia) in
    let* cm := index (fl_moment_coefficients means) (fst ia) in Ok (report (a_name (snd ia)) "Final " f m cf cm)) (combine (seq k (List.length l)) l) = Ok reports ->
  mapM (fun ia => let* f := index (fl_forces means') (fst ia) in let* m := index (fl_moments means') (fst ia) in let* cf := index (fl_force_coefficients means') (fst ia) in
    let* cm := index (fl_moment_coefficients means') (fst ia) in Ok (report (a_name (snd ia)) "Final " f m cf cm)) (combine (seq k (List.length l')) l') = Ok reports.
Proof.
  intros HI. revert k l' reports. induction l as [|a l IH]; intros k l' reports EN E; (destruct l' as [|c l']; [try discriminate EN|]); [exact E | discriminate EN |].
  cbn [map] in EN. apply cons_eq' in EN. destruct EN as [Ea El]. cbn [List.length seq combine mapM fst snd] in E |- *.
  apply bind_Ok in E. destruct E as (r & Er & E). apply bind_Ok in E. destruct E as (rs & Ers & E).
  apply bind_Ok in Er. destruct Er as (f & E1 & Er). apply bind_Ok in Er. destruct Er as (m & E2 & Er). apply bind_Ok in Er. destruct Er as (cf & E3 & Er). apply bind_Ok in Er. destruct Er as (cm & E4 & Er).
  apply index_Some in E1, E2, E3, E4.
  pose proof (HI a_force_wind fl_forces k f ltac:(cbn; auto) E1) as F1. pose proof (HI a_moment_wind fl_moments k m ltac:(cbn; auto) E2) as F2.
  pose proof (HI a_force_coefficients fl_force_coefficients k cf ltac:(cbn; auto) E3) as F3. pose proof (HI a_moment_coefficients fl_moment_coefficients k cm ltac:(cbn; auto) E4) as F4.
  rewrite (proj2 (index_Some _ _ _) F1), (proj2 (index_Some _ _ _) F2), (proj2 (index_Some _ _ _) F3), (proj2 (index_Some _ _ _) F4). apply Ok_eq in Er. subst r. cbn [bind]. rewrite Ea, (IH _ _ _ El Ers). cbn [bind]. exact E.
Qed.
Lemma run_printed prescribed (lines : bool) up u t reports : created up -> used solve up u -> unsteady_run solve prescribed lines u = Ok t ->
  print_unsteady_results u = Ok reports -> print_unsteady_results t = Ok reports.
Proof.
  intros HC HU E EP. unfold print_unsteady_results in *. cbn zeta in *. apply bind_Ok in EP. destruct EP as (base & Eb & EP).
  assert (W : exists base', index (up_steady_problems (us_problem t)) 0 = Ok base' /\ map a_name (sp_airplanes base') = map a_name (sp_airplanes base)).
  { pose proof (ui_worn _ _ (used_worn solve HS up u HC HU) 0%nat) as W1. pose proof (ui_worn _ _ (used_worn solve HS up t HC (used_run _ _ _ _ _ _ HU E)) 0%nat) as W2. rewrite Eb in W1.
    destruct (index (up_steady_problems up) 0) as [x|]; [|destruct W1]. destruct (index (up_steady_problems (us_problem t)) 0) as [y|]; [|destruct W2]. cbn [rrel] in W1, W2. exists y. split; [reflexivity|].
    rewrite (worn_names _ _ _ _ W1), (worn_names _ _ _ _ W2). reflexivity. }
  destruct W as (base' & -> & EN). cbn [bind]. revert EP. apply printed_from; [|exact EN].
  intros load final i v HL Hi. eapply (run_stale prescribed lines up u t HC HU E up_final_mean); [cbn; auto | exact HL | exact Hi].
Qed.
Lemma worn_airplanes b m sp sp' : sw b m sp sp' -> List.length (sp_airplanes sp') = List.length (sp_airplanes sp).
Proof. intros [_ F]. symmetry. apply (Forall2_length _ _ _ F). Qed.
Lemma run_entries prescribed (lines : bool) prescribed' (lines' : bool) up s t k sp : created up -> finished solve prescribed lines up s -> up_max_period up <> 0 -> unsteady_run solve prescribed' lines' s = Ok t ->
  step_at t k sp -> forall load final, In (load, final) load_lists -> List.length (final (up_final_mean (us_problem t))) = (2 * List.length (sp_airplanes sp))%nat.
Proof.
  intros HC HF HP E Hk load final HL. assert (HU : used solve up s) by (destruct HF as (s0 & E0 & E1); eapply used_run; [apply used_new; exact E0 | exact E1]).
  destruct (run_repeats prescribed' lines' up s t HC HU E) as (s' & HF' & R).
  assert (HU' : used solve up s') by (destruct HF' as (s0 & E0 & E1); eapply used_run; [apply used_new; exact E0 | exact E1]).
  pose proof (ui_worn _ _ (used_worn solve HS up s HC HU) k) as W1. pose proof (ui_worn _ _ (used_worn solve HS up s' HC HU') k) as W2. pose proof (ui_worn _ _ (used_worn solve HS up t HC (used_run _ _ _ _ _ _ HU E)) k) as W3.
  unfold step_at in Hk. unfold index in W1, W2, W3. rewrite Hk in W3. destruct (nth_error (up_steady_problems up) k) as [x|]; [|destruct W3].
  destruct (nth_error (up_steady_problems (us_problem s)) k) as [y|] eqn:E1; [|destruct W1]. destruct (nth_error (up_steady_problems (us_problem s')) k) as [z|] eqn:E2; [|destruct W2]. cbn [rrel] in W1, W2, W3.
  destruct (final_loads_periodic solve HS prescribed lines up s HC HF HP load final HL) as (_ & L1 & _). destruct (final_loads_periodic solve HS prescribed' lines' up s' HC HF' HP load final HL) as (_ & L2 & _).
  destruct (L1 k y E1) as [N1 _]. destruct (L2 k z E2) as [N2 _]. rewrite (re_mean _ _ _ R).
  assert (X : List.length (final (both_loads (up_final_mean (us_problem s)) (up_final_mean (us_problem s')))) = (List.length (final (up_final_mean (us_problem s))) + List.length (final (up_final_mean (us_problem s'))))%nat).
  { cbn in HL. repeat (destruct HL as [HL|HL]; [apply (f_equal snd) in HL; cbn [snd] in HL; subst final; cbn [both_loads fl_forces fl_force_coefficients fl_moments fl_moment_coefficients]; apply app_length|]). destruct HL. }
  rewrite X, N1, N2, (worn_airplanes _ _ _ _ W1), (worn_airplanes _ _ _ _ W2), (worn_airplanes _ _ _ _ W3). lia.
Qed.
End Props.

(** ** A concrete case *)
Lemma gusty_again prescribed lines prescribed' lines' : exists up s t, created up /\ finished gauss_solve prescribed lines up s /\ up_max_period up <> 0 /\ unsteady_run gauss_solve prescribed' lines' s = Ok t /\
  List.length (up_steady_problems up) = 3%nat /\ (exists reports, print_unsteady_results s = Ok reports) /\
  exists sp, step_at t 0 sp /\ List.length (sp_airplanes sp) = 1%nat.
Proof.
  destruct (windy_runs gust prescribed lines false (or_intror (or_introl eq_refl))) as (up & s & HW). destruct (windy_facts _ _ _ _ _ _ (or_intror (or_introl eq_refl)) HW) as (HC & Edt & Hlen & _ & _ & m & a & Hm & Hup & Ea & Hst).
  pose proof (proj2 HW) as HF.
  assert (HP : up_max_period up <> 0).
  { assert (EP : up_max_period up = osc_period gust); [|rewrite EP; cbn; lra]. destruct (unsteady_built _ _ _ Hup) as (_ & _ & _ & _ & E & _). destruct (movement_built _ _ _ _ _ _ _ Hm) as (EA & EO & _).
    eapply largest_unique; [unfold mv_max_period in E; first [rewrite EA, EO in E | idtac]; apply max_period_largest; exact E|].
    split; [unfold all_periods; apply in_or_app; right; left; reflexivity|]. intros x Hx. unfold all_periods in Hx. cbn in Hx. repeat (destruct Hx as [<-|Hx]; [cbn; lra|]). destruct Hx. }
  assert (HU : used gauss_solve up s) by (destruct HF as (s0 & E0 & E1); eapply used_run; [apply used_new; exact E0 | exact E1]).
  destruct (used_first _ _ _ HU) as [s0 E0]. pose proof (run_again gauss_solve gauss_solve_spec prescribed' lines' up s s0 HC HU E0) as X.
  assert (OK : exists s', unsteady_run gauss_solve prescribed' lines' s0 = Ok s').
  { destruct (windy_runs gust prescribed' lines' false (or_intror (or_introl eq_refl))) as (up' & s' & [(m' & Hm' & Hup') (s0' & E0' & E')]). assert (m' = m) by congruence. subst m'. assert (up' = up) by congruence. subst up'. assert (s0' = s0) by congruence. subst s0'. eauto. }
  destruct OK as [s' Es']. rewrite Es' in X. destruct (unsteady_run gauss_solve prescribed' lines' s) as [t|e] eqn:Et; [|destruct X].
  exists up, s, t. split; [exact HC|]. split; [exact HF|]. split; [exact HP|]. split; [exact Et|]. split; [exact Hlen|]. split.
  - destruct (print_periodic gauss_solve gauss_solve_spec prescribed lines up s HC HF HP) as (sp & reports & _ & Er & _). eauto.
  - pose proof (ui_worn _ _ (used_worn gauss_solve gauss_solve_spec up t HC (used_run _ _ _ _ _ _ HU Et)) 0%nat) as W. unfold index in W.
    destruct (nth_error (up_steady_problems up) 0) as [x|] eqn:Ex; [|apply nth_error_None in Ex; lia]. destruct (nth_error (up_steady_problems (us_problem t)) 0) as [y|] eqn:Ey; [|destruct W]. cbn [rrel] in W.
    exists y. split; [exact Ey|]. rewrite (worn_airplanes _ _ _ _ W). destruct (Hst 0%nat x Ex) as [-> _]. reflexivity.
Qed.
Lemma gusty_entries : exists up s t sp, created up /\ finished gauss_solve true false up s /\ unsteady_run gauss_solve true false s = Ok t /\ step_at t 0 sp /\
  List.length (fl_forces (up_final_mean (us_problem t))) <> List.length (sp_airplanes sp).
Proof.
  destruct (gusty_again true false true false) as (up & s & t & HC & HF & HP & E & _ & _ & sp & Hsp & L). exists up, s, t, sp. split; [exact HC|]. split; [exact HF|]. split; [exact E|]. split; [exact Hsp|].
  rewrite (run_entries gauss_solve gauss_solve_spec true false true false up s t 0 sp HC HF HP E Hsp a_force_wind fl_forces ltac:(cbn; auto)), L. cbn. lia.
Qed.
