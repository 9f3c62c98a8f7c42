(** Images of whole runs: the loads kept at the end, and symmetric flight. *)
From Coq Require Import String List ZArith Lia Lra Reals Bool Permutation.
From Verif Require Import M_Unsteady S_Solve S_Vortices S_Loads S_Mirror S_Rigid
  L_Base L_Loads L_Aero L_Horseshoe L_SteadyRing L_Frames L_Mirror L_Rigid L_Problems L_Wake L_UnsteadyStep L_UnsteadyRun L_UnsteadyFlow
  L_UnsteadyProps L_UnsteadyLoads L_UnsteadyFinal S_Unsteady S_UnsteadyRun S_Image L_Pairs L_ImageGeometry L_ImageRun.
Import ListNotations.
Local Open Scope R_scope.
Local Open Scope list_scope.

Lemma after_finishes solve (HS : SolveSpec solve) prescribed lines F up sf : meshed_problem F up -> created up -> after solve prescribed up (length (up_steady_problems up)) sf ->
  exists s, finished solve prescribed lines up s.
Proof.
  intros HM HC HA. pose proof HA as (s0 & s1 & E0 & E1 & Ef). destruct (unsteady_start_ok 0 F up HM) as (s0' & s1' & E0' & E1' & Ep & _).
  assert (s0' = s0) by congruence. subst s0'. assert (s1' = s1) by congruence. subst s1'.
  assert (EN : Z.to_nat (up_num_steps (us_problem s1)) = length (up_steady_problems up)). { rewrite Ep. cbn [up_set_steps up_num_steps]. rewrite <- (mp_size _ _ HM), Nat2Z.id. reflexivity. }
  enough (X : exists s, unsteady_run solve prescribed lines s0 = Ok s) by (destruct X as [s X]; exists s, s0; auto). unfold unsteady_run, unsteady_run_with.
  rewrite E1. cbn [bind]. rewrite EN, Ef. cbn [bind].
  destruct (finalize_total solve HS prescribed F up sf HM HC HA) as [upf Efin]. rewrite Efin. cbn [bind]. destruct lines; [|cbn [bind]; eauto].
  pose proof (mp_some _ _ HM) as HN0. destruct (length (up_steady_problems up)) as [|N] eqn:EL; [lia|].
  destruct (after_stepped solve HS prescribed F up N sf HM HA ltac:(lia)) as (? & s' & conv & conv' & _ & _ & _ & _ & St & _).
  destruct St as (sp' & rows & la & xs & a1 & a' & _ & _ & _ & _ & _ & _ & St). cbn zeta in St. destruct St as (_ & _ & _ & _ & _ & _ & Ec & _). rewrite Ec. cbn [bind]. eauto.
Qed.

(** ** The loads at the end *)
Definition turned_kind (mirror : bool) (get : airplane -> option vec) (f : vec -> vec) : Prop :=
  (forall a a', totals_image mirror a a' -> exists v, get a = Some v /\ get a' = Some (f v)) /\
  (forall c v, f (vscale c v) = vscale c (f v)) /\ (forall l, vsum (map f l) = f (vsum l)) /\
  forall co v, In co [vx; vy; vz] -> co (f v) ^ 2 = co v ^ 2.
Lemma wind_turns mirror : (forall c v, wind_image mirror (vscale c v) = vscale c (wind_image mirror v)) /\ (forall l, vsum (map (wind_image mirror) l) = wind_image mirror (vsum l)) /\
  forall (co : vec -> R) v, In co [vx; vy; vz] -> co (wind_image mirror v) ^ 2 = co v ^ 2.
Proof.
  destruct mirror; cbn [wind_image].
  - split; [apply across_scale|]. split; [apply across_vsum|]. intros co v [<-|[<-|[<-|[]]]]; cbn [across vx vy vz]; ring.
  - split; [reflexivity|]. split; [intros l; rewrite map_id; reflexivity | reflexivity].
Qed.
Lemma moment_turns mirror : (forall c v, wind_image_moment mirror (vscale c v) = vscale c (wind_image_moment mirror v)) /\ (forall l, vsum (map (wind_image_moment mirror) l) = wind_image_moment mirror (vsum l)) /\
  forall (co : vec -> R) v, In co [vx; vy; vz] -> co (wind_image_moment mirror v) ^ 2 = co v ^ 2.
Proof.
  destruct mirror; cbn [wind_image_moment].
  - split; [intros; unfold across_moment; vring|]. split; [apply across_moment_vsum|]. intros co v [<-|[<-|[<-|[]]]]; cbn [across_moment vx vy vz]; ring.
  - split; [reflexivity|]. split; [intros l; rewrite map_id; reflexivity | reflexivity].
Qed.
Lemma kind_force mirror : turned_kind mirror a_force_wind (wind_image mirror).
Proof. split; [|apply wind_turns]. intros a a' (f & n & cf & cn & H1 & H2 & H3 & H4 & H5 & H6 & H7 & H8). eauto. Qed.
Lemma kind_force_coefficients mirror : turned_kind mirror a_force_coefficients (wind_image mirror).
Proof. split; [|apply wind_turns]. intros a a' (f & n & cf & cn & H1 & H2 & H3 & H4 & H5 & H6 & H7 & H8). eauto. Qed.
Lemma kind_moment mirror : turned_kind mirror a_moment_wind (wind_image_moment mirror).
Proof. split; [|apply moment_turns]. intros a a' (f & n & cf & cn & H1 & H2 & H3 & H4 & H5 & H6 & H7 & H8). eauto. Qed.
Lemma kind_moment_coefficients mirror : turned_kind mirror a_moment_coefficients (wind_image_moment mirror).
Proof. split; [|apply moment_turns]. intros a a' (f & n & cf & cn & H1 & H2 & H3 & H4 & H5 & H6 & H7 & H8). eauto. Qed.
Lemma scale_cancel c u v : c <> 0 -> vscale c u = vscale c v -> u = v.
Proof.
  intros Hc H. assert (X : vscale (/ c) (vscale c u) = vscale (/ c) (vscale c v)) by (rewrite H; reflexivity).
  rewrite !scale_scale, Rinv_l in X by exact Hc. rewrite !scale_one in X. exact X.
Qed.
Lemma mean_turned mirror get f vs m m' : turned_kind mirror get f -> vs <> [] -> mean_is vs m -> mean_is (map f vs) m' -> m' = f m.
Proof.
  intros (_ & K2 & K3 & _) Hv Hm Hm'. unfold mean_is in *. rewrite map_length, K3, <- Hm, K2 in Hm'. apply (scale_cancel (INR (length vs))); [|exact Hm'].
  apply not_0_INR. destruct vs; [congruence | discriminate].
Qed.
Lemma rms_turned mirror get f vs r r' : turned_kind mirror get f -> vs <> [] -> rms_is vs r -> rms_is (map f vs) r' -> r' = r.
Proof.
  intros (_ & _ & _ & K4) Hv Hr Hr'.
  assert (X : forall co : vec -> R, In co [vx; vy; vz] -> co r' = co r).
  { intros co Hco. destruct (Hr co Hco) as [P1 E1]. destruct (Hr' co Hco) as [P2 E2]. rewrite map_length, map_map in E2.
    assert (ES : map (fun v => co (f v) ^ 2) vs = map (fun v => co v ^ 2) vs) by (apply map_ext; intros v; apply K4; exact Hco).
    rewrite ES, <- E1 in E2. assert (HN : INR (length vs) <> 0) by (apply not_0_INR; destruct vs; [congruence | discriminate]).
    apply Rmult_eq_reg_l in E2; [|exact HN]. rewrite <- (sqrt_pow2 _ P2), <- (sqrt_pow2 _ P1), E2. reflexivity. }
  apply vec_ext; apply X; cbn; auto.
Qed.
Lemma window_turned mirror m t pr s s' first0 N first get f i vs vs' : turned_kind mirror get f -> run_image mirror m t pr first0 N s s' -> (first0 <= Z.of_nat first)%Z ->
  window s first N i get vs -> window s' first N (partner pr i) get vs' -> vs' = map f vs.
Proof.
  intros (K1 & _) HR Hf W W'. unfold window in *. apply nth_error_ext. intros j. rewrite nth_error_map.
  assert (LL : length vs' = length vs) by (rewrite <- (Forall2_length _ _ _ W'), <- (Forall2_length _ _ _ W); reflexivity).
  destruct (nth_error vs j) as [v|] eqn:Ev; [|cbn; apply nth_error_None; apply nth_error_None in Ev; lia]. cbn [option_map].
  destruct (Forall2_nth _ _ _ W _ _ Ev) as (k & Hk & sp & a & Hsp & Ha & Hg).
  destruct (Forall2_nth_l _ _ _ W' _ _ Hk) as (v' & Hv' & sp' & a' & Hsp' & Ha' & Hg').
  assert (Hin : In k (seq first (N - first))) by (exact (nth_error_In _ _ Hk)). apply in_seq in Hin.
  destruct (ri_loads _ _ _ _ _ _ _ _ HR k sp sp' ltac:(lia) ltac:(lia) Hsp Hsp') as [_ (_ & _ & HT)].
  destruct (HT i a Ha) as (b & Hb & HI). assert (b = a') by congruence. subst b. destruct (K1 a a' HI) as (w & E1 & E2). congruence.
Qed.
Lemma run_image_steps mirror m t pr first n s s' u u' : up_steady_problems (us_problem u) = up_steady_problems (us_problem s) -> up_steady_problems (us_problem u') = up_steady_problems (us_problem s') ->
  us_current u = us_current s -> us_current u' = us_current s' -> run_image mirror m t pr first n s s' -> run_image mirror m t pr first n u u'.
Proof.
  intros E E' C C' [R1 R2 R3 R4]. constructor.
  - intros k sp sp'. unfold step_at. rewrite E, E'. apply R1.
  - intros k sp sp'. unfold step_at. rewrite E, E'. apply R2.
  - intros k sp sp'. unfold step_at. rewrite E, E'. apply R3.
  - intros x v. unfold unsteady_solution_velocity. rewrite C, C'. apply R4.
Qed.
Section Finished.
Context (solve : list (list R) -> list R -> result (list R)) (HS : SolveSpec solve) (prescribed lines mirror : bool) (m : mat) (t : vec) (HI : isometric mirror m) (pr : pairing)
  (up up' : unsteady_problem) (HC : created up) (HC' : created up') (HP : problem_image mirror m t pr up up') (Hdt : up_delta_time up <> 0) (Hper : up_max_period up' = up_max_period up)
  (Hwin : (up_first_averaging_step up < up_num_steps up)%Z).
Lemma image_finishes s : finished solve prescribed lines up s -> exists s', finished solve prescribed lines up' s' /\ run_image mirror m t pr (up_first_results_step up) (length (up_steady_problems up)) s s'.
Proof.
  intros HF. destruct (finished_meshed _ _ _ up s HC HF) as [F HM]. destruct (finished_inv _ _ _ _ _ F HF HM) as (sf & _ & _ & _ & A & _ & _ & ES & _ & _ & _ & EC & _).
  destruct (image_run mirror m t pr up up' solve prescribed _ sf HS HI HC HC' Hdt HP A) as (sf' & A' & HR).
  pose proof (Forall2_length _ _ _ (pi_steps _ _ _ _ _ _ HP)) as LL. destruct (created_some up' HC') as [F' HM']; [rewrite <- LL; exact (mp_some _ _ HM)|].
  rewrite LL in A'. destruct (after_finishes solve HS prescribed lines F' up' sf' HM' HC' A') as [s' HF']. exists s'. split; [exact HF'|].
  destruct (finished_inv _ _ _ _ _ F' HF' HM') as (sg & _ & _ & _ & A2 & _ & _ & ES' & _ & _ & _ & EC' & _). rewrite (after_unique _ _ _ _ _ _ A2 A') in *.
  exact (run_image_steps _ _ _ _ _ _ _ _ _ _ ES ES' EC EC' HR).
Qed.
Lemma windows : up_first_averaging_step up' = up_first_averaging_step up /\ length (up_steady_problems up') = length (up_steady_problems up).
Proof.
  pose proof (Forall2_length _ _ _ (pi_steps _ _ _ _ _ _ HP)) as LL. split; [|symmetry; exact LL].
  destruct (created_fields _ HC) as (_ & _ & _ & E & _). destruct (created_fields _ HC') as (_ & _ & _ & E' & _). rewrite E, E', Hper, (pi_time _ _ _ _ _ _ HP).
  f_equal. destruct HC as (ams & om & ns & cy & ch & d & mv & only & Em & Eup). destruct (movement_lengths _ _ _ _ _ _ _ Em) as (Hn & _). destruct (unsteady_built _ _ _ Eup) as (_ & U1 & _ & _ & _ & _ & _ & _ & _ & _ & U2 & _).
  destruct HC' as (ams' & om' & ns' & cy' & ch' & d' & mv' & only' & Em' & Eup'). destruct (movement_lengths _ _ _ _ _ _ _ Em') as (Hn' & _). destruct (unsteady_built _ _ _ Eup') as (_ & U1' & _ & _ & _ & _ & _ & _ & _ & _ & U2' & _).
  rewrite U1, U1'. lia.
Qed.
Lemma final_kind s s' get fl f : finished solve prescribed lines up s -> finished solve prescribed lines up' s' -> run_image mirror m t pr (up_first_results_step up) (length (up_steady_problems up)) s s' ->
  In (get, fl) load_lists -> turned_kind mirror get f ->
  pairs (partner pr) (fun _ v v' => v' = f v) (fl (up_final (us_problem s))) (fl (up_final (us_problem s'))) /\
  pairs (partner pr) (fun _ v v' => v' = f v) (fl (up_final_mean (us_problem s))) (fl (up_final_mean (us_problem s'))) /\
  pairs (partner pr) (fun _ v v' => v' = v) (fl (up_final_rms (us_problem s))) (fl (up_final_rms (us_problem s'))).
Proof.
  intros HF HF' HR Hin HK. destruct windows as [EA EL]. destruct (finished_meshed _ _ _ up s HC HF) as [F HM]. pose proof (mp_some _ _ HM) as HN0. pose proof (mp_size _ _ HM) as HN.
  destruct (created_fields _ HC) as (_ & _ & _ & EAv & ERes & _).
  destruct (Req_dec (up_max_period up) 0) as [Hz|Hz].
  - destruct (final_loads_static solve HS prescribed lines up s HC HF Hz get fl Hin) as (sp & Hsp & F1 & -> & ->).
    destruct (final_loads_static solve HS prescribed lines up' s' HC' HF' ltac:(rewrite Hper; exact Hz) get fl Hin) as (sp' & Hsp' & F2 & -> & ->). rewrite EL in Hsp'.
    split; [|split; (split; [reflexivity|]; split; [cbn [length]; lia | intros [|k] x Hx; discriminate])].
    assert (EF : (up_first_results_step up <= Z.of_nat (length (up_steady_problems up) - 1))%Z).
    { rewrite ERes. destruct (up_only_final_results up); [|lia]. lia. }
    destruct (ri_loads _ _ _ _ _ _ _ _ HR (length (up_steady_problems up) - 1)%nat sp sp' ltac:(lia) EF Hsp Hsp') as [_ (L & Inj & HT)].
    split; [rewrite <- (Forall2_length _ _ _ F1), <- (Forall2_length _ _ _ F2); exact L|]. split; [rewrite <- (Forall2_length _ _ _ F1); exact Inj|].
    intros k v Hv. destruct (Forall2_nth _ _ _ F1 _ _ Hv) as (a & Ha & Hg). destruct (HT k a Ha) as (a' & Ha' & HTI). destruct (Forall2_nth_l _ _ _ F2 _ _ Ha') as (v' & Hv' & Hg').
    exists v'. split; [exact Hv'|]. destruct (proj1 HK a a' HTI) as (w & E1 & E2). congruence.
  - destruct (final_loads_periodic solve HS prescribed lines up s HC HF Hz get fl Hin) as (-> & LN & HV).
    destruct (final_loads_periodic solve HS prescribed lines up' s' HC' HF' ltac:(rewrite Hper; exact Hz) get fl Hin) as (-> & LN' & HV'). rewrite EA, EL in HV'.
    split; [split; [reflexivity|]; split; [cbn [length]; lia | intros [|k] x Hx; discriminate]|].
    assert (X : exists sp, step_at s 0 sp). { apply nth_in_range. destruct (finished_inv _ _ _ _ _ F HF HM) as (sf & _ & _ & _ & A & _ & _ & ES & _). rewrite ES, <- (Forall2_length _ _ _ (L_UnsteadyStill.steps_kept _ HS _ _ _ _ HC (or_introl A))). exact HN0. }
    destruct X as [sp Hsp]. assert (X : exists sp', step_at s' 0 sp').
    { destruct (finished_meshed _ _ _ up' s' HC' HF') as [F' HM']. apply nth_in_range. destruct (finished_inv _ _ _ _ _ F' HF' HM') as (sf & _ & _ & _ & A & _ & _ & ES & _).
      rewrite ES, <- (Forall2_length _ _ _ (L_UnsteadyStill.steps_kept _ HS _ _ _ _ HC' (or_introl A))). exact (mp_some _ _ HM'). }
    destruct X as [sp' Hsp']. destruct (LN 0%nat sp Hsp) as [LM LR]. destruct (LN' 0%nat sp' Hsp') as [LM' LR'].
    destruct (ri_strengths _ _ _ _ _ _ _ _ HR 0%nat sp sp' HN0 Hsp Hsp') as (LA & Inj & HA).
    assert (Hf0 : (0 <= up_first_averaging_step up)%Z). { rewrite EAv. unfold first_averaging_step. assert (ER : Reqb (up_max_period up) 0 = false) by (apply Reqb_false; exact Hz). rewrite ER. lia. }
    assert (Hres : (up_first_results_step up <= Z.of_nat (Z.to_nat (up_first_averaging_step up)))%Z) by (rewrite ERes; destruct (up_only_final_results up); lia).
    assert (Both : forall i mm rr, nth_error (fl (up_final_mean (us_problem s))) i = Some mm -> nth_error (fl (up_final_rms (us_problem s))) i = Some rr ->
      exists mm' rr', nth_error (fl (up_final_mean (us_problem s'))) (partner pr i) = Some mm' /\ nth_error (fl (up_final_rms (us_problem s'))) (partner pr i) = Some rr' /\ mm' = f mm /\ rr' = rr).
    { intros i mm rr Hm Hr. destruct (HV i mm rr Hm Hr) as (vs & W & M & RR & _).
      assert (Hi : (i < length (sp_airplanes sp))%nat) by (rewrite <- LM; apply nth_error_Some; congruence). destruct (nth_in_range _ _ Hi) as [a Ha]. destruct (HA i a Ha) as (a' & Ha' & _).
      assert (Hi' : (partner pr i < length (sp_airplanes sp'))%nat) by (apply nth_error_Some; congruence).
      destruct (nth_in_range (fl (up_final_mean (us_problem s'))) (partner pr i) ltac:(lia)) as [mm' Hm']. destruct (nth_in_range (fl (up_final_rms (us_problem s'))) (partner pr i) ltac:(lia)) as [rr' Hr'].
      destruct (HV' _ _ _ Hm' Hr') as (vs' & W' & M' & RR' & _). exists mm', rr'. split; [exact Hm'|]. split; [exact Hr'|].
      assert (EV := window_turned _ _ _ _ _ _ _ _ _ _ _ _ _ _ HK HR Hres W W'). subst vs'.
      assert (NE : vs <> []). { intros ->. apply Forall2_length in W. rewrite seq_length in W. cbn [length] in W. lia. }
      split; [exact (mean_turned _ _ _ _ _ _ HK NE M M') | exact (rms_turned _ _ _ _ _ _ HK NE RR RR')]. }
    split.
    + split; [lia|]. split; [rewrite LM; exact Inj|]. intros i mm Hm. assert (Hi : (i < length (fl (up_final_rms (us_problem s))))%nat) by (rewrite LR, <- LM; apply nth_error_Some; congruence).
      destruct (nth_in_range _ _ Hi) as [rr Hr]. destruct (Both i mm rr Hm Hr) as (mm' & rr' & H1 & H2 & H3 & H4). eauto.
    + split; [lia|]. split; [rewrite LR; exact Inj|]. intros i rr Hr. assert (Hi : (i < length (fl (up_final_mean (us_problem s))))%nat) by (rewrite LM, <- LR; apply nth_error_Some; congruence).
      destruct (nth_in_range _ _ Hi) as [mm Hm]. destruct (Both i mm rr Hm Hr) as (mm' & rr' & H1 & H2 & H3 & H4). eauto.
Qed.
Lemma image_finished s : finished solve prescribed lines up s -> exists s', finished solve prescribed lines up' s' /\
  run_image mirror m t pr (up_first_results_step up) (length (up_steady_problems up)) s s' /\
  final_image pr (wind_image mirror) (wind_image_moment mirror) (up_final (us_problem s)) (up_final (us_problem s')) /\
  final_image pr (wind_image mirror) (wind_image_moment mirror) (up_final_mean (us_problem s)) (up_final_mean (us_problem s')) /\
  final_image pr (fun v => v) (fun v => v) (up_final_rms (us_problem s)) (up_final_rms (us_problem s')).
Proof.
  intros HF. destruct (image_finishes s HF) as (s' & HF' & HR). exists s'. split; [exact HF'|]. split; [exact HR|].
  destruct (final_kind s s' a_force_wind fl_forces _ HF HF' HR ltac:(cbn; auto) (kind_force mirror)) as (A1 & A2 & A3).
  destruct (final_kind s s' a_force_coefficients fl_force_coefficients _ HF HF' HR ltac:(cbn; auto) (kind_force_coefficients mirror)) as (B1 & B2 & B3).
  destruct (final_kind s s' a_moment_wind fl_moments _ HF HF' HR ltac:(cbn; auto) (kind_moment mirror)) as (C1 & C2 & C3).
  destruct (final_kind s s' a_moment_coefficients fl_moment_coefficients _ HF HF' HR ltac:(cbn; auto) (kind_moment_coefficients mirror)) as (D1 & D2 & D3).
  unfold final_image. auto 20.
Qed.
End Finished.
