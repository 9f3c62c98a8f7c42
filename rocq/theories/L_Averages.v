(** What final averages tell about the time steps they are taken over. *)
From Coq Require Import List ZArith Lia Lra Reals Bool.
From Verif Require Import M_Unsteady S_Solve S_UnsteadyRun S_Averages L_Base L_Loads L_Movement L_Wake L_UnsteadyRun L_UnsteadyFinal L_UnsteadyLoads L_UnsteadyStill.
Import ListNotations.
Local Open Scope R_scope.
Local Open Scope list_scope.

(** ** Lists of numbers *)
Lemma least_below (xs : list R) : xs <> [] -> exists x, In x xs /\ (forall y, In y xs -> x <= y).
Proof.
  induction xs as [|x xs IH]; [congruence|]. intros _. destruct xs as [|x' xs]; [exists x; split; [left; reflexivity | intros y [<-|[]]; lra]|].
  destruct IH as (z & Hz & HL); [discriminate|]. destruct (Rle_dec x z) as [H|H].
  - exists x. split; [left; reflexivity|]. intros y [<-|Hy]; [lra | specialize (HL y Hy); lra].
  - exists z. split; [right; exact Hz|]. intros y [<-|Hy]; [lra | exact (HL y Hy)].
Qed.
Lemma sum_above c xs : (forall y, In y xs -> c <= y) -> INR (length xs) * c <= rsum xs.
Proof.
  induction xs as [|x xs IH]; intros H; [cbn; unfold rsum; cbn; lra|]. rewrite rsum_cons. cbn [length]. rewrite S_INR.
  specialize (IH (fun y Hy => H y (or_intror Hy))). specialize (H x (or_introl eq_refl)). lra.
Qed.
Lemma sum_opp xs : rsum (map Ropp xs) = - rsum xs.
Proof. induction xs as [|x xs IH]; [unfold rsum; cbn; lra|]. cbn [map]. rewrite !rsum_cons, IH. ring. Qed.
Lemma length_pos {A} (xs : list A) : xs <> [] -> 0 < INR (length xs).
Proof. intros H. apply lt_0_INR. destruct xs; [congruence | cbn; lia]. Qed.
Lemma mean_above xs m : xs <> [] -> INR (length xs) * m = rsum xs -> exists x, In x xs /\ x <= m.
Proof.
  intros NE E. destruct (least_below xs NE) as (x & Hx & HL). exists x. split; [exact Hx|]. pose proof (sum_above x xs HL) as H. pose proof (length_pos xs NE). rewrite <- E in H.
  apply Rmult_le_reg_l in H; assumption.
Qed.
Lemma mean_below xs m : xs <> [] -> INR (length xs) * m = rsum xs -> exists x, In x xs /\ m <= x.
Proof.
  intros NE E. destruct (mean_above (map Ropp xs) (- m)) as (y & Hy & H).
  - destruct xs; [congruence | discriminate].
  - rewrite map_length, sum_opp, <- E. ring.
  - apply in_map_iff in Hy. destruct Hy as (x & <- & Hx). exists x. split; [exact Hx | lra].
Qed.
Lemma spread xs m r : INR (length xs) * m = rsum xs -> INR (length xs) * r ^ 2 = rsum (map (fun x => x ^ 2) xs) ->
  rsum (map (fun x => (x - m) ^ 2) xs) = INR (length xs) * (r ^ 2 - m ^ 2).
Proof.
  intros E1 E2. assert (G : forall l, rsum (map (fun x => (x - m) ^ 2) l) = rsum (map (fun x => x ^ 2) l) - 2 * m * rsum l + INR (length l) * m ^ 2).
  { induction l as [|x l IH]; [unfold rsum; cbn; ring|]. cbn [map length]. rewrite !rsum_cons, IH, S_INR. ring. }
  rewrite G, <- E1, <- E2. ring.
Qed.
Lemma no_squares (f : R -> R) xs : rsum (map (fun x => f x ^ 2) xs) = 0 -> forall x, In x xs -> f x = 0.
Proof.
  assert (P : forall l, 0 <= rsum (map (fun x => f x ^ 2) l)). { induction l as [|x l IH]; [unfold rsum; cbn; lra|]. cbn [map]. rewrite rsum_cons. pose proof (pow2_ge_0 (f x)). lra. }
  induction xs as [|x xs IH]; intros E y Hy; [destruct Hy|]. cbn [map] in E. rewrite rsum_cons in E. specialize (P xs). pose proof (pow2_ge_0 (f x)). destruct Hy as [<-|Hy]; [|apply IH; [lra | exact Hy]].
  assert (f x ^ 2 = 0) by lra. destruct (Req_dec (f x) 0) as [Z|Z]; [exact Z|]. exfalso. apply (pow_nonzero _ 2) in Z. contradiction.
Qed.
Lemma abs_of_square x y : 0 <= y -> x ^ 2 <= y ^ 2 -> Rabs x <= y.
Proof. intros Hy H. rewrite <- (Rabs_pos_eq y Hy). apply Rsqr_le_abs_0. unfold Rsqr. lra. Qed.
Lemma square_of_abs x y : 0 <= y -> y ^ 2 <= x ^ 2 -> y <= Rabs x.
Proof. intros Hy H. rewrite <- (Rabs_pos_eq y Hy). apply Rsqr_le_abs_0. unfold Rsqr. lra. Qed.
Lemma averages xs m r : xs <> [] -> INR (length xs) * m = rsum xs -> 0 <= r -> INR (length xs) * r ^ 2 = rsum (map (fun x => x ^ 2) xs) ->
  (exists x, In x xs /\ x <= m) /\ (exists x, In x xs /\ m <= x) /\ (exists x, In x xs /\ Rabs x <= r) /\ (exists x, In x xs /\ r <= Rabs x) /\ Rabs m <= r /\
  (r = Rabs m <-> forall x, In x xs -> x = m).
Proof.
  intros NE E1 Hr E2. pose proof (length_pos xs NE) as HN. assert (NE2 : map (fun x => x ^ 2) xs <> []) by (destruct xs; [congruence | discriminate]).
  assert (E3 : INR (length (map (fun x => x ^ 2) xs)) * r ^ 2 = rsum (map (fun x => x ^ 2) xs)) by (rewrite map_length; exact E2).
  split; [exact (mean_above _ _ NE E1)|]. split; [exact (mean_below _ _ NE E1)|].
  split. { destruct (mean_above _ _ NE2 E3) as (y & Hy & H). apply in_map_iff in Hy. destruct Hy as (x & <- & Hx). exists x. split; [exact Hx|]. apply abs_of_square; assumption. }
  split. { destruct (mean_below _ _ NE2 E3) as (y & Hy & H). apply in_map_iff in Hy. destruct Hy as (x & <- & Hx). exists x. split; [exact Hx|]. apply square_of_abs; assumption. }
  pose proof (spread xs m r E1 E2) as V. assert (HV : 0 <= rsum (map (fun x => (x - m) ^ 2) xs)).
  { clear. induction xs as [|x xs IH]; [unfold rsum; cbn; lra|]. cbn [map]. rewrite rsum_cons. pose proof (pow2_ge_0 (x - m)). lra. }
  assert (HM : Rabs m <= r). { apply abs_of_square; [exact Hr|]. rewrite V in HV. assert (0 <= r ^ 2 - m ^ 2); [|lra]. apply (Rmult_le_reg_l (INR (length xs))); lra. }
  split; [exact HM|]. split.
  - intros -> x Hx. rewrite pow2_abs in V. replace (m ^ 2 - m ^ 2) with 0 in V by ring. rewrite Rmult_0_r in V. pose proof (no_squares (fun x => x - m) xs V x Hx) as X. cbn in X. lra.
  - intros HX. apply Rle_antisym; [|exact HM]. apply square_of_abs; [exact Hr|]. assert (Z : rsum (map (fun x => (x - m) ^ 2) xs) = 0).
    { clear -HX. induction xs as [|x xs IH]; [reflexivity|]. cbn [map]. rewrite rsum_cons, IH, (HX x (or_introl eq_refl)) by (intros y Hy; apply HX; right; exact Hy). ring. }
    rewrite Z in V. symmetry in V. apply Rmult_integral in V. destruct V; lra.
Qed.
Lemma sum_component (co : vec -> R) vs : In co [vx; vy; vz] -> co (vsum vs) = rsum (map co vs).
Proof.
  intros H. induction vs as [|v vs IH]; [destruct H as [<-|[<-|[<-|[]]]]; reflexivity|]. cbn [map]. rewrite vsum_cons, rsum_cons, <- IH.
  destruct H as [<-|[<-|[<-|[]]]]; reflexivity.
Qed.
Lemma mean_component (co : vec -> R) vs m : In co [vx; vy; vz] -> mean_is vs m -> INR (length (map co vs)) * co m = rsum (map co vs).
Proof.
  intros H E. rewrite map_length, <- (sum_component _ _ H), <- E. destruct H as [<-|[<-|[<-|[]]]]; reflexivity.
Qed.

(** ** Finished runs *)
Section Averages.
Context (solve : list (list R) -> list R -> result (list R)) (HS : SolveSpec solve) (prescribed lines : bool) (up : unsteady_problem) (s : unsteady_solver)
  (HC : created up) (HF : finished solve prescribed lines up s) (Hp : up_max_period up <> 0) (Hwin : (up_first_averaging_step up < up_num_steps up)%Z).
Lemma averaging_starts : (0 <= up_first_averaging_step up)%Z.
Proof.
  destruct (created_fields _ HC) as (_ & _ & _ & EAv & _). rewrite EAv. unfold first_averaging_step. assert (ER : Reqb (up_max_period up) 0 = false) by (apply Reqb_false; exact Hp). rewrite ER. lia.
Qed.
Lemma last_step : up_num_steps up = Z.of_nat (length (up_steady_problems up)) /\ length (up_steady_problems (us_problem s)) = length (up_steady_problems up).
Proof.
  destruct (finished_meshed _ _ _ up s HC HF) as [F HM]. split; [symmetry; exact (mp_size _ _ HM)|].
  destruct (finished_inv _ _ _ _ _ F HF HM) as (sf & _ & _ & _ & A & _ & _ & ES & _). rewrite ES. symmetry. exact (Forall2_length _ _ _ (steps_kept _ HS _ _ _ _ HC (or_introl A))).
Qed.
Lemma window_nonempty i get vs : window s (Z.to_nat (up_first_averaging_step up)) (length (up_steady_problems up)) i get vs -> vs <> [].
Proof. intros W ->. apply Forall2_length in W. rewrite seq_length in W. cbn [length] in W. pose proof averaging_starts. destruct last_step as [E _]. lia. Qed.
Lemma window_averaged i get vs v : window s (Z.to_nat (up_first_averaging_step up)) (length (up_steady_problems up)) i get vs ->
  (In v vs <-> exists k, averaged up s i get k v).
Proof.
  intros W. pose proof averaging_starts as H0. destruct last_step as [E1 E2]. split.
  - intros Hv. apply In_nth_error in Hv. destruct Hv as [j Hj]. destruct (Forall2_nth _ _ _ W _ _ Hj) as (k & Hk & sp & a & H). exists k. split; [|eauto].
    apply nth_error_In in Hk. apply in_seq in Hk. lia.
  - intros (k & Hk & sp & a & Hsp & Ha & Hg). assert (Hk2 : (k < length (up_steady_problems up))%nat) by (rewrite <- E2; apply nth_error_Some; unfold step_at in Hsp; congruence).
    assert (Hin : In k (seq (Z.to_nat (up_first_averaging_step up)) (length (up_steady_problems up) - Z.to_nat (up_first_averaging_step up)))) by (apply in_seq; lia).
    apply In_nth_error in Hin. destruct Hin as [j Hj]. destruct (Forall2_nth_l _ _ _ W _ _ Hj) as (v' & Hv' & sp' & a' & Hsp' & Ha' & Hg'). apply nth_error_In in Hv'.
    assert (sp' = sp) by (unfold step_at in *; congruence). subst sp'. assert (a' = a) by congruence. subst a'. congruence.
Qed.
Lemma averages_range load final : In (load, final) load_lists -> forall co i m r, In co [vx; vy; vz] ->
  nth_error (final (up_final_mean (us_problem s))) i = Some m -> nth_error (final (up_final_rms (us_problem s))) i = Some r ->
  (exists k v, averaged up s i load k v /\ co v <= co m) /\ (exists k v, averaged up s i load k v /\ co m <= co v) /\
  (exists k v, averaged up s i load k v /\ Rabs (co v) <= co r) /\ (exists k v, averaged up s i load k v /\ co r <= Rabs (co v)) /\
  Rabs (co m) <= co r /\ (co r = Rabs (co m) <-> forall k v, averaged up s i load k v -> co v = co m).
Proof.
  intros Hin co i m r Hco Hm Hr. destruct (final_loads_periodic solve HS prescribed lines up s HC HF Hp load final Hin) as (_ & _ & HV). destruct (HV i m r Hm Hr) as (vs & W & M & RM & _).
  pose proof (window_nonempty _ _ _ W) as NE. destruct (RM co Hco) as [P E]. assert (NE' : map co vs <> []) by (destruct vs; [congruence | discriminate]).
  assert (E' : INR (length (map co vs)) * co r ^ 2 = rsum (map (fun x => x ^ 2) (map co vs))) by (rewrite map_length, map_map; exact E).
  destruct (averages _ _ _ NE' (mean_component _ _ _ Hco M) P E') as (A1 & A2 & A3 & A4 & A5 & A6).
  assert (T : forall Q : R -> Prop, (exists x, In x (map co vs) /\ Q x) -> exists k v, averaged up s i load k v /\ Q (co v)).
  { intros Q (x & Hx & HQ). apply in_map_iff in Hx. destruct Hx as (v & <- & Hv). apply (window_averaged _ _ _ v W) in Hv. destruct Hv as [k Hk]. eauto. }
  split; [exact (T (fun x => x <= co m) A1)|]. split; [exact (T (fun x => co m <= x) A2)|]. split; [exact (T (fun x => Rabs x <= co r) A3)|]. split; [exact (T (fun x => co r <= Rabs x) A4)|]. split; [exact A5|].
  rewrite A6. split.
  - intros H k v Hv. apply H. apply in_map. apply (window_averaged _ _ _ v W). eauto.
  - intros H x Hx. apply in_map_iff in Hx. destruct Hx as (v & <- & Hv). apply (window_averaged _ _ _ v W) in Hv. destruct Hv as [k Hk]. exact (H k v Hk).
Qed.
Lemma averages_scale load final load' final' : In (load, final) load_lists -> In (load', final') load_lists -> forall co i m r m' r' c, In co [vx; vy; vz] ->
  nth_error (final (up_final_mean (us_problem s))) i = Some m -> nth_error (final (up_final_rms (us_problem s))) i = Some r ->
  nth_error (final' (up_final_mean (us_problem s))) i = Some m' -> nth_error (final' (up_final_rms (us_problem s))) i = Some r' ->
  (forall k sp a v v', (up_first_averaging_step up <= Z.of_nat k)%Z -> step_at s k sp -> nth_error (sp_airplanes sp) i = Some a -> load a = Some v -> load' a = Some v' -> co v' * c = co v) ->
  co m' * c = co m /\ co r' * Rabs c = co r.
Proof.
  intros Hin Hin' co i m r m' r' c Hco Hm Hr Hm' Hr' HK.
  destruct (final_loads_periodic solve HS prescribed lines up s HC HF Hp load final Hin) as (_ & _ & HV). destruct (HV i m r Hm Hr) as (vs & W & M & RM & _).
  destruct (final_loads_periodic solve HS prescribed lines up s HC HF Hp load' final' Hin') as (_ & _ & HV'). destruct (HV' i m' r' Hm' Hr') as (vs' & W' & M' & RM' & _).
  pose proof (window_nonempty _ _ _ W) as NE. pose proof (length_pos _ NE) as HN. pose proof averaging_starts as H0.
  assert (E : map co vs = map (fun v => c * co v) vs').
  { apply L_Base.nth_error_ext. intros j. rewrite !nth_error_map. pose proof (Forall2_length _ _ _ W) as L1. pose proof (Forall2_length _ _ _ W') as L2.
    destruct (nth_error vs j) as [v|] eqn:Ev; [|apply nth_error_None in Ev; assert (X : nth_error vs' j = None) by (apply nth_error_None; lia); rewrite X; reflexivity].
    destruct (Forall2_nth _ _ _ W _ _ Ev) as (k & Hk & sp & a & Hsp & Ha & Hg). destruct (Forall2_nth_l _ _ _ W' _ _ Hk) as (v' & Hv' & sp' & a' & Hsp' & Ha' & Hg').
    assert (sp' = sp) by (unfold step_at in *; congruence). subst sp'. assert (a' = a) by congruence. subst a'. rewrite Hv'. cbn [option_map]. f_equal. rewrite Rmult_comm. symmetry. apply (HK k sp a); try assumption.
    apply nth_error_In in Hk. apply in_seq in Hk. lia. }
  assert (LL : length vs' = length vs) by (apply (f_equal (@length R)) in E; rewrite !map_length in E; symmetry; exact E).
  pose proof (mean_component _ _ _ Hco M) as E1. pose proof (mean_component _ _ _ Hco M') as E2. rewrite map_length in E1, E2. rewrite LL in E2. rewrite E, (rsum_map_scale c co vs'), <- E2 in E1.
  destruct (RM co Hco) as [P1 Q1]. destruct (RM' co Hco) as [P2 Q2]. rewrite LL in Q2.
  assert (ES : rsum (map (fun v => co v ^ 2) vs) = c ^ 2 * rsum (map (fun v => co v ^ 2) vs')).
  { rewrite <- rsum_map_scale. rewrite <- (map_map co (fun x => x ^ 2) vs), E, map_map. f_equal. apply map_ext. intros v. ring. }
  rewrite ES, <- Q2 in Q1. split.
  - apply (Rmult_eq_reg_l (INR (length vs))); lra.
  - assert (X : (co r' * Rabs c) ^ 2 = co r ^ 2). { rewrite Rpow_mult_distr, pow2_abs. apply (Rmult_eq_reg_l (INR (length vs))); lra. }
    rewrite <- (sqrt_pow2 (co r)), <- X by exact P1. symmetry. apply sqrt_pow2. apply Rmult_le_pos; [exact P2 | apply Rabs_pos].
Qed.
Lemma averages_force_coefficients i q S b c m r m' r' : same_scales up s i q S b c -> q <> 0 -> S <> 0 ->
  nth_error (fl_forces (up_final_mean (us_problem s))) i = Some m -> nth_error (fl_forces (up_final_rms (us_problem s))) i = Some r ->
  nth_error (fl_force_coefficients (up_final_mean (us_problem s))) i = Some m' -> nth_error (fl_force_coefficients (up_final_rms (us_problem s))) i = Some r' ->
  (vx m' * (q * S) = - vx m /\ vy m' * (q * S) = vy m /\ vz m' * (q * S) = - vz m) /\
  forall co, In co [vx; vy; vz] -> co r' * Rabs (q * S) = co r.
Proof.
  intros HSc Hq HS0 Hm Hr Hm' Hr'.
  assert (G : forall co c0, In (co, c0) [(vx, - (q * S)); (vy, q * S); (vz, - (q * S))] -> co m' * c0 = co m /\ co r' * Rabs c0 = co r).
  { intros co c0 Hco. apply (averages_scale a_force_wind fl_forces a_force_coefficients fl_force_coefficients) with (i := i); try assumption; try (cbn; tauto).
    - destruct Hco as [[= <- <-]|[[= <- <-]|[[= <- <-]|[]]]]; cbn; auto.
    - intros k sp a v v' Hk Hsp Ha Hv Hv'. destruct (HSc k sp a Hk Hsp Ha) as (Eq & ES & _). destruct last_step as [_ E2].
      assert (Hk2 : (k < length (up_steady_problems up))%nat) by (rewrite <- E2; apply nth_error_Some; unfold step_at in Hsp; congruence).
      destruct (created_fields _ HC) as (_ & _ & _ & _ & ERes & _).
      assert (HR : (up_first_results_step up <= Z.of_nat k)%Z) by (rewrite ERes; destruct (up_only_final_results up); lia).
      destruct (unsteady_totals solve HS prescribed up _ s k sp a HC (or_intror (conj (ex_intro _ lines HF) eq_refl)) Hk2 HR Hsp (nth_error_In _ _ Ha)) as (fs & ms & fw & mw & cf & cm & _ & _ & F1 & _ & F2 & _ & _ & _ & X & _).
      cbn zeta in X. rewrite Eq, ES in X. destruct (X Hq HS0) as (X1 & X2 & X3). assert (v = fw) by congruence. assert (v' = cf) by congruence. subst v v'.
      destruct Hco as [[= <- <-]|[[= <- <-]|[[= <- <-]|[]]]]; lra. }
  destruct (G vx _ (or_introl eq_refl)) as [G1 R1]. destruct (G vy _ (or_intror (or_introl eq_refl))) as [G2 R2]. destruct (G vz _ (or_intror (or_intror (or_introl eq_refl)))) as [G3 R3]. rewrite Rabs_Ropp in R1, R3.
  split; [repeat split; lra|]. intros co [<-|[<-|[<-|[]]]]; assumption.
Qed.
Lemma averages_moment_coefficients i q S b c m r m' r' : same_scales up s i q S b c -> q <> 0 -> S <> 0 -> b <> 0 -> c <> 0 ->
  nth_error (fl_moments (up_final_mean (us_problem s))) i = Some m -> nth_error (fl_moments (up_final_rms (us_problem s))) i = Some r ->
  nth_error (fl_moment_coefficients (up_final_mean (us_problem s))) i = Some m' -> nth_error (fl_moment_coefficients (up_final_rms (us_problem s))) i = Some r' ->
  forall co l, In (co, l) [(vx, b); (vy, c); (vz, b)] -> co m' * (q * S * l) = co m /\ co r' * Rabs (q * S * l) = co r.
Proof.
  intros HSc Hq HS0 Hb Hc Hm Hr Hm' Hr' co l Hco. apply (averages_scale a_moment_wind fl_moments a_moment_coefficients fl_moment_coefficients) with (i := i); try assumption; try (cbn; tauto).
  - destruct Hco as [[= <- <-]|[[= <- <-]|[[= <- <-]|[]]]]; cbn; auto.
  - intros k sp a v v' Hk Hsp Ha Hv Hv'. destruct (HSc k sp a Hk Hsp Ha) as (Eq & ES & EB & ECh). destruct last_step as [_ E2].
    assert (Hk2 : (k < length (up_steady_problems up))%nat) by (rewrite <- E2; apply nth_error_Some; unfold step_at in Hsp; congruence).
    destruct (created_fields _ HC) as (_ & _ & _ & _ & ERes & _).
    assert (HR : (up_first_results_step up <= Z.of_nat k)%Z) by (rewrite ERes; destruct (up_only_final_results up); lia).
    destruct (unsteady_totals solve HS prescribed up _ s k sp a HC (or_intror (conj (ex_intro _ lines HF) eq_refl)) Hk2 HR Hsp (nth_error_In _ _ Ha)) as (fs & ms & fw & mw & cf & cm & _ & _ & _ & F1 & _ & F2 & _ & _ & _ & X).
    cbn zeta in X. rewrite Eq, ES, EB, ECh in X. destruct (X Hq HS0 Hb Hc) as (X1 & X2 & X3). assert (v = mw) by congruence. assert (v' = cm) by congruence. subst v v'.
    destruct Hco as [[= <- <-]|[[= <- <-]|[[= <- <-]|[]]]]; lra.
Qed.
End Averages.
