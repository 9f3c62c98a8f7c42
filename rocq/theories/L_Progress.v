(** The progress bar of an unsteady run. *)
From Coq Require Import Lra Lia Psatz.
From Verif Require Import M_Progress S_Unsteady S_UnsteadyRun S_Convergence S_Progress S_Solve L_Base L_Loads L_Functions L_Wake L_Unsteady L_UnsteadyRun L_UnsteadyStep L_ImageRun L_Remesh L_Gauss L_Example5.
Local Open Scope R_scope.

Lemma zsum_from l a : fold_left Z.add l a = (a + zsum l)%Z.
Proof. unfold zsum. revert a. induction l as [|x l IH]; intros a; cbn [fold_left]; [lia|]. rewrite IH, (IH (0 + x)%Z). lia. Qed.
Lemma zsum_cons x l : zsum (x :: l) = (x + zsum l)%Z.
Proof. unfold zsum at 1. cbn [fold_left]. rewrite zsum_from. lia. Qed.
Lemma zsum_nil : zsum [] = 0%Z. Proof. reflexivity. Qed.
Lemma zsum_app l m : zsum (l ++ m) = (zsum l + zsum m)%Z.
Proof. induction l as [|x l IH]; [reflexivity|]. cbn [app]. rewrite !zsum_cons, IH. lia. Qed.
Lemma zsum_nonneg l : (forall x, In x l -> 0 <= x)%Z -> (0 <= zsum l)%Z.
Proof. intros H. induction l as [|x l IH]; [rewrite zsum_nil; lia|]. rewrite zsum_cons. pose proof (H x (or_introl eq_refl)). specialize (IH (fun y Hy => H y (or_intror Hy))). lia. Qed.
Lemma zsum_firstn l k : (forall x, In x l -> 0 <= x)%Z -> (0 <= zsum (firstn k l) <= zsum l)%Z.
Proof.
  intros H. rewrite <- (firstn_skipn k l) at 3. rewrite zsum_app.
  assert (0 <= zsum (firstn k l))%Z by (apply zsum_nonneg; intros x Hx; apply H; rewrite <- (firstn_skipn k l); apply in_or_app; left; exact Hx).
  assert (0 <= zsum (skipn k l))%Z by (apply zsum_nonneg; intros x Hx; apply H; rewrite <- (firstn_skipn k l); apply in_or_app; right; exact Hx). lia.
Qed.

Lemma num_panels_sum airplanes : num_panels_of airplanes = list_sum (map a_num_panels airplanes).
Proof.
  unfold num_panels_of. assert (G : forall l k, fold_left (fun n a => n + a_num_panels a)%nat l k = (k + list_sum (map a_num_panels l))%nat).
  { induction l as [|a l IH]; intros k; cbn [fold_left map list_sum fold_right]; [lia|]. rewrite IH. change (fold_right Nat.add 0%nat (map a_num_panels l)) with (list_sum (map a_num_panels l)). lia. }
  rewrite G. reflexivity.
Qed.

(** The costs of all steps. *)
Definition costs (ST : list steady_problem) : list Z := map2 cost (seq 0 (length ST)) ST.
Lemma map2_seq_nth {A B} (f : nat -> A -> B) l : forall i k, nth_error (map2 f (seq i (length l)) l) k = option_map (f (i + k)%nat) (nth_error l k).
Proof.
  induction l as [|x l IH]; intros i k; cbn [length seq map2]; [destruct k; reflexivity|]. destruct k as [|k]; cbn [nth_error option_map]; [rewrite Nat.add_0_r; reflexivity|].
  rewrite IH. replace (S i + k)%nat with (i + S k)%nat by lia. reflexivity.
Qed.
Lemma costs_nth ST k : nth_error (costs ST) k = option_map (cost k) (nth_error ST k).
Proof. unfold costs. rewrite (map2_seq_nth cost ST 0 k). reflexivity. Qed.
Lemma costs_length ST : length (costs ST) = length ST.
Proof. unfold costs. rewrite map2_length, seq_length. lia. Qed.
Lemma costs_nonneg ST x : In x (costs ST) -> (0 <= x)%Z.
Proof. intros H. apply In_nth_error in H. destruct H as (k & H). rewrite costs_nth in H. destruct (nth_error ST k) as [sp|]; [|discriminate]. injection H as <-. unfold cost. apply Z.mul_nonneg_nonneg; [|lia]. destruct k as [|[|[|k]]]; lia. Qed.

Definition counted (ST : list steady_problem) : list nat := map2 (fun k sp => k * total_spanwise (sp_airplanes sp))%nat (seq 0 (length ST)) ST.
Lemma estimate_once up ST T k sp : up_steady_problems up = ST -> nth_error ST k = Some sp -> (1 <= k)%nat -> estimate_step up (counted ST) T k = Ok (set_at k (cost k sp) T).
Proof.
  intros <- Hk H1. unfold estimate_step. rewrite (proj2 (index_Some _ _ _) Hk). cbn [bind]. assert (Hw : nth_error (counted (up_steady_problems up)) k = Some (k * total_spanwise (sp_airplanes sp))%nat).
  { unfold counted. rewrite map2_seq_nth, Hk. reflexivity. }
  rewrite (proj2 (index_Some _ _ _) Hw). cbn [bind]. do 2 f_equal. unfold cost, vortices, step_wings. rewrite num_panels_sum, total_spanwise_flat. rewrite Z.mul_comm. f_equal.
  unfold step_weight. destruct k as [|[|[|k]]]; [lia|reflexivity..].
Qed.
Lemma estimated up ST m : up_steady_problems up = ST -> (m < length ST)%nat ->
  foldM (estimate_step up (counted ST)) (repeat 0%Z (length ST + 1)) (seq 1 m) = Ok (firstn (S m) (costs ST) ++ repeat 0%Z (length ST - m)).
Proof.
  intros HE. induction m as [|m IH]; intros Hm.
  - cbn [seq foldM]. f_equal. destruct ST as [|sp ST]; [cbn in Hm; lia|]. unfold costs. cbn [length seq map2 firstn Nat.sub app Nat.add]. rewrite Nat.add_1_r. reflexivity.
  - rewrite seq_S, foldM_app, IH by lia. cbn [bind foldM]. rewrite Nat.add_comm. cbn [Nat.add].
    destruct (nth_error ST (S m)) as [sp|] eqn:E; [|apply nth_error_None in E; lia]. rewrite Nat.add_1_r || idtac. rewrite (estimate_once up ST _ (S m) sp HE E) by lia. cbn [bind]. f_equal.
    assert (EC : nth_error (costs ST) (S m) = Some (cost (S m) sp)) by (rewrite costs_nth, E; reflexivity).
    assert (L1 : length (firstn (S m) (costs ST)) = S m) by (apply firstn_length_le; rewrite costs_length; lia).
    unfold set_at. rewrite firstn_app, L1, Nat.sub_diag, firstn_O, app_nil_r. rewrite (firstn_all2 (firstn (S m) (costs ST))) by lia.
    rewrite skipn_app, L1. rewrite (skipn_all2 (firstn (S m) (costs ST))) by lia. replace (S (S m) - S m)%nat with 1%nat by lia. cbn [app].
    replace (length ST - m)%nat with (S (length ST - S m)) by lia. cbn [repeat skipn].
    assert (EF : forall (l : list Z) k x, nth_error l k = Some x -> firstn (S k) l = firstn k l ++ [x]).
    { induction l as [|y l IHl]; intros [|k] x Hx; try discriminate; [injection Hx as ->; reflexivity|]. change (firstn (S (S k)) (y :: l)) with (y :: firstn (S k) l). rewrite (IHl k x Hx). reflexivity. }
    rewrite (EF _ _ _ EC). rewrite <- app_assoc. reflexivity.
Qed.

Lemma bar_made level v up F : meshed_problem F up -> convert_logging_level_name_to_value level = Ok v ->
  let C := costs (up_steady_problems up) in
  exists r, nearest (IZR (zsum C) / 100) r /\
    progress_bar level up (counted (up_steady_problems up)) = Ok (mkprogress (zsum (r :: tl C ++ [0%Z])) (v =? 30)%Z (r :: tl C ++ [0%Z])).
Proof.
  intros HM HL C. pose proof (mp_some _ _ HM) as Hn. pose proof (mp_size _ _ HM) as Hs. unfold progress_bar, approx_times. rewrite HL. cbn [bind]. rewrite <- Hs, Nat2Z.id.
  set (ST := up_steady_problems up) in *. rewrite (estimated up ST (length ST - 1)) by (reflexivity || lia). cbn [bind].
  replace (S (length ST - 1)) with (length ST) by lia. replace (length ST - (length ST - 1))%nat with 1%nat by lia. rewrite firstn_all2 by (rewrite costs_length; lia). fold C. cbn [repeat].
  assert (EC : C = 0%Z :: tl C). { unfold C, costs. destruct ST as [|sp l]; [cbn in Hn; lia|]. reflexivity. }
  assert (E0 : zsum (C ++ [0%Z]) = zsum C) by (rewrite zsum_app, zsum_cons, zsum_nil; lia). rewrite E0.
  exists (py_round (IZR (zsum C) / 100)). split; [apply py_round_nearest|]. set (r := py_round _).
  assert (ES : set_at 0 r (C ++ [0%Z]) = r :: tl C ++ [0%Z]) by (rewrite EC; reflexivity). rewrite ES. cbn [index nth_error bind].
  assert (EU : mapM (fun step => index (r :: tl C ++ [0%Z]) (S step)) (seq 0 (length ST)) = Ok (tl C ++ [0%Z])).
  { assert (EL : length (tl C ++ [0%Z]) = length ST). { rewrite app_length. cbn [length]. assert (length C = length ST) by apply costs_length. destruct C; [discriminate EC|]. cbn [tl length] in *. lia. }
    rewrite <- EL. generalize (tl C ++ [0%Z]) as l. clear. intros l.
    assert (G : forall p q : list Z, mapM (fun step => index (p ++ q) step) (seq (length p) (length q)) = Ok q).
    { intros p q. revert p. induction q as [|x q IH]; intros p; [reflexivity|]. cbn [length seq mapM].
      assert (E : nth_error (p ++ x :: q) (length p) = Some x) by (rewrite nth_error_app2, Nat.sub_diag by lia; reflexivity). rewrite (proj2 (index_Some _ _ _) E). cbn [bind].
      specialize (IH (p ++ [x])). rewrite app_length, Nat.add_1_r, <- app_assoc in IH. cbn [app] in IH. rewrite IH. reflexivity. }
    exact (G [] l). }
  rewrite EU. reflexivity.
Qed.
Lemma bar_of level v up s0 s1 : created up -> unsteady_new up = Ok s0 -> unsteady_start 0 s0 = Ok s1 -> convert_logging_level_name_to_value level = Ok v ->
  let C := costs (up_steady_problems up) in
  exists r, nearest (IZR (zsum C) / 100) r /\ C = 0%Z :: tl C /\
    progress_bar level up (us_num_wake s1) = Ok (mkprogress (zsum (r :: tl C ++ [0%Z])) (v =? 30)%Z (r :: tl C ++ [0%Z])).
Proof.
  intros HC E0 E1 HL C. assert (Hn : (0 < length (up_steady_problems up))%nat).
  { unfold unsteady_new in E0. destruct (up_steady_problems up); [discriminate E0|cbn; lia]. }
  destruct (created_some up HC Hn) as (F & HM). destruct (unsteady_start_ok 0 F up HM) as (t0 & t1 & F0 & F1 & _ & _ & EW & _).
  assert (t0 = s0) by congruence. subst t0. assert (t1 = s1) by congruence. subst t1. rewrite EW. destruct (bar_made level v up F HM HL) as (r & H1 & H2). exists r. split; [exact H1|]. split; [|exact H2].
  unfold C, costs. destruct (up_steady_problems up) as [|sp l]; [cbn in Hn; lia|]. reflexivity.
Qed.

(** ** The statements *)
Lemma bar_amounts level v up s0 s1 : created up -> unsteady_new up = Ok s0 -> unsteady_start 0 s0 = Ok s1 -> convert_logging_level_name_to_value level = Ok v ->
  exists b, progress_bar level up (us_num_wake s1) = Ok b /\ length (pg_updates b) = S (length (up_steady_problems up)) /\
    (forall k sp, nth_error (up_steady_problems up) (S k) = Some sp -> nth_error (pg_updates b) (S k) = Some (cost (S k) sp)) /\
    nth_error (pg_updates b) (length (up_steady_problems up)) = Some 0%Z /\
    exists first, nth_error (pg_updates b) 0 = Some first /\ nearest (IZR (pg_total b - first) / 100) first.
Proof.
  intros HC E0 E1 HL. destruct (bar_of level v up s0 s1 HC E0 E1 HL) as (r & HN & EC & EB). set (C := costs (up_steady_problems up)) in *. eexists. split; [exact EB|]. cbn [pg_updates pg_total].
  assert (L1 : length C = length (up_steady_problems up)) by apply costs_length. assert (L2 : S (length (tl C)) = length (up_steady_problems up)) by (rewrite <- L1, EC; reflexivity).
  split; [cbn [length]; rewrite app_length; cbn [length]; lia|]. split; [|split].
  - intros k sp Hk. cbn [nth_error]. assert (k < length (tl C))%nat by (assert (S k < length (up_steady_problems up))%nat by (apply nth_error_Some; congruence); lia).
    rewrite nth_error_app1 by assumption. assert (E : nth_error C (S k) = Some (cost (S k) sp)) by (unfold C; rewrite costs_nth, Hk; reflexivity). rewrite EC in E. exact E.
  - rewrite <- L2. cbn [nth_error]. rewrite nth_error_app2, Nat.sub_diag by lia. reflexivity.
  - exists r. split; [reflexivity|]. rewrite zsum_cons, zsum_app, zsum_cons, zsum_nil. replace (r + (zsum (tl C) + (0 + 0)) - r)%Z with (zsum C) by (rewrite EC, zsum_cons; cbn [tl]; lia). exact HN.
Qed.
Lemma nearest_nonneg x k : 0 <= x -> nearest x k -> (0 <= k)%Z.
Proof.
  intros Hx H. assert (Rabs (x - IZR k) <= 1 / 2) by (destruct H as [H|[H _]]; lra). destruct (Z_le_gt_dec 0 k) as [|Hk]; [assumption|]. exfalso. assert (IZR k <= -1) by (apply IZR_le; lia). pose proof (Rle_abs (x - IZR k)). lra.
Qed.
Lemma bar_standing level up s0 s1 b : created up -> unsteady_new up = Ok s0 -> unsteady_start 0 s0 = Ok s1 -> progress_bar level up (us_num_wake s1) = Ok b ->
  (forall k, 0 <= standing b k <= standing b (S k))%Z /\ (forall k, standing b k <= pg_total b)%Z /\
  standing b (S (length (up_steady_problems up))) = pg_total b /\ standing b (length (up_steady_problems up)) = pg_total b.
Proof.
  intros HC E0 E1 HB. assert (HL : exists v, convert_logging_level_name_to_value level = Ok v) by (unfold progress_bar in HB; apply bind_Ok in HB; destruct HB as (v & HL & _); eauto). destruct HL as (v & HL).
  destruct (bar_of level v up s0 s1 HC E0 E1 HL) as (r & HN & EC & EB). rewrite EB in HB. injection HB as <-. set (C := costs (up_steady_problems up)) in *. unfold standing. cbn [pg_updates pg_total].
  assert (Hr : (0 <= r)%Z). { apply (nearest_nonneg _ _) in HN; [exact HN|]. assert (0 <= zsum C)%Z by (apply zsum_nonneg; intros x; apply costs_nonneg). apply IZR_le in H. lra. }
  assert (HP : forall x, In x (r :: tl C ++ [0%Z]) -> (0 <= x)%Z). { intros x [<-|Hx]; [exact Hr|]. apply in_app_or in Hx. destruct Hx as [Hx|[<-|[]]]; [|lia]. apply (costs_nonneg (up_steady_problems up)). fold C. rewrite EC. right. exact Hx. }
  assert (L2 : length (tl C) = (length (up_steady_problems up) - 1)%nat) by (assert (L1 : length C = length (up_steady_problems up)) by apply costs_length; rewrite <- L1, EC; cbn; lia).
  assert (L3 : (1 <= length (up_steady_problems up))%nat) by (assert (L1 : length C = length (up_steady_problems up)) by apply costs_length; rewrite <- L1, EC; cbn; lia).
  set (U := r :: tl C ++ [0%Z]) in *. assert (LU : length U = S (length (up_steady_problems up))) by (unfold U; cbn [length]; rewrite app_length, L2; cbn [length]; lia).
  split; [|split; [|split]].
  - intros k. replace (firstn k U) with (firstn k (firstn (S k) U)) by (rewrite firstn_firstn; f_equal; lia). apply zsum_firstn. intros x Hx. apply HP. rewrite <- (firstn_skipn (S k) U). apply in_or_app. left. exact Hx.
  - intros k. apply zsum_firstn. exact HP.
  - rewrite firstn_all2 by lia. reflexivity.
  - unfold U at 1. replace (length (up_steady_problems up)) with (S (length (tl C))) by lia. cbn [firstn]. rewrite firstn_app, Nat.sub_diag, firstn_O, app_nil_r, firstn_all. unfold U. rewrite !zsum_cons, zsum_app, zsum_cons, zsum_nil. lia.
Qed.
Lemma bar_shown level up num_wake b : progress_bar level up num_wake = Ok b -> (pg_shown b = true <-> level = "Warning"%string).
Proof.
  intros H. unfold progress_bar in H. apply bind_Ok in H. destruct H as (v & HL & H). apply bind_Ok in H. destruct H as (t & _ & H). apply bind_Ok in H. destruct H as (f & _ & H). apply bind_Ok in H. destruct H as (r & _ & H). injection H as <-. cbn [pg_shown].
  apply logging_level_iff in HL. cbn in HL. repeat (destruct HL as [HL|HL]; [injection HL as <- <-; cbn; split; intros E; reflexivity || discriminate E|]). destruct HL.
Qed.
Lemma bar_rejected level up num_wake : ~ In level ["Debug"; "Info"; "Warning"; "Error"; "Critical"]%string -> progress_bar level up num_wake = Err EBadLoggingLevel.
Proof. intros H. apply logging_level_rejects in H. unfold progress_bar. rewrite H. reflexivity. Qed.
Lemma full_too_early : exists up s0 s1 b sp, created up /\ unsteady_new up = Ok s0 /\ unsteady_start 0 s0 = Ok s1 /\ progress_bar "Warning" up (us_num_wake s1) = Ok b /\
  length (up_steady_problems up) = 3%nat /\ nth_error (up_steady_problems up) 2 = Some sp /\ (0 < cost 2 sp)%Z /\
  (standing b 2 < standing b 3)%Z /\ standing b 3 = pg_total b.
Proof.
  destruct (windy_runs L_Example3.resting true false false (or_introl eq_refl)) as (up & s & HW). destruct (windy_facts _ _ _ _ _ _ (or_introl eq_refl) HW) as (HC & _ & L3 & _ & HA & m & a & _ & _ & Ea & HS).
  destruct (HA 0%nat ltac:(lia)) as (sk & s0 & s1 & E0 & E1 & _). destruct (bar_amounts "Warning" 30 up s0 s1 HC E0 E1 eq_refl) as (b & EB & LU & HU & _).
  destruct (nth_error (up_steady_problems up) 2) as [sp|] eqn:E2; [|apply nth_error_None in E2; lia]. exists up, s0, s1, b, sp.
  assert (HP : (0 < cost 2 sp)%Z). { destruct (HS _ _ E2) as [EA _]. unfold cost, vortices, step_wings. rewrite EA. cbn [map concat]. rewrite Ea. cbn [app map list_sum fold_right]. change (w_num_spanwise_panels (L_Example.ex_wing false)) with 1%nat. lia. }
  destruct (bar_standing _ _ _ _ _ HC E0 E1 EB) as (_ & _ & _ & H4). rewrite L3 in H4.
  repeat (split; [assumption || reflexivity|]). split; [|exact H4]. unfold standing. specialize (HU 1%nat sp E2). destruct (pg_updates b) as [|u0 [|u1 [|u2 u]]]; try discriminate HU. injection HU as ->. cbn [firstn]. rewrite !zsum_cons, !zsum_nil. lia.
Qed.
