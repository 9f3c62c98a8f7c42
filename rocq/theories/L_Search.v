(** Searches through a list of runs that stop at the first acceptable one. *)
From Coq Require Import Lra Lia Sorted.
From Verif Require Import M_Convergence S_Convergence.
From Verif Require Import L_Base L_Loads L_Geometry L_Frames.

(** ** The first element of a sorted list *)
Lemma sorted_before {K} (lt : K -> K -> Prop) l1 k l2 x :
  (forall a, ~ lt a a) -> (forall a b c, lt a b -> lt b c -> lt a c) ->
  StronglySorted lt (l1 ++ k :: l2) -> In x l1 <-> (In x (l1 ++ k :: l2) /\ lt x k).
Proof.
  intros HI HT HS. assert (HA : forall y, In y l1 -> lt y k).
  { induction l1 as [|z l1 IH]; [intros y []|]. apply StronglySorted_inv in HS. destruct HS as [HS HF]. intros y [<-|Hy].
    - rewrite Forall_forall in HF. apply HF, in_elt.
    - apply IH; assumption. }
  assert (HB : forall y, In y l2 -> lt k y).
  { clear HA. induction l1 as [|z l1 IH]; cbn [app] in HS; apply StronglySorted_inv in HS; destruct HS as [HS HF].
    - intros y Hy. rewrite Forall_forall in HF. apply HF, Hy.
    - exact (IH HS). }
  split.
  - intros H. split; [apply in_or_app; left; exact H | apply HA, H].
  - intros [H Hlt]. apply in_app_or in H. destruct H as [H|[->|H]]; [exact H | elim (HI _ Hlt) |].
    elim (HI k). eapply HT; [apply HB, H | exact Hlt].
Qed.

(** ** Loops that stop at the first acceptable element *)
Section Loop.
Context {K C A M : Type}.
Variable ev : K -> result C.
Variable c : K -> C.
Variable acc : K -> Prop.
Variable ans : K -> A -> Prop.
Variable loop : M -> list K -> result (option A).
Variable good : list K -> M -> Prop.
Variable full : list K.
Hypothesis H_nil : forall m, loop m [] = Ok None.
Hypothesis H_err : forall m k rest e, ev k = Err e -> loop m (k :: rest) = Err e.
Hypothesis H_c : forall k v, In k full -> ev k = Ok v -> v = c k.
Hypothesis H_step : forall done k rest m, full = done ++ k :: rest -> ev k = Ok (c k) -> good done m ->
  (exists a, acc k /\ ans k a /\ loop m (k :: rest) = Ok (Some a)) \/
  (~ acc k /\ exists m', good (done ++ [k]) m' /\ loop m (k :: rest) = loop m' rest).
Definition passed_over (k : K) : Prop := ev k = Ok (c k) /\ ~ acc k.
Inductive outcome : result (option A) -> Prop :=
  | Found l1 k l2 a : full = l1 ++ k :: l2 -> Forall passed_over l1 -> ev k = Ok (c k) -> acc k -> ans k a -> outcome (Ok (Some a))
  | NotFound : Forall passed_over full -> outcome (Ok None)
  | Failed l1 k l2 e : full = l1 ++ k :: l2 -> Forall passed_over l1 -> ev k = Err e -> outcome (Err e).
Lemma loop_from done rest m : full = done ++ rest -> Forall passed_over done -> good done m -> outcome (loop m rest).
Proof.
  revert done m; induction rest as [|k rest IH]; intros done m HF HD HG.
  - rewrite H_nil. apply NotFound. rewrite HF, app_nil_r. exact HD.
  - destruct (ev k) as [v|e] eqn:E.
    + assert (v = c k) by (apply H_c; [rewrite HF; apply in_elt | exact E]). subst v.
      destruct (H_step done k rest m HF E HG) as [(a & Ha & Hans & ->) | (Hna & m' & HG' & ->)].
      * eapply Found; eassumption.
      * apply (IH (done ++ [k])); [rewrite <- app_assoc; exact HF | | exact HG'].
        apply Forall_app. split; [exact HD | constructor; [split; assumption | constructor]].
    + rewrite (H_err m k rest e E). eapply Failed; eassumption.
Qed.
End Loop.

(** ** Enumerated ranges *)
Lemma combine_seq_In {X} (l : list X) s i x : In (i, x) (combine (seq s (length l)) l) <-> ((s <= i)%nat /\ nth_error l (i - s) = Some x).
Proof.
  revert s; induction l as [|y l IH]; intros s; cbn [length seq combine].
  - split; [intros [] | intros [_ H]; destruct (i - s)%nat; discriminate].
  - cbn [In]. rewrite IH. split.
    + intros [H|[H1 H2]]; [injection H as <- <-; rewrite Nat.sub_diag; split; [lia | reflexivity]|].
      split; [lia|]. replace (i - s)%nat with (S (i - S s)) by lia. exact H2.
    + intros [H1 H2]. destruct (Nat.eq_dec s i) as [<-|Hn]; [left; rewrite Nat.sub_diag in H2; cbn in H2; congruence|].
      right. split; [lia|]. replace (i - s)%nat with (S (i - S s)) in H2 by lia. exact H2.
Qed.
Lemma enumerate_In {X} (l : list X) i x : In (i, x) (enumerate l) <-> nth_error l i = Some x.
Proof. unfold enumerate. rewrite combine_seq_In, Nat.sub_0_r. intuition lia. Qed.
Lemma combine_seq_sorted {X} (l : list X) s : StronglySorted (fun p q : nat * X => (fst p < fst q)%nat) (combine (seq s (length l)) l).
Proof.
  revert s; induction l as [|y l IH]; intros s; cbn [length seq combine]; constructor; [apply IH|].
  apply Forall_forall. intros [i x] H. apply combine_seq_In in H. cbn. lia.
Qed.
Lemma enumerate_sorted {X} (l : list X) : StronglySorted (fun p q : nat * X => (fst p < fst q)%nat) (enumerate l).
Proof. apply combine_seq_sorted. Qed.
Definition lex {X Y} (p : X -> X -> Prop) (q : Y -> Y -> Prop) (a b : X * Y) : Prop :=
  p (fst a) (fst b) \/ (fst a = fst b /\ q (snd a) (snd b)).
Lemma sorted_app {X} (p : X -> X -> Prop) l l' : StronglySorted p l -> StronglySorted p l' ->
  (forall x y, In x l -> In y l' -> p x y) -> StronglySorted p (l ++ l').
Proof.
  induction l as [|x l IH]; intros HS HS' H; [exact HS'|]. apply StronglySorted_inv in HS. destruct HS as [HS HF]. cbn [app]. constructor.
  - apply IH; [exact HS | exact HS'|]. intros; apply H; [right; assumption | assumption].
  - apply Forall_app. split; [exact HF|]. apply Forall_forall. intros y Hy. apply H; [left; reflexivity | exact Hy].
Qed.
Lemma sorted_map {X Y} (p : X -> X -> Prop) (q : Y -> Y -> Prop) (f : X -> Y) l : (forall a b, p a b -> q (f a) (f b)) ->
  StronglySorted p l -> StronglySorted q (map f l).
Proof.
  intros H. induction l as [|x l IH]; intros HS; [constructor|]. apply StronglySorted_inv in HS. destruct HS as [HS HF]. cbn [map]. constructor; [exact (IH HS)|].
  apply Forall_map. revert HF. apply Forall_impl. intros a; apply H.
Qed.
Lemma list_prod_sorted {X Y} (p : X -> X -> Prop) (q : Y -> Y -> Prop) l l' : StronglySorted p l -> StronglySorted q l' ->
  StronglySorted (lex p q) (list_prod l l').
Proof.
  intros HS HS'. induction l as [|x l IH]; [constructor|]. apply StronglySorted_inv in HS. destruct HS as [HS HF]. cbn [list_prod]. apply sorted_app.
  - apply (sorted_map q); [|exact HS']. intros a b H. right. split; [reflexivity | exact H].
  - apply IH, HS.
  - intros [a b] [a' b'] H1 H2. apply in_map_iff in H1. destruct H1 as (y & [= <- <-] & _). apply in_prod_iff in H2. left. cbn [fst].
    rewrite Forall_forall in HF. apply HF, H2.
Qed.
Lemma range_up_nth lo hi i x : nth_error (range_up lo hi) i = Some x <-> (x = (lo + Z.of_nat i)%Z /\ (lo <= x <= hi)%Z).
Proof.
  unfold range_up. rewrite nth_error_map. destruct (Nat.lt_ge_cases i (Z.to_nat (hi + 1 - lo))) as [H|H].
  - rewrite (nth_error_nth' _ 0%nat) by (rewrite seq_length; exact H). rewrite seq_nth by exact H. cbn [option_map].
    split; [intros E; apply Some_eq in E; lia | intros [-> _]; f_equal; lia].
  - rewrite (proj2 (nth_error_None _ _)) by (rewrite seq_length; exact H). cbn. split; [discriminate | lia].
Qed.
Lemma range_down_nth hi lo i x : nth_error (range_down hi lo) i = Some x <-> (x = (hi - Z.of_nat i)%Z /\ (lo <= x <= hi)%Z).
Proof.
  unfold range_down. rewrite nth_error_map. destruct (Nat.lt_ge_cases i (Z.to_nat (hi - (lo - 1)))) as [H|H].
  - rewrite (nth_error_nth' _ 0%nat) by (rewrite seq_length; exact H). rewrite seq_nth by exact H. cbn [option_map].
    split; [intros E; apply Some_eq in E; lia | intros [-> _]; f_equal; lia].
  - rewrite (proj2 (nth_error_None _ _)) by (rewrite seq_length; exact H). cbn. split; [discriminate | lia].
Qed.
Lemma range_up_single lo hi : (lo <= hi)%Z -> Nat.eqb (length (range_up lo hi)) 1 = true <-> lo = hi.
Proof. intros H. unfold range_up. rewrite map_length, seq_length, Nat.eqb_eq. lia. Qed.
Lemma range_down_single hi lo : (lo <= hi)%Z -> Nat.eqb (length (range_down hi lo)) 1 = true <-> hi = lo.
Proof. intros H. unfold range_down. rewrite map_length, seq_length, Nat.eqb_eq. lia. Qed.

(** ** Changes in percent *)
Lemma below_percent criteria x y : y <> 0 -> below criteria (percent_change x y) = true <-> 100 * Rabs (x - y) < criteria * Rabs y.
Proof.
  intros Hy. unfold below, percent_change. rewrite (proj2 (Reqb_false y 0) Hy). cbn [change_ltb]. rewrite Rltb_true.
  assert (HP := Rabs_pos_lt y Hy). unfold Rdiv. rewrite Rabs_mult, Rabs_inv. split; intros H.
  - apply Rmult_lt_compat_r with (r := Rabs y) in H; [|exact HP]. field_simplify in H; lra.
  - apply Rmult_lt_reg_r with (r := Rabs y); [exact HP|]. replace (100 * (Rabs (x - y) * / Rabs y) * Rabs y) with (100 * Rabs (x - y)) by (field; lra). exact H.
Qed.
Lemma close_zero criteria x y : y = 0 -> ~ 100 * Rabs (x - y) < criteria * Rabs y.
Proof. intros ->. rewrite Rabs_R0. pose proof (Rabs_pos (x - 0)). lra. Qed.
Lemma zero_not_below criteria x y : y = 0 -> below criteria (percent_change x y) = false.
Proof. intros ->. unfold percent_change. rewrite (proj2 (Reqb_true 0 0) eq_refl). destruct (Reqb x 0); reflexivity. Qed.
Lemma below_iff criteria x y : below criteria (percent_change x y) = true <-> 100 * Rabs (x - y) < criteria * Rabs y.
Proof.
  destruct (Req_dec y 0) as [E|E]; [|apply below_percent, E]. rewrite (zero_not_below _ _ _ E). split; [discriminate|].
  intros H. elim (close_zero _ _ _ E H).
Qed.
Definition number (x : change) : Prop := x <> NotANumber.
Lemma percent_number x y : ~ (x = 0 /\ y = 0) -> number (percent_change x y).
Proof.
  intros H. unfold number, percent_change. destruct (Reqb y 0) eqn:E; [|discriminate]. destruct (Reqb x 0) eqn:E'; [|discriminate].
  apply Reqb_true in E. apply Reqb_true in E'. elim H; auto.
Qed.
Lemma below_max criteria a b : number a -> number b -> below criteria (max_change a b) = true <-> (below criteria a = true /\ below criteria b = true).
Proof.
  unfold number, below, max_change. intros Ha Hb. destruct a as [x| |], b as [y| |]; cbn [change_ltb]; try congruence; try (intuition congruence).
  - destruct (Rltb x y) eqn:E; cbn [change_ltb]; rewrite ?Rltb_true, ?Rltb_false in *; lra.
Qed.
Lemma max_number a b : number a -> number b -> number (max_change a b).
Proof. unfold max_change. destruct (change_ltb a b); auto. Qed.
Lemma below_fold criteria l x : number x -> Forall number l ->
  number (fold_left max_change l x) /\
  (below criteria (fold_left max_change l x) = true <-> (below criteria x = true /\ Forall (fun y => below criteria y = true) l)).
Proof.
  revert x; induction l as [|y l IH]; intros x Hx HF; cbn [fold_left].
  - split; [exact Hx|]. split; [intros H; split; [exact H | constructor] | intros [H _]; exact H].
  - apply Forall_cons_iff in HF. destruct HF as [Hy HF]. destruct (IH (max_change x y) (max_number _ _ Hx Hy) HF) as [H1 H2]. split; [exact H1|].
    rewrite H2, (below_max criteria x y Hx Hy), Forall_cons_iff. tauto.
Qed.
Lemma below_np_max2 criteria a b : below criteria (np_max2 a b) = true <-> (below criteria a = true /\ below criteria b = true).
Proof.
  destruct a as [x| |], b as [y| |]; try (cbn; intuition congruence);
    change (np_max2 ?u ?v) with (max_change u v); apply below_max; discriminate.
Qed.
Lemma below_np_fold criteria l x :
  below criteria (fold_left np_max2 l x) = true <-> (below criteria x = true /\ Forall (fun y => below criteria y = true) l).
Proof.
  revert x; induction l as [|y l IH]; intros x; cbn [fold_left].
  - split; [intros H; split; [exact H | constructor] | intros [H _]; exact H].
  - rewrite IH, below_np_max2, Forall_cons_iff. tauto.
Qed.
Lemma close_map2 criteria new old : length new = length old ->
  Forall (fun y => below criteria y = true) (map2 percent_change new old) <-> close criteria new old.
Proof.
  unfold close. revert old; induction new as [|x new IH]; intros [|y old] HL; try discriminate HL; cbn [map2].
  - split; constructor.
  - rewrite Forall_cons_iff, below_iff, (IH old) by (injection HL as HL; exact HL). split; [intros [H1 H2]; constructor; assumption|].
    intros H. inversion H; subst. split; assumption.
Qed.
