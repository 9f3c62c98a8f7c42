(** Mirror images in the x-z plane: lists, trees of panels, vectors and the linear system. *)
From Coq Require Import Lra Permutation FinFun.
From Verif Require Import M_Loads S_Geometry S_Solve S_Loads S_Mirror L_Base L_Rotations L_Loads L_Aero L_Horseshoe L_SteadyRing L_RingLegs.

(** ** Lists *)
Lemma Forall2_rev {A B} (P : A -> B -> Prop) l m : Forall2 P l m -> Forall2 P (rev l) (rev m).
Proof. intros F; induction F; cbn; [constructor|]. apply Forall2_app; auto. Qed.
Lemma Forall2_choice {A B C} (P : A -> B -> Prop) (E : B -> C -> Prop) (Q : A -> C -> Prop) l m :
  (forall x y, P x y -> exists z, E y z /\ Q x z) -> Forall2 P l m -> exists n, Forall2 E m n /\ Forall2 Q l n.
Proof.
  intros H F. induction F as [|x y l m Hxy _ (n & F1 & F2)]; [exists []; split; constructor|].
  destruct (H x y Hxy) as (z & Hz & Hq). exists (z :: n). split; constructor; auto.
Qed.
Lemma list_choice {A B} (G : nat -> A -> B -> Prop) (l : list A) :
  (forall k x, nth_error l k = Some x -> exists y, G k x y) ->
  exists m, length m = length l /\ forall k x y, nth_error l k = Some x -> nth_error m k = Some y -> G k x y.
Proof.
  revert G. induction l as [|x l IH]; intros G H.
  - exists []. split; [reflexivity|]. intros [|k]; discriminate.
  - destruct (H 0%nat x eq_refl) as (y & Hy). destruct (IH (fun k => G (S k))) as (m & Lm & Hm).
    { intros k z Hz. exact (H (S k) z Hz). }
    exists (y :: m). split; [cbn; lia|]. intros [|k] z z'; cbn; intros Hz Hz'; [congruence|]. eapply Hm; eauto.
Qed.
Lemma nth_error_ext {A} (l m : list A) : (forall i, nth_error l i = nth_error m i) -> l = m.
Proof.
  revert m; induction l as [|x l IH]; intros [|y m] H; auto; try (specialize (H 0%nat); discriminate).
  f_equal; [specialize (H 0%nat); cbn in H; congruence|]. apply IH. intros i. exact (H (S i)).
Qed.
Lemma Forall2_from_nth {A B} (P : A -> B -> Prop) l m : length l = length m ->
  (forall k x y, nth_error l k = Some x -> nth_error m k = Some y -> P x y) -> Forall2 P l m.
Proof.
  revert m; induction l as [|x l IH]; intros [|y m]; cbn; try discriminate; intros L H; constructor.
  - exact (H 0%nat x y eq_refl eq_refl).
  - apply IH; [lia|]. intros k. exact (H (S k)).
Qed.

Lemma map_NoDup {A B} (f : A -> B) l : (forall x y, In x l -> In y l -> f x = f y -> x = y) -> NoDup l -> NoDup (map f l).
Proof.
  induction l as [|x l IH]; cbn; intros H N; [constructor|]. inversion N; subst. constructor; [|apply IH; auto].
  intros Hin. apply in_map_iff in Hin. destruct Hin as (y & E & Hy). rewrite (H x y (or_introl eq_refl) (or_intror Hy) (eq_sym E)) in *; auto.
Qed.
Lemma paired_onto {A} f (P : A -> A -> Prop) l l' : paired f P l l' ->
  forall k', (k' < length l')%nat -> exists k, (k < length l)%nat /\ f k = k'.
Proof.
  intros (L & Inj & H) k' Hk'.
  assert (Q : Permutation (map f (seq 0 (length l))) (seq 0 (length l))).
  { apply NoDup_Permutation_bis.
    - apply map_NoDup; [|apply seq_NoDup].
      intros i j Hi Hj. apply in_seq in Hi, Hj. apply Inj; lia.
    - rewrite map_length. lia.
    - intros i Hi. apply in_map_iff in Hi. destruct Hi as (k & <- & Hk). apply in_seq in Hk.
      destruct (nth_error l k) as [x|] eqn:E; [|apply nth_error_None in E; lia].
      destruct (H k x E) as (x' & E' & _). apply in_seq. split; [lia|]. cbn. rewrite <- L. apply nth_error_Some. congruence. }
  assert (I : In k' (map f (seq 0 (length l)))).
  { eapply Permutation_in; [apply Permutation_sym, Q|]. apply in_seq. lia. }
  apply in_map_iff in I. destruct I as (k & E & Hk). apply in_seq in Hk. exists k. split; [lia | exact E].
Qed.
Lemma paired_perm {A} f (P : A -> A -> Prop) l l' : paired f P l l' -> exists m, Permutation m l' /\ Forall2 P l m.
Proof.
  intros HP. pose proof HP as (L & Inj & H).
  destruct (list_choice (fun k x y => nth_error l' (f k) = Some y /\ P x y) l H) as (m & Lm & Hm).
  exists m. split.
  - apply Permutation_sym, Permutation_nth_error. split; [lia|].
    exists (fun n => if (n <? length l)%nat then f n else n).
    split.
    + intros i j. destruct (Nat.ltb_spec i (length l)), (Nat.ltb_spec j (length l)); intros Eij; auto.
      * destruct (nth_error l i) as [x|] eqn:E; [|apply nth_error_None in E; lia].
        destruct (H i x E) as (x' & E' & _). assert (f i < length l')%nat by (apply nth_error_Some; congruence). lia.
      * destruct (nth_error l j) as [x|] eqn:E; [|apply nth_error_None in E; lia].
        destruct (H j x E) as (x' & E' & _). assert (f j < length l')%nat by (apply nth_error_Some; congruence). lia.
    + intros n. destruct (Nat.ltb_spec n (length l)).
      * destruct (nth_error l n) as [x|] eqn:E; [|apply nth_error_None in E; lia].
        destruct (nth_error m n) as [y|] eqn:Em; [|apply nth_error_None in Em; lia].
        symmetry. apply (Hm n x y E Em).
      * rewrite (proj2 (nth_error_None m n)), (proj2 (nth_error_None l' n)) by lia. reflexivity.
  - apply Forall2_from_nth; [lia|]. intros k x y Hx Hy. apply (Hm k x y Hx Hy).
Qed.
Lemma paired_impl {A} f (P Q : A -> A -> Prop) l l' : paired f P l l' ->
  (forall x x', In x l -> In x' l' -> P x x' -> Q x x') -> paired f Q l l'.
Proof.
  intros (L & Inj & H) HQ. split; [exact L|]. split; [exact Inj|]. intros k x Hx. destruct (H k x Hx) as (x' & Hx' & Hp).
  exists x'. split; [exact Hx'|]. apply HQ; auto; eapply nth_error_In; eauto.
Qed.
Lemma paired_left {A} f (P Q E : A -> A -> Prop) l l' l1 : Forall2 E l l1 -> paired f P l l' ->
  (forall x x1 x', E x x1 -> P x x' -> Q x1 x') -> paired f Q l1 l'.
Proof.
  intros F (L & Inj & H) HQ. pose proof (Forall2_length _ _ _ F) as LF. rewrite LF in L, Inj. split; [exact L|]. split; [exact Inj|].
  intros k x1 Hx1. destruct (Forall2_nth _ _ _ F k x1 Hx1) as (x & Hx & He). destruct (H k x Hx) as (x' & Hx' & Hp). eauto.
Qed.
Lemma paired_right {A} f (P Q E : A -> A -> Prop) l l' l1 : Forall2 E l' l1 -> paired f P l l' ->
  (forall x x' x1, E x' x1 -> P x x' -> Q x x1) -> paired f Q l l1.
Proof.
  intros F (L & Inj & H) HQ. pose proof (Forall2_length _ _ _ F) as LF. rewrite LF in L. split; [exact L|]. split; [exact Inj|].
  intros k x Hx. destruct (H k x Hx) as (x' & Hx' & Hp). destruct (Forall2_nth_l _ _ _ F _ _ Hx') as (x1 & Hx1 & He). eauto.
Qed.
Lemma paired_choice {A} f (P Q E : A -> A -> Prop) l l' : paired f P l l' ->
  (forall x x', P x x' -> exists y, E x' y /\ Q x y) -> exists l2, Forall2 E l' l2 /\ paired f Q l l2.
Proof.
  intros HP HC. pose proof HP as (L & Inj & H).
  destruct (list_choice (fun k' x' y => E x' y /\ forall k x, nth_error l k = Some x -> f k = k' -> Q x y) l') as (l2 & L2 & H2).
  { intros k' x' Hx'. assert (Hk' : (k' < length l')%nat) by (apply nth_error_Some; congruence).
    destruct (paired_onto f P l l' HP k' Hk') as (k & Hk & Ek).
    destruct (nth_error l k) as [x|] eqn:Ex; [|apply nth_error_None in Ex; lia].
    destruct (H k x Ex) as (y' & Hy' & Hp). rewrite Ek, Hx' in Hy'. injection Hy' as <-.
    destruct (HC x x' Hp) as (y & He & Hq). exists y. split; [exact He|].
    intros j z Hz Ej. assert (j = k). { apply Inj; [apply nth_error_Some; congruence | exact Hk | congruence]. }
    subst j. congruence. }
  exists l2. split.
  - apply Forall2_from_nth; [lia|]. intros k x y Hx Hy. apply (H2 k x y Hx Hy).
  - split; [lia|]. split; [exact Inj|]. intros k x Hx. destruct (H k x Hx) as (x' & Hx' & _).
    destruct (nth_error l2 (f k)) as [y|] eqn:Ey.
    + exists y. split; [reflexivity|]. apply (proj2 (H2 _ _ _ Hx' Ey) k x Hx eq_refl).
    + apply nth_error_None in Ey. assert (f k < length l')%nat by (apply nth_error_Some; congruence). lia.
Qed.

(** ** Trees of panels *)
Definition rel_wing (G : panel -> panel -> Prop) (w v : wing) : Prop :=
  same_wing w v /\ Forall2 (Forall2 G) (w_panels w) (w_panels v).
Definition rel_airplane (G : panel -> panel -> Prop) (a b : airplane) : Prop :=
  same_airplane a b /\ Forall2 (rel_wing G) (a_wings a) (a_wings b).
Lemma rel_airplane_flat G a b : same_airplane a b -> Forall2 G (airplane_panels a) (airplane_panels b) -> rel_airplane G a b.
Proof.
  intros Hs F. split; [exact Hs|]. destruct Hs as (Fw & _).
  unfold airplane_panels in F. apply Forall2_unconcat in F.
  - revert F. induction Fw as [|w v ws vs Hw _ IH]; cbn; intros F; inversion F; subst; constructor; auto.
    split; [exact Hw|]. apply Forall2_unconcat; [apply same_wing_lengths; exact Hw | assumption].
  - clear F. induction Fw as [|w v ws vs Hw _ IH]; cbn; constructor; auto.
    destruct Hw as [_ Hw]. apply Forall2_concat, Forall2_length in Hw. exact Hw.
Qed.
Lemma rel_airplanes_flat G l m : Forall2 same_airplane l m -> Forall2 G (all_panels l) (all_panels m) -> Forall2 (rel_airplane G) l m.
Proof.
  intros F H. unfold all_panels in H. apply Forall2_unconcat in H.
  - revert H. induction F as [|a b l m Hab _ IH]; cbn; intros H; inversion H; subst; constructor; auto. apply rel_airplane_flat; auto.
  - clear H. induction F as [|a b l m Hab _ IH]; cbn; constructor; auto. apply same_airplane_panels, Forall2_length in Hab. exact Hab.
Qed.

Lemma Forall2_replace_l {A B} (P Q : A -> B -> Prop) (E : A -> A -> Prop) l l1 m :
  Forall2 E l l1 -> Forall2 P l m -> (forall x x1 y, E x x1 -> P x y -> Q x1 y) -> Forall2 Q l1 m.
Proof.
  intros F G H. revert l1 F. induction G as [|x y l m Hp _ IH]; intros l1 F; inversion F; subst; constructor; eauto.
Qed.
Lemma Forall2_replace_r {A B} (P Q : A -> B -> Prop) (E : B -> B -> Prop) l m m1 :
  Forall2 E m m1 -> Forall2 P l m -> (forall x y y1, E y y1 -> P x y -> Q x y1) -> Forall2 Q l m1.
Proof.
  intros F G H. revert m1 F. induction G as [|x y l m Hp _ IH]; intros m1 F; inversion F; subst; constructor; eauto.
Qed.
Lemma Forall2_both {A B} (P Q : A -> B -> Prop) l m : Forall2 P l m -> Forall2 Q l m -> Forall2 (fun x y => P x y /\ Q x y) l m.
Proof. intros F; induction F; intros G; inversion G; subst; constructor; auto. Qed.
Lemma rel_wing_both G w v : rel_wing G w v ->
  Forall2 (Forall2 (fun p q => same_panel p q /\ G p q)) (w_panels w) (w_panels v).
Proof.
  intros [[_ F] F']. pose proof (Forall2_both _ _ _ _ F F') as H. eapply Forall2_impl; [|exact H].
  intros r r' [H1 H2]. apply Forall2_both; assumption.
Qed.
Notation row_of keeps row := (if keeps then row%list else rev row) (only parsing).
Lemma Forall2_row {A B} (P : A -> B -> Prop) (keeps : bool) l m : Forall2 P l m -> Forall2 P (row_of keeps l) (row_of keeps m).
Proof. destruct keeps; [auto | apply Forall2_rev]. Qed.
Lemma row_row {A} (keeps : bool) (l : list A) : row_of keeps (row_of keeps l) = l.
Proof. destruct keeps; [reflexivity | apply rev_involutive]. Qed.
Lemma row_perm {A} (keeps : bool) (l : list A) : Permutation (row_of keeps l) l.
Proof. destruct keeps; [apply Permutation_refl | apply Permutation_sym, Permutation_rev]. Qed.
Lemma row_length {A} (keeps : bool) (l : list A) : length (row_of keeps l) = length l.
Proof. destruct keeps; [reflexivity | apply rev_length]. Qed.
Lemma mirrored_wing_left (G : panel -> panel -> Prop) (P Q : bool -> panel -> panel -> Prop) w w1 w' : rel_wing G w w1 -> (forall k p p1 p', same_panel p p1 -> G p p1 -> P k p p' -> Q k p1 p') ->
  mirrored_wing P w w' -> mirrored_wing Q w1 w'.
Proof.
  intros Hr H (Hs & k & HF). pose proof (rel_wing_both _ _ _ Hr) as F. destruct Hr as [[E _] _]. split; [rewrite E; exact Hs|]. exists k.
  apply (Forall2_replace_l _ _ _ _ _ _ F HF). intros r r1 r' Fr Pr. apply (Forall2_replace_l _ _ _ _ _ _ Fr Pr).
  intros p p1 p' [H1 H2]. eauto.
Qed.
Lemma mirrored_wing_right (G : panel -> panel -> Prop) (P Q : bool -> panel -> panel -> Prop) w w' w1 : rel_wing G w' w1 -> (forall k p p' p1, same_panel p' p1 -> G p' p1 -> P k p p' -> Q k p p1) ->
  mirrored_wing P w w' -> mirrored_wing Q w w1.
Proof.
  intros Hr H (Hs & k & HF). pose proof (rel_wing_both _ _ _ Hr) as F. destruct Hr as [[E _] _]. split; [rewrite E; exact Hs|]. exists k.
  apply (Forall2_replace_r _ _ _ _ _ _ F HF). intros r r' r1 Fr Pr. apply (Forall2_replace_r _ _ _ _ _ _ (Forall2_row _ k _ _ Fr) Pr).
  intros p p1 p' [H1 H2]. eauto.
Qed.
Lemma mirror_left (G : panel -> panel -> Prop) f (P Q : bool -> panel -> panel -> Prop) l l1 l' : Forall2 (rel_airplane G) l l1 -> paired f (mirrored_airplane P) l l' ->
  (forall k p p1 p', same_panel p p1 -> G p p1 -> P k p p' -> Q k p1 p') -> paired f (mirrored_airplane Q) l1 l'.
Proof.
  intros F HP H. eapply paired_left; [exact F | exact HP|].
  intros a a1 a' [(_ & _ & Hx & _ & Hs & Hc & Hb & _) Fw] (H1 & H2 & H3 & H4 & g & Hg).
  repeat (split; [congruence|]). exists g. eapply paired_left; [exact Fw | exact Hg|].
  intros w w1 w' Hw. apply (mirrored_wing_left G); assumption.
Qed.
Lemma mirror_right (G : panel -> panel -> Prop) f (P Q : bool -> panel -> panel -> Prop) l l' l1 : Forall2 (rel_airplane G) l' l1 -> paired f (mirrored_airplane P) l l' ->
  (forall k p p' p1, same_panel p' p1 -> G p' p1 -> P k p p' -> Q k p p1) -> paired f (mirrored_airplane Q) l l1.
Proof.
  intros F HP H. eapply paired_right; [exact F | exact HP|].
  intros a a' a1 [(_ & _ & Hx & _ & Hs & Hc & Hb & _) Fw] (H1 & H2 & H3 & H4 & g & Hg).
  repeat (split; [congruence|]). exists g. eapply paired_right; [exact Fw | exact Hg|].
  intros w w' w1 Hw. apply (mirrored_wing_right G); assumption.
Qed.
Lemma mirrored_wing_choice (G : panel -> panel -> Prop) (P Q : bool -> panel -> panel -> Prop) w w' :
  (forall k p p', P k p p' -> exists q, (same_panel p' q /\ G p' q) /\ Q k p q) ->
  mirrored_wing P w w' -> exists w2, rel_wing G w' w2 /\ mirrored_wing Q w w2.
Proof.
  intros H (Hs & k & HF).
  assert (X : forall row row', Forall2 (P k) row (row_of k row') -> exists z, Forall2 (fun p q => same_panel p q /\ G p q) row' z /\ Forall2 (Q k) row (row_of k z)).
  { intros row row' Hr. destruct (Forall2_choice _ _ (Q k) _ _ (H k) Hr) as (z & Hz & Hq). exists (row_of k z).
    rewrite row_row. split; [rewrite <- (row_row k row'); apply Forall2_row; exact Hz | exact Hq]. }
  destruct (Forall2_choice _ _ (fun row row' => Forall2 (Q k) row (row_of k row')) _ _ X HF) as (m & F1 & F2).
  exists (w_set_panels m w'). split; [|split; [exact Hs | exists k; exact F2]]. cbn.
  split; [split; [reflexivity|]|]; (eapply Forall2_impl; [|exact F1]); intros r r' Fr; (eapply Forall2_impl; [|exact Fr]); intros p q [A B]; assumption.
Qed.
Lemma mirror_choice f (G : panel -> panel -> Prop) (P Q : bool -> panel -> panel -> Prop) l l' : paired f (mirrored_airplane P) l l' ->
  (forall k p p', P k p p' -> exists q, (same_panel p' q /\ G p' q) /\ Q k p q) ->
  exists l2, Forall2 (rel_airplane G) l' l2 /\ paired f (mirrored_airplane Q) l l2.
Proof.
  intros HP H. apply (paired_choice f _ _ _ _ _ HP).
  intros a a' (H1 & H2 & H3 & H4 & g & Hg).
  destruct (paired_choice g _ (mirrored_wing Q) (rel_wing G) _ _ Hg (fun w w' => mirrored_wing_choice G P Q w w' H)) as (ws & F & Hg2).
  exists (a_set_wings ws a'). split.
  - split; [|exact F]. split; [|cbn; auto 8]. cbn. eapply Forall2_impl; [|exact F]. intros w v [A _]. exact A.
  - repeat (split; [assumption|]). exists g. exact Hg2.
Qed.
Lemma mirror_impl f (P Q : bool -> panel -> panel -> Prop) l l' : paired f (mirrored_airplane P) l l' ->
  (forall a a' w w', In a l -> In a' l' -> In w (a_wings a) -> In w' (a_wings a') -> a_xyz_ref a' = across (a_xyz_ref a) ->
     mirrored_wing P w w' -> mirrored_wing Q w w') -> paired f (mirrored_airplane Q) l l'.
Proof.
  intros HP H. apply (paired_impl f _ _ _ _ HP). intros a a' Ha Ha' (H1 & H2 & H3 & H4 & g & Hg).
  repeat (split; [assumption|]). exists g. apply (paired_impl g _ _ _ _ Hg). intros w w' Hw Hw'. apply (H a a'); auto.
Qed.
Lemma rel_all_panels G l m : Forall2 (rel_airplane G) l m -> Forall2 G (all_panels l) (all_panels m).
Proof.
  intros F. unfold all_panels. apply Forall2_concat. induction F as [|a b l m [_ Fw] _ IH]; cbn [map]; constructor; auto.
  unfold airplane_panels. apply Forall2_concat. clear -Fw. induction Fw as [|w v ws vs [_ Fm] _ IH]; cbn [map]; constructor; auto.
  apply Forall2_concat, Fm.
Qed.
Lemma rel_same G l m : Forall2 (rel_airplane G) l m -> Forall2 same_airplane l m.
Proof. intros F. eapply Forall2_impl; [|exact F]. intros a b [H _]. exact H. Qed.

(** Flattened. *)
Definition flat_mirror (P : bool -> panel -> panel -> Prop) (x x' : airplane * wing * panel) : Prop :=
  (exists k, P k (snd x) (snd x')) /\ w_span (snd (fst x')) = w_span (snd (fst x)) /\ a_xyz_ref (fst (fst x')) = across (a_xyz_ref (fst (fst x))).
Lemma mirrored_wing_flat {B} P (h h' : panel -> B) (R : B -> B -> Prop) w w' : mirrored_wing P w w' ->
  (forall k p p', P k p p' -> R (h p) (h' p')) ->
  exists c, Permutation c (map h' (ravel (w_panels w'))) /\ Forall2 R (map h (ravel (w_panels w))) c.
Proof.
  intros (_ & k & F) H. unfold ravel. induction F as [|r r' m m' Hr _ (c & Hc & Fc)]; cbn [concat].
  - exists []. split; constructor.
  - exists (map h' (row_of k r') ++ c). rewrite !map_app. split.
    + apply Permutation_app; [|exact Hc]. apply Permutation_map, row_perm.
    + apply Forall2_app; [|exact Fc]. clear -Hr H. induction Hr; cbn; constructor; eauto.
Qed.
Lemma perm_flat {A B} (R : A -> A -> Prop) (S : B -> B -> Prop) (g g' : A -> list B) l l' f :
  paired f R l l' -> (forall x x', R x x' -> exists c, Permutation c (g' x') /\ Forall2 S (g x) c) ->
  exists c, Permutation c (concat (map g' l')) /\ Forall2 S (concat (map g l)) c.
Proof.
  intros HP H. destruct (paired_perm _ _ _ _ HP) as (m & Hm & F).
  enough (X : exists c, Permutation c (concat (map g' m)) /\ Forall2 S (concat (map g l)) c).
  { destruct X as (c & Hc & Fc). exists c. split; [|exact Fc]. eapply Permutation_trans; [exact Hc|].
    rewrite <- !flat_map_concat_map. apply Permutation_flat_map. exact Hm. }
  clear Hm HP. induction F as [|x x' l m Hx _ (c & Hc & Fc)]; cbn; [exists []; split; constructor|].
  destruct (H x x' Hx) as (d & Hd & Fd). exists (d ++ c). split; [apply Permutation_app; assumption | apply Forall2_app; assumption].
Qed.
Lemma mirror_flat f P l l' : paired f (mirrored_airplane P) l l' ->
  exists c, Permutation c (flat_panels l') /\ Forall2 (flat_mirror P) (flat_panels l) c.
Proof.
  intros HP. apply (perm_flat _ _ _ _ _ _ f HP). intros a a' (H1 & _ & _ & _ & g & Hg).
  assert (Hg' : paired g (fun w w' => mirrored_wing P w w') (a_wings a) (a_wings a')) by exact Hg.
  apply (perm_flat _ _ _ _ _ _ g Hg'). intros w w' Hw.
  apply (mirrored_wing_flat P _ _ (flat_mirror P) w w' Hw). intros k p p' Hp. split; [exists k; exact Hp|]. cbn. split; [apply Hw | exact H1].
Qed.
Lemma mirror_airplane_flat P a a' : mirrored_airplane P a a' ->
  exists c, Permutation c (airplane_panels a') /\ Forall2 (fun p p' => exists k, P k p p') (airplane_panels a) c.
Proof.
  intros (_ & _ & _ & _ & g & Hg). apply (perm_flat _ (fun p p' => exists k, P k p p') (fun w => ravel (w_panels w)) (fun w => ravel (w_panels w)) _ _ g Hg).
  intros w w' Hw. destruct (mirrored_wing_flat P (fun p => p) (fun p => p) (fun p p' => exists k, P k p p') w w' Hw (fun k _ _ H => ex_intro _ k H)) as (c & Hc & Fc).
  rewrite map_id in Hc, Fc. eauto.
Qed.

(** ** Vectors *)
Lemma across_across v : across (across v) = v. Proof. unfold across. apply vec_ext; cbn; ring. Qed.
Lemma across_add u v : across (vadd u v) = vadd (across u) (across v). Proof. unfold across; vring. Qed.
Lemma across_sub u v : across (vsub u v) = vsub (across u) (across v). Proof. unfold across; vring. Qed.
Lemma across_scale k v : across (vscale k v) = vscale k (across v). Proof. unfold across; vring. Qed.
Lemma across_zero : across vzero = vzero. Proof. unfold across; vring. Qed.
Lemma across_dot u v : vdot (across u) (across v) = vdot u v. Proof. unfold across; vring. Qed.
Lemma across_norm v : vnorm (across v) = vnorm v.
Proof. unfold vnorm. f_equal. apply across_dot. Qed.
Lemma across_cross u v : vcross (across u) (across v) = across_moment (vcross u v). Proof. unfold across, across_moment; vring. Qed.
Lemma across_cross_swap u v : vcross (across v) (across u) = across (vcross u v). Proof. unfold across; vring. Qed.
Lemma across_vsum l : vsum (map across l) = across (vsum l).
Proof. induction l as [|v l IH]; [symmetry; apply across_zero|]. cbn [map]. rewrite !vsum_cons, IH, across_add. reflexivity. Qed.
Lemma across_moment_vsum l : vsum (map across_moment l) = across_moment (vsum l).
Proof.
  induction l as [|v l IH]; [cbn [map]; rewrite vsum_nil; unfold across_moment; vring|]. cbn [map]. rewrite !vsum_cons, IH. unfold across_moment; vring.
Qed.
Definition across_mat : mat := mkmat (mkvec 1 0 0) (mkvec 0 (-1) 0) (mkvec 0 0 1).
Lemma across_mat_ok v : mvmul across_mat v = across v. Proof. unfold across, across_mat; vring. Qed.
Lemma line_velocity_across x a b g age nu :
  line_velocity (across x) (across b) (across a) g age nu = across (line_velocity x a b g age nu).
Proof.
  rewrite line_velocity_reverse.
  assert (O : orthogonal across_mat) by (intros u v; rewrite !across_mat_ok; apply across_dot).
  pose proof (line_velocity_isometry across_mat vzero x a b g age nu O) as H.
  rewrite !across_mat_ok in H. rewrite !vadd_0_r in H. rewrite H.
  replace (mdet across_mat) with (-1) by (unfold mdet, across_mat; vunfold; ring). vring.
Qed.
Lemma shoe_velocity_across x br fr fl bl g age nu :
  shoe_velocity (across x) (across bl) (across fl) (across fr) (across br) g age nu = across (shoe_velocity x br fr fl bl g age nu).
Proof. unfold shoe_velocity. rewrite !line_velocity_across, !across_add. vring. Qed.

Lemma mirrored_direction op op' : mirrored_flow op op' -> freestream_direction op' = across (freestream_direction op).
Proof.
  intros (_ & _ & Ha & Hb). rewrite !freestream_direction_explicit, Ha, Hb.
  replace (radians (- op_beta op)) with (- radians (op_beta op)) by (unfold radians; lra).
  rewrite sin_neg, cos_neg. unfold across. apply vec_ext; cbn; ring.
Qed.
Lemma mirrored_freestream op op' : mirrored_flow op op' -> freestream_velocity op' = across (freestream_velocity op).
Proof. intros H. unfold freestream_velocity. rewrite (mirrored_direction op op' H), across_scale. destruct H as (_ & -> & _). reflexivity. Qed.
Lemma mirrored_to_wind op op' v : mirrored_flow op op' ->
  mvmul (mtrans (rotation_wind_to_geometry op')) (across v) = across (mvmul (mtrans (rotation_wind_to_geometry op)) v).
Proof.
  intros (_ & _ & Ha & Hb). rewrite !w2g_explicit, Ha, Hb.
  replace (radians (- op_beta op)) with (- radians (op_beta op)) by (unfold radians; lra).
  rewrite sin_neg, cos_neg. unfold across. vunfold. apply vec_ext; cbn; ring.
Qed.
Lemma across_moment_across v : across_moment v = vopp (across v). Proof. unfold across, across_moment; vring. Qed.
Lemma mirrored_to_wind_moment op op' v : mirrored_flow op op' ->
  mvmul (mtrans (rotation_wind_to_geometry op')) (across_moment v) = across_moment (mvmul (mtrans (rotation_wind_to_geometry op)) v).
Proof.
  intros H. rewrite !across_moment_across. rewrite <- (mirrored_to_wind op op' v H). generalize (across v) (mtrans (rotation_wind_to_geometry op')). intros; vring.
Qed.

Lemma line_velocity_across_kept x a b g age nu :
  line_velocity (across x) (across a) (across b) g age nu = vopp (across (line_velocity x a b g age nu)).
Proof. rewrite line_velocity_reverse, line_velocity_across. vring. Qed.
Lemma shoe_velocity_across_kept x br fr fl bl g age nu :
  shoe_velocity (across x) (across br) (across fr) (across fl) (across bl) g age nu = vopp (across (shoe_velocity x br fr fl bl g age nu)).
Proof. unfold shoe_velocity. rewrite !line_velocity_across_kept, !across_add. vring. Qed.

(** ** Points of mirrored panels *)
Definition turned (keeps : bool) (v : vec) : vec := if keeps then vopp v else v.
Lemma mirrored_panel_points k p p' : mirrored_panel k p p' ->
  p_front_right_vortex_vertex p' = across (if k then p_front_right_vortex_vertex p else p_front_left_vortex_vertex p) /\
  p_front_left_vortex_vertex p' = across (if k then p_front_left_vortex_vertex p else p_front_right_vortex_vertex p) /\
  p_collocation_point p' = across (p_collocation_point p) /\ p_unit_normal p' = turned k (across (p_unit_normal p)) /\ p_area p' = p_area p.
Proof.
  destruct k; intros (H1 & H2 & H3 & H4).
  - assert (C : p_cross p' = vopp (across (p_cross p))).
    { unfold p_cross, p_first_diagonal, p_second_diagonal. rewrite H1, H2, H3, H4, <- !across_sub. rewrite across_cross. unfold across, across_moment; vring. }
    assert (N : vnorm (vopp (across (p_cross p))) = vnorm (p_cross p)) by (rewrite <- (across_norm (p_cross p)); unfold vnorm; f_equal; vring).
    repeat split.
    + unfold p_front_right_vortex_vertex, p_front_left_vortex_vertex, p_right_leg, p_left_leg. rewrite ?H1, ?H2, ?H3, ?H4. unfold across; vunfold; apply vec_ext; cbn; lra.
    + unfold p_front_right_vortex_vertex, p_front_left_vortex_vertex, p_right_leg, p_left_leg. rewrite ?H1, ?H2, ?H3, ?H4. unfold across; vunfold; apply vec_ext; cbn; lra.
    + unfold p_collocation_point, p_right_leg, p_left_leg. rewrite ?H1, ?H2, ?H3, ?H4. unfold across; vunfold. apply vec_ext; cbn; lra.
    + unfold p_unit_normal. rewrite C, N. unfold vdiv, across, turned. vunfold. apply vec_ext; cbn; unfold Rdiv; ring.
    + unfold p_area. rewrite C, N. reflexivity.
  - assert (C : p_cross p' = across (p_cross p)).
    { unfold p_cross, p_first_diagonal, p_second_diagonal. rewrite H1, H2, H3, H4, <- !across_sub. apply across_cross_swap. }
    repeat split.
    + unfold p_front_right_vortex_vertex, p_front_left_vortex_vertex, p_right_leg, p_left_leg. rewrite ?H1, ?H2, ?H3, ?H4. unfold across; vunfold; apply vec_ext; cbn; lra.
    + unfold p_front_right_vortex_vertex, p_front_left_vortex_vertex, p_right_leg, p_left_leg. rewrite ?H1, ?H2, ?H3, ?H4. unfold across; vunfold; apply vec_ext; cbn; lra.
    + unfold p_collocation_point, p_right_leg, p_left_leg. rewrite ?H1, ?H2, ?H3, ?H4. unfold across; vunfold. apply vec_ext; cbn; lra.
    + unfold p_unit_normal. rewrite C, across_norm. unfold vdiv, across, turned. vunfold. apply vec_ext; cbn; unfold Rdiv; ring.
    + unfold p_area. rewrite C, across_norm. reflexivity.
Qed.

(** ** The linear system of a list of vortices *)
Lemma cons_eq' {A} (x y : A) l m : x :: l = y :: m -> x = y /\ l = m. Proof. intros H; injection H; auto. Qed.
Lemma map_eq_in {A B} (f g : A -> B) l x : map f l = map g l -> In x l -> f x = g x.
Proof. induction l as [|y l IH]; [intros _ []|]. cbn [map]. intros H; apply cons_eq' in H. destruct H as [H1 H2]. intros [<-|Hx]; auto. Qed.
Section System.
Context {T : Type} (coll normal : T -> vec) (unit_velocity : vec -> T -> vec).
Definition sys_matrix (rows : list T) : list (list R) :=
  map (fun r => map (fun s => vdot (unit_velocity (coll r) s) (normal r)) rows) rows.
Definition sys_rhs (rows : list T) (v : vec) : list R := map (fun r => - vdot (normal r) v) rows.
Definition sys_velocity (rows : list T) (xs : list R) (v x : vec) : vec :=
  vadd (vsum (map (fun rg => vscale (snd rg) (unit_velocity x (fst rg))) (combine rows xs))) v.
Definition sys_mirror (k : bool) (r r' : T) : Prop :=
  coll r' = across (coll r) /\ normal r' = turned k (across (normal r)) /\ forall x, unit_velocity (across x) r' = turned k (across (unit_velocity x r)).
Lemma turned_dot k u v : vdot (across u) (turned k (across v)) = mirrored_strength k (vdot u v).
Proof. rewrite <- (across_dot u v). destruct k; cbn [turned mirrored_strength]; [vring | reflexivity]. Qed.
Lemma turned_zero k x : mirrored_strength k x = 0 <-> x = 0.
Proof. destruct k; cbn [mirrored_strength]; split; lra. Qed.
Lemma turned_twice k x : mirrored_strength k (mirrored_strength k x) = x.
Proof. destruct k; cbn [mirrored_strength]; lra. Qed.
Lemma turned_scale k g v : vscale (mirrored_strength k g) (turned k v) = vscale g v.
Proof. destruct k; cbn [mirrored_strength turned]; [vring | reflexivity]. Qed.

Lemma vsum_perm l m : Permutation l m -> vsum l = vsum m.
Proof. intros H. induction H; rewrite ?vsum_cons in *; try congruence; vring. Qed.

(** Paired strengths. *)
Definition matched (rows : list T) (xs : list R) (rows' : list T) (xs' : list R) : Prop :=
  length xs = length rows /\ length xs' = length rows' /\
  exists d, Permutation d (combine rows' xs') /\ Forall2 (fun rx rx' => exists k, sys_mirror k (fst rx) (fst rx') /\ snd rx' = mirrored_strength k (snd rx)) (combine rows xs) d.

Lemma matched_velocity rows xs rows' xs' v x : matched rows xs rows' xs' ->
  sys_velocity rows' xs' (across v) (across x) = across (sys_velocity rows xs v x).
Proof.
  intros (_ & _ & d & Hd & F). unfold sys_velocity. rewrite across_add. f_equal.
  rewrite <- (vsum_perm _ _ (Permutation_map (fun rg => vscale (snd rg) (unit_velocity (across x) (fst rg))) Hd)).
  clear Hd. induction F as [|[r g] [r' g'] l l' (k & (_ & _ & H) & E) _ IH]; cbn [map]; [symmetry; apply across_zero|].
  cbn [fst snd] in *. subst g'. rewrite !vsum_cons, IH, H, turned_scale, across_add, across_scale. reflexivity.
Qed.
Definition sys_solution (rows : list T) (xs : list R) (v : vec) : Prop :=
  length xs = length rows /\ forall r, In r rows -> vdot (sys_velocity rows xs v (coll r)) (normal r) = 0.
Lemma solves_iff rows xs v : solves (sys_matrix rows) (sys_rhs rows v) xs <-> sys_solution rows xs v.
Proof.
  unfold solves, sys_solution, matvec, sys_matrix, sys_rhs. rewrite map_length, map_map.
  split; intros [L H]; (split; [exact L|]).
  - intros r Hr.
    assert (E : rsum (map2 Rmult (map (fun s => vdot (unit_velocity (coll r) s) (normal r)) rows) xs) = - vdot (normal r) v).
    { exact (map_eq_in _ _ _ _ H Hr). }
    rewrite rsum_map2_combine in E by exact L. unfold sys_velocity. rewrite vdot_add_l, vdot_comm, vdot_vsum, map_map, (vdot_comm v).
    transitivity (rsum (map (fun rg => snd rg * vdot (unit_velocity (coll r) (fst rg)) (normal r)) (combine rows xs)) + vdot (normal r) v); [|lra].
    f_equal. apply rsum_map_ext. intros [s g] _. cbn [fst snd]. rewrite vdot_scale_r, vdot_comm. reflexivity.
  - apply map_ext_in. intros r Hr. specialize (H r Hr). rewrite rsum_map2_combine by exact L.
    unfold sys_velocity in H. rewrite vdot_add_l, vdot_comm, vdot_vsum, map_map, (vdot_comm v) in H.
    rewrite <- (Rplus_0_r (- vdot (normal r) v)), <- H. rewrite <- Rplus_assoc, (Rplus_comm (- _)), Rplus_assoc.
    replace (- vdot (normal r) v + vdot (normal r) v) with 0 by ring.
    enough (X : rsum (map (fun rg => snd rg * vdot (unit_velocity (coll r) (fst rg)) (normal r)) (combine rows xs)) =
                rsum (map (fun x => vdot (normal r) (vscale (snd x) (unit_velocity (coll r) (fst x)))) (combine rows xs))) by lra.
    apply rsum_map_ext. intros [s g] _. cbn [fst snd]. rewrite vdot_scale_r, (vdot_comm (normal r)). reflexivity.
Qed.
Lemma matched_rows rows xs rows' xs' r' : matched rows xs rows' xs' -> In r' rows' -> exists r k, In r rows /\ sys_mirror k r r'.
Proof.
  intros (L & L' & d & Hd & F) Hr'.
  assert (Hin : In r' (map fst d)).
  { eapply Permutation_in; [apply Permutation_map, Permutation_sym, Hd|]. rewrite map_fst_combine by exact L'. exact Hr'. }
  apply in_map_iff in Hin. destruct Hin as ([r0 g] & <- & Hin).
  destruct (Forall2_In_r _ _ _ _ F Hin) as ([r g0] & Hin0 & k & H & _). exists r, k. split; [|exact H]. apply in_combine_l in Hin0. exact Hin0.
Qed.
Lemma matched_rows_l rows xs rows' xs' r : matched rows xs rows' xs' -> In r rows -> exists r' k, In r' rows' /\ sys_mirror k r r'.
Proof.
  intros (L & L' & d & Hd & F) Hr.
  rewrite <- (map_fst_combine rows xs L) in Hr. apply in_map_iff in Hr. destruct Hr as ([r0 g] & <- & Hr).
  apply In_nth_error in Hr. destruct Hr as (i & Hi). destruct (Forall2_nth_l _ _ _ F _ _ Hi) as ([r' g'] & Hi' & k & H & _).
  exists r', k. split; [|exact H]. apply nth_error_In in Hi'. eapply Permutation_in in Hi'; [|exact Hd]. apply in_combine_l in Hi'. exact Hi'.
Qed.
Lemma matched_solution rows xs rows' xs' v : matched rows xs rows' xs' ->
  (sys_solution rows' xs' (across v) <-> sys_solution rows xs v).
Proof.
  intros M. pose proof M as (L & L' & _). split; intros [_ H]; (split; [assumption|]).
  - intros r Hr. destruct (matched_rows_l _ _ _ _ _ M Hr) as (r' & k & Hr' & (Hc & Hn & _)).
    specialize (H r' Hr'). rewrite Hc, Hn, (matched_velocity _ _ _ _ v _ M), turned_dot in H. apply turned_zero in H. exact H.
  - intros r' Hr'. destruct (matched_rows _ _ _ _ _ M Hr') as (r & k & Hr & (Hc & Hn & _)).
    rewrite Hc, Hn, (matched_velocity _ _ _ _ v _ M), turned_dot. apply turned_zero. auto.
Qed.
(** Any strengths of the mirrored vortices come from strengths of the vortices, in a
    one-to-one way. *)
Lemma matched_back rows c rows' : Permutation c rows' -> Forall2 (fun r r' => exists k, sys_mirror k r r') rows c ->
  exists (f : nat -> nat) (b : nat -> bool), (forall k', (k' < length rows')%nat -> exists k, (k < length rows)%nat /\ f k = k') /\
    forall ys', length ys' = length rows' -> matched rows (map (fun k => mirrored_strength (b k) (nth (f k) ys' 0)) (seq 0 (length rows))) rows' ys'.
Proof.
  intros Hc F. pose proof (Forall2_length _ _ _ F) as LF.
  apply Permutation_sym, Permutation_nth_error in Hc. destruct Hc as (Lc & f & Inj & Hf).
  assert (B : forall k, (k < length rows)%nat -> (f k < length rows')%nat).
  { intros k Hk. apply nth_error_Some. rewrite <- Hf. apply nth_error_Some. lia. }
  destruct (list_choice (fun k r (t : bool) => forall r', nth_error c k = Some r' -> sys_mirror t r r') rows) as (bs & Lb & Hb).
  { intros k r Hr. destruct (Forall2_nth_l _ _ _ F k r Hr) as (r' & Hr' & t & Ht). exists t. intros r'' Hr''. congruence. }
  exists f, (fun k => nth k bs false). split.
  - assert (Q : Permutation (map f (seq 0 (length rows))) (seq 0 (length rows))).
    { apply NoDup_Permutation_bis.
      - apply Injective_map_NoDup; [exact Inj | apply seq_NoDup].
      - rewrite map_length. lia.
      - intros i Hi. apply in_map_iff in Hi. destruct Hi as (k & <- & Hk). apply in_seq in Hk. apply in_seq. specialize (B k). lia. }
    intros k' Hk'. assert (I : In k' (map f (seq 0 (length rows)))).
    { eapply Permutation_in; [apply Permutation_sym, Q|]. apply in_seq. lia. }
    apply in_map_iff in I. destruct I as (k & E & Hk). apply in_seq in Hk. exists k. split; [lia | exact E].
  - intros ys' Ly. split; [rewrite map_length, seq_length; reflexivity|]. split; [exact Ly|].
    exists (combine c (map (fun k => nth (f k) ys' 0) (seq 0 (length rows)))). split.
    + apply Permutation_sym, Permutation_nth_error. rewrite !combine_length, map_length, seq_length. split; [lia|].
      exists f. split; [exact Inj|]. intros n. rewrite !nth_error_combine, <- Hf.
      destruct (nth_error c n) as [r|] eqn:Er; [|reflexivity].
      assert (Hn : (n < length rows)%nat) by (rewrite LF; apply nth_error_Some; congruence).
      rewrite nth_error_map. rewrite (nth_error_nth' (seq 0 (length rows)) 0%nat) by (rewrite seq_length; exact Hn).
      rewrite seq_nth by exact Hn. cbn [option_map]. rewrite (nth_error_nth' ys' 0) by (rewrite Ly; apply B; exact Hn). reflexivity.
    + apply Forall2_from_nth; [rewrite !combine_length, !map_length; lia|]. intros k [r x] [r' x']. rewrite !nth_error_combine.
      destruct (nth_error rows k) as [r0|] eqn:Er; [|discriminate]. destruct (nth_error c k) as [r0'|] eqn:Er'; [|discriminate].
      assert (Hk : (k < length rows)%nat) by (apply nth_error_Some; congruence).
      rewrite !nth_error_map, (nth_error_nth' (seq 0 (length rows)) 0%nat) by (rewrite seq_length; exact Hk). rewrite seq_nth by exact Hk.
      cbn [option_map]. intros X X'. injection X as <- <-. injection X' as <- <-. exists (nth k bs false). cbn [fst snd]. split.
      * apply (Hb k); [exact Er | apply nth_error_nth'; lia | exact Er'].
      * rewrite turned_twice. reflexivity.
Qed.
Lemma mirrored_system solve rows xs rows' xs' v : SolveSpec solve -> matched rows xs rows' xs' ->
  solve (sys_matrix rows) (sys_rhs rows v) = Ok xs -> solve (sys_matrix rows') (sys_rhs rows' (across v)) = Ok xs'.
Proof.
  intros HS M E. pose proof M as (L & L' & d & Hd & F).
  assert (Sq : forall l, square (sys_matrix l)) by (intros l; apply square_map_map).
  assert (Ln : forall l u, length (sys_rhs l u) = length (sys_matrix l)) by (intros; unfold sys_rhs, sys_matrix; rewrite !map_length; reflexivity).
  apply HS in E; auto. destruct E as [E U]. apply HS; auto. rewrite solves_iff in *.
  split; [apply (matched_solution _ _ _ _ v M); exact E|].
  intros ys' Hy. apply solves_iff in Hy. pose proof Hy as [Ly _].
  assert (Hc : Permutation (map fst d) rows' /\ Forall2 (fun r r' => exists k, sys_mirror k r r') rows (map fst d)).
  { split.
    - eapply Permutation_trans; [apply Permutation_map, Hd|]. rewrite map_fst_combine by exact L'. apply Permutation_refl.
    - rewrite <- (map_fst_combine rows xs L) at 1. clear -F. induction F as [|x y l m (k & H & _) _ IH]; cbn; constructor; eauto. }
  destruct (matched_back rows (map fst d) rows' (proj1 Hc) (proj2 Hc)) as (f & b & Onto & Back).
  assert (X : forall zs, sys_solution rows' zs (across v) -> map (fun k => mirrored_strength (b k) (nth (f k) zs 0)) (seq 0 (length rows)) = xs).
  { intros zs Hz. apply U. apply solves_iff. apply (matched_solution _ _ _ _ v (Back zs (proj1 Hz))). exact Hz. }
  pose proof (X ys' Hy) as X1. pose proof (X xs' (proj2 (matched_solution _ _ _ _ v M) E)) as X2.
  apply nth_ext with (d := 0) (d' := 0); [lia|]. intros k' Hk'. rewrite Ly in Hk'. destruct (Onto k' Hk') as (k & Hk & <-).
  apply (f_equal (fun l => nth_error l k)) in X1, X2. rewrite nth_error_map in X1, X2.
  rewrite (nth_error_nth' (seq 0 (length rows)) 0%nat) in X1, X2 by (rewrite seq_length; exact Hk). rewrite seq_nth in X1, X2 by exact Hk.
  cbn [option_map] in X1, X2. rewrite <- X2 in X1. injection X1 as X1. rewrite <- (turned_twice (b k) (nth (f k) ys' 0)), X1. apply turned_twice.
Qed.
End System.

(** ** Loads of mirrored panels and airplanes *)
Lemma mirrored_panel_loads op op' k p p' q q' f m f' m' : mirrored_flow op op' -> mirrored_panel k p p' -> f' = across f -> m' = across_moment m ->
  q = loaded op p (f, m) -> q' = loaded op' p' (f', m') -> mirrored_loads q q'.
Proof.
  intros Hop Hp -> -> -> ->. pose proof Hop as (Hd & Hv & _). destruct (mirrored_panel_points k p p' Hp) as (_ & _ & _ & _ & Ar).
  unfold loaded, mirrored_loads. cbn [fst snd p_set_loads p_force_geometry p_moment_geometry p_force_wind p_moment_wind
    p_induced_drag_coefficient p_side_force_coefficient p_lift_coefficient option_map].
  rewrite (mirrored_to_wind op op' f Hop), (mirrored_to_wind_moment op op' m Hop), Ar.
  assert (Q : dynamic_pressure op' = dynamic_pressure op) by (unfold dynamic_pressure; rewrite Hd, Hv; reflexivity). rewrite Q.
  repeat (split; [reflexivity|]). split; [|reflexivity]. f_equal. unfold across. cbn. unfold Rdiv. ring.
Qed.

(** What load processing leaves behind. *)
Definition loads_from (op : operating_point) (p : panel) : Prop :=
  exists p0 f m, same_panel p0 p /\ p = loaded op p0 (f, m).
Definition totals_from (op : operating_point) (a : airplane) : Prop :=
  exists fs ms, map p_force_geometry (airplane_panels a) = map Some fs /\ map p_moment_geometry (airplane_panels a) = map Some ms /\
    let rot := mtrans (rotation_wind_to_geometry op) in let q := dynamic_pressure op in
    let f := mvmul rot (vsum fs) in let m := mvmul rot (vsum ms) in
    a_force_wind a = Some f /\ a_moment_wind a = Some m /\ a_force_coefficients a = Some (force_coefficients f q (a_s_ref a)) /\
    a_moment_coefficients a = Some (moment_coefficients m q (a_s_ref a) (a_b_ref a) (a_c_ref a)).
Lemma processed op fs ms l l' : process_forces op fs ms l = Ok l' ->
  forall a, In a l' -> totals_from op a /\ forall p, In p (airplane_panels a) -> loads_from op p.
Proof.
  intros E a Ha. apply process_forces_sound in E. destruct E as (us & rest & _ & F).
  induction F as [|a0 u a' l us l' H _ IH]; [destruct Ha|]. destruct Ha as [->|Ha]; [|auto]. clear IH.
  destruct H as (Hs & Hp & L & H1 & H2 & H3 & H4). destruct Hs as (_ & _ & _ & _ & Es & Ec & Eb & _). rewrite <- Es, <- Ec, <- Eb in *. split.
  - exists (map fst u), (map snd u). rewrite Hp. repeat split; auto.
    + clear -L. revert u L. induction (airplane_panels a0) as [|p ps IH]; intros [|x u]; cbn; try discriminate; intros L; f_equal; auto.
    + clear -L. revert u L. induction (airplane_panels a0) as [|p ps IH]; intros [|x u]; cbn; try discriminate; intros L; f_equal; auto.
  - rewrite Hp. clear. generalize (airplane_panels a0). intros l p. revert u. induction l as [|q l IH]; intros [|[f m] u]; cbn [map2 In]; try tauto.
    intros [<-|Hin]; [|eauto]. exists q, f, m. split; [apply loaded_same | reflexivity].
Qed.
Lemma same_panel_area p q : same_panel p q -> p_area q = p_area p.
Proof.
  intros (H1 & H2 & H3 & H4 & _). unfold p_area, p_cross, p_first_diagonal, p_second_diagonal. rewrite H1, H2, H3, H4. reflexivity.
Qed.
Lemma mirrored_loads_from op op' k p p' f m : mirrored_flow op op' -> mirrored_panel k p p' -> loads_from op p -> loads_from op' p' ->
  p_force_geometry p = Some f -> p_moment_geometry p = Some m ->
  p_force_geometry p' = Some (across f) -> p_moment_geometry p' = Some (across_moment m) -> mirrored_loads p p'.
Proof.
  intros Hop Hp (p0 & f0 & m0 & Hs & ->) (p0' & f0' & m0' & Hs' & ->) E1 E2 E3 E4.
  cbn in E1, E2, E3, E4. injection E1 as ->. injection E2 as ->. injection E3 as ->. injection E4 as ->.
  eapply (mirrored_panel_loads op op' k p0 p0'); try reflexivity; auto.
Qed.
Lemma mirrored_totals_from op op' (Q : bool -> panel -> panel -> Prop) a a' : mirrored_flow op op' -> (forall k p p', Q k p p' -> mirrored_loads p p') ->
  mirrored_airplane Q a a' -> totals_from op a -> totals_from op' a' -> mirrored_totals a a'.
Proof.
  intros Hop HQ Hm (fs & ms & E1 & E2 & T1 & T2 & T3 & T4) (fs' & ms' & E1' & E2' & T1' & T2' & T3' & T4').
  destruct (mirror_airplane_flat Q a a' Hm) as (c & Hc & F). destruct Hm as (_ & Hs & Hcr & Hb & _).
  assert (X : vsum fs' = across (vsum fs) /\ vsum ms' = across_moment (vsum ms)).
  { assert (Y : exists gs ns, map p_force_geometry c = map Some gs /\ map p_moment_geometry c = map Some ns /\
                              vsum gs = across (vsum fs) /\ vsum ns = across_moment (vsum ms)).
    { exists (map across fs), (map across_moment ms). rewrite across_vsum, across_moment_vsum. repeat split.
      - clear -F HQ E1. revert fs E1. induction F as [|p p' l l' (k & H) _ IH]; intros [|f fs]; cbn; try discriminate; auto.
        intros E. apply cons_eq' in E. destruct E as [E Es]. f_equal; auto. destruct (HQ _ _ _ H) as (-> & _). rewrite E. reflexivity.
      - clear -F HQ E2. revert ms E2. induction F as [|p p' l l' (k & H) _ IH]; intros [|f fs]; cbn; try discriminate; auto.
        intros E. apply cons_eq' in E. destruct E as [E Es]. f_equal; auto. destruct (HQ _ _ _ H) as (_ & -> & _). rewrite E. reflexivity. }
    destruct Y as (gs & ns & Y1 & Y2 & <- & <-).
    assert (Pm : forall (A : Type) (l m : list A), Permutation (map Some l) (map Some m) -> Permutation l m).
    { intros A l m H. apply (Permutation_map (fun o => match o with Some x => [x] | None => [] end)) in H.
      apply (Permutation_flat_map (fun l => l)) in H.
      assert (Z : forall k : list A, flat_map (fun l => l) (map (fun o => match o with Some x => [x] | None => [] end) (map Some k)) = k).
      { intros k. induction k as [|x k IH]; cbn; [reflexivity | f_equal; exact IH]. }
      rewrite !Z in H. exact H. }
    split; apply vsum_perm, Pm.
    - rewrite <- E1', <- Y1. apply Permutation_map, Permutation_sym, Hc.
    - rewrite <- E2', <- Y2. apply Permutation_map, Permutation_sym, Hc. }
  destruct X as [X1 X2]. pose proof Hop as (Hd & Hv & _).
  assert (Qp : dynamic_pressure op' = dynamic_pressure op) by (unfold dynamic_pressure; rewrite Hd, Hv; reflexivity).
  unfold mirrored_totals. rewrite T1, T2, T3, T4, T1', T2', T3', T4', X1, X2, Hs, Hcr, Hb, Qp.
  rewrite (mirrored_to_wind op op' _ Hop), (mirrored_to_wind_moment op op' _ Hop). cbn [option_map].
  repeat split; f_equal; unfold force_coefficients, moment_coefficients, across, across_moment; cbn [vx vy vz]; apply vec_ext; cbn [vx vy vz]; unfold Rdiv; ring.
Qed.
