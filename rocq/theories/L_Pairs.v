(** Lists whose elements belong together pairwise, in any order, and linear systems with
    paired rows and columns. *)
From Coq Require Import List Lia Lra Reals Permutation.
From Verif Require Import M_Unsteady S_Solve S_Loads S_Mirror S_Image L_Base L_Loads L_Horseshoe L_SteadyRing L_Mirror.
Import ListNotations.
Local Open Scope R_scope.
Local Open Scope list_scope.

Section Pairs.
Context {A B : Type} (f : nat -> nat).
Implicit Types P Q : nat -> A -> B -> Prop.
Lemma pairs_onto P l l' : pairs f P l l' -> forall k', (k' < length l')%nat -> exists k, (k < length l)%nat /\ f k = k'.
Proof.
  intros (L & Inj & H) k' Hk'.
  assert (Q : Permutation (map f (seq 0 (length l))) (seq 0 (length l))).
  { apply NoDup_Permutation_bis.
    - apply map_NoDup; [|apply seq_NoDup]. intros i j Hi Hj. apply in_seq in Hi, Hj. apply Inj; lia.
    - rewrite map_length. lia.
    - intros i Hi. apply in_map_iff in Hi. destruct Hi as (k & <- & Hk). apply in_seq in Hk.
      destruct (nth_error l k) as [x|] eqn:E; [|apply nth_error_None in E; lia].
      destruct (H k x E) as (x' & E' & _). apply in_seq. split; [lia|]. cbn. rewrite <- L. apply nth_error_Some. congruence. }
  assert (I : In k' (map f (seq 0 (length l)))) by (eapply Permutation_in; [apply Permutation_sym, Q | apply in_seq; lia]).
  apply in_map_iff in I. destruct I as (k & E & Hk). apply in_seq in Hk. exists k. split; [lia | exact E].
Qed.
Lemma pairs_back P l l' k' x' : pairs f P l l' -> nth_error l' k' = Some x' -> exists k x, f k = k' /\ nth_error l k = Some x /\ P k x x'.
Proof.
  intros HP Hx'. assert (Hk' : (k' < length l')%nat) by (apply nth_error_Some; congruence).
  destruct (pairs_onto P l l' HP k' Hk') as (k & Hk & Ek). destruct (nth_error l k) as [x|] eqn:Ex; [|apply nth_error_None in Ex; lia].
  exists k, x. split; [exact Ek|]. split; [exact Ex|]. destruct HP as (_ & _ & H). destruct (H k x Ex) as (y & Hy & HP). rewrite Ek, Hx' in Hy. congruence.
Qed.
Lemma pairs_impl P Q l l' : pairs f P l l' ->
  (forall k x x', nth_error l k = Some x -> nth_error l' (f k) = Some x' -> P k x x' -> Q k x x') -> pairs f Q l l'.
Proof.
  intros (L & Inj & H) HQ. split; [exact L|]. split; [exact Inj|]. intros k x Hx. destruct (H k x Hx) as (x' & Hx' & HP). exists x'. split; [exact Hx' | auto].
Qed.
Lemma pairs_both P Q l l' : pairs f P l l' -> pairs f Q l l' -> pairs f (fun k x x' => P k x x' /\ Q k x x') l l'.
Proof.
  intros HP (_ & _ & HQ). apply (pairs_impl _ _ _ _ HP). intros k x x' Hx Hx' H. split; [exact H|].
  destruct (HQ k x Hx) as (y & Hy & HQ'). congruence.
Qed.
Lemma pairs_perm P l l' : pairs f P l l' -> exists m, Permutation m l' /\ Forall2 (fun x x' => exists k, P k x x') l m.
Proof.
  intros HP. pose proof HP as (L & Inj & H).
  destruct (list_choice (fun k x y => nth_error l' (f k) = Some y /\ P k x y) l H) as (m & Lm & Hm).
  exists m. split.
  - apply Permutation_sym, Permutation_nth_error. split; [lia|].
    exists (fun n => if (n <? length l)%nat then f n else n).
    split.
    + intros i j. destruct (Nat.ltb_spec i (length l)), (Nat.ltb_spec j (length l)); intros Eij; auto.
      * destruct (nth_error l i) as [x|] eqn:E; [|apply nth_error_None in E; lia].
        destruct (H i x E) as (x' & E' & _). assert (f i < length l')%nat by (apply nth_error_Some; congruence). lia.
      * destruct (nth_error l j) as [x|] eqn:E; [|apply nth_error_None in E; lia].
        destruct (H j x E) as (x' & E' & _). assert (f j < length l')%nat by (apply nth_error_Some; congruence). lia.
    + intros n. destruct (Nat.ltb_spec n (length l)).
      * destruct (nth_error l n) as [x|] eqn:E; [|apply nth_error_None in E; lia].
        destruct (nth_error m n) as [y|] eqn:Em; [|apply nth_error_None in Em; lia].
        symmetry. apply (Hm n x y E Em).
      * rewrite (proj2 (nth_error_None m n)), (proj2 (nth_error_None l' n)) by lia. reflexivity.
  - apply Forall2_from_nth; [lia|]. intros k x y Hx Hy. exists k. apply (Hm k x y Hx Hy).
Qed.
End Pairs.

Section PairsMore.
Context (f : nat -> nat).
Lemma pairs_map {A B C D} (g : A -> C) (h : B -> D) (P : nat -> C -> D -> Prop) l l' :
  pairs f (fun k x x' => P k (g x) (h x')) l l' -> pairs f P (map g l) (map h l').
Proof.
  intros (L & Inj & H). rewrite <- (map_length g l) in Inj. split; [rewrite !map_length; exact L|]. split; [exact Inj|].
  intros k y Hy. rewrite nth_error_map in Hy. destruct (nth_error l k) as [x|] eqn:E; [|discriminate]. cbn in Hy. apply (f_equal (fun o => match o with Some z => z | None => y end)) in Hy. subst y.
  destruct (H k x E) as (x' & Hx' & HP). exists (h x'). rewrite nth_error_map, Hx'. auto.
Qed.
Lemma pairs_map_inv {A B C D} (g : A -> C) (h : B -> D) (P : nat -> C -> D -> Prop) l l' :
  pairs f P (map g l) (map h l') -> pairs f (fun k x x' => P k (g x) (h x')) l l'.
Proof.
  intros (L & Inj & H). rewrite !map_length in *. split; [exact L|]. split; [exact Inj|].
  intros k x Hx. destruct (H k (g x)) as (y & Hy & HP); [rewrite nth_error_map, Hx; reflexivity|]. rewrite nth_error_map in Hy.
  destruct (nth_error l' (f k)) as [x'|]; [|discriminate]. exists x'. split; [reflexivity|]. cbn in Hy. congruence.
Qed.
Lemma pairs_map2 {A B C A' B' C'} (g : A -> B -> C) (g' : A' -> B' -> C') (P : nat -> A -> A' -> Prop) (Q : nat -> B -> B' -> Prop) (T : nat -> C -> C' -> Prop) l m l' m' :
  (forall k x y x' y', nth_error l k = Some x -> nth_error m k = Some y -> P k x x' -> Q k y y' -> T k (g x y) (g' x' y')) -> length l = length m -> pairs f P l l' -> pairs f Q m m' -> pairs f T (map2 g l m) (map2 g' l' m').
Proof.
  intros HT E (L & Inj & H) (L' & _ & H').
  assert (E1 : length (map2 g l m) = length l) by (rewrite map2_length; lia). assert (E2 : length (map2 g' l' m') = length l) by (rewrite map2_length; lia).
  split; [lia|]. rewrite E1. split; [exact Inj|]. intros k z Hz. rewrite nth_error_map2 in Hz.
  destruct (nth_error l k) as [x|] eqn:Ex; [|discriminate]. destruct (nth_error m k) as [y|] eqn:Ey; [|discriminate].
  destruct (H k x Ex) as (x' & Hx' & HP). destruct (H' k y Ey) as (y' & Hy' & HQ). exists (g' x' y'). rewrite nth_error_map2, Hx', Hy'. split; [reflexivity|].
  injection Hz as <-. auto.
Qed.
Lemma pairs_vsum (F : vec -> vec) (l l' : list vec) : F vzero = vzero -> (forall u v, F (vadd u v) = vadd (F u) (F v)) ->
  pairs f (fun _ v v' => v' = F v) l l' -> vsum l' = F (vsum l).
Proof.
  intros F0 FA HP. destruct (pairs_perm f _ _ _ HP) as (m & Hm & H). rewrite <- (vsum_perm _ _ Hm). clear Hm HP.
  induction H as [|v v' l m [_ ->] _ IH]; [symmetry; exact F0|]. rewrite !vsum_cons, FA, IH. reflexivity.
Qed.
Lemma rsum_perm l m : Permutation l m -> rsum l = rsum m.
Proof. intros H. induction H; rewrite ?rsum_cons in *; try congruence; lra. Qed.
Lemma pairs_rsum c (l l' : list R) : pairs f (fun _ v v' => v' = c * v) l l' -> rsum l' = c * rsum l.
Proof.
  intros HP. destruct (pairs_perm f _ _ _ HP) as (m & Hm & H). rewrite <- (rsum_perm _ _ Hm). clear Hm HP.
  induction H as [|v v' l m [_ ->] _ IH]; [change (rsum []) with 0; lra|]. rewrite !rsum_cons, IH. lra.
Qed.
Lemma pairs_det {A B} (g : nat -> A -> B) l l1 l2 : pairs f (fun k x x' => x' = g k x) l l1 -> pairs f (fun k x x' => x' = g k x) l l2 -> l1 = l2.
Proof.
  intros H1 H2. pose proof H1 as (L1 & _ & _). pose proof H2 as (L2 & _ & T2). apply nth_error_ext. intros i. destruct (nth_error l1 i) as [y|] eqn:E.
  - destruct (pairs_back f _ _ _ _ _ H1 E) as (k & x & <- & Hx & ->). destruct (T2 k x Hx) as (y' & Hy' & ->). symmetry. exact Hy'.
  - symmetry. apply nth_error_None. apply nth_error_None in E. lia.
Qed.

(** ** Linear systems *)
Definition signs (sg : nat -> R) : Prop := forall k, sg k * sg k = 1.
Definition scaled_by (sg : nat -> R) : nat -> R -> R -> Prop := fun k x x' => x' = sg k * x.
Definition matrix_pairs (sg : nat -> R) : list (list R) -> list (list R) -> Prop :=
  pairs f (fun i => pairs f (fun j x x' => x' = sg i * sg j * x)).
Lemma scaled_back sg n ys' : signs sg -> length ys' = n -> (forall k, (k < n)%nat -> (f k < n)%nat) -> (forall i j, (i < n)%nat -> (j < n)%nat -> f i = f j -> i = j) ->
  exists ys, length ys = n /\ pairs f (scaled_by sg) ys ys'.
Proof.
  intros HS L B Inj. exists (map (fun k => sg k * nth (f k) ys' 0) (seq 0 n)). rewrite map_length, seq_length. split; [reflexivity|].
  split; [rewrite map_length, seq_length; exact L|]. rewrite map_length, seq_length. split; [exact Inj|]. intros k x Hx.
  assert (Hk : (k < n)%nat). { assert (X : nth_error (map (fun k => sg k * nth (f k) ys' 0) (seq 0 n)) k <> None) by congruence. apply nth_error_Some in X. rewrite map_length, seq_length in X. exact X. }
  rewrite nth_error_map in Hx. rewrite (nth_error_nth' _ 0%nat) in Hx by (rewrite seq_length; exact Hk). rewrite seq_nth in Hx by exact Hk. cbn in Hx.
  exists (nth (f k) ys' 0). split; [apply nth_error_nth'; rewrite L; auto|]. unfold scaled_by. injection Hx as <-. rewrite <- Rmult_assoc, HS. lra.
Qed.
Lemma scaled_forth sg n xs (l' : list R) : length xs = n -> length l' = n -> (forall k, (k < n)%nat -> (f k < n)%nat) -> (forall i j, (i < n)%nat -> (j < n)%nat -> f i = f j -> i = j) ->
  exists xs', pairs f (scaled_by sg) xs xs'.
Proof.
  intros L L' B Inj.
  destruct (list_choice (fun k' (_ : R) y => forall k x, nth_error xs k = Some x -> f k = k' -> y = sg k * x) l') as (xs' & Lx & H).
  { intros k' z Hz. assert (Hk' : (k' < n)%nat) by (rewrite <- L'; apply nth_error_Some; congruence).
    assert (HP : pairs f (fun _ (_ _ : R) => True) xs l').
    { split; [lia|]. rewrite L. split; [exact Inj|]. intros k x Hx. assert (k < n)%nat by (rewrite <- L; apply nth_error_Some; congruence).
      destruct (nth_error l' (f k)) as [y|] eqn:E; [exists y; auto|]. apply nth_error_None in E. specialize (B k). lia. }
    destruct (pairs_back f _ _ _ _ _ HP Hz) as (k & x & Ek & Hx & _). exists (sg k * x). intros j y Hy Ej.
    assert (j = k). { apply Inj; [rewrite <- L; apply nth_error_Some; congruence | rewrite <- L; apply nth_error_Some; congruence | congruence]. }
    subst j. congruence. }
  exists xs'. split; [lia|]. rewrite L. split; [exact Inj|]. intros k x Hx. assert (Hk : (k < n)%nat) by (rewrite <- L; apply nth_error_Some; congruence).
  destruct (nth_error xs' (f k)) as [y|] eqn:E; [|apply nth_error_None in E; specialize (B k); lia]. exists y. split; [reflexivity|].
  destruct (nth_error l' (f k)) as [z|] eqn:Ez; [|apply nth_error_None in Ez; specialize (B k); lia]. exact (H _ _ _ Ez E k x Hx eq_refl).
Qed.
Lemma matvec_pairs sg a a' xs xs' : signs sg -> square a -> length xs = length a -> matrix_pairs sg a a' -> pairs f (scaled_by sg) xs xs' ->
  pairs f (scaled_by sg) (matvec a xs) (matvec a' xs').
Proof.
  intros HS Hsq L HM HX. unfold matvec. apply pairs_map. apply (pairs_impl f _ _ _ _ HM). intros k row row' Hr _ HP. unfold scaled_by.
  apply pairs_rsum. eapply pairs_map2; [|  | exact HP | exact HX].
  - cbn beta. intros j x y x' y' _ _ -> ->. transitivity (sg k * (x * y) * (sg j * sg j)); [lra|]. rewrite HS. lra.
  - rewrite L. apply Hsq. eapply nth_error_In; exact Hr.
Qed.
Lemma pairs_bound {A B} (P : nat -> A -> B -> Prop) l l' : pairs f P l l' -> (forall k, (k < length l)%nat -> (f k < length l)%nat) /\
  (forall i j, (i < length l)%nat -> (j < length l)%nat -> f i = f j -> i = j).
Proof.
  intros (L & Inj & H). split; [|exact Inj]. intros k Hk. destruct (nth_error l k) as [x|] eqn:E; [|apply nth_error_None in E; lia].
  destruct (H k x E) as (x' & Hx' & _). rewrite <- L. apply nth_error_Some. congruence.
Qed.
Lemma paired_solution solve sg a a' b b' xs : SolveSpec solve -> signs sg -> square a -> square a' -> length b = length a -> matrix_pairs sg a a' -> pairs f (scaled_by sg) b b' ->
  solve a b = Ok xs -> exists xs', solve a' b' = Ok xs' /\ pairs f (scaled_by sg) xs xs'.
Proof.
  intros HS HG Sq Sq' Lb HM HB E. apply HS in E; [|exact Sq | exact Lb]. destruct E as [[Lx Ex] U].
  pose proof (proj1 HM) as La. pose proof (proj1 HB) as Lb'. destruct (pairs_bound _ _ _ HM) as [Bd Inj].
  destruct (scaled_forth sg (length a) xs b' Lx ltac:(lia) Bd Inj) as (xs' & HX). exists xs'. split; [|exact HX].
  pose proof (proj1 HX) as Lx'. apply HS; [exact Sq' | lia|]. split; [split; [lia|]|].
  - pose proof (matvec_pairs sg a a' xs xs' HG Sq Lx HM HX) as HV. rewrite Ex in HV. exact (pairs_det _ _ _ _ HV HB).
  - intros ys' [Ly Ey]. destruct (scaled_back sg (length a) ys' HG ltac:(lia) Bd Inj) as (ys & Lys & HY).
    assert (ys = xs).
    { apply U. split; [exact Lys|]. pose proof (matvec_pairs sg a a' ys ys' HG Sq Lys HM HY) as HV. rewrite Ey in HV.
      apply nth_error_ext. intros i. assert (LV : length (matvec a ys) = length b) by (unfold matvec; rewrite map_length; lia).
      destruct (nth_error b i) as [y|] eqn:Eb; [|apply nth_error_None in Eb; apply nth_error_None; lia].
      destruct (nth_error (matvec a ys) i) as [z|] eqn:Ez; [|apply nth_error_None in Ez; assert (i < length b)%nat by (apply nth_error_Some; congruence); lia].
      destruct HV as (_ & _ & HV). destruct HB as (_ & _ & HB). destruct (HV i z Ez) as (u & Hu & Eu). destruct (HB i y Eb) as (v & Hv & Ev). unfold scaled_by in *.
      f_equal. assert (X : sg i * z = sg i * y) by congruence. apply (f_equal (fun q => sg i * q)) in X. rewrite <- !Rmult_assoc, HG in X. lra. }
    subst ys. exact (pairs_det _ _ _ _ HY HX).
Qed.
End PairsMore.

(** ** Lists of lists *)
(** For every number [k] below [n] the elements of [g k], marked with [k]. *)
Definition tagged {A} (n : nat) (g : nat -> list A) : list (nat * A) := concat (map (fun k => map (pair k) (g k)) (seq 0 n)).
Lemma in_tagged {A} n (g : nat -> list A) k x : In (k, x) (tagged n g) <-> (k < n)%nat /\ In x (g k).
Proof.
  unfold tagged. rewrite in_concat. setoid_rewrite in_map_iff. split.
  - intros (l & (k' & <- & Hk) & Hin). apply in_map_iff in Hin. destruct Hin as (y & E & Hy). injection E as -> ->. apply in_seq in Hk. split; [lia | exact Hy].
  - intros [Hk Hx]. exists (map (pair k) (g k)). split; [exists k; split; [reflexivity | apply in_seq; lia]|]. apply in_map; exact Hx.
Qed.
Lemma NoDup_concat' {A} (ls : list (list A)) : Forall (@NoDup A) ls ->
  (forall i j x, (i < j)%nat -> (exists l, nth_error ls i = Some l /\ In x l) -> (exists l, nth_error ls j = Some l /\ In x l) -> False) -> NoDup (concat ls).
Proof.
  induction ls as [|l ls IH]; intros F H; [constructor|]. apply Forall_cons_iff in F. destruct F as [F1 F2]. cbn [concat].
  assert (IHc : NoDup (concat ls)).
  { apply IH; [exact F2|]. intros i j x Hij (l1 & H1 & I1) (l2 & H2 & I2). apply (H (S i) (S j) x); [lia | exists l1; auto | exists l2; auto]. }
  clear IH F2. assert (D : forall x, In x l -> ~ In x (concat ls)).
  { intros x Hx Hc. apply in_concat in Hc. destruct Hc as (l' & Hl' & Hx'). apply In_nth_error in Hl'. destruct Hl' as [j Hj].
    apply (H 0%nat (S j) x); [lia | exists l; auto | exists l'; auto]. }
  clear H. induction l as [|x l IH]; [exact IHc|]. inversion F1; subst. cbn. constructor; [|apply IH; [assumption | intros y Hy; apply D; right; exact Hy]].
  intros Hin. apply in_app_or in Hin. destruct Hin as [Hin|Hin]; [contradiction|]. exact (D x (or_introl eq_refl) Hin).
Qed.
Lemma tagged_NoDup {A} n (g : nat -> list A) : (forall k, NoDup (g k)) -> NoDup (tagged n g).
Proof.
  intros H. unfold tagged. apply NoDup_concat'.
  - apply Forall_forall. intros l Hl. apply in_map_iff in Hl. destruct Hl as (k & <- & _). apply map_NoDup; [|apply H]. intros x y _ _ E. congruence.
  - intros i j [k x] Hij (l1 & H1 & I1) (l2 & H2 & I2). rewrite nth_error_map in H1, H2.
    destruct (nth_error (seq 0 n) i) as [i'|] eqn:Ei; [|discriminate]. destruct (nth_error (seq 0 n) j) as [j'|] eqn:Ej; [|discriminate]. cbn in H1, H2. injection H1 as <-. injection H2 as <-.
    apply in_map_iff in I1, I2. destruct I1 as (? & E1 & _), I2 as (? & E2 & _). assert (i' = j') by congruence. subst j'.
    assert (Li : (i < length (seq 0 n))%nat) by (apply nth_error_Some; congruence). assert (Lj : (j < length (seq 0 n))%nat) by (apply nth_error_Some; congruence).
    rewrite (nth_error_nth' _ 0%nat Li) in Ei. rewrite (nth_error_nth' _ 0%nat Lj) in Ej. rewrite seq_length in Li, Lj. rewrite seq_nth in Ei by lia. rewrite seq_nth in Ej by lia. cbn in Ei, Ej. injection Ei as <-. injection Ej as E. lia.
Qed.
Lemma tagged_Forall2 {A B C} (P : nat * A -> B -> Prop) (g : nat -> list A) (h : C -> list B) (l : list C) :
  (forall k c, nth_error l k = Some c -> Forall2 (fun x y => P (k, x) y) (g k) (h c)) -> Forall2 P (tagged (length l) g) (concat (map h l)).
Proof.
  intros H. unfold tagged. apply Forall2_concat.
  assert (G : forall n, (forall k c, nth_error l k = Some c -> Forall2 (fun x y => P ((n + k)%nat, x) y) (g (n + k)%nat) (h c)) ->
     Forall2 (Forall2 P) (map (fun k => map (pair k) (g k)) (seq n (length l))) (map h l)).
  { clear H. induction l as [|c l IH]; intros n H; [constructor|]. cbn [length seq map]. constructor.
    - specialize (H 0%nat c eq_refl). rewrite Nat.add_0_r in H. induction H; cbn [map]; constructor; auto.
    - apply IH. intros k c' Hc. specialize (H (S k) c' Hc). rewrite Nat.add_succ_r in H. exact H. }
  apply (G 0%nat). exact H.
Qed.
(** A one-to-one map between two lists of distinct entries gives the numbers of the partners. *)
Lemma renumbered {A} (phi : A -> A) l l' : NoDup l -> NoDup l' -> (forall x, In x l -> In (phi x) l') -> (forall x y, In x l -> In y l -> phi x = phi y -> x = y) ->
  (forall y, In y l' -> exists x, In x l /\ phi x = y) -> exists f, pairs f (fun _ x y => y = phi x) l l'.
Proof.
  intros N N' H Inj Onto. assert (HP : Permutation (map phi l) l').
  { apply NoDup_Permutation; [apply map_NoDup; assumption | exact N'|]. intros y. rewrite in_map_iff. split; [intros (x & <- & Hx); auto | intros Hy; destruct (Onto y Hy) as (x & Hx & E); exists x; auto]. }
  pose proof (Permutation_length HP) as L. rewrite map_length in L. apply Permutation_sym, Permutation_nth_error in HP. destruct HP as (_ & f & Inj' & Hf).
  exists f. split; [lia|]. split; [intros i j _ _; apply Inj'|]. intros k x Hx. exists (phi x). split; [|reflexivity]. rewrite <- Hf, nth_error_map, Hx. reflexivity.
Qed.
