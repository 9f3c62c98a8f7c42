(** Limits of numbers, vectors, lists and solutions of linear systems. *)
From Coq Require Import List Lia Lra Reals.
From Verif Require Import M_Base S_Solve S_Continuous L_Base L_Gauss L_Dominant.
Import ListNotations.
Local Open Scope R_scope.

(** ** Numbers *)
Lemma tends_ext u v x : (forall n, v n = u n) -> tends u x -> tends v x.
Proof. intros E H e He. destruct (H e He) as (N & HN). exists N. intros n Hn. rewrite E. apply HN, Hn. Qed.
Lemma tends_const c : tends (fun _ => c) c.
Proof. intros e He. exists 0%nat. intros n _. rewrite R_dist_eq. exact He. Qed.
Lemma tends_plus u v x y : tends u x -> tends v y -> tends (fun n => u n + v n) (x + y).
Proof. apply CV_plus. Qed.
Lemma tends_minus u v x y : tends u x -> tends v y -> tends (fun n => u n - v n) (x - y).
Proof. apply CV_minus. Qed.
Lemma tends_mult u v x y : tends u x -> tends v y -> tends (fun n => u n * v n) (x * y).
Proof. apply CV_mult. Qed.
Lemma tends_cont f u x : continuity_pt f x -> tends u x -> tends (fun n => f (u n)) (f x).
Proof. intros H. apply continuity_seq, H. Qed.
Lemma tends_opp u x : tends u x -> tends (fun n => - u n) (- x).
Proof. apply CV_opp. Qed.
Lemma tends_abs u x : tends u x -> tends (fun n => Rabs (u n)) (Rabs x).
Proof. apply cv_cvabs. Qed.
Lemma tends_inv u x : x <> 0 -> tends u x -> tends (fun n => / u n) (/ x).
Proof.
  intros Hx. apply (tends_cont Rinv). apply (continuity_pt_inv (fun y => y)); [apply derivable_continuous_pt, derivable_pt_id | exact Hx].
Qed.
Lemma tends_div u v x y : y <> 0 -> tends u x -> tends v y -> tends (fun n => u n / v n) (x / y).
Proof. intros Hy Hu Hv. apply tends_mult; [exact Hu | apply tends_inv; assumption]. Qed.
Lemma tends_pow u x k : tends u x -> tends (fun n => u n ^ k) (x ^ k).
Proof. intros H. induction k as [|k IH]; cbn [pow]; [apply tends_const | apply tends_mult; assumption]. Qed.
Lemma tends_sqrt u x : 0 <= x -> tends u x -> tends (fun n => sqrt (u n)) (sqrt x).
Proof. intros Hx. apply tends_cont, continuity_pt_sqrt, Hx. Qed.
Lemma tends_sin u x : tends u x -> tends (fun n => sin (u n)) (sin x).
Proof. apply tends_cont, continuity_sin. Qed.
Lemma tends_cos u x : tends u x -> tends (fun n => cos (u n)) (cos x).
Proof. apply tends_cont, continuity_cos. Qed.
Lemma tends_eventually u v x N : (forall n, (N <= n)%nat -> v n = u n) -> tends u x -> tends v x.
Proof. intros E H e He. destruct (H e He) as (M & HM). exists (Nat.max N M). intros n Hn. rewrite E by lia. apply HM. lia. Qed.
Lemma tends_below u x c : tends u x -> x < c -> exists N, forall n, (N <= n)%nat -> u n < c.
Proof.
  intros H Hc. destruct (H (c - x) ltac:(lra)) as (N & HN). exists N. intros n Hn. specialize (HN n Hn). unfold R_dist in HN. apply Rabs_def2 in HN. lra.
Qed.
Lemma tends_above u x c : tends u x -> c < x -> exists N, forall n, (N <= n)%nat -> c < u n.
Proof.
  intros H Hc. destruct (H (x - c) ltac:(lra)) as (N & HN). exists N. intros n Hn. specialize (HN n Hn). unfold R_dist in HN. apply Rabs_def2 in HN. lra.
Qed.
Lemma tends_squeeze u v : (forall n, 0 <= u n <= v n) -> tends v 0 -> tends u 0.
Proof.
  intros B H e He. destruct (H e He) as (N & HN). exists N. intros n Hn. specialize (HN n Hn). specialize (B n). unfold R_dist in *. rewrite Rminus_0_r in *. rewrite Rabs_pos_eq in * by lra. lra.
Qed.
Ltac lim := repeat first
  [ assumption
  | match goal with
    | |- tends (fun _ => ?c) ?c => apply (tends_const c)
    | |- tends (fun n => @?f n + @?g n) (?a + ?b) => apply (tends_plus f g a b)
    | |- tends (fun n => @?f n - @?g n) (?a - ?b) => apply (tends_minus f g a b)
    | |- tends (fun n => @?f n * @?g n) (?a * ?b) => apply (tends_mult f g a b)
    | |- tends (fun n => - @?f n) (- ?a) => apply (tends_opp f a)
    | |- tends (fun n => Rabs (@?f n)) (Rabs ?a) => apply (tends_abs f a)
    | |- tends (fun n => @?f n ^ ?k) (?a ^ ?k) => apply (tends_pow f a k)
    | |- tends (fun n => sin (@?f n)) (sin ?a) => apply (tends_sin f a)
    | |- tends (fun n => cos (@?f n)) (cos ?a) => apply (tends_cos f a)
    | |- tends (fun n => @?f n / @?g n) (?a / ?b) => apply (tends_div f g a b)
    | |- tends (fun n => sqrt (@?f n)) (sqrt ?a) => apply (tends_sqrt f a)
    end ].

(** ** Vectors *)
Lemma vtends_ext u v x : (forall n, v n = u n) -> vtends u x -> vtends v x.
Proof. intros E (A & B & C). repeat split; eapply tends_ext; try eassumption; intros n; cbn; rewrite E; reflexivity. Qed.
Lemma vtends_const c : vtends (fun _ => c) c.
Proof. repeat split; apply tends_const. Qed.
Ltac vlim := intros; repeat match goal with H : vtends _ _ |- _ => destruct H as (? & ? & ?) end; unfold vtends; cbn [vx vy vz]; repeat split; lim.
Lemma vtends_add u v x y : vtends u x -> vtends v y -> vtends (fun n => vadd (u n) (v n)) (vadd x y).
Proof. unfold vadd. vlim. Qed.
Lemma vtends_sub u v x y : vtends u x -> vtends v y -> vtends (fun n => vsub (u n) (v n)) (vsub x y).
Proof. unfold vsub. vlim. Qed.
Lemma vtends_opp u x : vtends u x -> vtends (fun n => vopp (u n)) (vopp x).
Proof. unfold vopp. vlim. Qed.
Lemma vtends_scale k u c x : tends k c -> vtends u x -> vtends (fun n => vscale (k n) (u n)) (vscale c x).
Proof. unfold vscale. vlim. Qed.
Lemma vtends_cross u v x y : vtends u x -> vtends v y -> vtends (fun n => vcross (u n) (v n)) (vcross x y).
Proof. unfold vcross. vlim. Qed.
Lemma tends_dot u v x y : vtends u x -> vtends v y -> tends (fun n => vdot (u n) (v n)) (vdot x y).
Proof. unfold vdot. vlim. Qed.
Lemma tends_norm u x : vtends u x -> tends (fun n => vnorm (u n)) (vnorm x).
Proof. intros H. unfold vnorm. apply tends_sqrt; [unfold vdot; nra | apply tends_dot; assumption]. Qed.
Lemma vtends_div u k x c : c <> 0 -> vtends u x -> tends k c -> vtends (fun n => vdiv (u n) (k n)) (vdiv x c).
Proof. unfold vdiv. vlim. Qed.
Lemma vtends_eventually u v x N : (forall n, (N <= n)%nat -> v n = u n) -> vtends u x -> vtends v x.
Proof. intros E (A & B & C). repeat split; eapply tends_eventually; try eassumption; intros n Hn; cbn; rewrite (E n Hn); reflexivity. Qed.

(** ** Lists *)
Lemma each_ext {A} (T : (nat -> A) -> A -> Prop) u v l : (forall n, v n = u n) -> each T u l -> each T v l.
Proof. intros E H. destruct H as [u E'|u x l a m E' Hx Hl]; [constructor | econstructor; [|exact Hx | exact Hl]]; intros n; rewrite E; apply E'. Qed.
Lemma each_length {A} (T : (nat -> A) -> A -> Prop) u l : each T u l -> forall n, length (u n) = length l.
Proof. intros H. induction H as [u E|u x l a m E Hx Hl IH]; intros n; rewrite E; cbn [length]; [reflexivity | rewrite IH; reflexivity]. Qed.
Lemma each_weaken {A} (T T' : (nat -> A) -> A -> Prop) u l : (forall x a, In a l -> T x a -> T' x a) -> each T u l -> each T' u l.
Proof.
  intros HT H. induction H as [u E|u x l a m E Hx Hl IH]; [constructor; exact E|]. econstructor; [exact E | apply HT; [left; reflexivity | exact Hx] |]. apply IH. intros y b Hb. apply HT. right. exact Hb.
Qed.
Lemma each_map {A B} (T : (nat -> A) -> A -> Prop) (T' : (nat -> B) -> B -> Prop) (f : nat -> A -> B) g u l :
  (forall x a, In a l -> T x a -> T' (fun n => f n (x n)) (g a)) -> each T u l -> each T' (fun n => map (f n) (u n)) (map g l).
Proof.
  intros HT H. induction H as [u E|u x l a m E Hx Hl IH]; [constructor; intros n; rewrite E; reflexivity|].
  cbn [map]. eapply each_cons; [intros n; rewrite E; reflexivity | apply (HT x a); [left; reflexivity | exact Hx] | apply IH; intros y b Hb; apply HT; right; exact Hb].
Qed.
Lemma each_map2 {A B C} (TA : (nat -> A) -> A -> Prop) (TB : (nat -> B) -> B -> Prop) (TC : (nat -> C) -> C -> Prop) (f : nat -> A -> B -> C) g u l v m :
  (forall x a y b, In a l -> In b m -> TA x a -> TB y b -> TC (fun n => f n (x n) (y n)) (g a b)) -> each TA u l -> each TB v m -> each TC (fun n => map2 (f n) (u n) (v n)) (map2 g l m).
Proof.
  intros HT H. revert v m HT. induction H as [u E|u x l a m E Hx Hl IH]; intros v k HT Hk; [constructor; intros n; rewrite E; reflexivity|].
  destruct Hk as [v E'|v y l' b k E' Hy Hk]; [constructor; intros n; rewrite E, E'; reflexivity|].
  cbn [map2]. eapply each_cons; [intros n; rewrite E, E'; reflexivity | apply (HT x a y b); [left; reflexivity | left; reflexivity | exact Hx | exact Hy] |].
  apply IH; [|exact Hk]. intros x' a' y' b' Ha Hb. apply HT; right; assumption.
Qed.
Definition both {A B} (TA : (nat -> A) -> A -> Prop) (TB : (nat -> B) -> B -> Prop) (u : nat -> A * B) (p : A * B) : Prop :=
  TA (fun n => fst (u n)) (fst p) /\ TB (fun n => snd (u n)) (snd p).
Lemma each_combine {A B} (TA : (nat -> A) -> A -> Prop) (TB : (nat -> B) -> B -> Prop) u l v m :
  each TA u l -> each TB v m -> each (fun w p => exists x y, (forall n, w n = (x n, y n)) /\ TA x (fst p) /\ TB y (snd p)) (fun n => combine (u n) (v n)) (combine l m).
Proof.
  intros H. revert v m. induction H as [u E|u x l a m E Hx Hl IH]; intros v k Hk; [constructor; intros n; rewrite E; reflexivity|].
  destruct Hk as [v E'|v y l' b k E' Hy Hk]; [constructor; intros n; rewrite E, E'; reflexivity|].
  cbn [combine]. eapply each_cons; [intros n; rewrite E, E'; reflexivity | exists x, y; auto | apply IH, Hk].
Qed.
Lemma each_app {A} (T : (nat -> A) -> A -> Prop) u l v m : each T u l -> each T v m -> each T (fun n => u n ++ v n) (l ++ m).
Proof.
  intros H Hv. induction H as [u E|u x l a k E Hx Hl IH]; cbn [app]; [eapply each_ext; [|exact Hv]; intros n; rewrite E; reflexivity|].
  eapply each_cons; [intros n; rewrite E; reflexivity | exact Hx | exact IH].
Qed.
Lemma each_concat {A} (T : (nat -> A) -> A -> Prop) u l : each (each T) u l -> each T (fun n => concat (u n)) (concat l).
Proof.
  intros H. induction H as [u E|u x l a m E Hx Hl IH]; [constructor; intros n; rewrite E; reflexivity|].
  cbn [concat]. eapply each_ext; [|apply each_app; [exact Hx | exact IH]]. intros n. rewrite E. reflexivity.
Qed.
Lemma each_const {A} (T : (nat -> A) -> A -> Prop) l : (forall a, In a l -> T (fun _ => a) a) -> each T (fun _ => l) l.
Proof. induction l as [|a l IH]; intros H; [constructor; reflexivity|]. eapply each_cons; [intros n; reflexivity | apply H; left; reflexivity | apply IH; intros b Hb; apply H; right; exact Hb]. Qed.
Lemma each_tl {A} (T : (nat -> A) -> A -> Prop) u a l : each T u (a :: l) -> exists x v, (forall n, u n = x n :: v n) /\ T x a /\ each T v l.
Proof. intros H. inversion H; subst. eauto. Qed.
Lemma each_nth {A} (T : (nat -> A) -> A -> Prop) u l i a : each T u l -> nth_error l i = Some a -> exists x, (forall n, nth_error (u n) i = Some (x n)) /\ T x a.
Proof.
  intros H. revert i. induction H as [u E|u x l b m E Hx Hl IH]; intros [|i] Hi; try discriminate.
  - injection Hi as <-. exists x. split; [intros n; rewrite E; reflexivity | exact Hx].
  - destruct (IH i Hi) as (y & Hy & Ty). exists y. split; [intros n; rewrite E; apply Hy | exact Ty].
Qed.
Lemma tends_rsum u l : each tends u l -> tends (fun n => rsum (u n)) (rsum l).
Proof.
  intros H. induction H as [u E|u x l a m E Hx Hl IH]; [eapply tends_ext; [|apply tends_const]; intros n; rewrite E; reflexivity|].
  rewrite rsum_cons. eapply tends_ext; [|apply (tends_plus _ _ _ _ Hx IH)]. intros n. cbn. rewrite E, rsum_cons. reflexivity.
Qed.
Lemma vtends_vsum u l : each vtends u l -> vtends (fun n => vsum (u n)) (vsum l).
Proof.
  intros H. unfold vsum. assert (G : forall s c, vtends s c -> vtends (fun n => fold_left vadd (u n) (s n)) (fold_left vadd l c)); [|apply G, vtends_const].
  induction H as [u E|u x l a m E Hx Hl IH]; intros s c Hs; [eapply vtends_ext; [|exact Hs]; intros n; rewrite E; reflexivity|].
  cbn [fold_left]. eapply vtends_ext; [|apply (IH (fun n => vadd (s n) (x n)) (vadd c a)), vtends_add; assumption]. intros n. rewrite E. reflexivity.
Qed.

(** ** Functions that may fail *)
Definition settles {A} (T : (nat -> A) -> A -> Prop) (r : nat -> result A) (r0 : result A) : Prop :=
  forall a, r0 = Ok a -> exists u N, (forall n, (N <= n)%nat -> r n = Ok (u n)) /\ T u a.
Lemma settles_ext {A} (T : (nat -> A) -> A -> Prop) r r' r0 : (forall n, r' n = r n) -> settles T r r0 -> settles T r' r0.
Proof. intros E H a Ha. destruct (H a Ha) as (u & N & Hu & HT). exists u, N. split; [intros n Hn; rewrite E; apply Hu, Hn | exact HT]. Qed.
Lemma settles_Ok {A} (T : (nat -> A) -> A -> Prop) u a : T u a -> settles T (fun n => Ok (u n)) (Ok a).
Proof. intros H b E. assert (a = b) by congruence. subst b. exists u, 0%nat. split; [reflexivity | exact H]. Qed.
Lemma settles_Err {A} (T : (nat -> A) -> A -> Prop) r e : settles T r (Err e).
Proof. intros a E. discriminate. Qed.
Lemma settles_bind {A B} (TA : (nat -> A) -> A -> Prop) (TB : (nat -> B) -> B -> Prop) r r0 (f : nat -> A -> result B) g :
  settles TA r r0 -> (forall u a, r0 = Ok a -> TA u a -> settles TB (fun n => f n (u n)) (g a)) -> settles TB (fun n => bind (r n) (f n)) (bind r0 g).
Proof.
  intros H HF b Hb. destruct r0 as [a|e]; [|discriminate]. cbn [bind] in Hb. destruct (H a eq_refl) as (u & N & Hu & HT). destruct (HF u a eq_refl HT b Hb) as (v & M & Hv & HTb).
  exists v, (Nat.max N M). split; [|exact HTb]. intros n Hn. rewrite Hu by lia. cbn [bind]. apply Hv. lia.
Qed.
Lemma settles_mapM {A B} (TA : (nat -> A) -> A -> Prop) (TB : (nat -> B) -> B -> Prop) (f : nat -> A -> result B) g u l :
  (forall x a, In a l -> TA x a -> settles TB (fun n => f n (x n)) (g a)) -> each TA u l -> settles (each TB) (fun n => mapM (f n) (u n)) (mapM g l).
Proof.
  intros HF H. induction H as [u E|u x l a m E Hx Hl IH].
  - eapply settles_ext; [|apply (settles_Ok (each TB) (fun _ => []) []); constructor; reflexivity]. intros n. rewrite E. reflexivity.
  - cbn [mapM]. eapply settles_ext; [intros n; rewrite E; cbn [mapM]; reflexivity|]. apply (settles_bind TB (each TB)); [apply HF; [left; reflexivity | exact Hx]|].
    intros y b _ Hy. apply (settles_bind (each TB) (each TB)); [apply IH; intros x' a' Ha'; apply HF; right; exact Ha'|].
    intros ys bs _ Hys. apply (settles_Ok (each TB)). eapply each_cons; [reflexivity | exact Hy | exact Hys].
Qed.
Lemma settles_index {A} (T : (nat -> A) -> A -> Prop) u l i : each T u l -> settles T (fun n => index (u n) i) (index l i).
Proof.
  intros H a Ha. unfold index in Ha. destruct (nth_error l i) as [b|] eqn:E; [|discriminate]. assert (b = a) by congruence. subst b.
  destruct (each_nth _ _ _ _ _ H E) as (x & Hx & Tx). exists x, 0%nat. split; [|exact Tx]. intros n _. unfold index. rewrite Hx. reflexivity.
Qed.

(** ** Linear systems *)
Definition norm1 (y : list R) : R := rsum (map Rabs y).
Lemma norm1_cons x y : norm1 (x :: y) = Rabs x + norm1 y.
Proof. unfold norm1. cbn [map]. apply rsum_cons. Qed.
Lemma norm1_nil : norm1 [] = 0.
Proof. reflexivity. Qed.
Lemma norm1_pos y : 0 <= norm1 y.
Proof. induction y as [|x y IH]; [rewrite norm1_nil; lra|]. rewrite norm1_cons. pose proof (Rabs_pos x). lra. Qed.
Lemma norm1_zero y : norm1 y <= 0 -> y = repeat 0 (length y).
Proof.
  induction y as [|x y IH]; intros H; [reflexivity|]. rewrite norm1_cons in H. pose proof (Rabs_pos x). pose proof (norm1_pos y). cbn [length repeat]. f_equal; [|apply IH; lra].
  assert (E : Rabs x = 0) by lra. destruct (Req_dec x 0) as [->|N]; [reflexivity|]. apply Rabs_no_R0 in N. lra.
Qed.
Lemma norm1_add y : forall z, length z = length y -> norm1 (map2 Rplus y z) <= norm1 y + norm1 z.
Proof.
  induction y as [|a y IH]; intros [|b z] E; try discriminate; [cbn [map map2]; rewrite !norm1_nil; lra|]. cbn [map2]. rewrite !norm1_cons. pose proof (Rabs_triang a b). specialize (IH z ltac:(cbn in E; lia)). lra.
Qed.
Lemma norm1_scale c y : norm1 (map (Rmult c) y) = Rabs c * norm1 y.
Proof. induction y as [|a y IH]; [cbn [map map2]; rewrite norm1_nil; ring|]. cbn [map]. rewrite !norm1_cons, IH, Rabs_mult. ring. Qed.
(** Combinations of columns. *)
Fixpoint comb (n : nat) (z : list R) (cs : list (list R)) : list R :=
  match z, cs with
  | x :: z', c :: cs' => map2 Rplus (map (Rmult x) c) (comb n z' cs')
  | _, _ => repeat 0 n
  end.
Fixpoint units (n : nat) : list (list R) :=
  match n with
  | O => []
  | S m => (1 :: repeat 0 m) :: map (cons 0) (units m)
  end.
Lemma units_length n : length (units n) = n.
Proof. induction n as [|n IH]; [reflexivity|]. cbn [units length]. rewrite map_length, IH. reflexivity. Qed.
Lemma units_sized n : Forall (fun c => length c = n) (units n).
Proof.
  induction n as [|n IH]; [constructor|]. cbn [units]. constructor; [cbn [length]; rewrite repeat_length; reflexivity|]. rewrite Forall_map. eapply Forall_impl; [|exact IH]. intros c Hc. cbn [length]. rewrite Hc. reflexivity.
Qed.
Lemma comb_length n z : forall cs, Forall (fun c => length c = n) cs -> length (comb n z cs) = n.
Proof.
  induction z as [|x z IH]; intros cs H; [apply repeat_length|]. destruct H as [|c cs Hc Hcs]; [apply repeat_length|]. cbn [comb]. rewrite map2_length, map_length, Hc, (IH cs Hcs). apply Nat.min_id.
Qed.
Lemma add_zeros y : map2 Rplus y (repeat 0 (length y)) = y.
Proof. induction y as [|a y IH]; [reflexivity|]. cbn [length repeat map2]. rewrite IH, Rplus_0_r. reflexivity. Qed.
Lemma zeros_add y : map2 Rplus (repeat 0 (length y)) y = y.
Proof. induction y as [|a y IH]; [reflexivity|]. cbn [length repeat map2]. rewrite IH, Rplus_0_l. reflexivity. Qed.
Lemma scale_zeros x n : map (Rmult x) (repeat 0 n) = repeat 0 n.
Proof. induction n as [|n IH]; [reflexivity|]. cbn [repeat map]. rewrite IH, Rmult_0_r. reflexivity. Qed.
Lemma comb_shift n z : forall cs, Forall (fun c => length c = n) cs -> comb (S n) z (map (cons 0) cs) = 0 :: comb n z cs.
Proof.
  induction z as [|x z IH]; intros cs H; [reflexivity|]. destruct H as [|c cs Hc Hcs]; [reflexivity|]. cbn [map comb]. rewrite (IH cs Hcs). cbn [map map2]. f_equal. ring.
Qed.
Lemma comb_units z : comb (length z) z (units (length z)) = z.
Proof.
  induction z as [|x z IH]; [reflexivity|]. cbn [length units comb]. rewrite comb_shift by apply units_sized. rewrite IH. cbn [map map2]. rewrite scale_zeros, zeros_add. f_equal. ring.
Qed.
Lemma matvec_scale a c y : matvec a (map (Rmult c) y) = map (Rmult c) (matvec a y).
Proof.
  unfold matvec. rewrite map_map. apply map_ext. intros r. revert y. induction r as [|x r IH]; intros [|b y]; try (cbn; ring). cbn [map map2]. rewrite !rsum_cons, IH. ring.
Qed.
Lemma matvec_comb a n z : length a = n -> (forall r, In r a -> length r = n) -> forall cs, Forall (fun c => length c = n) cs ->
  matvec a (comb n z cs) = comb n z (map (matvec a) cs).
Proof.
  intros Hn Ha. induction z as [|x z IH]; intros cs H; cbn [comb]; [rewrite matvec_zero, Hn; reflexivity|]. destruct H as [|c cs Hc Hcs]; cbn [map]; [rewrite matvec_zero, Hn; reflexivity|].
  rewrite matvec_add; [|intros r Hr; rewrite map_length, Hc; apply Ha, Hr | rewrite map_length, comb_length by exact Hcs; symmetry; exact Hc]. rewrite matvec_scale, (IH cs Hcs). reflexivity.
Qed.
Lemma norm1_comb n z : forall cs, Forall (fun c => length c = n) cs -> norm1 (comb n z cs) <= norm1 z * rsum (map norm1 cs).
Proof.
  assert (Z : forall k, norm1 (repeat 0 k) = 0) by (induction k as [|k IH]; [reflexivity|]; cbn [repeat]; rewrite norm1_cons, IH, Rabs_R0; ring).
  assert (P : forall cs : list (list R), 0 <= rsum (map norm1 cs)) by (induction cs as [|c cs IH]; [cbn; apply Rle_refl|]; cbn [map]; rewrite rsum_cons; pose proof (norm1_pos c); lra).
  induction z as [|x z IH]; intros cs H; cbn [comb]; [rewrite Z, norm1_nil; lra|]. destruct H as [|c cs Hc Hcs]; [rewrite Z; cbn [map]; change (rsum []) with 0; lra|].
  eapply Rle_trans; [apply norm1_add; rewrite comb_length, map_length by exact Hcs; symmetry; exact Hc|]. rewrite norm1_scale, norm1_cons. cbn [map]. rewrite rsum_cons. specialize (IH cs Hcs).
  pose proof (norm1_pos z). pose proof (norm1_pos c). pose proof (P cs). pose proof (Rabs_pos x). nra.
Qed.
Lemma solutions_of a : square a -> trivial_kernel a -> forall bs, Forall (fun b => length b = length a) bs -> exists cs, Forall (fun c => length c = length a) cs /\ map (matvec a) cs = bs.
Proof.
  intros Hs Hk bs H. induction H as [|b bs Hb Hbs (cs & Hc & E)]; [exists []; split; [constructor | reflexivity]|].
  destruct (solvable gauss_solve a b gauss_solve_spec Hs Hb Hk) as (x & Hx). apply (gauss_solve_spec a b Hs Hb) in Hx. destruct Hx as ((Lx & Ex) & _).
  exists (x :: cs). split; [constructor; assumption | cbn [map]; rewrite Ex, E; reflexivity].
Qed.
Lemma matvec_sub a x y : (forall r, In r a -> length r = length x) -> length y = length x -> matvec a (map2 Rplus x (map (Rmult (-1)) y)) = map2 Rplus (matvec a x) (map (Rmult (-1)) (matvec a y)).
Proof. intros Ha Hy. rewrite matvec_add; [rewrite matvec_scale; reflexivity | exact Ha | rewrite map_length; exact Hy]. Qed.
Lemma sub_self y : map2 Rplus y (map (Rmult (-1)) y) = repeat 0 (length y).
Proof. induction y as [|a y IH]; [reflexivity|]. cbn [map map2 length repeat]. rewrite IH. f_equal. ring. Qed.
Lemma sub_zero y : forall z, length z = length y -> map2 Rplus y (map (Rmult (-1)) z) = repeat 0 (length y) -> y = z.
Proof.
  induction y as [|a y IH]; intros [|b z] E H; try discriminate; [reflexivity|]. cbn [map map2 length repeat] in *. injection H as H1 H2. f_equal; [lra | apply IH; [lia | exact H2]].
Qed.
Lemma matvec_length a x : length (matvec a x) = length a.
Proof. apply map_length. Qed.
Lemma kernel_bound a : square a -> trivial_kernel a -> exists K, 0 < K /\ forall y, length y = length a -> norm1 y <= K * norm1 (matvec a y).
Proof.
  intros Hs Hk. destruct (solutions_of a Hs Hk (units (length a)) (units_sized (length a))) as (cs & Hc & E).
  exists (rsum (map norm1 cs) + 1). assert (P : 0 <= rsum (map norm1 cs)).
  { clear. induction cs as [|c cs IH]; [apply Rle_refl|]. cbn [map]. rewrite rsum_cons. pose proof (norm1_pos c). lra. }
  split; [lra|]. intros y Hy. set (z := matvec a y). assert (Lz : length z = length a) by apply matvec_length.
  assert (Ey : y = comb (length a) z cs).
  { apply sub_zero; [rewrite comb_length by exact Hc; symmetry; exact Hy|]. rewrite Hy. apply Hk. split; [rewrite map2_length, map_length, comb_length, Hy by exact Hc; apply Nat.min_id|].
    rewrite matvec_sub; [| intros r Hr; rewrite Hy; apply Hs, Hr | rewrite comb_length by exact Hc; symmetry; exact Hy].
    rewrite (matvec_comb a (length a) z eq_refl Hs cs Hc), E, <- Lz, comb_units. fold z. apply sub_self. }
  rewrite Ey at 1. eapply Rle_trans; [apply norm1_comb, Hc|]. pose proof (norm1_pos z). nra.
Qed.
(** How far two matrices are apart. *)
Definition row_gap (r s : list R) : R := norm1 (map2 Rminus r s).
Definition gap (a b : list (list R)) : R := rsum (map2 row_gap a b).
Lemma gap_cons r a s b : gap (r :: a) (s :: b) = row_gap r s + gap a b.
Proof. unfold gap. cbn [map2]. apply rsum_cons. Qed.
Lemma gap_pos a : forall b, 0 <= gap a b.
Proof. induction a as [|r a IH]; intros [|s b]; try apply Rle_refl. rewrite gap_cons. pose proof (norm1_pos (map2 Rminus r s)). specialize (IH b). unfold row_gap. lra. Qed.
Lemma dot_gap r : forall s y, length s = length r -> Rabs (dot r y - dot s y) <= row_gap r s * norm1 y.
Proof.
  unfold dot, row_gap. induction r as [|a r IH]; intros [|b s] y E; try discriminate; [cbn [map2]; rewrite norm1_nil; change (rsum []) with 0; rewrite Rminus_0_r, Rabs_R0; lra|].
  cbn [map2]. destruct y as [|c y]; [change (rsum []) with 0; rewrite norm1_nil, Rminus_0_r, Rabs_R0; lra|]. cbn [map2]. rewrite !rsum_cons, !norm1_cons. specialize (IH s y ltac:(cbn in E; lia)).
  set (d1 := rsum (map2 Rmult r y)) in *. set (d2 := rsum (map2 Rmult s y)) in *.
  replace (a * c + d1 - (b * c + d2)) with ((a - b) * c + (d1 - d2)) by ring. eapply Rle_trans; [apply Rabs_triang|]. rewrite Rabs_mult.
  pose proof (Rabs_pos (a - b)). pose proof (Rabs_pos c). pose proof (norm1_pos y). pose proof (norm1_pos (map2 Rminus r s)). nra.
Qed.
Lemma matvec_gap a : forall b y, Forall2 (fun r s => length s = length r) a b -> norm1 (map2 Rplus (matvec a y) (map (Rmult (-1)) (matvec b y))) <= gap a b * norm1 y.
Proof.
  intros b y H. induction H as [|r s a b Hrs H IH]; [cbn [matvec map map2]; rewrite norm1_nil; unfold gap; cbn [map2]; change (rsum []) with 0; lra|].
  rewrite gap_cons. cbn [matvec map map2]. rewrite norm1_cons. pose proof (dot_gap r s y Hrs) as D. unfold dot in D. fold (matvec a y). fold (matvec b y).
  replace (rsum (map2 Rmult r y) + -1 * rsum (map2 Rmult s y)) with (rsum (map2 Rmult r y) - rsum (map2 Rmult s y)) by ring. lra.
Qed.
Lemma tends_row_gap u l : each tends u l -> tends (fun n => row_gap (u n) l) 0.
Proof.
  intros H. unfold row_gap. induction H as [u E|u x l a m E Hx Hl IH]; [eapply tends_ext; [|apply tends_const]; intros n; rewrite E; reflexivity|].
  eapply tends_ext; [intros n; rewrite E; cbn [map2]; rewrite norm1_cons; reflexivity|]. replace 0 with (Rabs (a - a) + 0) by (replace (a - a) with 0 by ring; rewrite Rabs_R0; ring). lim.
Qed.
Lemma tends_gap u a : each (each tends) u a -> tends (fun n => gap (u n) a) 0.
Proof.
  intros H. induction H as [u E|u x l r m E Hx Hl IH]; [eapply tends_ext; [|apply tends_const]; intros n; rewrite E; reflexivity|].
  eapply tends_ext; [intros n; rewrite E, gap_cons; reflexivity|]. replace 0 with (0 + 0) by ring. apply tends_plus; [apply tends_row_gap, Hx | exact IH].
Qed.
Lemma each_shape u a : each (each tends) u a -> forall n, Forall2 (fun r s => length s = length r) (u n) a.
Proof. intros H. induction H as [u E|u x l r m E Hx Hl IH]; intros n; rewrite E; constructor; [symmetry; apply (each_length _ _ _ Hx) | apply IH]. Qed.
Lemma each_of_norm x : forall u, (forall n, length (u n) = length x) -> tends (fun n => row_gap (u n) x) 0 -> each tends u x.
Proof.
  induction x as [|a x IH]; intros u L H; [constructor; intros n; specialize (L n); destruct (u n); [reflexivity | discriminate]|].
  assert (E : forall n, u n = hd 0 (u n) :: tl (u n)) by (intros n; specialize (L n); destruct (u n); [discriminate | reflexivity]).
  assert (H' : tends (fun n => Rabs (hd 0 (u n) - a) + row_gap (tl (u n)) x) 0) by (eapply tends_ext; [|exact H]; intros n; cbv beta; specialize (L n); destruct (u n) as [|y v]; [discriminate|]; unfold row_gap; cbn [map2 hd tl]; rewrite norm1_cons; reflexivity).
  eapply each_cons; [exact E | |].
  - assert (T : tends (fun n => Rabs (hd 0 (u n) - a)) 0) by (eapply tends_squeeze; [|exact H']; intros n; pose proof (Rabs_pos (hd 0 (u n) - a)); pose proof (norm1_pos (map2 Rminus (tl (u n)) x)); unfold row_gap; lra).
    intros e He. destruct (T e He) as (N & HN). exists N. intros n Hn. specialize (HN n Hn). unfold R_dist in *. rewrite Rminus_0_r, Rabs_Rabsolu in HN. exact HN.
  - apply IH; [intros n; specialize (L n); rewrite (E n) in L; cbn in L; lia|].
    eapply tends_squeeze; [|exact H']. intros n. pose proof (Rabs_pos (hd 0 (u n) - a)). pose proof (norm1_pos (map2 Rminus (tl (u n)) x)). unfold row_gap. lra.
Qed.
Lemma row_gap_sub x : forall y, row_gap x y = norm1 (map2 Rplus x (map (Rmult (-1)) y)).
Proof. unfold row_gap. induction x as [|a x IH]; intros [|b y]; try reflexivity. cbn [map map2]. rewrite !norm1_cons, IH. f_equal. f_equal. ring. Qed.
Lemma row_gap_triangle x : forall y z, length y = length x -> length z = length x -> row_gap x z <= row_gap x y + row_gap y z.
Proof.
  unfold row_gap. induction x as [|a x IH]; intros [|b y] [|c z] Ey Ez; try discriminate; [cbn [map map2]; rewrite !norm1_nil; lra|]. cbn [map2]. rewrite !norm1_cons. specialize (IH y z ltac:(cbn in Ey; lia) ltac:(cbn in Ez; lia)).
  pose proof (Rabs_triang (a - b) (b - c)) as T. replace (a - b + (b - c)) with (a - c) in T by ring. lra.
Qed.
Lemma norm1_gap x : forall y, length y = length x -> norm1 x <= row_gap x y + norm1 y.
Proof.
  unfold row_gap. induction x as [|a x IH]; intros [|b y] E; try discriminate; [cbn [map map2]; rewrite !norm1_nil; lra|]. cbn [map2]. rewrite !norm1_cons. specialize (IH y ltac:(cbn in E; lia)).
  pose proof (Rabs_triang (a - b) b) as T. replace (a - b + b) with a in T by ring. lra.
Qed.
Lemma row_gap_sym x : forall y, row_gap x y = row_gap y x.
Proof. unfold row_gap. induction x as [|a x IH]; intros [|b y]; try reflexivity. cbn [map2]. rewrite !norm1_cons, IH, Rabs_minus_sym. reflexivity. Qed.
Lemma solve_settles solve A a B b : SolveSpec solve -> square a -> length b = length a -> each (each tends) A a -> each tends B b ->
  settles (each tends) (fun n => solve (A n) (B n)) (solve a b).
Proof.
  intros HS Hs Hb HA HB x Hx. pose proof (kernel_needed solve a b x HS Hs Hb Hx) as Hk. apply (HS a b Hs Hb) in Hx. destruct Hx as ((Lx & Ex) & _).
  destruct (kernel_bound a Hs Hk) as (K & HK & Bd). pose proof (tends_gap A a HA) as TG. pose proof (tends_row_gap B b HB) as TB.
  assert (LA : forall n, length (A n) = length a) by (apply (each_length _ _ _ HA)). assert (LB : forall n, length (B n) = length b) by (apply (each_length _ _ _ HB)).
  assert (SA : forall n, square (A n)).
  { intros n r Hr. rewrite LA. pose proof (each_shape A a HA n) as F. apply In_nth_error in Hr. destruct Hr as (i & Hi). clear -F Hi Hs.
    assert (G : exists s, In s a /\ length s = length r). { clear Hs. revert i Hi. induction F as [|r' s A' a' H F IH]; intros [|i] Hi; try discriminate; [injection Hi as <-; exists s; split; [left; reflexivity | exact H]|]. destruct (IH i Hi) as (s' & Hs' & E). exists s'. split; [right; exact Hs' | exact E]. }
    destruct G as (s & Hin & E). rewrite <- E. apply Hs, Hin. }
  destruct (tends_below _ _ (/ (2 * K)) TG ltac:(apply Rinv_0_lt_compat; lra)) as (N & HN).
  assert (HG : forall n, (N <= n)%nat -> K * gap (A n) a <= / 2).
  { intros n Hn. specialize (HN n Hn). apply Rlt_le in HN. apply (Rmult_le_compat_l K) in HN; [|lra]. eapply Rle_trans; [exact HN|]. apply Req_le. field. lra. }
  (* near enough, norms are bounded by images *)
  assert (Bn : forall n y, (N <= n)%nat -> length y = length a -> norm1 y <= K * (norm1 (matvec (A n) y) + gap (A n) a * norm1 y)).
  { intros n y Hn Ly. eapply Rle_trans; [apply Bd, Ly|]. apply Rmult_le_compat_l; [lra|]. pose proof (norm1_gap (matvec a y) (matvec (A n) y)) as T. rewrite !matvec_length, LA in T. specialize (T eq_refl).
    eapply Rle_trans; [exact T|]. rewrite row_gap_sym, row_gap_sub. pose proof (matvec_gap (A n) a y (each_shape A a HA n)). lra. }
  assert (KN : forall n, (N <= n)%nat -> trivial_kernel (A n)).
  { intros n Hn y (Ly & Ey). rewrite LA in *. specialize (Bn n y Hn Ly). rewrite Ey in Bn. assert (Z : norm1 (repeat 0 (length a)) = 0) by (generalize (length a); induction n0 as [|k IH]; [reflexivity|]; cbn [repeat]; rewrite norm1_cons, IH, Rabs_R0; ring).
    rewrite Z in Bn. pose proof (norm1_pos y). specialize (HG n Hn). rewrite <- Ly. apply norm1_zero. nra. }
  assert (SO : forall n, exists y, length y = length x /\ ((N <= n)%nat -> solve (A n) (B n) = Ok y)).
  { intros n. destruct (Compare_dec.le_lt_dec N n) as [Hn|Hn]; [|exists x; split; [reflexivity | lia]].
    destruct (solvable solve (A n) (B n) HS (SA n) ltac:(rewrite LA, LB; exact Hb) (KN n Hn)) as (y & Hy). exists y. split; [|auto]. apply (HS _ _ (SA n)) in Hy; [|rewrite LA, LB; exact Hb]. destruct Hy as ((Ly & _) & _). rewrite Ly, LA, Lx. reflexivity. }
  set (u := fun n => match solve (A n) (B n) with Ok y => if Nat.leb N n then y else x | Err _ => x end).
  assert (Lu : forall n, length (u n) = length x).
  { intros n. destruct (SO n) as (y & Ly & Hy). unfold u. destruct (Compare_dec.le_lt_dec N n) as [Hn|Hn]; [rewrite (Hy Hn); destruct (Nat.leb N n); auto|]. destruct (solve (A n) (B n)); [|reflexivity]. rewrite (proj2 (Nat.leb_gt N n) Hn). reflexivity. }
  assert (Ou : forall n, (N <= n)%nat -> solve (A n) (B n) = Ok (u n)).
  { intros n Hn. destruct (SO n) as (y & Ly & Hy). unfold u. rewrite (Hy Hn), (proj2 (Nat.leb_le N n) Hn). reflexivity. }
  exists u, N. split; [exact Ou|]. apply each_of_norm; [exact Lu|].
  apply (tends_eventually (fun n => if Nat.leb N n then row_gap (u n) x else 0) _ 0 N); [intros n Hn; rewrite (proj2 (Nat.leb_le N n) Hn); reflexivity|].
  eapply (tends_squeeze _ (fun n => 2 * K * (gap (A n) a * norm1 x + row_gap (B n) b))); [|replace 0 with (2 * K * (0 * norm1 x + 0)) by ring; lim].
  intros n. pose proof (norm1_pos x) as Px. pose proof (gap_pos (A n) a) as Pg. pose proof (norm1_pos (map2 Rminus (B n) b)) as Pb. fold (row_gap (B n) b) in Pb.
  destruct (Nat.leb N n) eqn:En; [|split; [lra | apply Rmult_le_pos; [lra|]; apply Rplus_le_le_0_compat; [apply Rmult_le_pos; assumption | exact Pb]]].
  apply Nat.leb_le in En. split; [apply norm1_pos|]. pose proof (Ou n En) as Su. apply (HS _ _ (SA n)) in Su; [|rewrite LA, LB; exact Hb]. destruct Su as ((L1 & E1) & _). rewrite LA in L1.
  set (d := map2 Rplus (u n) (map (Rmult (-1)) x)). assert (Ld : length d = length a) by (unfold d; rewrite map2_length, map_length, L1, Lx; apply Nat.min_id).
  specialize (Bd d Ld). unfold d in Bd. rewrite matvec_sub in Bd; [|intros r Hr; rewrite L1; apply Hs, Hr | rewrite L1; exact Lx]. rewrite <- !row_gap_sub, Ex in Bd.
  pose proof (row_gap_triangle (matvec a (u n)) (matvec (A n) (u n)) b ltac:(rewrite !matvec_length; apply LA) ltac:(rewrite matvec_length; exact Hb)) as T. rewrite E1 in T. rewrite <- E1 in T at 1.
  pose proof (matvec_gap (A n) a (u n) (each_shape A a HA n)) as G. rewrite <- row_gap_sub, row_gap_sym in G. pose proof (norm1_gap (u n) x ltac:(symmetry; apply Lu)) as M. specialize (HG n En).
  set (D := row_gap (u n) x) in *. set (g := gap (A n) a) in *. set (c := row_gap (B n) b) in *. set (X := norm1 x) in *. set (U := norm1 (u n)) in *.
  assert (S1 : D <= K * (g * U + c)) by (eapply Rle_trans; [exact Bd|]; apply Rmult_le_compat_l; lra).
  assert (S2 : g * U <= g * (D + X)) by (apply Rmult_le_compat_l; lra).
  assert (PD : 0 <= D) by apply norm1_pos. assert (S3 : K * g * D <= / 2 * D) by (apply Rmult_le_compat_r; assumption).
  assert (S4 : K * (g * U + c) <= K * (g * (D + X) + c)) by (apply Rmult_le_compat_l; lra). lra.
Qed.
