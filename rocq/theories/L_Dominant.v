(** When square systems have solutions: whenever the system without right-hand side has only
    the trivial one, and in particular when the diagonal dominates. *)
From Coq Require Import List Lra Lia.
From Verif Require Import M_Base S_Solve L_Base L_Gauss.
Import ListNotations.

(** Elimination does not look at the right-hand side. *)
Definition same_lhs (e f : eqn) : Prop := fst e = fst f.
Lemma pick_lhs es : forall fs p rest, Forall2 same_lhs es fs -> pick es = Some (p, rest) ->
  exists q rest', pick fs = Some (q, rest') /\ same_lhs p q /\ Forall2 same_lhs rest rest'.
Proof.
  induction es as [|e es IH]; intros fs p rest F E; [discriminate|]. inversion F as [|? f ? fs' H F' X1 X2]; subst. cbn [pick] in *. unfold same_lhs in H. rewrite <- H.
  destruct (Reqb (hd 0 (fst e)) 0).
  - destruct (pick es) as [[p' rest']|] eqn:Ep; [|discriminate]. injection E as <- <-. destruct (IH _ _ _ F' eq_refl) as (q & r & -> & Hq & Hr).
    exists q, (f :: r). split; [reflexivity|]. split; [exact Hq|]. constructor; assumption.
  - injection E as <- <-. exists f, fs'. auto.
Qed.
Lemma eliminate_lhs p q e f : same_lhs p q -> same_lhs e f -> same_lhs (eliminate p e) (eliminate q f).
Proof. unfold same_lhs, eliminate. cbn [fst]. intros -> ->. reflexivity. Qed.
Lemma gauss_lhs n : forall es fs x, Forall2 same_lhs es fs -> gauss n es = Ok x -> exists y, gauss n fs = Ok y.
Proof.
  induction n as [|n IH]; intros es fs x F E; cbn [gauss] in *; [eauto|].
  destruct (pick es) as [[p rest]|] eqn:Ep; [|discriminate]. destruct (pick_lhs _ _ _ _ F Ep) as (q & rest' & -> & Hq & Hr).
  destruct (gauss n (map (eliminate p) rest)) as [xs|] eqn:Eg; [|discriminate].
  assert (FF : Forall2 same_lhs (map (eliminate p) rest) (map (eliminate q) rest')).
  { clear -Hq Hr. induction Hr; constructor; [apply eliminate_lhs; assumption | assumption]. }
  destruct (IH _ _ xs FF Eg) as [ys ->]. eauto.
Qed.
Lemma combine_lhs a : forall b b', length b = length a -> length b' = length a -> Forall2 same_lhs (combine a b) (combine a b').
Proof.
  induction a as [|r a IH]; intros [|c b] [|c' b'] L L'; try discriminate; cbn [combine]; constructor; [reflexivity|]. apply IH; cbn in *; lia.
Qed.
Definition trivial_kernel (a : list (list R)) : Prop := forall x, solves a (repeat 0 (length a)) x -> x = repeat 0 (length a).
Lemma dot_zero r n : dot r (repeat 0 n) = 0.
Proof.
  revert r; induction n as [|n IH]; intros [|a r]; try reflexivity. cbn [repeat]. rewrite dot_cons, IH. ring.
Qed.
Lemma matvec_zero a n : matvec a (repeat 0 n) = repeat 0 (length a).
Proof. induction a as [|r a IH]; [reflexivity|]. cbn [matvec map length repeat]. f_equal; [apply dot_zero | exact IH]. Qed.
Lemma solvable solve a b : SolveSpec solve -> square a -> length b = length a -> trivial_kernel a -> exists x, solve a b = Ok x.
Proof.
  intros HS Hsq Hlen HK. assert (HZ : gauss_solve a (repeat 0 (length a)) = Ok (repeat 0 (length a))).
  { apply gauss_solve_spec; [exact Hsq | apply repeat_length|]. split; [|exact HK]. split; [apply repeat_length | apply matvec_zero]. }
  unfold gauss_solve in HZ. destruct (gauss_lhs _ _ (combine a b) _ (combine_lhs a _ b (repeat_length _ _) Hlen) HZ) as [x Hx].
  exists x. apply HS; [exact Hsq | exact Hlen|]. apply (gauss_solve_spec a b Hsq Hlen x). exact Hx.
Qed.
Lemma matvec_add a : forall x y, (forall r, In r a -> length r = length x) -> length y = length x -> matvec a (map2 Rplus x y) = map2 Rplus (matvec a x) (matvec a y).
Proof.
  intros x y. induction a as [|r a IH]; intros Hr L; [reflexivity|]. cbn [matvec map map2]. f_equal; [|apply IH; [intros s Hs; apply Hr; right; exact Hs | exact L]].
  pose proof (Hr r (or_introl eq_refl)) as Lr. clear -Lr L. change (dot r (map2 Rplus x y) = dot r x + dot r y). revert x y Lr L; induction r as [|c r IH]; intros [|x xs] [|y ys] L1 L2; try discriminate.
  - unfold dot, rsum; cbn. ring.
  - cbn [map2]. rewrite !dot_cons, IH by (cbn in *; lia). ring.
Qed.
Lemma kernel_needed solve a b x : SolveSpec solve -> square a -> length b = length a -> solve a b = Ok x -> trivial_kernel a.
Proof.
  intros HS Hsq Hlen E. apply HS in E; [|exact Hsq | exact Hlen]. destruct E as [[Lx Ex] U]. intros y [Ly Ey].
  assert (HY : map2 Rplus x y = x).
  { apply U. split; [rewrite map2_length; lia|]. rewrite matvec_add, Ex, Ey; [|intros r Hr; rewrite (Hsq r Hr); congruence | congruence].
    rewrite <- Hlen. clear. induction b as [|c b IH]; [reflexivity|]. cbn [length repeat map2]. f_equal; [ring | exact IH]. }
  rewrite <- Ly. assert (L : length y = length x) by congruence. clear -HY L. revert x L HY; induction y as [|c y IH]; intros [|d x] L HY; try discriminate; [reflexivity|].
  cbn [map2 length repeat] in *. injection HY as H1 H2. f_equal; [lra|]. apply (IH x); [lia | exact H2].
Qed.
Lemma solvable_iff solve a b : SolveSpec solve -> square a -> length b = length a -> (exists x, solve a b = Ok x) <-> trivial_kernel a.
Proof. intros HS Hsq Hlen. split; [intros [x E]; eapply kernel_needed; eassumption | apply solvable; assumption]. Qed.

(** Four unknowns, with a dominating diagonal. *)
Lemma row_bound D e a b c d x y z t : 0 <= e -> D <= a -> Rabs b <= e -> Rabs c <= e -> Rabs d <= e ->
  a * x + b * y + c * z + d * t = 0 -> D * Rabs x <= e * (Rabs y + Rabs z + Rabs t).
Proof.
  intros He Ha Hb Hc Hd E. pose proof (Rabs_pos x). pose proof (Rabs_pos y). pose proof (Rabs_pos z). pose proof (Rabs_pos t).
  assert (HD : D * Rabs x <= a * Rabs x) by (apply Rmult_le_compat_r; assumption).
  destruct (Rle_lt_dec a 0) as [L|L].
  { assert (a * Rabs x <= 0) by nra. assert (0 <= e * (Rabs y + Rabs z + Rabs t)) by (apply Rmult_le_pos; lra). lra. }
  replace (a * Rabs x) with (Rabs (b * y + (c * z + d * t))) in HD by (rewrite <- (Rabs_pos_eq a) at 1 by lra; rewrite <- Rabs_mult, <- Rabs_Ropp; f_equal; lra).
  pose proof (Rabs_triang (b * y) (c * z + d * t)) as T1. pose proof (Rabs_triang (c * z) (d * t)) as T2. rewrite Rabs_mult in T1. rewrite !(Rabs_mult c), (Rabs_mult d) in T2.
  assert (Rabs b * Rabs y <= e * Rabs y) by (apply Rmult_le_compat_r; assumption). assert (Rabs c * Rabs z <= e * Rabs z) by (apply Rmult_le_compat_r; assumption).
  assert (Rabs d * Rabs t <= e * Rabs t) by (apply Rmult_le_compat_r; assumption). lra.
Qed.
Lemma dominant4 (a : nat -> nat -> R) D e : 0 <= e -> 3 * e < D -> (forall i, (i < 4)%nat -> D <= a i i) ->
  (forall i j, (i < 4)%nat -> (j < 4)%nat -> i <> j -> Rabs (a i j) <= e) -> trivial_kernel (map (fun i => map (a i) (seq 0 4)) (seq 0 4)).
Proof.
  intros He HD Hd Ho v [L E]. cbn [map seq length] in *. destruct v as [|x [|y [|z [|t [|]]]]]; try discriminate.
  unfold matvec, rsum in E. cbn [map map2 fold_left repeat] in E. injection E as E1 E2 E3 E4.
  assert (B1 : D * Rabs x <= e * (Rabs y + Rabs z + Rabs t)) by (apply (row_bound D e (a 0 0) (a 0 1) (a 0 2) (a 0 3))%nat; [lra | apply Hd; lia | apply Ho; lia | apply Ho; lia | apply Ho; lia | lra]).
  assert (B2 : D * Rabs y <= e * (Rabs x + Rabs z + Rabs t)) by (apply (row_bound D e (a 1 1) (a 1 0) (a 1 2) (a 1 3))%nat; [lra | apply Hd; lia | apply Ho; lia | apply Ho; lia | apply Ho; lia | lra]).
  assert (B3 : D * Rabs z <= e * (Rabs x + Rabs y + Rabs t)) by (apply (row_bound D e (a 2 2) (a 2 0) (a 2 1) (a 2 3))%nat; [lra | apply Hd; lia | apply Ho; lia | apply Ho; lia | apply Ho; lia | lra]).
  assert (B4 : D * Rabs t <= e * (Rabs x + Rabs y + Rabs z)) by (apply (row_bound D e (a 3 3) (a 3 0) (a 3 1) (a 3 2))%nat; [lra | apply Hd; lia | apply Ho; lia | apply Ho; lia | apply Ho; lia | lra]).
  pose proof (Rabs_pos x). pose proof (Rabs_pos y). pose proof (Rabs_pos z). pose proof (Rabs_pos t). set (S := Rabs x + Rabs y + Rabs z + Rabs t) in *.
  assert (HS : S = 0).
  { destruct (Rle_lt_dec S 0) as [Q|Q]; [unfold S in *; lra|]. exfalso. assert (D * S <= 3 * e * S) by (unfold S; lra). assert (3 * e * S < D * S) by (apply Rmult_lt_compat_r; assumption). lra. }
  assert (Z : forall u, Rabs u = 0 -> u = 0) by (intros u Hu; destruct (Req_dec u 0) as [|N]; [assumption|]; apply Rabs_no_R0 in N; contradiction).
  unfold S in HS. cbn [repeat]. repeat f_equal; apply Z; lra.
Qed.
