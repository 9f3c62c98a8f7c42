(** Whole numbers computed in double precision. *)
From Coq Require Import Lra Lia Psatz ZArith Reals.
From Flocq Require Import Core Relative.
From Verif Require Import L_Base M_Floats S_Floats L_Movement.
Local Open Scope R_scope.

(** ** Rounding *)
Definition u53 : R := / 2 ^ 53.
#[local] Instance prec_pos : Prec_gt_0 53 := eq_refl.
#[local] Instance double_valid : Valid_exp double_exp := FLT_exp_valid (-1074) 53.

Lemma bpow_neg k : bpow radix2 (- Z.of_nat k) = / 2 ^ k.
Proof. rewrite bpow_opp. f_equal. rewrite <- IZR_Zpower by lia. change (radix_val radix2) with 2%Z. rewrite <- pow_IZR. reflexivity. Qed.
Lemma bpow_pos k : bpow radix2 (Z.of_nat k) = 2 ^ k.
Proof. rewrite <- IZR_Zpower by lia. change (radix_val radix2) with 2%Z. rewrite <- pow_IZR. reflexivity. Qed.

Lemma pow_2_le m n : (m <= n)%nat -> 2 ^ m <= 2 ^ n.
Proof. intros H. apply Rle_pow; [lra|exact H]. Qed.
Lemma inv_2_le m n : (m <= n)%nat -> / 2 ^ n <= / 2 ^ m.
Proof. intros H. apply Rinv_le; [apply pow_lt; lra|apply pow_2_le; exact H]. Qed.
Lemma u53_pos : 0 < u53. Proof. apply Rinv_0_lt_compat, pow_lt. lra. Qed.

Lemma rounded_rel x : / 2 ^ 1022 <= Rabs x -> exists e, Rabs e <= u53 /\ rounded x = x * (1 + e).
Proof.
  intros H. destruct (relative_error_N_FLT_ex radix2 (-1074) 53 eq_refl (fun n => negb (Z.even n)) x) as (e & He & E).
  - replace (-1074 + 53 - 1)%Z with (- Z.of_nat 1022)%Z by reflexivity. rewrite bpow_neg. exact H.
  - exists e. split; [|exact E]. eapply Rle_trans; [exact He|]. replace (- (53) + 1)%Z with (- Z.of_nat 52)%Z by reflexivity. rewrite bpow_neg. unfold u53.
    apply Req_le. replace (2 ^ 53) with (2 * 2 ^ 52) by (cbn [pow]; ring). rewrite Rinv_mult. reflexivity.
Qed.
Lemma rounded_abs x : Rabs (rounded x - x) <= u53 * Rabs x + / 2 ^ 1074.
Proof.
  destruct (error_N_FLT radix2 (-1074) 53 eq_refl (fun n => negb (Z.even n)) x) as (e & h & He & Hh & _ & E).
  unfold rounded, double_exp. rewrite E. replace (x * (1 + e) + h - x) with (x * e + h) by ring.
  eapply Rle_trans; [apply Rabs_triang|]. apply Rplus_le_compat.
  - rewrite Rabs_mult, Rmult_comm. apply Rmult_le_compat_r; [apply Rabs_pos|]. eapply Rle_trans; [exact He|].
    replace (- (53) + 1)%Z with (- Z.of_nat 52)%Z by reflexivity. rewrite bpow_neg. unfold u53.
    apply Req_le. replace (2 ^ 53) with (2 * 2 ^ 52) by (cbn [pow]; ring). rewrite Rinv_mult. reflexivity.
  - eapply Rle_trans; [exact Hh|]. replace (-1074)%Z with (- Z.of_nat 1074)%Z by reflexivity. rewrite bpow_neg.
    assert (0 < / 2 ^ 1074) by (apply Rinv_0_lt_compat, pow_lt; lra). lra.
Qed.
Lemma rounded_nearest x : double (rounded x) /\ forall y, double y -> Rabs (rounded x - x) <= Rabs (y - x).
Proof. exact (round_N_pt radix2 double_exp (fun n => negb (Z.even n)) x). Qed.
Lemma rounded_double x : double x -> rounded x = x.
Proof. intros H. apply round_generic; [apply valid_rnd_N|exact H]. Qed.
Lemma rounded_le x y : x <= y -> rounded x <= rounded y.
Proof. apply round_le; [exact double_valid|apply valid_rnd_N]. Qed.
Lemma whole_double k : (Z.abs k <= 2 ^ 53)%Z -> double (IZR k).
Proof.
  intros H. apply generic_format_FLT. destruct (Z.eq_dec (Z.abs k) (2 ^ 53)) as [E|E].
  - exists (Float radix2 (Z.sgn k * 2 ^ 52) 1); cbn [Fnum Fexp]; [|rewrite Z.abs_mul; destruct k; cbn; lia|lia].
    unfold F2R. cbn [Fnum Fexp]. change (bpow radix2 1) with (IZR 2). rewrite <- mult_IZR. f_equal.
    destruct k; cbn [Z.abs Z.sgn] in *; lia.
  - exists (Float radix2 k 0); cbn [Fnum Fexp]; [|cbn -[Z.lt]; lia|lia]. unfold F2R. cbn [Fnum Fexp bpow]. ring.
Qed.

(** ** Whole numbers near each other *)
Lemma py_ceil_spec x : IZR (py_ceil x) - 1 < x <= IZR (py_ceil x).
Proof.
  unfold py_ceil. destruct (base_Int_part (- x)) as [H1 H2]. rewrite opp_IZR. lra.
Qed.
Lemma py_floor_spec x : IZR (py_floor x) <= x < IZR (py_floor x) + 1.
Proof. unfold py_floor. destruct (base_Int_part x) as [H1 H2]. lra. Qed.
Lemma py_ceil_unique x n : IZR n - 1 < x <= IZR n -> py_ceil x = n.
Proof.
  intros H. pose proof (py_ceil_spec x) as C. assert (IZR (py_ceil x) < IZR (n + 1)) by (rewrite plus_IZR; lra). assert (IZR n < IZR (py_ceil x + 1)) by (rewrite plus_IZR; lra).
  apply lt_IZR in H0, H1. lia.
Qed.
Lemma py_floor_unique x n : IZR n <= x < IZR n + 1 -> py_floor x = n.
Proof.
  intros H. pose proof (py_floor_spec x) as C. assert (IZR (py_floor x) < IZR (n + 1)) by (rewrite plus_IZR; lra). assert (IZR n < IZR (py_floor x + 1)) by (rewrite plus_IZR; lra).
  apply lt_IZR in H0, H1. lia.
Qed.
Lemma ceil_near x y : Rabs (x - y) < 1 -> within_one (py_ceil x) (py_ceil y).
Proof.
  intros H. apply Rabs_def2 in H. pose proof (py_ceil_spec x). pose proof (py_ceil_spec y). unfold within_one.
  assert (IZR (py_ceil x) < IZR (py_ceil y + 2)) by (rewrite plus_IZR; lra). assert (IZR (py_ceil y) < IZR (py_ceil x + 2)) by (rewrite plus_IZR; lra).
  apply lt_IZR in H2, H3. lia.
Qed.
Lemma floor_near x y : Rabs (x - y) < 1 -> within_one (py_floor x) (py_floor y).
Proof.
  intros H. apply Rabs_def2 in H. pose proof (py_floor_spec x). pose proof (py_floor_spec y). unfold within_one.
  assert (IZR (py_floor x) < IZR (py_floor y + 2)) by (rewrite plus_IZR; lra). assert (IZR (py_floor y) < IZR (py_floor x + 2)) by (rewrite plus_IZR; lra).
  apply lt_IZR in H2, H3. lia.
Qed.
Lemma ceil_between x y : py_ceil x <> py_ceil y -> exists k : Z, Rabs (y - IZR k) <= Rabs (x - y).
Proof.
  intros N. pose proof (py_ceil_spec x) as X. pose proof (py_ceil_spec y) as Y.
  destruct (Z_lt_le_dec (py_ceil x) (py_ceil y)) as [L|L].
  - exists (py_ceil x). assert (IZR (py_ceil x) <= IZR (py_ceil y) - 1) by (rewrite <- minus_IZR; apply IZR_le; lia).
    rewrite (Rabs_right (y - _)), (Rabs_left1 (x - y)) by lra. lra.
  - exists (py_ceil y). assert (IZR (py_ceil y) <= IZR (py_ceil x) - 1) by (rewrite <- minus_IZR; apply IZR_le; lia).
    rewrite (Rabs_left1 (y - _)), (Rabs_right (x - y)) by lra. lra.
Qed.

(** ** Quotients *)
Definition close (x y : R) : Prop := Rabs (x - y) <= y / 2 ^ 51.
Lemma u53_small : u53 <= / 8.
Proof. unfold u53. replace (/ 8) with (/ 2 ^ 3) by (cbn [pow]; lra). apply inv_2_le. lia. Qed.
Lemma u53_times : 4 * u53 = / 2 ^ 51.
Proof. unfold u53. replace (2 ^ 53) with (4 * 2 ^ 51) by (cbn [pow]; ring). rewrite Rinv_mult. rewrite <- Rmult_assoc, Rinv_r, Rmult_1_l by lra. reflexivity. Qed.
Lemma tiny_room x : tiny <= x -> / 2 ^ 1022 <= x / 2 /\ 0 < x.
Proof.
  unfold tiny. intros H. assert (0 < / 2 ^ 1000) by (apply Rinv_0_lt_compat, pow_lt; lra). split; [|lra].
  replace (/ 2 ^ 1022) with (/ 2 ^ 1000 * / 2 ^ 22) by (rewrite <- Rinv_mult, <- pow_add; reflexivity).
  assert (H1 : / 2 ^ 22 <= / 2 ^ 1) by (apply inv_2_le; lia). rewrite pow_1 in H1. set (t := / 2 ^ 1000) in *. set (v := / 2 ^ 22) in *. nra.
Qed.
Lemma near_one e : Rabs e <= u53 -> 1 - u53 <= 1 + e <= 1 + u53.
Proof. intros H. apply Rabs_le_inv in H. lra. Qed.

Lemma quotient_close a b y : tiny <= a * b -> 0 < y -> tiny <= a * b / y -> close (fdiv (fmul a b) y) (a * b / y).
Proof.
  intros H1 Hy H2. destruct (tiny_room _ H1) as [R1 P1]. destruct (tiny_room _ H2) as [R2 P2]. pose proof u53_small as U. pose proof u53_pos as U0.
  unfold fdiv, fmul. destruct (rounded_rel (a * b)) as (e1 & E1 & ->). { rewrite Rabs_right by lra. lra. }
  apply near_one in E1. set (q := a * b / y) in *. replace (a * b * (1 + e1) / y) with (q * (1 + e1)) by (unfold q; field; lra).
  destruct (rounded_rel (q * (1 + e1))) as (e2 & E2 & ->). { rewrite Rabs_right by nra. nra. }
  apply near_one in E2. unfold close, Rdiv. rewrite <- u53_times. replace (q * (1 + e1) * (1 + e2) - q) with (q * ((1 + e1) * (1 + e2) - 1)) by ring.
  rewrite Rabs_mult, (Rabs_right q) by lra. apply Rmult_le_compat_l; [lra|]. apply Rabs_le. nra.
Qed.
Lemma quotient2_close a b c d : tiny <= a * b -> tiny <= c * d -> tiny <= a * b / (c * d) -> close (fdiv (fmul a b) (fmul c d)) (a * b / (c * d)).
Proof.
  intros H1 Hy H2. destruct (tiny_room _ H1) as [R1 P1]. destruct (tiny_room _ H2) as [R2 P2]. destruct (tiny_room _ Hy) as [R3 P3]. pose proof u53_small as U. pose proof u53_pos as U0.
  unfold fdiv, fmul. destruct (rounded_rel (a * b)) as (e1 & E1 & ->). { rewrite Rabs_right by lra. lra. }
  destruct (rounded_rel (c * d)) as (e3 & E3 & ->). { rewrite Rabs_right by lra. lra. }
  apply near_one in E1, E3. set (q := a * b / (c * d)) in *. set (f := (1 + e1) / (1 + e3)).
  replace (a * b * (1 + e1) / (c * d * (1 + e3))) with (q * f) by (unfold q, f; clear - P3 E3 U; generalize dependent (c * d); intros m Hm; field; lra).
  assert (Hu : u53 <= / 1024). { unfold u53. replace (/ 1024) with (/ 2 ^ 10) by (cbn [pow]; lra). apply inv_2_le. lia. }
  assert (Ef : f * (1 + e3) = 1 + e1) by (unfold f; field; lra).
  assert (F : 1 - 9 / 4 * u53 <= f <= 1 + 9 / 4 * u53) by (split; nra).
  destruct (rounded_rel (q * f)) as (e2 & E2 & ->). { rewrite Rabs_right by nra. nra. }
  apply near_one in E2. unfold close, Rdiv. rewrite <- u53_times. replace (q * f * (1 + e2) - q) with (q * (f * (1 + e2) - 1)) by ring.
  rewrite Rabs_mult, (Rabs_right q) by lra. apply Rmult_le_compat_l; [lra|]. apply Rabs_le. nra.
Qed.

Lemma huge_part q : q <= huge -> q / 2 ^ 51 <= / 4.
Proof.
  unfold huge. intros H. unfold Rdiv. apply Rmult_le_reg_r with (2 ^ 51); [apply pow_lt; lra|]. rewrite Rmult_assoc, Rinv_l, Rmult_1_r by (apply pow_nonzero; lra).
  replace (2 ^ 51) with (4 * 2 ^ 49) by (cbn [pow]; ring). lra.
Qed.
Lemma ceil_close x q : q <= huge -> close x q -> within_one (py_ceil x) (py_ceil q) /\ (py_ceil x <> py_ceil q -> almost_whole q).
Proof.
  intros Hq C. pose proof (huge_part _ Hq). unfold close in C. split; [apply ceil_near; lra|].
  intros N. destruct (ceil_between _ _ N) as (k & Hk). exists k. lra.
Qed.
