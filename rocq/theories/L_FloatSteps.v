(** Step counts, averaging windows and frame rates computed in double precision. *)
From Coq Require Import Lra Lia Psatz ZArith Reals.
From Flocq Require Import Core.
From Verif Require Import L_Base M_Floats S_Floats L_Movement L_Problems L_Floats.
Local Open Scope R_scope.

Lemma least_ceil dt time n : 0 < dt -> least (lasts dt time) n -> n = py_ceil (time / dt).
Proof.
  intros Hd [H1 H2]. symmetry. apply py_ceil_unique. unfold lasts in *. set (q := time / dt). assert (E : time = q * dt) by (unfold q; field; lra). rewrite E in *. split; [|nra].
  destruct (Rlt_le_dec (IZR n - 1) q) as [L|L]; [exact L|]. exfalso. specialize (H2 (n - 1)%Z). rewrite minus_IZR in H2. assert (n <= n - 1)%Z by (apply H2; nra). lia.
Qed.
Lemma cycle_steps_float c p dt n : tiny <= c * p -> 0 < dt -> countable (c * p / dt) -> least (lasts dt (c * p)) n ->
  within_one (float_cycle_steps c p dt) n /\ (float_cycle_steps c p dt <> n -> almost_whole (c * p / dt)).
Proof. intros H1 Hd [L U] Hn. rewrite (least_ceil _ _ _ Hd Hn). apply ceil_close; [exact U|]. apply quotient_close; assumption. Qed.
Lemma chord_steps_float k c dt v n : tiny <= k * c -> tiny <= dt * v -> countable (k * c / (dt * v)) -> least (flies dt v (k * c)) n ->
  within_one (float_chord_steps k c dt v) n /\ (float_chord_steps k c dt v <> n -> almost_whole (k * c / (dt * v))).
Proof.
  intros H1 Hd [L U] Hn. destruct (tiny_room _ Hd) as [_ Hd']. rewrite (least_ceil (dt * v) _ _ Hd' Hn). apply ceil_close; [exact U|]. apply quotient2_close; assumption.
Qed.

Lemma huge_u53 x : Rabs x <= 2 * huge -> u53 * Rabs x <= / 8.
Proof.
  unfold huge, u53. intros H. apply Rmult_le_reg_l with (2 ^ 53); [apply pow_lt; lra|]. rewrite <- Rmult_assoc, Rinv_r, Rmult_1_l by (apply pow_nonzero; lra).
  replace (2 ^ 53) with (16 * 2 ^ 49) by (cbn [pow]; ring). lra.
Qed.
Lemma eta_small : / 2 ^ 1074 <= / 8.
Proof. replace (/ 8) with (/ 2 ^ 3) by (cbn [pow]; lra). apply inv_2_le. lia. Qed.
Lemma rounded_eighth x : Rabs x <= 2 * huge -> Rabs (rounded x - x) <= / 4.
Proof. intros H. pose proof (rounded_abs x). pose proof (huge_u53 _ H). pose proof eta_small. lra. Qed.

Lemma difference_near n p dt : 0 <= IZR n <= huge -> 0 <= p / dt <= huge + 1 ->
  Rabs (fsub (IZR n) (fdiv p dt) - (IZR n - p / dt)) <= / 2.
Proof.
  intros Hn Hq. assert (Hh : 8 <= huge) by (unfold huge; replace 8 with (2 ^ 3) by (cbn [pow]; ring); apply pow_2_le; lia).
  unfold fsub, fdiv. set (q := p / dt) in *. pose proof (rounded_eighth q) as A. assert (A' : Rabs (rounded q - q) <= / 4) by (apply A; rewrite Rabs_right; lra).
  apply Rabs_le_inv in A'. pose proof (rounded_eighth (IZR n - rounded q)) as B. assert (B' : Rabs (IZR n - rounded q) <= 2 * huge) by (apply Rabs_le; lra). specialize (B B'). apply Rabs_le_inv in B. apply Rabs_le. lra.
Qed.
Lemma averaging_step_float n dt p : 0 <= IZR n <= huge -> 0 <= p / dt <= huge ->
  within_one (float_averaging_step n dt p) (first_averaging_step n dt p).
Proof.
  intros Hn Hq. unfold float_averaging_step, first_averaging_step. destruct (Reqb p 0); [unfold within_one; lia|].
  assert (Hq' : 0 <= p / dt <= huge + 1) by lra. pose proof (difference_near _ _ _ Hn Hq') as D. assert (F := floor_near (fsub (IZR n) (fdiv p dt)) (IZR n - p / dt)). unfold within_one in *. lapply F; [lia|]. lra.
Qed.

(** ** Counts that come out right *)
Lemma cycle_steps_exact c p dt n : 0 < dt -> double (c * p) -> double (c * p / dt) -> least (lasts dt (c * p)) n -> float_cycle_steps c p dt = n.
Proof. intros Hd H1 H2 Hn. rewrite (least_ceil _ _ _ Hd Hn). unfold float_cycle_steps, fdiv, fmul. rewrite (rounded_double _ H1), (rounded_double _ H2). reflexivity. Qed.

(** ** A period divided into equal steps *)
Lemma divided_quotient p n : (1 <= n)%Z -> tiny <= p / IZR n -> exists e, 1 - u53 <= e <= 1 + u53 /\ fdiv p (IZR n) = p / IZR n * e.
Proof.
  intros Hn Hp. destruct (tiny_room _ Hp). destruct (rounded_rel (p / IZR n)) as (e & E & Eq). { rewrite Rabs_right by lra. lra. }
  exists (1 + e). split; [apply near_one; exact E|exact Eq].
Qed.
Lemma u53_1024 : u53 <= / 1024.
Proof. unfold u53. replace (/ 1024) with (/ 2 ^ 10) by (cbn [pow]; lra). apply inv_2_le. lia. Qed.
Lemma tiny_le_1 : tiny <= 1.
Proof. unfold tiny. replace 1 with (/ 2 ^ 0) by (cbn [pow]; lra). apply inv_2_le. lia. Qed.
Lemma divided_close c p n : (1 <= c)%Z -> (1 <= n)%Z -> tiny <= p / IZR n ->
  close (fdiv (fmul (IZR c) p) (fdiv p (IZR n))) (IZR (c * n)).
Proof.
  intros Hc Hn Hp. destruct (tiny_room _ Hp) as [P1 P2]. pose proof u53_1024 as U. pose proof u53_pos as U0. assert (Hc' : 1 <= IZR c) by (apply IZR_le; exact Hc). assert (Hn' : 1 <= IZR n) by (apply IZR_le; exact Hn).
  assert (Hp0 : p = p / IZR n * IZR n) by (field; lra). set (s := p / IZR n) in *. assert (Hps : s <= p) by nra.
  destruct (divided_quotient p n Hn Hp) as (e0 & E0 & Q). fold s in Q. rewrite Q.
  assert (Hcp : s <= IZR c * p) by nra. unfold fmul. destruct (rounded_rel (IZR c * p)) as (e1 & E1 & R1). { rewrite Rabs_right by lra. lra. } rewrite R1. apply near_one in E1.
  unfold fdiv. set (f := (1 + e1) / e0). rewrite mult_IZR. set (q := IZR c * IZR n).
  assert (Eq : IZR c * p * (1 + e1) / (s * e0) = q * f) by (unfold q, f; rewrite Hp0; field; lra). rewrite Eq.
  assert (Ef : f * e0 = 1 + e1) by (unfold f; field; lra). assert (F : 1 - 9 / 4 * u53 <= f <= 1 + 9 / 4 * u53) by (split; nra).
  assert (Q1 : 1 <= q) by (unfold q; nra). pose proof tiny_le_1 as T1. destruct (tiny_room 1 T1) as [T2 _].
  destruct (rounded_rel (q * f)) as (e2 & E2 & R2). { rewrite Rabs_right by nra. nra. }
  rewrite R2. apply near_one in E2. unfold close, Rdiv. rewrite <- u53_times. replace (q * f * (1 + e2) - q) with (q * (f * (1 + e2) - 1)) by ring.
  rewrite Rabs_mult, (Rabs_right q) by lra. apply Rmult_le_compat_l; [lra|]. apply Rabs_le. nra.
Qed.
Lemma divided_cycles c p n : (1 <= c)%Z -> (1 <= n)%Z -> tiny <= p / IZR n -> IZR (c * n) <= huge ->
  let dt := fdiv p (IZR n) in float_cycle_steps (IZR c) p dt = (c * n)%Z \/ float_cycle_steps (IZR c) p dt = (c * n + 1)%Z.
Proof.
  intros Hc Hn Hp Hh dt. pose proof (divided_close c p n Hc Hn Hp) as C. pose proof (huge_part _ Hh) as P. unfold close in C. fold dt in C. apply Rabs_le_inv in C. unfold float_cycle_steps.
  set (x := fdiv (fmul (IZR c) p) dt) in *. pose proof (py_ceil_spec x) as S. assert (A : IZR (py_ceil x) < IZR (c * n + 2)) by (rewrite plus_IZR; lra). assert (B : IZR (c * n - 1) < IZR (py_ceil x)) by (rewrite minus_IZR; lra).
  apply lt_IZR in A, B. lia.
Qed.
Lemma divided_window p n steps : (1 <= n <= steps)%Z -> tiny <= p / IZR n -> IZR steps <= huge ->
  let dt := fdiv p (IZR n) in let averaged := (steps - float_averaging_step steps dt p)%Z in averaged = n \/ averaged = (n + 1)%Z.
Proof.
  intros Hn Hp Hh dt averaged. destruct (tiny_room _ Hp) as [P1 P2]. pose proof u53_1024 as U. pose proof u53_pos as U0. assert (Hn1 : (1 <= n)%Z) by lia. assert (Hn' : 1 <= IZR n) by (apply IZR_le; lia).
  assert (Hs' : IZR n <= IZR steps) by (apply IZR_le; lia).
  assert (Hp0 : p = p / IZR n * IZR n) by (field; lra). set (s := p / IZR n) in *. assert (Hps : s <= p) by nra.
  destruct (divided_quotient p n Hn1 Hp) as (e0 & E0 & Q). fold s in Q. fold dt in Q.
  assert (Eq : p / dt = IZR n / e0). { rewrite Q. rewrite Hp0. field. lra. }
  assert (Hf : 1 - 9 / 8 * u53 <= / e0 <= 1 + 9 / 8 * u53). { assert (Ei : / e0 * e0 = 1) by (field; lra). split; nra. }
  assert (HU : u53 * IZR n <= / 8). { rewrite <- (Rabs_right (IZR n)) by lra. apply huge_u53. rewrite Rabs_right; lra. }
  assert (Hq : Rabs (p / dt - IZR n) <= / 4) by (rewrite Eq; unfold Rdiv; apply Rabs_le; split; nra).
  apply Rabs_le_inv in Hq. pose proof (difference_near steps p dt ltac:(lra) ltac:(lra)) as D. apply Rabs_le_inv in D.
  unfold averaged, float_averaging_step. assert (ER : Reqb p 0 = false) by (apply Reqb_false; lra). rewrite ER.
  set (x := fsub (IZR steps) (fdiv p dt)) in *. pose proof (py_floor_spec x) as S.
  assert (A : IZR (py_floor x) < IZR (steps - n + 1)) by (rewrite plus_IZR, minus_IZR; lra). assert (B : IZR (steps - n - 2) < IZR (py_floor x)) by (rewrite !minus_IZR; lra).
  apply lt_IZR in A, B. lia.
Qed.

(** ** Frame rates *)
Lemma frame_rate_float dt : 0 < dt -> countable (1 / dt) ->
  let rate := float_frame_rate dt in let exact := frame_rate dt in
  within_one (snd rate) (snd exact) /\ (snd exact = 50%Z -> snd rate = 49%Z \/ snd rate = 50%Z) /\ ((snd exact < 50)%Z -> (snd exact <= snd rate)%Z) /\
  Rabs (fst rate - fst exact) <= fst exact / 2 ^ 51.
Proof.
  intros Hd [H1 H2]. unfold float_frame_rate, frame_rate. set (r := 1 / dt) in *. destruct (tiny_room _ H1) as [P1 P2]. pose proof u53_1024 as U. pose proof u53_pos as U0.
  destruct (rounded_rel r) as (e & E & Er). { rewrite Rabs_right by lra. lra. } apply near_one in E. unfold fdiv. fold r. set (x := rounded r) in *.
  assert (W50 : double 50) by (apply whole_double; cbn; lia).
  assert (Hx50 : r <= 50 -> x <= 50). { intros L. unfold x. rewrite <- (rounded_double 50 W50). apply rounded_le. exact L. }
  assert (Hx50' : 50 <= r -> 50 <= x). { intros L. unfold x. rewrite <- (rounded_double 50 W50). apply rounded_le. exact L. }
  assert (Dx : double x) by (exact (proj1 (rounded_nearest r))).
  cbn [fst snd]. change (Int_part) with py_floor.
  destruct (Rlt_le_dec 50 r) as [G|G].
  - assert (E50 : Rltb 50 r = true) by (apply Rltb_true; exact G). rewrite E50. assert (F50 : py_floor (r * (50 / r)) = 50%Z) by (apply py_floor_unique; replace (r * (50 / r)) with 50 by (field; lra); lra). rewrite F50.
    assert (X50 : 50 <= x) by (apply Hx50'; lra).
    assert (K : exists s, (if Rltb 50 x then rounded (50 / x) else 1) = s /\ exists f, 1 - u53 <= f <= 1 + u53 /\ s = 50 / x * f).
    { destruct (Rltb 50 x) eqn:El.
      - destruct (rounded_rel (50 / x)) as (e2 & E2 & R2).
        { assert (Ex : 50 / x * x = 50) by (field; lra). rewrite Rabs_right; [|apply Rle_ge; apply Rlt_le; apply Rdiv_lt_0_compat; lra].
          assert (x <= 2 * huge). { rewrite Er. unfold huge in *. nra. } assert (/ 2 ^ 1022 * (2 * huge) <= 50).
          { assert (Ht : / 2 ^ 1022 <= / 2 ^ 50) by (apply inv_2_le; lia). assert (/ 2 ^ 50 * (2 * huge) = 1). { unfold huge. replace (2 * 2 ^ 49) with (2 ^ 50) by (cbn [pow]; ring). apply Rinv_l. apply pow_nonzero. lra. } assert (0 < huge) by (unfold huge; apply pow_lt; lra). nra. }
          apply Rmult_le_reg_r with x; [lra|]. rewrite Ex. assert (0 < / 2 ^ 1022) by (apply Rinv_0_lt_compat, pow_lt; lra). nra. }
        exists (50 / x * (1 + e2)). split; [exact R2|]. exists (1 + e2). split; [apply near_one; exact E2|reflexivity].
      - apply Rltb_false in El. assert (Ex : x = 50) by lra. exists 1. split; [reflexivity|]. exists 1. split; [lra|]. rewrite Ex. field. }
    destruct K as (s & -> & f & Ff & Es).
    assert (Hxs : x * s = 50 * f) by (rewrite Es; field; lra). unfold fmul. destruct (rounded_rel (x * s)) as (e3 & E3 & R3).
    { rewrite Hxs, Rabs_right by lra. pose proof tiny_le_1 as T1. destruct (tiny_room 1 T1) as [T2 _]. lra. }
    rewrite R3, Hxs. apply near_one in E3.
    assert (K : py_floor (50 * f * (1 + e3)) = 49%Z \/ py_floor (50 * f * (1 + e3)) = 50%Z).
    { destruct (Rlt_le_dec (50 * f * (1 + e3)) 50); [left|right]; apply py_floor_unique; nra. }
    split; [unfold within_one; lia|]. split; [intros _; exact K|]. split; [lia|].
    assert (Ex : x * (50 / x) = 50) by (field; lra). rewrite Es. assert (E5 : 50 / x = 50 / r * / (1 + e)) by (rewrite Er; field; lra). rewrite E5. unfold Rdiv at 3. rewrite <- u53_times.
    replace (50 / r * / (1 + e) * f - 50 / r) with (50 / r * (/ (1 + e) * f - 1)) by ring. assert (Hr : 0 < 50 / r) by (apply Rdiv_lt_0_compat; lra). rewrite Rabs_mult, (Rabs_right (50 / r)) by lra.
    apply Rmult_le_compat_l; [lra|]. assert (Ei : / (1 + e) * (1 + e) = 1) by (field; lra). assert (Hi : 1 - 9 / 8 * u53 <= / (1 + e) <= 1 + 9 / 8 * u53) by (split; nra). apply Rabs_le. nra.
  - assert (E50 : Rltb 50 r = false) by (apply Rltb_false; exact G). rewrite E50. assert (X50 : Rltb 50 x = false) by (apply Rltb_false; apply Hx50; exact G). rewrite X50.
    unfold fmul. rewrite !Rmult_1_r. rewrite (rounded_double x Dx).
    assert (Lo : (py_floor r <= py_floor x)%Z).
    { pose proof (py_floor_spec r) as S. pose proof (py_floor_spec x) as S'. assert (IZR (py_floor r) <= x).
      { unfold x. rewrite <- (rounded_double (IZR (py_floor r))); [apply rounded_le; lra|]. apply whole_double. assert (A : IZR (py_floor r) < IZR 51) by lra. assert (B : IZR (-1) < IZR (py_floor r)) by lra. apply lt_IZR in A, B. lia. }
      assert (C : IZR (py_floor r) < IZR (py_floor x + 1)) by (rewrite plus_IZR; lra). apply lt_IZR in C. lia. }
    assert (W : within_one (py_floor x) (py_floor r)) by (apply floor_near; rewrite Er; replace (r * (1 + e) - r) with (r * e) by ring; apply Rabs_def1; nra).
    split; [exact W|]. split.
    { intros E5. assert (Hx : x <= 50) by (apply Hx50; exact G). pose proof (py_floor_spec x) as S. assert (C : IZR (py_floor x) < IZR 51) by lra. apply lt_IZR in C. unfold within_one in W. lia. }
    split; [intros _; exact Lo|]. replace (1 - 1) with 0 by ring. rewrite Rabs_R0. apply Rlt_le, Rdiv_lt_0_compat; [lra|apply pow_lt; lra].
Qed.
