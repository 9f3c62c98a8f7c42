(** Counts that rounding changes. *)
From Coq Require Import Lra Lia Psatz ZArith Reals.
From Flocq Require Import Core.
From Verif Require Import L_Base M_Floats S_Floats L_Movement L_Problems L_Statements3 L_Floats L_FloatSteps.
Local Open Scope R_scope.

Lemma rounded_at x e m : (-1021 <= e)%Z -> bpow radix2 (e - 1) <= x < bpow radix2 e -> ZnearestE (x * bpow radix2 (53 - e)) = m -> rounded x = IZR m * bpow radix2 (e - 53).
Proof.
  intros He Hx Hm. unfold rounded, round, scaled_mantissa. assert (0 < bpow radix2 (e - 1)) by apply bpow_gt_0.
  assert (Ec : cexp radix2 double_exp x = (e - 53)%Z). { rewrite (cexp_fexp radix2 double_exp x e) by (rewrite Rabs_right by lra; exact Hx). unfold double_exp, FLT_exp. lia. }
  rewrite Ec. replace (- (e - 53))%Z with (53 - e)%Z by lia. rewrite Hm. reflexivity.
Qed.
Lemma nearest_at x m : Rabs (x - IZR m) < / 2 -> ZnearestE x = m.
Proof. apply Znearest_imp. Qed.
Lemma nearest_tie x m : x = IZR m + / 2 -> ZnearestE x = if Z.even m then m else (m + 1)%Z.
Proof.
  intros E. assert (F : Zfloor x = m) by (apply Zfloor_imp; rewrite plus_IZR; lra). unfold Znearest. rewrite F. rewrite Rcompare_Eq by lra.
  assert (C : Zceil x = (m + 1)%Z) by (apply Zceil_imp; replace (m + 1 - 1)%Z with m by lia; rewrite plus_IZR; lra). rewrite C. destruct (Z.even m); reflexivity.
Qed.
Lemma rounded_by x e m lo hi sc un : (-1021 <= e)%Z -> bpow radix2 (e - 1) = lo -> bpow radix2 e = hi -> bpow radix2 (53 - e) = sc -> bpow radix2 (e - 53) = un ->
  lo <= x < hi -> ZnearestE (x * sc) = m -> rounded x = IZR m * un.
Proof. intros He <- <- <- <- Hx Hm. exact (rounded_at x e m He Hx Hm). Qed.

Lemma dt_value : fdiv double_0_1 30 = (7686143364045647 / 2305843009213693952).
Proof.
  unfold fmul, fdiv, fsub. rewrite (rounded_by _ (-8) 7686143364045647 (/ IZR 512) (/ IZR 256) (IZR 2305843009213693952) (/ IZR 2305843009213693952)); [lra|lia|reflexivity..| |].
  - unfold double_0_1, double_0_0105. lra.
  - unfold double_0_1, double_0_0105. apply nearest_at, Rabs_def1; lra.
Qed.
Lemma cycles_value : fmul 3 double_0_1 = (1351079888211149 / 4503599627370496).
Proof.
  unfold fmul, fdiv, fsub. rewrite (rounded_by _ (-1) 5404319552844596 (/ IZR 4) (/ IZR 2) (IZR 18014398509481984) (/ IZR 18014398509481984)); [lra|lia|reflexivity..| |].
  - unfold double_0_1, double_0_0105. lra.
  - unfold double_0_1, double_0_0105. rewrite (nearest_tie _ (5404319552844595)); [reflexivity|lra].
Qed.
Lemma quotient_value : fdiv (1351079888211149 / 4503599627370496) (7686143364045647 / 2305843009213693952) = (6333186975989761 / 70368744177664).
Proof.
  unfold fmul, fdiv, fsub. rewrite (rounded_by _ (7) 6333186975989761 (IZR 64) (IZR 128) (IZR 70368744177664) (/ IZR 70368744177664)); [lra|lia|reflexivity..| |].
  - unfold double_0_1, double_0_0105. lra.
  - unfold double_0_1, double_0_0105. apply nearest_at, Rabs_def1; lra.
Qed.
Lemma fps_value : fdiv 1 double_0_0105 = (6701785159777523 / 70368744177664).
Proof.
  unfold fmul, fdiv, fsub. rewrite (rounded_by _ (7) 6701785159777523 (IZR 64) (IZR 128) (IZR 70368744177664) (/ IZR 70368744177664)); [lra|lia|reflexivity..| |].
  - unfold double_0_1, double_0_0105. lra.
  - unfold double_0_1, double_0_0105. apply nearest_at, Rabs_def1; lra.
Qed.
Lemma speed_value : fdiv 50 (6701785159777523 / 70368744177664) = (4728779608739021 / 9007199254740992).
Proof.
  unfold fmul, fdiv, fsub. rewrite (rounded_by _ (0) 4728779608739021 (/ IZR 2) (IZR 1) (IZR 9007199254740992) (/ IZR 9007199254740992)); [lra|lia|reflexivity..| |].
  - unfold double_0_1, double_0_0105. lra.
  - unfold double_0_1, double_0_0105. apply nearest_at, Rabs_def1; lra.
Qed.
Lemma actual_value : fmul (6701785159777523 / 70368744177664) (4728779608739021 / 9007199254740992) = (7036874417766399 / 140737488355328).
Proof.
  unfold fmul, fdiv, fsub. rewrite (rounded_by _ (6) 7036874417766399 (IZR 32) (IZR 64) (IZR 140737488355328) (/ IZR 140737488355328)); [lra|lia|reflexivity..| |].
  - unfold double_0_1, double_0_0105. lra.
  - unfold double_0_1, double_0_0105. apply nearest_at, Rabs_def1; lra.
Qed.

(** ** Three cycles of thirty steps *)
Lemma tenth_double : double double_0_1.
Proof.
  assert (E : double_0_1 = rounded double_0_1).
  { rewrite (rounded_by _ (-3) 7205759403792794 (/ IZR 16) (/ IZR 8) (IZR 72057594037927936) (/ IZR 72057594037927936)); [unfold double_0_1; lra|lia|reflexivity..| |].
    - unfold double_0_1. lra.
    - unfold double_0_1. apply nearest_at, Rabs_def1; lra. }
  rewrite E. apply rounded_nearest.
Qed.
Lemma tiny_small x : / 1024 <= x -> tiny <= x.
Proof. intros H. eapply Rle_trans; [|exact H]. unfold tiny. replace (/ 1024) with (/ 2 ^ 10) by (cbn [pow]; lra). apply inv_2_le. lia. Qed.
Lemma huge_big x : x <= 1024 -> x <= huge.
Proof. intros H. eapply Rle_trans; [exact H|]. unfold huge. replace 1024 with (2 ^ 10) by (cbn [pow]; lra). apply pow_2_le. lia. Qed.
Lemma ninety_one : float_cycle_steps 3 double_0_1 (fdiv double_0_1 30) = 91%Z.
Proof. unfold float_cycle_steps. rewrite dt_value, cycles_value, quotient_value. apply py_ceil_unique. lra. Qed.
Lemma ninety : least (lasts (fdiv double_0_1 30) (3 * double_0_1)) 90%Z.
Proof.
  rewrite dt_value. unfold double_0_1. split; unfold lasts; [lra|]. intros k Hk. assert (H : IZR 89 < IZR k) by lra. apply lt_IZR in H. lia.
Qed.
Lemma forty_nine : snd (float_frame_rate double_0_0105) = 49%Z /\ snd (frame_rate double_0_0105) = 50%Z.
Proof.
  unfold float_frame_rate, frame_rate. cbn [snd]. rewrite fps_value. split.
  - match goal with |- context [Rltb 50 ?x] => assert (E : Rltb 50 x = true) by (apply Rltb_true; lra) end. rewrite E. rewrite speed_value, actual_value. apply py_floor_unique. lra.
  - assert (P : 0 < double_0_0105 < 1 / 50) by (unfold double_0_0105; lra). assert (E : Rltb 50 (1 / double_0_0105) = true). { apply Rltb_true. apply Rmult_lt_reg_r with double_0_0105; [lra|]. unfold Rdiv at 1. rewrite Rmult_assoc, Rinv_l; lra. }
    rewrite E. replace (1 / double_0_0105 * (50 / (1 / double_0_0105))) with 50 by (field; lra). change Int_part with py_floor. apply py_floor_unique. lra.
Qed.

(** ** Statements *)
Lemma movement_float ams om num_cycles num_chords delta_time m p : new_movement ams om None num_cycles num_chords delta_time = Ok m -> largest (all_periods ams om) p -> p <> 0 ->
  let cycles := given num_cycles 3 in let dt := mv_delta_time m in
  0 < dt -> tiny <= cycles * p -> countable (cycles * p / dt) ->
  within_one (float_cycle_steps cycles p dt) (mv_num_steps m) /\ (float_cycle_steps cycles p dt <> mv_num_steps m -> almost_whole (cycles * p / dt)).
Proof.
  intros H Hl Hp cycles dt Hd Ht Hc. destruct (periodic_steps _ _ _ _ _ _ _ H Hl Hp) as (_ & _ & Hn). apply cycle_steps_float; [assumption..|]. apply Hn. exact Hd.
Qed.
Lemma static_float ams om num_cycles num_chords delta_time m : new_movement ams om None num_cycles num_chords delta_time = Ok m -> largest (all_periods ams om) 0 ->
  exists c, largest (map (fun am => a_c_ref (am_base am)) ams) c /\
    let chords := given num_chords 10 in let dt := mv_delta_time m in let v := op_velocity (om_base om) in
    (tiny <= chords * c -> tiny <= dt * v -> countable (chords * c / (dt * v)) ->
     within_one (float_chord_steps chords c dt v) (mv_num_steps m) /\ (float_chord_steps chords c dt v <> mv_num_steps m -> almost_whole (chords * c / (dt * v)))).
Proof.
  intros H Hl. destruct (static_steps _ _ _ _ _ _ H Hl) as (c & Hc & _ & _ & Hn). exists c. split; [exact Hc|]. intros chords dt v H1 H2 H3. apply chord_steps_float; [assumption..|]. apply Hn. apply (tiny_room _ H2).
Qed.
Lemma tenth_divided : tiny <= double_0_1 / IZR 30 /\ IZR (3 * 30) <= huge.
Proof. split; [apply tiny_small; unfold double_0_1; lra|apply huge_big; rewrite mult_IZR; lra]. Qed.
Lemma tenth_counts : tiny <= 3 * double_0_1 /\ 0 < fdiv double_0_1 30 /\ countable (3 * double_0_1 / fdiv double_0_1 30) /\ least (lasts (fdiv double_0_1 30) (3 * double_0_1)) 90%Z.
Proof.
  split; [apply tiny_small; unfold double_0_1; lra|]. split; [rewrite dt_value; lra|]. split; [|exact ninety]. rewrite dt_value. unfold double_0_1. split; [apply tiny_small|apply huge_big]; lra.
Qed.
Lemma cycles_refuted : exists c p dt n, tiny <= c * p /\ 0 < dt /\ countable (c * p / dt) /\ least (lasts dt (c * p)) n /\ float_cycle_steps c p dt <> n.
Proof. exists 3, double_0_1, (fdiv double_0_1 30), 90%Z. destruct tenth_counts as (H1 & H2 & H3 & H4). repeat (split; [assumption|]). rewrite ninety_one. lia. Qed.
Lemma divided_refuted : exists c n p, (1 <= c)%Z /\ (1 <= n)%Z /\ double p /\ tiny <= p / IZR n /\ IZR (c * n) <= huge /\ float_cycle_steps (IZR c) p (fdiv p (IZR n)) <> (c * n)%Z.
Proof.
  exists 3%Z, 30%Z, double_0_1. destruct tenth_divided as [H1 H2]. split; [lia|]. split; [lia|]. split; [exact tenth_double|]. split; [exact H1|]. split; [exact H2|]. rewrite ninety_one. lia.
Qed.
Lemma frames_refuted : exists dt, 0 < dt /\ countable (1 / dt) /\ snd (frame_rate dt) = 50%Z /\ snd (float_frame_rate dt) = 49%Z.
Proof.
  exists double_0_0105. destruct forty_nine. repeat split; try assumption; [unfold double_0_0105; lra|..].
  - apply tiny_small. unfold double_0_0105. lra.
  - apply huge_big. unfold double_0_0105. lra.
Qed.
Lemma chord_example : tiny <= 10 * 1 /\ tiny <= / 8 * 16 /\ countable (10 * 1 / (/ 8 * 16)) /\ least (flies (/ 8) 16 (10 * 1)) 5.
Proof.
  split; [apply tiny_small; lra|]. split; [apply tiny_small; lra|]. split; [split; [apply tiny_small|apply huge_big]; lra|]. unfold flies, least. split; [lra|]. intros k Hk. assert (H : IZR 4 < IZR k) by lra. apply lt_IZR in H. lia.
Qed.
Lemma exact_example : 0 < / 32 /\ double (3 * 1) /\ double (3 * 1 / / 32) /\ least (lasts (/ 32) (3 * 1)) 96.
Proof.
  split; [lra|]. replace (3 * 1 / / 32) with (IZR 96) by lra. replace (3 * 1) with (IZR 3) by lra. split; [apply whole_double; cbn; lia|]. split; [apply whole_double; cbn; lia|].
  unfold lasts, least. split; [lra|]. intros k Hk. assert (H : IZR 95 < IZR k) by lra. apply lt_IZR in H. lia.
Qed.
Lemma window_example : 0 <= IZR 90 <= huge /\ 0 <= double_0_1 / fdiv double_0_1 30 <= huge.
Proof.
  split; [split; [lra|apply huge_big; lra]|]. rewrite dt_value. unfold double_0_1. split; [lra|apply huge_big; lra].
Qed.
