(** Four-digit airfoils made without repanelling. *)
From Coq Require Import List Ascii String Reals Lra Lia Arith.
From Verif Require Import M_Airfoil S_Airfoil S_Names L_Base L_Functions L_Loads L_Geometry L_Airfoil L_Camber L_Names L_Contour L_Tighten.
Import ListNotations.
Local Open Scope R_scope.
Local Open Scope list_scope.

Lemma pi_bound : PI < 3.4.
Proof.
  destruct (Rlt_dec PI 3.4) as [H|H]; [exact H|]. exfalso. apply Rnot_lt_le in H.
  pose proof (cos_ge_0 1.7 ltac:(lra) ltac:(lra)) as H0.
  destruct (pre_cos_bound 1.7 0 ltac:(lra) ltac:(lra)) as [_ H1].
  unfold cos_approx, cos_term in H1. cbn [sum_f_R0 Nat.mul Nat.add pow fact INR] in H1. lra.
Qed.
Lemma second_station : exists x, nth_error (cosspace 0 1 100 true) 1 = Some x /\ 0 < sqrt x <= 0.01718 /\ sqrt x * sqrt x = x.
Proof.
  eexists. split; [apply cosspace_nth; lia|].
  set (y := PI / 198). assert (Hy : 0 < y <= 0.01718) by (unfold y; pose proof pi_bound; pose proof PI_RGT_0; lra).
  assert (E : (1 + 0) / 2 + (1 - 0) / 2 * cos (PI + INR 1 * ((0 - PI) / INR (100 - 1))) = sin y * sin y).
  { replace (PI + INR 1 * ((0 - PI) / INR (100 - 1))) with (- (2 * y) + PI).
    2:{ change (INR 1) with 1. replace (INR (100 - 1)) with 99 by (rewrite INR_IZR_INZ; reflexivity). unfold y. field. }
    rewrite neg_cos, cos_neg, cos_2a_sin. field. }
  rewrite E. assert (Hs : 0 < sin y) by (apply sin_gt_0; pose proof PI_RGT_0; pose proof PI2_3_2; lra).
  pose proof (sin_lt_x y ltac:(lra)). rewrite sqrt_square by lra. split; [lra | reflexivity].
Qed.
Lemma naca2412_ahead : exists p, nth_error (naca_contour 2 4 12 100) 98 = Some p /\ fst p < 0.
Proof.
  destruct second_station as (x & Hx & Hs & Ex). destruct (naca_points 2 4 12 100 1 x ltac:(lia) Hx) as [Hu _]. cbv zeta in Hu.
  eexists. split; [exact Hu|]. unfold naca_upper. cbn [fst]. unfold naca_location. cbn [Nat.eqb].
  replace (INR 2) with 2 by (cbn [INR]; lra). replace (INR 4) with 4 by (cbn [INR]; lra). replace (INR 12) with 12 by (rewrite INR_IZR_INZ; reflexivity).
  set (s := sqrt x) in *. assert (Hx' : 0 < x <= 0.0003) by nra.
  assert (HS : 0.0999 <= camber_slope (2 / 100) (4 / 10) x <= 0.1).
  { unfold camber_slope. destruct (Rle_dec x (4 / 10)) as [L|L]; [|lra].
    replace (2 * (2 / 100) / (4 / 10) ^ 2 * (4 / 10 - x)) with (1 / 10 - x / 4) by (cbn [pow]; field). lra. }
  set (k := camber_slope (2 / 100) (4 / 10) x) in *. destruct (unit_slope k) as [Ek Hc]. rewrite Ek. set (c := cos (atan k)) in *.
  assert (Hc2 : c * c * (1 + k * k) = 1).
  { pose proof (sin2_cos2 (atan k)) as H2. unfold Rsqr in H2. rewrite Ek in H2. fold c in H2. lra. }
  assert (Hkk : k * k <= 0.01) by nra.
  assert (Hc3 : 0.995 <= c).
  { destruct (Rle_dec 0.995 c) as [|N]; [assumption|]. exfalso. apply Rnot_le_lt in N. assert (c * c <= 0.990025) by nra. assert (0 <= c * c) by nra. nra. }
  assert (Hkc : 0.0994 <= k * c) by nra.
  assert (HT : 0.17676 * s <= half_thickness (12 / 100) x).
  { unfold half_thickness. fold s. assert (H2 : 0 <= x ^ 2 <= 0.0003 * x) by nra. assert (H3 : 0 <= x ^ 3) by (apply pow_le; lra).
    assert (H4 : 0 <= x ^ 4 <= x ^ 2) by (replace (x ^ 4) with (x ^ 2 * x ^ 2) by ring; nra). nra. }
  assert (0.17676 * s * 0.0994 <= half_thickness (12 / 100) x * (k * c)) by (apply Rmult_le_compat; nra).
  nra.
Qed.
Lemma naca_middle d1 d2 d34 : (d2 <= 9)%nat -> nth_error (naca_contour d1 d2 d34 100) 99 = Some (0, 0).
Proof. intros Hd. destruct (naca_contour_ends d1 d2 d34 100 Hd ltac:(lia)) as (f & l & _ & _ & H & _). exact H. Qed.
Lemma near_one p d : dist2 p (1, 0) = 0.0105 * d -> d < 1 -> 0 < fst p.
Proof.
  intros H Hd. unfold dist2 in H. cbn [fst snd] in H. destruct (Rlt_dec 0 (fst p)) as [|N]; [assumption|]. exfalso. apply Rnot_lt_le in N.
  assert (1 <= sqrt ((fst p - 1) ^ 2 + (snd p - 0) ^ 2)); [|lra]. rewrite <- sqrt_1 at 1. apply sqrt_le_1_alt. nra.
Qed.
Lemma naca_foremost d1 d2 d34 i le : (d2 <= 9)%nat -> (d34 <= 99)%nat -> foremost (naca_contour d1 d2 d34 100) i le ->
  (List.length (naca_contour d1 d2 d34 100) = 2 * i + 1 \/ i = 0 \/ S i = List.length (naca_contour d1 d2 d34 100))%nat -> i = 99%nat /\ le = (0, 0).
Proof.
  intros Hd Ht (H1 & H2 & H3) HC. pose proof (naca_middle d1 d2 d34 Hd) as H0. rewrite naca_length in HC.
  assert (Hle : fst le <= 0) by (apply (H2 (0, 0)); eapply nth_error_In; exact H0).
  destruct (naca_contour_ends d1 d2 d34 100 Hd ltac:(lia)) as (f & l & Hf & Hl & _ & _ & Df & Dl). rewrite naca_length in Hl.
  assert (HT : INR d34 / 100 < 1). { apply le_INR in Ht. rewrite (INR_IZR_INZ 99) in Ht. change (Z.of_nat 99) with 99%Z in Ht. lra. }
  destruct HC as [HC|[HC|HC]].
  - assert (i = 99%nat) by lia. subst i. rewrite H0 in H1. injection H1 as <-. auto.
  - subst i. rewrite Hf in H1. injection H1 as <-. pose proof (near_one _ _ Df HT). lra.
  - replace (2 * 100 - 1 - 1)%nat with i in Hl by lia. rewrite Hl in H1. injection H1 as <-. pose proof (near_one _ _ Dl HT). lra.
Qed.
Lemma value_error pchip database name c np : (exists a, new_airfoil pchip database name (Some c) false np = Ok a) \/ new_airfoil pchip database name (Some c) false np = Err EValueError.
Proof.
  assert (B : forall A B C (f : A -> B -> C) a b, (exists m, broadcast f a b = Ok m) \/ broadcast f a b = Err EValueError).
  { intros A B C f a b. unfold broadcast. destruct (Nat.eqb _ _); [left; eexists; reflexivity|]. destruct a as [|? [|? ?]], b as [|? [|? ?]]; try (left; eexists; reflexivity); right; reflexivity. }
  unfold new_airfoil. cbn [bind]. unfold with_mcl, upper_coordinates, lower_coordinates, leading_edge_index, argmin.
  destruct (map fst c) as [|x xs]; [right; reflexivity|]. cbn [bind].
  match goal with |- context [broadcast pair_mean ?a ?b] => destruct (B _ _ _ pair_mean a b) as [(m & ->)| ->]; [|right; reflexivity] end. cbn [bind].
  match goal with |- context [broadcast pair_sub ?a ?b] => destruct (B _ _ _ pair_sub a b) as [(u & ->)| ->]; [|right; reflexivity] end. left; eexists; reflexivity.
Qed.
Section Named.
Context (database : list ascii -> option (list R)) (name : string) (d1 d2 d34 : nat).
Context (HN : populate_coordinates database name = Ok (naca_contour d1 d2 d34 100)) (H2 : (d2 <= 9)%nat) (H34 : (d34 <= 99)%nat).
Lemma named_given pchip np : new_airfoil pchip database name None false np = new_airfoil pchip database name (Some (naca_contour d1 d2 d34 100)) false np.
Proof. unfold new_airfoil. rewrite HN. reflexivity. Qed.
Lemma named_made pchip np :
  (foremost (naca_contour d1 d2 d34 100) 99 (0, 0) -> exists a, new_airfoil pchip database name None false np = Ok a /\ af_coordinates a = naca_contour d1 d2 d34 100) /\
  (~ foremost (naca_contour d1 d2 d34 100) 99 (0, 0) -> new_airfoil pchip database name None false np = Err EValueError).
Proof.
  rewrite named_given. split.
  - intros HF. destruct (proj2 (accepted_contours pchip database name (naca_contour d1 d2 d34 100) np)) as (a & Ha).
    + exists 99%nat, (0, 0). split; [exact HF|]. left. rewrite naca_length. reflexivity.
    + exists a. split; [exact Ha | exact (contour_given _ _ _ _ _ _ Ha)].
  - intros HN'. destruct (value_error pchip database name (naca_contour d1 d2 d34 100) np) as [HA|HE]; [|exact HE]. exfalso. apply HN'.
    apply accepted_contours in HA. destruct HA as (i & le & HF & HC). destruct (naca_foremost _ _ _ _ _ H2 H34 HF HC) as [-> ->]. exact HF.
Qed.
End Named.
Lemma uncambered_foremost d2 d34 : (d2 <= 9)%nat -> foremost (naca_contour 0 d2 d34 100) 99 (0, 0).
Proof.
  intros Hd. assert (Es : forall p w, camber_slope (INR 0 / 100) p w = 0) by (intros; unfold camber_slope; cbn [INR]; destruct (Rle_dec w p); unfold Rdiv; ring).
  assert (HP : forall k x, nth_error (cosspace 0 1 100 true) k = Some x -> exists yu yl, nth_error (naca_contour 0 d2 d34 100) (99 - k) = Some (x, yu) /\ nth_error (naca_contour 0 d2 d34 100) (99 + k) = Some (x, yl)).
  { intros k x Hk. destruct (naca_points 0 d2 d34 100 k x Hd Hk) as [A B]. cbv zeta in A, B. unfold naca_upper, naca_lower in A, B. rewrite Es, atan_0, sin_0, Rmult_0_r in A, B.
    rewrite Rminus_0_r in A. rewrite Rplus_0_r in B. eauto. }
  assert (HX : forall j p, nth_error (naca_contour 0 d2 d34 100) j = Some p -> exists k, nth_error (cosspace 0 1 100 true) k = Some (fst p) /\ (j < 99 -> 0 < k)%nat).
  { intros j p Hj. assert (Lj : (j < 199)%nat) by (apply Nat.lt_le_trans with (List.length (naca_contour 0 d2 d34 100)); [apply nth_error_Some; congruence | rewrite naca_length; lia]).
    set (k := (if j <? 99 then 99 - j else j - 99)%nat). assert (Hk : (k < 100)%nat) by (unfold k; destruct (Nat.ltb_spec j 99); lia).
    destruct (nth_error (cosspace 0 1 100 true) k) as [x|] eqn:E; [|apply nth_error_None in E; rewrite cosspace_length in E; lia].
    destruct (HP k x E) as (yu & yl & A & B). exists k. split; [|unfold k; destruct (Nat.ltb_spec j 99); lia].
    rewrite E. f_equal. unfold k in A, B. destruct (Nat.ltb_spec j 99).
    - replace (99 - (99 - j))%nat with j in A by lia. rewrite Hj in A. injection A as ->. reflexivity.
    - replace (99 + (j - 99))%nat with j in B by lia. rewrite Hj in B. injection B as ->. reflexivity. }
  split; [exact (naca_middle 0 d2 d34 Hd)|]. split.
  - intros p Hp. apply In_nth_error in Hp. destruct Hp as (j & Hj). destruct (HX j p Hj) as (k & Hk & _). cbn [fst].
    apply (cosspace_bounds 0 1 100 true (fst p)); [lra | eapply nth_error_In; exact Hk].
  - intros j p Hj L. destruct (HX j p Hj) as (k & Hk & L'). specialize (L' L). cbn [fst].
    pose proof (cosspace_first 0 1 100 true ltac:(lia)) as H0. destruct k as [|k]; [lia|].
    pose proof (cosspace_increasing 0 1 100 true ltac:(lra)) as HI. unfold strictly_increasing in HI. first [exact (HI _ _ _ _ ltac:(lia) H0 Hk) | eapply HI; [|exact H0|exact Hk]; lia].
Qed.
Lemma digit_small c d : digit c d -> (d <= 9)%nat.
Proof. intros H. unfold digit in H. lia. Qed.
Lemma own_points pchip database name text c1 c2 c3 c4 d1 d2 d3 d4 np :
  plain_name name text -> follows (list_ascii_of_string "naca") text [c1; c2; c3; c4] -> digit c1 d1 -> digit c2 d2 -> digit c3 d3 -> digit c4 d4 ->
  let contour := naca_contour d1 d2 (10 * d3 + d4) 100 in
  (foremost contour 99 (0, 0) -> exists a, new_airfoil pchip database name None false np = Ok a /\ af_coordinates a = contour) /\
  (~ foremost contour 99 (0, 0) -> new_airfoil pchip database name None false np = Err EValueError).
Proof.
  intros HP HF H1 H2 H3 H4 contour. apply named_made.
  - exact (plain_four_digits database name text c1 c2 c3 c4 d1 d2 d3 d4 HP HF H1 H2 H3 H4).
  - exact (digit_small _ _ H2).
  - apply digit_small in H3. apply digit_small in H4. lia.
Qed.
Lemma own_uncambered pchip database name text c1 c2 c3 c4 d2 d3 d4 np :
  plain_name name text -> follows (list_ascii_of_string "naca") text [c1; c2; c3; c4] -> digit c1 0 -> digit c2 d2 -> digit c3 d3 -> digit c4 d4 ->
  exists a, new_airfoil pchip database name None false np = Ok a /\ af_coordinates a = naca_contour 0 d2 (10 * d3 + d4) 100.
Proof.
  intros HP HF H1 H2 H3 H4. apply (own_points pchip database name text c1 c2 c3 c4 0 d2 d3 d4 np HP HF H1 H2 H3 H4).
  apply uncambered_foremost. exact (digit_small _ _ H2).
Qed.
Lemma naca2412_refused pchip database np : populate_coordinates database "naca2412" = Ok (naca_contour 2 4 12 100) /\ new_airfoil pchip database "naca2412" None false np = Err EValueError.
Proof.
  split; [reflexivity|]. apply (named_made database "naca2412" 2 4 12 eq_refl ltac:(lia) ltac:(lia)).
  intros (_ & H & _). destruct naca2412_ahead as (p & Hp & L). specialize (H p (nth_error_In _ _ Hp)). cbn [fst] in H. lra.
Qed.
Lemma naca0012_named : plain_name " NACA0012" (list_ascii_of_string "naca0012") /\
  follows (list_ascii_of_string "naca") (list_ascii_of_string "naca0012") ["0"; "0"; "1"; "2"]%char /\
  digit "0" 0 /\ digit "1" 1 /\ digit "2" 2.
Proof.
  split; [destruct (plain_exists " NACA0012") as (t & H); pose proof (plain_stripped _ _ H) as E; vm_compute in E; subst t; exact H|].
  split; [apply follows_iff; [discriminate | eexists; split; reflexivity]|]. unfold digit. repeat split; try lia; reflexivity.
Qed.

(** ** With repanelling *)
Lemma naca_index d1 d2 d34 j q : (d2 <= 9)%nat -> nth_error (naca_contour d1 d2 d34 100) j = Some q ->
  exists k x, nth_error (cosspace 0 1 100 true) k = Some x /\
    ((j = (99 - k)%nat /\ q = naca_upper (INR d1 / 100) (naca_location d2) (INR d34 / 100) x) \/ (j = (99 + k)%nat /\ q = naca_lower (INR d1 / 100) (naca_location d2) (INR d34 / 100) x)).
Proof.
  intros Hd Hj. assert (Lj : (j < 199)%nat) by (apply Nat.lt_le_trans with (List.length (naca_contour d1 d2 d34 100)); [apply nth_error_Some; congruence | rewrite naca_length; lia]).
  set (k := (if j <? 99 then 99 - j else j - 99)%nat). assert (Hk : (k < 100)%nat) by (unfold k; destruct (Nat.ltb_spec j 99); lia).
  destruct (nth_error (cosspace 0 1 100 true) k) as [x|] eqn:E; [|apply nth_error_None in E; rewrite cosspace_length in E; lia].
  destruct (naca_points d1 d2 d34 100 k x Hd E) as [A B]. cbv zeta in A, B. exists k, x. split; [reflexivity || exact E|].
  unfold k in A, B |- *. destruct (Nat.ltb_spec j 99).
  - left. split; [lia|]. replace (100 - 1 - (99 - j))%nat with j in A by lia. rewrite Hj in A. injection A as ->. reflexivity.
  - right. split; [lia|]. replace (100 - 1 + (j - 99))%nat with j in B by lia. rewrite Hj in B. injection B as ->. reflexivity.
Qed.
Lemma third_station k x : (2 <= k)%nat -> nth_error (cosspace 0 1 100 true) k = Some x -> 0.0004 <= x <= 1.
Proof.
  intros Hk Hx. assert (Hb : 0 <= x <= 1) by (eapply cosspace_bounds; [lra | eapply nth_error_In; exact Hx]).
  split; [|lra]. assert (H2 : exists x2, nth_error (cosspace 0 1 100 true) 2 = Some x2 /\ 0.0004 <= x2).
  { eexists. split; [apply cosspace_nth; lia|]. set (y := PI / 99). assert (Hy : 0.03 <= y <= 0.05) by (unfold y; pose proof pi_bound; pose proof PI2_3_2; lra).
    replace (PI + INR 2 * ((0 - PI) / INR (100 - 1))) with (- (2 * y) + PI).
    2:{ replace (INR 2) with 2 by (cbn [INR]; lra). replace (INR (100 - 1)) with 99 by (rewrite INR_IZR_INZ; reflexivity). unfold y. field. }
    rewrite neg_cos, cos_neg, cos_2a_sin.
    destruct (pre_sin_bound y 0 ltac:(lra) ltac:(lra)) as [H1 _]. unfold sin_approx, sin_term in H1. cbn [sum_f_R0 Nat.mul Nat.add pow fact INR] in H1.
    assert (0.02 <= sin y) by nra. nra. }
  destruct H2 as (x2 & H2 & L). destruct (Nat.eq_dec k 2) as [->|N]; [congruence|].
  pose proof (cosspace_increasing 0 1 100 true ltac:(lra)) as HI. pose proof (HI 2%nat k x2 x ltac:(lia) H2 Hx). lra.
Qed.
Lemma thickness_2412 x : 0 <= x <= 1 -> 0 <= half_thickness (12 / 100) x <= 0.17814 * sqrt x.
Proof.
  intros Hx. split; [apply half_thickness_nonneg; lra|]. unfold half_thickness.
  assert (H3 : x ^ 3 <= x ^ 2) by (replace (x ^ 3) with (x ^ 2 * x) by ring; nra). assert (0 <= x ^ 2) by nra. assert (0 <= x ^ 4) by (apply pow_le; lra). lra.
Qed.
Lemma naca2412_others j q : nth_error (naca_contour 2 4 12 100) j = Some q -> j <> 98%nat -> 0 <= fst q.
Proof.
  intros Hj N. destruct (naca_index 2 4 12 j q ltac:(lia) Hj) as (k & x & Hx & HC). unfold naca_location in HC. cbn [Nat.eqb] in HC.
  replace (INR 2) with 2 in HC by (cbn [INR]; lra). replace (INR 4) with 4 in HC by (cbn [INR]; lra). replace (INR 12) with 12 in HC by (rewrite INR_IZR_INZ; reflexivity).
  assert (Hb : 0 <= x <= 1) by (eapply cosspace_bounds; [lra | eapply nth_error_In; exact Hx]).
  destruct (thickness_2412 x Hb) as [T0 T1]. pose proof (sqrt_pos x) as S0. pose proof (sqrt_sqrt x ltac:(lra)) as S1. set (s := sqrt x) in *. set (h := half_thickness (12 / 100) x) in *.
  set (c := camber_slope (2 / 100) (4 / 10) x) in *. destruct (unit_slope c) as [Ec Hc]. pose proof (COS_bound (atan c)) as [_ Hc1]. set (w := cos (atan c)) in *.
  assert (HS : (x <= 4 / 10 /\ 0 <= c <= 0.1) \/ (4 / 10 < x /\ -0.1 <= c <= 0)).
  { unfold c, camber_slope. destruct (Rle_dec x (4 / 10)) as [L|L].
    - left. split; [exact L|]. replace (2 * (2 / 100) / (4 / 10) ^ 2 * (4 / 10 - x)) with (1 / 10 - x / 4) by (cbn [pow]; field). lra.
    - right. apply Rnot_le_lt in L. split; [exact L|]. replace (2 * (2 / 100) / (1 - 4 / 10) ^ 2 * (4 / 10 - x)) with (2 / 45 - x / 9) by (cbn [pow]; field). lra. }
  destruct HC as [[Ej ->]|[Ej ->]]; unfold naca_upper, naca_lower; cbn [fst]; fold h c; rewrite Ec; fold w.
  - destruct HS as [[L HS]|[L HS]].
    + assert (0 <= c * w <= 0.1) by nra. destruct k as [|[|k]]; [|lia|].
      * rewrite (cosspace_first 0 1 100 true ltac:(lia)) in Hx. injection Hx as <-. assert (s = 0) by (unfold s; apply sqrt_0). nra.
      * destruct (third_station (S (S k)) x ltac:(lia) Hx) as [Lx _]. assert (0.018 <= s) by nra. assert (h * (c * w) <= 0.17814 * s * 0.1) by (apply Rmult_le_compat; lra). nra.
    + assert (0 <= h * (- c * w)) by (apply Rmult_le_pos; nra). lra.
  - destruct HS as [[L HS]|[L HS]].
    + assert (0 <= h * (c * w)) by (apply Rmult_le_pos; nra). lra.
    + assert (0 <= - c * w <= 0.1) by nra. assert (s <= 1) by nra. assert (h * (- c * w) <= 0.17814 * 0.1) by (apply Rmult_le_compat; nra). lra.
Qed.
Lemma naca2412_foremost : exists ahead, foremost (naca_contour 2 4 12 100) 98 ahead /\ fst ahead < 0.
Proof.
  destruct naca2412_ahead as (p & Hp & L). exists p. split; [|exact L]. split; [exact Hp|]. split.
  - intros q Hq. apply In_nth_error in Hq. destruct Hq as (j & Hj). destruct (Nat.eq_dec j 98) as [->|N]; [rewrite Hp in Hj; injection Hj as ->; lra|].
    pose proof (naca2412_others j q Hj N). lra.
  - intros j q Hj Lj. pose proof (naca2412_others j q Hj ltac:(lia)). lra.
Qed.
Lemma repanelled_from pchip database name contour ahead np a : populate_coordinates database name = Ok contour -> foremost contour 98 ahead -> nth_error contour 99 = Some (0, 0) ->
  (1 <= np)%nat -> new_airfoil pchip database name None true np = Ok a ->
  exists upper lower, pchip (rev (firstn 99 contour)) = Ok upper /\ pchip (ahead :: (0, 0) :: skipn 100 contour) = Ok lower /\
    forall k x, nth_error (cosspace 0 1 np true) k = Some x -> sides np (af_coordinates a) k (x, upper x) (x, if Nat.eqb k 0 then upper x else lower x).
Proof.
  intros HN (F1 & F2 & F3) HM Hn Ha.
  assert (Ha' : new_airfoil pchip database name (Some contour) true np = Ok a) by (unfold new_airfoil in Ha |- *; rewrite HN in Ha; exact Ha).
  destruct (contour_repanelled pchip database _ contour np a Hn Ha') as (i & le & upper & lower & H1 & H2 & H3 & Hu & Hl & _ & HS).
  assert (Ei : i = 98%nat).
  { pose proof (H2 ahead (nth_error_In _ _ F1)) as A1. pose proof (F2 le (nth_error_In _ _ H1)) as A2.
    destruct (lt_eq_lt_dec i 98) as [[B|B]|B]; [pose proof (F3 i le H1 B); lra | exact B | pose proof (H3 98%nat ahead F1 B); lra]. }
  subst i. exists upper, lower. split; [exact Hu|]. split; [|exact HS].
  assert (SK : forall (l : list (R * R)) n x, nth_error l n = Some x -> skipn n l = x :: skipn (S n) l).
  { induction l as [|y l IH]; intros [|n] x E; try discriminate; [injection E as ->; reflexivity | exact (IH n x E)]. }
  rewrite (SK contour 98%nat ahead F1), (SK contour 99%nat _ HM) in Hl. exact Hl.
Qed.
Lemma naca2412_named database : populate_coordinates database "naca2412" = Ok (naca_contour 2 4 12 100).
Proof. exact (proj1 (naca2412_refused (fun _ => Err EValueError) database 0)). Qed.
Lemma naca2412_repanelled : exists ahead : R * R, nth_error (naca_contour 2 4 12 100) 98 = Some ahead /\ (fst ahead < 0) /\ (nth_error (naca_contour 2 4 12 100) 99 = Some (0, 0)) /\
  forall pchip database np a, (1 <= np)%nat -> new_airfoil pchip database "naca2412" None true np = Ok a ->
  exists upper lower, pchip (rev (firstn 99 (naca_contour 2 4 12 100))) = Ok upper /\ pchip (ahead :: (0, 0) :: skipn 100 (naca_contour 2 4 12 100)) = Ok lower /\
    forall k x, nth_error (cosspace 0 1 np true) k = Some x -> sides np (af_coordinates a) k (x, upper x) (x, if Nat.eqb k 0 then upper x else lower x).
Proof.
  assert (H24 : (4 <= 9)%nat) by lia. destruct naca2412_foremost as (ahead & HF & L). exists ahead.
  pose proof (naca_middle 2 4 12 H24) as HM. pose proof naca2412_named as HN.
  generalize dependent (naca_contour 2 4 12 100). intros contour HF HM HN.
  split; [exact (proj1 HF)|]. split; [exact L|]. split; [exact HM|].
  intros pchip database np a. exact (repanelled_from pchip database _ contour ahead np a (HN database) HF HM).
Qed.
Lemma naca2412_flat database : exists a, new_airfoil (fun _ => Ok (fun _ => 0)) database "naca2412" None true 2 = Ok a.
Proof.
  assert (HC : cosspace 0 1 2 true = [0; 1]).
  { pose proof (cosspace_first 0 1 2 true ltac:(lia)) as H0. pose proof (cosspace_last 0 1 2 ltac:(lia)) as H1.
    pose proof (cosspace_length 0 1 2 true) as HL. destruct (cosspace 0 1 2 true) as [|x [|y [|z r]]]; try discriminate.
    cbn [nth_error Nat.sub] in H0, H1. congruence. }
  set (flat := [(1, 0); (0, 0); (1, 0)] : list (R * R)). assert (HB : balanced 2 flat).
  { split; [lia|]. split; [reflexivity|]. exists (0, 0). split; [reflexivity|]. split.
    - intros p Hp. destruct Hp as [<-|[<-|[<-|[]]]]; cbn; lra.
    - intros [|i] p Hp Hi; [injection Hp as <-; cbn; lra | cbn in Hi; lia]. }
  pose proof (naca2412_named database) as HN. destruct naca2412_foremost as (ahead & HF & _). generalize dependent (naca_contour 2 4 12 100). intros contour HN HF. unfold new_airfoil. rewrite HN. cbn [bind]. unfold repanel, upper_coordinates, lower_coordinates.
  rewrite (foremost_index _ _ _ HF). cbn [bind]. rewrite HC. cbn [rev app tl map combine]. fold flat. eexists. apply (with_mcl_balanced 2 _ HB).
Qed.
