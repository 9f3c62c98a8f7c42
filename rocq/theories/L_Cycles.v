(** Movements repeat themselves after whole cycles. *)
From Coq Require Import List ZArith Lia Lra Bool Reals String.
From Verif Require Import M_Unsteady S_Movement S_Cycles L_Base L_Loads L_Geometry L_Movement L_Problems L_Statements3.
Import ListNotations.
Local Open Scope R_scope.
Local Open Scope list_scope.

Section Cycle.
  Variable k : nat.
  Lemma repeats_repeat {A} (x : A) n : repeats k (repeat x n).
  Proof.
    intros i y E. assert (y = x) as -> by (apply (repeat_spec n x), (nth_error_In _ _ E)).
    apply nth_error_repeat. assert (nth_error (repeat x n) (i + k) <> None) by congruence. apply nth_error_Some in H. rewrite repeat_length in H. lia.
  Qed.
  Lemma repeats_map {A B} (f : A -> B) l : repeats k l -> repeats k (map f l).
  Proof. intros H i y E. rewrite nth_error_map in E. destruct (nth_error l (i + k)) eqn:E'; [|discriminate E]. rewrite nth_error_map, (H _ _ E'). exact E. Qed.
  Lemma repeats_combine {A B} (l : list A) (m : list B) : repeats k l -> repeats k m -> repeats k (combine l m).
  Proof.
    intros Hl Hm i [x y] E. 
    assert (N : forall j (p : A * B), nth_error (combine l m) j = Some p <-> nth_error l j = Some (fst p) /\ nth_error m j = Some (snd p)).
    { clear. revert m. induction l as [|a l IH]; intros m j [x y].
      - destruct j; cbn; split; [discriminate | intros [? ?]; discriminate | discriminate | intros [? ?]; discriminate].
      - destruct m as [|b m]; destruct j as [|j]; cbn [combine nth_error fst snd].
        + split; [discriminate | intros [? ?]; discriminate].
        + split; [discriminate | intros [? ?]; discriminate].
        + split; intros H; [injection H as -> ->; auto | destruct H as [H1 H2]; injection H1 as ->; injection H2 as ->; reflexivity].
        + apply (IH m j (x, y)). }
    apply N in E. destruct E. apply N. split; [apply Hl | apply Hm]; assumption.
  Qed.
  Lemma repeats_map2 {A B C} (f : A -> B -> C) l m : repeats k l -> repeats k m -> repeats k (map2 f l m).
  Proof.
    intros Hl Hm. assert (E : map2 f l m = map (fun p => f (fst p) (snd p)) (combine l m)) by (clear; revert m; induction l as [|a l IH]; intros [|b m]; cbn; [reflexivity..|rewrite IH; reflexivity]).
    rewrite E. apply repeats_map, repeats_combine; assumption.
  Qed.
  Lemma repeats_mapM {A B} (f : A -> result B) l x : repeats k l -> mapM f l = Ok x -> repeats k x.
  Proof.
    intros H E i y Ey. apply mapM_Forall2 in E.
    assert (N : forall j b, nth_error x j = Some b -> exists a, nth_error l j = Some a /\ f a = Ok b).
    { clear - E. induction E; intros [|j] b Hb; cbn in *; try discriminate; [injection Hb as <-; eauto | apply IHE; exact Hb]. }
    assert (N' : forall j a, nth_error l j = Some a -> exists b, nth_error x j = Some b /\ f a = Ok b).
    { clear - E. induction E; intros [|j] a Ha; cbn in *; try discriminate; [injection Ha as <-; eauto | apply IHE; exact Ha]. }
    destruct (N _ _ Ey) as (a & Ea & Ef). destruct (N' _ _ (H _ _ Ea)) as (b & Eb & Ef'). congruence.
  Qed.
  Lemma repeats_steps {A} (f : nat -> result A) n x : (forall i y, f (i + k)%nat = Ok y -> f i = Ok y) -> mapM f (seq 0 n) = Ok x -> repeats k x.
  Proof.
    intros H E i y Ey. pose proof (mapM_Forall2 _ _ _ E) as F. 
    assert (N : forall j b, nth_error x j = Some b <-> (j < n)%nat /\ f j = Ok b).
    { intros j b. assert (L : List.length x = n) by (rewrite <- (Forall2_length _ _ _ F); apply seq_length).
      assert (G : forall j b, nth_error x j = Some b -> (j < n)%nat /\ f j = Ok b).
      { clear - F. intros j b Hb. destruct (Forall2_nth _ _ _ F _ _ Hb) as (a & Ha & E).
        assert (Hj : (j < n)%nat) by (rewrite <- (seq_length n 0); apply nth_error_Some; congruence). split; [exact Hj|].
        pose proof (nth_error_nth _ _ 0%nat Ha) as Hn. rewrite seq_nth in Hn by exact Hj. cbn in Hn. subst a. exact E. }
      split; [apply G|]. intros [Hj Ef]. destruct (nth_error x j) eqn:Ex; [destruct (G _ _ Ex); congruence | apply nth_error_None in Ex; lia]. }
    apply N in Ey. destruct Ey as [Hi Ef]. apply N. split; [lia | apply H; exact Ef].
  Qed.
  Lemma repeats_index {A} (l : list A) i x : repeats k l -> index l (i + k) = Ok x -> index l i = Ok x.
  Proof. unfold index. intros H. destruct (nth_error l (i + k)) eqn:E; [|discriminate]. rewrite (H _ _ E). trivial. Qed.
  Lemma repeats_column {A} (l : list (list A)) i x : Forall (repeats k) l -> column l (i + k) = Ok x -> column l i = Ok x.
  Proof.
    intros H. revert x. unfold column. induction H as [|r l Hr Hl IH]; intros x E; [exact E|]. cbn [mapM] in *. apply bind_Ok in E. destruct E as (a & Ea & E). apply bind_Ok in E. destruct E as (b & Eb & E).
    rewrite (repeats_index _ _ _ Hr Ea). cbn [bind]. rewrite (IH _ Eb). exact E.
  Qed.

  Variable dt : R.
  Lemma wave_repeats w a T base n l : follows_wave w a T base n dt l -> (a = 0 \/ T = 0 \/ (exists j, INR k * dt = IZR j * T) /\ forall s j, w (s + IZR j) = w s) -> repeats k l.
  Proof.
    intros (L & _ & F) H i v E. assert (Hi : (i + k < List.length l)%nat) by (apply nth_error_Some; congruence).
    destruct (nth_error l i) as [u|] eqn:Eu; [f_equal | apply nth_error_None in Eu; lia].
    destruct (F _ _ E) as [F1 F2], (F _ _ Eu) as [G1 G2].
    assert (D : a = 0 \/ T = 0 -> u = v) by (intros Z; rewrite F1, G1 by exact Z; reflexivity).
    destruct H as [Z|[Z|[(j & Hj) Hw]]]; [apply D; auto.. |]. destruct (Req_dec T 0) as [Z|Z]; [apply D; auto|].
    rewrite F2, G2 by exact Z. rewrite plus_INR. replace ((INR i + INR k) * dt / T) with (INR i * dt / T + IZR j) by (field_simplify_eq; [rewrite (Rmult_comm T (IZR j)), <- Hj; ring | exact Z]).
    rewrite Hw. reflexivity.
  Qed.
  Lemma two_pi_whole (f : R -> R) : (forall x, f (x + 2 * PI) = f x) -> forall s j, f (2 * PI * (s + IZR j)) = f (2 * PI * s).
  Proof.
    intros H s j. assert (N : forall n x, f (x + 2 * PI * INR n) = f x).
    { induction n as [|n IH]; intros x; [cbn; f_equal; ring|]. rewrite S_INR. replace (x + 2 * PI * (INR n + 1)) with (x + 2 * PI * INR n + 2 * PI) by ring. rewrite H. apply IH. }
    destruct (Z_le_gt_dec 0 j) as [Z|Z].
    - replace j with (Z.of_nat (Z.to_nat j)) by lia. rewrite <- INR_IZR_INZ, Rmult_plus_distr_l. apply N.
    - rewrite <- (N (Z.to_nat (- j)) (2 * PI * (s + IZR j))). f_equal. rewrite INR_IZR_INZ, Z2Nat.id by lia. rewrite opp_IZR. ring.
  Qed.
  Lemma oscillate_repeats o base n l : oscillate o base n dt = Ok l -> comes_back k dt (o, None) -> repeats k l.
  Proof.
    destruct unit_waves as ((_ & _ & S1) & S2 & _). destruct uniform_profile as (f & Hf & Uf).
    intros E H. unfold comes_back in H. cbn [fst] in H. unfold oscillate in E. destruct (String.eqb (osc_spacing o) "sine"); [|destruct (String.eqb (osc_spacing o) "uniform"); [|discriminate E]].
    - apply (wave_repeats _ _ _ _ _ _ (sinspace_wave _ _ _ _ _ _ E)). tauto.
    - apply (wave_repeats _ _ _ _ _ _ (Uf _ _ _ _ _ _ E)). destruct (S2 f Hf) as (_ & _ & S3). tauto.
  Qed.
  Lemma oscillate_custom_repeats o custom base n l : oscillate_custom o custom base n dt = Ok l -> comes_back k dt (o, custom) -> repeats k l.
  Proof.
    destruct unit_waves as ((_ & _ & S1) & S2 & _). destruct uniform_profile as (f & Hf & Uf).
    intros E H. unfold comes_back in H. cbn [fst snd] in H. unfold oscillate_custom in E. destruct (String.eqb (osc_spacing o) "sine"); [|destruct (String.eqb (osc_spacing o) "uniform"); [|destruct (String.eqb (osc_spacing o) "custom") eqn:C; [|discriminate E]]].
    - apply (wave_repeats _ _ _ _ _ _ (sinspace_wave _ _ _ _ _ _ E)). tauto.
    - apply (wave_repeats _ _ _ _ _ _ (Uf _ _ _ _ _ _ E)). destruct (S2 f Hf) as (_ & _ & S3). tauto.
    - apply String.eqb_eq in C. destruct custom as [g|]; [|discriminate E]. apply (wave_repeats _ _ _ _ _ _ (customspace_wave _ _ _ _ _ _ _ E)).
      destruct H as [H|[H|[H1 H2]]]; auto. right. right. split; [exact H1|]. apply two_pi_whole. exact (H2 C g eq_refl).
  Qed.
  Lemma sections_repeat m n last vertical span sweep heave h : repeats k last -> Forall (comes_back k dt) (section_oscillations m) ->
    generate_sections m n dt last vertical span sweep heave = Ok h -> repeats k h.
  Proof.
    intros HL HO E. unfold section_oscillations in HO. apply Forall_cons_iff in HO. destruct HO as [O1 HO]. apply Forall_cons_iff in HO. destruct HO as [O2 HO]. apply Forall_cons_iff in HO. destruct HO as [O3 _].
    unfold generate_sections in E. apply bind_Ok in E. destruct E as (sw & E1 & E). apply bind_Ok in E. destruct E as (pi & E2 & E). apply bind_Ok in E. destruct E as (he & E3 & E). apply bind_Ok in E. destruct E as (c & _ & E). cbn zeta in E.
    pose proof (oscillate_custom_repeats _ _ _ _ _ E1 O1). pose proof (oscillate_custom_repeats _ _ _ _ _ E2 O2). pose proof (oscillate_custom_repeats _ _ _ _ _ E3 O3).
    unfold map4M in E. refine (repeats_mapM _ _ _ _ E).
    destruct vertical; repeat apply repeats_combine; try apply repeats_map2; try apply repeats_combine; try apply repeats_repeat; assumption.
  Qed.
  Lemma histories_repeat n ms : forall last hs, match last with None => True | Some l => repeats k l end -> Forall (fun m => Forall (comes_back k dt) (section_oscillations m)) ms ->
    section_histories n dt last ms = Ok hs -> Forall (repeats k) hs.
  Proof.
    induction ms as [|m ms IH]; intros last hs HL HO E; cbn [section_histories] in E; [apply Ok_eq in E; subst hs; constructor|].
    apply Forall_cons_iff in HO. destruct HO as [O1 O2].
    apply bind_Ok in E. destruct E as (h & Eh & E). apply bind_Ok in E. destruct E as (rest & Er & E). apply Ok_eq in E. subst hs.
    assert (Hh : repeats k h).
    { destruct last as [l|].
      - cbn zeta in Eh. apply bind_Ok in Eh. destruct Eh as (first & _ & Eh). destruct (base_angles (cs_leading_edge (sm_base m)) first) as [[[span sweep] heave] vertical].
        refine (sections_repeat _ _ _ _ _ _ _ _ _ O1 Eh). apply repeats_map. exact HL.
      - apply bind_Ok in Eh. destruct Eh as (u & _ & Eh). apply bind_Ok in Eh. destruct Eh as (c & _ & Eh). refine (sections_repeat _ _ _ _ _ _ _ _ _ O1 Eh). apply repeats_repeat. }
    constructor; [exact Hh|]. exact (IH (Some h) rest Hh O2 Er).
  Qed.
  Lemma in_concat_map {A B} (P : B -> Prop) (f : A -> list B) l : Forall P (concat (map f l)) -> Forall (fun a => Forall P (f a)) l.
  Proof. induction l as [|a l IH]; cbn; intros H; [constructor|]. apply Forall_app in H. destruct H. constructor; auto. Qed.
  Lemma wings_repeat m n h : Forall (comes_back k dt) (wing_oscillations m) -> generate_wings m n dt = Ok h -> repeats k h.
  Proof.
    intros HO E. unfold wing_oscillations in HO. apply Forall_app in HO. destruct HO as [HO HS]. apply in_concat_map in HS.
    apply Forall_cons_iff in HO. destruct HO as [O1 HO]. apply Forall_cons_iff in HO. destruct HO as [O2 HO]. apply Forall_cons_iff in HO. destruct HO as [O3 _].
    unfold generate_wings in E. apply bind_Ok in E. destruct E as (xs & E1 & E). apply bind_Ok in E. destruct E as (ys & E2 & E). apply bind_Ok in E. destruct E as (zs & E3 & E). apply bind_Ok in E. destruct E as (hs & E4 & E).
    pose proof (oscillate_repeats _ _ _ _ E1 O1) as R1. pose proof (oscillate_repeats _ _ _ _ E2 O2) as R2. pose proof (oscillate_repeats _ _ _ _ E3 O3) as R3. pose proof (histories_repeat n _ None _ I HS E4) as R4.
    refine (repeats_steps _ _ _ _ E). intros i y Ey. apply bind_Ok in Ey. destruct Ey as (x & Ex & Ey). rewrite (repeats_index _ _ _ R1 Ex). cbn [bind].
    apply bind_Ok in Ey. destruct Ey as (x2 & Ex2 & Ey). rewrite (repeats_index _ _ _ R2 Ex2). cbn [bind]. apply bind_Ok in Ey. destruct Ey as (x3 & Ex3 & Ey). rewrite (repeats_index _ _ _ R3 Ex3). cbn [bind].
    apply bind_Ok in Ey. destruct Ey as (c & Ec & Ey). rewrite (repeats_column _ _ _ R4 Ec). exact Ey.
  Qed.
  Lemma mapM_repeats {A B} (P : A -> Prop) (f : A -> result (list B)) l x : (forall a h, P a -> f a = Ok h -> repeats k h) -> Forall P l -> mapM f l = Ok x -> Forall (repeats k) x.
  Proof.
    intros H HP E. apply mapM_Forall2 in E. induction E; constructor; apply Forall_cons_iff in HP; destruct HP; [eapply H; eassumption | auto].
  Qed.
  Lemma airplanes_repeat m n h : Forall (comes_back k dt) (airplane_oscillations m) -> generate_airplanes m n dt = Ok h -> repeats k h.
  Proof.
    intros HO E. unfold airplane_oscillations in HO. apply Forall_app in HO. destruct HO as [HO HS]. apply in_concat_map in HS.
    apply Forall_cons_iff in HO. destruct HO as [O1 HO]. apply Forall_cons_iff in HO. destruct HO as [O2 HO]. apply Forall_cons_iff in HO. destruct HO as [O3 _].
    unfold generate_airplanes in E. apply bind_Ok in E. destruct E as (xs & E1 & E). apply bind_Ok in E. destruct E as (ys & E2 & E). apply bind_Ok in E. destruct E as (zs & E3 & E). apply bind_Ok in E. destruct E as (hs & E4 & E).
    pose proof (oscillate_repeats _ _ _ _ E1 O1) as R1. pose proof (oscillate_repeats _ _ _ _ E2 O2) as R2. pose proof (oscillate_repeats _ _ _ _ E3 O3) as R3.
    pose proof (mapM_repeats _ _ _ _ (fun w h => wings_repeat w n h) HS E4) as R4.
    refine (repeats_steps _ _ _ _ E). intros i y Ey. apply bind_Ok in Ey. destruct Ey as (x & Ex & Ey). rewrite (repeats_index _ _ _ R1 Ex). cbn [bind].
    apply bind_Ok in Ey. destruct Ey as (x2 & Ex2 & Ey). rewrite (repeats_index _ _ _ R2 Ex2). cbn [bind]. apply bind_Ok in Ey. destruct Ey as (x3 & Ex3 & Ey). rewrite (repeats_index _ _ _ R3 Ex3). cbn [bind].
    apply bind_Ok in Ey. destruct Ey as (c & Ec & Ey). rewrite (repeats_column _ _ _ R4 Ec). exact Ey.
  Qed.
  Lemma points_repeat m n h : comes_back k dt (om_velocity m, None) -> generate_operating_points m n dt = Ok h -> repeats k h.
  Proof.
    intros HO E. unfold generate_operating_points in E. apply bind_Ok in E. destruct E as (vs & E1 & E). pose proof (oscillate_repeats _ _ _ _ E1 HO) as R1.
    refine (repeats_steps _ _ _ _ E). intros i y Ey. apply bind_Ok in Ey. destruct Ey as (x & Ex & Ey). rewrite (repeats_index _ _ _ R1 Ex). exact Ey.
  Qed.
End Cycle.

Lemma movement_repeats ams om steps cycles chords delta m k : new_movement ams om steps cycles chords delta = Ok m ->
  Forall (comes_back k (mv_delta_time m)) (all_oscillations ams om) -> Forall (repeats k) (mv_airplanes m) /\ repeats k (mv_operating_points m).
Proof.
  intros E HO. destruct (movement_built _ _ _ _ _ _ _ E) as (_ & _ & _ & _ & P3 & P4). apply Forall_cons_iff in HO. destruct HO as [O1 O2]. apply in_concat_map in O2.
  split; [|exact (points_repeat _ _ _ _ _ O1 P4)]. exact (mapM_repeats _ _ _ _ _ (fun a h => airplanes_repeat k _ a _ h) O2 P3).
Qed.
Lemma problem_repeats ams om steps cycles chords delta m up only k : new_movement ams om steps cycles chords delta = Ok m -> new_unsteady_problem m only = Ok up ->
  Forall (comes_back k (mv_delta_time m)) (all_oscillations ams om) -> repeats k (up_steady_problems up).
Proof.
  intros Em E HO. destruct (movement_repeats _ _ _ _ _ _ _ _ Em HO) as [RA RO]. unfold new_unsteady_problem in E. cbn zeta in E. apply bind_Ok in E. destruct E as (p & _ & E). apply bind_Ok in E. destruct E as (ps & Eps & E). apply Ok_eq in E. subst up. cbn [up_steady_problems].
  refine (repeats_steps _ _ _ _ _ Eps). intros i y Ey. apply bind_Ok in Ey. destruct Ey as (c & Ec & Ey). rewrite (repeats_column _ _ _ _ RA Ec). cbn [bind]. apply bind_Ok in Ey. destruct Ey as (o & Eo & Ey). rewrite (repeats_index _ _ _ _ RO Eo). exact Ey.
Qed.
(** The averaging window of a time step that divides the longest period is one cycle. *)
Lemma cycle_averaged m only up k : new_unsteady_problem m only = Ok up -> 0 < up_max_period up -> 0 < mv_delta_time m -> INR k * mv_delta_time m = up_max_period up ->
  (Z.of_nat k <= mv_num_steps m)%Z -> (up_first_averaging_step up = mv_num_steps m - Z.of_nat k)%Z.
Proof.
  intros E Hp Hd Hk Hn. destruct (unsteady_built _ _ _ E) as (_ & _ & _ & _ & _ & HF & _). rewrite HF. unfold first_averaging_step.
  replace (Reqb (up_max_period up) 0) with false by (symmetry; apply Reqb_false; lra).
  replace (IZR (mv_num_steps m) - up_max_period up / mv_delta_time m) with (IZR (mv_num_steps m - Z.of_nat k)).
  - rewrite (floor_unique (IZR (mv_num_steps m - Z.of_nat k)) (mv_num_steps m - Z.of_nat k)) by lra. lia.
  - rewrite minus_IZR, <- INR_IZR_INZ, <- Hk. field. lra.
Qed.
(** Whole cycles asked for are whole cycles. *)
Lemma cycles_whole ams om c k m p : new_movement ams om None (Some (INR c)) None None = Ok m \/ (exists dt, new_movement ams om None (Some (INR c)) None (Some dt) = Ok m) ->
  max_period ams om = Ok p -> 0 < p -> INR k * mv_delta_time m = p -> mv_num_steps m = Z.of_nat (c * k).
Proof.
  intros E Ep Hp Hk.
  assert (HN : mv_num_steps m = py_ceil (INR c * p / mv_delta_time m)).
  { assert (G : exists d, new_movement ams om None (Some (INR c)) None d = Ok m) by (destruct E as [E|[dt E]]; eauto). destruct G as [d G].
    unfold new_movement in G. cbn [is_some] in G. rewrite Ep in G. cbn [bind] in G. apply bind_Ok in G. destruct G as (u & _ & G). apply bind_Ok in G. destruct G as (dt & Edt & G).
    replace (Reqb p 0) with false in G by (symmetry; apply Reqb_false; lra). cbn [bind] in G.
    apply bind_Ok in G. destruct G as (a & _ & G). apply bind_Ok in G. destruct G as (o & _ & G). apply Ok_eq in G. subst m. reflexivity. }
  assert (Hd : mv_delta_time m <> 0) by (intros Z; rewrite Z, Rmult_0_r in Hk; lra).
  rewrite HN. replace (INR c * p / mv_delta_time m) with (IZR (Z.of_nat (c * k))).
  - unfold py_ceil. fold (py_floor (- IZR (Z.of_nat (c * k)))). rewrite (floor_unique (- IZR (Z.of_nat (c * k))) (- Z.of_nat (c * k))%Z); [lia | rewrite opp_IZR; lra].
  - rewrite <- INR_IZR_INZ, mult_INR, <- Hk. field. exact Hd.
Qed.
