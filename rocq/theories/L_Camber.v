(** Lemmas about camber line resampling and control surfaces. *)
From Coq Require Import Lra Lia.
From Verif Require Import M_Geometry S_Geometry S_Airfoil S_Wing.
From Verif Require Import L_Base L_Functions L_Loads L_Meshing L_Geometry L_Airfoil.

(** ** C16 *)
Lemma dist2_pos p q : p <> q -> 0 < dist2 p q.
Proof.
  intros H. unfold dist2. apply sqrt_lt_R0. destruct p as [a b], q as [c d]; cbn [fst snd].
  destruct (Req_dec a c) as [->|Ha]; [destruct (Req_dec b d) as [->|Hb]; [exfalso; apply H; reflexivity|]|].
  - assert (0 < (b - d) ^ 2) by (rewrite <- Rsqr_pow2; apply Rsqr_pos_lt; lra). pose proof (pow2_ge_0 (c - c)). lra.
  - assert (0 < (a - c) ^ 2) by (rewrite <- Rsqr_pow2; apply Rsqr_pos_lt; lra). pose proof (pow2_ge_0 (b - d)). lra.
Qed.
Lemma dist2_nonneg p q : 0 <= dist2 p q. Proof. apply sqrt_pos. Qed.
Lemma distinct_tail p l : distinct_successive (p :: l) -> distinct_successive l.
Proof. intros H i a b Ha Hb. exact (H (S i) a b Ha Hb). Qed.
Lemma polyline_cons a b m : polyline_length (a :: b :: m) = dist2 a b + polyline_length (b :: m).
Proof. reflexivity. Qed.
Lemma polyline_length_nonneg l : 0 <= polyline_length l.
Proof. induction l as [|p [|q l] IH]; cbn [polyline_length] in *; try lra. pose proof (dist2_nonneg p q). lra. Qed.
Lemma polyline_length_pos p q l : distinct_successive (p :: q :: l) -> 0 < polyline_length (p :: q :: l).
Proof.
  intros H. pose proof (H 0%nat p q eq_refl eq_refl) as Hpq. apply dist2_pos in Hpq. pose proof (polyline_length_nonneg (q :: l)).
  cbn [polyline_length] in *. lra.
Qed.
(** Arc lengths from an offset. *)
Definition arcs_from (a : R) (l : list (R * R)) : list R := a :: cumsum_from a (map2 point_distance l (tl l)).
Lemma arcs_cons a p q l : arcs_from a (p :: q :: l) = a :: arcs_from (a + dist2 p q) (q :: l).
Proof. reflexivity. Qed.
Lemma arcs_last l : forall a, l <> [] -> last (arcs_from a l) 0 = a + polyline_length l.
Proof.
  induction l as [|p [|q l] IH]; intros a H; [contradiction | cbn; ring|].
  rewrite arcs_cons. change (last (a :: arcs_from (a + dist2 p q) (q :: l)) 0) with (last (arcs_from (a + dist2 p q) (q :: l)) 0).
  rewrite IH by discriminate. cbn [polyline_length]. ring.
Qed.
Lemma interp_along f total l : forall a, distinct_successive l -> (2 <= length l)%nat -> 0 < total ->
  a <= f * total <= a + polyline_length l ->
  exists i p q t, nth_error l i = Some p /\ nth_error l (S i) = Some q /\ 0 <= t <= 1 /\
    np_interp f (combine (map (fun s => s / total) (arcs_from a l)) (map fst l)) = Ok (fst p + t * (fst q - fst p)) /\
    np_interp f (combine (map (fun s => s / total) (arcs_from a l)) (map snd l)) = Ok (snd p + t * (snd q - snd p)) /\
    f * total = a + polyline_length (firstn (S i) l) + t * dist2 p q.
Proof.
  induction l as [|p [|q l] IH]; intros a HD HL HT Hf; cbn [length] in HL; try lia.
  pose proof (dist2_pos _ _ (HD 0%nat p q eq_refl eq_refl)) as Hpq. rewrite arcs_cons.
  assert (E : forall b, b / total <= f <-> b <= f * total).
  { intros b. split; intros H.
    - apply Rmult_le_reg_r with (/ total); [apply Rinv_0_lt_compat; exact HT|]. replace (f * total * / total) with f by (field; lra). exact H.
    - apply Rmult_le_reg_r with total; [exact HT|]. replace (b / total * total) with b by (field; lra). exact H. }
  assert (E1 : Rltb f (a / total) = false) by (apply Rltb_false; apply E; lra).
  unfold arcs_from. cbn [map combine]. rewrite !np_interp_step, E1.
  change (combine (map (fun s => s / total) (cumsum_from (a + dist2 p q) (map2 point_distance (q :: l) (tl (q :: l))))) (map fst l))
    with (tl (combine (map (fun s => s / total) (arcs_from (a + dist2 p q) (q :: l))) (map fst (q :: l)))).
  change (combine (map (fun s => s / total) (cumsum_from (a + dist2 p q) (map2 point_distance (q :: l) (tl (q :: l))))) (map snd l))
    with (tl (combine (map (fun s => s / total) (arcs_from (a + dist2 p q) (q :: l))) (map snd (q :: l)))).
  destruct (Rlt_dec (f * total) (a + dist2 p q)) as [Hlt|Hge].
  - assert (E2 : Rltb f ((a + dist2 p q) / total) = true) by (apply Rltb_true; apply Rnot_le_lt; rewrite E; lra). rewrite E2.
    exists 0%nat, p, q, ((f * total - a) / dist2 p q). cbn [nth_error firstn polyline_length]. split; [reflexivity|]. split; [reflexivity|].
    split. { split; [apply Rmult_le_pos; [lra | left; apply Rinv_0_lt_compat; exact Hpq]|].
      apply Rmult_le_reg_r with (dist2 p q); [exact Hpq|]. replace ((f * total - a) / dist2 p q * dist2 p q) with (f * total - a) by (field; lra). lra. }
    split; [f_equal; field; lra|]. split; [f_equal; field; lra|]. field; lra.
  - assert (E2 : Rltb f ((a + dist2 p q) / total) = false) by (apply Rltb_false; apply E; lra). rewrite E2.
    destruct l as [|r l].
    + exists 0%nat, p, q, 1. unfold arcs_from. cbn [nth_error firstn polyline_length map combine np_interp tl map2 cumsum_from]. cbn [polyline_length] in Hf.
      split; [reflexivity|]. split; [reflexivity|]. split; [lra|]. split; [f_equal; ring|]. split; [f_equal; ring|]. lra.
    + destruct (IH (a + dist2 p q)) as (i & p' & q' & t & H1 & H2 & H3 & H4 & H5 & H6).
      * eapply distinct_tail; exact HD.
      * cbn [length]; lia.
      * exact HT.
      * change (polyline_length (p :: q :: r :: l)) with (dist2 p q + polyline_length (q :: r :: l)) in Hf. lra.
      * exists (S i), p', q', t. split; [exact H1|]. split; [exact H2|]. split; [exact H3|]. split; [exact H4|]. split; [exact H5|].
        rewrite H6. cbn [firstn]. destruct i as [|i]; cbn [firstn polyline_length]; ring.
Qed.
Lemma mapM_nth {A B} (f : A -> result B) l m i x : mapM f l = Ok m -> nth_error l i = Some x -> exists y, nth_error m i = Some y /\ f x = Ok y.
Proof.
  intros H. apply mapM_Forall2 in H. revert i. induction H as [|a b l m Hab _ IH]; intros [|i] Hi; try discriminate Hi; cbn in *.
  - injection Hi as <-. eauto.
  - apply IH; exact Hi.
Qed.
Lemma resampled_points fr mcl line : distinct_successive mcl -> (2 <= length mcl)%nat -> get_downsampled_mcl fr mcl = Ok line ->
  forall k f pt, nth_error fr k = Some f -> 0 <= f <= 1 -> nth_error line k = Some pt -> at_arc_length mcl (f * polyline_length mcl) pt.
Proof.
  intros HD HL H k f pt Hk Hf Hpt. destruct mcl as [|p [|q l]]; cbn [length] in HL; try lia.
  unfold get_downsampled_mcl in H. change (arc_lengths (p :: q :: l)) with (arcs_from 0 (p :: q :: l)) in H. cbv zeta in H.
  rewrite arcs_last in H by discriminate. rewrite Rplus_0_l in H. repeat inv_ok H. subst line.
  pose proof (polyline_length_pos p q l HD) as HT.
  assert (Hr : 0 <= f * polyline_length (p :: q :: l) <= 0 + polyline_length (p :: q :: l)) by (split; [apply Rmult_le_pos; lra | rewrite Rplus_0_l; nra]).
  destruct (interp_along f (polyline_length (p :: q :: l)) (p :: q :: l) 0 HD ltac:(cbn; lia) HT Hr) as (i & p' & q' & t & H1 & H2 & H3 & H4 & H5 & H6).
  destruct (mapM_nth _ _ _ _ _ E Hk) as (xx & Hx & Ex). destruct (mapM_nth _ _ _ _ _ E0 Hk) as (yy & Hy & Ey).
  cbv beta in Ex, Ey. rewrite H4 in Ex. rewrite H5 in Ey. injection Ex as <-. injection Ey as <-.
  exists i, p', q', t. split; [exact H1|]. split; [exact H2|]. split; [exact H3|]. split.
  - assert (EC : nth_error (combine v v0) k = Some (fst p' + t * (fst q' - fst p'), snd p' + t * (snd q' - snd p'))).
    { clear -Hx Hy. revert v v0 Hx Hy. induction k as [|k IH]; intros [|a v] [|b v0] Hx Hy; try discriminate; cbn in *; [congruence | apply IH; assumption]. }
    congruence.
  - rewrite H6. ring.
Qed.
Lemma at_arc_start l pt : distinct_successive l -> at_arc_length l 0 pt -> nth_error l 0 = Some pt.
Proof.
  intros HD (i & p & q & t & Hp & Hq & Ht & -> & E).
  pose proof (dist2_pos _ _ (HD _ _ _ Hp Hq)) as Hd.
  assert (HN := polyline_length_nonneg (firstn (S i) l)).
  assert (0 <= t * dist2 p q) by (apply Rmult_le_pos; lra).
  assert (Ht0 : t = 0) by nra. subst t. destruct i as [|i].
  - rewrite Hp. f_equal. destruct p; cbn. f_equal; ring.
  - exfalso. destruct l as [|a [|b l]]; [discriminate Hp | destruct i; discriminate Hp|].
    cbn [firstn] in *. pose proof (dist2_pos _ _ (HD 0%nat a b eq_refl eq_refl)). cbn [polyline_length] in *.
    pose proof (polyline_length_nonneg (b :: firstn i l)). cbn [polyline_length] in *. lra.
Qed.
Lemma nth_error_skipn' {A} k (l : list A) : forall i, nth_error (skipn k l) i = nth_error l (k + i).
Proof. revert l; induction k as [|k IH]; intros l i; [reflexivity|]. destruct l as [|x l]; [destruct i; reflexivity|]. cbn. apply IH. Qed.
Lemma polyline_split l : forall i p q, nth_error l i = Some p -> nth_error l (S i) = Some q ->
  polyline_length l = polyline_length (firstn (S i) l) + dist2 p q + polyline_length (skipn (S i) l).
Proof.
  induction l as [|a l IH]; intros i p q Hp Hq; [destruct i; discriminate Hp|]. destruct l as [|b l]; [destruct i; discriminate Hq|].
  destruct i as [|i].
  - injection Hp as <-. injection Hq as <-. cbn [firstn skipn polyline_length]. ring.
  - change (polyline_length (a :: b :: l)) with (dist2 a b + polyline_length (b :: l)). rewrite (IH i p q Hp Hq).
    change (firstn (S (S i)) (a :: b :: l)) with (a :: b :: firstn i l). change (skipn (S (S i)) (a :: b :: l)) with (skipn (S i) (b :: l)).
    change (firstn (S i) (b :: l)) with (b :: firstn i l). cbn [polyline_length]. ring.
Qed.
Lemma at_arc_end l pt : distinct_successive l -> at_arc_length l (polyline_length l) pt -> nth_error l (length l - 1) = Some pt.
Proof.
  intros HD (i & p & q & t & Hp & Hq & Ht & -> & E). rewrite (polyline_split l i p q Hp Hq) in E.
  pose proof (dist2_pos _ _ (HD _ _ _ Hp Hq)) as Hd. pose proof (polyline_length_nonneg (skipn (S i) l)) as HN.
  assert (t = 1) by nra. subst t. assert (HZ : polyline_length (skipn (S i) l) = 0) by lra.
  assert (HS : skipn (S i) l = [q]).
  { destruct (skipn (S i) l) as [|a [|b m]] eqn:ES.
    - exfalso. assert (length (skipn (S i) l) = 0%nat) by (rewrite ES; reflexivity). rewrite skipn_length in H.
      assert (S i < length l)%nat by (apply nth_error_Some; congruence). lia.
    - f_equal. assert (nth_error (skipn (S i) l) 0 = Some a) by (rewrite ES; reflexivity). rewrite nth_error_skipn', Nat.add_0_r in H. congruence.
    - exfalso. assert (HDs : distinct_successive (a :: b :: m)).
      { rewrite <- ES. intros j x y Hx Hy. rewrite nth_error_skipn' in Hx, Hy. apply (HD (S i + j)%nat); [exact Hx | replace (S (S i + j)) with (S i + S j)%nat by lia; exact Hy]. }
      pose proof (polyline_length_pos _ _ _ HDs). lra. }
  assert (HL : length l = S (S i)).
  { assert (length (skipn (S i) l) = 1%nat) by (rewrite HS; reflexivity). rewrite skipn_length in H. lia. }
  rewrite HL. cbn [Nat.sub]. rewrite Hq. f_equal. destruct q; cbn. f_equal; ring.
Qed.
Lemma resampled_ends fr mcl line : distinct_successive mcl -> (2 <= length mcl)%nat -> get_downsampled_mcl fr mcl = Ok line ->
  forall k pt, nth_error line k = Some pt ->
    (nth_error fr k = Some 0 -> nth_error mcl 0 = Some pt) /\ (nth_error fr k = Some 1 -> nth_error mcl (length mcl - 1) = Some pt).
Proof.
  intros HD HL H k pt Hpt. split; intros Hk.
  - apply at_arc_start; [exact HD|]. pose proof (resampled_points _ _ _ HD HL H k 0 pt Hk ltac:(lra) Hpt) as HA. rewrite Rmult_0_l in HA. exact HA.
  - apply at_arc_end; [exact HD|]. pose proof (resampled_points _ _ _ HD HL H k 1 pt Hk ltac:(lra) Hpt) as HA. rewrite Rmult_1_l in HA. exact HA.
Qed.
Lemma arc_pos_order l s s' : s < s' -> forall i p q t i' p' q' t', distinct_successive l ->
  nth_error l i = Some p -> nth_error l (S i) = Some q -> 0 <= t <= 1 -> s = polyline_length (firstn (S i) l) + t * dist2 p q ->
  nth_error l i' = Some p' -> nth_error l (S i') = Some q' -> 0 <= t' <= 1 -> s' = polyline_length (firstn (S i') l) + t' * dist2 p' q' ->
  (i < i')%nat \/ (i = i' /\ t < t').
Proof.
  intros Hs i p q t i' p' q' t' HD Hp Hq Ht E Hp' Hq' Ht' E'.
  assert (HM : forall j j', (j < j')%nat -> forall a b, nth_error l j = Some a -> nth_error l (S j) = Some b ->
            polyline_length (firstn (S j) l) + dist2 a b <= polyline_length (firstn (S j') l)).
  { clear. induction l as [|x l IH]; intros j j' Hj a b Ha Hb; [destruct j; discriminate Ha|]. destruct j' as [|j']; [lia|].
    destruct l as [|y l]; [destruct j; discriminate Hb|]. destruct j as [|j].
    - injection Ha as <-. injection Hb as <-. cbn [firstn]. rewrite polyline_cons. pose proof (polyline_length_nonneg (y :: firstn j' l)) as H.
      replace (polyline_length [x]) with 0 by reflexivity. lra.
    - specialize (IH j j' ltac:(lia) a b Ha Hb). cbn [firstn] in *. rewrite !polyline_cons. lra. }
  destruct (Nat.lt_trichotomy i i') as [H|[H|H]]; [left; exact H | right | exfalso].
  - split; [exact H|]. subst i'. rewrite Hp in Hp'. rewrite Hq in Hq'. injection Hp' as <-. injection Hq' as <-.
    pose proof (dist2_pos _ _ (HD _ _ _ Hp Hq)). nra.
  - specialize (HM _ _ H _ _ Hp' Hq'). pose proof (dist2_nonneg p' q'). pose proof (dist2_nonneg p q).
    assert (t' * dist2 p' q' <= dist2 p' q') by nra. assert (0 <= t * dist2 p q) by (apply Rmult_le_pos; lra). lra.
Qed.

(** ** C17 *)
(** The corresponding points of the two sides of a contour with [2 n - 1] points. *)
Lemma argmin_from_range bi b i l : (bi < i)%nat -> (argmin_from bi b i l <= i + length l - 1)%nat.
Proof.
  revert bi b i; induction l as [|x l IH]; intros bi b i H; cbn [argmin_from length]; [lia|].
  destruct (Rltb x b); [specialize (IH i x (S i) ltac:(lia)) | specialize (IH bi b (S i) ltac:(lia))]; lia.
Qed.
Lemma argmin_lt l i : argmin l = Ok i -> (i < length l)%nat.
Proof. destruct l as [|x l]; [discriminate|]. cbn. intros [= <-]. pose proof (argmin_from_range 0 x 1 l ltac:(lia)). lia. Qed.
(** [argmin] finds a strict first minimum. *)
Lemma argmin_from_spec l : forall bi b i k m, (bi < i)%nat ->
  ((k = bi /\ m = b) \/ ((i <= k)%nat /\ nth_error l (k - i) = Some m /\ m < b)) ->
  (forall j x, nth_error l j = Some x -> (i + j < k)%nat -> m < x) ->
  (forall j x, nth_error l j = Some x -> m <= x) -> argmin_from bi b i l = k.
Proof.
  induction l as [|x l IH]; intros bi b i k m Hbi Hk Hbefore Hall; cbn [argmin_from].
  - destruct Hk as [[-> _]|(_ & H & _)]; [reflexivity | destruct (k - i)%nat; discriminate H].
  - assert (Hx := Hall 0%nat x eq_refl). destruct Hk as [[-> ->]|(Hik & Hm & Hlt)].
    + replace (Rltb x b) with false by (symmetry; apply Rltb_false; lra). apply (IH bi b (S i) bi b); [lia | left; auto | intros; lia |].
      intros j y Hj. exact (Hall (S j) y Hj).
    + destruct (Nat.eq_dec k i) as [->|Hne].
      * rewrite Nat.sub_diag in Hm. injection Hm as ->. replace (Rltb m b) with true by (symmetry; apply Rltb_true; exact Hlt).
        apply (IH i m (S i) i m); [lia | left; auto | intros; lia | intros j y Hj; exact (Hall (S j) y Hj)].
      * replace (k - i)%nat with (S (k - S i)) in Hm by lia. cbn in Hm.
        assert (Hmx : m < x) by (apply (Hbefore 0%nat x eq_refl); lia).
        destruct (Rltb x b); (apply (IH _ _ (S i) k m); [lia | right; repeat split; [lia | exact Hm | lra] | | intros j y Hj; exact (Hall (S j) y Hj)]);
          intros j y Hj Hlt'; apply (Hbefore (S j) y Hj); lia.
Qed.
Lemma argmin_first l k m : nth_error l k = Some m -> (forall j x, nth_error l j = Some x -> (j < k)%nat -> m < x) ->
  (forall x, In x l -> m <= x) -> argmin l = Ok k.
Proof.
  destruct l as [|x l]; [destruct k; discriminate|]. intros Hk Hb Ha. cbn [argmin]. f_equal. destruct k as [|k].
  - injection Hk as <-. apply (argmin_from_spec l 0 x 1 0 x); [lia | left; auto | intros; lia |].
    intros j y Hj. apply Ha. right. eapply nth_error_In; exact Hj.
  - apply (argmin_from_spec l 0 x 1 (S k) m); [lia | right; split; [lia|]; split; [replace (S k - 1)%nat with k by lia; exact Hk | apply (Hb 0%nat x eq_refl); lia] | |].
    + intros j y Hj Hlt. apply (Hb (S j) y Hj). lia.
    + intros j y Hj. apply Ha. right. eapply nth_error_In; exact Hj.
Qed.
Lemma balanced_index n c : balanced n c -> leading_edge_index c = Ok (n - 1)%nat.
Proof.
  intros (Hn & HL & le & Hle & Hall & Hb). unfold leading_edge_index. apply (argmin_first _ _ (fst le)).
  - rewrite nth_error_map, Hle. reflexivity.
  - intros j x Hj Hlt. rewrite nth_error_map in Hj. destruct (nth_error c j) as [p|] eqn:E; [|discriminate]. injection Hj as <-. eapply Hb; eassumption.
  - intros x Hx. apply in_map_iff in Hx. destruct Hx as (p & <- & Hp). apply Hall; exact Hp.
Qed.
Lemma map2_nth {A B C} (f : A -> B -> C) a b k x y : nth_error a k = Some x -> nth_error b k = Some y -> nth_error (map2 f a b) k = Some (f x y).
Proof. revert a b; induction k as [|k IH]; intros [|u a] [|v b] Hx Hy; try discriminate; cbn in *; [congruence | apply IH; assumption]. Qed.
Lemma map2_length' {A B C} (f : A -> B -> C) a b : length a = length b -> length (map2 f a b) = length a.
Proof. revert b; induction a as [|x a IH]; intros [|y b] H; try discriminate H; cbn; [reflexivity|]. rewrite IH by (injection H; auto). reflexivity. Qed.
Lemma firstn_nth {A} m (l : list A) k : (k < m)%nat -> nth_error (firstn m l) k = nth_error l k.
Proof. revert l k; induction m as [|m IH]; intros l k H; [lia|]. destruct l as [|x l]; [destruct k; reflexivity|]. destruct k as [|k]; [reflexivity|]. cbn. apply IH. lia. Qed.
Lemma pair_eq (p q : R * R) : fst p = fst q -> snd p = snd q -> p = q.
Proof. destruct p, q; cbn; intros -> ->; reflexivity. Qed.
Section Sides.
  Variables (n : nat) (c : list (R * R)).
  Hypothesis (HB : balanced n c).
  Let upper := rev (firstn (S (n - 1)) c).
  Let lower := skipn (n - 1) c.
  Lemma side_lengths : length upper = n /\ length lower = n.
  Proof. destruct HB as (Hn & HL & _). unfold upper, lower. rewrite rev_length, firstn_length, skipn_length. lia. Qed.
  Lemma side_nth k u l : sides n c k u l -> (k < n)%nat -> nth_error upper k = Some u /\ nth_error lower k = Some l.
  Proof.
    intros [Hu Hl] Hk. destruct side_lengths as [L1 L2]. split.
    - unfold upper in *. rewrite rev_length in L1. rewrite (nth_error_nth' _ (0, 0)) by (rewrite rev_length; lia).
      rewrite rev_nth by lia. rewrite L1. f_equal. apply nth_error_nth. rewrite firstn_nth by lia. replace (n - S k)%nat with (n - 1 - k)%nat by lia. exact Hu.
    - unfold lower. rewrite nth_error_skipn'. exact Hl.
  Qed.
  Lemma sides_exist k : (k < n)%nat -> exists u l, sides n c k u l.
  Proof.
    intros Hk. destruct HB as (Hn & HL & _).
    destruct (nth_error c (n - 1 - k)) as [u|] eqn:E1; [|apply nth_error_None in E1; lia].
    destruct (nth_error c (n - 1 + k)) as [l|] eqn:E2; [|apply nth_error_None in E2; lia]. exists u, l. split; assumption.
  Qed.
  Lemma with_mcl_balanced name rp np : with_mcl name rp np c =
    Ok (mkairfoil name c (map2 pair_mean upper lower) (map2 pair_sub upper (map2 pair_mean upper lower))
         (combine (map fst (map2 pair_mean upper lower))
                  (map (fun d => sqrt (fst d ^ 2 + snd d ^ 2) * 2) (map2 pair_sub upper (map2 pair_mean upper lower)))) rp np).
  Proof.
    unfold with_mcl, upper_coordinates, lower_coordinates. rewrite (balanced_index n c HB). cbn [bind]. fold upper lower.
    destruct side_lengths as [L1 L2]. unfold broadcast. rewrite L1, L2, Nat.eqb_refl. cbn [bind].
    rewrite map2_length' by congruence. rewrite L1, Nat.eqb_refl. cbn [bind]. reflexivity.
  Qed.
End Sides.
Lemma mcl_points n c name rp np a : balanced n c -> with_mcl name rp np c = Ok a ->
  af_coordinates a = c /\ length (af_mcl_coordinates a) = n /\ length (af_upper_minus_mcl a) = n /\
  forall k u l, sides n c k u l -> (k < n)%nat ->
    nth_error (af_mcl_coordinates a) k = Some (mid2 u l) /\ nth_error (af_upper_minus_mcl a) k = Some (pair_sub u (mid2 u l)).
Proof.
  intros HB H. rewrite (with_mcl_balanced n c HB) in H. apply Ok_eq in H. subst a. cbn [af_coordinates af_mcl_coordinates af_upper_minus_mcl].
  destruct (side_lengths n c HB) as [L1 L2]. split; [reflexivity|].
  assert (LM := map2_length' pair_mean _ _ (eq_trans L1 (eq_sym L2))). split; [congruence|]. split; [rewrite map2_length'; congruence|].
  intros k u l HS Hk. destruct (side_nth n c HB k u l HS Hk) as [Hu Hl].
  assert (HM := map2_nth pair_mean _ _ _ _ _ Hu Hl). split; [exact HM|]. exact (map2_nth pair_sub _ _ _ _ _ Hu HM).
Qed.
(** What the deflection does to the k-th pair of points. *)
Definition moved (split : nat) (hinge : R * R) (deflection : R) (k : nat) (p : R * R) : R * R :=
  if Nat.ltb k split then p else turn hinge (radians (- deflection)) p.
Lemma flapped_lengths d h s mcl umm n : length mcl = n -> length umm = n -> length (flapped_mcl d h s mcl) = n /\ length (flapped_umm d s umm) = n.
Proof. intros H1 H2. unfold flapped_mcl, flapped_umm. rewrite !app_length, !map_length, !firstn_length, !skipn_length. lia. Qed.
Lemma flapped_nth d h s mcl k p : nth_error mcl k = Some p -> nth_error (flapped_mcl d h s mcl) k = Some (moved s h d k p).
Proof.
  intros Hk. assert (HL : (k < length mcl)%nat) by (apply nth_error_Some; congruence). unfold flapped_mcl, moved. destruct (Nat.ltb k s) eqn:E.
  - apply Nat.ltb_lt in E. rewrite nth_error_app1 by (rewrite firstn_length; lia). rewrite firstn_nth by exact E. exact Hk.
  - apply Nat.ltb_ge in E. rewrite nth_error_app2 by (rewrite firstn_length; lia). rewrite firstn_length, Nat.min_l by lia.
    rewrite nth_error_map, nth_error_skipn'. replace (s + (k - s))%nat with k by lia. rewrite Hk. cbn [option_map]. f_equal.
    unfold turn, pair_add, rot2, pair_sub; cbn [fst snd]. f_equal; ring.
Qed.
Lemma flapped_umm_nth d s umm k p : nth_error umm k = Some p ->
  nth_error (flapped_umm d s umm) k = Some (if Nat.ltb k s then p else rot2 (sin (radians (- d))) (cos (radians (- d))) p).
Proof.
  intros Hk. assert (HL : (k < length umm)%nat) by (apply nth_error_Some; congruence). unfold flapped_umm. destruct (Nat.ltb k s) eqn:E.
  - apply Nat.ltb_lt in E. rewrite nth_error_app1 by (rewrite firstn_length; lia). rewrite firstn_nth by exact E. exact Hk.
  - apply Nat.ltb_ge in E. rewrite nth_error_app2 by (rewrite firstn_length; lia). rewrite firstn_length, Nat.min_l by lia.
    rewrite nth_error_map, nth_error_skipn'. replace (s + (k - s))%nat with k by lia. rewrite Hk. reflexivity.
Qed.
Definition flapped_contour (d : R) (h : R * R) (s : nat) (mcl umm : list (R * R)) : list (R * R) :=
  rev (map2 pair_add (flapped_mcl d h s mcl) (flapped_umm d s umm)) ++ tl (map2 pair_sub (flapped_mcl d h s mcl) (flapped_umm d s umm)).
Lemma flapped_contour_sides n c name rp np a d h s : balanced n c -> with_mcl name rp np c = Ok a ->
  length (flapped_contour d h s (af_mcl_coordinates a) (af_upper_minus_mcl a)) = (2 * n - 1)%nat /\
  forall k u l, sides n c k u l -> (k < n)%nat ->
    sides n (flapped_contour d h s (af_mcl_coordinates a) (af_upper_minus_mcl a)) k (moved s h d k u) (moved s h d k l).
Proof.
  intros HB H. destruct (mcl_points n c name rp np a HB H) as (_ & LM & LU & HP).
  destruct (flapped_lengths d h s _ _ n LM LU) as [FM FU].
  set (M := flapped_mcl d h s (af_mcl_coordinates a)) in *. set (U := flapped_umm d s (af_upper_minus_mcl a)) in *.
  unfold flapped_contour. fold M U.
  assert (LA : length (map2 pair_add M U) = n) by (rewrite map2_length'; congruence).
  assert (LS : length (map2 pair_sub M U) = n) by (rewrite map2_length'; congruence).
  assert (Hn : (1 <= n)%nat) by apply HB.
  split; [rewrite app_length, rev_length, LA, <- skipn_1, skipn_length, LS; lia|].
  assert (HQ : forall k u l, sides n c k u l -> (k < n)%nat ->
            nth_error (map2 pair_add M U) k = Some (moved s h d k u) /\ nth_error (map2 pair_sub M U) k = Some (moved s h d k l)).
  { intros k u l HS Hk. destruct (HP k u l HS Hk) as [H1 H2].
    pose proof (flapped_nth d h s _ _ _ H1) as E1. pose proof (flapped_umm_nth d s _ _ _ H2) as E2. fold M in E1. fold U in E2.
    rewrite (map2_nth pair_add _ _ _ _ _ E1 E2), (map2_nth pair_sub _ _ _ _ _ E1 E2). unfold moved.
    destruct (Nat.ltb k s); split; f_equal; apply pair_eq; unfold turn, rot2, pair_add, pair_sub, mid2; cbn [fst snd]; field. }
  assert (HU : forall k u l, sides n c k u l -> (k < n)%nat ->
            nth_error (rev (map2 pair_add M U) ++ tl (map2 pair_sub M U)) (n - 1 - k) = Some (moved s h d k u)).
  { intros k u l HS Hk. destruct (HQ k u l HS Hk) as [H1 _]. rewrite nth_error_app1 by (rewrite rev_length; lia).
    rewrite (nth_error_nth' _ (0, 0)) by (rewrite rev_length; lia). rewrite rev_nth by lia. f_equal. apply nth_error_nth.
    rewrite LA. replace (n - S (n - 1 - k))%nat with k by lia. exact H1. }
  intros k u l HS Hk. split; [eapply HU; eassumption|]. destruct k as [|k].
  - assert (u = l). { destruct HS as [S1 S2]. rewrite Nat.sub_0_r in S1. rewrite Nat.add_0_r in S2. congruence. } subst l.
    rewrite Nat.add_0_r. pose proof (HU _ _ _ HS Hk) as HH. rewrite Nat.sub_0_r in HH. exact HH.
  - destruct (HQ _ u l HS Hk) as [_ H2]. rewrite nth_error_app2 by (rewrite rev_length; lia). rewrite rev_length, LA.
    replace (n - 1 + S k - n)%nat with k by lia. destruct (map2 pair_sub M U); [discriminate H2|]. exact H2.
Qed.
Lemma first_index_spec {A} (f : A -> bool) l i : first_index f l = Ok i <->
  (exists x, nth_error l i = Some x /\ f x = true) /\ forall j y, (j < i)%nat -> nth_error l j = Some y -> f y = false.
Proof.
  revert i; induction l as [|x l IH]; intros i; cbn [first_index].
  - split; [discriminate | intros [(x & H & _) _]; destruct i; discriminate H].
  - destruct (f x) eqn:E.
    + split; [intros [= <-]; split; [exists x; auto | intros; lia]|]. intros [_ H]. destruct i as [|i]; [reflexivity|].
      specialize (H 0%nat x ltac:(lia) eq_refl). congruence.
    + split.
      * intros H. inv_ok H. inv_ok H. subst i. apply IH in E0. destruct E0 as [HE HF]. split; [exact HE|].
        intros [|j] y Hj Hy; [injection Hy as <-; exact E | apply (HF j y); [lia | exact Hy]].
      * intros [(y & Hy & Ey) HF]. destruct i as [|i]; [injection Hy as <-; congruence|].
        assert (E' : first_index f l = Ok i).
        { apply IH. split; [exists y; auto|]. intros j z Hj Hz. apply (HF (S j) z); [lia | exact Hz]. }
        rewrite E'. reflexivity.
Qed.
Lemma interp1d_step x x0 y0 x1 y1 l : interp1d x ((x0, y0) :: (x1, y1) :: l) =
  match l with [] => Ok ((y1 - y0) / (x1 - x0) * (x - x0) + y0)
  | _ => if Rleb x x1 then Ok ((y1 - y0) / (x1 - x0) * (x - x0) + y0) else interp1d x ((x1, y1) :: l) end.
Proof. destruct l; reflexivity. Qed.
Lemma interp1d_spec x l y : strictly_increasing (map fst l) -> interp1d x l = Ok y ->
  exists i p q, nth_error l i = Some p /\ nth_error l (S i) = Some q /\ on_line_through p q (x, y) /\
    (forall p0, nth_error l 0 = Some p0 -> fst p0 <= x -> fst p <= x) /\
    (forall p1, nth_error l (length l - 1) = Some p1 -> x <= fst p1 -> x <= fst q).
Proof.
  revert y; induction l as [|[x0 y0] l IH]; intros y HI H; [discriminate|]. destruct l as [|[x1 y1] l]; [discriminate|].
  assert (H01 : x0 < x1) by (apply (HI 0%nat 1%nat); [lia | reflexivity | reflexivity]).
  rewrite interp1d_step in H. destruct l as [|p2 l].
  - injection H as <-. exists 0%nat, (x0, y0), (x1, y1). cbn [nth_error length Nat.sub fst]. split; [reflexivity|]. split; [reflexivity|].
    split; [unfold on_line_through; cbn [fst snd]; field; lra|]. split; intros p1 [= <-]; auto.
  - destruct (Rleb x x1) eqn:E.
    + apply Rleb_true in E. injection H as <-. exists 0%nat, (x0, y0), (x1, y1). cbn [nth_error fst]. split; [reflexivity|]. split; [reflexivity|].
      split; [unfold on_line_through; cbn [fst snd]; field; lra|]. split; [intros p1 [= <-]; auto | intros; exact E].
    + apply Rleb_false in E. destruct (IH y) as (i & p & q & Hp & Hq & Hon & H0 & H1); [| exact H |].
      * intros i j a b Hij Ha Hb. apply (HI (S i) (S j)); [lia | exact Ha | exact Hb].
      * exists (S i), p, q. split; [exact Hp|]. split; [exact Hq|]. split; [exact Hon|]. split.
        -- intros _ _ _. apply (H0 _ eq_refl). cbn [fst]. lra.
        -- intros p1 Hp1. apply H1. cbn [length] in *. replace (S (S (S (length l))) - 1)%nat with (S (S (S (length l)) - 1)) in Hp1 by lia. exact Hp1.
Qed.
Lemma interp1d_total x l : (2 <= length l)%nat -> exists y, interp1d x l = Ok y.
Proof.
  induction l as [|[x0 y0] l IH]; cbn [length]; intros H; [lia|]. destruct l as [|[x1 y1] l]; cbn [length] in H; [lia|].
  rewrite interp1d_step. destruct l as [|p2 l]; [eauto|]. destruct (Rleb x x1); [eauto|]. apply IH. cbn; lia.
Qed.
Lemma surface_rejected a d h : add_control_surface a d h = Err EBadDeflection <-> ~ (-90 <= d <= 90).
Proof.
  unfold add_control_surface. destruct (negb (Rltb 90 d || Rltb d (-90))) eqn:E.
  - apply negb_true_iff, orb_false_iff in E. rewrite !Rltb_false in E. cbn [check bind]. split; [|lra]. intros H. exfalso.
    unfold get_camber_at_chord_fraction in H. assert (G : forall x l e, interp1d x l = Err e -> e = EValueError).
    { clear. intros x l; induction l as [|[x0 y0] l IH]; intros e; [intros [= <-]; reflexivity|]. destruct l as [|[x1 y1] l]; [intros [= <-]; reflexivity|].
      rewrite interp1d_step. destruct l; [discriminate|]. destruct (Rleb x x1); [discriminate | apply IH]. }
    destruct (interp1d _ _) as [cb|e] eqn:E1; cbn [bind] in H; [|injection H as ->; apply G in E1; discriminate].
    assert (G2 : forall l e, first_index (fun p : R * R => Rltb (fst (h, cb)) (fst p)) l = Err e -> e = EIndexError).
    { clear. induction l as [|x l IH]; intros e; cbn [first_index]; [intros [= <-]; reflexivity|]. destruct (Rltb _ _); [discriminate|].
      destruct (first_index _ l); cbn; [discriminate | intros [= <-]; apply IH; reflexivity]. }
    destruct (first_index _ _) as [i|e] eqn:E2; cbn [bind] in H; [|injection H as ->; apply G2 in E2; discriminate].
    unfold with_mcl, upper_coordinates, lower_coordinates in H.
    assert (G3 : forall l e, leading_edge_index l = Err e -> e = EValueError) by (clear; intros [|x l] e; cbn; [intros [= <-]; reflexivity | discriminate]).
    destruct (leading_edge_index _) as [j|e] eqn:E3; cbn [bind] in H; [|injection H as ->; apply G3 in E3; discriminate].
    assert (G4 : forall A B C (f : A -> B -> C) x y e, broadcast f x y = Err e -> e = EValueError).
    { clear. intros A B C f x y e. unfold broadcast. destruct (Nat.eqb _ _); [discriminate|]. destruct x as [|? [|]], y as [|? [|]]; try discriminate; intros [= <-]; reflexivity. }
    destruct (broadcast _ _ _) as [m|e] eqn:E4; cbn [bind] in H; [|injection H as ->; apply G4 in E4; discriminate].
    destruct (broadcast _ _ m) as [m2|e] eqn:E5; cbn [bind] in H; [discriminate|]. injection H as ->. apply G4 in E5. discriminate.
  - cbn [check bind]. apply negb_false_iff, orb_true_iff in E. rewrite !Rltb_true in E. split; [intros _; lra | reflexivity].
Qed.
(** The whole effect of a deflection on a contour. *)
Lemma surface_effect n c name rp np a d h a' : balanced n c -> with_mcl name rp np c = Ok a -> add_control_surface a d h = Ok a' ->
  -90 <= d <= 90 /\
  exists camber split, get_camber_at_chord_fraction a h = Ok camber /\ (split < n)%nat /\
    (forall k m, nth_error (af_mcl_coordinates a) k = Some m -> (k < split)%nat -> fst m <= h) /\
    (forall m, nth_error (af_mcl_coordinates a) split = Some m -> h < fst m) /\
    length (af_coordinates a') = length c /\
    (forall k u l, (k < n)%nat -> sides n c k u l ->
       if Nat.ltb k split then sides n (af_coordinates a') k u l
       else sides n (af_coordinates a') k (turn (h, camber) (radians (- d)) u) (turn (h, camber) (radians (- d)) l)).
Proof.
  intros HB HW H. assert (Hd : -90 <= d <= 90).
  { destruct (Rle_dec (-90) d) as [H1|H1]; [destruct (Rle_dec d 90) as [H2|H2]; [lra|]|];
      exfalso; assert (HE : add_control_surface a d h = Err EBadDeflection) by (apply surface_rejected; lra); congruence. }
  split; [exact Hd|]. unfold add_control_surface in H. inv_ok H. inv_ok H. inv_ok H. rename v0 into camber, v1 into s.
  change (with_mcl (append (af_name a) " flapped") false 400 (flapped_contour d (h, camber) s (af_mcl_coordinates a) (af_upper_minus_mcl a)) = Ok a') in H.
  assert (HC : af_coordinates a' = flapped_contour d (h, camber) s (af_mcl_coordinates a) (af_upper_minus_mcl a)).
  { unfold with_mcl in H. repeat inv_ok H. subst a'. reflexivity. }
  apply first_index_spec in E1. destruct E1 as [(m0 & Hm0 & Hlt) Hbefore]. cbn [fst] in *. apply Rltb_true in Hlt.
  destruct (mcl_points n c name rp np a HB HW) as (EC & LM & LU & HP).
  destruct (flapped_contour_sides n c name rp np a d (h, camber) s HB HW) as [FL FS].
  exists camber, s. split; [exact E0|]. split; [rewrite <- LM; apply nth_error_Some; congruence|]. split.
  - intros k m Hk Hlt'. apply Rltb_false. eapply Hbefore; eassumption.
  - split; [intros m Hm; congruence|]. rewrite HC. split; [rewrite FL; symmetry; apply HB|].
    intros k u l Hk HS. specialize (FS k u l HS Hk). unfold moved in FS. destruct (Nat.ltb k s); exact FS.
Qed.
(** Turning keeps distances to the hinge and turns by the given angle. *)
Lemma turn_distance h t p : dist2 (turn h t p) h = dist2 p h.
Proof.
  unfold dist2, turn; cbn [fst snd]. f_equal. pose proof (sin2_cos2 t) as E. unfold Rsqr in E.
  set (x := fst p - fst h). set (y := snd p - snd h).
  replace ((fst h + cos t * x - sin t * y - fst h) ^ 2 + (snd h + sin t * x + cos t * y - snd h) ^ 2)
    with ((x ^ 2 + y ^ 2) * (sin t * sin t + cos t * cos t)) by ring. rewrite E. ring.
Qed.
Lemma turn_0 h p : turn h 0 p = p.
Proof. unfold turn. rewrite sin_0, cos_0. apply pair_eq; cbn [fst snd]; ring. Qed.
Lemma sides_ext n c c' : balanced n c -> length c' = length c ->
  (forall k u l, (k < n)%nat -> sides n c k u l -> sides n c' k u l) -> c' = c.
Proof.
  intros HB HL H. apply nth_ext with (d := (0, 0)) (d' := (0, 0)); [exact HL|]. intros i Hi. destruct HB as (Hn & HLc & HB').
  assert (HB : balanced n c) by (split; auto).
  destruct (Nat.le_gt_cases n (S i)) as [Hin|Hin].
  - assert (Hk : (i - (n - 1) < n)%nat) by lia. destruct (sides_exist n c HB _ Hk) as (u & l & HS). pose proof (H _ u l Hk HS) as HS'.
    destruct HS as [_ S2], HS' as [_ S2']. replace (n - 1 + (i - (n - 1)))%nat with i in * by lia.
    apply nth_error_nth with (d := (0, 0)) in S2. apply nth_error_nth with (d := (0, 0)) in S2'. congruence.
  - assert (Hk : (n - 1 - i < n)%nat) by lia. destruct (sides_exist n c HB _ Hk) as (u & l & HS). pose proof (H _ u l Hk HS) as HS'.
    destruct HS as [S2 _], HS' as [S2' _]. replace (n - 1 - (n - 1 - i))%nat with i in * by lia.
    apply nth_error_nth with (d := (0, 0)) in S2. apply nth_error_nth with (d := (0, 0)) in S2'. congruence.
Qed.
Lemma zero_deflection n c name rp np a h a' : balanced n c -> with_mcl name rp np c = Ok a -> add_control_surface a 0 h = Ok a' ->
  af_coordinates a' = af_coordinates a /\ af_mcl_coordinates a' = af_mcl_coordinates a /\
  af_upper_minus_mcl a' = af_upper_minus_mcl a /\ af_thickness a' = af_thickness a.
Proof.
  intros HB HW H. destruct (surface_effect n c name rp np a 0 h a' HB HW H) as (_ & camber & s & _ & _ & _ & _ & HL & HS).
  assert (EC : af_coordinates a' = c).
  { apply (sides_ext n); [exact HB | exact HL|]. intros k u l Hk Hs. specialize (HS k u l Hk Hs).
    replace (radians (- 0)) with 0 in HS by (unfold radians; ring). rewrite !turn_0 in HS. destruct (Nat.ltb k s); exact HS. }
  unfold add_control_surface in H. inv_ok H. inv_ok H. inv_ok H. 
  assert (HW' : exists name' rp' np', with_mcl name' rp' np' c = Ok a').
  { rewrite <- EC. do 3 eexists. unfold with_mcl in H. pose proof H as H'. repeat inv_ok H'. rewrite <- H' at 1. cbn [af_coordinates]. unfold with_mcl. exact H. }
  destruct HW' as (name' & rp' & np' & HW'). rewrite (with_mcl_balanced n c HB) in HW. rewrite (with_mcl_balanced n c HB) in HW'. apply Ok_eq in HW. apply Ok_eq in HW'. subst a a'. auto.
Qed.
(** When the deflected contour still has its leading edge in front, deflecting
    succeeds and moves the camber line in the same way. *)
Lemma surface_succeeds n c name rp np a d h : balanced n c -> with_mcl name rp np c = Ok a -> (2 <= n)%nat -> -90 <= d <= 90 ->
  (exists m, In m (af_mcl_coordinates a) /\ h < fst m) ->
  exists camber split, get_camber_at_chord_fraction a h = Ok camber /\
    (balanced n (flapped_contour d (h, camber) split (af_mcl_coordinates a) (af_upper_minus_mcl a)) ->
     exists a', add_control_surface a d h = Ok a' /\ length (af_mcl_coordinates a') = n /\
       forall k m, nth_error (af_mcl_coordinates a) k = Some m ->
         nth_error (af_mcl_coordinates a') k = Some (moved split (h, camber) d k m)).
Proof.
  intros HB HW Hn Hd (m & Hm & Hh). destruct (mcl_points n c name rp np a HB HW) as (EC & LM & LU & HP).
  destruct (interp1d_total h (af_mcl_coordinates a) ltac:(lia)) as [camber Hc].
  assert (HI : exists s, first_index (fun p : R * R => Rltb (fst (h, camber)) (fst p)) (af_mcl_coordinates a) = Ok s).
  { clear -Hm Hh. induction (af_mcl_coordinates a) as [|x l IH]; [destruct Hm|]. cbn [first_index]. destruct (Rltb _ _) eqn:E; [eauto|].
    destruct Hm as [->|Hm]; [cbn [fst] in E; apply Rltb_false in E; lra|]. destruct (IH Hm) as [s ->]. cbn. eauto. }
  destruct HI as [s Hs]. exists camber, s. split; [exact Hc|]. intros HBf.
  assert (E : add_control_surface a d h = with_mcl (append (af_name a) " flapped") false 400 (flapped_contour d (h, camber) s (af_mcl_coordinates a) (af_upper_minus_mcl a))).
  { unfold add_control_surface. replace (Rltb 90 d) with false by (symmetry; apply Rltb_false; lra).
    replace (Rltb d (-90)) with false by (symmetry; apply Rltb_false; lra). cbn [orb negb check bind]. unfold get_camber_at_chord_fraction.
    rewrite Hc. cbn [bind]. rewrite Hs. reflexivity. }
  pose proof (with_mcl_balanced n _ HBf (append (af_name a) " flapped") false 400%nat) as HW'. rewrite <- E in HW'.
  eexists. split; [exact HW'|]. rewrite E in HW'. destruct (mcl_points n _ _ _ _ _ HBf HW') as (_ & LM' & _ & HP').
  split; [exact LM'|]. intros k m' Hk. assert (Hkn : (k < n)%nat) by (rewrite <- LM; apply nth_error_Some; congruence).
  destruct (sides_exist n c HB k Hkn) as (u & l & HS). destruct (HP k u l HS Hkn) as [H1 _].
  assert (m' = mid2 u l) by congruence. subst m'.
  destruct (flapped_contour_sides n c name rp np a d (h, camber) s HB HW) as [_ FS]. specialize (FS k u l HS Hkn).
  destruct (HP' k _ _ FS Hkn) as [H3 _]. rewrite H3. f_equal. unfold moved. destruct (Nat.ltb k s); [reflexivity|].
  apply pair_eq; unfold turn, mid2; cbn [fst snd]; field.
Qed.
(** Where airfoils come from. *)
Lemma with_mcl_coordinates name rp np c a : with_mcl name rp np c = Ok a -> af_coordinates a = c /\ af_name a = name.
Proof. unfold with_mcl. intros H. repeat inv_ok H. subst a. split; reflexivity. Qed.
Lemma new_airfoil_mcl pchip db name c r n a : new_airfoil pchip db name c r n = Ok a -> with_mcl name r n (af_coordinates a) = Ok a.
Proof.
  unfold new_airfoil. intros H. inv_ok H. inv_ok H. destruct (with_mcl_coordinates _ _ _ _ _ H) as [-> _]. exact H.
Qed.
Lemma first_minimum (l : list R) : l <> [] -> exists k m, nth_error l k = Some m /\
  (forall j x, nth_error l j = Some x -> (j < k)%nat -> m < x) /\ (forall x, In x l -> m <= x).
Proof.
  induction l as [|a l IH]; [congruence|]. intros _. destruct l as [|b l].
  - exists 0%nat, a. split; [reflexivity|]. split; [intros; lia|]. intros x [<-|[]]. lra.
  - destruct IH as (k & m & Hk & Hb & Hall); [discriminate|]. destruct (Rle_dec a m) as [Ham|Ham].
    + exists 0%nat, a. split; [reflexivity|]. split; [intros; lia|]. intros x [<-|Hx]; [lra|]. apply Hall in Hx. lra.
    + exists (S k), m. split; [exact Hk|]. split.
      * intros [|j] x Hj Hlt; [injection Hj as <-; lra | apply (Hb j x); [exact Hj | lia]].
      * intros x [<-|Hx]; [lra | apply Hall; exact Hx].
Qed.
Lemma broadcast_lengths {A B C} (f : A -> B -> C) a b m : broadcast f a b = Ok m -> length a = length b \/ length a = 1%nat \/ length b = 1%nat.
Proof. unfold broadcast. destruct (Nat.eqb _ _) eqn:E; [apply Nat.eqb_eq in E; auto|]. destruct a as [|? [|]], b as [|? [|]]; cbn; auto; discriminate. Qed.
Lemma constructed_balanced name rp np c a : with_mcl name rp np c = Ok a ->
  (exists n, balanced n c) \/ leading_edge_index c = Ok 0%nat \/ leading_edge_index c = Ok (length c - 1)%nat.
Proof.
  intros H. unfold with_mcl, upper_coordinates, lower_coordinates in H.
  destruct (leading_edge_index c) as [i|] eqn:Ei; [|discriminate H]. cbn [bind] in H. inv_ok H. clear H. apply broadcast_lengths in E.
  assert (Hi : (i < length c)%nat) by (apply argmin_lt in Ei; rewrite map_length in Ei; exact Ei).
  rewrite rev_length, firstn_length, skipn_length in E. destruct E as [E|[E|E]].
  - left. exists (S i). split; [lia|]. split; [lia|]. replace (S i - 1)%nat with i by lia.
    destruct (first_minimum (map fst c)) as (k & m & Hk & Hb & Hall); [destruct c; [cbn in Hi; lia | discriminate]|].
    pose proof (argmin_first _ _ _ Hk Hb Hall) as Ek. unfold leading_edge_index in Ei. assert (k = i) by congruence. subst k.
    rewrite nth_error_map in Hk. destruct (nth_error c i) as [le|]; [|discriminate]. injection Hk as <-. exists le. split; [reflexivity|]. split.
    + intros p Hp. apply Hall, in_map, Hp.
    + intros j p Hj Hlt. apply (Hb j); [rewrite nth_error_map, Hj; reflexivity | exact Hlt].
  - right; left. f_equal. lia.
  - right; right. f_equal. lia.
Qed.
Lemma repanelled_balanced pchip db name c n a : (2 <= n)%nat -> new_airfoil pchip db name c true n = Ok a -> balanced n (af_coordinates a).
Proof.
  intros Hn H. unfold new_airfoil in H. inv_ok H. cbn [bind] in H. unfold repanel in H. inv_ok H.
  destruct (with_mcl_coordinates _ _ _ _ _ H) as [-> _]. clear H. do 4 inv_ok E0. apply Ok_eq in E0. subst v0.
  set (xs := cosspace 0 1 n true). assert (Lx : length xs = n) by apply cosspace_length.
  assert (X0 : nth_error xs 0 = Some 0) by (apply cosspace_first; lia).
  assert (SI : strictly_increasing xs) by (apply cosspace_increasing; lra).
  assert (Lc : length (combine (rev xs ++ tl xs) (map v3 (rev xs) ++ map v4 (tl xs))) = (2 * n - 1)%nat).
  { rewrite combine_length, !app_length, !map_length, rev_length, <- skipn_1, skipn_length, Lx. lia. }
  assert (HX : map fst (combine (rev xs ++ tl xs) (map v3 (rev xs) ++ map v4 (tl xs))) = rev xs ++ tl xs).
  { rewrite combine_app' by (rewrite map_length; reflexivity). rewrite map_app. f_equal; [generalize (rev xs) | generalize (tl xs)];
      intros l; induction l as [|x l IH]; cbn; congruence. }
  split; [lia|]. split; [exact Lc|].
  assert (Hx : forall i x, nth_error (rev xs ++ tl xs) i = Some x -> (i < n)%nat -> nth_error xs (n - 1 - i) = Some x).
  { intros i x Hi Hlt. rewrite nth_error_app1 in Hi by (rewrite rev_length; lia). rewrite (nth_error_nth' _ 0) in Hi by (rewrite rev_length; lia).
    rewrite rev_nth in Hi by lia. injection Hi as Hi. rewrite Lx in Hi. replace (n - 1 - i)%nat with (n - S i)%nat by lia.
    rewrite (nth_error_nth' _ 0) by lia. f_equal. exact Hi. }
  destruct (nth_error (combine (rev xs ++ tl xs) (map v3 (rev xs) ++ map v4 (tl xs))) (n - 1)) as [le|] eqn:Ele; [|apply nth_error_None in Ele; lia].
  exists le. split; [reflexivity|]. assert (Hle : fst le = 0).
  { assert (E' : nth_error (rev xs ++ tl xs) (n - 1) = Some (fst le)) by (rewrite <- HX, nth_error_map, Ele; reflexivity).
    apply Hx in E'; [|lia]. replace (n - 1 - (n - 1))%nat with 0%nat in E' by lia. congruence. }
  assert (Hpos : forall x, In x xs -> 0 <= x).
  { intros x Hin. apply In_nth_error in Hin. destruct Hin as [[|j] Hj]; [rewrite X0 in Hj; injection Hj as <-; lra|].
    left. apply (SI 0%nat (S j)); [lia | exact X0 | exact Hj]. }
  rewrite Hle. split.
  - intros p Hp. apply Hpos. assert (Hf : In (fst p) (rev xs ++ tl xs)) by (rewrite <- HX; apply in_map, Hp).
    apply in_app_or in Hf. destruct Hf as [Hf|Hf]; [apply in_rev in Hf; exact Hf|]. destruct xs; [destruct Hf | right; exact Hf].
  - intros i p Hi Hlt. assert (Hf : nth_error (rev xs ++ tl xs) i = Some (fst p)) by (rewrite <- HX, nth_error_map, Hi; reflexivity).
    apply Hx in Hf; [|lia]. apply (SI 0%nat (n - 1 - i)%nat); [lia | exact X0 | exact Hf].
Qed.
