(** Lemmas about airfoils: NACA contours, camber line resampling, control surfaces. *)
From Coq Require Import Lra Lia.
From Verif Require Import M_Airfoil S_Geometry S_Airfoil.
From Verif Require Import L_Base L_Functions L_Loads.

(** ** C15: names *)
Lemma starts_with_iff p s : starts_with p s = true <-> exists rest, s = p ++ rest.
Proof.
  revert s; induction p as [|a p IH]; intros s; cbn.
  - split; [exists s; reflexivity | reflexivity].
  - destruct s as [|b s]; [split; [discriminate | intros [r H]; discriminate H]|].
    rewrite andb_true_iff, Ascii.eqb_eq, IH. split.
    + intros [-> [r ->]]. exists r. reflexivity.
    + intros [r [= -> ->]]. split; [reflexivity | exists r; reflexivity].
Qed.
Lemma starts_with_false p s : starts_with p s = false <-> ~ exists rest, s = p ++ rest.
Proof. rewrite <- starts_with_iff. destruct (starts_with p s); split; intros H; [discriminate H | exfalso; apply H; reflexivity | discriminate | reflexivity]. Qed.
Lemma first_occurrence_here p s rest : s = p ++ rest -> first_occurrence p s [] rest.
Proof. intros ->. split; [reflexivity | intros; cbn; lia]. Qed.
Lemma first_occurrence_cons p c s before rest : (~ exists r, c :: s = p ++ r) ->
  first_occurrence p s before rest -> first_occurrence p (c :: s) (c :: before) rest.
Proof.
  intros Hn [-> HM]. split; [reflexivity|]. intros [|b' before'] after' E.
  - exfalso. apply Hn. exists after'. exact E.
  - injection E as <- E. cbn. apply le_n_S, HM with after'. exact E.
Qed.
Lemma first_occurrence_fun p s b1 r1 b2 r2 : first_occurrence p s b1 r1 -> first_occurrence p s b2 r2 -> b1 = b2 /\ r1 = r2.
Proof.
  intros [E1 H1] [E2 H2]. assert (L : length b1 = length b2) by (apply Nat.le_antisymm; [eapply H1; exact E2 | eapply H2; exact E1]).
  rewrite E1 in E2. clear - E2 L. revert b2 L E2; induction b1 as [|x b1 IH]; intros [|y b2] L E2; try discriminate L.
  - split; [reflexivity|]. exact (app_inv_head p _ _ E2).
  - injection E2 as -> E2. injection L as L. destruct (IH b2 L E2) as [-> ->]. auto.
Qed.
Lemma text_after_spec p s :
  match text_after p s with
  | Some rest => exists before, first_occurrence p s before rest
  | None => p <> [] -> ~ contains p s
  end.
Proof.
  induction s as [|c s IH]; cbn [text_after].
  - destruct (starts_with p []) eqn:E.
    + apply starts_with_iff in E. destruct E as [r E]. symmetry in E. apply app_eq_nil in E. destruct E as [-> ->]. exists []. apply first_occurrence_here. reflexivity.
    + intros Hp (b & a & H). symmetry in H. apply app_eq_nil in H. destruct H as [_ H]. apply app_eq_nil in H. tauto.
  - destruct (starts_with p (c :: s)) eqn:E.
    + apply starts_with_iff in E. destruct E as [r E]. rewrite E, skipn_app, skipn_all, Nat.sub_diag. cbn [app skipn].
      exists []. apply first_occurrence_here. reflexivity.
    + apply starts_with_false in E. destruct (text_after p s) as [rest|].
      * destruct IH as [before IH]. exists (c :: before). apply first_occurrence_cons; assumption.
      * intros Hp (b & a & H). destruct b as [|b0 b]; [apply E; exists a; exact H|]. injection H as -> H. apply (IH Hp). exists b, a. exact H.
Qed.
Lemma text_before_spec p s : p <> [] ->
  (text_before p s = s /\ ~ contains p s) \/ exists rest, first_occurrence p s (text_before p s) rest.
Proof.
  intros Hp. induction s as [|c s IH]; cbn [text_before].
  - destruct (starts_with p []) eqn:E.
    + apply starts_with_iff in E. destruct E as [r E]. symmetry in E. apply app_eq_nil in E. tauto.
    + left. split; [reflexivity|]. intros (b & a & H). symmetry in H. apply app_eq_nil in H. destruct H as [_ H]. apply app_eq_nil in H. tauto.
  - destruct (starts_with p (c :: s)) eqn:E.
    + apply starts_with_iff in E. destruct E as [r E]. right. exists r. apply first_occurrence_here. exact E.
    + apply starts_with_false in E. destruct IH as [[IH1 IH2]|[rest IH]].
      * left. rewrite IH1. split; [reflexivity|]. intros (b & a & H). destruct b as [|b0 b]; [apply E; exists a; exact H|]. injection H as -> H. apply IH2. exists b, a. exact H.
      * right. exists rest. apply first_occurrence_cons; assumption.
Qed.
Lemma text_before_iff p s t : p <> [] -> (text_before p s = t <-> (t = s /\ ~ contains p s) \/ exists rest, first_occurrence p s t rest).
Proof.
  intros Hp. pose proof (text_before_spec p s Hp) as H. split; [intros <-; destruct H as [[H1 H2]|H]; auto|].
  intros [[-> Hn]|[rest Hr]]; destruct H as [[H1 H2]|[rest' H]].
  - exact H1.
  - exfalso. apply Hn. destruct H as [H _]. eexists _, _. exact H.
  - exfalso. apply H2. destruct Hr as [Hr _]. eexists _, _. exact Hr.
  - exact (proj1 (first_occurrence_fun _ _ _ _ _ _ H Hr)).
Qed.
Lemma follows_iff p s number : p <> [] ->
  (follows p s number <-> exists rest, text_after p s = Some rest /\ text_before p rest = number).
Proof.
  intros Hp. pose proof (text_after_spec p s) as H. split.
  - intros (before & rest & Hf & Hn). destruct (text_after p s) as [rest'|].
    + destruct H as [b' H]. destruct (first_occurrence_fun _ _ _ _ _ _ H Hf) as [_ ->]. exists rest. split; [reflexivity|].
      apply text_before_iff; [exact Hp|]. exact Hn.
    + exfalso. apply (H Hp). destruct Hf as [Hf _]. eexists _, _. exact Hf.
  - intros (rest & E & Hb). rewrite E in H. destruct H as [before H]. exists before, rest. split; [exact H|].
    apply text_before_iff in Hb; assumption.
Qed.
Lemma is_digit_iff c : is_digit c = true <-> digit c (digit_value c).
Proof.
  unfold is_digit, digit, digit_value. rewrite andb_true_iff, !Nat.leb_le. lia.
Qed.
Lemma digit_fun c d d' : digit c d -> digit c d' -> d = d'.
Proof. unfold digit. lia. Qed.
Lemma naca_digits_iff name a b cd :
  naca_digits name = Some (a, b, cd) <->
  exists c1 c2 c3 c4 d3 d4,
    follows (list_ascii_of_string "naca") (strip (map lower_char (list_ascii_of_string name))) [c1; c2; c3; c4] /\
    digit c1 a /\ digit c2 b /\ digit c3 d3 /\ digit c4 d4 /\ cd = (10 * d3 + d4)%nat.
Proof.
  unfold naca_digits. set (s := strip _). change (list_ascii_of_string "naca") with naca_text.
  assert (Hp : naca_text <> []) by discriminate. split.
  - intros H. destruct (text_after naca_text s) as [rest|] eqn:E; [|discriminate].
    destruct (text_before naca_text rest) as [|c1 [|c2 [|c3 [|c4 [|? ?]]]]] eqn:E2; try discriminate.
    destruct (forallb is_digit [c1; c2; c3; c4]) eqn:E3; [|discriminate]. injection H as <- <- <-.
    cbn in E3. rewrite !andb_true_iff, !is_digit_iff in E3. exists c1, c2, c3, c4, (digit_value c3), (digit_value c4).
    split; [apply follows_iff; [exact Hp|]; exists rest; auto|]. repeat split; apply E3.
  - intros (c1 & c2 & c3 & c4 & d3 & d4 & HF & H1 & H2 & H3 & H4 & ->). apply follows_iff in HF; [|exact Hp].
    destruct HF as (rest & -> & ->).
    assert (G : forall c d, digit c d -> is_digit c = true /\ digit_value c = d).
    { intros c d Hd. unfold is_digit, digit_value. destruct Hd as [Hd ->]. rewrite andb_true_iff, !Nat.leb_le. lia. }
    cbn [forallb]. destruct (G _ _ H1) as [-> ->], (G _ _ H2) as [-> ->], (G _ _ H3) as [-> ->], (G _ _ H4) as [-> ->]. reflexivity.
Qed.

(** ** C15: contours *)
Lemma filter_split p (l : list R) (f g : R -> R) : strictly_increasing l ->
  map f (filter (fun x => Rleb x p) l) ++ map g (filter (fun x => Rltb p x) l) =
  map (fun x => if Rle_dec x p then f x else g x) l.
Proof.
  intros H. induction l as [|x l IH]; [reflexivity|].
  assert (Hl : strictly_increasing l) by (intros i j a b Hij Ha Hb; apply (H (S i) (S j)); [lia | exact Ha | exact Hb]).
  specialize (IH Hl). cbn [filter map]. unfold Rleb at 1, Rltb at 1. destruct (Rle_dec x p) as [Hx|Hx].
  - destruct (Rlt_dec p x); [lra|]. cbn [map app]. rewrite IH. reflexivity.
  - destruct (Rlt_dec p x); [|lra].
    assert (E : filter (fun y => Rleb y p) l = []).
    { assert (G : forall y, In y l -> p < y).
      { intros y Hy. apply In_nth_error in Hy. destruct Hy as [i Hi]. assert (x < y) by (apply (H 0%nat (S i)); [lia | reflexivity | exact Hi]). lra. }
      clear -G. induction l as [|y l IH]; [reflexivity|]. cbn. unfold Rleb. destruct (Rle_dec y p); [pose proof (G y (or_introl eq_refl)); lra|].
      apply IH. intros; apply G; right; assumption. }
    rewrite E in *. cbn [map app] in *. rewrite IH. reflexivity.
Qed.
Lemma naca_y_c_eq m p l : strictly_increasing l -> naca_y_c m p l = map (camber_line m p) l.
Proof. intros H. unfold naca_y_c. rewrite (filter_split p l _ _ H). reflexivity. Qed.
Lemma naca_slope_eq m p l : strictly_increasing l -> naca_slope m p l = map (camber_slope m p) l.
Proof. intros H. unfold naca_slope. rewrite (filter_split p l _ _ H). reflexivity. Qed.
Lemma naca_y_t_eq t x : naca_y_t t x = half_thickness t x.
Proof. unfold naca_y_t, half_thickness. lra. Qed.
Lemma map3_maps {A B C D E} (h : B -> C -> D -> E) (f : A -> B) (g : A -> C) (k : A -> D) l :
  map3 h (map f l) (map g l) (map k l) = map (fun x => h (f x) (g x) (k x)) l.
Proof. unfold map3. induction l as [|x l IH]; cbn; [reflexivity | rewrite IH; reflexivity]. Qed.
Lemma combine_maps {A B C} (f : A -> B) (g : A -> C) l : combine (map f l) (map g l) = map (fun x => (f x, g x)) l.
Proof. induction l as [|x l IH]; cbn; [reflexivity | rewrite IH; reflexivity]. Qed.
Lemma combine_app' {A B} (a a' : list A) (b b' : list B) : length a = length b -> combine (a ++ a') (b ++ b') = combine a b ++ combine a' b'.
Proof. revert b; induction a as [|x a IH]; intros [|y b] H; try discriminate H; cbn; [reflexivity|]. rewrite IH by (injection H; auto). reflexivity. Qed.

Definition naca_location (d2 : nat) : R := if Nat.eqb d2 0 then 1 / 2 else INR d2 / 10.
Definition naca_upper (m p t x : R) : R * R :=
  (x - half_thickness t x * sin (atan (camber_slope m p x)), camber_line m p x + half_thickness t x * cos (atan (camber_slope m p x))).
Definition naca_lower (m p t x : R) : R * R :=
  (x + half_thickness t x * sin (atan (camber_slope m p x)), camber_line m p x - half_thickness t x * cos (atan (camber_slope m p x))).
Lemma naca_contour_eq d1 d2 d34 n :
  let m := INR d1 / 100 in let t := INR d34 / 100 in let p := naca_location d2 in
  naca_contour d1 d2 d34 n = rev (map (naca_upper m p t) (cosspace 0 1 n true)) ++ tl (map (naca_lower m p t) (cosspace 0 1 n true)).
Proof.
  intros m t p. unfold naca_contour. cbv zeta.
  replace (INR d1 * (1 / 100)) with m by (unfold m; field). replace (INR d34 * (1 / 100)) with t by (unfold t; field).
  replace (if Reqb (INR d2 * (1 / 10)) 0 then 5 / 10 else INR d2 * (1 / 10)) with p.
  2:{ unfold p, naca_location. destruct (Nat.eqb d2 0) eqn:E.
      - apply Nat.eqb_eq in E; subst d2. replace (Reqb _ 0) with true by (symmetry; apply Reqb_true; cbn; ring). field.
      - apply Nat.eqb_neq in E. replace (Reqb _ 0) with false; [field|]. symmetry; apply Reqb_false. intros H.
        apply Rmult_integral in H. destruct H as [H|H]; [apply E, INR_eq; exact H | lra]. }
  assert (HI : strictly_increasing (cosspace 0 1 n true)) by (apply cosspace_increasing; lra).
  rewrite naca_y_c_eq, naca_slope_eq by exact HI. set (xs := cosspace 0 1 n true) in *. rewrite !map_map.
  rewrite <- (map_id xs) at 1 4. rewrite !(map3_maps _ (fun x => x)), !map3_maps.
  rewrite combine_app' by (rewrite !rev_length, !map_length; reflexivity). f_equal.
  - rewrite <- !map_rev. rewrite combine_maps. apply map_ext. intros x. rewrite naca_y_t_eq. reflexivity.
  - destruct xs as [|x xs']; [reflexivity|]. cbn [map tl]. rewrite combine_maps. apply map_ext. intros y. rewrite naca_y_t_eq. reflexivity.
Qed.
Lemma skipn_1 {A} (l : list A) : skipn 1 l = tl l. Proof. destruct l; reflexivity. Qed.
Lemma naca_length d1 d2 d34 n : length (naca_contour d1 d2 d34 n) = (2 * n - 1)%nat.
Proof. rewrite naca_contour_eq, app_length, rev_length, map_length, cosspace_length. rewrite <- skipn_1, skipn_length, map_length, cosspace_length. lia. Qed.
Lemma thickness_poly s : 0 <= s <= 1 ->
  0 <= 0.2969 * s - 0.1260 * s ^ 2 - 0.3516 * s ^ 4 + 0.2843 * s ^ 6 - 0.1015 * s ^ 8.
Proof.
  intros [H0 H1].
  assert (P2 : 0 <= s ^ 2) by nra. assert (P3 : 0 <= s ^ 3 <= s ^ 2) by (split; [apply pow_le; exact H0 | replace (s ^ 3) with (s * s ^ 2) by ring; nra]).
  assert (P4 : s ^ 4 <= s ^ 2) by (replace (s ^ 4) with (s * s ^ 3) by ring; nra).
  assert (P21 : s ^ 2 <= 1) by nra. assert (P5 : 0 <= s ^ 5) by (apply pow_le; exact H0). assert (P6 : 0 <= s ^ 6) by (apply pow_le; exact H0).
  replace (0.2969 * s - 0.1260 * s ^ 2 - 0.3516 * s ^ 4 + 0.2843 * s ^ 6 - 0.1015 * s ^ 8)
    with (s * (0.0021 + (1 - s) * (0.2948 + 0.1688 * s + 0.1688 * s ^ 2 - 0.1828 * s ^ 3 - 0.1828 * s ^ 4 + 0.1015 * s ^ 5 + 0.1015 * s ^ 6))) by lra.
  apply Rmult_le_pos; [exact H0|]. apply Rplus_le_le_0_compat; [lra|]. apply Rmult_le_pos; lra.
Qed.
Lemma half_thickness_nonneg t x : 0 <= t -> 0 <= x <= 1 -> 0 <= half_thickness t x.
Proof.
  intros Ht Hx. unfold half_thickness. apply Rmult_le_pos; [lra|].
  assert (Hs : 0 <= sqrt x <= 1) by (split; [apply sqrt_pos | rewrite <- sqrt_1; apply sqrt_le_1_alt; lra]).
  pose proof (thickness_poly (sqrt x) Hs) as H. assert (E : sqrt x ^ 2 = x) by (rewrite pow2_sqrt; lra).
  replace (sqrt x ^ 4) with ((sqrt x ^ 2) ^ 2) in H by ring. replace (sqrt x ^ 6) with ((sqrt x ^ 2) ^ 3) in H by ring.
  replace (sqrt x ^ 8) with ((sqrt x ^ 2) ^ 4) in H by ring. rewrite E in H. lra.
Qed.
Lemma half_thickness_0 t : half_thickness t 0 = 0.
Proof. unfold half_thickness. rewrite sqrt_0. lra. Qed.
Lemma half_thickness_1 t : half_thickness t 1 = 0.0105 * t.
Proof. unfold half_thickness. rewrite sqrt_1. lra. Qed.
Lemma naca_location_bounds d2 : (d2 <= 9)%nat -> 0 < naca_location d2 < 1.
Proof.
  intros H. unfold naca_location. destruct (Nat.eqb d2 0) eqn:E; [lra|]. apply Nat.eqb_neq in E.
  assert (1 <= INR d2) by (change 1 with (INR 1); apply le_INR; lia). assert (INR d2 <= 9) by (replace 9 with (INR 9) by (cbn; ring); apply le_INR; lia). lra.
Qed.
Lemma camber_line_0 m p : 0 < p -> camber_line m p 0 = 0.
Proof. intros H. unfold camber_line. destruct (Rle_dec 0 p); [ring | lra]. Qed.
Lemma camber_line_1 m p : p < 1 -> camber_line m p 1 = 0.
Proof. intros H. unfold camber_line. destruct (Rle_dec 1 p); [lra | field; lra]. Qed.
Lemma naca_ends m p t : 0 < p -> naca_upper m p t 0 = (0, 0) /\ naca_lower m p t 0 = (0, 0).
Proof. intros H. unfold naca_upper, naca_lower. rewrite half_thickness_0, camber_line_0 by exact H. split; f_equal; ring. Qed.
Lemma naca_points d1 d2 d34 n k x : (d2 <= 9)%nat -> nth_error (cosspace 0 1 n true) k = Some x ->
  let m := INR d1 / 100 in let t := INR d34 / 100 in let p := naca_location d2 in
  nth_error (naca_contour d1 d2 d34 n) (n - 1 - k) = Some (naca_upper m p t x) /\
  nth_error (naca_contour d1 d2 d34 n) (n - 1 + k) = Some (naca_lower m p t x).
Proof.
  intros Hd Hk m t p. assert (Hkn : (k < n)%nat) by (rewrite <- (cosspace_length 0 1 n true); apply nth_error_Some; congruence).
  rewrite naca_contour_eq. cbv zeta. fold m t p. set (xs := cosspace 0 1 n true) in *.
  assert (Lx : length xs = n) by apply cosspace_length.
  assert (Hu : nth_error (rev (map (naca_upper m p t) xs) ++ tl (map (naca_lower m p t) xs)) (n - 1 - k) = Some (naca_upper m p t x)).
  { rewrite nth_error_app1 by (rewrite rev_length, map_length; lia).
    assert (Hr : nth_error (map (naca_upper m p t) xs) k = Some (naca_upper m p t x)) by (rewrite nth_error_map, Hk; reflexivity).
    apply nth_error_nth with (d := (0,0)) in Hr. rewrite (nth_error_nth' _ (0,0)) by (rewrite rev_length, map_length; lia).
    rewrite rev_nth by (rewrite map_length; lia). rewrite map_length, Lx. replace (n - S (n - 1 - k))%nat with k by lia. rewrite Hr. reflexivity. }
  split; [exact Hu|]. destruct k as [|k].
  - assert (E0 : x = 0). { unfold xs in Hk. rewrite cosspace_first in Hk by lia. congruence. }
    rewrite Nat.add_0_r. rewrite Nat.sub_0_r in Hu. rewrite Hu, E0. destruct (naca_ends m p t) as [-> ->]; [apply naca_location_bounds; exact Hd | reflexivity].
  - rewrite nth_error_app2 by (rewrite rev_length, map_length; lia). rewrite rev_length, map_length, Lx.
    replace (n - 1 + S k - n)%nat with k by lia. destruct xs as [|x0 xs']; [discriminate Hk|]. cbn [map tl]. cbn [nth_error] in Hk.
    rewrite nth_error_map, Hk. reflexivity.
Qed.
Lemma unit_slope s : sin (atan s) = s * cos (atan s) /\ 0 < cos (atan s).
Proof.
  assert (Hc : 0 < cos (atan s)) by (apply cos_gt_0; pose proof (atan_bound s); lra). split; [|exact Hc].
  pose proof (tan_atan s) as H. unfold tan in H. apply (Rmult_eq_reg_r (/ cos (atan s))); [|apply Rinv_neq_0_compat; lra].
  transitivity s; [exact H | field; lra].
Qed.
Lemma naca_pair m p t x : 0 <= half_thickness t x ->
  let u := naca_upper m p t x in let l := naca_lower m p t x in
  mid2 u l = (x, camber_line m p x) /\ dist2 u (x, camber_line m p x) = half_thickness t x /\
  dist2 l (x, camber_line m p x) = half_thickness t x /\
  (fst u - fst l) * 1 + (snd u - snd l) * camber_slope m p x = 0 /\ snd l <= snd u.
Proof.
  intros Ht u l. unfold u, l, naca_upper, naca_lower, mid2, dist2; cbn [fst snd]. set (y := half_thickness t x) in *. set (c := camber_line m p x).
  set (s := camber_slope m p x). destruct (unit_slope s) as [E Hc]. pose proof (sin2_cos2 (atan s)) as H2. unfold Rsqr in H2.
  repeat split.
  - f_equal; field.
  - replace ((x - y * sin (atan s) - x) ^ 2 + (c + y * cos (atan s) - c) ^ 2) with (y ^ 2 * (sin (atan s) * sin (atan s) + cos (atan s) * cos (atan s))) by ring.
    rewrite H2, Rmult_1_r. rewrite <- Rsqr_pow2. apply sqrt_Rsqr. exact Ht.
  - replace ((x + y * sin (atan s) - x) ^ 2 + (c - y * cos (atan s) - c) ^ 2) with (y ^ 2 * (sin (atan s) * sin (atan s) + cos (atan s) * cos (atan s))) by ring.
    rewrite H2, Rmult_1_r. rewrite <- Rsqr_pow2. apply sqrt_Rsqr. exact Ht.
  - rewrite E. ring.
  - nra.
Qed.
Lemma naca_contour_pairs d1 d2 d34 n k x : (d2 <= 9)%nat -> nth_error (cosspace 0 1 n true) k = Some x ->
  let m := INR d1 / 100 in let t := INR d34 / 100 in let p := naca_location d2 in
  exists u l, nth_error (naca_contour d1 d2 d34 n) (n - 1 - k) = Some u /\
    nth_error (naca_contour d1 d2 d34 n) (n - 1 + k) = Some l /\
    mid2 u l = (x, camber_line m p x) /\ dist2 u (x, camber_line m p x) = half_thickness t x /\
    dist2 l (x, camber_line m p x) = half_thickness t x /\
    (fst u - fst l) * 1 + (snd u - snd l) * camber_slope m p x = 0 /\ snd l <= snd u.
Proof.
  intros Hd Hk m t p. destruct (naca_points d1 d2 d34 n k x Hd Hk) as [H1 H2].
  eexists _, _. split; [exact H1|]. split; [exact H2|]. apply naca_pair. apply half_thickness_nonneg.
  - unfold Rdiv. apply Rmult_le_pos; [apply pos_INR | lra].
  - eapply cosspace_bounds; [lra | eapply nth_error_In; exact Hk].
Qed.
Lemma naca_contour_ends d1 d2 d34 n : (d2 <= 9)%nat -> (2 <= n)%nat ->
  exists first last, nth_error (naca_contour d1 d2 d34 n) 0 = Some first /\
    nth_error (naca_contour d1 d2 d34 n) (length (naca_contour d1 d2 d34 n) - 1) = Some last /\
    nth_error (naca_contour d1 d2 d34 n) (n - 1) = Some (0, 0) /\
    mid2 first last = (1, 0) /\ dist2 first (1, 0) = 0.0105 * (INR d34 / 100) /\ dist2 last (1, 0) = 0.0105 * (INR d34 / 100).
Proof.
  intros Hd Hn. pose proof (cosspace_last 0 1 n Hn) as H1. pose proof (cosspace_first 0 1 n true ltac:(lia)) as H0.
  destruct (naca_contour_pairs d1 d2 d34 n _ _ Hd H1) as (u & l & Hu & Hl & HM & HU & HL & _). cbv zeta in *.
  destruct (naca_points d1 d2 d34 n _ _ Hd H0) as [Hz _]. cbv zeta in Hz. rewrite (proj1 (naca_ends _ _ _ (proj1 (naca_location_bounds d2 Hd)))) in Hz.
  rewrite camber_line_1 in * by (apply naca_location_bounds; exact Hd). rewrite half_thickness_1 in *.
  exists u, l. rewrite naca_length. rewrite Nat.sub_diag in Hu. replace (n - 1 + (n - 1))%nat with (2 * n - 1 - 1)%nat in Hl by lia.
  rewrite Nat.sub_0_r in Hz. auto 10.
Qed.
Lemma naca_symmetric d2 d34 n k x y : (d2 <= 9)%nat -> (k < n)%nat ->
  nth_error (naca_contour 0 d2 d34 n) (n - 1 - k) = Some (x, y) -> nth_error (naca_contour 0 d2 d34 n) (n - 1 + k) = Some (x, - y).
Proof.
  intros Hd Hk. destruct (nth_error (cosspace 0 1 n true) k) as [z|] eqn:E.
  2:{ apply nth_error_None in E. rewrite cosspace_length in E. lia. }
  destruct (naca_points 0 d2 d34 n k z Hd E) as [-> ->]. cbv zeta.
  assert (Ec : forall p w, camber_line (INR 0 / 100) p w = 0) by (intros; unfold camber_line; cbn [INR]; destruct (Rle_dec w p); unfold Rdiv; ring).
  assert (Es : forall p w, camber_slope (INR 0 / 100) p w = 0) by (intros; unfold camber_slope; cbn [INR]; destruct (Rle_dec w p); unfold Rdiv; ring).
  unfold naca_lower, naca_upper. rewrite Ec, Es, atan_0, sin_0, cos_0. intros [= <- <-]. do 2 f_equal; ring.
Qed.
(** The slope used is the derivative of the camber line. *)
Lemma derivable_local (f g : R -> R) x l d : 0 < d -> (forall y, Rabs (y - x) < d -> g y = f y) -> derivable_pt_lim f x l -> derivable_pt_lim g x l.
Proof.
  intros Hd E H eps He. destruct (H eps He) as [[a Ha] HA]. cbn in HA.
  assert (Hm : 0 < Rmin a d) by (apply Rmin_pos; assumption). exists (mkposreal _ Hm). intros h Hh Hlt. cbn in Hlt.
  pose proof (Rmin_l a d). pose proof (Rmin_r a d). rewrite !E; [apply HA; [exact Hh | lra] | |].
  - replace (x - x) with 0 by ring. rewrite Rabs_R0. exact Hd.
  - replace (x + h - x) with h by ring. lra.
Qed.
Lemma derivative_of_quadratic a b c x : derivable_pt_lim (fun y => a * (b + c * y - y ^ 2)) x (a * (c - 2 * x)).
Proof.
  intros eps He. assert (Hd : 0 < eps / (Rabs a + 1)) by (apply Rdiv_lt_0_compat; [exact He | pose proof (Rabs_pos a); lra]).
  exists (mkposreal _ Hd). intros h Hh Hlt. cbn in Hlt.
  replace ((a * (b + c * (x + h) - (x + h) ^ 2) - a * (b + c * x - x ^ 2)) / h - a * (c - 2 * x)) with (- (a * h)) by (field; exact Hh).
  rewrite Rabs_Ropp, Rabs_mult. pose proof (Rabs_pos a). pose proof (Rabs_pos h).
  apply Rle_lt_trans with ((Rabs a + 1) * Rabs h); [nra|].
  apply Rlt_le_trans with ((Rabs a + 1) * (eps / (Rabs a + 1))); [apply Rmult_lt_compat_l; lra|]. right; field; lra.
Qed.
Lemma camber_derivative m p x : x <> p -> derivable_pt_lim (camber_line m p) x (camber_slope m p x).
Proof.
  intros Hx. unfold camber_slope. destruct (Rle_dec x p) as [H|H].
  - apply (derivable_local (fun y => m / p ^ 2 * (0 + (2 * p) * y - y ^ 2)) _ _ _ (p - x)); [lra | |].
    + intros y Hy. unfold camber_line. assert (y - x < p - x) by (eapply Rle_lt_trans; [apply Rle_abs | exact Hy]). destruct (Rle_dec y p); [unfold Rdiv; ring | lra].
    + replace (2 * m / p ^ 2 * (p - x)) with (m / p ^ 2 * (2 * p - 2 * x)) by (unfold Rdiv; ring). apply derivative_of_quadratic.
  - apply (derivable_local (fun y => m / (1 - p) ^ 2 * ((1 - 2 * p) + (2 * p) * y - y ^ 2)) _ _ _ (x - p)); [lra | |].
    + intros y Hy. unfold camber_line. assert (- (y - x) < x - p) by (eapply Rle_lt_trans; [apply Rle_abs | rewrite Rabs_Ropp; exact Hy]). destruct (Rle_dec y p); [lra | reflexivity].
    + replace (2 * m / (1 - p) ^ 2 * (p - x)) with (m / (1 - p) ^ 2 * (2 * p - 2 * x)) by (unfold Rdiv; ring). apply derivative_of_quadratic.
Qed.
