(** Reading the files of the airfoil database. *)
From Coq Require Import List Ascii String Reals ZArith Lra Lia Arith Bool.
From Verif Require Import M_Files S_Airfoil S_Names S_Files L_Base L_Loads L_Geometry L_Airfoil L_Names L_Contour.
Import ListNotations.
Local Open Scope list_scope.
Local Open Scope R_scope.

Lemma digit_iff c d : digit c d <-> is_digit c = true /\ digit_value c = d.
Proof. unfold digit, is_digit, digit_value. rewrite andb_true_iff, !Nat.leb_le. lia. Qed.
Lemma white_iff c : white c <-> is_white c = true.
Proof.
  unfold white. split.
  - intros H. cbn [map In] in H. repeat (destruct H as [<-|H]; [reflexivity|]). destruct H.
  - destruct c as [[] [] [] [] [] [] [] []]; intros H; try discriminate H; cbn; auto 10.
Qed.
Lemma not_white c : ~ white c <-> is_white c = false.
Proof. rewrite white_iff. destruct (is_white c); split; congruence. Qed.

(** Characters *)
Definition signlike (c : ascii) : bool := Ascii.eqb c "-" || Ascii.eqb c "+".
Definition pointlike (c : ascii) : bool := Ascii.eqb c ".".
Definition explike (c : ascii) : bool := Ascii.eqb c "e" || Ascii.eqb c "E".
Definition begins (P : ascii -> bool) (s : list ascii) : Prop := forall c, hd_error s = Some c -> P c = false.
Lemma digit_others c : is_digit c = true -> signlike c = false /\ pointlike c = false /\ explike c = false /\ is_white c = false.
Proof. destruct c as [[] [] [] [] [] [] [] []]; intros H; try discriminate H; repeat split; reflexivity. Qed.
Lemma white_others c : is_white c = true -> signlike c = false /\ pointlike c = false /\ explike c = false /\ is_digit c = false.
Proof. destruct c as [[] [] [] [] [] [] [] []]; intros H; try discriminate H; repeat split; reflexivity. Qed.
Lemma explike_others c : explike c = true -> signlike c = false /\ pointlike c = false /\ is_digit c = false /\ is_white c = false.
Proof. destruct c as [[] [] [] [] [] [] [] []]; intros H; try discriminate H; repeat split; reflexivity. Qed.
Lemma take_sign_none s : begins signlike s -> take_sign s = (false, s).
Proof. destruct s as [|c s]; [reflexivity|]. intros H. specialize (H c eq_refl). destruct c as [[] [] [] [] [] [] [] []]; try reflexivity; discriminate H. Qed.
Lemma take_fraction_none s : begins pointlike s -> take_fraction s = ([], s).
Proof. destruct s as [|c s]; [reflexivity|]. intros H. specialize (H c eq_refl). destruct c as [[] [] [] [] [] [] [] []]; try reflexivity; discriminate H. Qed.
Lemma take_sign_cases s : (exists s', s = "-"%char :: s' /\ take_sign s = (true, s')) \/ (exists s', s = "+"%char :: s' /\ take_sign s = (false, s')) \/ take_sign s = (false, s) /\ begins signlike s.
Proof.
  destruct s as [|c s]; [right; right; split; [reflexivity | intros c H; discriminate]|]. destruct (signlike c) eqn:E.
  - unfold signlike in E. apply orb_prop in E. destruct E as [E|E]; apply Ascii.eqb_eq in E; subst c; [left | right; left]; eauto.
  - right. right. assert (B : begins signlike (c :: s)) by (intros x Hx; injection Hx as <-; exact E). split; [exact (take_sign_none _ B) | exact B].
Qed.
Lemma take_fraction_cases s : (exists s', s = "."%char :: s' /\ take_fraction s = take_digits s') \/ take_fraction s = ([], s) /\ begins pointlike s.
Proof.
  destruct s as [|c s]; [right; split; [reflexivity | intros c H; discriminate]|]. destruct (pointlike c) eqn:E.
  - unfold pointlike in E. apply Ascii.eqb_eq in E; subst c. left; eauto.
  - right. assert (B : begins pointlike (c :: s)) by (intros x Hx; injection Hx as <-; exact E). split; [exact (take_fraction_none _ B) | exact B].
Qed.

(** Rows of digits *)
Notation alldigits := (Forall (fun c => is_digit c = true)).
Lemma take_digits_app t r : alldigits t -> begins is_digit r -> take_digits (t ++ r) = (map digit_value t, r).
Proof.
  intros H Hr. induction H as [|c t Hc Ht IH].
  - cbn [app map]. destruct r as [|c r]; [reflexivity|]. cbn [take_digits]. rewrite (Hr c eq_refl). reflexivity.
  - cbn [app take_digits map]. rewrite Hc, IH. reflexivity.
Qed.
Lemma take_digits_split s : exists t, s = t ++ snd (take_digits s) /\ alldigits t /\ fst (take_digits s) = map digit_value t /\ begins is_digit (snd (take_digits s)).
Proof.
  induction s as [|c s (t & E & Ht & Ef & Hb)]; [exists []; repeat split; [constructor | intros c H; discriminate]|]. cbn [take_digits]. destruct (is_digit c) eqn:Ec.
  - exists (c :: t). cbn [fst snd app map]. split; [rewrite <- E; reflexivity|]. split; [constructor; assumption|]. split; [rewrite Ef; reflexivity | exact Hb].
  - exists []. cbn [fst snd app map]. split; [reflexivity|]. split; [constructor|]. split; [reflexivity|]. intros x Hx. injection Hx as <-. exact Ec.
Qed.
Lemma digits_value_snoc ds d : digits_value (ds ++ [d]) = (10 * digits_value ds + Z.of_nat d)%Z.
Proof. unfold digits_value. rewrite fold_left_app. reflexivity. Qed.
Lemma fold_digits ds : forall v, fold_left (fun v d => 10 * v + Z.of_nat d)%Z ds v = (v * 10 ^ Z.of_nat (length ds) + digits_value ds)%Z.
Proof.
  unfold digits_value. induction ds as [|d ds IH]; intros v; cbn [fold_left length]; [cbn; lia|].
  rewrite (IH (10 * v + Z.of_nat d)%Z), (IH (10 * 0 + Z.of_nat d)%Z), Nat2Z.inj_succ, Z.pow_succ_r by lia. ring.
Qed.
Lemma digits_value_app a b : digits_value (a ++ b) = (digits_value a * 10 ^ Z.of_nat (length b) + digits_value b)%Z.
Proof. unfold digits_value at 1. rewrite fold_left_app. apply fold_digits. Qed.
Lemma whole_iff t v : whole_part t v <-> alldigits t /\ v = IZR (digits_value (map digit_value t)).
Proof.
  split.
  - intros H. induction H as [|t v c d H [IH ->] Hd]; [split; [constructor | reflexivity]|]. apply digit_iff in Hd. destruct Hd as [Hc <-].
    split; [apply Forall_app; split; [exact IH | constructor; [exact Hc | constructor]]|]. rewrite map_app. cbn [map]. rewrite digits_value_snoc, plus_IZR, mult_IZR, <- INR_IZR_INZ. reflexivity.
  - revert v. induction t as [|c t IH] using rev_ind; intros v [Ht ->]; [constructor|]. apply Forall_app in Ht. destruct Ht as [Ht Hc]. inversion Hc as [|? ? Hc' _]; subst.
    rewrite map_app. cbn [map]. rewrite digits_value_snoc, plus_IZR, mult_IZR, <- INR_IZR_INZ. constructor; [apply IH; auto | apply digit_iff; auto].
Qed.
Lemma IZR_pow10 n : IZR (10 ^ Z.of_nat n) = 10 ^ n.
Proof. rewrite <- pow_IZR. reflexivity. Qed.
Lemma decimals_iff t v : decimals t v <-> alldigits t /\ v = IZR (digits_value (map digit_value t)) / 10 ^ length t.
Proof.
  assert (N : forall n, 10 ^ n <> 0) by (intros n; apply pow_nonzero; lra).
  assert (E : forall c t, IZR (digits_value (map digit_value (c :: t))) / 10 ^ length (c :: t) = (INR (digit_value c) + IZR (digits_value (map digit_value t)) / 10 ^ length t) / 10).
  { intros c u. cbn [map length]. change (digit_value c :: map digit_value u) with ([digit_value c] ++ map digit_value u). rewrite digits_value_app, map_length, plus_IZR, mult_IZR, IZR_pow10.
    replace (digits_value [digit_value c]) with (Z.of_nat (digit_value c)) by (unfold digits_value; cbn [fold_left]; lia). rewrite <- INR_IZR_INZ. cbn [pow]. field. apply N. }
  split.
  - intros H. induction H as [|t v c d H [IH ->] Hd]; [split; [constructor | unfold digits_value; cbn [map length fold_left pow]; lra]|]. apply digit_iff in Hd. destruct Hd as [Hc <-].
    split; [constructor; assumption | rewrite E; reflexivity].
  - revert v. induction t as [|c t IH]; intros v [Ht ->]; [replace (IZR (digits_value (map digit_value [])) / 10 ^ length []) with 0 by (unfold digits_value; cbn; lra); constructor|].
    inversion Ht as [|? ? Hc Ht']; subst. rewrite E. constructor; [apply IH; auto | apply digit_iff; auto].
Qed.
Lemma powerRZ_nat n : powerRZ 10 (Z.of_nat n) = 10 ^ n.
Proof. symmetry. apply pow_powerRZ. Qed.
Lemma powerRZ_opp_nat n : powerRZ 10 (- Z.of_nat n) = / 10 ^ n.
Proof. rewrite powerRZ_neg'. rewrite powerRZ_nat. reflexivity. Qed.
Lemma apart_begins r : apart r -> begins is_digit r /\ begins pointlike r /\ begins explike r /\ begins signlike r.
Proof.
  intros [->|(c & t & -> & Hc)]; [repeat split; intros c H; discriminate|]. apply white_iff, white_others in Hc. destruct Hc as (A & B & C & D).
  repeat split; intros x Hx; injection Hx as <-; assumption.
Qed.

(** The parts of a number *)
Lemma scale_begins t p r : scale t p -> apart r -> begins is_digit (t ++ r) /\ begins pointlike (t ++ r).
Proof.
  intros H Hr. destruct (apart_begins r Hr) as (A & B & _).
  assert (G : forall c u, explike c = true -> begins is_digit (c :: u) /\ begins pointlike (c :: u)) by (intros c u Hc; apply explike_others in Hc; destruct Hc as (X & Y & Z & _); split; intros x Hx; injection Hx as <-; assumption).
  destruct H as [|c s n t Hc Hs Ht Hw|c n t Hc Ht Hw]; [split; assumption | | ]; cbn [app]; apply G; unfold explike; destruct Hc as [->| ->]; reflexivity.
Qed.
Lemma scale_taken t p r : scale t p -> apart r -> exists e, take_exponent (t ++ r) = (e, r) /\ p = powerRZ 10 e.
Proof.
  intros H Hr. destruct (apart_begins r Hr) as (A & B & C & D). destruct H as [|c s n t Hc Hs Ht Hw|c n t Hc Ht Hw].
  - exists 0%Z. split; [|reflexivity]. cbn [app]. destruct r as [|c r]; [reflexivity|]. cbn [take_exponent]. specialize (C c eq_refl). unfold explike in C. rewrite C. reflexivity.
  - apply whole_iff in Hw. destruct Hw as [Hd Hv]. rewrite INR_IZR_INZ in Hv. apply eq_IZR in Hv. exists (Z.of_nat n). split; [|symmetry; apply powerRZ_nat].
    assert (Ec : Ascii.eqb c "e" || Ascii.eqb c "E" = true) by (destruct Hc as [->| ->]; reflexivity). cbn [app take_exponent]. rewrite Ec.
    assert (Es : take_sign ((s ++ t) ++ r) = (false, t ++ r)).
    { destruct Hs as [->| ->]; [|reflexivity]. cbn [app]. apply take_sign_none. intros x Hx. destruct Hd as [|y t Hy Hd]; [congruence|]. injection Hx as <-. apply digit_others, Hy. }
    rewrite Es, take_digits_app by assumption. destruct t as [|y t]; [congruence|]. cbn [map] in *. rewrite <- Hv. reflexivity.
  - apply whole_iff in Hw. destruct Hw as [Hd Hv]. rewrite INR_IZR_INZ in Hv. apply eq_IZR in Hv. exists (- Z.of_nat n)%Z. split; [|symmetry; apply powerRZ_opp_nat].
    assert (Ec : Ascii.eqb c "e" || Ascii.eqb c "E" = true) by (destruct Hc as [->| ->]; reflexivity). cbn [app take_exponent]. rewrite Ec.
    cbn [take_sign]. rewrite take_digits_app by assumption. destruct t as [|y t]; [congruence|]. cbn [map] in *. rewrite <- Hv. reflexivity.
Qed.
Lemma unsigned_taken t v r : unsigned t v -> begins is_digit r -> begins pointlike r ->
  exists w f s2, take_digits (t ++ r) = (w, s2) /\ take_fraction s2 = (f, r) /\ w ++ f <> [] /\ v = IZR (digits_value (w ++ f)) * powerRZ 10 (- Z.of_nat (length f)).
Proof.
  intros H Hd Hp. destruct H as [t v Hn Hw|t v t' v' Hn Hw Hf].
  - apply whole_iff in Hw. destruct Hw as [Ht ->]. exists (map digit_value t), [], r. rewrite take_digits_app by assumption. split; [reflexivity|]. split; [apply take_fraction_none, Hp|].
    rewrite app_nil_r. split; [destruct t; [congruence | discriminate]|]. cbn. ring.
  - apply whole_iff in Hw. destruct Hw as [Ht ->]. apply decimals_iff in Hf. destruct Hf as [Ht' ->]. exists (map digit_value t), (map digit_value t'), ("."%char :: t' ++ r).
    rewrite <- app_assoc. cbn [app]. rewrite take_digits_app by (try exact Ht; intros x Hx; injection Hx as <-; reflexivity). split; [reflexivity|].
    cbn [take_fraction]. rewrite take_digits_app by assumption. split; [reflexivity|]. rewrite <- map_app. split; [destruct (t ++ t'); [congruence | discriminate]|].
    rewrite map_app, digits_value_app, map_length, plus_IZR, mult_IZR, IZR_pow10, powerRZ_opp_nat. field. apply pow_nonzero. lra.
Qed.
Lemma unsigned_begins t v r : unsigned t v -> begins signlike (t ++ r) /\ exists c u, t = c :: u /\ is_white c = false.
Proof.
  assert (G : forall c u, is_digit c = true \/ pointlike c = true -> begins signlike ((c :: u) ++ r) /\ exists c' u', c :: u = c' :: u' /\ is_white c' = false).
  { intros c u [H|H].
    - apply digit_others in H. destruct H as (A & _ & _ & B). split; [intros x Hx; injection Hx as <-; exact A | eauto].
    - unfold pointlike in H. apply Ascii.eqb_eq in H. subst c. split; [intros x Hx; injection Hx as <-; reflexivity|]. exists "."%char, u. auto. }
  intros [t' v' Hn Hw|t1 v1 t2 v2 Hn Hw Hf]; apply whole_iff in Hw; destruct Hw as [Ht _].
  - destruct Ht as [|c u Hc Hu]; [congruence|]. apply G. auto.
  - destruct Ht as [|c u Hc Hu]; cbn [app]; apply G; auto.
Qed.
Lemma strtod_complete t x r : spelled t x -> apart r -> strtod (t ++ r) = Some (x, r).
Proof.
  intros (t1 & s & t2 & v & t3 & p & -> & Hs & Hu & Hp & ->) Hr. destruct (scale_begins t3 p r Hp Hr) as [B1 B2].
  destruct (scale_taken t3 p r Hp Hr) as (e & Ee & ->). destruct (unsigned_taken t2 v (t3 ++ r) Hu B1 B2) as (w & f & s2 & E1 & E2 & Hn & ->).
  rewrite <- !app_assoc. unfold strtod.
  assert (Es : exists m, take_sign (t1 ++ t2 ++ t3 ++ r) = (m, t2 ++ t3 ++ r) /\ s = if m then -1 else 1).
  { destruct Hs; cbn [app]; [|exists false; split; reflexivity | exists true; split; reflexivity]. exists false. split; [|reflexivity]. apply take_sign_none. apply (unsigned_begins t2 _ (t3 ++ r) Hu). }
  destruct Es as (m & -> & ->). rewrite E1, E2. destruct (w ++ f) as [|d ds] eqn:Ed; [congruence|]. rewrite Ee. apply f_equal. f_equal.
  unfold Z.sub. rewrite Z.add_comm, powerRZ_add by lra. destruct m; ring.
Qed.
Lemma spelled_nonempty t x : spelled t x -> exists c u, t = c :: u /\ is_white c = false.
Proof.
  intros (t1 & s & t2 & v & t3 & p & -> & Hs & Hu & _). destruct (unsigned_begins t2 v [] Hu) as [_ (c & u & -> & Hc)]. destruct Hs; cbn [app]; eauto.
Qed.
Notation nowhite := (Forall (fun c => is_white c = false)).
Lemma digits_nowhite t : alldigits t -> nowhite t.
Proof. intros H. eapply Forall_impl; [|exact H]. intros c Hc. apply digit_others, Hc. Qed.
Lemma spelled_nowhite t x : spelled t x -> nowhite t.
Proof.
  intros (t1 & s & t2 & v & t3 & p & -> & Hs & Hu & Hp & _). apply Forall_app. split; [destruct Hs; repeat constructor|]. apply Forall_app. split.
  - destruct Hu as [t v Hn Hw|t v t' v' Hn Hw Hf]; apply whole_iff in Hw; destruct Hw as [Ht _]; [exact (digits_nowhite _ Ht)|]. apply decimals_iff in Hf. destruct Hf as [Ht' _].
    apply Forall_app. split; [exact (digits_nowhite _ Ht)|]. constructor; [reflexivity | exact (digits_nowhite _ Ht')].
  - destruct Hp as [|c s' n t Hc Hs' Ht Hw|c n t Hc Ht Hw]; [constructor| |]; apply whole_iff in Hw; destruct Hw as [Hd _].
    + constructor; [destruct Hc as [->| ->]; reflexivity|]. apply Forall_app. split; [destruct Hs' as [->| ->]; repeat constructor | exact (digits_nowhite _ Hd)].
    + constructor; [destruct Hc as [->| ->]; reflexivity|]. constructor; [reflexivity | exact (digits_nowhite _ Hd)].
Qed.

(** What is read as a number is spelled so *)
Lemma take_exponent_sound s : exists t, s = t ++ snd (take_exponent s) /\ scale t (powerRZ 10 (fst (take_exponent s))).
Proof.
  destruct s as [|c s]; [exists []; split; [reflexivity | constructor]|]. cbn [take_exponent]. destruct (Ascii.eqb c "e" || Ascii.eqb c "E") eqn:Ec; [|exists []; split; [reflexivity | constructor]].
  assert (Hc : c = "e"%char \/ c = "E"%char) by (apply orb_prop in Ec; destruct Ec as [E|E]; apply Ascii.eqb_eq in E; auto).
  assert (NV : forall t, exists n, digits_value (map digit_value t) = Z.of_nat n).
  { intros t. exists (Z.to_nat (digits_value (map digit_value t))). rewrite Z2Nat.id; [reflexivity|]. induction t as [|x t IH] using rev_ind; [apply Z.le_refl|]. rewrite map_app. cbn [map]. rewrite digits_value_snoc. lia. }
  assert (K : forall m pre s', take_sign s = (m, s') -> s = pre ++ s' -> (m = true -> pre = ["-"%char]) -> (m = false -> pre = [] \/ pre = ["+"%char]) ->
    exists t, c :: s = t ++ snd (let '(ds, rest) := take_digits s' in match ds with [] => (0%Z, c :: s) | _ => ((if m then - digits_value ds else digits_value ds)%Z, rest) end) /\
      scale t (powerRZ 10 (fst (let '(ds, rest) := take_digits s' in match ds with [] => (0%Z, c :: s) | _ => ((if m then - digits_value ds else digits_value ds)%Z, rest) end)))).
  { intros m pre s' _ Epre Hm1 Hm0. destruct (take_digits_split s') as (t & E & Ht & Ef & _). destruct (take_digits s') as [ds rest]. cbn [fst snd] in E, Ef. subst ds.
    destruct t as [|y t]; [exists []; split; [reflexivity | constructor]|]. cbn [map]. change (digit_value y :: map digit_value t) with (map digit_value (y :: t)).
    destruct (NV (y :: t)) as (n & En). rewrite En. cbn [fst snd]. exists (c :: pre ++ y :: t). split; [cbn [app]; rewrite <- app_assoc, <- E, <- Epre; reflexivity|].
    assert (Hw : whole_part (y :: t) (INR n)) by (apply whole_iff; split; [exact Ht | rewrite En, INR_IZR_INZ; reflexivity]).
    destruct m.
    - rewrite (Hm1 eq_refl), powerRZ_opp_nat. cbn [app]. constructor; [exact Hc | discriminate | exact Hw].
    - rewrite powerRZ_nat. constructor; [exact Hc | exact (Hm0 eq_refl) | discriminate | exact Hw]. }
  destruct (take_sign_cases s) as [(s' & Es & E)|[(s' & Es & E)|[E _]]]; rewrite E.
  - apply (K true ["-"%char] s'); [exact E | exact Es | reflexivity | discriminate].
  - apply (K false ["+"%char] s'); [exact E | exact Es | discriminate | auto].
  - apply (K false [] s); [exact E | reflexivity | discriminate | auto].
Qed.
Definition fraction_read (s2 : list ascii) (f : list nat) (s3 tw : list ascii) : Prop :=
  map digit_value tw ++ f <> [] -> exists t, tw ++ s2 = t ++ s3 /\ unsigned t (IZR (digits_value (map digit_value tw ++ f)) * powerRZ 10 (- Z.of_nat (length f))).
Lemma take_fraction_sound s2 tw : alldigits tw -> fraction_read s2 (fst (take_fraction s2)) (snd (take_fraction s2)) tw.
Proof.
  intros Htw Hn. destruct (take_fraction_cases s2) as [(s' & -> & E)|[E _]]; rewrite E in *; cbn [fst snd] in *.
  - destruct (take_digits_split s') as (tf & E1 & Htf & Ef & _). rewrite Ef in *. exists (tw ++ "."%char :: tf). split; [rewrite <- app_assoc; cbn [app]; rewrite <- E1; reflexivity|].
    rewrite digits_value_app, !map_length, plus_IZR, mult_IZR, IZR_pow10, powerRZ_opp_nat.
    replace ((IZR (digits_value (map digit_value tw)) * 10 ^ length tf + IZR (digits_value (map digit_value tf))) * / 10 ^ length tf) with (IZR (digits_value (map digit_value tw)) + IZR (digits_value (map digit_value tf)) / 10 ^ length tf) by (field; apply pow_nonzero; lra).
    constructor; [intros C; apply Hn; rewrite <- map_app, C; reflexivity | apply whole_iff; auto | apply decimals_iff; auto].
  - exists tw. split; [reflexivity|]. rewrite app_nil_r in *. cbn [length Z.of_nat Z.opp powerRZ]. rewrite Rmult_1_r. constructor; [intros C; apply Hn; rewrite C; reflexivity | apply whole_iff; auto].
Qed.
Lemma strtod_sound s x r : strtod s = Some (x, r) -> exists t, s = t ++ r /\ spelled t x.
Proof.
  unfold strtod. intros H.
  assert (ES : exists t1 sg, s = t1 ++ snd (take_sign s) /\ signed t1 sg /\ sg = if fst (take_sign s) then -1 else 1).
  { destruct (take_sign_cases s) as [(s' & Es & E)|[(s' & Es & E)|[E _]]]; rewrite E; cbn [fst snd]; [exists ["-"%char], (-1) | exists ["+"%char], 1 | exists [], 1]; (split; [try exact Es; reflexivity|]); split; try constructor; reflexivity. }
  destruct ES as (t1 & sg & Es & Hsg & Esg). destruct (take_sign s) as [m s1]. cbn [fst snd] in Es, Esg.
  destruct (take_digits_split s1) as (tw & E1 & Htw & Ew & _). destruct (take_digits s1) as [w s2]. cbn [fst snd] in E1, Ew. subst w.
  pose proof (take_fraction_sound s2 tw Htw) as HF. destruct (take_fraction s2) as [f s3]. cbn [fst snd] in HF. unfold fraction_read in HF.
  destruct (map digit_value tw ++ f) as [|d ds] eqn:Ed; [discriminate|]. destruct (HF ltac:(discriminate)) as (t2 & E2 & Hu).
  destruct (take_exponent_sound s3) as (t3 & E3 & Hp). destruct (take_exponent s3) as [e rest]. cbn [fst snd] in E3, Hp.
  assert (HH : x = (if m then - (IZR (digits_value (d :: ds)) * powerRZ 10 (e - Z.of_nat (length f))) else IZR (digits_value (d :: ds)) * powerRZ 10 (e - Z.of_nat (length f))) /\ r = rest) by (inversion H; split; reflexivity).
  clear H. destruct HH as [-> ->]. exists (t1 ++ t2 ++ t3). split; [rewrite Es, E1, E2, E3, <- !app_assoc; reflexivity|].
  exists t1, sg, t2, (IZR (digits_value (d :: ds)) * powerRZ 10 (- Z.of_nat (length f))), t3, (powerRZ 10 e). split; [reflexivity|]. split; [exact Hsg|]. split; [exact Hu|]. split; [exact Hp|].
  subst sg. unfold Z.sub. rewrite Z.add_comm, powerRZ_add by lra. destruct m; ring.
Qed.

(** Tables *)
Lemma skip_white_gap gap s : Forall white gap -> skip_white (gap ++ s) = skip_white s.
Proof. intros H. induction H as [|c gap Hc Hg IH]; [reflexivity|]. cbn [app skip_white]. apply white_iff in Hc. rewrite Hc. exact IH. Qed.
Lemma skip_white_none s : begins is_white s -> skip_white s = s.
Proof. intros H. destruct s as [|c s]; [reflexivity|]. cbn [skip_white]. rewrite (H c eq_refl). reflexivity. Qed.
Lemma skip_white_split s : exists gap, s = gap ++ skip_white s /\ Forall white gap.
Proof.
  induction s as [|c s (gap & E & Hg)]; [exists []; split; [reflexivity | constructor]|]. cbn [skip_white]. destruct (is_white c) eqn:Ec.
  - exists (c :: gap). split; [cbn [app]; rewrite <- E; reflexivity | constructor; [apply white_iff, Ec | exact Hg]].
  - exists []. split; [reflexivity | constructor].
Qed.
Lemma skipped_number gap t x rest : Forall white gap -> spelled t x -> apart rest -> strtod (skip_white (gap ++ t ++ rest)) = Some (x, rest).
Proof.
  intros Hg Ht Hr. rewrite skip_white_gap by exact Hg. destruct (spelled_nonempty _ _ Ht) as (c & u & Et & Hc).
  rewrite skip_white_none; [apply strtod_complete; assumption|]. rewrite Et. intros y Hy. injection Hy as <-. exact Hc.
Qed.
Lemma table_empty l : table [] l -> l = [].
Proof.
  intros H. inversion H as [|gap t x rest l' Hg Ht Hr Hl E]; [reflexivity|]. destruct (spelled_nonempty _ _ Ht) as (c & u & -> & _). destruct gap; discriminate E.
Qed.
Lemma table_length s l : table s l -> (length l <= length s)%nat.
Proof.
  intros H. induction H as [|gap t x rest l Hg Ht Hr Hl IH]; cbn [length]; [lia|]. destruct (spelled_nonempty _ _ Ht) as (c & u & -> & _). rewrite !app_length. cbn [length]. lia.
Qed.
Lemma table_read s l : table s l -> forall fuel, (length l <= fuel)%nat -> read_numbers fuel s = Some l.
Proof.
  intros H. induction H as [gap Hg|gap t x rest l Hg Ht Hr Hl IH]; intros fuel Hf.
  - assert (E : strtod (skip_white gap) = None) by (rewrite <- (app_nil_r gap), skip_white_gap by exact Hg; reflexivity). destruct fuel; cbn [read_numbers]; rewrite E; reflexivity.
  - cbn [length] in Hf. destruct fuel as [|fuel]; [lia|]. cbn [read_numbers]. rewrite (skipped_number _ _ _ _ Hg Ht Hr). destruct Hr as [->|(c & u & -> & Hc)].
    + rewrite (table_empty _ Hl). reflexivity.
    + apply white_iff in Hc. rewrite Hc, IH by lia. reflexivity.
Qed.
Lemma table_fromstring s l : table s l -> fromstring s = Some l.
Proof. intros H. apply table_read; [exact H | apply table_length, H]. Qed.
Lemma last_app {A} (P : A -> Prop) (a b : list A) : b <> [] -> (exists u c, a ++ b = u ++ [c] /\ P c) -> exists u c, b = u ++ [c] /\ P c.
Proof.
  intros Hb (u & c & E & Hc). destruct (exists_last Hb) as (b' & y & ->). rewrite app_assoc in E. apply app_inj_tail in E. destruct E as [_ ->]. eauto.
Qed.
Lemma word_read s l w more : table s l -> closed s -> wordlike w -> forall fuel, (length l <= fuel)%nat -> read_numbers fuel (s ++ w :: more) = Some l.
Proof.
  intros H HC (Ww & Wd & Ws). revert HC. induction H as [gap Hg|gap t x rest l Hg Ht Hr Hl IH]; intros HC fuel Hf.
  - assert (E : strtod (skip_white (gap ++ w :: more)) = None).
    { rewrite skip_white_gap by exact Hg. cbn [skip_white]. rewrite (proj1 (not_white w) Ww).
      assert (Nd : is_digit w = false) by (destruct (is_digit w) eqn:E; [|reflexivity]; exfalso; apply (Wd (digit_value w)), digit_iff; auto).
      assert (Nn : "+"%char <> w /\ "-"%char <> w /\ "."%char <> w) by (repeat split; intros <-; apply Ws; cbn; auto).
      unfold strtod. rewrite take_sign_none.
      2:{ intros y Hy. injection Hy as <-. unfold signlike. apply orb_false_iff. split; apply Ascii.eqb_neq; intros ->; tauto. }
      cbn [take_digits]. rewrite Nd. rewrite take_fraction_none; [reflexivity|]. intros y Hy. injection Hy as <-. apply Ascii.eqb_neq. intros ->. tauto. }
    destruct fuel; cbn [read_numbers]; rewrite E; reflexivity.
  - assert (Hne : rest <> []).
    { intros ->. destruct HC as [HC|(b & c & E & Hc)].
      - destruct (spelled_nonempty _ _ Ht) as (c & u & -> & _). destruct gap; discriminate HC.
      - rewrite app_nil_r in E. assert (Nt : t <> []) by (destruct (spelled_nonempty _ _ Ht) as (c' & u & -> & _); discriminate).
        destruct (last_app white gap t Nt) as (u & c' & -> & Hc'); [eauto|]. pose proof (spelled_nowhite _ _ Ht) as HN. apply Forall_app in HN. destruct HN as [_ HN]. inversion HN; subst. apply white_iff in Hc'. congruence. }
    assert (HC' : closed rest).
    { right. destruct HC as [HC|HC]; [destruct gap, t, rest; try discriminate HC; congruence|]. rewrite app_assoc in HC. exact (last_app white _ _ Hne HC). }
    cbn [length] in Hf. destruct fuel as [|fuel]; [lia|]. rewrite <- !app_assoc. cbn [read_numbers]. destruct Hr as [Hr|(c & u & -> & Hc)]; [congruence|].
    rewrite (skipped_number gap t x ((c :: u) ++ w :: more) Hg Ht) by (right; exists c, (u ++ w :: more); split; [reflexivity | exact Hc]).
    cbn [app]. pose proof Hc as Hc'. apply white_iff in Hc'. rewrite Hc'. change (c :: u ++ w :: more) with ((c :: u) ++ w :: more). rewrite (IH HC') by lia. reflexivity.
Qed.
Lemma word_fromstring s l w more : table s l -> closed s -> wordlike w -> fromstring (s ++ w :: more) = Some l.
Proof. intros H HC HW. apply word_read; try assumption. apply table_length in H. rewrite app_length. lia. Qed.
Lemma strtod_shorter s x r : strtod s = Some (x, r) -> (length r < length s)%nat.
Proof. intros H. destruct (strtod_sound _ _ _ H) as (t & -> & Ht). destruct (spelled_nonempty _ _ Ht) as (c & u & -> & _). rewrite app_length. cbn [length]. lia. Qed.
Lemma skip_white_shorter s : (length (skip_white s) <= length s)%nat.
Proof. destruct (skip_white_split s) as (gap & E & _). rewrite E at 2. rewrite app_length. lia. Qed.
Lemma read_ends fuel : forall s, (length s <= fuel)%nat -> exists l, read_numbers fuel s = Some l.
Proof.
  induction fuel as [|fuel IH]; intros s Hs.
  - destruct s; [|cbn in Hs; lia]. exists []. reflexivity.
  - cbn [read_numbers]. destruct (strtod (skip_white s)) as [[x rest]|] eqn:E; [|eauto]. pose proof (strtod_shorter _ _ _ E). pose proof (skip_white_shorter s).
    destruct rest as [|c rest]; [eauto|]. destruct (is_white c); [|eauto]. destruct (IH (c :: rest) ltac:(lia)) as (l & ->). cbn. eauto.
Qed.
Lemma fromstring_ends s : exists l, fromstring s = Some l.
Proof. apply read_ends. lia. Qed.
Lemma read_sound fuel : forall s l, read_numbers fuel s = Some l -> exists body junk, s = body ++ junk /\ table body l.
Proof.
  induction fuel as [|fuel IH]; intros s l H; cbn [read_numbers] in H; destruct (strtod (skip_white s)) as [[x rest]|] eqn:E;
    try (assert (El : l = []) by congruence; subst l; exists [], s; split; [reflexivity | constructor; constructor]);
    destruct (strtod_sound _ _ _ E) as (t & Et & Ht); destruct (skip_white_split s) as (gap & Eg & Hg); rewrite Et in Eg;
    assert (One : l = [x] -> exists body junk, s = body ++ junk /\ table body l) by
      (intros ->; exists (gap ++ t ++ []), rest; split; [rewrite app_nil_r, <- app_assoc; exact Eg | apply table_more; [exact Hg | exact Ht | left; reflexivity | constructor; constructor]]);
    (destruct rest as [|c rest]; [apply One; congruence|]); (destruct (is_white c) eqn:Ec; [|apply One; congruence]); [discriminate|].
  destruct (read_numbers fuel (c :: rest)) as [l'|] eqn:E'; [|discriminate]. cbn in H. assert (El : l = x :: l') by congruence. subst l. clear H.
  destruct (IH _ _ E') as (body & junk & Eb & Hb). exists (gap ++ t ++ body), junk. split; [rewrite Eg, Eb, <- !app_assoc; reflexivity|].
  apply table_more; [exact Hg | exact Ht | | exact Hb]. destruct body as [|c' body]; [left; reflexivity|]. right. injection Eb as <- _. exists c, body. split; [reflexivity | apply white_iff, Ec].
Qed.

(** Files *)
Lemma headed_trimmed raw header body : headed raw header body -> trimmed raw = newline :: body.
Proof.
  intros [-> Hn]. unfold trimmed. replace (from_newline (header ++ ascii_of_nat 10 :: body)) with (Some (newline :: body)); [reflexivity|].
  induction header as [|c header IH]; cbn [app from_newline].
  - reflexivity.
  - destruct (Ascii.eqb c newline) eqn:E; [apply Ascii.eqb_eq in E; subst c; exfalso; apply Hn; left; reflexivity|]. apply IH. intros C. apply Hn. right. exact C.
Qed.
Lemma table_newline body l : table body l -> table (newline :: body) l.
Proof.
  assert (Hw : white newline) by (cbn; auto). intros H. destruct H as [gap Hg|gap t x rest l Hg Ht Hr Hl]; [constructor; constructor; assumption|].
  apply (table_more (newline :: gap)); try assumption. constructor; assumption.
Qed.
Lemma file_points files name text raw points : names_file name text -> files (text ++ list_ascii_of_string ".dat") = Some raw -> fromstring (trimmed raw) = Some (numbers_of points) ->
  populate_coordinates (file_database files) name = Ok points.
Proof.
  intros [HP HN] Hf Hr. destruct (file_names (file_database files) name text HP HN) as (_ & H & _). apply H. unfold file_database, file_name. rewrite Hf. exact Hr.
Qed.
Lemma file_read files name text raw header body points : names_file name text -> files (text ++ list_ascii_of_string ".dat") = Some raw -> headed raw header body ->
  table body (numbers_of points) -> populate_coordinates (file_database files) name = Ok points.
Proof.
  intros HN Hf Hh Ht. apply (file_points _ _ _ _ _ HN Hf). rewrite (headed_trimmed _ _ _ Hh). apply table_fromstring, table_newline, Ht.
Qed.
Lemma file_words files name text raw header body w more points : names_file name text -> files (text ++ list_ascii_of_string ".dat") = Some raw -> headed raw header (body ++ w :: more) ->
  table body (numbers_of points) -> closed body -> wordlike w -> populate_coordinates (file_database files) name = Ok points.
Proof.
  intros HN Hf Hh Ht HC HW. apply (file_points _ _ _ _ _ HN Hf). rewrite (headed_trimmed _ _ _ Hh). change (newline :: body ++ w :: more) with ((newline :: body) ++ w :: more).
  apply word_fromstring; [apply table_newline, Ht | | exact HW]. right. destruct HC as [->|(b & c & -> & Hc)]; [exists [], newline; split; [reflexivity | cbn; auto] | exists (newline :: b), c; auto].
Qed.
Lemma table_without_newline body l : table (newline :: body) l -> table body l.
Proof.
  intros H. inversion H as [gap Hg E|gap t x rest l' Hg Ht Hr Hl E].
  - constructor. subst gap. inversion Hg; assumption.
  - destruct gap as [|c gap].
    + destruct (spelled_nonempty _ _ Ht) as (c & u & -> & Hc). cbn [app] in E. injection E as -> _. discriminate Hc.
    + cbn [app] in E. injection E as -> <-. apply table_more; try assumption. inversion Hg; assumption.
Qed.
Lemma file_invents_nothing files name text points : names_file name text -> populate_coordinates (file_database files) name = Ok points ->
  exists raw, files (text ++ list_ascii_of_string ".dat") = Some raw /\
  forall header body, headed raw header body -> exists numbers rest, body = numbers ++ rest /\ table numbers (numbers_of points).
Proof.
  intros [HP HN] H. pose proof (file_names (file_database files) name text HP HN) as (H1 & H2 & H3).
  assert (Edb : file_database files text = match files (text ++ list_ascii_of_string ".dat") with None => None | Some raw => fromstring (trimmed raw) end) by reflexivity. rewrite Edb in H1, H2, H3.
  destruct (files (text ++ list_ascii_of_string ".dat")) as [raw|]; [|exfalso; rewrite (H1 eq_refl) in H; discriminate]. exists raw. split; [reflexivity|].
  intros header body Hh. rewrite (headed_trimmed _ _ _ Hh) in *. destruct (fromstring_ends (newline :: body)) as (l & El). rewrite El in *.
  destruct (pairs_of_cases l) as [(c & ->)|[HO _]]; [|exfalso; rewrite (H3 l eq_refl HO) in H; discriminate].
  rewrite (H2 c eq_refl) in H. apply Ok_eq in H. subst c. destruct (read_sound _ _ _ El) as (b & junk & Eb & Hb). destruct b as [|c b].
  - exists [], body. split; [reflexivity|]. rewrite (table_empty _ Hb). constructor. constructor.
  - cbn [app] in Eb. injection Eb as <- Eb. exists b, junk. split; [exact Eb | exact (table_without_newline _ _ Hb)].
Qed.
Lemma file_header files files' name text raw raw' header header' body : names_file name text ->
  files (text ++ list_ascii_of_string ".dat") = Some raw -> files' (text ++ list_ascii_of_string ".dat") = Some raw' -> headed raw header body -> headed raw' header' body ->
  populate_coordinates (file_database files) name = populate_coordinates (file_database files') name.
Proof.
  intros [HP HN] Hf Hf' Hh Hh'. rewrite !(plain_other _ name text HP HN). unfold file_database, file_name. rewrite Hf, Hf', (headed_trimmed _ _ _ Hh), (headed_trimmed _ _ _ Hh'). reflexivity.
Qed.
Lemma file_odd files name text raw header body l : names_file name text -> files (text ++ list_ascii_of_string ".dat") = Some raw -> headed raw header body ->
  table body l -> Nat.Odd (length l) -> populate_coordinates (file_database files) name = Err EOddCoordinates.
Proof.
  intros [HP HN] Hf Hh Ht HO. destruct (file_names (file_database files) name text HP HN) as (_ & _ & H). apply (H l); [|exact HO].
  unfold file_database, file_name. rewrite Hf, (headed_trimmed _ _ _ Hh). apply table_fromstring, table_newline, Ht.
Qed.
Lemma file_missing files name text : names_file name text -> files (text ++ list_ascii_of_string ".dat") = None -> populate_coordinates (file_database files) name = Err EAirfoilNotInDatabase.
Proof. intros [HP HN] Hf. apply (file_names (file_database files) name text HP HN). unfold file_database, file_name. rewrite Hf. reflexivity. Qed.
Lemma from_newline_none s : ~ In newline s -> from_newline s = None.
Proof.
  induction s as [|c s IH]; intros H; [reflexivity|]. cbn [from_newline]. destruct (Ascii.eqb c newline) eqn:E; [apply Ascii.eqb_eq in E; subst c; exfalso; apply H; left; reflexivity|].
  apply IH. intros C. apply H. right. exact C.
Qed.
Lemma file_one_line files name text line c : names_file name text -> files (text ++ list_ascii_of_string ".dat") = Some (line ++ [c]) -> ~ In newline (line ++ [c]) ->
  ((exists d, digit c d) -> populate_coordinates (file_database files) name = Err EOddCoordinates) /\ (~ (exists d, digit c d) -> populate_coordinates (file_database files) name = Ok []).
Proof.
  intros [HP HN] Hf Hn. rewrite (plain_other _ name text HP HN). unfold file_database, file_name. rewrite Hf. unfold trimmed. rewrite (from_newline_none _ Hn), app_length. cbn [length].
  replace (length line + 1 - 1)%nat with (length line) by lia. rewrite skipn_app, skipn_all, Nat.sub_diag. cbn [app skipn]. unfold fromstring. cbn [length]. split.
  - intros (d & Hd). rewrite (table_read [c] [IZR (digits_value [digit_value c])]); [reflexivity | | cbn; lia].
    apply (table_more [] [c] _ [] []); [constructor | | left; reflexivity | constructor; constructor].
    exists [], 1, [c], (IZR (digits_value [digit_value c])), [], 1. split; [reflexivity|]. split; [constructor|]. split; [|split; [constructor | ring]].
    constructor; [discriminate|]. apply whole_iff. apply digit_iff in Hd. split; [constructor; [apply Hd | constructor] | reflexivity].
  - intros Hd. destruct (read_ends 1 [c] (le_n _)) as (l & El). rewrite El. destruct (read_sound _ _ _ El) as (b & junk & Eb & Hb).
    inversion Hb as [gap Hg E|gap t x rest l' Hg Ht Hr Hl E]; [reflexivity|]. exfalso. subst b.
    destruct Ht as (t1 & sg & t2 & v & t3 & p & -> & Hs & Hu & Hp & _). apply Hd.
    assert (ED : exists y d, In y t2 /\ digit y d).
    { assert (G : forall t, t <> [] -> alldigits t -> exists y d, In y t /\ digit y d) by (intros [|y t] N A; [congruence|]; inversion A; subst; exists y, (digit_value y); split; [left; reflexivity | apply digit_iff; auto]).
      destruct Hu as [t' v' N W|ta va tb vb N W D]; apply whole_iff in W; destruct W as [W _]; [exact (G _ N W)|]. apply decimals_iff in D. destruct D as [D _].
      destruct (G (ta ++ tb) N) as (y & d & Hy & Hyd); [apply Forall_app; auto|]. exists y, d. split; [|exact Hyd]. apply in_app_iff in Hy. apply in_app_iff. cbn. tauto. }
    destruct ED as (y & d & Hy & Hyd). exists d. assert (Hin : In y [c]) by (rewrite Eb; rewrite !in_app_iff; tauto). destruct Hin as [<-|[]]. exact Hyd.
Qed.
Lemma lower_not_capital c c' : lower_case c c' -> ~ In c' capitals.
Proof.
  intros [(i & H1 & H2)|[H ->]]; [|exact H]. apply nth_error_In in H2. revert H2. clear. intros H C. cbn in H.
  repeat (destruct H as [<-|H]; [cbn in C; repeat (destruct C as [C|C]; [discriminate C|]); exact C|]). exact H.
Qed.
Lemma file_capitals files files' name : (forall t, Forall (fun c => ~ In c capitals) t -> files t = files' t) ->
  populate_coordinates (file_database files) name = populate_coordinates (file_database files') name.
Proof.
  intros H. unfold populate_coordinates. destruct (naca_digits name) as [[[d1 d2] d3]|]; [reflexivity|]. destruct (plain_exists name) as (text & HP). rewrite <- (plain_stripped _ _ HP).
  unfold file_database, file_name. rewrite H; [reflexivity|]. apply Forall_app. split.
  - destruct HP as (b & m & a & _ & _ & _ & _ & _ & HL). clear -HL. induction HL as [|c c' m t Hc Ht IH]; constructor; [exact (lower_not_capital _ _ Hc) | exact IH].
  - repeat constructor; cbn; intros C; repeat (destruct C as [C|C]; [discriminate C|]); exact C.
Qed.

(** Writing *)
Lemma whole_exists n : exists t, t <> [] /\ whole_part t (INR n).
Proof.
  induction n as [n IH] using (well_founded_induction lt_wf).
  assert (G : forall d, (d < 10)%nat -> digit (ascii_of_nat (48 + d)) d) by (intros d Hd; split; [lia|]; rewrite nat_ascii_embedding; lia).
  destruct (Nat.lt_ge_cases n 10) as [Hn|Hn].
  - exists ([] ++ [ascii_of_nat (48 + n)]). split; [discriminate|]. replace (INR n) with (10 * 0 + INR n) by ring. apply whole_more; [constructor | apply G, Hn].
  - destruct (IH (n / 10)%nat) as (t & Ht & Hw); [apply Nat.div_lt; lia|]. exists (t ++ [ascii_of_nat (48 + n mod 10)]). split; [destruct t; discriminate|].
    replace (INR n) with (10 * INR (n / 10) + INR (n mod 10)); [apply whole_more; [exact Hw | apply G, Nat.mod_upper_bound; lia]|].
    rewrite (Nat.div_mod n 10) at 3 by lia. rewrite plus_INR, mult_INR. f_equal. f_equal. cbn. lra.
Qed.
Lemma spelled_exists n k : exists t, spelled t (IZR n / 10 ^ k).
Proof.
  destruct (whole_exists (Z.abs_nat n)) as (t & Ht & Hw). destruct (whole_exists k) as (t' & Ht' & Hw').
  assert (ES : exists t1 s, signed t1 s /\ IZR n = s * INR (Z.abs_nat n)).
  { rewrite INR_IZR_INZ, Zabs2Nat.id_abs, abs_IZR. destruct (Z.le_ge_cases 0 n) as [H|H].
    - exists [], 1. split; [constructor|]. rewrite Rabs_pos_eq by (apply (IZR_le 0), H). ring.
    - exists ["-"%char], (-1). split; [constructor|]. rewrite Rabs_left1 by (apply (IZR_le n 0), H). ring. }
  destruct ES as (t1 & s & Hs & En). exists (t1 ++ t ++ ("e"%char :: "-"%char :: t')). exists t1, s, t, (INR (Z.abs_nat n)), ("e"%char :: "-"%char :: t'), (/ 10 ^ k).
  split; [reflexivity|]. split; [exact Hs|]. split; [constructor; assumption|]. split; [constructor; [left; reflexivity | assumption | assumption]|]. rewrite En. reflexivity.
Qed.
Lemma table_exists l : Forall (fun x => exists n k, x = IZR n / 10 ^ k) l -> exists body, table body l.
Proof.
  assert (Hw : white newline) by (cbn; auto). intros H. enough (exists body, table body l /\ apart body) as (body & Hb & _) by eauto.
  induction H as [|x l (n & k & ->) Hl (rest & Hr & Ha)]; [exists []; split; [constructor; constructor | left; reflexivity]|].
  destruct (spelled_exists n k) as (t & Ht). exists ([newline] ++ t ++ rest). split; [apply table_more; auto | right; exists newline, (t ++ rest); auto].
Qed.
Lemma points_exist points : Forall (fun p => (exists n k, fst p = IZR n / 10 ^ k) /\ exists n k, snd p = IZR n / 10 ^ k) points -> exists body, table body (numbers_of points).
Proof.
  intros H. apply table_exists. induction H as [|p points [H1 H2] Hp IH]; [constructor|]. unfold numbers_of in *. cbn [map concat app]. constructor; [exact H1|]. constructor; [exact H2 | exact IH].
Qed.

(** The three files *)
Lemma named t : match naca_digits t with Some _ => False | None => True end -> forall files, populate_coordinates (file_database files) t =
  match file_database files (M_Airfoil.strip (map lower_char (list_ascii_of_string t))) with None => Err EAirfoilNotInDatabase | Some l => match pairs_of l with Some c => Ok c | None => Err EOddCoordinates end end.
Proof. intros H files. unfold populate_coordinates. destruct (naca_digits t); [destruct H | reflexivity]. Qed.
Lemma naca23015_odd files : files (list_ascii_of_string "naca23015.dat") = Some naca23015_file -> populate_coordinates (file_database files) "naca23015" = Err EOddCoordinates.
Proof.
  intros H. rewrite (named "naca23015" I). unfold file_database. match goal with |- context [files ?X] => change X with (list_ascii_of_string "naca23015.dat") end. rewrite H.
  lazy beta delta -[IZR powerRZ] iota match fix zeta. reflexivity.
Qed.
Lemma s1020_empty files : files (list_ascii_of_string "s1020.dat") = Some s1020_file -> populate_coordinates (file_database files) "s1020" = Ok [].
Proof.
  intros H. rewrite (named "s1020" I). unfold file_database. match goal with |- context [files ?X] => change X with (list_ascii_of_string "s1020.dat") end. rewrite H.
  lazy beta delta -[IZR powerRZ] iota match fix zeta. reflexivity.
Qed.
Lemma s1020_rejected pchip files r np : files (list_ascii_of_string "s1020.dat") = Some s1020_file -> exists e, new_airfoil pchip (file_database files) "s1020" None r np = Err e.
Proof. intros H. unfold new_airfoil. rewrite (s1020_empty files H). cbn [bind]. destruct r; cbn; eauto. Qed.
Lemma e850_numbers : match fromstring (trimmed e850_file) with Some (x :: y :: l) => x = 33 /\ y = 35 /\ Nat.Even (length l) | _ => False end.
Proof.
  lazy beta delta -[IZR powerRZ Nat.Even Rmult Rinv] iota match fix zeta.
  assert (T : powerRZ 10 (-1) = / 10) by (change (-1)%Z with (- Z.of_nat 1)%Z; rewrite powerRZ_opp_nat, pow_1; reflexivity).
  split; [rewrite T; lra|]. split; [rewrite T; lra|]. apply Nat.even_spec. reflexivity.
Qed.
Lemma e850_counts files : files (list_ascii_of_string "e850.dat") = Some e850_file -> exists rest, populate_coordinates (file_database files) "e850" = Ok ((33, 35) :: rest).
Proof.
  intros H. rewrite (named "e850" I). unfold file_database. match goal with |- context [files ?X] => change X with (list_ascii_of_string "e850.dat") end. rewrite H.
  pose proof e850_numbers as E. destruct (fromstring (trimmed e850_file)) as [[|x [|y l]]|]; try (destruct E; fail). destruct E as (-> & -> & HE). cbn [pairs_of].
  destruct (pairs_of_cases l) as [(c & ->)|[HO _]]; [rewrite pairs_of_numbers; cbn; eauto|]. exfalso. destruct HE as [a Ha], HO as [b Hb]. lia.
Qed.

(** A small file *)
Lemma spelled_by_reading t x y : strtod t = Some (x, []) -> x = y -> spelled t y.
Proof. intros H <-. destruct (strtod_sound _ _ _ H) as (u & E & Hu). rewrite app_nil_r in E. subst u. exact Hu. Qed.
Definition small_body : list ascii := list_ascii_of_string " 1.0 -.5
2e1	0.25
".
Lemma small_table : table small_body (numbers_of [(1, -1 / 2); (20, 1 / 4)]).
Proof.
  assert (W : white " "%char /\ white newline /\ white (ascii_of_nat 9)) by (repeat split; cbn; auto 10). destruct W as (W1 & W2 & W3).
  assert (P1 : powerRZ 10 (-1) = / 10) by (change (-1)%Z with (- Z.of_nat 1)%Z; rewrite powerRZ_opp_nat, pow_1; reflexivity).
  assert (P2 : powerRZ 10 (-2) = / 100) by (change (-2)%Z with (- Z.of_nat 2)%Z; rewrite powerRZ_opp_nat; cbn; apply f_equal; lra).
  assert (P3 : powerRZ 10 1 = 10) by (change 1%Z with (Z.of_nat 1)%Z; rewrite powerRZ_nat, pow_1; reflexivity).
  apply (table_more [" "%char] (list_ascii_of_string "1.0") 1 (list_ascii_of_string " -.5
2e1	0.25
")); [repeat constructor; assumption | | right; eexists _, _; split; [reflexivity | exact W1] |].
  { eapply spelled_by_reading; [reflexivity|]. change (IZR 10 * powerRZ 10 (-1) = 1). rewrite P1. lra. }
  apply (table_more [" "%char] (list_ascii_of_string "-.5") (-1 / 2) (list_ascii_of_string "
2e1	0.25
")); [repeat constructor; assumption | | right; eexists _, _; split; [reflexivity | exact W2] |].
  { eapply spelled_by_reading; [reflexivity|]. change (- (IZR 5 * powerRZ 10 (-1)) = -1 / 2). rewrite P1. lra. }
  apply (table_more [newline] (list_ascii_of_string "2e1") 20 (list_ascii_of_string "	0.25
")); [repeat constructor; assumption | | right; eexists _, _; split; [reflexivity | exact W3] |].
  { eapply spelled_by_reading; [reflexivity|]. change (IZR 2 * powerRZ 10 1 = 20). rewrite P3. lra. }
  apply (table_more [ascii_of_nat 9] (list_ascii_of_string "0.25") (1 / 4) [newline]); [repeat constructor; assumption | | right; eexists _, _; split; [reflexivity | exact W2] | constructor; repeat constructor; assumption].
  eapply spelled_by_reading; [reflexivity|]. change (IZR 25 * powerRZ 10 (-2) = 1 / 4). rewrite P2. lra.
Qed.
Lemma small_named : names_file " AG03" (list_ascii_of_string "ag03").
Proof.
  split.
  - destruct (plain_exists " AG03") as (t & Ht). rewrite (plain_stripped _ _ Ht) in Ht. exact Ht.
  - intros c1 c2 c3 c4 d1 d2 d3 d4 (b & r & (E & _) & _). exfalso. apply (f_equal (@List.length ascii)) in E as EL. rewrite !app_length in EL. cbn [List.length list_ascii_of_string] in EL.
    destruct b; [|cbn [List.length] in EL; lia]. discriminate E.
Qed.
Lemma small_headed : headed (list_ascii_of_string "flat plate" ++ newline :: small_body) (list_ascii_of_string "flat plate") small_body.
Proof. split; [reflexivity|]. intros C. repeat (destruct C as [C|C]; [discriminate C|]). exact C. Qed.
Lemma small_words : closed small_body /\ wordlike "s"%char.
Proof.
  split; [right; exists (removelast small_body), newline; split; [reflexivity | cbn; auto]|]. split; [apply not_white; reflexivity|]. split; [intros d Hd; apply digit_iff in Hd; destruct Hd; discriminate|].
  intros C. repeat (destruct C as [C|C]; [discriminate C|]). exact C.
Qed.

Lemma bad_files pchip files r np : files (list_ascii_of_string "naca23015.dat") = Some naca23015_file -> files (list_ascii_of_string "s1020.dat") = Some s1020_file -> files (list_ascii_of_string "e850.dat") = Some e850_file ->
  new_airfoil pchip (file_database files) "naca23015" None r np = Err EOddCoordinates /\ (exists e, new_airfoil pchip (file_database files) "s1020" None r np = Err e) /\
  exists rest, populate_coordinates (file_database files) "e850" = Ok ((33, 35) :: rest).
Proof.
  intros H1 H2 H3. split; [|split; [exact (s1020_rejected pchip files r np H2) | exact (e850_counts files H3)]]. unfold new_airfoil. rewrite (naca23015_odd files H1). reflexivity.
Qed.
