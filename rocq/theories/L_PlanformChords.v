(** Mean chords of wings built from repanelled sections without twist. *)
From Coq Require Import Lra Lia Psatz.
From Verif Require Import M_Geometry S_Geometry S_Airfoil S_Wing S_Planform L_Base L_Functions L_Panel L_Airfoil L_Camber L_Surface L_Meshing L_Geometry L_Chord L_Loads L_Tighten L_Planform L_PlanformWing.
Local Open Scope R_scope.

Lemma repanelled_line pchip database name coordinates np a : (2 <= np)%nat -> new_airfoil pchip database name coordinates true np = Ok a ->
  balanced np (af_coordinates a) /\ map fst (af_mcl_coordinates a) = cosspace 0 1 np true.
Proof.
  intros Hn H. pose proof (repanelled_balanced _ _ _ _ _ _ Hn H) as HB. split; [exact HB|].
  assert (E : exists c, new_airfoil pchip database name (Some c) true np = Ok a).
  { destruct coordinates as [c|]; [exists c; exact H|]. unfold new_airfoil in H. apply bind_Ok in H. destruct H as (c & _ & H). exists c. exact H. }
  destruct E as (c & E). destruct (contour_repanelled pchip database name c np a ltac:(lia) E) as (i & le & up & lo & _ & _ & _ & _ & _ & _ & HS).
  destruct (camber_line_of_contour _ _ _ _ _ _ _ _ E HB) as (HL & _ & HC).
  apply nth_error_ext. intros k. rewrite nth_error_map. destruct (nth_error (cosspace 0 1 np true) k) as [x|] eqn:Ex.
  - assert (Hk : (k < np)%nat) by (rewrite <- (cosspace_length 0 1 np true); apply nth_error_Some; congruence).
    destruct (HC k _ _ Hk (HS k x Ex)) as [-> _]. cbn [option_map]. f_equal. unfold mid2. cbn [fst]. field.
  - assert (np <= k)%nat by (rewrite <- (cosspace_length 0 1 np true); apply nth_error_None; exact Ex). assert (nth_error (af_mcl_coordinates a) k = None) as -> by (apply nth_error_None; lia). reflexivity.
Qed.
Lemma plain_open s : plain s -> lies_open s /\ seen_chord s = cs_chord s.
Proof.
  intros (Ht & Hc & pchip & db & name & co & np & Hn & E). destruct (repanelled_line _ _ _ _ _ _ Hn E) as [HB HX]. set (line := af_mcl_coordinates (cs_airfoil s)) in *.
  assert (BX : forall p, back s p = fst p) by (intros p; unfold back; rewrite Ht; replace (0 * PI / 180) with 0 by field; rewrite cos_0, sin_0; ring).
  assert (LX : length line = np) by (rewrite <- (map_length fst), HX; apply cosspace_length).
  assert (SI : forall k p q, nth_error line k = Some p -> nth_error line (S k) = Some q -> fst p < fst q).
  { intros k p q H1 H2. apply (cosspace_increasing 0 1 np true ltac:(lra) k (S k)); [lia| |]; rewrite <- HX, nth_error_map; [rewrite H1|rewrite H2]; reflexivity. }
  assert (Nl : line <> []) by (intros El; rewrite El in LX; cbn in LX; lia).
  split.
  - split; [exists pchip, db, name, co, true, np, np; split; assumption|]. fold line. cbv zeta. split; [exact Hc|]. split; [lia|]. split.
    + intros k p q H1 H2 Epq. pose proof (SI _ _ _ H1 H2). subst q. lra.
    + intros k p q H1 H2. rewrite !BX. left. exact (SI _ _ _ H1 H2).
  - unfold seen_chord. fold line. cbv zeta. rewrite !BX.
    assert (F0 : fst (hd (0, 0) line) = 0). { pose proof (hd_nth line (0, 0) Nl) as h. apply (map_nth_error fst) in h. rewrite HX, cosspace_first in h by lia. injection h as h. symmetry. exact h. }
    assert (F1 : fst (last line (0, 0)) = 1). { pose proof (last_nth line (0, 0) Nl) as h. apply (map_nth_error fst) in h. rewrite HX, LX in h. rewrite cosspace_last in h by lia. injection h as h. symmetry. exact h. }
    rewrite F0, F1. ring.
Qed.

(** ** The area, the span and the two mean chords *)

(** ** Sums over the bays between sections: span, area and the integral of the squared chord *)
Definition bay_span (l : list (R * (R * R))) : R := rsum (map (fun e => fst e) l).
Definition bay_area (l : list (R * (R * R))) : R := rsum (map (fun e => fst e * (fst (snd e) + snd (snd e)) / 2) l).
Definition bay_square (l : list (R * (R * R))) : R := rsum (map (fun e => fst e * (fst (snd e) ^ 2 + fst (snd e) * snd (snd e) + snd (snd e) ^ 2) / 3) l).
Lemma bays_bounded lo hi l : 0 <= lo -> (forall e, In e l -> 0 <= fst e /\ lo <= fst (snd e) <= hi /\ lo <= snd (snd e) <= hi) ->
  0 <= bay_span l /\ lo * bay_span l <= bay_area l <= hi * bay_span l /\ bay_square l <= hi * bay_area l /\
  forall x, 0 <= bay_square l - 2 * x * bay_area l + x * x * bay_span l.
Proof.
  intros H0. unfold bay_span, bay_area, bay_square. induction l as [|[b [r t]] l IH]; intros H.
  - cbn [map]. rewrite !rsum_nil. repeat split; intros; lra.
  - destruct (H _ (or_introl eq_refl)) as (Hb & Hr & Ht). cbn [fst snd] in Hb, Hr, Ht.
    destruct (IH (fun e He => H e (or_intror He))) as (I1 & (I2 & I3) & I4 & I5). cbn [map fst snd]. rewrite !rsum_cons.
    set (B := rsum (map _ l)) in *. set (A := rsum (map _ l)) in *. set (Q := rsum (map _ l)) in *.
    assert (lo * b <= b * (r + t) / 2 <= hi * b) by nra.
    assert (b * (r ^ 2 + r * t + t ^ 2) / 3 <= hi * (b * (r + t) / 2)). { replace (hi * (b * (r + t) / 2)) with (b * (hi * (r + t) / 2)) by field. replace (b * (r ^ 2 + r * t + t ^ 2) / 3) with (b * ((r ^ 2 + r * t + t ^ 2) / 3)) by field. apply Rmult_le_compat_l; [exact Hb|]. nra. }
    split; [lra|]. split; [lra|]. split; [lra|]. intros x. specialize (I5 x).
    assert (0 <= b * ((r ^ 2 + r * t + t ^ 2) / 3 - x * (r + t) + x * x)). { apply Rmult_le_pos; [exact Hb|]. assert (0 <= (r - t) ^ 2) by apply pow2_ge_0. assert (0 <= ((r + t) / 2 - x) ^ 2) by apply pow2_ge_0. nra. }
    lra.
Qed.
Lemma mean_chords lo hi l : 0 < lo -> (forall e, In e l -> 0 <= fst e /\ lo <= fst (snd e) <= hi /\ lo <= snd (snd e) <= hi) -> 0 < bay_span l ->
  0 < bay_area l /\ lo <= bay_area l / bay_span l <= bay_square l / bay_area l /\ bay_square l / bay_area l <= hi.
Proof.
  intros H0 H HB. destruct (bays_bounded lo hi l ltac:(lra) H) as (_ & (I2 & _) & I4 & I5). assert (HA : 0 < bay_area l) by nra. split; [exact HA|].
  assert (E : forall a b c, 0 < b -> a <= c * b -> a / b <= c). { intros a b c h1 h2. apply (Rmult_le_reg_r b); [exact h1|]. replace (a / b * b) with a by (field; lra). exact h2. }
  assert (E' : forall a b c, 0 < b -> c * b <= a -> c <= a / b). { intros a b c h1 h2. apply (Rmult_le_reg_r b); [exact h1|]. replace (a / b * b) with a by (field; lra). exact h2. }
  split; [split; [apply E'; assumption|]|apply E; assumption].
  specialize (I5 (bay_area l / bay_span l)). apply E'; [exact HA|].
  replace (bay_area l / bay_span l * bay_area l) with (2 * (bay_area l / bay_span l) * bay_area l - bay_area l / bay_span l * (bay_area l / bay_span l) * bay_span l) by (field; lra). lra.
Qed.

(** ** The wing *)
Definition bays (n : vec) (sections : list section) : list (R * (R * R)) := map (fun io => (reach n io, (cs_chord (fst io), cs_chord (snd io)))) (adjacent sections).
Lemma planform_sums sections name x y z n sym c nc sp w : new_wing sections name x y z n sym c nc sp = Ok w -> vnorm n = 1 -> vnorm c = 1 ->
  (forall s, In s sections -> plain s /\ cs_unit_normal s = n) ->
  (forall s, In s (removelast sections) -> cs_control_surface_deflection s = 0 /\ (1 <= cs_num_spanwise_panels s)%nat) ->
  outward n sections ->
  let k := if sym then 2 else 1 in
  w_span w = k * bay_span (bays n sections) /\ w_projected_area w = k * bay_area (bays n sections) /\
  w_mean_aerodynamic_chord w = k * bay_square (bays n sections) / w_projected_area w.
Proof.
  intros H Hn Hc HS HA HO k.
  assert (EP : w_projected_area w = k * bay_area (bays n sections)).
  { rewrite (planform_area _ _ _ _ _ _ _ _ _ _ _ H Hn Hc (fun s Hs => conj (proj1 (plain_open s (proj1 (HS s Hs)))) (proj2 (HS s Hs))) HA). fold k. f_equal.
    unfold bay_area, bays. rewrite map_map. apply rsum_ext_in || f_equal. apply map_ext_in. intros [i o] Hin. destruct (adjacent_in _ _ _ Hin) as (_ & Hi & Ho). cbn [fst snd]. unfold trapezoid, reach. cbn [fst snd].
    rewrite Rabs_pos_eq by (exact (HO i o Hin)). rewrite (proj2 (plain_open i (proj1 (HS i Hi)))), (proj2 (plain_open o (proj1 (HS o Ho)))). reflexivity. }
  destruct (wing_mesh _ _ _ _ _ _ _ _ _ _ _ H) as (m0 & _ & Ew). destruct sections as [|root l]; [discriminate H|].
  destruct (outward_sum n l root Hn HO) as [S1 S2].
  assert (R1 : rsum (map (fun p => vnorm (vscale (vdot (vsub (cs_leading_edge (snd p)) (cs_leading_edge (fst p))) n) n)) (adjacent (root :: l))) = bay_span (bays n (root :: l))).
  { unfold bay_span, bays. rewrite map_map. f_equal. apply map_ext_in. intros [i o] Hin. cbn [fst snd]. unfold reach. cbn [fst snd]. rewrite scaled_normal_norm by exact Hn. apply Rabs_pos_eq. exact (HO i o Hin). }
  split; [|split; [exact EP|]].
  - rewrite R1 in S1. rewrite S1. unfold w_span. rewrite Ew. cbn [w_sections w_unit_normal w_symmetric]. rewrite map_length. cbn [length]. rewrite Nat.sub_succ, Nat.sub_0_r.
    assert (NL : forall j, nth_leading_edge (map (cs_set_wing_chordwise c) (root :: l)) j = nth_leading_edge (root :: l) j).
    { intros j. unfold nth_leading_edge. rewrite nth_error_map. destruct (nth_error (root :: l) j); reflexivity. }
    rewrite !NL. change (nth_leading_edge (root :: l) 0) with (cs_leading_edge root). rewrite scaled_normal_norm, Rabs_pos_eq by assumption. unfold k. destruct sym; ring.
  - unfold w_mean_aerodynamic_chord.
    assert (EI : rsum (map2 (mac_term (w_unit_normal w)) (w_sections w) (tl (w_sections w))) = bay_square (bays n (root :: l))).
    { assert (W1 : w_unit_normal w = n) by (rewrite Ew; reflexivity). assert (W2 : w_sections w = map (cs_set_wing_chordwise c) (root :: l)) by (rewrite Ew; reflexivity).
      rewrite W1, W2, map2_combine. change (combine ?a (tl ?a)) with (adjacent a). rewrite adjacent_map, map_map.
      unfold bay_square, bays. rewrite map_map. f_equal. apply map_ext_in. intros [i o] Hin. cbn [fst snd]. unfold mac_term, reach. cbn [fst snd].
      change (cs_leading_edge (cs_set_wing_chordwise c i)) with (cs_leading_edge i). change (cs_leading_edge (cs_set_wing_chordwise c o)) with (cs_leading_edge o).
      rewrite scaled_normal_norm, Rabs_pos_eq by (exact Hn || exact (HO i o Hin)). reflexivity. }
    rewrite EI. assert (W3 : w_symmetric w = sym) by (rewrite Ew; reflexivity). rewrite W3. unfold k. destruct sym; [reflexivity|]. unfold Rdiv. ring.
Qed.

Lemma mean_chords_ordered sections name x y z n sym c nc sp w lo hi : new_wing sections name x y z n sym c nc sp = Ok w -> vnorm n = 1 -> vnorm c = 1 ->
  (forall s, In s sections -> plain s /\ cs_unit_normal s = n) ->
  (forall s, In s (removelast sections) -> cs_control_surface_deflection s = 0 /\ (1 <= cs_num_spanwise_panels s)%nat) ->
  outward n sections -> 0 < lo -> (forall s, In s sections -> lo <= cs_chord s <= hi) -> w_span w <> 0 ->
  lo <= w_standard_mean_chord w <= w_mean_aerodynamic_chord w /\ w_mean_aerodynamic_chord w <= hi.
Proof.
  intros H Hn Hc HS HA HO Hlo Hch Hs. destruct (planform_sums _ _ _ _ _ _ _ _ _ _ _ H Hn Hc HS HA HO) as (E1 & E2 & E3). set (k := if sym then 2 else 1) in *. assert (Hk : 0 < k) by (unfold k; destruct sym; lra).
  assert (HB : forall e, In e (bays n sections) -> 0 <= fst e /\ lo <= fst (snd e) <= hi /\ lo <= snd (snd e) <= hi).
  { intros e He. apply in_map_iff in He. destruct He as ([i o] & <- & Hin). cbn [fst snd]. destruct (adjacent_in _ _ _ Hin) as (_ & Hi & Ho). split; [exact (HO i o Hin)|]. split; apply Hch; assumption. }
  assert (P : 0 < bay_span (bays n sections)). { destruct (bays_bounded lo hi _ ltac:(lra) HB) as [B0 _]. destruct B0 as [B0|B0]; [exact B0|]. exfalso. apply Hs. rewrite E1, <- B0. ring. }
  destruct (mean_chords lo hi _ Hlo HB P) as (PA & M1 & M2). unfold w_standard_mean_chord. rewrite E3, E2, E1.
  replace (k * bay_area (bays n sections) / (k * bay_span (bays n sections))) with (bay_area (bays n sections) / bay_span (bays n sections)) by (field; lra).
  replace (k * bay_square (bays n sections) / (k * bay_area (bays n sections))) with (bay_square (bays n sections) / bay_area (bays n sections)) by (field; lra).
  split; assumption.
Qed.
Lemma rectangular_wing sections name x y z n sym c nc sp w chord : new_wing sections name x y z n sym c nc sp = Ok w -> vnorm n = 1 -> vnorm c = 1 ->
  (forall s, In s sections -> plain s /\ cs_unit_normal s = n) ->
  (forall s, In s (removelast sections) -> cs_control_surface_deflection s = 0 /\ (1 <= cs_num_spanwise_panels s)%nat) ->
  outward n sections -> 0 < chord -> (forall s, In s sections -> cs_chord s = chord) -> w_span w <> 0 ->
  w_projected_area w = chord * w_span w /\ w_standard_mean_chord w = chord /\ w_mean_aerodynamic_chord w = chord.
Proof.
  intros H Hn Hc HS HA HO Hlo Hch Hs. assert (B : forall s, In s sections -> chord <= cs_chord s <= chord) by (intros s Hi; rewrite (Hch s Hi); lra).
  destruct (mean_chords_ordered _ _ _ _ _ _ _ _ _ _ _ _ _ H Hn Hc HS HA HO Hlo B Hs) as [[M1 M2] M3].
  assert (M : w_standard_mean_chord w = chord) by lra. split; [|split; lra]. rewrite <- (smc_times_span w Hs), M. reflexivity.
Qed.
Lemma tapered_wing root tip name x y z n sym c nc sp w : new_wing [root; tip] name x y z n sym c nc sp = Ok w -> vnorm n = 1 -> vnorm c = 1 ->
  plain root -> plain tip -> cs_unit_normal root = n -> cs_unit_normal tip = n ->
  cs_control_surface_deflection root = 0 -> (1 <= cs_num_spanwise_panels root)%nat -> 0 < reach n (root, tip) -> 0 < cs_chord root + cs_chord tip ->
  let r := cs_chord root in let t := cs_chord tip in
  w_projected_area w = w_span w * (r + t) / 2 /\ w_standard_mean_chord w = (r + t) / 2 /\
  w_mean_aerodynamic_chord w = 2 / 3 * (r + t - r * t / (r + t)).
Proof.
  intros H Hn Hc P1 P2 N1 N2 D K HR HT r t.
  assert (HS : forall s, In s [root; tip] -> plain s /\ cs_unit_normal s = n) by (intros s [<-|[<-|[]]]; split; assumption).
  assert (HA : forall s, In s (removelast [root; tip]) -> cs_control_surface_deflection s = 0 /\ (1 <= cs_num_spanwise_panels s)%nat) by (intros s [<-|[]]; split; assumption).
  assert (HO : outward n [root; tip]). { intros i o [E|[]]. injection E as <- <-. left. exact HR. }
  destruct (planform_sums _ _ _ _ _ _ _ _ _ _ _ H Hn Hc HS HA HO) as (E1 & E2 & E3). set (k := if sym then 2 else 1) in *. assert (Hk : 0 < k) by (unfold k; destruct sym; lra).
  unfold bays, bay_span, bay_area, bay_square in *. cbn [adjacent combine tl map fst snd] in E1, E2, E3. rewrite !rsum_cons, !rsum_nil in E1, E2, E3. set (b := reach n (root, tip)) in *. fold r t in E2, E3, HT.
  unfold w_standard_mean_chord. rewrite E3, E2, E1. split; [field|]. split; field; repeat split; lra.
Qed.
