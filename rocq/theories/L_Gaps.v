(** Wings that are accepted although their mesh has gaps. *)
From Coq Require Import Lra Lia.
From Verif Require Import M_Geometry S_Geometry S_Loads S_Wing.
From Verif Require Import L_Base L_Functions L_Rotations L_Panel L_Loads L_Meshing L_Geometry L_Example.

(** A flat plate of chord 4 at spanwise position [y]. *)
Definition plate (y : R) (kind : string) (deflection : R) (columns : nat) : section :=
  mksection (flat_named "plate") 0 y 0 4 (mkvec 0 1 0) 0 kind (1 / 2) deflection columns "uniform" None.
Notation placed := (cs_set_wing_chordwise (mkvec 1 0 0)).

Definition bent (k : R) (name : string) : airfoil :=
  mkairfoil name [(1 / 2, k); (0, 0); (1 / 2, k)] [(0, 0); (1 / 2, k)] [(0, 0); (0, 0)] [(0, 0); (1 / 2, 0)] false 400.
Lemma with_mcl_bent k name : with_mcl name false 400 [(1 / 2, k); (0, 0); (1 / 2, k)] = Ok (bent k name).
Proof.
  unfold with_mcl, upper_coordinates, lower_coordinates, leading_edge_index, argmin. cbn [map fst argmin_from]. rdec. cbn [argmin_from]. rdec.
  cbn [argmin_from bind firstn skipn rev app broadcast length Nat.eqb map2]. unfold bent, pair_mean, pair_sub. cbn [fst snd map combine].
  replace ((0 - (0 + 0) / 2) ^ 2 + (0 - (0 + 0) / 2) ^ 2) with 0 by field.
  replace ((1 / 2 - (1 / 2 + 1 / 2) / 2) ^ 2 + (k - (k + k) / 2) ^ 2) with 0 by field.
  rewrite sqrt_0. repeat f_equal; field.
Qed.
Definition steep (d k : R) : Prop := (d = 90 /\ k = - (1 / 2)) \/ (d = - 90 /\ k = 1 / 2).
Lemma plate_bends d k name : steep d k -> add_control_surface (flat_named name) d (1 / 2) = Ok (bent k (append name " flapped")).
Proof.
  intros H. unfold add_control_surface.
  replace (Rltb 90 d) with false by (symmetry; apply Rltb_false; destruct H as [[-> _]|[-> _]]; lra).
  replace (Rltb d (-90)) with false by (symmetry; apply Rltb_false; destruct H as [[-> _]|[-> _]]; lra).
  cbn [orb negb check bind].
  unfold get_camber_at_chord_fraction, flat_named; cbn [af_mcl_coordinates af_upper_minus_mcl af_name interp1d bind first_index fst].
  rdec. cbn [bind]. etransitivity; [|apply with_mcl_bent]. f_equal.
  unfold flapped_mcl, flapped_umm, rot2, pair_add, pair_sub, radians. cbn [firstn skipn app map map2 rev fst snd tl].
  destruct H as [[-> ->]|[-> ->]].
  - replace (- (90) * (PI / 180)) with (- (PI / 2)) by field. rewrite sin_neg, cos_neg, cos_PI2, sin_PI2. repeat (f_equal; try field).
  - replace (- - 90 * (PI / 180)) with (PI / 2) by field. rewrite cos_PI2, sin_PI2. repeat (f_equal; try field).
Qed.
Lemma plate_stays name : add_control_surface (flat_named name) 0 (1 / 2) = Ok (flat_named (append name " flapped")).
Proof.
  unfold add_control_surface. rdec. cbn [orb negb check bind].
  unfold get_camber_at_chord_fraction, flat_named; cbn [af_mcl_coordinates af_upper_minus_mcl af_name interp1d bind first_index fst].
  rdec. cbn [bind]. etransitivity; [|apply with_mcl_flat]. f_equal.
  unfold flapped_mcl, flapped_umm, rot2, pair_add, pair_sub, radians.
  replace (- 0 * (PI / 180)) with 0 by lra.
  cbn [firstn skipn app map map2 rev fst snd tl]. rewrite ?Ropp_0, ?Rmult_0_l, ?sin_0, ?cos_0. unfold flat_coordinates.
  repeat (f_equal; try field).
Qed.
Lemma bent_resampled k : get_downsampled_mcl [0; 1] [(0, 0); (1 / 2, k)] = Ok [(0, 0); (1 / 2, k)].
Proof.
  unfold get_downsampled_mcl, arc_lengths, point_distance. cbn [tl map2 map cumsum_from last fst snd combine mapM].
  set (L := sqrt ((0 - 1 / 2) ^ 2 + (0 - k) ^ 2)). assert (HL : 0 < L) by (apply sqrt_lt_R0; nra).
  replace (0 / (0 + L)) with 0 by (field; lra). replace ((0 + L) / (0 + L)) with 1 by (field; lra).
  cbn [np_interp]. rdec. cbn [bind combine]. repeat (f_equal; try field).
Qed.
Lemma plate_back y kind d c : cs_unit_chordwise (placed (plate y kind d c)) = Ok (mkvec 1 0 0).
Proof. exact (ex_chordwise y). Qed.
Lemma plate_points y kind d c d' x z : (d' = 0 /\ x = 1 /\ z = 0) \/ (x = 1 / 2 /\ steep d' z) ->
  camber_points vzero [0; 1] (placed (plate y kind d c)) d' (1 / 2) = Ok [mkvec 0 y 0; mkvec (4 * x) y (4 * z)].
Proof.
  intros H. unfold camber_points, cs_unit_up. change (cs_airfoil (placed (plate y kind d c))) with (flat_named "plate"). rewrite plate_back.
  cbn [bind]. destruct H as [(-> & -> & ->)|(-> & H)].
  - rewrite plate_stays. cbn [bind af_mcl_coordinates flat_named]. rewrite flat_downsampled. cbn [bind map fst snd].
    unfold plate, cs_set_wing_chordwise, cs_leading_edge; cbn. repeat f_equal; vunfold; apply vec_ext; cbn; ring.
  - rewrite (plate_bends _ _ _ H). cbn [bind af_mcl_coordinates bent]. rewrite bent_resampled. cbn [bind map fst snd].
    unfold plate, cs_set_wing_chordwise, cs_leading_edge; cbn. repeat f_equal; vunfold; apply vec_ext; cbn; field.
Qed.
Lemma plate_takes y kind d c d' : d' = 0 \/ (exists z, steep d' z) -> takes_flap (plate y kind d c) d' (1 / 2).
Proof.
  intros [->|[z H]]; eexists.
  - exact (plate_stays "plate").
  - exact (plate_bends _ _ "plate" H).
Qed.
Lemma plate_rules l sp : (2 <= length l)%nat -> sp = "uniform"%string ->
  (forall s, In s l -> exists y k d c, s = plate y k d c) ->
  (forall root, nth_error l 0 = Some root -> exists k d c, root = plate 0 k d c) ->
  all_hold (wing_rules l sp (mkvec 0 1 0) (mkvec 1 0 0)).
Proof.
  intros HL -> HS HR. unfold wing_rules. rewrite !all_hold_cons. repeat split.
  - exact HL.
  - right; left; reflexivity.
  - intros root Hr. destruct (HR root Hr) as (k & d & c & ->). reflexivity.
  - intros root Hr. destruct (HR root Hr) as (k & d & c & ->). reflexivity.
  - vunfold; ring.
  - intros s Hs. destruct (HS s Hs) as (y & k & d & c & ->). vunfold; cbn; ring.
  - intros P e [].
Qed.
Lemma y_nonzero : mkvec 0 1 0 <> vzero.
Proof. intros [=]. lra. Qed.

(** A strip between two plates. *)
Lemma interp_ends A B : interp_between_points A B [0; 1] = map2 (fun a b => [a; b]) A B.
Proof.
  unfold interp_between_points. revert B; induction A as [|a A IH]; intros [|b B]; cbn [map2]; try reflexivity.
  rewrite IH. f_equal. cbn [map]. f_equal; [|f_equal]; vring.
Qed.
Lemma plate_strip sym y0 k0 d0 y1 k1 d1 c1 d' x z m :
  (d' = 0 /\ x = 1 /\ z = 0) \/ (x = 1 / 2 /\ steep d' z) ->
  strip (ex_spec sym) (placed (plate y0 k0 d0 1)) (placed (plate y1 k1 d1 c1)) d' = Ok m ->
  m = [[new_panel (mkvec 0 y1 0) (mkvec 0 y0 0) (mkvec (4 * x) y0 (4 * z)) (mkvec (4 * x) y1 (4 * z)) true true]].
Proof.
  intros H HS. apply strip_camber in HS. destruct HS as (P & Q & HP & HQ & ->).
  unfold fractions in *; cbn [ex_spec ms_leading_edge ms_chordwise_spacing ms_num_chordwise] in *. rewrite uniform_2 in *.
  change (cs_control_surface_hinge_point (placed (plate y0 k0 d0 1))) with (1 / 2) in *.
  rewrite (plate_points _ _ _ _ _ _ _ H) in HP. rewrite (plate_points _ _ _ _ _ _ _ H) in HQ. injection HP as <-. injection HQ as <-.
  change (cs_spanwise_spacing (placed (plate y0 k0 d0 1))) with "uniform"%string. change (cs_num_spanwise_panels (placed (plate y0 k0 d0 1))) with 1%nat.
  rewrite uniform_2, interp_ends. reflexivity.
Qed.
Lemma plate_strip_empty sym y0 k0 d0 y1 k1 d1 c1 x z d' m :
  (d' = 0 /\ x = 1 /\ z = 0) \/ (x = 1 / 2 /\ steep d' z) ->
  strip (ex_spec sym) (placed (plate y0 k0 d0 0)) (placed (plate y1 k1 d1 c1)) d' = Ok m -> m = [[]].
Proof.
  intros H HS. apply strip_camber in HS. destruct HS as (P & Q & HP & HQ & ->).
  unfold fractions in *; cbn [ex_spec ms_leading_edge ms_chordwise_spacing ms_num_chordwise] in *. rewrite uniform_2 in *.
  change (cs_control_surface_hinge_point (placed (plate y0 k0 d0 0))) with (1 / 2) in *.
  rewrite (plate_points _ _ _ _ _ _ _ H) in HP. rewrite (plate_points _ _ _ _ _ _ _ H) in HQ. injection HP as <-. injection HQ as <-. reflexivity.
Qed.

Ltac plates := repeat match goal with
  | H : In _ (_ :: _) |- _ => destruct H as [<-|H] | H : In _ [] |- _ => destruct H
  | |- exists _, _ => eexists end; try reflexivity.
Ltac no_more H := exfalso; cbn in H; destruct H.

(** Different deflections on either side of a section. *)
Lemma gap_at_deflection : exists sections w,
  new_wing sections "wing" 0 0 0 (mkvec 0 1 0) false (mkvec 1 0 0) 1 "uniform" = Ok w /\
  (forall s, In s sections -> (1 <= cs_num_spanwise_panels s)%nat) /\ ~ spanwise_watertight (w_panels w).
Proof.
  set (l := [plate 0 "symmetric" 90 1; plate 1 "symmetric" 0 1; plate 2 "symmetric" 0 1]).
  assert (H90 : steep 90 (- (1 / 2))) by (left; auto).
  assert (HC : exists w, new_wing l "wing" 0 0 0 (mkvec 0 1 0) false (mkvec 1 0 0) 1 "uniform" = Ok w).
  { apply wing_created_iff; [exact y_nonzero|]. split.
    - apply plate_rules; [cbn; lia | reflexivity | | intros root [= <-]; plates]. intros s Hs. unfold l in Hs. plates.
    - split; [lia|]. intros i o Hio. unfold l, adjacent in Hio. cbn in Hio. 
      destruct Hio as [[= <- <-]|[[= <- <-]|[]]]; cbn [cs_control_surface_deflection cs_control_surface_hinge_point plate];
        (split; [|split; [|discriminate]]); apply plate_takes; eauto. }
  destruct HC as [w Hw]. exists l, w. split; [exact Hw|]. split; [intros s Hs; unfold l in Hs; plates; cbn; lia|].
  apply wing_mesh in Hw. destruct Hw as (m0 & HL & ->). cbn [w_panels w_sections] in *.
  destruct HL as (rights & lefts & HR & _ & -> & ->). cbn [ms_num_chordwise] in *.
  unfold l in HR. cbn [map] in HR. change (mkmesh (mkvec 0 0 0) (mkvec 0 1 0) false 1 "uniform") with (ex_spec false) in *.
  apply strips_cons in HR. destruct HR as (m1 & ms1 & -> & H1 & HR). apply strips_cons in HR. destruct HR as (m2 & ms2 & -> & H2 & HR).
  inversion HR; subst ms2.
  apply (plate_strip _ _ _ _ _ _ _ _ _ (1 / 2) (- (1 / 2))) in H1; [|right; auto]. apply (plate_strip _ _ _ _ _ _ _ _ _ 1 0) in H2; [|left; auto]. subst m1 m2.
  intros HW. specialize (HW 0%nat 0%nat). cbn in HW. edestruct HW as [_ HW']; [eexists; split; reflexivity | eexists; split; reflexivity|].
  cbn in HW'. injection HW' as E1 E2. lra.
Qed.
(** An asymmetric control surface at the root of a symmetric wing. *)
Lemma gap_at_root : exists sections w,
  new_wing sections "wing" 0 0 0 (mkvec 0 1 0) true (mkvec 1 0 0) 1 "uniform" = Ok w /\ length sections = 2%nat /\
  (forall s, In s sections -> (1 <= cs_num_spanwise_panels s)%nat) /\ ~ spanwise_watertight (w_panels w).
Proof.
  set (l := [plate 0 "asymmetric" 90 1; plate 1 "asymmetric" 90 1]).
  assert (H90 : steep 90 (- (1 / 2))) by (left; auto). assert (H90' : steep (- (90)) (1 / 2)) by (right; split; lra).
  assert (HC : exists w, new_wing l "wing" 0 0 0 (mkvec 0 1 0) true (mkvec 1 0 0) 1 "uniform" = Ok w).
  { apply wing_created_iff; [exact y_nonzero|]. split.
    - apply plate_rules; [cbn; lia | reflexivity | | intros root [= <-]; plates]. intros s Hs. unfold l in Hs. plates.
    - split; [lia|]. intros i o Hio. unfold l, adjacent in Hio. cbn in Hio.
      destruct Hio as [[= <- <-]|[]]; cbn [cs_control_surface_deflection cs_control_surface_hinge_point cs_num_spanwise_panels plate].
      change (port_deflection (plate 0 "asymmetric" 90 1)) with (- (90)).
      (split; [|split; [|intros _; split; [lia|split]]]); apply plate_takes; eauto. }
  destruct HC as [w Hw]. exists l, w. split; [exact Hw|]. split; [reflexivity|]. split; [intros s Hs; unfold l in Hs; plates; cbn; lia|].
  apply wing_mesh in Hw. destruct Hw as (m0 & HL & ->). cbn [w_panels w_sections] in *.
  destruct HL as (rights & lefts & HR & _ & [HL _] & ->). cbn [ms_num_chordwise] in *.
  unfold l in HR, HL. cbn [map] in HR, HL. change (mkmesh (mkvec 0 0 0) (mkvec 0 1 0) true 1 "uniform") with (ex_spec true) in *.
  apply strips_cons in HR. destruct HR as (m1 & ms1 & -> & H1 & HR). inversion HR; subst ms1.
  apply strips_cons in HL. destruct HL as (m2 & ms2 & -> & H2 & HL). inversion HL; subst ms2.
  apply (plate_strip _ _ _ _ _ _ _ _ _ (1 / 2) (- (1 / 2))) in H1; [|right; auto].
  apply (plate_strip _ _ _ _ _ _ _ _ _ (1 / 2) (1 / 2)) in H2; [|right; split; [reflexivity | exact H90']]. subst m1 m2.
  intros HW. specialize (HW 0%nat 0%nat). cbn in HW. edestruct HW as [_ HW']; [eexists; split; reflexivity | eexists; split; reflexivity|].
  cbn in HW'. unfold reflect in HW'. rewrite reflect_is_mirror in HW'. unfold mirror in HW'. cbn in HW'. vunfold. injection HW' as E1 E2 E3. lra.
Qed.
(** A section without spanwise panels inside a wing. *)
Lemma gap_at_empty_section : exists sections w,
  new_wing sections "wing" 0 0 0 (mkvec 0 1 0) false (mkvec 1 0 0) 1 "uniform" = Ok w /\
  (forall s, In s sections -> cs_control_surface_deflection s = 0) /\ ~ spanwise_watertight (w_panels w).
Proof.
  set (l := [plate 0 "symmetric" 0 1; plate 1 "symmetric" 0 0; plate 2 "symmetric" 0 1; plate 3 "symmetric" 0 1]).
  assert (HC : exists w, new_wing l "wing" 0 0 0 (mkvec 0 1 0) false (mkvec 1 0 0) 1 "uniform" = Ok w).
  { apply wing_created_iff; [exact y_nonzero|]. split.
    - apply plate_rules; [cbn; lia | reflexivity | | intros root [= <-]; plates]. intros s Hs. unfold l in Hs. plates.
    - split; [lia|]. intros i o Hio. unfold l, adjacent in Hio. cbn in Hio. 
      destruct Hio as [[= <- <-]|[[= <- <-]|[[= <- <-]|[]]]]; cbn [cs_control_surface_deflection cs_control_surface_hinge_point plate];
        (split; [|split; [|discriminate]]); apply plate_takes; eauto. }
  destruct HC as [w Hw]. exists l, w. split; [exact Hw|]. split; [intros s Hs; unfold l in Hs; plates|].
  apply wing_mesh in Hw. destruct Hw as (m0 & HL & ->). cbn [w_panels w_sections] in *.
  destruct HL as (rights & lefts & HR & _ & -> & ->). cbn [ms_num_chordwise] in *.
  unfold l in HR. cbn [map] in HR. change (mkmesh (mkvec 0 0 0) (mkvec 0 1 0) false 1 "uniform") with (ex_spec false) in *.
  apply strips_cons in HR. destruct HR as (m1 & ms1 & -> & H1 & HR). apply strips_cons in HR. destruct HR as (m2 & ms2 & -> & H2 & HR).
  apply strips_cons in HR. destruct HR as (m3 & ms3 & -> & H3 & HR). inversion HR; subst ms3.
  apply (plate_strip _ _ _ _ _ _ _ _ _ 1 0) in H1; [|left; auto]. apply (plate_strip_empty _ _ _ _ _ _ _ _ 1 0) in H2; [|left; auto].
  apply (plate_strip _ _ _ _ _ _ _ _ _ 1 0) in H3; [|left; auto]. subst m1 m2 m3.
  intros HW. specialize (HW 0%nat 0%nat). cbn in HW. edestruct HW as [HW' _]; [eexists; split; reflexivity | eexists; split; reflexivity|].
  cbn in HW'. injection HW' as E1. lra.
Qed.
