(** Movements without motion: every snapshot is the same. *)
From Coq Require Import List ZArith Lia Lra Reals.
From Verif Require Import M_Movement S_Geometry S_Wing S_Movement L_Base L_Loads L_Geometry L_Frames L_Movement L_Snapshots L_Problems.
Import ListNotations.
Local Open Scope R_scope.
Local Open Scope list_scope.

Definition constant (h : list section) : Prop := forall i j s t, nth_error h i = Some s -> nth_error h j = Some t -> same_section t s.
Lemma kept_both b s t : section_kept b s -> section_kept b t -> section_kept t s.
Proof. unfold section_kept. intuition congruence. Qed.
Lemma constant_sections m n dt last vertical span sweep heave h : generate_sections m n dt last vertical span sweep heave = Ok h -> length last = Z.to_nat n ->
  (forall i j l l', nth_error last i = Some l -> nth_error last j = Some l' -> l = l') -> section_unmoving m -> constant h.
Proof.
  intros HG HL H0 (U1 & U2 & U3) i j s t Hs Ht. apply generated_sections in HG; [|exact HL]. destruct HG as (_ & _ & sw & pi & he & E1 & E2 & E3 & HN).
  destruct (HN i s Hs) as (K1 & K2 & HNs). destruct (HN j t Ht) as (K3 & K4 & HNt). split; [exact (kept_both _ _ _ K1 K3)|]. split; [exact K2|]. destruct vertical.
  - destruct HNs as [-> ->]. destruct HNt as [-> ->]. auto.
  - destruct HNs as (l & a & b & c & F1 & F2 & F3 & F4 & -> & ->). destruct HNt as (l' & a' & b' & c' & G1 & G2 & G3 & G4 & -> & ->).
    rewrite (H0 _ _ _ _ F1 G1), (unmoving_values _ _ _ _ _ _ _ _ U1 E1 F2), (unmoving_values _ _ _ _ _ _ _ _ U1 E1 G2),
      (unmoving_values _ _ _ _ _ _ _ _ U2 E2 F3), (unmoving_values _ _ _ _ _ _ _ _ U2 E2 G3), (unmoving_values _ _ _ _ _ _ _ _ U3 E3 F4), (unmoving_values _ _ _ _ _ _ _ _ U3 E3 G4). auto.
Qed.
Lemma constant_outboard n dt ms : forall last hs, section_histories n dt (Some last) ms = Ok hs -> length last = Z.to_nat n -> constant last -> Forall section_unmoving ms -> Forall constant hs.
Proof.
  induction ms as [|m ms IH]; intros last hs H HL H0 HU; [apply Ok_eq in H; subst hs; constructor|].
  cbn [section_histories] in H. apply bind_Ok in H. destruct H as (h & EH & H). apply bind_Ok in H. destruct H as (rest & ER & H). apply Ok_eq in H. subst hs.
  cbn zeta in EH. apply bind_Ok in EH. destruct EH as (f & EI & EH). destruct (base_angles (cs_leading_edge (sm_base m)) f) as [[[span sweep] heave] vertical].
  assert (LE : length (map cs_leading_edge last) = Z.to_nat n) by (rewrite map_length; exact HL). apply Forall_cons_iff in HU. destruct HU as [H1 H2].
  assert (HH : constant h).
  { refine (constant_sections _ _ _ _ _ _ _ _ _ EH LE _ H1). intros i j l l' Hl Hl'. rewrite nth_error_map in Hl, Hl'. destruct (nth_error last i) as [s|] eqn:Es; [|discriminate Hl].
    destruct (nth_error last j) as [t|] eqn:Et; [|discriminate Hl']. apply Some_eq in Hl, Hl'. subst l l'. apply (H0 i j s t Es Et). }
  constructor; [exact HH|]. apply (IH h rest ER); [|exact HH | exact H2]. apply generated_sections in EH; [apply EH | exact LE].
Qed.
Lemma constant_histories n dt ms hs : section_histories n dt None ms = Ok hs -> Forall section_unmoving ms -> Forall constant hs.
Proof.
  intros H HU. destruct ms as [|m ms]; [apply Ok_eq in H; subst hs; constructor|].
  cbn [section_histories] in H. apply bind_Ok in H. destruct H as (h & EH & H). apply bind_Ok in H. destruct H as (rest & ER & H). apply Ok_eq in H. subst hs.
  apply bind_Ok in EH. destruct EH as (? & _ & EH). apply bind_Ok in EH. destruct EH as (k & Ek & EH). apply count_spec in Ek. destruct Ek as [_ Ek].
  apply Forall_cons_iff in HU. destruct HU as [H1 H2]. assert (LE : length (repeat vzero k) = Z.to_nat n) by (rewrite repeat_length; exact Ek).
  assert (HH : constant h).
  { refine (constant_sections _ _ _ _ _ _ _ _ _ EH LE _ H1). intros i j l l' Hl Hl'. apply nth_repeat_some in Hl, Hl'. congruence. }
  constructor; [exact HH|]. apply (constant_outboard n dt ms h rest ER); [|exact HH | exact H2]. apply generated_sections in EH; [apply EH | exact LE].
Qed.
Lemma unmoving_wings m n dt ws i j w v : generate_wings m n dt = Ok ws -> wing_unmoving m -> nth_error ws i = Some w -> nth_error ws j = Some v -> w = v.
Proof.
  intros H (U1 & U2 & U3 & U4) Hw Hv. destruct (generated_wings _ _ _ _ H) as (HL & _ & xs & ys & zs & hs & E1 & E2 & E3 & EH & HG).
  destruct (HG i w Hw) as (x & y & z & ss & F1 & F2 & F3 & EC & EW). destruct (HG j v Hv) as (x' & y' & z' & ss' & G1 & G2 & G3 & EC' & EW').
  rewrite (unmoving_value _ _ _ _ _ _ _ U2 E1 F1), (unmoving_value _ _ _ _ _ _ _ U3 E2 F2), (unmoving_value _ _ _ _ _ _ _ U4 E3 F3) in EW.
  rewrite (unmoving_value _ _ _ _ _ _ _ U2 E1 G1), (unmoving_value _ _ _ _ _ _ _ U3 E2 G2), (unmoving_value _ _ _ _ _ _ _ U4 E3 G3) in EW'.
  pose proof (constant_histories n dt _ hs EH U1) as HH.
  assert (HF : Forall2 (fun s b => cs_set_wing_chordwise default_unit_chordwise s = cs_set_wing_chordwise default_unit_chordwise b) ss ss').
  { apply column_spec in EC. apply column_spec in EC'. clear - HH EC EC'. revert ss ss' EC EC'. induction HH as [|h hs Hh HH IH]; intros ss ss' EC EC'; inversion EC as [|? s ? ss1 Hs EC1 X1 X2]; inversion EC' as [|? t ? ss2 Ht EC2 Y1 Y2]; subst; constructor; [|apply IH; assumption].
    pose proof (Hh _ _ _ _ Hs Ht) as HC. pose proof (Hh _ _ _ _ Ht Ht) as (_ & HR & _). apply same_section_set; [exact HC | exact HR]. }
  rewrite (new_wing_same _ _ _ _ _ _ _ _ _ _ _ HF) in EW. congruence.
Qed.
Lemma unmoving_airplanes m n dt l i j a b : generate_airplanes m n dt = Ok l -> airplane_unmoving m -> nth_error l i = Some a -> nth_error l j = Some b -> a = b.
Proof.
  intros H (U1 & U2 & U3 & U4) Ha Hb. destruct (generated_airplanes _ _ _ _ H) as (HL & _ & xs & ys & zs & hs & E1 & E2 & E3 & EH & HG).
  destruct (HG i a Ha) as (x & y & z & ws & F1 & F2 & F3 & EC & EW). destruct (HG j b Hb) as (x' & y' & z' & ws' & G1 & G2 & G3 & EC' & EW').
  rewrite (unmoving_value _ _ _ _ _ _ _ U2 E1 F1), (unmoving_value _ _ _ _ _ _ _ U3 E2 F2), (unmoving_value _ _ _ _ _ _ _ U4 E3 F3) in EW.
  rewrite (unmoving_value _ _ _ _ _ _ _ U2 E1 G1), (unmoving_value _ _ _ _ _ _ _ U3 E2 G2), (unmoving_value _ _ _ _ _ _ _ U4 E3 G3) in EW'.
  assert (ws = ws').
  { apply column_spec in EC. apply column_spec in EC'. apply mapM_Forall2 in EH. clear - U1 EH EC EC'. revert ws ws' EC EC' U1.
    induction EH as [|wm h wms hs Hh EH IH]; intros ws ws' EC EC' U1; inversion EC as [|? w ? ws1 Hw EC1 X1 X2]; inversion EC' as [|? v ? ws2 Hv EC2 Y1 Y2]; subst; [reflexivity|].
    apply Forall_cons_iff in U1. destruct U1 as [U0 U1]. f_equal; [eapply unmoving_wings; eassumption | apply IH; assumption]. }
  congruence.
Qed.
Lemma unmoving_operating_points m n dt l i j a b : generate_operating_points m n dt = Ok l -> unmoving (om_velocity m) -> nth_error l i = Some a -> nth_error l j = Some b -> a = b.
Proof.
  intros H HU Ha Hb. destruct (generated_operating_points _ _ _ _ H) as (_ & _ & vs & E & HN). destruct (HN i a Ha) as (v & Hv & ->). destruct (HN j b Hb) as (v' & Hv' & ->).
  rewrite (unmoving_value _ _ _ _ _ _ _ HU E Hv), (unmoving_value _ _ _ _ _ _ _ HU E Hv'). reflexivity.
Qed.
Lemma static_snapshots ams om s cy ch d m only up i j a b : new_movement ams om s cy ch d = Ok m -> new_unsteady_problem m only = Ok up ->
  Forall airplane_unmoving ams -> nth_error (up_steady_problems up) i = Some a -> nth_error (up_steady_problems up) j = Some b ->
  sp_airplanes a = sp_airplanes b /\ (unmoving (om_velocity om) -> a = b).
Proof.
  intros Hm Hup HU Ha Hb. destruct (movement_built _ _ _ _ _ _ _ Hm) as (_ & _ & _ & _ & EA & EO). destruct (unsteady_built _ _ _ Hup) as (_ & _ & _ & _ & _ & _ & _ & _ & _ & _ & _ & HL).
  destruct (HL i a Ha) as [A1 O1]. destruct (HL j b Hb) as [A2 O2]. apply mapM_Forall2 in EA.
  assert (E : sp_airplanes a = sp_airplanes b).
  { clear - HU EA A1 A2. revert A1 A2 HU. generalize (sp_airplanes a) (sp_airplanes b). induction EA as [|am h ams hs Hh EA IH]; intros la lb A1 A2 HU; inversion A1 as [|? x ? l1 Hx A1' X1 X2]; inversion A2 as [|? y ? l2 Hy A2' Y1 Y2]; subst; [reflexivity|].
    apply Forall_cons_iff in HU. destruct HU as [U0 U1]. f_equal; [eapply unmoving_airplanes; eassumption | apply IH; assumption]. }
  split; [exact E|]. intros U. pose proof (unmoving_operating_points _ _ _ _ _ _ _ _ EO U O1 O2) as E'. destruct a, b. cbn in *. congruence.
Qed.
(** Oscillations without period do not move. *)
Lemma no_periods ams om : (forall p, In p (all_periods ams om) -> p = 0) -> Forall airplane_unmoving ams /\ unmoving (om_velocity om).
Proof.
  intros H. split; [|right; apply H; unfold all_periods; apply in_or_app; right; left; reflexivity].
  apply Forall_forall. intros am Ham. assert (HA : forall p, In p (airplane_periods am) -> p = 0).
  { intros p Hp. apply H. unfold all_periods. apply in_or_app. left. apply in_concat. exists (airplane_periods am). split; [apply in_map; exact Ham | exact Hp]. }
  unfold airplane_periods in HA. split; [|repeat split; right; apply HA; apply in_or_app; right; cbn [In]; auto].
  apply Forall_forall. intros wm Hwm. assert (HW : forall p, In p (wing_periods wm) -> p = 0).
  { intros p Hp. apply HA. apply in_or_app. left. apply in_concat. exists (wing_periods wm). split; [apply in_map; exact Hwm | exact Hp]. }
  unfold wing_periods in HW. split; [|repeat split; right; apply HW; apply in_or_app; right; cbn [In]; auto].
  apply Forall_forall. intros sm Hsm. assert (HSm : forall p, In p (section_periods sm) -> p = 0).
  { intros p Hp. apply HW. apply in_or_app. left. apply in_concat. exists (section_periods sm). split; [apply in_map; exact Hsm | exact Hp]. }
  unfold section_periods in HSm. repeat split; right; apply HSm; cbn [In]; auto.
Qed.
