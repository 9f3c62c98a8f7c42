(** Movements placed elsewhere or listed in another order give unsteady problems that are images of one another. *)
From Coq Require Import String List ZArith Lia Lra Reals Bool Permutation.
From Verif Require Import M_Unsteady S_Solve S_Geometry S_Vortices S_Loads S_Mirror S_Rigid S_Movement
  L_Base L_Loads L_Horseshoe L_SteadyRing L_Frames L_Mirror L_Geometry L_Movement L_Snapshots L_Problems L_Unsteady L_Rigid L_RigidShift L_Wake L_UnsteadyRun
  S_Unsteady S_UnsteadyRun S_Image L_Pairs L_ImageRun L_ImageFinal L_SymmetricFlight.
Import ListNotations.
Local Open Scope R_scope.
Local Open Scope list_scope.

Lemma wave_shift w a T b d n dt l l' i v v' : follows_wave w a T b n dt l -> follows_wave w a T (b + d) n dt l' -> nth_error l i = Some v -> nth_error l' i = Some v' -> v' = v + d.
Proof.
  intros (_ & _ & H) (_ & _ & H') Hv Hv'. destruct (H i v Hv) as [A B]. destruct (H' i v' Hv') as [A' B'].
  destruct (Req_dec T 0) as [E|E]; [rewrite (A (or_intror E)), (A' (or_intror E)); reflexivity | rewrite (B E), (B' E); ring].
Qed.
Lemma oscillate_shift o b d n dt l l' i v v' : oscillate o b n dt = Ok l -> oscillate o (b + d) n dt = Ok l' -> nth_error l i = Some v -> nth_error l' i = Some v' -> v' = v + d.
Proof.
  intros H H' Hv Hv'. apply oscillate_wave in H, H'.
  destruct H as [[E H]|[E H]]; destruct H' as [[E' H']|[E' H']]; try (rewrite E in E'; discriminate E'); exact (wave_shift _ _ _ _ _ _ _ _ _ _ _ _ H H' Hv Hv').
Qed.
Lemma leading_edge_parts w w' d : w_leading_edge w' = vadd (w_leading_edge w) d -> w_x_le w' = w_x_le w + vx d /\ w_y_le w' = w_y_le w + vy d /\ w_z_le w' = w_z_le w + vz d.
Proof. unfold w_leading_edge. intros H. pose proof (f_equal vx H) as X. pose proof (f_equal vy H) as Y. pose proof (f_equal vz H) as Z. cbn in X, Y, Z. auto. Qed.
Lemma xyz_ref_parts a a' d : a_xyz_ref a' = vadd (a_xyz_ref a) d -> a_x_ref a' = a_x_ref a + vx d /\ a_y_ref a' = a_y_ref a + vy d /\ a_z_ref a' = a_z_ref a + vz d.
Proof. unfold a_xyz_ref. intros H. pose proof (f_equal vx H) as X. pose proof (f_equal vy H) as Y. pose proof (f_equal vz H) as Z. cbn in X, Y, Z. auto. Qed.

Definition renamed (name : string) (w : wing) : wing :=
  mkwing (w_sections w) name (w_x_le w) (w_y_le w) (w_z_le w) (w_unit_normal w) (w_symmetric w) (w_unit_chordwise w) (w_num_chordwise_panels w)
         (w_chordwise_spacing w) (w_num_spanwise_panels w) (w_num_panels w) (w_panels w) (w_wake_vertices w) (w_wake_rings w).
Lemma wing_renamed sections n1 n2 x y z n sym c nc sp w : new_wing sections n1 x y z n sym c nc sp = Ok w -> new_wing sections n2 x y z n sym c nc sp = Ok (renamed n2 w).
Proof.
  unfold new_wing. cbn zeta. intros H. repeat (apply bind_Ok in H; let v := fresh "v" in let E := fresh "E" in destruct H as (v & E & H); rewrite E; cbn [bind]).
  apply Ok_eq in H. subst w. reflexivity.
Qed.
(** The dimensions an airplane takes from its first wing. *)
Definition same_size (w w' : wing) : Prop :=
  w_projected_area w' = w_projected_area w /\ w_mean_aerodynamic_chord w' = w_mean_aerodynamic_chord w /\ w_span w' = w_span w.

Lemma in_list_sum x l : In x l -> (x <= list_sum l)%nat.
Proof. induction l as [|y l IH]; [intros []|]. intros [->|H]; cbn [list_sum fold_right]; [lia|]. specialize (IH H). unfold list_sum in IH. lia. Qed.
Lemma snapshot_elsewhere d m m' n dt ws ws' i w w' : wing_movement_elsewhere d m m' -> has_panels m -> generate_wings m n dt = Ok ws -> generate_wings m' n dt = Ok ws' ->
  nth_error ws i = Some w -> nth_error ws' i = Some w' -> wing_image mid d true w w' /\ same_size w w'.
Proof.
  intros (E1 & E2 & E3 & E4 & E5 & E6 & E7 & E8) (s1 & Hs1 & Hp) H H' Hw Hw'. destruct (leading_edge_parts _ _ _ E5) as (LX & LY & LZ).
  destruct (generated_wing_kept _ _ _ _ _ _ H Hw) as [K _]. destruct (generated_wings _ _ _ _ H) as (LW & H0 & xs & ys & zs & hs & Ex & Ey & Ez & EH & HN).
  destruct (generated_wings _ _ _ _ H') as (_ & _ & xs' & ys' & zs' & hs' & Ex' & Ey' & Ez' & EH' & HN').
  rewrite E1 in EH'. rewrite E2, LX in Ex'. rewrite E3, LY in Ey'. rewrite E4, LZ in Ez'. assert (hs' = hs) by congruence. subst hs'.
  destruct (HN i w Hw) as (x & y & z & sections & Hx & Hy & Hz & EC & EW). destruct (HN' i w' Hw') as (x' & y' & z' & sections' & Hx' & Hy' & Hz' & EC' & EW').
  assert (sections' = sections) by congruence. subst sections'.
  rewrite (oscillate_shift _ _ _ _ _ _ _ _ _ _ Ex Ex' Hx Hx'), (oscillate_shift _ _ _ _ _ _ _ _ _ _ Ey Ey' Hy Hy'), (oscillate_shift _ _ _ _ _ _ _ _ _ _ Ez Ez' Hz Hz'), E6, E7, E8 in EW'.
  destruct (wing_elsewhere _ _ _ _ _ _ _ _ _ _ (vx d) (vy d) (vz d) _ EW) as (w1 & EW1 & (MS & MP) & MA & MC & _).
  apply (wing_renamed _ _ (w_name (wm_base m'))) in EW1. rewrite EW' in EW1. apply Ok_eq in EW1. subst w'.
  assert (ED : mkvec (vx d) (vy d) (vz d) = d) by (destruct d; reflexivity). rewrite ED in MP.
  pose proof (wing_attributes _ _ _ _ _ _ _ _ _ _ _ EW) as (_ & _ & _ & _ & _ & A6 & _ & A8 & _). destruct K as (_ & _ & _ & _ & KF). rewrite A8 in KF.
  assert (HK : Forall2 (fun sm s => section_kept (sm_base sm) s) (wm_sections m) sections).
  { revert KF. generalize (wm_sections m). clear. induction sections as [|s l IH]; intros sms KF; inversion KF as [|sm s' sms' l' HK KF']; subst; constructor; [|auto]. exact HK. }
  pose proof (removelast_Forall2 _ _ _ HK) as HR.
  destruct (wing_shape _ _ _ _ _ _ _ _ _ _ _ EW) as (_ & W2 & W3 & W4 & _). destruct (snapshot_wing _ _ _ _ _ _ H Hw) as ((_ & HC & HD & _) & HLay & _).
  split; [|split; [exact MA | split; [exact MC | exact MS]]].
  split; [exact MP | split; [|discriminate]].
  assert (NE : w_panels w <> []). { intros X. rewrite X in W2. cbn [length] in W2. rewrite A6 in HC. lia. }
  destruct (last_row w NE) as [c Hc]. intros X. rewrite X in Hc. apply nth_error_In in Hc. specialize (W3 _ Hc). cbn [length] in W3. rewrite W4 in W3.
  assert (HS : exists s, In s (removelast sections) /\ (1 <= cs_num_spanwise_panels s)%nat).
  { destruct (In_nth_error _ _ Hs1) as [j Hj]. destruct (Forall2_nth_l _ _ _ HR _ _ Hj) as (s & Hsj & (_ & _ & _ & _ & _ & K6 & _)). exists s. split; [exact (nth_error_In _ _ Hsj)|]. rewrite K6. exact Hp. }
  destruct HS as (s & Hs & Hn). apply (in_map cs_num_spanwise_panels) in Hs. apply in_list_sum in Hs. destruct (w_symmetric (wm_base m)); lia.
Qed.
Lemma snapshots_elsewhere d g m m' n dt l l' i a a' : airplane_movement_elsewhere d g m m' -> generate_airplanes m n dt = Ok l -> generate_airplanes m' n dt = Ok l' ->
  nth_error l i = Some a -> nth_error l' i = Some a' -> airplane_image mid d g (fun _ => true) (wing_image mid d) a a'.
Proof.
  intros (E1 & E2 & E3 & E4 & G0 & HP & HN0) H H' Ha Ha'. destruct (xyz_ref_parts _ _ _ E1) as (LX & LY & LZ).
  destruct (generated_airplanes _ _ _ _ H) as (_ & _ & xs & ys & zs & hs & Ex & Ey & Ez & EH & HN).
  destruct (generated_airplanes _ _ _ _ H') as (_ & _ & xs' & ys' & zs' & hs' & Ex' & Ey' & Ez' & EH' & HN').
  rewrite E2, LX in Ex'. rewrite E3, LY in Ey'. rewrite E4, LZ in Ez'.
  destruct (HN i a Ha) as (x & y & z & wings & Hx & Hy & Hz & EC & EA). destruct (HN' i a' Ha') as (x' & y' & z' & wings' & Hx' & Hy' & Hz' & EC' & EA').
  rewrite (oscillate_shift _ _ _ _ _ _ _ _ _ _ Ex Ex' Hx Hx'), (oscillate_shift _ _ _ _ _ _ _ _ _ _ Ey Ey' Hy Hy'), (oscillate_shift _ _ _ _ _ _ _ _ _ _ Ez Ez' Hz Hz') in EA'.
  apply mapM_Forall2 in EH, EH'. apply column_spec in EC, EC'.
  assert (L1 : length wings = length (am_wings m)) by (rewrite (Forall2_length _ _ _ EH), (Forall2_length _ _ _ EC); reflexivity).
  assert (L1' : length wings' = length (am_wings m')) by (rewrite (Forall2_length _ _ _ EH'), (Forall2_length _ _ _ EC'); reflexivity).
  assert (HW : pairs g (fun _ w w' => wing_image mid d true w w' /\ same_size w w') wings wings').
  { destruct HP as (PL & PI & PN). split; [congruence|]. split; [rewrite L1; exact PI|]. intros k w Hw.
    destruct (Forall2_nth _ _ _ EC _ _ Hw) as (h & Hh & Hhi). destruct (Forall2_nth _ _ _ EH _ _ Hh) as (wm & Hwm & Eh).
    destruct (PN k wm Hwm) as (wm' & Hwm' & Hrel). destruct (Forall2_nth_l _ _ _ EH' _ _ Hwm') as (h' & Hh' & Eh'). destruct (Forall2_nth_l _ _ _ EC' _ _ Hh') as (w' & Hw' & Hhi').
    exists w'. split; [exact Hw'|]. exact (snapshot_elsewhere d wm wm' n dt h h' i w w' Hrel (HN0 wm (nth_error_In _ _ Hwm)) Eh Eh' Hhi Hhi'). }
  unfold new_airplane in EA, EA'. destruct wings as [|w0 rest]; [discriminate|]. destruct wings' as [|w0' rest']; [discriminate|]. cbn [index nth_error bind] in EA, EA'. apply Ok_eq in EA, EA'.
  assert (HS : same_size w0 w0'). { destruct HW as (_ & _ & HW). destruct (HW 0%nat w0 eq_refl) as (w1 & Hw1 & _ & HS). rewrite G0 in Hw1. apply Some_eq in Hw1. subst w1. exact HS. }
  destruct HS as (S1 & S2 & S3). subst a a'. unfold airplane_image. cbn [a_wings a_s_ref a_c_ref a_b_ref].
  split; [rewrite mid_moved; unfold a_xyz_ref; vunfold; apply vec_ext; reflexivity|]. repeat (split; [assumption|]).
  apply (pairs_impl g _ _ _ _ HW). intros k w w' _ _ [HI _]. exact HI.
Qed.

(** ** Periods *)
Lemma pairs_periods {A B} f (P : nat -> A -> B -> Prop) (p : A -> list R) (q : B -> list R) l l' : pairs f P l l' ->
  (forall k x x', P k x x' -> nth_error l k = Some x -> forall r, In r (p x) <-> In r (q x')) -> forall r, In r (concat (map p l)) <-> In r (concat (map q l')).
Proof.
  intros HP H r. rewrite !in_concat. split.
  - intros (b & Hb & Hr). apply in_map_iff in Hb. destruct Hb as (x & <- & Hx). destruct (In_nth_error _ _ Hx) as [k Hk]. destruct HP as (_ & _ & HP). destruct (HP k x Hk) as (x' & Hx' & Hq).
    exists (q x'). split; [apply in_map; exact (nth_error_In _ _ Hx') | apply (H k x x' Hq Hk); exact Hr].
  - intros (b & Hb & Hr). apply in_map_iff in Hb. destruct Hb as (x' & <- & Hx'). destruct (In_nth_error _ _ Hx') as [k' Hk']. destruct (pairs_back f _ _ _ _ _ HP Hk') as (k & x & _ & Hx & Hq).
    exists (p x). split; [apply in_map; exact (nth_error_In _ _ Hx) | apply (H k x x' Hq Hx); exact Hr].
Qed.
Lemma periods_elsewhere d f g ams ams' om : movements_elsewhere d f g ams ams' -> forall r, In r (all_periods ams om) <-> In r (all_periods ams' om).
Proof.
  intros HP r. unfold all_periods. rewrite !in_app_iff. rewrite (pairs_periods f _ airplane_periods airplane_periods ams ams' HP); [reflexivity|].
  intros k am am' (_ & E2 & E3 & E4 & _ & HW & _) _ q. unfold airplane_periods. rewrite !in_app_iff, E2, E3, E4.
  rewrite (pairs_periods (g k) _ wing_periods wing_periods (am_wings am) (am_wings am') HW); [reflexivity|].
  intros j w w' (W1 & W2 & W3 & W4 & _) _ q'. unfold wing_periods. rewrite W1, W2, W3, W4. reflexivity.
Qed.
Lemma max_period_elsewhere d f g ams ams' om p p' : movements_elsewhere d f g ams ams' -> max_period ams om = Ok p -> max_period ams' om = Ok p' -> p' = p.
Proof.
  intros HP H H'. apply max_period_largest in H, H'. apply (largest_unique (all_periods ams om)); [|exact H]. destruct H' as [I B]. pose proof (periods_elsewhere d f g ams ams' om HP) as E.
  split; [apply E; exact I | intros q Hq; apply B, E; exact Hq].
Qed.

Lemma problem_elsewhere d f g ams ams' om ns cy ch dt ns' cy' ch' dt' mv mv' only up up' : movements_elsewhere d f g ams ams' ->
  new_movement ams om ns cy ch dt = Ok mv -> new_movement ams' om ns' cy' ch' dt' = Ok mv' -> mv_num_steps mv' = mv_num_steps mv -> mv_delta_time mv' = mv_delta_time mv ->
  new_unsteady_problem mv only = Ok up -> new_unsteady_problem mv' only = Ok up' ->
  problem_image false mid d (in_order f g) up up' /\ up_max_period up' = up_max_period up.
Proof.
  intros HE Em Em' EN ED Eup Eup'. destruct (unsteady_built _ _ _ Eup) as (_ & U1 & U2 & _ & U4 & U5 & U6 & _ & _ & _ & UL & UN). destruct (unsteady_built _ _ _ Eup') as (_ & U1' & U2' & _ & U4' & U5' & U6' & _ & _ & _ & UL' & UN').
  destruct (movement_lengths _ _ _ _ _ _ _ Em) as (_ & _ & FG). destruct (movement_lengths _ _ _ _ _ _ _ Em') as (_ & _ & FG').
  pose proof (movement_built _ _ _ _ _ _ _ Em) as (B1 & B2 & _ & _ & _ & HO). pose proof (movement_built _ _ _ _ _ _ _ Em') as (B1' & B2' & _ & _ & _ & HO').
  assert (EP : up_max_period up' = up_max_period up). { unfold mv_max_period in U4, U4'. rewrite B1, B2 in U4. rewrite B1', B2' in U4'. exact (max_period_elsewhere _ _ _ _ _ _ _ _ HE U4 U4'). }
  split; [|exact EP]. constructor; [congruence | rewrite U6, U6', U5, U5', EP, EN, ED; reflexivity|].
  apply Forall2_from_nth; [congruence|]. intros k sp sp' Hsp Hsp'. destruct (UN k sp Hsp) as [FL HOp]. destruct (UN' k sp' Hsp') as [FL' HOp'].
  rewrite EN, ED in HO'. assert (EO : mv_operating_points mv' = mv_operating_points mv) by congruence. rewrite EO in HOp'. assert (EOP : sp_operating_point sp' = sp_operating_point sp) by congruence.
  split.
  - rewrite EOP. unfold flow_image. repeat (split; [reflexivity|]). intros v. rewrite mid_id. reflexivity.
  - pose proof HE as (PL & PI & PN). rewrite EN, ED in FG'.
    assert (L : length (sp_airplanes sp) = length ams) by (rewrite (Forall2_length _ _ _ FG), (Forall2_length _ _ _ FL); reflexivity).
    assert (L' : length (sp_airplanes sp') = length ams') by (rewrite (Forall2_length _ _ _ FG'), (Forall2_length _ _ _ FL'); reflexivity).
    split; [congruence|]. split; [rewrite L; exact PI|]. intros i a Ha. cbn [in_order partner wing_partner keeps_sides].
    destruct (Forall2_nth _ _ _ FL _ _ Ha) as (h & Hh & Hk). destruct (Forall2_nth _ _ _ FG _ _ Hh) as (am & Ham & E & _).
    destruct (PN i am Ham) as (am' & Ham' & Hrel). destruct (Forall2_nth_l _ _ _ FG' _ _ Ham') as (h' & Hh' & E' & _). destruct (Forall2_nth_l _ _ _ FL' _ _ Hh') as (a' & Ha' & Hk').
    exists a'. split; [exact Ha'|]. exact (snapshots_elsewhere d (g i) am am' _ _ h h' k a a' Hrel E E' Hk Hk').
Qed.
Lemma mid_isometric : isometric false mid.
Proof. exact mid_proper. Qed.

(** The other movement exists: with the number and the length of the steps given. *)
Lemma movement_elsewhere_exists d f g ams ams' om n dt mv only up : movements_elsewhere d f g ams ams' -> (1 <= n)%Z ->
  new_movement ams om (Some n) None None (Some dt) = Ok mv -> new_unsteady_problem mv only = Ok up ->
  exists mv' up', new_movement ams' om (Some n) None None (Some dt) = Ok mv' /\ new_unsteady_problem mv' only = Ok up' /\
    mv_num_steps mv' = mv_num_steps mv /\ mv_delta_time mv' = mv_delta_time mv.
Proof.
  intros HE Hn Em Eup. destruct (proj1 (movement_succeeds ams om (Some n) None None dt n eq_refl Hn) (ex_intro _ mv Em)) as (_ & _ & HA & HG).
  assert (HA' : Forall airplane_movable ams').
  { apply Forall_forall. intros am' Ham'. destruct (In_nth_error _ _ Ham') as [k' Hk']. destruct (pairs_back f _ _ _ _ _ HE Hk') as (k & am & _ & Ham & (_ & E2 & E3 & E4 & _ & HW & _)).
    rewrite Forall_forall in HA. destruct (HA am (nth_error_In _ _ Ham)) as (A1 & A2 & A3 & A4 & A5). unfold airplane_movable. rewrite E2, E3, E4. split; [|split; [|auto]].
    - intros X. destruct HW as (LW & _). rewrite X in LW. cbn in LW. destruct (am_wings am); [contradiction | discriminate].
    - apply Forall_forall. intros w' Hw'. destruct (In_nth_error _ _ Hw') as [j' Hj']. destruct (pairs_back (g k) _ _ _ _ _ HW Hj') as (j & w & _ & Hw & (W1 & W2 & W3 & W4 & _ & W6 & W7 & W8)).
      rewrite Forall_forall in A2. specialize (A2 w (nth_error_In _ _ Hw)). unfold wing_movable in *. rewrite W1, W2, W3, W4, W6, W7, W8. exact A2. }
  destruct (proj2 (movement_succeeds ams' om (Some n) None None dt n eq_refl Hn)) as [mv' Em']; [auto|].
  assert (NE : ams' <> []). { intros X. subst ams'. destruct HE as (L & _). destruct ams; [|discriminate]. destruct (unsteady_built _ _ _ Eup) as (_ & _ & _ & _ & Ep & _). unfold mv_max_period in Ep. destruct (movement_built _ _ _ _ _ _ _ Em) as (B1 & _). rewrite B1 in Ep. discriminate Ep. }
  destruct (unsteady_succeeds _ _ _ _ _ _ _ only Em' (movable_populated _ NE HA')) as [up' Eup'].
  exists mv', up'. split; [exact Em'|]. split; [exact Eup'|].
  destruct (movement_built _ _ _ _ _ _ _ Em) as (_ & _ & D & (N & _) & _). destruct (movement_built _ _ _ _ _ _ _ Em') as (_ & _ & D' & (N' & _) & _). split; congruence.
Qed.
Lemma run_elsewhere d f g ams ams' om ns cy ch dt ns' cy' ch' dt' mv mv' only up up' (solve : list (list R) -> list R -> result (list R)) (prescribed : bool) n s : SolveSpec solve -> movements_elsewhere d f g ams ams' ->
  new_movement ams om ns cy ch dt = Ok mv -> new_movement ams' om ns' cy' ch' dt' = Ok mv' -> mv_num_steps mv' = mv_num_steps mv -> mv_delta_time mv' = mv_delta_time mv -> mv_delta_time mv <> 0 ->
  new_unsteady_problem mv only = Ok up -> new_unsteady_problem mv' only = Ok up' -> after solve prescribed up n s ->
  exists s', after solve prescribed up' n s' /\ run_image false mid d (in_order f g) (up_first_results_step up) n s s'.
Proof.
  intros HS HE Em Em' EN ED Hdt Eup Eup' HA. destruct (problem_elsewhere _ _ _ _ _ _ _ _ _ _ _ _ _ _ _ _ _ _ _ HE Em Em' EN ED Eup Eup') as [HP _].
  destruct (unsteady_built _ _ _ Eup) as (_ & _ & U2 & _).
  apply (image_run false mid d (in_order f g) up up' solve prescribed n s HS mid_isometric); [do 8 eexists; split; [exact Em | exact Eup] | do 8 eexists; split; [exact Em' | exact Eup'] | congruence | exact HP | exact HA].
Qed.
