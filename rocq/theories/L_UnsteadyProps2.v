(** More about runs of the unsteady solver: bound rings, attachment of the wake, history. *)
From Coq Require Import List ZArith Lia Lra Bool Reals.
From Verif Require Import M_Unsteady S_Unsteady S_UnsteadyRun S_Vortices S_Loads S_Solve S_Movement L_Base L_Loads L_SteadyRing L_RingLegs L_Aero L_Frames
  L_Geometry L_Problems L_Wake L_WakeWings L_Unsteady L_UnsteadyStep L_UnsteadyRun L_UnsteadyFinal L_UnsteadyProps.
Import ListNotations.
Local Open Scope R_scope.
Local Open Scope list_scope.

Lemma update_strength_consistent g r : ring_consistent r -> ring_consistent (ring_update_strength g r).
Proof. exact (ring_step_consistent r (RStrength g)). Qed.
Lemma same_panel_sym p q : same_panel p q -> same_panel q p.
Proof. unfold same_panel. intuition congruence. Qed.
Lemma position_Forall2 (P : panel -> panel -> Prop) m m' c j q : Forall2 (Forall2 P) m m' -> at_position m' c j q -> exists p, at_position m c j p /\ P p q.
Proof.
  intros HF (row & H1 & H2). destruct (Forall2_nth _ _ _ HF _ _ H1) as (row0 & H0 & FR). destruct (Forall2_nth _ _ _ FR _ _ H2) as (p & Hp & HP).
  exists p. split; [exists row0; auto | exact HP].
Qed.
Lemma position_Forall2_l (P : panel -> panel -> Prop) m m' c j p : Forall2 (Forall2 P) m m' -> at_position m c j p -> exists q, at_position m' c j q /\ P p q.
Proof.
  intros HF (row & H1 & H2). destruct (Forall2_nth_l _ _ _ HF _ _ H1) as (row0 & H0 & FR). destruct (Forall2_nth_l _ _ _ FR _ _ H2) as (q & Hq & HP).
  exists q. split; [exists row0; auto | exact HP].
Qed.
Lemma solved_bound drift m m' c j p p' r : Forall2 (Forall2 solved_panel) m m' -> at_position m' c j p' -> solved_panel p p' -> p_ring_vortex p = Some r ->
  bound_ring drift m c j p r -> exists r', p_ring_vortex p' = Some r' /\ bound_ring drift m' c j p' r'.
Proof.
  intros HF Hp' [HS HR] Hr (B1 & B2 & B3 & B4 & B5).
  assert (HX : exists r', p_ring_vortex p' = Some r' /\ ring_consistent r' /\ ring_position r' = ring_position r).
  { rewrite Hr in HR. destruct HR as [HR|[g HR]]; [exists r; auto|]. cbn in HR. eexists. split; [exact HR|]. split; [apply update_strength_consistent; exact B1 | reflexivity]. }
  destruct HX as (r' & Hr' & C & E). exists r'. split; [exact Hr'|]. unfold ring_position in E. injection E as E1 E2 E3 E4.
  destruct (same_panel_vertices _ _ HS) as [V1 V2]. split; [exact C|]. rewrite E1, E2, E3, E4, V1, V2, <- (Forall2_length _ _ _ HF).
  split; [exact B2|]. split; [exact B3|]. split.
  - intros Hc. destruct (B4 Hc) as [B6 B7]. destruct HS as (S1 & S2 & S3 & S4 & _). rewrite S1, S2, S3, S4. auto.
  - intros Hc. destruct (B5 Hc) as (q & Hq & B6 & B7). destruct (position_Forall2_l _ _ _ _ _ _ HF Hq) as (q' & Hq' & [HSq _]).
    exists q'. split; [exact Hq'|]. destruct (same_panel_vertices _ _ HSq) as [-> ->]. auto.
Qed.

Lemma trailing_row w c p : ringed_wing w -> nth_error (trailing_panels w) c = Some p -> at_position (w_panels w) (w_num_chordwise_panels w - 1) c p /\ length (w_panels w) = w_num_chordwise_panels w.
Proof.
  intros (_ & H1 & [H2 _] & _) Hp. split; [|exact H2]. unfold trailing_panels in Hp. exists (last (w_panels w) []). split; [|exact Hp].
  destruct (exists_last (l := w_panels w)) as (l & x & E); [intros E; rewrite E in H2; cbn in H2; lia|]. rewrite E in *. rewrite last_last. rewrite app_length in H2. cbn in H2.
  rewrite nth_error_app2 by lia. replace (w_num_chordwise_panels w - 1 - length l)%nat with 0%nat by lia. reflexivity.
Qed.
Lemma trailing_length w : ringed_wing w -> length (trailing_panels w) = w_num_spanwise_panels w.
Proof.
  intros (_ & H1 & [H2 H3] & _). unfold trailing_panels.
  destruct (exists_last (l := w_panels w)) as (l & x & E); [intros E; rewrite E in H2; cbn in H2; lia|]. rewrite E in *. rewrite last_last.
  rewrite Forall_forall in H3. apply H3. apply in_or_app; right; left; reflexivity.
Qed.
Lemma trailing_vertex_nth w c p : nth_error (trailing_panels w) c = Some p -> nth_error (trailing_vertices w) c = Some (back_left_of p).
Proof.
  intros H. unfold trailing_vertices. rewrite nth_error_app1; [rewrite nth_error_map, H; reflexivity|]. rewrite map_length. apply nth_error_Some. congruence.
Qed.
Lemma trailing_vertex_last w c p : nth_error (trailing_panels w) c = Some p -> S c = length (trailing_panels w) -> nth_error (trailing_vertices w) (S c) = Some (back_right_of p).
Proof.
  intros H L. unfold trailing_vertices. rewrite nth_error_app2; rewrite map_length; [|lia]. rewrite L, Nat.sub_diag. cbn [nth_error]. f_equal.
  destruct (exists_last (l := trailing_panels w)) as (l & x & E); [intros E; rewrite E in L; discriminate|]. rewrite E in *. rewrite app_length in L. cbn in L.
  rewrite nth_error_app2 in H by lia. replace (c - length l)%nat with 0%nat in H by lia. cbn in H. apply Some_eq in H. subst x. rewrite map_app. cbn [map]. apply last_last.
Qed.

Section Props2.
  Variable solve : list (list R) -> list R -> result (list R).
  Hypothesis HS : SolveSpec solve.
  Variable prescribed : bool.
  Ltac history H := destruct H as (F & up1 & conv & sa & H); pose proof (rn_inv _ _ _ _ _ _ _ _ (hi_ran _ _ _ _ _ _ _ _ _ H)) as RI;
    pose proof (history_time _ _ _ _ _ _ _ _ _ H) as Edt; destruct (history_length _ HS _ _ _ _ _ _ _ _ H) as [Elen1 Elen].

  (** ** Bound rings *)
  Lemma bound_rings up n s k i w c j p : created up -> has_run solve prescribed up n s -> wing_at s k i w -> at_position (w_panels w) c j p ->
    exists r, p_ring_vortex p = Some r /\ bound_ring (drift_at s k) (w_panels w) c j p r.
  Proof.
    intros HC HR Hw Hp. apply (has_run_history _ HS _ _ _ _ HC) in HR. history HR. pose proof (hi_ran _ _ _ _ _ _ _ _ _ HR) as R.
    destruct Hw as (sp & Hsp & Hw). pose proof Hsp as Hsp'. unfold step_at in Hsp'. rewrite (hi_steps _ _ _ _ _ _ _ _ _ HR) in Hsp'.
    destruct (Forall2_nth _ _ _ (ri_kept _ _ _ _ RI) _ _ Hsp') as (sp1 & H1 & S1).
    destruct (Forall2_nth _ _ _ (rn_started _ _ _ _ _ _ _ _ R) _ _ H1) as (sp0 & H0 & S0).
    destruct (Forall2_nth _ _ _ (solved_step_wings _ _ S1) _ _ Hw) as (w1 & Hw1 & [_ FW]).
    destruct (Forall2_nth _ _ _ (started_wings _ _ _ S0) _ _ Hw1) as (w0 & Hw0 & (_ & _ & HB)).
    destruct (position_Forall2 _ _ _ _ _ _ FW Hp) as (p1 & Hp1 & Sp). destruct (HB c j p1 Hp1) as (r1 & Hr1 & B1).
    assert (Ed : drift_at s k = step_drift (up_delta_time up) sp0).
    { unfold drift_at, step_drift, freestream_at. unfold step_at in Hsp. rewrite Hsp, (hi_time _ _ _ _ _ _ _ _ _ HR), (proj1 S1), (proj1 S0). reflexivity. }
    rewrite Ed. eapply solved_bound; eassumption.
  Qed.
  Lemma history_ringed F up up1 conv n s sa k i w : history solve prescribed F up up1 conv n s sa -> wing_at s k i w -> ringed_wing w.
  Proof.
    intros HR Hw. pose proof (rn_inv _ _ _ _ _ _ _ _ (hi_ran _ _ _ _ _ _ _ _ _ HR)) as RI. pose proof (hi_ran _ _ _ _ _ _ _ _ _ HR) as R.
    destruct Hw as (sp & Hsp & Hw). pose proof Hsp as Hsp'. unfold step_at in Hsp'. rewrite (hi_steps _ _ _ _ _ _ _ _ _ HR) in Hsp'.
    destruct (Forall2_nth _ _ _ (ri_kept _ _ _ _ RI) _ _ Hsp') as (sp1 & H1 & S1).
    pose proof (solved_ready _ _ _ S1 (rp_steps _ _ (rn_ready _ _ _ _ _ _ _ _ R) sp1 (nth_error_In _ _ H1))) as (_ & HF & _).
    rewrite Forall_forall in HF. apply HF. apply (nth_error_In _ _ Hw).
  Qed.

  (** ** Attachment *)
  Lemma wake_attached up n s k grids i g w c ring p : created up -> has_run solve prescribed up n s -> (k <= n)%nat -> wake_is s k grids -> nth_error grids i = Some g ->
    entry g 0 c ring -> wing_at s k i w -> nth_error (trailing_panels w) c = Some p ->
    rv_front_left ring = back_left_of p /\
    (forall q, nth_error (trailing_panels w) (S c) = Some q -> rv_front_right ring = back_left_of q) /\
    (S c = length (trailing_panels w) -> rv_front_right ring = back_right_of p).
  Proof.
    intros HC HR Hk (sp & Hsp & FG & HW) Hg He Hw Hp. pose proof HR as HR0. apply (has_run_history _ HS _ _ _ _ HC) in HR. history HR.
    destruct (HW i g 0%nat c ring Hg He) as (_ & _ & (w' & Hw' & V1 & V2 & _) & _).
    assert (w' = w). { apply wing_at_nth in Hw. apply wing_at_nth in Hw'. congruence. } subst w'.
    assert (Hk0 : (0 < k)%nat). { destruct (Forall2_nth _ _ _ FG _ _ Hg) as (w' & _ & HG). destruct (entry_range _ _ _ _ _ _ HG He). lia. }
    destruct k as [|k]; [lia|]. destruct (wing_before _ HS _ _ _ _ _ _ _ _ _ _ _ HR Hk Hw) as [t Ht].
    destruct (wake_moves _ HS _ _ _ _ k i t w HC HR0 Hk Ht Hw) as (E0 & _).
    destruct V1 as (row & R1 & V1). destruct V2 as (row' & R2 & V2). rewrite E0 in R1, R2. apply Some_eq in R1. apply Some_eq in R2. subst row row'.
    split; [|split].
    - pose proof (trailing_vertex_nth _ _ _ Hp). congruence.
    - intros q Hq. pose proof (trailing_vertex_nth _ _ _ Hq). congruence.
    - intros L. pose proof (trailing_vertex_last _ _ _ Hp L). congruence.
  Qed.
  (** On a wing without gaps the wake hangs at both back vertices of every trailing edge ring. *)
  Lemma watertight_trailing up n s k i w c p q : created up -> has_run solve prescribed up n s -> wing_at s k i w -> spanwise_watertight (w_panels w) ->
    nth_error (trailing_panels w) c = Some p -> nth_error (trailing_panels w) (S c) = Some q -> back_right_of p = back_left_of q.
  Proof.
    intros HC HR Hw Hwt Hp Hq. pose proof HR as HR0. apply (has_run_history _ HS _ _ _ _ HC) in HR. history HR. pose proof (history_ringed _ _ _ _ _ _ _ _ _ _ HR Hw) as Hring.
    destruct (trailing_row _ _ _ Hring Hp) as [Pp L]. destruct (trailing_row _ _ _ Hring Hq) as [Pq _].
    destruct (bound_rings _ _ _ _ _ _ _ _ _ HC HR0 Hw Pp) as (r & Er & B1). destruct (bound_rings _ _ _ _ _ _ _ _ _ HC HR0 Hw Pq) as (r' & Er' & B2).
    unfold back_right_of, back_left_of. rewrite Er, Er'. destruct (Hwt _ _ _ _ Pp Pq) as [W1 W2]. assert (Hc : S (w_num_chordwise_panels w - 1) = length (w_panels w)).
    { destruct Hring as (_ & H1 & _). lia. }
    destruct B1 as (_ & _ & B3 & B4 & _). destruct B2 as (_ & B5 & _ & B6 & _). destruct (B4 Hc) as [_ ->]. destruct (B6 Hc) as [-> _]. rewrite B3, B5.
    rewrite (shares_edge_vortex p q (conj W1 W2)), W1, W2. reflexivity.
  Qed.
  (** Rings next to each other have common corners. *)
  Lemma wake_continuous s k grids i g r c ring : wake_is s k grids -> nth_error grids i = Some g -> entry g r c ring ->
    (forall right, entry g r (S c) right -> rv_front_right ring = rv_front_left right /\ rv_back_right ring = rv_back_left right) /\
    (forall behind, entry g (S r) c behind -> rv_back_left ring = rv_front_left behind /\ rv_back_right ring = rv_front_right behind).
  Proof.
    intros (sp & Hsp & FG & HW) Hg He. destruct (HW _ _ _ _ _ Hg He) as (_ & _ & (w & Hw & V1 & V2 & V3 & V4) & _).
    assert (HX : forall a b other, entry g a b other -> entry (w_wake_vertices w) a b (rv_front_left other) /\ entry (w_wake_vertices w) a (S b) (rv_front_right other) /\ entry (w_wake_vertices w) (S a) b (rv_back_left other)).
    { intros a b other Ho. destruct (HW _ _ _ _ _ Hg Ho) as (_ & _ & (w' & Hw' & U1 & U2 & U3 & U4) & _). assert (w' = w). { apply wing_at_nth in Hw. apply wing_at_nth in Hw'. congruence. } subst w'. auto. }
    split; intros other Ho; destruct (HX _ _ _ Ho) as (U1 & U2 & U3); split; eapply entry_unique; eassumption.
  Qed.

  (** ** History *)
  Lemma history_after F up up1 conv n s sa k : history solve prescribed F up up1 conv n s sa -> (k <= n)%nat -> exists sk, after solve prescribed up k sk.
  Proof. intros HR Hk. eapply after_prefix; [exact (hi_after _ _ _ _ _ _ _ _ _ HR) | exact Hk]. Qed.
  Lemma record_kept up m n s s' k : created up -> has_run solve prescribed up m s -> has_run solve prescribed up n s' -> (k < m)%nat -> (m <= n)%nat ->
    nth_error (us_wakes s') k = nth_error (us_wakes s) k /\
    forall sp, step_at s k sp <-> step_at s' k sp.
  Proof.
    intros HC HR HR' Hk Hm. apply (has_run_history _ HS _ _ _ _ HC) in HR. history HR. apply (has_run_history _ HS _ _ _ _ HC) in HR'. destruct HR' as (F' & up1' & conv' & sa' & HR').
    destruct (after_later solve HS prescribed up m n sa sa' F (hi_meshed _ _ _ _ _ _ _ _ _ HR) (hi_after _ _ _ _ _ _ _ _ _ HR) (hi_after _ _ _ _ _ _ _ _ _ HR') Hm (hi_bound _ _ _ _ _ _ _ _ _ HR') k Hk) as [E1 E2].
    unfold step_at. rewrite (hi_wakes _ _ _ _ _ _ _ _ _ HR), (hi_wakes _ _ _ _ _ _ _ _ _ HR'), (hi_steps _ _ _ _ _ _ _ _ _ HR), (hi_steps _ _ _ _ _ _ _ _ _ HR'), E1. split; [exact E2 | intros; reflexivity].
  Qed.
  (** The wake rows of an earlier wing are the last rows of a later one. *)
  Lemma rows_shared up n s k i t : created up -> has_run solve prescribed up n s -> forall d w, (k + d <= n)%nat -> wing_at s k i t -> wing_at s (k + d) i w ->
    exists newer, length newer = d /\ w_wake_rings w = newer ++ w_wake_rings t.
  Proof.
    intros HC HR. apply (has_run_history _ HS _ _ _ _ HC) in HR. history HR. induction d as [|d IH]; intros w Hd Ht Hw.
    - rewrite Nat.add_0_r in Hw. assert (w = t). { apply wing_at_nth in Hw. apply wing_at_nth in Ht. congruence. } subst w. exists []. auto.
    - replace (k + S d)%nat with (S (k + d)) in Hw by lia. assert (Hlt : (k + d < n)%nat) by lia. destruct (wing_before _ HS _ _ _ _ _ _ _ _ _ _ _ HR Hlt Hw) as [u Hu].
      destruct (IH u ltac:(lia) Ht Hu) as (newer & L & E). pose proof (wing_at_range _ HS _ _ _ _ _ _ _ _ _ _ _ HR Hw) as Hl.
      apply wing_at_nth in Hu. apply wing_at_nth in Hw. rewrite (hi_steps _ _ _ _ _ _ _ _ _ HR) in Hu, Hw.
      assert (Hl1 : (S (k + d) < length (up_steady_problems up1))%nat) by lia.
      destruct (Forall2_nth _ _ _ (ri_vertices _ _ _ _ RI (k + d)%nat Hlt Hl1) _ _ Hw) as (u' & Hu' & _ & row & Er). assert (u' = u) by congruence. subst u'.
      exists (row :: newer). split; [cbn; lia|]. rewrite Er, E. reflexivity.
  Qed.
  Lemma objects_shared up n s k i t r c id : created up -> has_run solve prescribed up n s -> let last := Nat.min n (length (up_steady_problems up) - 1) in (k <= last)%nat ->
    wing_at s k i t -> entry (w_wake_rings t) r c id ->
    exists ring, nth_error (us_heap s) id = Some ring /\ wake_ring s last i (r + (last - k)) c ring.
  Proof.
    intros HC HR last Hk Ht He. pose proof HR as HR0. apply (has_run_history _ HS _ _ _ _ HC) in HR. history HR.
    assert (Hsome : (0 < length (up_steady_problems up))%nat) by apply (mp_some _ _ (hi_meshed _ _ _ _ _ _ _ _ _ HR)). pose proof (hi_bound _ _ _ _ _ _ _ _ _ HR) as Hb.
    destruct (nth_in_range (up_steady_problems (us_problem s)) last ltac:(lia)) as [sp Hsp].
    destruct (wake_objects _ HS _ _ _ _ last sp HC HR0 eq_refl Hsp) as (grids & HW & FH).
    assert (exists w, wing_at s last i w) as [w Hw].
    { clear -HS HR Hk Ht Hb Elen. assert (G : forall d, (k + d <= last)%nat -> exists w, wing_at s (k + d) i w).
      { induction d as [|d IH]; intros Hd; [rewrite Nat.add_0_r; eauto|]. destruct (IH ltac:(lia)) as [u Hu]. replace (k + S d)%nat with (S (k + d)) by lia.
        apply wing_at_nth in Hu. rewrite (hi_steps _ _ _ _ _ _ _ _ _ HR) in Hu.
        pose proof (ri_vertices _ _ _ _ (rn_inv _ _ _ _ _ _ _ _ (hi_ran _ _ _ _ _ _ _ _ _ HR)) (k + d)%nat) as FV. rewrite (proj1 (history_length _ HS _ _ _ _ _ _ _ _ HR)) in FV.
        destruct (Forall2_nth_l _ _ _ (FV ltac:(lia) ltac:(lia)) _ _ Hu) as (w & Hw & _). exists w. apply wing_at_nth. rewrite (hi_steps _ _ _ _ _ _ _ _ _ HR). exact Hw. }
      destruct (G (last - k)%nat ltac:(lia)) as [w Hw]. replace (k + (last - k))%nat with last in Hw by lia. eauto. }
    assert (Hle : (k + (last - k) <= n)%nat) by lia. assert (Hw' : wing_at s (k + (last - k)) i w) by (replace (k + (last - k))%nat with last by lia; exact Hw).
    destruct (rows_shared up n s k i t HC HR0 _ w Hle Ht Hw') as (newer & L & E).
    assert (Hnw : nth_error (step_wings sp) i = Some w). { destruct Hw as (sp' & Hsp' & Hw). unfold step_at in Hsp, Hsp'. congruence. }
    destruct (Forall2_nth_l _ _ _ FH _ _ Hnw) as (g & Hg & Hh). destruct He as (row & H1 & H2).
    assert (H1' : nth_error (w_wake_rings w) (r + (last - k)) = Some row). { rewrite E, nth_error_app2 by lia. rewrite L. replace (r + (last - k) - (last - k))%nat with r by lia. exact H1. }
    destruct (holds_nth _ _ _ _ _ _ _ Hh H1' H2) as (rrow & ring & G1 & G2 & G3). exists ring. split; [exact G3|].
    destruct HW as (sp' & _ & _ & HW). apply (HW i g); [exact Hg|]. exists rrow. auto.
  Qed.
End Props2.
