(** The wake of the unsteady solver: sizes, positions, strengths, ages, history. *)
From Coq Require Import List ZArith Lia Lra Bool Reals.
From Verif Require Import M_Unsteady S_Unsteady S_UnsteadyRun S_Vortices S_Loads S_Solve S_Movement L_Base L_Loads L_SteadyRing L_Aero L_Frames
  L_Geometry L_Problems L_Wake L_WakeWings L_Unsteady L_UnsteadyStep L_UnsteadyRun L_UnsteadyFinal.
Import ListNotations.
Local Open Scope R_scope.
Local Open Scope list_scope.

(** ** Rings shed by wings *)
Lemma shed_nth steps k : forall i G r, nth_error (shed steps k) i = Some G -> (r < k)%nat ->
  exists w, nth_error (wings_at steps (k - 1 - r)) i = Some w /\ nth_error G r = Some (trailing_strengths w).
Proof.
  induction k as [|k IH]; intros i G r HG Hr; [lia|]. cbn [shed] in HG. rewrite nth_error_map2, nth_error_map in HG.
  destruct (nth_error (wings_at steps k) i) as [w|] eqn:Ew; [|discriminate]. cbn [option_map] in HG.
  destruct (nth_error (shed steps k) i) as [G'|] eqn:EG; [|discriminate]. apply Some_eq in HG. subst G. destruct r as [|r].
  - exists w. replace (S k - 1 - 0)%nat with k by lia. split; [exact Ew | reflexivity].
  - destruct (IH i G' r EG ltac:(lia)) as (w' & Hw' & Hg). exists w'. replace (S k - 1 - S r)%nat with (k - 1 - r)%nat by lia. auto.
Qed.
Lemma entry_unique {A} (m : list (list A)) r c x y : entry m r c x -> entry m r c y -> x = y.
Proof. intros (row & H1 & H2) (row' & H1' & H2'). congruence. Qed.
Lemma entry_range {A} k n (m : list (list A)) r c x : grid k n m -> entry m r c x -> (r < k)%nat /\ (c < n)%nat.
Proof. intros HG (row & H1 & H2). eapply in_grid_range; eassumption. Qed.
Lemma entry_exists {A} k n (m : list (list A)) r c : grid k n m -> (r < k)%nat -> (c < n)%nat -> exists x, entry m r c x.
Proof. intros HG Hr Hc. destruct (grid_entry _ _ _ _ _ HG Hr Hc) as (row & x & H1 & H2). exists x, row. auto. Qed.
Lemma aged_ring_spec age fl fr bl br g : let r := aged_ring age fl fr bl br g in
  ring_consistent r /\ rv_age r = age /\ rv_strength r = g /\ rv_front_left r = fl /\ rv_front_right r = fr /\ rv_back_left r = bl /\ rv_back_right r = br.
Proof. cbn zeta. split; [exact (new_ring_consistent fl fr bl br g)|]. repeat split. Qed.
(** An entry of a grid of rings. *)
Lemma rings_from_entry dt k n V G r c ring : grid (S k) (S n) V -> grid k n G -> entry (rings_from dt 0 V G) r c ring ->
  ring_consistent ring /\ rv_age ring = INR r * dt /\
  entry V r c (rv_front_left ring) /\ entry V r (S c) (rv_front_right ring) /\
  entry V (S r) c (rv_back_left ring) /\ entry V (S r) (S c) (rv_back_right ring) /\ entry G r c (rv_strength ring).
Proof.
  intros HV HG HE. destruct (entry_range _ _ _ _ _ _ (rings_from_grid dt n G 0 V k HV HG) HE) as [Hr Hc].
  destruct (grid_cell _ _ _ _ _ HV Hr Hc) as (front & back & fl & fr & bl & br & H1 & H2 & H3 & H4 & H5 & H6).
  destruct (grid_entry _ _ _ _ _ HG Hr Hc) as (g & x & Hg & Hx).
  destruct HE as (row & E1 & E2). rewrite (rings_from_nth dt G V 0 r front back g H1 H2 Hg) in E1. apply Some_eq in E1. subst row. cbn [plus] in E2.
  rewrite (rings_between_nth _ _ _ _ _ _ _ _ _ _ H3 H4 H5 H6 Hx) in E2. apply Some_eq in E2. subst ring.
  destruct (aged_ring_spec (INR r * dt) fl fr bl br x) as (A1 & A2 & A3 & A4 & A5 & A6 & A7). rewrite A2, A3, A4, A5, A6, A7.
  split; [exact A1|]. split; [reflexivity|]. unfold entry. repeat split; eauto.
Qed.

Section Props.
  Variable solve : list (list R) -> list R -> result (list R).
  Hypothesis HS : SolveSpec solve.
  Variable prescribed : bool.

  Lemma after_bounded F up n s : meshed_problem F up -> after solve prescribed up n s -> (n <= length (up_steady_problems up))%nat.
  Proof.
    intros HM. revert s. induction n as [|n IH]; intros s HA; [lia|]. apply after_S in HA. destruct HA as (s' & HA & Es).
    pose proof (IH s' HA) as Hle. destruct (Nat.eq_dec n (length (up_steady_problems up))) as [E|E]; [|lia]. exfalso.
    destruct (after_layout solve HS prescribed F up n s' HM HA Hle) as [L _].
    unfold unsteady_step in Es. cbn zeta in Es. apply bind_Ok in Es. destruct Es as (sp & Esp & _). apply index_Some in Esp.
    assert (n < length (up_steady_problems (us_problem s')))%nat by (apply nth_error_Some; congruence). lia.
  Qed.
  (** What a state after [n] steps has in common with the one in the loop. *)
  Record history (F : list (list (nat * nat))) (up up1 : unsteady_problem) (conv : nat -> vec -> vec) (n : nat) (s sa : unsteady_solver) : Prop := {
    hi_meshed : meshed_problem F up;
    hi_bound : (n <= length (up_steady_problems up))%nat;
    hi_after : after solve prescribed up n sa;
    hi_ran : ran solve prescribed F up up1 conv n sa;
    hi_steps : up_steady_problems (us_problem s) = up_steady_problems (us_problem sa);
    hi_time : up_delta_time (us_problem s) = up_delta_time up;
    hi_heap : us_heap s = us_heap sa;
    hi_num : us_num_wake s = us_num_wake sa;
    hi_wakes : us_wakes s = us_wakes sa;
    hi_current : us_current s = us_current sa }.
  Lemma has_run_history up n s : created up -> has_run solve prescribed up n s -> exists F up1 conv sa, history F up up1 conv n s sa.
  Proof.
    intros HC [HA|[[lines HF] ->]].
    - assert (exists F, meshed_problem F up) as [F HM]. { destruct HA as (s0 & s1 & E0 & _). exact (created_meshed _ _ HC E0). }
      pose proof (after_bounded F up n s HM HA) as Hn. destruct (after_ran solve HS prescribed F up n s HM HA Hn) as (s1 & conv & _ & R).
      exists F, (us_problem s1), conv, s. constructor; auto. rewrite (after_problem solve HS prescribed _ _ _ _ HA HM Hn). reflexivity.
    - destruct (finished_meshed _ _ _ _ _ HC HF) as [F HM].
      destruct (finished_inv _ _ _ _ _ _ HF HM) as (sf & f & m & r & HA & _ & Ep & E1 & E2 & E3 & E4 & E5 & _).
      destruct (after_ran solve HS prescribed F up _ sf HM HA (le_n _)) as (s1 & conv & _ & R).
      exists F, (us_problem s1), conv, sf. constructor; auto. rewrite Ep. cbn [up_set_final up_delta_time]. rewrite (after_problem solve HS prescribed _ _ _ _ HA HM (le_n _)). reflexivity.
  Qed.
  Lemma history_time F up up1 conv n s sa : history F up up1 conv n s sa -> up_delta_time up1 = up_delta_time up.
  Proof. intros H. rewrite (rn_start _ _ _ _ _ _ _ _ (hi_ran _ _ _ _ _ _ _ H)). reflexivity. Qed.
  Lemma history_length F up up1 conv n s sa : history F up up1 conv n s sa ->
    length (up_steady_problems up1) = length (up_steady_problems up) /\ length (up_steady_problems (us_problem s)) = length (up_steady_problems up).
  Proof.
    intros H. pose proof (hi_ran _ _ _ _ _ _ _ H) as R. split; [symmetry; exact (Forall2_length _ _ _ (rn_started _ _ _ _ _ _ _ _ R))|].
    rewrite (hi_steps _ _ _ _ _ _ _ H). apply (after_layout solve HS prescribed F up n sa (hi_meshed _ _ _ _ _ _ _ H) (hi_after _ _ _ _ _ _ _ H) (hi_bound _ _ _ _ _ _ _ H)).
  Qed.
  Lemma wing_at_nth s k i w : wing_at s k i w <-> nth_error (wings_at (up_steady_problems (us_problem s)) k) i = Some w.
  Proof.
    unfold wing_at, step_at, wings_at. split.
    - intros (sp & -> & H). exact H.
    - destruct (nth_error (up_steady_problems (us_problem s)) k) as [sp|]; [eauto | destruct i; discriminate].
  Qed.
  Lemma wing_at_range F up up1 conv n s sa k i w : history F up up1 conv n s sa -> wing_at s k i w -> (k < length (up_steady_problems up))%nat.
  Proof.
    intros H (sp & Hsp & _). rewrite <- (proj2 (history_length _ _ _ _ _ _ _ H)). apply nth_error_Some. unfold step_at in Hsp. congruence.
  Qed.
  Ltac history H := destruct H as (F & up1 & conv & sa & H); pose proof (rn_inv _ _ _ _ _ _ _ _ (hi_ran _ _ _ _ _ _ _ H)) as RI;
    pose proof (history_time _ _ _ _ _ _ _ H) as Edt; destruct (history_length _ _ _ _ _ _ _ H) as [Elen1 Elen].

  (** ** Sizes *)
  Lemma history_grids F up up1 conv n s sa : history F up up1 conv n s sa -> forall k, (k <= n)%nat -> (k < length (up_steady_problems up))%nat ->
    Forall2 (fun w G => ringed_wing w /\
         match k with O => w_wake_vertices w = [] | S _ => grid (S k) (S (w_num_spanwise_panels w)) (w_wake_vertices w) end /\
         grid k (w_num_spanwise_panels w) (w_wake_rings w) /\ grid k (w_num_spanwise_panels w) G)
      (wings_at (up_steady_problems (us_problem s)) k) (shed (up_steady_problems (us_problem s)) k).
  Proof.
    intros H k Hk Hl. rewrite (hi_steps _ _ _ _ _ _ _ H). apply (ri_grids _ _ _ _ (rn_inv _ _ _ _ _ _ _ _ (hi_ran _ _ _ _ _ _ _ H))); [exact Hk|].
    rewrite (proj1 (history_length _ _ _ _ _ _ _ H)). exact Hl.
  Qed.
  Lemma wake_sizes up n s k i w : created up -> has_run solve prescribed up n s -> wing_at s k i w ->
    ((k <= n)%nat -> grid k (w_num_spanwise_panels w) (w_wake_rings w) /\
       match k with O => w_wake_vertices w = [] | S _ => grid (S k) (S (w_num_spanwise_panels w)) (w_wake_vertices w) end) /\
    ((n < k)%nat -> w_wake_rings w = [] /\ w_wake_vertices w = []).
  Proof.
    intros HC HR Hw. apply (has_run_history _ _ _ HC) in HR. history HR. pose proof (wing_at_range _ _ _ _ _ _ _ _ _ _ HR Hw) as Hk. apply wing_at_nth in Hw. split; intros Hkn.
    - destruct (Forall2_nth_l _ _ _ (history_grids _ _ _ _ _ _ _ HR k Hkn Hk) _ _ Hw) as (G & _ & _ & H2 & H3 & _). auto.
    - rewrite (hi_steps _ _ _ _ _ _ _ HR) in Hw. unfold wings_at in Hw. rewrite (ri_future _ _ _ _ RI k Hkn) in Hw.
      destruct (nth_error (up_steady_problems up1) k) as [sp1|] eqn:E1; [|destruct i; discriminate].
      destruct (Forall2_nth _ _ _ (rn_started _ _ _ _ _ _ _ _ (hi_ran _ _ _ _ _ _ _ HR)) _ _ E1) as (sp0 & E0 & S0).
      pose proof (started_wings _ _ _ S0) as FW. destruct (Forall2_nth _ _ _ FW _ _ Hw) as (w0 & Hw0 & (E & _)).
      pose proof (mp_steps _ _ (hi_meshed _ _ _ _ _ _ _ HR) sp0 (nth_error_In _ _ E0)) as (_ & HM & _). rewrite Forall_forall in HM.
      destruct (HM w0 (nth_error_In _ _ Hw0)) as (_ & _ & _ & M1 & M2). rewrite E. cbn [w_set_panels w_wake_rings w_wake_vertices]. auto.
  Qed.

  (** ** Recorded wakes *)
  Definition all_rings (s : unsteady_solver) (k : nat) : list (list (list ring_vortex)) :=
    wake_grids (up_delta_time (us_problem s)) (up_steady_problems (us_problem s)) k.
  Lemma wake_grids_ok F up up1 conv n s sa k sp : history F up up1 conv n s sa -> (k <= n)%nat -> step_at s k sp -> wake_is s k (all_rings s k).
  Proof.
    intros H Hk Hsp. assert (Hkl : (k < length (up_steady_problems up))%nat).
    { rewrite <- (proj2 (history_length _ _ _ _ _ _ _ H)). apply nth_error_Some. unfold step_at in Hsp. congruence. }
    pose proof (history_grids _ _ _ _ _ _ _ H k Hk Hkl) as FG. pose proof (wings_at_some _ _ _ Hsp) as Ew.
    exists sp. split; [exact Hsp|]. unfold all_rings, wake_grids. split.
    - rewrite <- Ew. clear -FG. induction FG as [|w G ws Gs (H1 & H2 & H3 & H4) FG IH]; [constructor|]. cbn [map2]. constructor; [|exact IH].
      destruct k as [|k]; [|apply rings_from_grid; assumption]. rewrite H2. destruct G; cbn; split; auto.
    - intros i g r c ring Hg He. rewrite nth_error_map2 in Hg.
      destruct (nth_error (wings_at (up_steady_problems (us_problem s)) k) i) as [w|] eqn:Hw; [|discriminate].
      destruct (nth_error (shed (up_steady_problems (us_problem s)) k) i) as [G|] eqn:HG; [|discriminate]. apply Some_eq in Hg. subst g.
      destruct (Forall2_nth_l _ _ _ FG _ _ Hw) as (G' & HG' & H1 & H2 & H3 & H4). assert (G' = G) by congruence. subst G'.
      destruct k as [|k].
      { rewrite H2 in He. destruct He as (row & He & _). destruct G; destruct r; discriminate. }
      destruct (rings_from_entry _ _ _ _ _ _ _ _ H2 H4 He) as (A1 & A2 & A3 & A4 & A5 & A6 & A7).
      destruct (entry_range _ _ _ _ _ _ H4 A7) as [Hr _].
      destruct (shed_nth _ _ _ _ _ HG Hr) as (t & Ht & Hgr).
      split; [exact A1|]. split; [exact A2|]. split.
      + exists w. rewrite wing_at_nth. auto.
      + exists t. rewrite wing_at_nth. split; [exact Ht|]. destruct A7 as (row & B1 & B2). congruence.
  Qed.
  Lemma wake_recorded up n s k : created up -> has_run solve prescribed up n s -> (k < n)%nat ->
    exists grids, wake_is s k grids /\ nth_error (us_wakes s) k = Some (record_of (concat (map (@concat ring_vortex) grids))).
  Proof.
    intros HC HR Hk. apply (has_run_history _ _ _ HC) in HR. history HR. pose proof (hi_bound _ _ _ _ _ _ _ HR) as Hb.
    destruct (nth_in_range (up_steady_problems (us_problem s)) k ltac:(lia)) as [sp Hsp].
    exists (all_rings s k). split; [eapply wake_grids_ok; [exact HR | lia | exact Hsp]|].
    rewrite (hi_wakes _ _ _ _ _ _ _ HR), (ri_records _ _ _ _ RI k Hk). unfold wake_record, all_rings.
    rewrite (hi_steps _ _ _ _ _ _ _ HR), (hi_time _ _ _ _ _ _ _ HR), Edt. reflexivity.
  Qed.
  (** The ring vortex objects of the wings of the newest step with a wake. *)
  Lemma wake_objects up n s k sp : created up -> has_run solve prescribed up n s -> k = Nat.min n (length (up_steady_problems up) - 1) -> step_at s k sp ->
    exists grids, wake_is s k grids /\ Forall2 (fun w g => holds (us_heap s) (w_wake_rings w) g) (step_wings sp) grids.
  Proof.
    intros HC HR Hk Hsp. apply (has_run_history _ _ _ HC) in HR. history HR. pose proof (hi_bound _ _ _ _ _ _ _ HR) as Hb.
    exists (all_rings s k). split; [eapply wake_grids_ok; [exact HR | lia | exact Hsp]|].
    assert (Hsome : (0 < length (up_steady_problems up))%nat) by apply (mp_some _ _ (hi_meshed _ _ _ _ _ _ _ HR)).
    assert (FW : Forall2 (wing_wake (up_delta_time up1) k (us_heap sa)) (wings_at (up_steady_problems (us_problem sa)) k) (shed (up_steady_problems (us_problem sa)) k)).
    { destruct (Nat.eq_dec n (length (up_steady_problems up))) as [E|E].
      - apply (ri_last _ _ _ _ RI); lia.
      - assert (k = n) by lia. subst k. rewrite H in *. apply (ri_now _ _ _ _ RI). lia. }
    unfold all_rings, wake_grids. rewrite (hi_heap _ _ _ _ _ _ _ HR), (hi_steps _ _ _ _ _ _ _ HR), (hi_time _ _ _ _ _ _ _ HR), <- Edt.
    unfold step_at in Hsp. rewrite (hi_steps _ _ _ _ _ _ _ HR) in Hsp. rewrite (wings_at_some _ _ _ Hsp) in *.
    clear -FW. induction FW as [|w G ws Gs W FW IH]; [constructor|]. cbn [map2]. constructor; [|exact IH]. apply W.
  Qed.
  Lemma wake_arrays_sizes up n s k sp : created up -> has_run solve prescribed up n s -> step_at s k sp ->
    let size := (k * list_sum (map w_num_spanwise_panels (step_wings sp)))%nat in
    nth_error (us_num_wake s) k = Some size /\
    exists wk, nth_error (us_wakes s) k = Some wk /\
      length (wk_strengths wk) = size /\ length (wk_ages wk) = size /\ length (wk_front_right wk) = size /\
      length (wk_front_left wk) = size /\ length (wk_back_left wk) = size /\ length (wk_back_right wk) = size.
  Proof.
    intros HC HR Hsp. pose proof HR as HR0. apply (has_run_history _ _ _ HC) in HR. history HR. pose proof (hi_bound _ _ _ _ _ _ _ HR) as Hb. cbn zeta.
    assert (Hkl : (k < length (up_steady_problems up))%nat) by (rewrite <- Elen; apply nth_error_Some; unfold step_at in Hsp; congruence).
    pose proof (hi_ran _ _ _ _ _ _ _ HR) as R. pose proof Hsp as Hsp'. unfold step_at in Hsp'. rewrite (hi_steps _ _ _ _ _ _ _ HR) in Hsp'.
    destruct (Forall2_nth _ _ _ (ri_kept _ _ _ _ RI) _ _ Hsp') as (sp1 & H1 & S1).
    destruct (Forall2_nth _ _ _ (rn_started _ _ _ _ _ _ _ _ R) _ _ H1) as (sp0 & H0 & S0).
    assert (E1 : total_spanwise (sp_airplanes sp0) = total_spanwise (sp_airplanes sp1)).
    { rewrite !total_spanwise_flat. f_equal. pose proof (started_wings _ _ _ S0) as FW. unfold step_wings in FW. clear -FW.
      induction FW as [|w v ws vs (E & _) FW IH]; [reflexivity|]. cbn [map]. rewrite IH. f_equal. rewrite E. reflexivity. }
    assert (E2 : total_spanwise (sp_airplanes sp1) = list_sum (map w_num_spanwise_panels (step_wings sp))).
    { rewrite total_spanwise_flat. f_equal. pose proof (solved_step_wings _ _ S1) as FW. unfold step_wings in *. clear -FW.
      induction FW as [|w v ws vs [E _] FW IH]; [reflexivity|]. cbn [map]. rewrite IH. f_equal. rewrite E. reflexivity. }
    split.
    - rewrite (hi_num _ _ _ _ _ _ _ HR), (rn_counts _ _ _ _ _ _ _ _ R), nth_error_map2, nth_error_seq0, H0. destruct (Nat.ltb_spec k (length (up_steady_problems up))); [|lia].
      rewrite E1, E2. reflexivity.
    - destruct (le_lt_dec n k) as [Hnk|Hnk].
      + rewrite (hi_wakes _ _ _ _ _ _ _ HR). exists (zero_wake (k * total_spanwise (sp_airplanes sp1))). split; [exact (ri_pending _ _ _ _ RI k sp1 Hnk H1)|].
        rewrite E2. unfold zero_wake. cbn. rewrite !repeat_length. auto 8.
      + destruct (wake_recorded up n s k HC HR0 Hnk) as (grids & (sp' & Hs' & FG & _) & E). assert (sp' = sp) by (unfold step_at in *; congruence). subst sp'.
        assert (L : length (concat (map (@concat ring_vortex) grids)) = (k * list_sum (map w_num_spanwise_panels (step_wings sp)))%nat).
        { clear -FG. induction FG as [|w g ws gs [L FL] FG IH]; [cbn; lia|]. cbn [map concat]. rewrite app_length, IH. cbn [map]. rewrite list_sum_cons.
          assert (length (concat g) = k * w_num_spanwise_panels w)%nat; [|nia]. rewrite <- L. clear -FL. induction FL as [|row g H FL IH]; [reflexivity|]. cbn [concat length]. rewrite app_length, IH, H. lia. }
        eexists. split; [exact E|]. unfold record_of. cbn. rewrite !map_length, L. auto 8.
  Qed.

  (** ** Where the wake is *)
  Lemma map_entry {A B} (f : A -> B) m r c y : entry (map (map f) m) r c y -> exists x, entry m r c x /\ y = f x.
  Proof.
    intros (row & H1 & H2). rewrite nth_error_map in H1. destruct (nth_error m r) as [row0|] eqn:E; [|discriminate]. apply Some_eq in H1. subst row.
    rewrite nth_error_map in H2. destruct (nth_error row0 c) as [x|] eqn:Ex; [|discriminate]. apply Some_eq in H2. exists x. split; [exists row0; auto | auto].
  Qed.
  Lemma wake_moves up n s k i t w : created up -> has_run solve prescribed up n s -> (k < n)%nat -> wing_at s k i t -> wing_at s (S k) i w ->
    nth_error (w_wake_vertices w) 0 = Some (trailing_vertices w) /\
    exists sk, after solve prescribed up (S k) sk /\
    forall r c v, entry (w_wake_vertices w) (S r) c v ->
    exists v0 u, (match k with O => entry [trailing_vertices w] r c v0 | S _ => entry (w_wake_vertices t) r c v0 end) /\
      unsteady_solution_velocity sk [v0] = Ok [u] /\
      v = vadd v0 (vscale (up_delta_time up) (if prescribed then freestream_at s k else u)).
  Proof.
    intros HC HR Hk Ht Hw. apply (has_run_history _ _ _ HC) in HR. history HR. pose proof (hi_bound _ _ _ _ _ _ _ HR) as Hb.
    pose proof (wing_at_range _ _ _ _ _ _ _ _ _ _ HR Hw) as Hl.
    apply wing_at_nth in Ht. apply wing_at_nth in Hw. rewrite (hi_steps _ _ _ _ _ _ _ HR) in Ht, Hw.
    pose proof (ri_vertices _ _ _ _ RI k Hk ltac:(lia)) as FV. destruct (Forall2_nth _ _ _ FV _ _ Hw) as (t' & Ht' & E & _). assert (t' = t) by congruence. subst t'.
    destruct (nth_error (up_steady_problems (us_problem sa)) k) as [sp|] eqn:Hsp; [|unfold wings_at in Ht; rewrite Hsp in Ht; destruct i; discriminate].
    destruct (rn_moves _ _ _ _ _ _ _ _ (hi_ran _ _ _ _ _ _ _ HR) k sp Hk Hsp) as (sk & Ak & Vk).
    assert (Ef : freestream_at s k = freestream_velocity (sp_operating_point sp)) by (unfold freestream_at; rewrite (hi_steps _ _ _ _ _ _ _ HR), Hsp; reflexivity).
    rewrite E. split; [reflexivity|]. exists sk. split; [exact Ak|]. intros r c v HE.
    assert (HE' : entry (map (map (conv k)) (match k with O => [trailing_vertices w] | S _ => w_wake_vertices t end)) r c v).
    { destruct HE as (row & H1 & H2). exists row. split; [|exact H2]. unfold moved_vertices in H1. cbn [nth_error] in H1. destruct k; exact H1. }
    apply map_entry in HE'. destruct HE' as (v0 & H0 & ->). destruct (Vk v0) as (u & Eu & Ec). exists v0, u. split; [destruct k; exact H0|]. split; [exact Eu|]. rewrite Ef. exact Ec.
  Qed.
  Lemma swept_nil s i : swept s i i = vzero.
  Proof. unfold swept. rewrite Nat.sub_diag. reflexivity. Qed.
  Lemma swept_S s i j : (i <= j)%nat -> swept s i (S j) = vadd (swept s i j) (freestream_at s j).
  Proof.
    intros H. unfold swept. replace (S j - i)%nat with (S (j - i)) by lia. rewrite seq_S, map_app, vsum_app. cbn [map]. replace (i + (j - i))%nat with j by lia.
    rewrite vsum_cons, vsum_nil, vadd_0_r. reflexivity.
  Qed.
  Lemma wing_before F up up1 conv n s sa k i w : history F up up1 conv n s sa -> (k < n)%nat -> wing_at s (S k) i w -> exists t, wing_at s k i t.
  Proof.
    intros HR Hk Hw. pose proof (wing_at_range _ _ _ _ _ _ _ _ _ _ HR Hw) as Hl. apply wing_at_nth in Hw. rewrite (hi_steps _ _ _ _ _ _ _ HR) in Hw.
    pose proof (ri_vertices _ _ _ _ (rn_inv _ _ _ _ _ _ _ _ (hi_ran _ _ _ _ _ _ _ HR)) k Hk) as FV. rewrite (proj1 (history_length _ _ _ _ _ _ _ HR)) in FV.
    destruct (Forall2_nth _ _ _ (FV Hl) _ _ Hw) as (t & Ht & _). exists t. apply wing_at_nth. rewrite (hi_steps _ _ _ _ _ _ _ HR). exact Ht.
  Qed.
End Props.

Section PrescribedWake.
  Variable solve : list (list R) -> list R -> result (list R).
  Hypothesis HS : SolveSpec solve.
  Lemma prescribed_vertices up n s : created up -> has_run solve true up n s -> forall k i w r c v, (0 < k <= n)%nat -> wing_at s k i w ->
    entry (w_wake_vertices w) r c v ->
    (r <= k)%nat /\ exists w' v0, wing_at s (Nat.max 1 (k - r)) i w' /\ nth_error (trailing_vertices w') c = Some v0 /\
      v = vadd v0 (vscale (up_delta_time up) (swept s (k - r) k)).
  Proof.
    intros HC HR. destruct (has_run_history _ HS _ _ _ _ HC HR) as (F & up1 & conv & sa & HH).
    induction k as [|k IH]; intros i w r c v Hk Hw HE; [lia|]. assert (Hkn : (k < n)%nat) by lia.
    destruct (wing_before _ HS _ _ _ _ _ _ _ _ _ _ _ HH Hkn Hw) as [t Ht].
    destruct (wake_moves _ HS _ _ _ _ k i t w HC HR Hkn Ht Hw) as (E0 & sk & _ & HM). destruct r as [|r].
    - split; [lia|]. exists w, v. replace (Nat.max 1 (S k - 0)) with (S k) by lia. split; [exact Hw|]. destruct HE as (row & H1 & H2). rewrite E0 in H1. apply Some_eq in H1. subst row.
      split; [exact H2|]. replace (S k - 0)%nat with (S k) by lia. rewrite swept_nil, vscale_0_r, vadd_0_r. reflexivity.
    - destruct (HM r c v HE) as (v0 & u & H0 & _ & ->). destruct k as [|k].
      + assert (r = 0)%nat. { destruct H0 as (row & H1 & _). destruct r as [|[|r]]; [reflexivity | discriminate | discriminate]. } subst r. split; [lia|].
        exists w, v0. split; [exact Hw|]. destruct H0 as (row & H1 & H2). apply Some_eq in H1. subst row. split; [exact H2|].
        replace (1 - 1)%nat with 0%nat by lia. rewrite swept_S, swept_nil, vadd_0_l by lia. reflexivity.
      + destruct (IH i t r c v0 ltac:(lia) Ht H0) as (Hr & w' & v1 & Hw' & Hv1 & ->). split; [lia|]. exists w', v1. replace (S (S k) - S r)%nat with (S k - r)%nat by lia.
        split; [exact Hw'|]. split; [exact Hv1|]. rewrite (swept_S s _ (S k)) by lia. rewrite vscale_add, vadd_assoc. reflexivity.
  Qed.
End PrescribedWake.
