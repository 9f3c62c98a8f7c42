(** The property theorems of P_Unsteady.v in the form stated there. *)
From Coq Require Import List ZArith Lia Lra Bool Reals String.
From Verif Require Import M_Unsteady S_Unsteady S_UnsteadyRun S_Geometry S_Vortices S_Loads S_Solve S_Movement L_Base L_Loads L_Horseshoe L_SteadyRing L_RingLegs L_Aero L_Frames
  L_Geometry L_Movement L_Snapshots L_Problems L_Static L_Example L_Example3 L_Gauss L_Wake L_WakeWings L_Unsteady L_UnsteadyStep L_UnsteadyRun L_UnsteadyFinal L_UnsteadyProps L_UnsteadyProps2 L_UnsteadyFlow L_UnsteadyStill L_Example4 L_Example5 L_OnlyFinal L_NoLoads L_UnsteadyLoads.
Import ListNotations.
Local Open Scope R_scope.
Local Open Scope list_scope.

Section Statements.
  Variable solve : list (list R) -> list R -> result (list R).
  Hypothesis HS : SolveSpec solve.
  Variable prescribed : bool.
  Lemma run_step_exists up n s k : created up -> has_run solve prescribed up n s -> (k < length (up_steady_problems up))%nat -> exists sp, step_at s k sp.
  Proof.
    intros HC HR Hk. pose proof (steps_kept _ HS _ _ _ _ HC HR) as FK. destruct (nth_in_range _ _ Hk) as [sp0 H0]. destruct (Forall2_nth_l _ _ _ FK _ _ H0) as (sp & Hsp & _). exists sp. exact Hsp.
  Qed.
  Lemma static_flapping ams om ns cy ch d m only up n s method point : new_movement ams om ns cy ch d = Ok m -> new_unsteady_problem m only = Ok up ->
    Forall airplane_unmoving ams -> unmoving (om_velocity om) -> has_run solve prescribed up (S n) s -> up_delta_time up <> 0 -> In (method, point) flapping_methods ->
    exists vs sp, method s = Ok vs /\ step_at s n sp /\ length vs = length (step_panels sp) /\ forall v, In v vs -> v = vzero.
  Proof.
    intros Hm Hup HU HV HR Hdt Hin. assert (HC : created up) by (do 7 eexists; exists only; eauto).
    destruct n as [|k]; [exact (first_apparent_velocities _ HS _ _ _ _ _ HC HR Hin)|].
    destruct (apparent_velocities _ HS _ _ _ _ _ _ HC HR Hdt Hin) as (_ & spk & _ & Hk & _).
    pose proof (steps_kept _ HS _ _ _ _ HC HR) as FK. destruct (Forall2_nth _ _ _ FK _ _ Hk) as (b & Hb & _).
    assert (k < length (up_steady_problems up))%nat as Hlt. { assert (nth_error (up_steady_problems up) (S k) <> None) as X by congruence. apply nth_error_Some in X. lia. }
    destruct (nth_in_range _ _ Hlt) as [a Ha]. destruct (static_snapshots _ _ _ _ _ _ _ _ _ _ _ _ _ Hm Hup HU Hb Ha) as [_ E]. specialize (E HV). subst b.
    exact (still_everywhere _ HS _ _ _ _ _ _ _ _ HC HR Hdt Ha Hb eq_refl eq_refl Hin).
  Qed.
  Lemma periodless_flapping ams om ns cy ch d m only up n s method point : new_movement ams om ns cy ch d = Ok m -> new_unsteady_problem m only = Ok up ->
    (forall p, In p (all_periods ams om) -> p = 0) -> has_run solve prescribed up (S n) s -> up_delta_time up <> 0 -> In (method, point) flapping_methods ->
    exists vs sp, method s = Ok vs /\ step_at s n sp /\ length vs = length (step_panels sp) /\ forall v, In v vs -> v = vzero.
  Proof. intros Hm Hup HP. destruct (no_periods _ _ HP). eapply static_flapping; eassumption. Qed.
End Statements.

(** Non-vacuity: the example runs. *)
Lemma windy_hypotheses prescribed only : exists up s, windy_case gust prescribed true only up s /\ created up /\ up_delta_time up <> 0 /\ has_run gauss_solve prescribed up 3 s /\
  (exists t, has_run gauss_solve prescribed up 2 t /\ exists p, panel_of_step t 1 0 p) /\
  exists t sp p r, has_run gauss_solve prescribed up 1 t /\ step_at t 0 sp /\ step_panels sp = [p] /\ p_ring_vortex p = Some r /\ rv_strength r <> 0.
Proof.
  assert (Ho : In gust [resting; gust]) by (right; left; reflexivity). destruct (windy_runs gust prescribed true only Ho) as (up & s & HW). exists up, s. split; [exact HW|].
  destruct (windy_facts _ _ _ _ _ _ Ho HW) as (HC & Edt & Hlen & HR & HK & _). split; [exact HC|]. split; [rewrite Edt; lra|]. split; [exact HR|]. split.
  - destruct (HK 2%nat ltac:(lia)) as [t Ht]. exists t. split; [left; exact Ht|]. destruct (windy_step _ _ _ _ _ _ _ _ 1 Ho HW (or_introl Ht) ltac:(lia)) as (sp & p & w & _ & _ & Hp & _). eauto.
  - destruct (HK 1%nat ltac:(lia)) as [t Ht]. destruct (windy_step _ _ _ _ _ _ _ _ 0 Ho HW (or_introl Ht) ltac:(lia)) as (sp & _ & _ & Hsp & _).
    destruct (windy_strength _ _ _ _ _ _ _ _ Ho HW (or_introl Ht) Hsp) as (p & r & A & B & C). exists t, sp, p, r. repeat (split; [first [assumption | left; exact Ht]|]). exact C.
Qed.
Lemma windy_grids prescribed : exists up s w grids, created up /\ has_run gauss_solve prescribed up 3 s /\ wing_at s 2 0 w /\
  wake_is s 2 grids /\ (exists ring g, nth_error grids 0 = Some g /\ entry g 1 0 ring) /\ (exists id, entry (w_wake_rings w) 1 0 id) /\
  (exists v, entry (w_wake_vertices w) 2 0 v) /\ exists p, nth_error (trailing_panels w) 0 = Some p.
Proof.
  assert (Ho : In gust [resting; gust]) by (right; left; reflexivity). destruct (windy_runs gust prescribed true false Ho) as (up & s & HW).
  destruct (windy_facts _ _ _ _ _ _ Ho HW) as (HC & Edt & Hlen & HR & HK & _). destruct (windy_step _ _ _ _ _ _ _ _ 2 Ho HW HR ltac:(lia)) as (sp & p & w & Hsp & _ & _ & Hw & EW & Hspan & ET).
  destruct (wake_recorded _ gauss_solve_spec _ _ _ _ 2 HC HR ltac:(lia)) as (grids & Hg & _). exists up, s, w, grids.
  split; [exact HC|]. split; [exact HR|]. split; [exact Hw|]. split; [exact Hg|]. destruct (wake_sizes _ gauss_solve_spec _ _ _ _ _ _ _ HC HR Hw) as [HG _]. destruct (HG ltac:(lia)) as [G1 G2]. rewrite Hspan in G1, G2.
  split; [|split; [exact (entry_exists _ _ _ 1 0 G1 ltac:(lia) ltac:(lia))|split; [exact (entry_exists _ _ _ 2 0 G2 ltac:(lia) ltac:(lia)) | rewrite ET; exists p; reflexivity]]].
  destruct Hg as (sp' & Hsp' & FG & _). assert (sp' = sp) by (unfold step_at in *; congruence). subst sp'. rewrite EW in FG. inversion FG as [|? g ? gs G FG' X1 X2]; subst. rewrite Hspan in G.
  destruct (entry_exists _ _ _ 1 0 G ltac:(lia) ltac:(lia)) as [ring Hr]. exists ring, g. auto.
Qed.
(** A static and a periodic problem with a finished run. *)
Lemma windy_periods : (exists up s, created up /\ finished gauss_solve true false up s /\ up_max_period up = 0) /\
  exists up s, created up /\ finished gauss_solve false true up s /\ up_max_period up <> 0.
Proof.
  assert (HP : forall o only m up p, new_movement [ex_airplane_movement 0 resting] (windy o) (Some 3%Z) None None (Some 1) = Ok m -> new_unsteady_problem m only = Ok up -> largest (all_periods [ex_airplane_movement 0 resting] (windy o)) p -> up_max_period up = p).
  { intros o only m up p Hm Hup HL. destruct (unsteady_built _ _ _ Hup) as (_ & _ & _ & _ & E & _). destruct (movement_built _ _ _ _ _ _ _ Hm) as (EA & EO & _).
    eapply largest_unique; [|exact HL]. unfold mv_max_period in E. first [rewrite EA, EO in E | idtac]. apply max_period_largest. exact E. }
  assert (HL : forall o, 0 <= osc_period o -> largest (all_periods [ex_airplane_movement 0 resting] (windy o)) (osc_period o)).
  { intros o H. split; [unfold all_periods; apply in_or_app; right; left; reflexivity|]. intros x Hx. unfold all_periods in Hx. cbn in Hx. repeat (destruct Hx as [<-|Hx]; [lra|]). destruct Hx. }
  split.
  - destruct (windy_runs resting true false false (or_introl eq_refl)) as (up & s & HW). destruct (windy_facts _ _ _ _ _ _ (or_introl eq_refl) HW) as (HC & _). destruct HW as [(m & Hm & Hup) HF].
    exists up, s. split; [exact HC|]. split; [exact HF|]. rewrite (HP _ _ _ _ _ Hm Hup (HL resting ltac:(cbn; lra))). reflexivity.
  - destruct (windy_runs gust false true false (or_intror (or_introl eq_refl))) as (up & s & HW). destruct (windy_facts _ _ _ _ _ _ (or_intror (or_introl eq_refl)) HW) as (HC & _). destruct HW as [(m & Hm & Hup) HF].
    exists up, s. split; [exact HC|]. split; [exact HF|]. rewrite (HP _ _ _ _ _ Hm Hup (HL gust ltac:(cbn; lra))). cbn. lra.
Qed.
Lemma windy_still : exists ams om m up s, new_movement ams om (Some 3%Z) None None (Some 1) = Ok m /\ new_unsteady_problem m false = Ok up /\
  Forall airplane_unmoving ams /\ unmoving (om_velocity om) /\ has_run gauss_solve false up 3 s /\ up_delta_time up <> 0.
Proof.
  destruct (windy_runs resting false false false (or_introl eq_refl)) as (up & s & HW). destruct (windy_facts _ _ _ _ _ _ (or_introl eq_refl) HW) as (HC & Edt & Hlen & HR & HK & m & a & Hm & Hup & _).
  exists [ex_airplane_movement 0 resting], (windy resting), m, up, s. split; [exact Hm|]. split; [exact Hup|]. split.
  - constructor; [|constructor]. split; [constructor; [apply resting_wing | constructor]|]. repeat split; left; reflexivity.
  - split; [left; reflexivity|]. split; [exact HR | rewrite Edt; lra].
Qed.
Lemma gust_moves_legs : exists up s a b vs v, created up /\ has_run gauss_solve false up 2 s /\ up_delta_time up <> 0 /\
  nth_error (up_steady_problems up) 0 = Some a /\ nth_error (up_steady_problems up) 1 = Some b /\ sp_airplanes b = sp_airplanes a /\
  flapping_at_right_leg_centers s = Ok vs /\ In v vs /\ v <> vzero.
Proof.
  assert (Ho : In gust [resting; gust]) by (right; left; reflexivity). destruct (windy_runs gust false true false Ho) as (up & s & HW).
  destruct (windy_facts _ _ _ _ _ _ Ho HW) as (HC & Edt & Hlen & HR & HK & m & a & Hm & Hup & Ea & Hst). destruct (HK 2%nat ltac:(lia)) as [t Ht].
  destruct (windy_legs _ _ _ _ _ _ HW (or_introl Ht)) as (v & Hv & _ & Hv0).
  destruct (nth_in_range (up_steady_problems up) 0 ltac:(rewrite Hlen; lia)) as [s0 H0]. destruct (nth_in_range (up_steady_problems up) 1 ltac:(rewrite Hlen; lia)) as [s1 H1].
  exists up, t, s0, s1, [v], v. split; [exact HC|]. split; [left; exact Ht|]. split; [rewrite Edt; lra|]. split; [exact H0|]. split; [exact H1|].
  split; [rewrite (proj1 (Hst _ _ H0)), (proj1 (Hst _ _ H1)); reflexivity|]. split; [exact Hv|]. split; [left; reflexivity | exact Hv0].
Qed.
Lemma wake_objects_age : exists up s w id ring wk, created up /\ finished gauss_solve false true up s /\ wing_at s 1 0 w /\ w_wake_rings w = [[id]] /\
  nth_error (us_heap s) id = Some ring /\ nth_error (us_wakes s) 1 = Some wk /\ wk_ages wk = [0] /\ rv_age ring <> 0.
Proof.
  assert (Ho : In gust [resting; gust]) by (right; left; reflexivity). destruct (windy_runs gust false true false Ho) as (up & s & HW).
  destruct (windy_facts _ _ _ _ _ _ Ho HW) as (HC & _). destruct (windy_aliased _ _ _ _ _ _ Ho HW) as (w & id & ring & wk & A & B & C & D & E & F).
  exists up, s, w, id, ring, wk. repeat (split; [first [assumption | apply HW]|]). rewrite D. lra.
Qed.
Lemma windy_late : exists ams om m late early s t, new_movement ams om (Some 3%Z) None None (Some 1) = Ok m /\
  new_unsteady_problem m true = Ok late /\ new_unsteady_problem m false = Ok early /\
  finished gauss_solve false true late s /\ finished gauss_solve false true early t /\ up_first_averaging_step late = 2%Z.
Proof.
  destruct (windy_runs resting false true true (or_introl eq_refl)) as (late & s & HW). destruct (windy_runs resting false true false (or_introl eq_refl)) as (early & t & HW').
  destruct (windy_facts _ _ _ _ _ _ (or_introl eq_refl) HW) as (HC & _ & Hlen & _). destruct HW as [(m & Hm & Hl) HF]. destruct HW' as [(m' & Hm' & He) HF']. assert (m' = m) by congruence. subst m'.
  do 7 eexists. split; [exact Hm|]. split; [exact Hl|]. split; [exact He|]. split; [exact HF|]. split; [exact HF'|].
  destruct (created_fields _ HC) as (_ & _ & _ & C4 & _). destruct (finished_meshed _ _ _ _ _ HC HF) as [F HM]. pose proof (mp_size _ _ HM) as Hs. rewrite Hlen in Hs.
  destruct (unsteady_built _ _ _ Hl) as (_ & _ & _ & _ & EP & _). rewrite C4, <- Hs. unfold first_averaging_step.
  assert (E0 : up_max_period late = 0). { destruct (movement_built _ _ _ _ _ _ _ Hm) as (HA & HO & _). unfold mv_max_period in EP. rewrite HA, HO in EP. pose proof (proj1 (max_period_largest _ _ _ EP)) as X.
    cbn in X. decompose [or] X; first [symmetry; assumption | contradiction]. }
  rewrite E0. rewrite (proj2 (Reqb_true 0 0) eq_refl). reflexivity.
Qed.
Lemma windy_loads : exists up s i a w c j p, created up /\ has_run gauss_solve false up 2 s /\ up_delta_time up <> 0 /\ (up_first_results_step up <= 1)%Z /\ panel_place s 1 i a w c j p.
Proof.
  destruct (windy_hypotheses false false) as (up & s & HW & HC & Hdt & _ & (t & HR & p & Hp) & _). exists up, t, 0%nat. destruct Hp as (sp & Hsp & Hp). unfold step_panels in Hp.
  rewrite <- flat_panels_snd, nth_error_map in Hp. destruct (nth_error (flat_panels (sp_airplanes sp)) 0) as [[[a w] q]|] eqn:E; [|discriminate]. cbn in Hp. apply Some_eq in Hp. subst q.
  pose proof (proj1 (in_flat _ _ _ _) (nth_error_In _ _ E)) as (_ & _ & Hin). unfold ravel in Hin. apply in_concat in Hin. destruct Hin as (row & Hr & Hq). apply In_nth_error in Hr, Hq. destruct Hr as [c Hr], Hq as [j Hj].
  exists a, w, c, j, p. split; [exact HC|]. split; [exact HR|]. split; [exact Hdt|]. split.
  - destruct (created_fields _ HC) as (_ & _ & _ & _ & C5 & _). destruct HW as [(m & _ & Hup) _]. destruct (unsteady_built _ _ _ Hup) as (_ & _ & _ & U & _). rewrite U in C5. lia.
  - exists sp. split; [exact Hsp|]. split; [exact E|]. exists row. auto.
Qed.
