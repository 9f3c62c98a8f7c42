(** Two runs of the unsteady solver that differ in the first step whose loads are computed. *)
From Coq Require Import List ZArith Lia Lra Bool Reals.
From Verif Require Import M_Unsteady S_Unsteady S_UnsteadyRun S_Geometry S_Vortices S_Loads S_Solve S_Movement L_Base L_Loads L_Horseshoe L_SteadyRing L_RingLegs L_Aero L_Frames
  L_Geometry L_Problems L_Wake L_WakeWings L_Unsteady L_UnsteadyStep L_UnsteadyRun L_UnsteadyFinal L_UnsteadyProps L_UnsteadyProps2.
Import ListNotations.
Local Open Scope R_scope.
Local Open Scope list_scope.

(** ** Panels that are alike *)
Lemma same_panel_refl' p : same_panel p p.
Proof. unfold same_panel. auto 12. Qed.
Lemma alike_panel_refl p : alike_panel p p.
Proof. split; [apply same_panel_refl' | auto]. Qed.
Lemma Forall2_refl_on {A} (P : A -> A -> Prop) l : (forall x, P x x) -> Forall2 P l l.
Proof. intros H. induction l; constructor; auto. Qed.
Lemma alike_wing_refl w : alike_wing w w.
Proof. split; [destruct w; reflexivity|]. apply Forall2_refl_on. intros. apply Forall2_refl_on, alike_panel_refl. Qed.
Lemma alike_airplane_refl a : alike_airplane a a.
Proof. split; [apply Forall2_refl_on, alike_wing_refl | auto 10]. Qed.
Lemma alike_step_refl sp : alike_step sp sp.
Proof. split; [reflexivity | apply Forall2_refl_on, alike_airplane_refl]. Qed.
Lemma kept_alike_wing w v : L_SteadyRing.wing_kept w v -> alike_wing w v.
Proof. intros [[E _] HF]. split; [exact E | exact HF]. Qed.
Lemma kept_alike a b : L_SteadyRing.airplane_kept a b -> alike_airplane a b.
Proof. intros [(_ & H) FW]. split; [eapply Forall2_impl; [|exact FW]; apply kept_alike_wing | tauto]. Qed.

(** ** Rows and arrays of the last step *)
Lemma alike_flat l m : Forall2 alike_airplane l m ->
  Forall2 (fun x y => alike_airplane (fst (fst x)) (fst (fst y)) /\ alike_wing (snd (fst x)) (snd (fst y)) /\ alike_panel (snd x) (snd y)) (flat_panels l) (flat_panels m).
Proof. apply flat_rel; [intros a b H; apply H | intros w v H; apply H]. Qed.
Definition row_alike (r r' : ring_row) : Prop :=
  rr_collocation r' = rr_collocation r /\ rr_vortex r' = rr_vortex r.
Lemma collapse_alike l m rows rows' : Forall2 alike_airplane l m -> unsteady_collapse l = Ok rows -> unsteady_collapse m = Ok rows' -> Forall2 row_alike rows rows'.
Proof.
  intros HF E E'. apply alike_flat in HF. apply mapM_Forall2 in E, E'. revert rows rows' E E'. induction HF as [|[[a w] p] [[b v] q] l' m' (_ & _ & HP) HF IH]; intros rows rows' E E'.
  - inversion E; inversion E'; constructor.
  - inversion E as [|? r ? rs Hr E1 X1 X2]; inversion E' as [|? r' ? rs' Hr' E1' X1' X2']; subst. constructor; [|apply IH; assumption].
    cbn [snd] in HP. destruct HP as (HS & HR & _). unfold unsteady_make_row in Hr, Hr'. rewrite HR in Hr'. destruct (p_ring_vortex p) as [ring|]; [|discriminate].
    apply Ok_eq in Hr, Hr'. subst r r'. split; [|reflexivity]. unfold rr_collocation. cbn [rr_panel]. apply (same_panel_collocation _ _ HS).
Qed.
Lemma last_of_alike rows rows' : Forall2 row_alike rows rows' -> last_of rows' = last_of rows.
Proof.
  intros HF. unfold last_of. assert (E : forall {A} (f : ring_row -> A), (forall r r', row_alike r r' -> f r' = f r) -> map f rows' = map f rows).
  { intros A f Hf. induction HF as [|r r' l l' H HF IH]; [reflexivity|]. cbn. rewrite (Hf r r' H), IH. reflexivity. }
  f_equal; apply E; intros r r' [H1 H2]; unfold rr_right_center, rr_front_center, rr_left_center; rewrite ?H2; auto.
Qed.
Lemma last_arrays_alike n k steps steps' la la' : (forall j sp sp', nth_error steps j = Some sp -> nth_error steps' j = Some sp' -> Forall2 alike_airplane (sp_airplanes sp) (sp_airplanes sp')) ->
  last_step_arrays n k steps = Ok la -> last_step_arrays n k steps' = Ok la' -> la' = la.
Proof.
  intros HA E E'. destruct k as [|k]; [cbn in E, E'; congruence|]. cbn [last_step_arrays] in E, E'.
  apply bind_Ok in E. destruct E as (sp & Hsp & E). apply bind_Ok in E'. destruct E' as (sp' & Hsp' & E'). apply index_Some in Hsp, Hsp'.
  apply bind_Ok in E. destruct E as (rows & Hr & E). apply bind_Ok in E'. destruct E' as (rows' & Hr' & E').
  pose proof (last_of_alike _ _ (collapse_alike _ _ _ _ (HA _ _ _ Hsp Hsp') Hr Hr')) as EL. unfold last_of in EL.
  assert (E1 : map rr_collocation rows' = map rr_collocation rows) by exact (f_equal la_collocations EL).
  assert (E2 : map (fun r => rv_strength (rr_vortex r)) rows' = map (fun r => rv_strength (rr_vortex r)) rows) by exact (f_equal la_strengths EL).
  assert (E3 : map rr_right_center rows' = map rr_right_center rows) by exact (f_equal la_right_centers EL).
  assert (E4 : map rr_front_center rows' = map rr_front_center rows) by exact (f_equal la_front_centers EL).
  assert (E5 : map rr_left_center rows' = map rr_left_center rows) by exact (f_equal la_left_centers EL).
  rewrite E1, E2, E3, E4, E5 in E'. congruence.
Qed.

(** ** The next wake *)
Lemma ring_strength_alike m n c s : Forall2 (Forall2 alike_panel) m n -> ring_strength_at n c s = ring_strength_at m c s.
Proof.
  intros HF. unfold ring_strength_at, panel_at. 
  assert (G : forall {A} (P : A -> A -> Prop) l l' k, Forall2 P l l' -> match index l k, index l' k with Ok x, Ok y => P x y | Err e, Err e' => e = e' | _, _ => False end).
  { intros A P l l' k F. revert k. induction F as [|x y l l' H F IH]; intros [|k]; cbn; auto. apply IH. }
  pose proof (G _ _ _ _ c HF) as H1. destruct (index m c) as [row|e], (index n c) as [row'|e']; try contradiction; cbn [bind]; [|subst; reflexivity].
  pose proof (G _ _ _ _ s H1) as H2. destruct (index row s) as [p|e], (index row' s) as [p'|e']; try contradiction; cbn [bind]; [|subst; reflexivity].
  destruct H2 as (_ & H2 & _). rewrite H2. reflexivity.
Qed.
Lemma alike_wing_fields w v : alike_wing w v -> w_num_chordwise_panels v = w_num_chordwise_panels w /\ w_num_spanwise_panels v = w_num_spanwise_panels w /\
  w_wake_vertices v = w_wake_vertices w /\ w_wake_rings v = w_wake_rings w.
Proof. intros [E _]. rewrite E. auto. Qed.
Lemma next_vertices_alike step convect w v n : alike_wing w v -> next_wake_vertices step convect v n = next_wake_vertices step convect w n.
Proof. intros H. destruct (alike_wing_fields _ _ H) as (E1 & E2 & E3 & E4). unfold next_wake_vertices, trailing_edge_row. rewrite E1, E2, E3. reflexivity. Qed.
Lemma next_rings_alike step dt heap w v n : alike_wing w v -> next_wake_rings step dt heap v n = next_wake_rings step dt heap w n.
Proof.
  intros H. destruct (alike_wing_fields _ _ H) as (E1 & E2 & E3 & E4). unfold next_wake_rings. rewrite E4.
  assert (E : forall l, mapM (shed_ring (w_wake_vertices n) v) l = mapM (shed_ring (w_wake_vertices n) w) l).
  { intros l. induction l as [|s l IH]; [reflexivity|]. cbn [mapM]. rewrite IH. unfold shed_ring at 1 3. rewrite E1, (ring_strength_alike _ _ _ _ (proj2 H)). reflexivity. }
  rewrite E. reflexivity.
Qed.
Lemma for_wings_alike {S} (f : S -> wing -> wing -> result (S * wing)) : (forall st w v n, alike_wing w v -> f st v n = f st w n) ->
  forall l m, Forall2 alike_wing l m -> forall st nexts, for_wings f st m nexts = for_wings f st l nexts.
Proof.
  intros Hf l m HF st nexts. unfold for_wings. rewrite (Forall2_length _ _ _ HF). destruct (check (Nat.eqb (length nexts) (length m)) EIndexError); [cbn [bind]|reflexivity].
  revert st nexts. induction HF as [|w v l m H HF IH]; intros st [|n nexts]; try reflexivity.
  rewrite (Hf st w v n H). destruct (f st w n) as [[st' n']|e]; [cbn [bind fst snd]|reflexivity]. rewrite (IH st' nexts). reflexivity.
Qed.
Lemma for_airplanes_alike {S} (f : S -> wing -> wing -> result (S * wing)) : (forall st w v n, alike_wing w v -> f st v n = f st w n) ->
  forall l m, Forall2 alike_airplane l m -> forall st nexts, for_airplanes f st m nexts = for_airplanes f st l nexts.
Proof.
  intros Hf l m HF st nexts. unfold for_airplanes. rewrite (Forall2_length _ _ _ HF). destruct (check (Nat.leb (length nexts) (length m)) EIndexError); [cbn [bind]|reflexivity].
  revert st nexts. induction HF as [|w v l m H HF IH]; intros st [|n nexts]; try reflexivity.
  rewrite (for_wings_alike f Hf _ _ (proj1 H) st (a_wings n)). destruct (for_wings f st (a_wings w) (a_wings n)) as [[st' n']|e]; [cbn [bind fst snd]|reflexivity]. rewrite (IH st' nexts). reflexivity.
Qed.
Lemma populate_alike step dt convect heap l m nexts : Forall2 alike_airplane l m -> populate_wake step dt convect heap m nexts = populate_wake step dt convect heap l nexts.
Proof.
  intros HF. unfold populate_wake. rewrite (for_airplanes_alike (fun st t n => let* w := next_wake_vertices step convect t n in Ok (st, w))) with (l := l); [|intros st w v n H; cbn beta; rewrite (next_vertices_alike _ _ _ _ _ H); reflexivity | exact HF].
  destruct (for_airplanes _ tt l nexts) as [r|e]; [cbn [bind]|reflexivity]. apply for_airplanes_alike; [|exact HF]. intros st w v n H. apply next_rings_alike. exact H.
Qed.

(** ** Two runs *)
(** The same problem but for the first step with loads: [late] starts later. *)
Record differs_in_results (late early : unsteady_problem) : Prop := {
  dr_steps : up_steady_problems early = up_steady_problems late;
  dr_num : up_num_steps early = up_num_steps late;
  dr_time : up_delta_time early = up_delta_time late;
  dr_period : up_max_period early = up_max_period late;
  dr_average : up_first_averaging_step early = up_first_averaging_step late;
  dr_final : up_final early = up_final late /\ up_final_mean early = up_final_mean late /\ up_final_rms early = up_final_rms late;
  dr_first : (up_first_results_step early <= up_first_results_step late)%Z }.
(** The states of the two runs after [n] steps. *)
Record twins (late : unsteady_problem) (n : nat) (s t : unsteady_solver) : Prop := {
  tw_heap : us_heap t = us_heap s;
  tw_num : us_num_wake t = us_num_wake s;
  tw_wakes : us_wakes t = us_wakes s;
  tw_current : us_current t = us_current s;
  tw_lines : us_streamline_points t = us_streamline_points s;
  tw_steps : Forall2 alike_step (up_steady_problems (us_problem s)) (up_steady_problems (us_problem t));
  tw_equal : forall k, (n <= k)%nat \/ (up_first_results_step late <= Z.of_nat k)%Z ->
     nth_error (up_steady_problems (us_problem t)) k = nth_error (up_steady_problems (us_problem s)) k }.

Lemma Forall2_set_at {A} (P : A -> A -> Prop) l m i x y : Forall2 P l m -> P x y -> Forall2 P (set_at i x l) (set_at i y m).
Proof.
  intros HF HP. revert i. induction HF as [|a b l m H HF IH]; intros i.
  - unfold set_at. rewrite !firstn_nil, !skipn_nil. cbn. constructor; [exact HP | constructor].
  - destruct i as [|i]; [constructor; assumption|]. change (Forall2 P (a :: set_at i x l) (b :: set_at i y m)). constructor; auto.
Qed.
(** The shed strengths do not depend on loads. *)
Lemma trailing_strengths_alike w v : alike_wing w v -> trailing_strengths v = trailing_strengths w.
Proof.
  intros [_ HF]. unfold trailing_strengths, trailing_panels. 
  assert (HL : Forall2 alike_panel (last (w_panels w) []) (last (w_panels v) [])).
  { induction HF as [|r r' l l' H HF IH]; [constructor|]. destruct HF; [exact H|]. exact IH. }
  induction HL as [|p q l l' (_ & H & _) HL IH]; [reflexivity|]. cbn [map]. rewrite IH. unfold strength_of. rewrite H. reflexivity.
Qed.
Lemma alike_step_wings sp sp' : alike_step sp sp' -> Forall2 alike_wing (step_wings sp) (step_wings sp').
Proof. intros [_ HF]. unfold step_wings. apply Forall2_concat. apply Forall2_map_both. eapply Forall2_impl; [|exact HF]. intros a b H. apply H. Qed.
Lemma wings_at_alike l m k : Forall2 alike_step l m -> Forall2 alike_wing (wings_at l k) (wings_at m k).
Proof.
  intros HF. unfold wings_at. destruct (nth_error l k) as [sp|] eqn:E.
  - destruct (Forall2_nth_l _ _ _ HF _ _ E) as (sp' & -> & H). apply alike_step_wings. exact H.
  - apply nth_error_None in E. rewrite (Forall2_length _ _ _ HF) in E. apply nth_error_None in E. rewrite E. constructor.
Qed.
Lemma shed_alike l m k : Forall2 alike_step l m -> shed m k = shed l k.
Proof.
  intros HF. induction k as [|k IH]; cbn [shed].
  - pose proof (wings_at_alike l m 0 HF) as H. induction H as [|w v ws vs _ H IH]; [reflexivity|]. cbn. rewrite IH. reflexivity.
  - rewrite IH. f_equal. pose proof (wings_at_alike l m k HF) as H. induction H as [|w v ws vs H' H IH']; [reflexivity|]. cbn. rewrite IH', (trailing_strengths_alike _ _ H'). reflexivity.
Qed.
Lemma wake_record_alike dt l m k : Forall2 alike_step l m -> wake_record dt m k = wake_record dt l k.
Proof.
  intros HF. unfold wake_record, wake_grids. rewrite (shed_alike _ _ _ HF). do 3 f_equal. pose proof (wings_at_alike l m k HF) as H. generalize (shed l k).
  induction H as [|w v ws vs H' H IH']; intros G; [reflexivity|]. destruct G as [|g G]; [reflexivity|]. cbn [map2]. rewrite IH'. destruct (alike_wing_fields _ _ H') as (_ & _ & -> & _). reflexivity.
Qed.
Section Twins.
  Variable solve : list (list R) -> list R -> result (list R).
  Hypothesis HS : SolveSpec solve.
  Variable prescribed : bool.

  Lemma step_shape s n s' : unsteady_step solve prescribed s n = Ok s' -> exists c airplanes steps,
    us_current s' = Some c /\ set_airplanes n airplanes (up_steady_problems (us_problem s)) = Ok steps /\
    (us_wakes s' = set_at n (cu_wake c) (us_wakes s) /\ us_num_wake s' = us_num_wake s) /\
    let dt := up_delta_time (us_problem s) in
    if (Z.of_nat n <? up_num_steps (us_problem s) - 1)%Z then
      exists next r steps', index steps (S n) = Ok next /\
        populate_wake n dt (convect_vertex prescribed (cu_freestream c) (current_velocity c) dt) (us_heap s) airplanes (sp_airplanes next) = Ok r /\
        set_airplanes (S n) (snd r) steps = Ok steps' /\ us_heap s' = fst r /\ up_steady_problems (us_problem s') = steps'
    else us_heap s' = us_heap s /\ up_steady_problems (us_problem s') = steps.
  Proof.
    unfold unsteady_step. cbn zeta. intros E. do 7 (apply bind_Ok in E; destruct E as (? & _ & E)). apply bind_Ok in E; destruct E as (airplanes & _ & E).
    apply bind_Ok in E; destruct E as (steps & Eset & E). apply bind_Ok in E; destruct E as (hs & Ehs & E). apply Ok_eq in E. subst s'.
    eexists _, airplanes, steps. split; [reflexivity|]. split; [exact Eset|]. split; [split; reflexivity|]. cbn [cu_freestream us_heap us_problem up_set_steps up_steady_problems].
    destruct (Z.of_nat n <? up_num_steps (us_problem s) - 1)%Z.
    - apply bind_Ok in Ehs; destruct Ehs as (next & En & Ehs). apply bind_Ok in Ehs; destruct Ehs as (r & Er & Ehs). apply bind_Ok in Ehs; destruct Ehs as (steps' & Es' & Ehs). apply Ok_eq in Ehs. subst hs.
      exists next, r, steps'. auto.
    - apply Ok_eq in Ehs. subst hs. auto.
  Qed.
  Lemma twins_step F late early late1 early1 conv conv' n s t : differs_in_results late early ->
    ran solve prescribed F late late1 conv n s -> ran solve prescribed F early early1 conv' n t -> (n < length (up_steady_problems late))%nat ->
    after solve prescribed late n s -> after solve prescribed early n t -> twins late n s t ->
    (exists e, unsteady_step solve prescribed s n = Err e /\ unsteady_step solve prescribed t n = Err e) \/
    exists s' t', unsteady_step solve prescribed s n = Ok s' /\ unsteady_step solve prescribed t n = Ok t' /\ twins late (S n) s' t'.
  Proof.
    intros HD Rs Rt Hn As At HT.
    pose proof (Forall2_length _ _ _ (rn_started _ _ _ _ _ _ _ _ Rs)) as Ls. pose proof (Forall2_length _ _ _ (rn_started _ _ _ _ _ _ _ _ Rt)) as Lt. rewrite (dr_steps _ _ HD) in Lt.
    destruct (unsteady_step_ok solve prescribed F late1 conv n s (rn_ready _ _ _ _ _ _ _ _ Rs) (rn_inv _ _ _ _ _ _ _ _ Rs) ltac:(lia)) as (sp & rows & la & Hsp & Ec & FR & PR & El & Sl & Herr & Hok).
    destruct (unsteady_step_ok solve prescribed F early1 conv' n t (rn_ready _ _ _ _ _ _ _ _ Rt) (rn_inv _ _ _ _ _ _ _ _ Rt) ltac:(lia)) as (sp' & rows' & la' & Hsp' & Ec' & FR' & PR' & El' & Sl' & Herr' & Hok').
    pose proof (rn_start _ _ _ _ _ _ _ _ Rs) as Ps. pose proof (rn_start _ _ _ _ _ _ _ _ Rt) as Pt.
    assert (Es : us_problem s = up_set_steps (up_steady_problems (us_problem s)) late) by (rewrite (ri_problem _ _ _ _ (rn_inv _ _ _ _ _ _ _ _ Rs)) at 1; rewrite Ps; reflexivity).
    assert (Et : us_problem t = up_set_steps (up_steady_problems (us_problem t)) early) by (rewrite (ri_problem _ _ _ _ (rn_inv _ _ _ _ _ _ _ _ Rt)) at 1; rewrite Pt; reflexivity).
    assert (Ds : up_delta_time late1 = up_delta_time late) by (rewrite Ps; reflexivity). assert (Dt : up_delta_time early1 = up_delta_time late) by (rewrite Pt; cbn; apply (dr_time _ _ HD)).
    assert (sp' = sp) by (rewrite (tw_equal _ _ _ _ HT n (or_introl (le_n _))) in Hsp'; congruence). subst sp'. clear Hsp'.
    assert (rows' = rows) by congruence. subst rows'. clear Ec'.
    assert (HA : forall j a b, nth_error (up_steady_problems (us_problem s)) j = Some a -> nth_error (up_steady_problems (us_problem t)) j = Some b -> Forall2 alike_airplane (sp_airplanes a) (sp_airplanes b)).
    { intros j a b Ha Hb. destruct (Forall2_nth _ _ _ (tw_steps _ _ _ _ HT) _ _ Hb) as (a' & Ha' & [_ H]). assert (a' = a) by congruence. subst a'. exact H. }
    pose proof (last_arrays_alike _ _ _ _ _ _ HA El El') as X. subst la'. clear El' FR' PR' Sl'. rewrite Ds in *. rewrite Dt in *.
    rewrite (wake_record_alike _ _ _ n (tw_steps _ _ _ _ HT)) in *. cbn zeta in Herr, Hok, Herr', Hok'.
    set (op := sp_operating_point sp) in *. set (wake := wake_record (up_delta_time late) (up_steady_problems (us_problem s)) n) in *.
    set (b := map2 Rminus (map Ropp (step_wake n rows wake op)) (step_freestream n (up_delta_time late) rows la op)) in *.
    destruct (solve (step_matrix rows (op_nu op)) b) as [xs|e] eqn:Esol; [|left; exists e; auto]. right.
    assert (Lx : length xs = length rows).
    { assert (Lb : length b = length (step_matrix rows (op_nu op))) by (rewrite step_matrix_length; apply step_rhs_length; apply Sl). pose proof Esol as Es'.
      apply HS in Es'; [|apply step_matrix_square | exact Lb]. destruct Es' as [[Lx _] _]. rewrite step_matrix_length in Lx. exact Lx. }
    destruct (Hok xs eq_refl Lx) as (a1 & a' & s' & Eu & Eload & _ & _ & Estep & Ecur & Enum & Eli & Hnew & Hold & _).
    destruct (Hok' xs eq_refl Lx) as (b1 & b' & t' & Eu' & Eload' & _ & _ & Estep' & Ecur' & Enum' & Eli' & Hnew' & Hold' & _).
    clear Herr Hok Herr' Hok'. exists s', t'. split; [exact Estep|]. split; [exact Estep'|]. assert (b1 = a1) by congruence. subst b1. clear Eu'.
    assert (Fs : up_first_results_step late1 = up_first_results_step late) by (rewrite Ps; reflexivity). assert (Ft : up_first_results_step early1 = up_first_results_step early) by (rewrite Pt; reflexivity).
    rewrite Fs in Eload. rewrite Ft in Eload'.
    assert (Hab : Forall2 alike_airplane a' b' /\ ((up_first_results_step late <= Z.of_nat n)%Z -> b' = a')).
    { pose proof (dr_first _ _ HD) as Hle. destruct (Z.leb_spec (up_first_results_step late) (Z.of_nat n)) as [H1|H1].
      - destruct (Z.leb_spec (up_first_results_step early) (Z.of_nat n)) as [H2|H2]; [|lia]. destruct Eload as (loads & L1 & L2), Eload' as (loads' & L1' & L2').
        assert (loads' = loads) by congruence. subst loads'. assert (b' = a') by congruence. subst b'. split; [apply Forall2_refl_on, alike_airplane_refl | auto].
      - subst a'. split; [|lia]. destruct (Z.leb_spec (up_first_results_step early) (Z.of_nat n)) as [H2|H2]; [|subst b'; apply Forall2_refl_on, alike_airplane_refl].
        destruct Eload' as (loads & _ & Ep). apply process_forces_sound in Ep. destruct Ep as (us & rest & _ & Fp). eapply Forall2_impl; [apply kept_alike|].
        revert Fp; apply Forall3_13. intros; eapply totalled_kept; eauto. }
    destruct Hab as [Hab Hab'].
    destruct (step_shape _ _ _ Estep) as (c & x & steps & C1 & C2 & C3 & C4). destruct (step_shape _ _ _ Estep') as (c' & x' & steps' & C1' & C2' & C3' & C4').
    assert (c' = c) by congruence. subst c'. clear Ecur Ecur' Hold Hold' Eload Eload'.
    rewrite Es in C4. rewrite Et in C4'. cbn [up_set_steps up_num_steps up_delta_time up_steady_problems] in C4, C4'. rewrite (dr_num _ _ HD), (dr_time _ _ HD) in C4'. rewrite (tw_heap _ _ _ _ HT) in C4'.
    assert (LT : length (up_steady_problems (us_problem t)) = length (up_steady_problems (us_problem s))) by (symmetry; exact (Forall2_length _ _ _ (tw_steps _ _ _ _ HT))).
    assert (LS : length (up_steady_problems (us_problem s)) = length (up_steady_problems late)) by (rewrite Ls; symmetry; exact (Forall2_length _ _ _ (ri_kept _ _ _ _ (rn_inv _ _ _ _ _ _ _ _ Rs)))).
    assert (Hspt : nth_error (up_steady_problems (us_problem t)) n = Some sp) by (rewrite (tw_equal _ _ _ _ HT n (or_introl (le_n _))); exact Hsp).
    assert (X : steps = set_at n (mksteady x op) (up_steady_problems (us_problem s)) /\ steps' = set_at n (mksteady x' op) (up_steady_problems (us_problem t))).
    { unfold set_airplanes in C2, C2'. rewrite (proj2 (index_Some _ _ _) Hsp) in C2. rewrite (proj2 (index_Some _ _ _) Hspt) in C2'. cbn [bind] in C2, C2'. apply Ok_eq in C2, C2'. auto. }
    destruct X as [X X'].
    assert (N : forall k, nth_error steps k = (if Nat.eqb n k then Some (mksteady x op) else nth_error (up_steady_problems (us_problem s)) k) /\
                          nth_error steps' k = (if Nat.eqb n k then Some (mksteady x' op) else nth_error (up_steady_problems (us_problem t)) k)).
    { intros k. rewrite X, X', !set_at_nth by lia. rewrite (Nat.eqb_sym n k). auto. }
    assert (Lsteps : length steps = length (up_steady_problems late) /\ length steps' = length (up_steady_problems late)) by (rewrite X, X', !set_at_length by lia; lia).
    (* the airplanes written are those with the loads *)
    assert (Exx : x = a' /\ x' = b').
    { destruct (Z.of_nat n <? up_num_steps late - 1)%Z.
      - destruct C4 as (next & r & st & _ & _ & C6 & _ & C8), C4' as (next' & r' & st' & _ & _ & C6' & _ & C8'). rewrite C8 in Hnew. rewrite C8' in Hnew'.
        unfold set_airplanes in C6, C6'. apply bind_Ok in C6, C6'. destruct C6 as (q & Q & C6), C6' as (q' & Q' & C6'). apply Ok_eq in C6, C6'. subst st st'.
        apply index_Some in Q, Q'. assert (S n < length steps)%nat by (apply nth_error_Some; congruence). assert (S n < length steps')%nat by (apply nth_error_Some; congruence).
        rewrite set_at_nth in Hnew, Hnew' by lia. destruct (Nat.eqb_spec n (S n)) as [Y|_]; [lia|]. rewrite (proj1 (N n)), Nat.eqb_refl in Hnew. rewrite (proj2 (N n)), Nat.eqb_refl in Hnew'.
        split; congruence.
      - destruct C4 as [_ C8], C4' as [_ C8']. rewrite C8, (proj1 (N n)), Nat.eqb_refl in Hnew. rewrite C8', (proj2 (N n)), Nat.eqb_refl in Hnew'. split; congruence. }
    destruct Exx as [-> ->].
    assert (FS : Forall2 alike_step steps steps').
    { rewrite X, X'. apply Forall2_set_at; [apply (tw_steps _ _ _ _ HT)|]. split; [reflexivity | exact Hab]. }
    assert (FE : forall k, (S n <= k)%nat \/ (up_first_results_step late <= Z.of_nat k)%Z -> nth_error steps' k = nth_error steps k).
    { intros k Hk. destruct (N k) as [-> ->]. destruct (Nat.eqb_spec n k) as [<-|Hne]; [destruct Hk as [Hk|Hk]; [lia | rewrite (Hab' Hk); reflexivity]|].
      apply (tw_equal _ _ _ _ HT). destruct Hk; [left; lia | right; assumption]. }
    destruct (Z.of_nat n <? up_num_steps late - 1)%Z.
    - destruct C4 as (next & r & st & C5 & C6 & C7 & C8 & C9), C4' as (next' & r' & st' & C5' & C6' & C7' & C8' & C9').
      apply index_Some in C5, C5'. assert (next' = next) by (rewrite (FE (S n) (or_introl (le_n _))) in C5'; congruence). subst next'.
      rewrite (populate_alike _ _ _ _ _ _ _ Hab) in C6'. assert (r' = r) by congruence. subst r'.
      unfold set_airplanes in C7, C7'. rewrite (proj2 (index_Some _ _ _) C5) in C7. rewrite (proj2 (index_Some _ _ _) C5') in C7'. cbn [bind] in C7, C7'. apply Ok_eq in C7, C7'.
      assert (Hlt : (S n < length steps)%nat) by (apply nth_error_Some; congruence).
      constructor; rewrite ?C8, ?C8', ?C9, ?C9'; try congruence.
      + rewrite Enum, Enum'. apply (tw_num _ _ _ _ HT).
      + destruct C3 as [C3 _], C3' as [C3' _]. rewrite C3, C3', (tw_wakes _ _ _ _ HT). reflexivity.
      + rewrite Eli, Eli'. apply (tw_lines _ _ _ _ HT).
      + rewrite <- C7, <- C7'. apply Forall2_set_at; [exact FS | apply alike_step_refl].
      + intros k Hk. rewrite <- C7, <- C7', !set_at_nth by lia. destruct (Nat.eqb k (S n)); [reflexivity | apply FE; exact Hk].
    - destruct C4 as [C8 C9], C4' as [C8' C9'].
      constructor; rewrite ?C8, ?C8', ?C9, ?C9'; try congruence.
      + rewrite Enum, Enum'. apply (tw_num _ _ _ _ HT).
      + destruct C3 as [C3 _], C3' as [C3' _]. rewrite C3, C3', (tw_wakes _ _ _ _ HT). reflexivity.
      + rewrite Eli, Eli'. apply (tw_lines _ _ _ _ HT).
      + exact FE.
  Qed.

  Lemma started_twins F late early : differs_in_results late early -> meshed_problem F late ->
    meshed_problem F early /\ exists s0 t0 s1 t1, unsteady_new late = Ok s0 /\ unsteady_new early = Ok t0 /\ unsteady_start 0 s0 = Ok s1 /\ unsteady_start 0 t0 = Ok t1 /\ twins late 0 s1 t1.
  Proof.
    intros HD HM. assert (HM' : meshed_problem F early).
    { destruct HM as [M1 M2 M3]. constructor; rewrite (dr_steps _ _ HD); rewrite ?(dr_num _ _ HD); assumption. }
    split; [exact HM'|]. destruct (unsteady_start_ok 0 F late HM) as (s0 & s1 & E0 & E1 & _). destruct (unsteady_start_ok 0 F early HM') as (t0 & t1 & E0' & E1' & _).
    exists s0, t0, s1, t1. repeat (split; [assumption|]). unfold unsteady_new in E0, E0'. apply bind_Ok in E0, E0'. destruct E0 as (? & _ & E0), E0' as (? & _ & E0'). apply Ok_eq in E0, E0'. subst s0 t0.
    unfold unsteady_start in E1, E1'. cbn [us_problem us_heap us_num_wake us_wakes us_current us_streamline_points] in E1, E1'. rewrite (dr_steps _ _ HD), (dr_num _ _ HD), (dr_time _ _ HD) in E1'.
    apply bind_Ok in E1, E1'. destruct E1 as (counts & X1 & E1), E1' as (counts' & X1' & E1'). assert (counts' = counts) by congruence. subst counts'.
    apply bind_Ok in E1, E1'. destruct E1 as (steps & X2 & E1), E1' as (steps' & X2' & E1'). assert (steps' = steps) by congruence. subst steps'.
    apply Ok_eq in E1, E1'. subst s1 t1. constructor; cbn; try reflexivity. apply Forall2_refl_on, alike_step_refl.
  Qed.
  Lemma twins_steps F late early s1 t1 n : differs_in_results late early -> meshed_problem F late -> meshed_problem F early ->
    after solve prescribed late 0 s1 -> after solve prescribed early 0 t1 -> twins late 0 s1 t1 -> (n <= length (up_steady_problems late))%nat ->
    (exists e, unsteady_steps solve prescribed n s1 = Err e /\ unsteady_steps solve prescribed n t1 = Err e) \/
    exists s t, unsteady_steps solve prescribed n s1 = Ok s /\ unsteady_steps solve prescribed n t1 = Ok t /\ twins late n s t.
  Proof.
    intros HD HM HM' A1 A1' HT. induction n as [|n IH]; intros Hn; [right; exists s1, t1; auto|]. rewrite !unsteady_steps_S.
    destruct IH as [(e & -> & ->)|(s & t & Es & Et & IH)]; [lia | left; exists e; auto |]. rewrite Es, Et. cbn [bind].
    assert (As : after solve prescribed late n s). { destruct A1 as (x0 & x1 & E0 & E1 & E'). cbn in E'. apply Ok_eq in E'. subst x1. exists x0, s1. auto. }
    assert (At : after solve prescribed early n t). { destruct A1' as (x0 & x1 & E0 & E1 & E'). cbn in E'. apply Ok_eq in E'. subst x1. exists x0, t1. auto. }
    destruct (after_ran solve HS prescribed F late n s HM As ltac:(lia)) as (y1 & conv & _ & R).
    destruct (after_ran solve HS prescribed F early n t HM' At ltac:(rewrite (dr_steps _ _ HD); lia)) as (z1 & conv' & _ & R').
    exact (twins_step F late early _ _ conv conv' n s t HD R R' Hn As At IH).
  Qed.
End Twins.

(** ** Final loads *)
Lemma load_history_alike up up' id : (forall k, In k (averaging_steps up) -> nth_error (up_steady_problems up') k = nth_error (up_steady_problems up) k) ->
  averaging_steps up' = averaging_steps up -> load_history up' id = load_history up id.
Proof.
  intros H E. unfold load_history. rewrite E. clear E. revert H. generalize (averaging_steps up). intros l H. induction l as [|k l IH]; [reflexivity|]. cbn [mapM].
  rewrite IH by (intros j Hj; apply H; right; exact Hj). unfold index at 1 3. rewrite (H k (or_introl eq_refl)). reflexivity.
Qed.
Definition same_finals (u v : unsteady_problem) : Prop :=
  up_final v = up_final u /\ up_final_mean v = up_final_mean u /\ up_final_rms v = up_final_rms u.
Lemma finalize_alike up up' : Forall2 alike_step (up_steady_problems up) (up_steady_problems up') ->
  (forall k, In k (averaging_steps up) -> nth_error (up_steady_problems up') k = nth_error (up_steady_problems up) k) ->
  up_num_steps up' = up_num_steps up -> up_first_averaging_step up' = up_first_averaging_step up -> up_max_period up' = up_max_period up -> same_finals up up' ->
  match finalize up, finalize up' with
  | Ok u, Ok v => same_finals u v /\ up_steady_problems u = up_steady_problems up /\ up_steady_problems v = up_steady_problems up'
  | Err e, Err e' => e = e'
  | _, _ => False
  end.
Proof.
  intros HF HE E1 E2 E3 HS. unfold finalize, index. destruct (nth_error (up_steady_problems up) 0) as [sp|] eqn:E0.
  - destruct (Forall2_nth_l _ _ _ HF _ _ E0) as (sp' & -> & [_ HA]). cbn [bind]. rewrite <- (Forall2_length _ _ _ HA). clear E0 HA sp'.
    generalize (seq 0 (length (sp_airplanes sp))). intros ids. revert up up' HF HE E1 E2 E3 HS. induction ids as [|id ids IH]; intros up up' HF HE E1 E2 E3 HS; [cbn; auto|].
    cbn [foldM]. assert (EH : load_history up' id = load_history up id). { apply load_history_alike; [exact HE|]. unfold averaging_steps. rewrite E1, E2. reflexivity. }
    unfold finalize_airplane. rewrite EH, E3. destruct (load_history up id) as [history|e]; [cbn [bind]|reflexivity].
    destruct HS as (F1 & F2 & F3). destruct (Reqb (up_max_period up) 0).
    + destruct (index history (length history - 1)) as [l|e]; [cbn [bind]|reflexivity]. rewrite F1, F2, F3. apply (IH (up_set_final _ _ _ up) (up_set_final _ _ _ up')); try assumption. split; [reflexivity|]. split; reflexivity.
    + cbn [bind]. rewrite F1, F2, F3. apply (IH (up_set_final _ _ _ up) (up_set_final _ _ _ up')); try assumption. split; [reflexivity|]. split; reflexivity.
  - apply nth_error_None in E0. rewrite (Forall2_length _ _ _ HF) in E0. apply nth_error_None in E0. rewrite E0. reflexivity.
Qed.
Lemma only_differs m late early : new_unsteady_problem m true = Ok late -> new_unsteady_problem m false = Ok early -> (0 <= up_first_averaging_step late)%Z -> differs_in_results late early.
Proof.
  unfold new_unsteady_problem. intros H H' H0. apply bind_Ok in H, H'. destruct H as (p & Ep & H), H' as (p' & Ep' & H'). assert (p' = p) by congruence. subst p'. cbn zeta in H, H'.
  apply bind_Ok in H, H'. destruct H as (sps & Es & H), H' as (sps' & Es' & H'). assert (sps' = sps) by congruence. subst sps'. apply Ok_eq in H, H'. subst late early. cbn in *.
  constructor; cbn; auto.
Qed.
Section Same.
  Variable (solve : list (list R) -> list R -> result (list R)).
  Hypothesis HS : SolveSpec solve.
  Variables (prescribed lines : bool).

  Lemma twin_runs F late early s0 t0 : differs_in_results late early -> (up_first_results_step late <= up_first_averaging_step late)%Z -> meshed_problem F late ->
    unsteady_new late = Ok s0 -> unsteady_new early = Ok t0 ->
    match unsteady_run solve prescribed lines s0, unsteady_run solve prescribed lines t0 with
    | Ok s, Ok t => same_flow (up_first_results_step late) s t
    | Err e, Err e' => e = e'
    | _, _ => False
    end.
  Proof.
    intros HD HW HM E0 F0. destruct (started_twins F late early HD HM) as (HM' & s0' & t0' & s1 & t1 & E0' & F0' & E1 & F1 & HT). assert (s0' = s0) by congruence. assert (t0' = t0) by congruence. subst s0' t0'.
    unfold unsteady_run, unsteady_run_with. rewrite E1, F1. cbn [bind].
    assert (A1 : after solve prescribed late 0 s1) by (exists s0, s1; auto). assert (B1 : after solve prescribed early 0 t1) by (exists t0, t1; auto).
    assert (Ps : us_problem s1 = up_set_steps (up_steady_problems (us_problem s1)) late) by exact (after_problem solve HS prescribed late 0 s1 F A1 HM ltac:(lia)).
    assert (Pt : us_problem t1 = up_set_steps (up_steady_problems (us_problem t1)) early) by exact (after_problem solve HS prescribed early 0 t1 F B1 HM' ltac:(lia)).
    assert (EN : Z.to_nat (up_num_steps (us_problem s1)) = length (up_steady_problems late)). { rewrite Ps. cbn [up_set_steps up_num_steps]. rewrite <- (mp_size _ _ HM), Nat2Z.id. reflexivity. }
    assert (EN' : Z.to_nat (up_num_steps (us_problem t1)) = length (up_steady_problems late)). { rewrite Pt. cbn [up_set_steps up_num_steps]. rewrite (dr_num _ _ HD), <- (mp_size _ _ HM), Nat2Z.id. reflexivity. }
    rewrite EN, EN'. destruct (twins_steps solve HS prescribed F late early s1 t1 _ HD HM HM' A1 B1 HT (le_n _)) as [(e & -> & ->)|(s & t & Es & Et & HT')]; [reflexivity|]. rewrite Es, Et. cbn [bind].
    assert (As : after solve prescribed late (length (up_steady_problems late)) s) by (exists s0, s1; auto). assert (At : after solve prescribed early (length (up_steady_problems late)) t) by (exists t0, t1; auto).
    pose proof (after_problem solve HS prescribed late _ s F As HM (le_n _)) as Qs. pose proof (after_problem solve HS prescribed early _ t F At HM' ltac:(rewrite (dr_steps _ _ HD); lia)) as Qt.
    assert (HFA : match finalize (us_problem s), finalize (us_problem t) with
                  | Ok u, Ok v => same_finals u v /\ up_steady_problems u = up_steady_problems (us_problem s) /\ up_steady_problems v = up_steady_problems (us_problem t)
                  | Err e, Err e' => e = e' | _, _ => False end).
    { apply finalize_alike; [exact (tw_steps _ _ _ _ HT') | | | | |].
      - intros k Hk. apply (tw_equal _ _ _ _ HT'). right. unfold averaging_steps in Hk. apply in_seq in Hk. rewrite Qs in Hk. cbn [up_set_steps up_first_averaging_step up_num_steps] in Hk. lia.
      - rewrite Qs, Qt. cbn [up_set_steps up_num_steps]. apply HD.
      - rewrite Qs, Qt. cbn [up_set_steps up_first_averaging_step]. apply HD.
      - rewrite Qs, Qt. cbn [up_set_steps up_max_period]. apply HD.
      - rewrite Qs, Qt. unfold same_finals. cbn [up_set_steps up_final up_final_mean up_final_rms]. apply HD. }
    rewrite (tw_current _ _ _ _ HT'). destruct (finalize (us_problem s)) as [u|e], (finalize (us_problem t)) as [v|e']; cbn [bind]; try contradiction; [|exact HFA].
    destruct HFA as ((X1 & X2 & X3) & Y1 & Y2).
    assert (SF : forall ls, same_flow (up_first_results_step late) (mkus u (us_heap s) (us_num_wake s) (us_wakes s) (us_current s) ls) (mkus v (us_heap t) (us_num_wake t) (us_wakes t) (us_current s) ls)).
    { intros ls. constructor; cbn [us_heap us_num_wake us_wakes us_current us_streamline_points us_problem]; try reflexivity; try assumption; try apply HT'.
      - rewrite Y1, Y2. apply HT'.
      - intros k Hk. rewrite Y1, Y2. apply (tw_equal _ _ _ _ HT'). right. exact Hk. }
    destruct lines; cbn [bind].
    - destruct (us_current s) as [c|]; cbn [bind]; [apply SF | reflexivity].
    - rewrite (tw_lines _ _ _ _ HT'). apply SF.
  Qed.
  Lemma only_final_same ams om num_steps num_cycles num_chords delta_time m late early s0 t0 :
    new_movement ams om num_steps num_cycles num_chords delta_time = Ok m -> new_unsteady_problem m true = Ok late -> new_unsteady_problem m false = Ok early ->
    unsteady_new late = Ok s0 -> unsteady_new early = Ok t0 ->
    match unsteady_run solve prescribed lines s0, unsteady_run solve prescribed lines t0 with
    | Ok s, Ok t => same_flow (up_first_averaging_step late) s t
    | Err e, Err e' => e = e'
    | _, _ => False
    end.
  Proof.
    intros Em El Ee E0 F0. assert (HC : created late) by (do 8 eexists; eauto). destruct (created_meshed _ _ HC E0) as [F HM]. destruct (created_fields _ HC) as (_ & _ & _ & C4 & C5 & C6).
    destruct (unsteady_built _ _ _ El) as (_ & _ & _ & U3 & _). rewrite U3 in C5.
    assert (H0 : (0 <= up_first_averaging_step late)%Z).
    { rewrite C4. unfold first_averaging_step. destruct (Reqb (up_max_period late) 0); [|lia]. pose proof (mp_size _ _ HM). pose proof (mp_some _ _ HM). lia. }
    pose proof (twin_runs F late early s0 t0 (only_differs _ _ _ El Ee H0) ltac:(lia) HM E0 F0) as X. rewrite C5 in X. exact X.
  Qed.
End Same.
