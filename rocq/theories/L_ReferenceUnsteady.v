(** Moving the reference point: the unsteady solver. *)
From Coq Require Import List ZArith Lia Lra Bool Reals.
From Verif Require Import M_Horseshoe M_Unsteady S_Loads S_Reference L_Base L_Loads L_Horseshoe L_RigidShift L_Rigid L_Wake L_Similar L_Again L_AgainRun L_Reference L_ReferenceRun.
Import ListNotations.
Local Open Scope R_scope.
Local Open Scope list_scope.

(** ** The wake *)
Lemma about_back_vertex op side d m i j : back_vertex side (map (map (panel_about op d)) m) i j = back_vertex side m i j.
Proof. unfold back_vertex. rewrite about_at, bind_result_map. apply bind_ext; intros p. reflexivity. Qed.
Lemma about_trailing_row op op' d d' t n : trailing_edge_row (wing_about op d t) (wing_about op' d' n) = trailing_edge_row t n.
Proof.
  unfold trailing_edge_row. cbn [w_num_chordwise_panels w_num_spanwise_panels wing_about w_set_panels]. rewrite about_wing_panels.
  apply bind_both; [|intros lefts; apply bind_both; [|reflexivity]].
  - assert (HE : forall l, mapM (back_vertex rv_back_left (map (map (panel_about op' d')) (w_panels n)) (w_num_chordwise_panels t - 1)) l = mapM (back_vertex rv_back_left (w_panels n) (w_num_chordwise_panels t - 1)) l).
    { induction l as [|i l IH]; [reflexivity|]. cbn [mapM]. rewrite about_back_vertex, IH. reflexivity. }
    apply HE.
  - destruct (w_num_spanwise_panels t); [reflexivity | apply about_back_vertex].
Qed.
Lemma about_next_vertices op op' d d' step convect convect' t n : (forall v, convect' v = convect v) ->
  next_wake_vertices step convect' (wing_about op d t) (wing_about op' d' n) = result_map (wing_about op' d') (next_wake_vertices step convect t n).
Proof.
  intros H. unfold next_wake_vertices. rewrite about_trailing_row, result_map_bind. apply bind_ext; intros first. rewrite result_map_bind.
  apply bind_both; [|reflexivity]. destruct step; [rewrite (map_ext _ _ H); reflexivity|]. cbn [w_wake_vertices wing_about w_set_panels]. f_equal. apply map_ext. intros row. apply map_ext. exact H.
Qed.
Lemma about_next_rings op op' d d' step dt heap t n :
  next_wake_rings step dt heap (wing_about op d t) (wing_about op' d' n) = result_map (fun y => (fst y, wing_about op' d' (snd y))) (next_wake_rings step dt heap t n).
Proof.
  unfold next_wake_rings. change (w_wake_vertices (wing_about op' d' n)) with (w_wake_vertices n). change (w_wake_rings (wing_about op d t)) with (w_wake_rings t).
  rewrite result_map_bind. apply bind_ext; intros ids. rewrite result_map_bind. apply bind_both.
  - assert (HE : forall l, mapM (shed_ring (w_wake_vertices n) (wing_about op d t)) l = mapM (shed_ring (w_wake_vertices n) t) l).
    { induction l as [|i l IH]; [reflexivity|]. cbn [mapM]. rewrite IH. f_equal. unfold shed_ring. apply bind_ext; intros [[[a b] c] e]. rewrite about_wing_panels, about_strength_at. reflexivity. }
    apply HE.
  - intros shed. rewrite result_map_bind. apply bind_ext; intros h. reflexivity.
Qed.
Lemma about_for_wings {S} op op' d d' (f f' : S -> wing -> wing -> result (S * wing)) :
  (forall st t n, f' st (wing_about op d t) (wing_about op' d' n) = result_map (fun y => (fst y, wing_about op' d' (snd y))) (f st t n)) ->
  forall st these nexts, for_wings f' st (map (wing_about op d) these) (map (wing_about op' d') nexts) = result_map (fun y => (fst y, map (wing_about op' d') (snd y))) (for_wings f st these nexts).
Proof.
  intros H st these nexts. unfold for_wings. rewrite !map_length, result_map_bind. apply bind_ext; intros _. revert st nexts. induction these as [|t these IH]; intros st nexts; [reflexivity|].
  destruct nexts as [|n nexts]; [reflexivity|]. cbn [map]. rewrite H, bind_result_map, result_map_bind. apply bind_ext; intros y. cbn [fst snd]. rewrite IH, bind_result_map, result_map_bind. apply bind_ext; intros z. reflexivity.
Qed.
Lemma about_for_airplanes {S} op op' (f f' : S -> wing -> wing -> result (S * wing)) :
  (forall d d' st t n, f' st (wing_about op d t) (wing_about op' d' n) = result_map (fun y => (fst y, wing_about op' d' (snd y))) (f st t n)) ->
  forall vs vs' st these nexts, length vs = length these -> length vs' = length nexts ->
  for_airplanes f' st (map2 (airplane_about op) vs these) (map2 (airplane_about op') vs' nexts) = result_map (fun y => (fst y, map2 (airplane_about op') vs' (snd y))) (for_airplanes f st these nexts).
Proof.
  intros H vs vs' st these nexts E E'. unfold for_airplanes. rewrite !map2_same_length by assumption. rewrite result_map_bind. apply bind_ext; intros _. revert vs vs' st nexts E E'. induction these as [|t these IH]; intros [|v vs] vs' st nexts E E'; try discriminate; [reflexivity|].
  destruct nexts as [|n nexts], vs' as [|v' vs']; try discriminate; [reflexivity|]. cbn in E, E'. cbn [map2]. rewrite !about_wings.
  rewrite (about_for_wings op op' _ _ f f' (H _ _)), bind_result_map, result_map_bind. apply bind_ext; intros y. cbn [fst snd]. rewrite IH by lia. rewrite bind_result_map, result_map_bind. apply bind_ext; intros z. reflexivity.
Qed.
Lemma for_airplanes_length {S} (f : S -> wing -> wing -> result (S * wing)) st these nexts r : for_airplanes f st these nexts = Ok r -> length (snd r) = length nexts.
Proof.
  unfold for_airplanes. intros H. apply bind_Ok in H. destruct H as (_ & _ & H). revert st nexts r H. induction these as [|t these IH]; intros st nexts r H; [destruct nexts; inversion H; reflexivity|].
  destruct nexts as [|n nexts]; [inversion H; reflexivity|]. apply bind_Ok in H. destruct H as (y & _ & H). apply bind_Ok in H. destruct H as (z & Ez & H). inversion H. cbn. rewrite (IH _ _ _ Ez). reflexivity.
Qed.
Lemma about_populate op op' vs vs' step dt convect convect' heap these nexts : (forall v, convect' v = convect v) -> length vs = length these -> length vs' = length nexts ->
  populate_wake step dt convect' heap (map2 (airplane_about op) vs these) (map2 (airplane_about op') vs' nexts) =
  result_map (fun y => (fst y, map2 (airplane_about op') vs' (snd y))) (populate_wake step dt convect heap these nexts).
Proof.
  intros H E E'. unfold populate_wake. rewrite (about_for_airplanes op op' (fun st t n => let* w := next_wake_vertices step convect t n in Ok (st, w))); [|  |exact E | exact E'].
  2: { intros d d' st t n. rewrite (about_next_vertices _ _ _ _ _ convect) by exact H. rewrite bind_result_map, result_map_bind. apply bind_ext; intros w. reflexivity. }
  destruct (for_airplanes _ tt these nexts) as [r|e] eqn:Er; cbn [bind result_map]; [|reflexivity]. cbn [snd]. apply about_for_airplanes; [|exact E | rewrite (for_airplanes_length _ _ _ _ _ Er); exact E'].
  intros d d' st t n. apply about_next_rings.
Qed.
Lemma populate_length step dt convect heap these nexts r : populate_wake step dt convect heap these nexts = Ok r -> length (snd r) = length nexts.
Proof.
  unfold populate_wake. intros H. apply bind_Ok in H. destruct H as (y & Ey & H). rewrite (for_airplanes_length _ _ _ _ _ H). apply (for_airplanes_length _ _ _ _ _ Ey).
Qed.

(** ** Steps *)
Definition fits (vs : list vec) (sp : steady_problem) : Prop := length vs = length (sp_airplanes sp).
Lemma index_about Vs steps k : Forall2 fits Vs steps ->
  match index steps k with
  | Ok sp => exists vs, nth_error Vs k = Some vs /\ fits vs sp /\ index (map2 step_about Vs steps) k = Ok (step_about vs sp)
  | Err e => index (map2 step_about Vs steps) k = Err e
  end.
Proof.
  intros F. revert k. induction F as [|vs sp Vs steps H F IH]; intros [|k]; cbn; try reflexivity; [exists vs; auto | apply IH].
Qed.
Lemma set_at_fits Vs steps k vs sp : Forall2 fits Vs steps -> nth_error Vs k = Some vs -> fits vs sp -> Forall2 fits Vs (set_at k sp steps).
Proof.
  intros F. revert k. induction F as [|us sq Vs steps H F IH]; intros [|k] E HF; cbn in E; try discriminate.
  - injection E as ->. unfold set_at. cbn. constructor; assumption.
  - unfold set_at in *. cbn. constructor; [exact H | apply IH; assumption].
Qed.
Lemma set_at_about Vs steps k vs sp : Forall2 fits Vs steps -> nth_error Vs k = Some vs -> set_at k (step_about vs sp) (map2 step_about Vs steps) = map2 step_about Vs (set_at k sp steps).
Proof.
  intros F. revert k. induction F as [|us sq Vs steps H F IH]; intros [|k] E; cbn in E; try discriminate.
  - injection E as ->. reflexivity.
  - unfold set_at in *. cbn. f_equal. apply IH. exact E.
Qed.
Lemma about_set_airplanes Vs steps k vs sp airplanes : Forall2 fits Vs steps -> nth_error Vs k = Some vs -> index steps k = Ok sp -> length vs = length airplanes ->
  exists steps', set_airplanes k airplanes steps = Ok steps' /\ Forall2 fits Vs steps' /\ (forall j, j <> k -> nth_error steps' j = nth_error steps j) /\ nth_error steps' k = Some (mksteady airplanes (sp_operating_point sp)) /\
  set_airplanes k (map2 (airplane_about (sp_operating_point sp)) vs airplanes) (map2 step_about Vs steps) = Ok (map2 step_about Vs steps').
Proof.
  intros F EV Ek EL. unfold set_airplanes. pose proof (index_about Vs steps k F) as HI. rewrite Ek in HI. destruct HI as (vs' & EV' & _ & Ei). rewrite EV in EV'. injection EV' as <-. rewrite Ei, Ek. cbn [bind].
  assert (Hk : (k < length steps)%nat) by (apply nth_error_Some; unfold index in Ek; destruct (nth_error steps k); discriminate).
  exists (set_at k (mksteady airplanes (sp_operating_point sp)) steps). split; [reflexivity|]. split; [apply (set_at_fits _ _ _ vs); assumption|].
  split; [intros j Hj; rewrite set_at_nth by exact Hk; destruct (Nat.eqb_spec j k); [contradiction | reflexivity]|]. split; [rewrite set_at_nth by exact Hk; rewrite Nat.eqb_refl; reflexivity|].
  f_equal. apply (set_at_about Vs steps k vs (mksteady airplanes (sp_operating_point sp)) F EV).
Qed.
Lemma about_last n step Vs steps : Forall2 fits Vs steps -> last_step_arrays n step (map2 step_about Vs steps) = last_step_arrays n step steps.
Proof.
  intros F. destruct step as [|k]; [reflexivity|]. cbn [last_step_arrays]. pose proof (index_about Vs steps k F) as HI. destruct (index steps k) as [sp|e].
  - destruct HI as (vs & EV & HF & Ei). rewrite Ei. cbn [bind]. unfold step_about. cbn [sp_airplanes]. rewrite about_unsteady_collapse by exact HF.
    destruct (unsteady_collapse (sp_airplanes sp)) as [rows|e] eqn:Er; cbn [bind result_map]; [|reflexivity].
    assert (ED : length (levers vs (sp_airplanes sp)) = length rows) by (rewrite levers_length by exact HF; symmetry; apply (mapM_same_length _ _ _ Er)).
    rewrite !(shift_map _ (ring_shift (sp_operating_point sp))) by (assumption || reflexivity). reflexivity.
  - rewrite HI. reflexivity.
Qed.
Lemma about_references op vs l : length vs = length l -> wake_references (map2 (airplane_about op) vs l) = wake_references l.
Proof.
  unfold wake_references. revert vs. induction l as [|a l IH]; intros [|v vs] E; try discriminate; [reflexivity|]. cbn in E. cbn [map2 map concat]. rewrite IH by lia. f_equal. rewrite about_wings, map_map. reflexivity.
Qed.
Lemma about_spanwise op vs l : length vs = length l -> total_spanwise (map2 (airplane_about op) vs l) = total_spanwise l.
Proof.
  unfold total_spanwise. generalize 0%nat. revert vs. induction l as [|a l IH]; intros [|v vs] k E; try discriminate; [reflexivity|]. cbn in E. cbn [map2 fold_left]. rewrite IH by lia. f_equal.
  rewrite about_wings. revert k. induction (a_wings a) as [|w ws IHw]; intros k; [reflexivity|]. cbn [map fold_left]. apply IHw.
Qed.

(** ** The state *)
Definition current_about (c c' : option current_step) : Prop :=
  match c, c' with
  | None, None => True
  | Some c, Some c' => exists ds, length ds = length (cu_rows c) /\
      c' = mkcurrent (cu_step c) (cu_op c) (cu_freestream c) (map2 (ring_shift (cu_op c)) ds (cu_rows c)) (cu_last c) (cu_seeds c) (cu_wing_influences c) (cu_freestream_influences c) (cu_wake_influences c) (cu_strengths c) (cu_wake c)
  | _, _ => False
  end.
Definition problem_about (Vs : list (list vec)) (up up' : unsteady_problem) : Prop :=
  up' = mkunsteady (up_movement up') (up_num_steps up) (up_delta_time up) (up_only_final_results up) (up_max_period up)
                   (up_first_averaging_step up) (up_first_results_step up) (up_final up) (up_final_mean up) (up_final_rms up)
                   (map2 step_about Vs (up_steady_problems up)).
Definition state_about (Vs : list (list vec)) (s s' : unsteady_solver) : Prop :=
  Forall2 fits Vs (up_steady_problems (us_problem s)) /\ problem_about Vs (us_problem s) (us_problem s') /\
  us_heap s' = us_heap s /\ us_num_wake s' = us_num_wake s /\ us_wakes s' = us_wakes s /\ current_about (us_current s) (us_current s') /\
  us_streamline_points s' = us_streamline_points s.
Lemma current_velocity_about c c' points : current_about (Some c) (Some c') -> current_velocity c' points = current_velocity c points.
Proof.
  intros (ds & ED & ->). unfold current_velocity, unsteady_velocity_of. cbn [cu_rows cu_strengths cu_wake cu_op cu_freestream]. rewrite !(shift_map _ (ring_shift (cu_op c))) by (assumption || reflexivity). reflexivity.
Qed.
Lemma problem_fields Vs up up' : problem_about Vs up up' -> up_num_steps up' = up_num_steps up /\ up_delta_time up' = up_delta_time up /\ up_first_results_step up' = up_first_results_step up /\
  up_steady_problems up' = map2 step_about Vs (up_steady_problems up) /\ up_max_period up' = up_max_period up /\ up_first_averaging_step up' = up_first_averaging_step up.
Proof. intros H. unfold problem_about in H. rewrite H. auto 6. Qed.
Lemma problem_set_steps Vs up up' steps : problem_about Vs up up' -> problem_about Vs (up_set_steps steps up) (up_set_steps (map2 step_about Vs steps) up').
Proof. unfold problem_about. intros H. rewrite H at 1. reflexivity. Qed.
Lemma unsteady_loads_ext density dt step u u' l rows last g : (forall points, u' points = u points) -> unsteady_loads density dt step u' l rows last g = unsteady_loads density dt step u l rows last g.
Proof. intros H. unfold unsteady_loads. rewrite !H. reflexivity. Qed.

Section Run.
Variable solve : list (list R) -> list R -> result (list R).
Variable prescribed : bool.
Lemma step_moved Vs s s' step : state_about Vs s s' -> rrel (state_about Vs) (unsteady_step solve prescribed s step) (unsteady_step solve prescribed s' step).
Proof.
  intros (F & HP & Eh & En & Ew & HC & El). unfold unsteady_step. destruct (problem_fields _ _ _ HP) as (EP1 & EP2 & EP3 & EP4 & _). rewrite EP1, EP2, EP3, EP4, Eh, Ew, En, El.
  pose proof (index_about Vs _ step F) as HI. destruct (index (up_steady_problems (us_problem s)) step) as [sp|e] eqn:Es; [|rewrite HI; reflexivity]. destruct HI as (vs & EV & HF & Ei). rewrite Ei. cbn [bind].
  change (sp_operating_point (step_about vs sp)) with (sp_operating_point sp). change (sp_airplanes (step_about vs sp)) with (map2 (airplane_about (sp_operating_point sp)) vs (sp_airplanes sp)). set (op := sp_operating_point sp) in *. unfold fits in HF.
  rewrite about_num by exact HF. set (n := num_panels_of (sp_airplanes sp)). destruct (index (us_wakes s) step) as [al|e]; cbn [bind]; [|reflexivity].
  rewrite about_unsteady_collapse by exact HF. destruct (unsteady_collapse (sp_airplanes sp)) as [rows|e] eqn:Er; cbn [bind result_map]; [|reflexivity].
  set (ds := levers vs (sp_airplanes sp)). assert (ED : length ds = length rows) by (unfold ds; rewrite levers_length by exact HF; symmetry; apply (mapM_same_length _ _ _ Er)).
  unfold collapse_wake. rewrite about_references by exact HF. fold (collapse_wake (us_heap s) (sp_airplanes sp) al). destruct (collapse_wake (us_heap s) (sp_airplanes sp) al) as [wake|e]; cbn [bind]; [|reflexivity].
  rewrite about_last by exact F. destruct (last_step_arrays n step (up_steady_problems (us_problem s))) as [la|e]; cbn [bind]; [|reflexivity].
  assert (E1 : unsteady_wing_influences (map2 (ring_shift op) ds rows) (repeat 1 n) (op_nu op) = unsteady_wing_influences rows (repeat 1 n) (op_nu op)) by (unfold unsteady_wing_influences; rewrite !(shift_map _ (ring_shift op)) by (assumption || reflexivity); reflexivity).
  assert (E2 : unsteady_freestream_influences step (up_delta_time (us_problem s)) (map2 (ring_shift op) ds rows) la (freestream_velocity op) = unsteady_freestream_influences step (up_delta_time (us_problem s)) rows la (freestream_velocity op)) by (unfold unsteady_freestream_influences; rewrite !(shift_map _ (ring_shift op)) by (assumption || reflexivity); reflexivity).
  assert (E3 : unsteady_wake_influences step n (map2 (ring_shift op) ds rows) wake (op_nu op) = unsteady_wake_influences step n rows wake (op_nu op)) by (unfold unsteady_wake_influences; rewrite !(shift_map _ (ring_shift op)) by (assumption || reflexivity); reflexivity).
  rewrite E1, E2, E3, (shift_seeds op rr_panel (ring_shift op)) by (assumption || reflexivity). clear E1 E2 E3.
  set (c := mkcurrent step op (freestream_velocity op) rows la (seeds_of (map rr_panel rows)) (unsteady_wing_influences rows (repeat 1 n) (op_nu op)) (unsteady_freestream_influences step (up_delta_time (us_problem s)) rows la (freestream_velocity op)) (unsteady_wake_influences step n rows wake (op_nu op))).
  set (c' := mkcurrent step op (freestream_velocity op) (map2 (ring_shift op) ds rows) la (seeds_of (map rr_panel rows)) (unsteady_wing_influences rows (repeat 1 n) (op_nu op)) (unsteady_freestream_influences step (up_delta_time (us_problem s)) rows la (freestream_velocity op)) (unsteady_wake_influences step n rows wake (op_nu op))).
  destruct (solve _ _) as [g|e]; cbn [bind]; [|reflexivity].
  assert (HCC : current_about (Some (c g wake)) (Some (c' g wake))) by (exists ds; split; [exact ED | reflexivity]).
  rewrite about_update by (exact (about_unsteady_set op) || exact HF). destruct (update_panels unsteady_set_strength (sp_airplanes sp) g) as [l1|e] eqn:Eu; cbn [bind result_map]; [|reflexivity].
  assert (EN1 : length vs = length l1) by (rewrite (update_length _ _ _ _ Eu); exact HF).
  eapply (rrel_bind (fun l l' => length vs = length l /\ l' = map2 (airplane_about op) vs l)).
  { destruct (up_first_results_step (us_problem s) <=? Z.of_nat step)%Z; [|cbn; auto]. rewrite moved_unsteady_loads by assumption. rewrite (unsteady_loads_ext _ _ _ (current_velocity (c g wake)) (current_velocity (c' g wake))) by (intros points; apply current_velocity_about; exact HCC).
    destruct (unsteady_loads (op_density op) _ step (current_velocity (c g wake)) l1 rows la g) as [loads|e]; cbn [bind result_map]; [|reflexivity].
    rewrite (about_process op (map fst loads) (map snd loads)); [|exact EN1|].
    2: { rewrite !combine_split', (levers_same vs (sp_airplanes sp) l1) by (apply (update_kept _ _ _ _ Eu)). reflexivity. }
    destruct (process_forces op (map fst loads) (map snd loads) l1) as [l2|e] eqn:Ep; cbn [rrel result_map]; [|reflexivity]. split; [|reflexivity].
    unfold process_forces in Ep. apply bind_Ok in Ep. destruct Ep as (l3 & E3 & E4). rewrite (mapM_same_length _ _ _ E4), (update_length _ _ _ _ E3). exact EN1. }
  intros l2 l2' _ _ [EN2 ->]. destruct (about_set_airplanes Vs _ step vs sp l2 F EV Es EN2) as (steps1 & ES1 & F1 & HO & HK & ES1'). fold op in ES1', HK. rewrite ES1, ES1'. cbn [bind].
  eapply (rrel_bind (fun hs hs' => fst hs' = fst hs /\ Forall2 fits Vs (snd hs) /\ snd hs' = map2 step_about Vs (snd hs))).
  { destruct (Z.of_nat step <? up_num_steps (us_problem s) - 1)%Z; [|cbn; auto]. pose proof (index_about Vs steps1 (S step) F1) as HI. destruct (index steps1 (S step)) as [next|e] eqn:Enx; [|rewrite HI; reflexivity].
    destruct HI as (vs' & EV' & HF' & Ei'). rewrite Ei'. cbn [bind]. change (sp_airplanes (step_about vs' next)) with (map2 (airplane_about (sp_operating_point next)) vs' (sp_airplanes next)).
    rewrite (about_populate op (sp_operating_point next) vs vs' step _ (convect_vertex prescribed (freestream_velocity op) (current_velocity (c g wake)) (up_delta_time (us_problem s)))); [| |exact EN2 | exact HF'].
    2: { intros v. apply again_convect. intros points. apply current_velocity_about. exact HCC. }
    destruct (populate_wake _ _ _ (us_heap s) l2 (sp_airplanes next)) as [r|e] eqn:Epw; cbn [bind result_map]; [|reflexivity]. cbn [fst snd].
    assert (EN3 : length vs' = length (snd r)) by (rewrite (populate_length _ _ _ _ _ _ _ Epw); exact HF').
    destruct (about_set_airplanes Vs steps1 (S step) vs' next (snd r) F1 EV' Enx EN3) as (steps2 & ES2 & F2 & _ & _ & ES2'). rewrite ES2, ES2'. cbn. auto. }
  intros [h1 st1] [h2 st2] _ _ (EH & F2 & EST). cbn [fst snd] in EH, F2, EST |- *. subst h2 st2. cbn [rrel]. unfold state_about. cbn [us_problem us_heap us_num_wake us_wakes us_current us_streamline_points up_set_steps up_steady_problems].
  split; [exact F2|]. split; [apply problem_set_steps; exact HP|]. split; [reflexivity|]. split; [reflexivity|]. split; [reflexivity|]. split; [exact HCC | reflexivity].
Qed.
Lemma steps_moved Vs n s s' : state_about Vs s s' -> rrel (state_about Vs) (unsteady_steps solve prescribed n s) (unsteady_steps solve prescribed n s').
Proof.
  unfold unsteady_steps. generalize (seq 0 n) as ks. intros ks. revert s s'. induction ks as [|k ks IH]; intros s s' H; [exact H|]. cbn [foldM].
  eapply rrel_bind; [apply step_moved; exact H|]. intros t t' _ _ Ht. apply IH. exact Ht.
Qed.
Lemma start_moved b Vs s s' : state_about Vs s s' -> rrel (state_about Vs) (unsteady_start b s) (unsteady_start b s').
Proof.
  intros (F & HP & Eh & En & Ew & HC & El). unfold unsteady_start. destruct (problem_fields _ _ _ HP) as (EP1 & EP2 & EP3 & EP4 & _). rewrite EP1, EP2, EP4, Eh, Ew, En, El.
  eapply (rrel_bind eq).
  { apply rrel_eq. generalize (seq 0 (Z.to_nat (up_num_steps (us_problem s)))) as ks. induction ks as [|k ks IH]; [reflexivity|]. cbn [mapM]. rewrite IH. f_equal.
    pose proof (index_about Vs _ k F) as HI. destruct (index (up_steady_problems (us_problem s)) k) as [sp|e]; [|rewrite HI; reflexivity]. destruct HI as (vs & _ & HF & Ei). rewrite Ei. cbn [bind]. unfold step_about. cbn [sp_airplanes]. rewrite about_spanwise by exact HF. reflexivity. }
  intros counts ? _ _ <-. eapply (rrel_bind (fun l l' => Forall2 fits Vs l /\ l' = map2 step_about Vs l)).
  { clear -F. induction F as [|vs sp Vs steps HF F IH]; [cbn; auto|]. cbn [map2 mapM].
    eapply (rrel_bind (fun x x' => fits vs x /\ x' = step_about vs x)).
    - unfold unsteady_init_step, step_about. cbn [sp_operating_point sp_airplanes]. rewrite (mapM_map2 _ _ _ (airplane_about (sp_operating_point sp)) vs _ (about_unsteady_init _ _ _) HF).
      destruct (mapM _ (sp_airplanes sp)) as [l|e] eqn:El; cbn [bind result_map rrel]; [|reflexivity]. split; [|reflexivity]. unfold fits. cbn [sp_airplanes]. rewrite (mapM_same_length _ _ _ El). exact HF.
    - intros x x' _ _ [H1 ->]. eapply rrel_bind; [exact IH|]. intros l l' _ _ [H2 ->]. cbn. split; [constructor; assumption | reflexivity]. }
  intros steps steps' _ _ [F2 ->]. cbn [rrel]. unfold state_about. cbn [us_problem us_heap us_num_wake us_wakes us_current us_streamline_points up_set_steps up_steady_problems].
  split; [exact F2|]. split; [apply problem_set_steps; exact HP|]. split; [reflexivity|]. split; [reflexivity|]. split; [reflexivity|]. split; [exact HC | reflexivity].
Qed.

(** ** Final loads *)
Definition load_about (l l' : load) : Prop := ld_force l' = ld_force l /\ ld_force_coefficients l' = ld_force_coefficients l.
Definition problem_finished (Vs : list (list vec)) (up up' : unsteady_problem) : Prop :=
  up' = mkunsteady (up_movement up') (up_num_steps up) (up_delta_time up) (up_only_final_results up) (up_max_period up)
                   (up_first_averaging_step up) (up_first_results_step up) (up_final up') (up_final_mean up') (up_final_rms up')
                   (map2 step_about Vs (up_steady_problems up)) /\
  same_final_forces (up_final up) (up_final up') /\ same_final_forces (up_final_mean up) (up_final_mean up') /\ same_final_forces (up_final_rms up) (up_final_rms up').
Lemma loads_about op v a : rrel load_about (loads_of a) (loads_of (airplane_about op v a)).
Proof.
  unfold loads_of. cbn [a_force_wind a_force_coefficients a_moment_wind a_moment_coefficients airplane_about].
  destruct (a_force_wind a), (a_force_coefficients a), (a_moment_wind a), (a_moment_coefficients a); cbn; auto. split; reflexivity.
Qed.
Lemma append_about f f' l l' : same_final_forces f f' -> load_about l l' -> same_final_forces (append_load f l) (append_load f' l').
Proof.
  intros (E1 & E2 & E3 & E4) (H1 & H2). unfold same_final_forces, append_load. cbn. rewrite E1, E2, H1, H2, !app_length, E3, E4. auto.
Qed.
Lemma each_about f l l' : Forall2 load_about l l' -> load_about (each_load f l) (each_load f l').
Proof.
  intros F. unfold load_about, each_load. cbn. assert (E1 : map ld_force l' = map ld_force l) by (induction F as [|x y l l' [H _] F IH]; [reflexivity | cbn; rewrite IH, H; reflexivity]).
  assert (E2 : map ld_force_coefficients l' = map ld_force_coefficients l) by (induction F as [|x y l l' [_ H] F IH]; [reflexivity | cbn in *; injection E1 as _ E1; rewrite (IH E1), H; reflexivity]).
  rewrite E1, E2. split; reflexivity.
Qed.
Lemma index_map2 {A B} (g : A -> B -> B) vs l k : length vs = length l -> match index l k with Ok x => exists v, index (map2 g vs l) k = Ok (g v x) | Err e => index (map2 g vs l) k = Err e end.
Proof.
  revert vs k. induction l as [|x l IH]; intros [|v vs] [|k] E; try discriminate; cbn; try reflexivity; [exists v; reflexivity|]. apply IH. cbn in E. lia.
Qed.
Lemma finish_airplane Vs up up' id : Forall2 fits Vs (up_steady_problems up) -> problem_finished Vs up up' ->
  rrel (fun u u' => up_steady_problems u = up_steady_problems up /\ problem_finished Vs u u') (finalize_airplane up id) (finalize_airplane up' id).
Proof.
  intros F (E & S1 & S2 & S3). unfold finalize_airplane.
  assert (E4 : up_steady_problems up' = map2 step_about Vs (up_steady_problems up)) by (rewrite E; reflexivity).
  assert (E5 : up_max_period up' = up_max_period up) by (rewrite E; reflexivity).
  assert (E6 : averaging_steps up' = averaging_steps up) by (unfold averaging_steps; rewrite E; reflexivity).
  eapply (rrel_bind (Forall2 load_about)).
  { unfold load_history. rewrite E6, E4. generalize (averaging_steps up) as ks. intros ks. apply (rrel_mapM eq); [|clear; induction ks; constructor; auto].
    intros k ? <-. pose proof (index_about Vs _ k F) as HI. destruct (index (up_steady_problems up) k) as [sp|e]; [|rewrite HI; reflexivity]. destruct HI as (vs & _ & HF & Ei). rewrite Ei. cbn [bind].
    unfold step_about. cbn [sp_airplanes]. pose proof (index_map2 (airplane_about (sp_operating_point sp)) vs (sp_airplanes sp) id HF) as HJ. destruct (index (sp_airplanes sp) id) as [a|e]; [|rewrite HJ; reflexivity].
    destruct HJ as (v & ->). cbn [bind]. apply loads_about. }
  intros h h' _ _ FH. rewrite E5. destruct (Reqb (up_max_period up) 0).
  - rewrite <- (Forall2_length _ _ _ FH). eapply rrel_bind; [apply rrel_index; exact FH|]. intros l l' _ _ HL. cbn [rrel]. split; [reflexivity|]. unfold problem_finished. cbn [up_set_final up_movement up_num_steps up_delta_time up_only_final_results up_max_period up_first_averaging_step up_first_results_step up_final up_final_mean up_final_rms up_steady_problems].
    split; [unfold up_set_final; rewrite E at 1 2 3 4 5 6 7 8 9 10 11; reflexivity|]. split; [apply append_about; assumption|]. split; assumption.
  - cbn [rrel]. split; [reflexivity|]. unfold problem_finished. cbn [up_set_final up_movement up_num_steps up_delta_time up_only_final_results up_max_period up_first_averaging_step up_first_results_step up_final up_final_mean up_final_rms up_steady_problems].
    split; [unfold up_set_final; rewrite E at 1 2 3 4 5 6 7 8 9 10 11; reflexivity|]. split; [assumption|]. split; apply append_about; try assumption; apply each_about; exact FH.
Qed.
Lemma finalize_moved Vs up up' : Forall2 fits Vs (up_steady_problems up) -> problem_about Vs up up' ->
  rrel (fun u u' => problem_finished Vs u u') (finalize up) (finalize up').
Proof.
  intros F HP. assert (HF : problem_finished Vs up up').
  { unfold problem_about in HP. unfold problem_finished. split; [rewrite HP at 1; rewrite HP; reflexivity|]. rewrite HP. cbn. unfold same_final_forces. auto 12. }
  unfold finalize. assert (E4 : up_steady_problems up' = map2 step_about Vs (up_steady_problems up)) by (unfold problem_about in HP; rewrite HP; reflexivity). rewrite E4.
  pose proof (index_about Vs _ 0 F) as HI. destruct (index (up_steady_problems up) 0) as [sp|e]; [|rewrite HI; reflexivity]. destruct HI as (vs & _ & HL & Ei). rewrite Ei. cbn [bind].
  unfold step_about. cbn [sp_airplanes]. rewrite map2_same_length by exact HL. generalize (seq 0 (length (sp_airplanes sp))) as ks. clear HP E4 Ei HL vs sp. intros ks. revert up up' F HF.
  induction ks as [|k ks IH]; intros up up' F HF; [exact HF|]. cbn [foldM]. eapply rrel_bind; [apply finish_airplane; eassumption|]. intros u u' _ _ [EU HU]. apply IH; [rewrite EU; exact F | exact HU].
Qed.

Lemma run_moved lines Vs s s' : state_about Vs s s' -> rrel (unsteady_about Vs) (unsteady_run solve prescribed lines s) (unsteady_run solve prescribed lines s').
Proof.
  intros H. unfold unsteady_run, unsteady_run_with. eapply rrel_bind; [apply start_moved; exact H|]. intros t t' _ _ Ht.
  assert (EN : up_num_steps (us_problem t') = up_num_steps (us_problem t)) by (apply (problem_fields Vs); apply Ht). rewrite EN.
  eapply rrel_bind; [apply steps_moved; exact Ht|]. intros u u' _ _ (F & HP & Eh & En & Ew & HC & El). eapply rrel_bind; [apply finalize_moved; eassumption|]. intros up up' _ _ (E & S1 & S2 & S3).
  eapply (rrel_bind eq).
  { destruct lines; [|cbn; rewrite El; reflexivity]. destruct (us_current u) as [c|], (us_current u') as [c'|]; try contradiction; [|reflexivity]. cbn [rrel]. f_equal. rewrite (streamlines_ext (current_velocity c) (current_velocity c')) by (intros points; apply current_velocity_about; exact HC).
    destruct HC as (ds & _ & ->). reflexivity. }
  intros x ? _ _ <-. cbn [rrel]. unfold unsteady_about. cbn [us_problem us_heap us_num_wake us_wakes us_streamline_points].
  split; [exact E|]. split; [exact S1|]. split; [exact S2|]. split; [exact S3|]. split; [exact Eh|]. split; [exact En|]. split; [exact Ew|]. split; [reflexivity|].
  intros points. unfold unsteady_solution_velocity. cbn [us_current]. destruct (us_current u) as [c|], (us_current u') as [c'|]; try contradiction; [|reflexivity]. f_equal. apply current_velocity_about. exact HC.
Qed.
End Run.
