(** Labels of airplanes: the unsteady solver, movements and the statements. *)
From Coq Require Import List ZArith Lia Lra Bool Reals String.
From Verif Require Import M_Horseshoe M_Unsteady S_Loads S_UnsteadyRun S_Labels L_Base L_Loads L_Horseshoe L_Geometry L_RigidShift L_Rigid L_Wake L_Frames L_Similar L_Again L_AgainRun L_CausalMovement L_Problems L_NoLoads L_Reference L_ReferenceRun L_ReferenceUnsteady L_ReferenceMovement L_Labels.
Import ListNotations.
Local Open Scope R_scope.
Local Open Scope list_scope.
Notation len := List.length.

(** ** The wake *)
Lemma label_next_vertices f f' step convect convect' t n : (forall v, convect' v = convect v) ->
  next_wake_vertices step convect' (wing_renamed f t) (wing_renamed f' n) = result_map (wing_renamed f') (next_wake_vertices step convect t n).
Proof.
  intros H. unfold next_wake_vertices. change (trailing_edge_row (wing_renamed f t) (wing_renamed f' n)) with (trailing_edge_row t n). rewrite result_map_bind. apply bind_ext; intros first. rewrite result_map_bind.
  apply bind_both; [|reflexivity]. destruct step; [rewrite (map_ext _ _ H); reflexivity|]. cbn [w_wake_vertices wing_renamed]. f_equal. apply map_ext. intros row. apply map_ext. exact H.
Qed.
Lemma label_next_rings f f' step dt heap t n :
  next_wake_rings step dt heap (wing_renamed f t) (wing_renamed f' n) = result_map (fun y => (fst y, wing_renamed f' (snd y))) (next_wake_rings step dt heap t n).
Proof.
  unfold next_wake_rings. change (w_wake_vertices (wing_renamed f' n)) with (w_wake_vertices n). change (w_wake_rings (wing_renamed f t)) with (w_wake_rings t).
  change (shed_ring (w_wake_vertices n) (wing_renamed f t)) with (shed_ring (w_wake_vertices n) t).
  rewrite result_map_bind. apply bind_ext; intros ids. rewrite result_map_bind. apply bind_ext; intros shed. rewrite result_map_bind. apply bind_ext; intros h. reflexivity.
Qed.
Lemma label_for_wings {S} f f' (g g' : S -> wing -> wing -> result (S * wing)) :
  (forall st t n, g' st (wing_renamed f t) (wing_renamed f' n) = result_map (fun y => (fst y, wing_renamed f' (snd y))) (g st t n)) ->
  forall st these nexts, for_wings g' st (map (wing_renamed f) these) (map (wing_renamed f') nexts) = result_map (fun y => (fst y, map (wing_renamed f') (snd y))) (for_wings g st these nexts).
Proof.
  intros H st these nexts. unfold for_wings. rewrite !map_length, result_map_bind. apply bind_ext; intros _. revert st nexts. induction these as [|t these IH]; intros st nexts; [reflexivity|].
  destruct nexts as [|n nexts]; [reflexivity|]. cbn [map]. rewrite H, bind_result_map, result_map_bind. apply bind_ext; intros y. cbn [fst snd]. rewrite IH, bind_result_map, result_map_bind. apply bind_ext; intros z. reflexivity.
Qed.
Lemma label_for_airplanes {S} op op' (g g' : S -> wing -> wing -> result (S * wing)) :
  (forall f f' st t n, g' st (wing_renamed f t) (wing_renamed f' n) = result_map (fun y => (fst y, wing_renamed f' (snd y))) (g st t n)) ->
  forall vs vs' st these nexts, len vs = len these -> len vs' = len nexts ->
  for_airplanes g' st (map2 (solved_with_labels op) vs these) (map2 (solved_with_labels op') vs' nexts) = result_map (fun y => (fst y, map2 (solved_with_labels op') vs' (snd y))) (for_airplanes g st these nexts).
Proof.
  intros H vs vs' st these nexts E E'. unfold for_airplanes. rewrite !map2_same_length by assumption. rewrite result_map_bind. apply bind_ext; intros _. revert vs vs' st nexts E E'. induction these as [|t these IH]; intros [|v vs] vs' st nexts E E'; try discriminate; [reflexivity|].
  destruct nexts as [|n nexts], vs' as [|v' vs']; try discriminate; [reflexivity|]. cbn in E, E'. cbn [map2]. rewrite !label_wings.
  rewrite (label_for_wings _ _ g g' (H _ _)), bind_result_map, result_map_bind. apply bind_ext; intros y. cbn [fst snd]. rewrite IH by lia. rewrite bind_result_map, result_map_bind. apply bind_ext; intros z. reflexivity.
Qed.
Lemma label_populate op op' vs vs' step dt convect convect' heap these nexts : (forall v, convect' v = convect v) -> len vs = len these -> len vs' = len nexts ->
  populate_wake step dt convect' heap (map2 (solved_with_labels op) vs these) (map2 (solved_with_labels op') vs' nexts) =
  result_map (fun y => (fst y, map2 (solved_with_labels op') vs' (snd y))) (populate_wake step dt convect heap these nexts).
Proof.
  intros H E E'. unfold populate_wake. rewrite (label_for_airplanes op op' (fun st t n => let* w := next_wake_vertices step convect t n in Ok (st, w))); [|  |exact E | exact E'].
  2: { intros d d' st t n. rewrite (label_next_vertices _ _ _ convect) by exact H. rewrite bind_result_map, result_map_bind. apply bind_ext; intros w. reflexivity. }
  destruct (for_airplanes _ tt these nexts) as [r|e] eqn:Er; cbn [bind result_map]; [|reflexivity]. cbn [snd]. apply label_for_airplanes; [|exact E | rewrite (for_airplanes_length _ _ _ _ _ Er); exact E'].
  intros d d' st t n. apply label_next_rings.
Qed.

(** ** Steps *)
Notation sl := step_solved_with_labels.
Definition lfits (l : R * list labels) (sp : steady_problem) : Prop := len (snd l) = len (sp_airplanes sp).
Lemma index_label Ls steps k : Forall2 lfits Ls steps ->
  match index steps k with
  | Ok sp => exists l, nth_error Ls k = Some l /\ lfits l sp /\ index (map2 sl Ls steps) k = Ok (sl l sp)
  | Err e => index (map2 sl Ls steps) k = Err e
  end.
Proof. intros F. revert k. induction F as [|vs sp Vs steps H F IH]; intros [|k]; cbn; try reflexivity; [exists vs; auto | apply IH]. Qed.
Lemma set_at_lfits Vs steps k vs sp : Forall2 lfits Vs steps -> nth_error Vs k = Some vs -> lfits vs sp -> Forall2 lfits Vs (set_at k sp steps).
Proof.
  intros F. revert k. induction F as [|us sq Vs steps H F IH]; intros [|k] E HF; cbn in E; try discriminate.
  - apply Some_eq in E. subst us. unfold set_at. cbn. constructor; assumption.
  - unfold set_at in *. cbn. constructor; [exact H | apply IH; assumption].
Qed.
Lemma set_at_label Vs steps k vs sp : Forall2 lfits Vs steps -> nth_error Vs k = Some vs -> set_at k (sl vs sp) (map2 sl Vs steps) = map2 sl Vs (set_at k sp steps).
Proof.
  intros F. revert k. induction F as [|us sq Vs steps H F IH]; intros [|k] E; cbn in E; try discriminate.
  - apply Some_eq in E. subst us. reflexivity.
  - unfold set_at in *. cbn. f_equal. apply IH. exact E.
Qed.
Lemma label_set_airplanes Vs steps k vs sp airplanes : Forall2 lfits Vs steps -> nth_error Vs k = Some vs -> index steps k = Ok sp -> len (snd vs) = len airplanes ->
  exists steps', set_airplanes k airplanes steps = Ok steps' /\ Forall2 lfits Vs steps' /\ nth_error steps' k = Some (mksteady airplanes (sp_operating_point sp)) /\
  set_airplanes k (map2 (solved_with_labels (sp_operating_point sp)) (snd vs) airplanes) (map2 sl Vs steps) = Ok (map2 sl Vs steps').
Proof.
  intros F EV Ek EL. unfold set_airplanes. pose proof (index_label Vs steps k F) as HI. rewrite Ek in HI. destruct HI as (vs' & EV' & _ & Ei). rewrite EV in EV'. apply Some_eq in EV'. subst vs'. rewrite Ei, Ek. cbn [bind].
  assert (Hk : (k < len steps)%nat) by (apply nth_error_Some; unfold index in Ek; destruct (nth_error steps k); discriminate).
  exists (set_at k (mksteady airplanes (sp_operating_point sp)) steps). split; [reflexivity|]. split; [apply (set_at_lfits _ _ _ vs); assumption|].
  split; [rewrite set_at_nth by exact Hk; rewrite Nat.eqb_refl; reflexivity|].
  f_equal. apply (set_at_label Vs steps k vs (mksteady airplanes (sp_operating_point sp)) F EV).
Qed.
Lemma label_last n step Vs steps : Forall2 lfits Vs steps -> last_step_arrays n step (map2 sl Vs steps) = last_step_arrays n step steps.
Proof.
  intros F. destruct step as [|k]; [reflexivity|]. cbn [last_step_arrays]. pose proof (index_label Vs steps k F) as HI. destruct (index steps k) as [sp|e].
  - destruct HI as (vs & EV & HF & Ei). rewrite Ei. cbn [bind]. unfold step_solved_with_labels. cbn [sp_airplanes]. rewrite label_unsteady_collapse by exact HF. reflexivity.
  - rewrite HI. reflexivity.
Qed.
Lemma label_references op vs l : len vs = len l -> wake_references (map2 (solved_with_labels op) vs l) = wake_references l.
Proof.
  unfold wake_references. revert vs. induction l as [|a l IH]; intros [|v vs] E; try discriminate; [reflexivity|]. cbn in E. cbn [map2 map concat]. rewrite IH by lia. f_equal. rewrite label_wings, map_map. reflexivity.
Qed.
Lemma label_spanwise op vs l : len vs = len l -> total_spanwise (map2 (solved_with_labels op) vs l) = total_spanwise l.
Proof.
  unfold total_spanwise. generalize 0%nat. revert vs. induction l as [|a l IH]; intros [|v vs] k E; try discriminate; [reflexivity|]. cbn in E. cbn [map2 fold_left]. rewrite IH by lia. f_equal.
  rewrite label_wings. revert k. induction (a_wings a) as [|w ws IHw]; intros k; [reflexivity|]. cbn [map fold_left]. apply IHw.
Qed.

(** ** The state *)
Definition current_label (c c' : option current_step) : Prop :=
  match c, c' with
  | None, None => True
  | Some c, Some c' => exists t,
      c' = mkcurrent (cu_step c) (with_thrust t (cu_op c)) (cu_freestream c) (cu_rows c) (cu_last c) (cu_seeds c) (cu_wing_influences c) (cu_freestream_influences c) (cu_wake_influences c) (cu_strengths c) (cu_wake c)
  | _, _ => False
  end.
Definition problem_label (Vs : list (R * list labels)) (up up' : unsteady_problem) : Prop :=
  up' = mkunsteady (up_movement up') (up_num_steps up) (up_delta_time up) (up_only_final_results up) (up_max_period up)
                   (up_first_averaging_step up) (up_first_results_step up) (up_final up) (up_final_mean up) (up_final_rms up)
                   (map2 sl Vs (up_steady_problems up)).
Definition state_label (Vs : list (R * list labels)) (s s' : unsteady_solver) : Prop :=
  Forall2 lfits Vs (up_steady_problems (us_problem s)) /\ problem_label Vs (us_problem s) (us_problem s') /\
  us_heap s' = us_heap s /\ us_num_wake s' = us_num_wake s /\ us_wakes s' = us_wakes s /\ current_label (us_current s) (us_current s') /\
  us_streamline_points s' = us_streamline_points s.
Lemma current_velocity_label c c' points : current_label (Some c) (Some c') -> current_velocity c' points = current_velocity c points.
Proof. intros (t & ->). reflexivity. Qed.
Lemma label_fields Vs up up' : problem_label Vs up up' -> up_num_steps up' = up_num_steps up /\ up_delta_time up' = up_delta_time up /\ up_first_results_step up' = up_first_results_step up /\
  up_steady_problems up' = map2 sl Vs (up_steady_problems up) /\ up_max_period up' = up_max_period up /\ up_first_averaging_step up' = up_first_averaging_step up.
Proof. intros H. unfold problem_label in H. rewrite H. auto 6. Qed.
Lemma label_set_steps Vs up up' steps : problem_label Vs up up' -> problem_label Vs (up_set_steps steps up) (up_set_steps (map2 sl Vs steps) up').
Proof. unfold problem_label. intros H. rewrite H at 1. reflexivity. Qed.

Section Run.
Variable solve : list (list R) -> list R -> result (list R).
Variable prescribed : bool.
Lemma step_label Vs s s' step : state_label Vs s s' -> rrel (state_label Vs) (unsteady_step solve prescribed s step) (unsteady_step solve prescribed s' step).
Proof.
  intros (F & HP & Eh & En & Ew & HC & El). unfold unsteady_step. destruct (label_fields _ _ _ HP) as (EP1 & EP2 & EP3 & EP4 & _). rewrite EP1, EP2, EP3, EP4, Eh, Ew, En, El.
  pose proof (index_label Vs _ step F) as HI. destruct (index (up_steady_problems (us_problem s)) step) as [sp|e] eqn:Es; [|rewrite HI; reflexivity]. destruct HI as (vs & EV & HF & Ei). rewrite Ei. cbn [bind].
  change (sp_operating_point (sl vs sp)) with (with_thrust (fst vs) (sp_operating_point sp)). change (sp_airplanes (sl vs sp)) with (map2 (solved_with_labels (sp_operating_point sp)) (snd vs) (sp_airplanes sp)). set (op := sp_operating_point sp) in *. unfold lfits in HF.
  change (freestream_velocity (with_thrust (fst vs) op)) with (freestream_velocity op). change (op_nu (with_thrust (fst vs) op)) with (op_nu op). change (op_density (with_thrust (fst vs) op)) with (op_density op).
  rewrite label_num by exact HF. set (n := num_panels_of (sp_airplanes sp)). destruct (index (us_wakes s) step) as [wk|e]; cbn [bind]; [|reflexivity].
  rewrite label_unsteady_collapse by exact HF. destruct (unsteady_collapse (sp_airplanes sp)) as [rows|e] eqn:Er; cbn [bind result_map]; [|reflexivity].
  unfold collapse_wake. rewrite label_references by exact HF. fold (collapse_wake (us_heap s) (sp_airplanes sp) wk). destruct (collapse_wake (us_heap s) (sp_airplanes sp) wk) as [wake|e]; cbn [bind]; [|reflexivity].
  rewrite label_last by exact F. destruct (last_step_arrays n step (up_steady_problems (us_problem s))) as [la|e]; cbn [bind]; [|reflexivity].
  set (c := mkcurrent step op (freestream_velocity op) rows la (seeds_of (map rr_panel rows)) (unsteady_wing_influences rows (repeat 1 n) (op_nu op)) (unsteady_freestream_influences step (up_delta_time (us_problem s)) rows la (freestream_velocity op)) (unsteady_wake_influences step n rows wake (op_nu op))).
  set (c' := mkcurrent step (with_thrust (fst vs) op) (freestream_velocity op) rows la (seeds_of (map rr_panel rows)) (unsteady_wing_influences rows (repeat 1 n) (op_nu op)) (unsteady_freestream_influences step (up_delta_time (us_problem s)) rows la (freestream_velocity op)) (unsteady_wake_influences step n rows wake (op_nu op))).
  destruct (solve _ _) as [g|e]; cbn [bind]; [|reflexivity].
  assert (HCC : current_label (Some (c g wake)) (Some (c' g wake))) by (exists (fst vs); reflexivity).
  rewrite label_update by exact HF. destruct (update_panels unsteady_set_strength (sp_airplanes sp) g) as [l1|e] eqn:Eu; cbn [bind result_map]; [|reflexivity].
  assert (EN1 : len (snd vs) = len l1) by (rewrite (update_length _ _ _ _ Eu); exact HF).
  eapply (rrel_bind (fun l l' => len (snd vs) = len l /\ l' = map2 (solved_with_labels op) (snd vs) l)).
  { destruct (up_first_results_step (us_problem s) <=? Z.of_nat step)%Z; [|cbn; auto]. rewrite label_unsteady_loads by assumption. change (current_velocity (c' g wake)) with (current_velocity (c g wake)).
    destruct (unsteady_loads (op_density op) _ step (current_velocity (c g wake)) l1 rows la g) as [loads|e]; cbn [bind result_map]; [|reflexivity].
    change (process_forces (with_thrust (fst vs) op)) with (process_forces op). rewrite label_process by exact EN1.
    destruct (process_forces op (map fst loads) (map snd loads) l1) as [l2|e] eqn:Ep; cbn [rrel result_map]; [|reflexivity]. split; [|reflexivity].
    unfold process_forces in Ep. apply bind_Ok in Ep. destruct Ep as (l3 & E3 & E4). rewrite (mapM_same_length _ _ _ E4), (update_length _ _ _ _ E3). exact EN1. }
  intros l2 l2' _ _ [EN2 ->]. destruct (label_set_airplanes Vs _ step vs sp l2 F EV Es EN2) as (steps1 & ES1 & F1 & HK & ES1'). fold op in ES1', HK. rewrite ES1, ES1'. cbn [bind].
  eapply (rrel_bind (fun hs hs' => fst hs' = fst hs /\ Forall2 lfits Vs (snd hs) /\ snd hs' = map2 sl Vs (snd hs))).
  { destruct (Z.of_nat step <? up_num_steps (us_problem s) - 1)%Z; [|cbn; auto]. pose proof (index_label Vs steps1 (S step) F1) as HI. destruct (index steps1 (S step)) as [next|e] eqn:Enx; [|rewrite HI; reflexivity].
    destruct HI as (vs' & EV' & HF' & Ei'). rewrite Ei'. cbn [bind]. change (sp_airplanes (sl vs' next)) with (map2 (solved_with_labels (sp_operating_point next)) (snd vs') (sp_airplanes next)).
    rewrite (label_populate op (sp_operating_point next) (snd vs) (snd vs') step _ (convect_vertex prescribed (freestream_velocity op) (current_velocity (c g wake)) (up_delta_time (us_problem s)))); [| |exact EN2 | exact HF'].
    2: { intros v. apply again_convect. intros points. apply current_velocity_label. exact HCC. }
    destruct (populate_wake _ _ _ (us_heap s) l2 (sp_airplanes next)) as [r|e] eqn:Epw; cbn [bind result_map]; [|reflexivity]. cbn [fst snd].
    assert (EN3 : len (snd vs') = len (snd r)) by (rewrite (populate_length _ _ _ _ _ _ _ Epw); exact HF').
    destruct (label_set_airplanes Vs steps1 (S step) vs' next (snd r) F1 EV' Enx EN3) as (steps2 & ES2 & F2 & _ & ES2'). rewrite ES2, ES2'. cbn. auto. }
  intros [h1 st1] [h2 st2] _ _ (EH & F2 & EST). cbn [fst snd] in EH, F2, EST |- *. subst h2 st2. cbn [rrel]. unfold state_label. cbn [us_problem us_heap us_num_wake us_wakes us_current us_streamline_points up_set_steps up_steady_problems].
  split; [exact F2|]. split; [apply label_set_steps; exact HP|]. split; [reflexivity|]. split; [reflexivity|]. split; [reflexivity|]. split; [exact HCC | reflexivity].
Qed.
Lemma steps_label Vs n s s' : state_label Vs s s' -> rrel (state_label Vs) (unsteady_steps solve prescribed n s) (unsteady_steps solve prescribed n s').
Proof.
  unfold unsteady_steps. generalize (seq 0 n) as ks. intros ks. revert s s'. induction ks as [|k ks IH]; intros s s' H; [exact H|]. cbn [foldM].
  eapply rrel_bind; [apply step_label; exact H|]. intros t t' _ _ Ht. apply IH. exact Ht.
Qed.
Lemma start_label b Vs s s' : state_label Vs s s' -> rrel (state_label Vs) (unsteady_start b s) (unsteady_start b s').
Proof.
  intros (F & HP & Eh & En & Ew & HC & El). unfold unsteady_start. destruct (label_fields _ _ _ HP) as (EP1 & EP2 & EP3 & EP4 & _). rewrite EP1, EP2, EP4, Eh, Ew, En, El.
  eapply (rrel_bind eq).
  { apply rrel_eq. generalize (seq 0 (Z.to_nat (up_num_steps (us_problem s)))) as ks. induction ks as [|k ks IH]; [reflexivity|]. cbn [mapM]. rewrite IH. f_equal.
    pose proof (index_label Vs _ k F) as HI. destruct (index (up_steady_problems (us_problem s)) k) as [sp|e]; [|rewrite HI; reflexivity]. destruct HI as (vs & _ & HF & Ei). rewrite Ei. cbn [bind]. unfold step_solved_with_labels. cbn [sp_airplanes]. rewrite label_spanwise by exact HF. reflexivity. }
  intros counts ? _ _ <-. eapply (rrel_bind (fun l l' => Forall2 lfits Vs l /\ l' = map2 sl Vs l)).
  { clear -F. induction F as [|vs sp Vs steps HF F IH]; [cbn; auto|]. cbn [map2 mapM].
    eapply (rrel_bind (fun x x' => lfits vs x /\ x' = sl vs x)).
    - unfold unsteady_init_step, step_solved_with_labels. cbn [sp_operating_point sp_airplanes]. change (freestream_velocity (with_thrust (fst vs) (sp_operating_point sp))) with (freestream_velocity (sp_operating_point sp)).
      rewrite (mapM_map2 _ _ _ (solved_with_labels (sp_operating_point sp)) (snd vs) _ (label_unsteady_init _ _ _) HF).
      destruct (mapM _ (sp_airplanes sp)) as [l|e] eqn:El; cbn [bind result_map rrel]; [|reflexivity]. split; [|reflexivity]. unfold lfits. cbn [sp_airplanes]. rewrite (mapM_same_length _ _ _ El). exact HF.
    - intros x x' _ _ [H1 ->]. eapply rrel_bind; [exact IH|]. intros l l' _ _ [H2 ->]. cbn. split; [constructor; assumption | reflexivity]. }
  intros steps steps' _ _ [F2 ->]. cbn [rrel]. unfold state_label. cbn [us_problem us_heap us_num_wake us_wakes us_current us_streamline_points up_set_steps up_steady_problems].
  split; [exact F2|]. split; [apply label_set_steps; exact HP|]. split; [reflexivity|]. split; [reflexivity|]. split; [reflexivity|]. split; [exact HC | reflexivity].
Qed.

(** ** Final loads *)
Definition load_label (l l' : load) : Prop := ld_force l' = ld_force l /\ ld_moment l' = ld_moment l.
Definition problem_done (Vs : list (R * list labels)) (up up' : unsteady_problem) : Prop :=
  up' = mkunsteady (up_movement up') (up_num_steps up) (up_delta_time up) (up_only_final_results up) (up_max_period up)
                   (up_first_averaging_step up) (up_first_results_step up) (up_final up') (up_final_mean up') (up_final_rms up')
                   (map2 sl Vs (up_steady_problems up)) /\
  same_final_loads (up_final up) (up_final up') /\ same_final_loads (up_final_mean up) (up_final_mean up') /\ same_final_loads (up_final_rms up) (up_final_rms up').
Lemma loads_label op v a : rrel load_label (loads_of a) (loads_of (solved_with_labels op v a)).
Proof.
  unfold loads_of. cbn [a_force_wind a_force_coefficients a_moment_wind a_moment_coefficients solved_with_labels].
  destruct (a_force_wind a), (a_force_coefficients a), (a_moment_wind a), (a_moment_coefficients a); cbn; auto. split; reflexivity.
Qed.
Lemma append_label f f' l l' : same_final_loads f f' -> load_label l l' -> same_final_loads (append_load f l) (append_load f' l').
Proof.
  intros (E1 & E2 & E3 & E4) (H1 & H2). unfold same_final_loads, append_load. cbn. rewrite E1, E2, H1, H2, !app_length, E3, E4. auto.
Qed.
Lemma each_label f l l' : Forall2 load_label l l' -> load_label (each_load f l) (each_load f l').
Proof.
  intros F. unfold load_label, each_load. cbn. assert (E1 : map ld_force l' = map ld_force l) by (induction F as [|x y l l' [H _] F IH]; [reflexivity | cbn; rewrite IH, H; reflexivity]).
  assert (E2 : map ld_moment l' = map ld_moment l) by (clear E1; induction F as [|x y l l' [_ H] F IH]; [reflexivity | cbn; rewrite IH, H; reflexivity]).
  rewrite E1, E2. split; reflexivity.
Qed.
Lemma done_airplane Vs up up' id : Forall2 lfits Vs (up_steady_problems up) -> problem_done Vs up up' ->
  rrel (fun u u' => up_steady_problems u = up_steady_problems up /\ problem_done Vs u u') (finalize_airplane up id) (finalize_airplane up' id).
Proof.
  intros F (E & S1 & S2 & S3). unfold finalize_airplane.
  assert (E4 : up_steady_problems up' = map2 sl Vs (up_steady_problems up)) by (rewrite E; reflexivity).
  assert (E5 : up_max_period up' = up_max_period up) by (rewrite E; reflexivity).
  assert (E6 : averaging_steps up' = averaging_steps up) by (unfold averaging_steps; rewrite E; reflexivity).
  eapply (rrel_bind (Forall2 load_label)).
  { unfold load_history. rewrite E6, E4. generalize (averaging_steps up) as ks. intros ks. apply (rrel_mapM eq); [|clear; induction ks; constructor; auto].
    intros k ? <-. pose proof (index_label Vs _ k F) as HI. destruct (index (up_steady_problems up) k) as [sp|e]; [|rewrite HI; reflexivity]. destruct HI as (vs & _ & HF & Ei). rewrite Ei. cbn [bind].
    unfold step_solved_with_labels. cbn [sp_airplanes]. pose proof (index_map2 (solved_with_labels (sp_operating_point sp)) (snd vs) (sp_airplanes sp) id HF) as HJ. destruct (index (sp_airplanes sp) id) as [a|e]; [|rewrite HJ; reflexivity].
    destruct HJ as (v & ->). cbn [bind]. apply loads_label. }
  intros h h' _ _ FH. rewrite E5. destruct (Reqb (up_max_period up) 0).
  - rewrite <- (Forall2_length _ _ _ FH). eapply rrel_bind; [apply rrel_index; exact FH|]. intros l l' _ _ HL. cbn [rrel]. split; [reflexivity|]. unfold problem_done. cbn [up_set_final up_movement up_num_steps up_delta_time up_only_final_results up_max_period up_first_averaging_step up_first_results_step up_final up_final_mean up_final_rms up_steady_problems].
    split; [unfold up_set_final; rewrite E at 1 2 3 4 5 6 7 8 9 10 11; reflexivity|]. split; [apply append_label; assumption|]. split; assumption.
  - cbn [rrel]. split; [reflexivity|]. unfold problem_done. cbn [up_set_final up_movement up_num_steps up_delta_time up_only_final_results up_max_period up_first_averaging_step up_first_results_step up_final up_final_mean up_final_rms up_steady_problems].
    split; [unfold up_set_final; rewrite E at 1 2 3 4 5 6 7 8 9 10 11; reflexivity|]. split; [assumption|]. split; apply append_label; try assumption; apply each_label; exact FH.
Qed.
Lemma finalize_label Vs up up' : Forall2 lfits Vs (up_steady_problems up) -> problem_label Vs up up' ->
  rrel (fun u u' => problem_done Vs u u') (finalize up) (finalize up').
Proof.
  intros F HP. assert (HF : problem_done Vs up up').
  { unfold problem_label in HP. unfold problem_done. split; [rewrite HP at 1; rewrite HP; reflexivity|]. rewrite HP. cbn. unfold same_final_loads. auto 12. }
  unfold finalize. assert (E4 : up_steady_problems up' = map2 sl Vs (up_steady_problems up)) by (unfold problem_label in HP; rewrite HP; reflexivity). rewrite E4.
  pose proof (index_label Vs _ 0 F) as HI. destruct (index (up_steady_problems up) 0) as [sp|e]; [|rewrite HI; reflexivity]. destruct HI as (vs & _ & HL & Ei). rewrite Ei. cbn [bind].
  unfold step_solved_with_labels. cbn [sp_airplanes]. rewrite map2_same_length by exact HL. generalize (seq 0 (len (sp_airplanes sp))) as ks. clear HP E4 Ei HL vs sp. intros ks. revert up up' F HF.
  induction ks as [|k ks IH]; intros up up' F HF; [exact HF|]. cbn [foldM]. eapply rrel_bind; [apply done_airplane; eassumption|]. intros u u' _ _ [EU HU]. apply IH; [rewrite EU; exact F | exact HU].
Qed.
Lemma run_label lines Vs s s' : state_label Vs s s' -> rrel (unsteady_with_labels Vs) (unsteady_run solve prescribed lines s) (unsteady_run solve prescribed lines s').
Proof.
  intros H. unfold unsteady_run, unsteady_run_with. eapply rrel_bind; [apply start_label; exact H|]. intros t t' _ _ Ht.
  assert (EN : up_num_steps (us_problem t') = up_num_steps (us_problem t)) by (apply (label_fields Vs); apply Ht). rewrite EN.
  eapply rrel_bind; [apply steps_label; exact Ht|]. intros u u' _ _ (F & HP & Eh & En & Ew & HC & El). eapply rrel_bind; [apply finalize_label; eassumption|]. intros up up' _ _ (E & S1 & S2 & S3).
  eapply (rrel_bind eq).
  { destruct lines; [|cbn; rewrite El; reflexivity]. destruct (us_current u) as [c|], (us_current u') as [c'|]; try contradiction; [|reflexivity]. cbn [rrel]. f_equal. rewrite (streamlines_ext (current_velocity c) (current_velocity c')) by (intros points; apply current_velocity_label; exact HC).
    destruct HC as (ds & ->). reflexivity. }
  intros x ? _ _ <-. cbn [rrel]. unfold unsteady_with_labels. cbn [us_problem us_heap us_num_wake us_wakes us_streamline_points].
  split; [exact E|]. split; [exact S1|]. split; [exact S2|]. split; [exact S3|]. split; [exact Eh|]. split; [exact En|]. split; [exact Ew|]. split; [reflexivity|].
  intros points. unfold unsteady_solution_velocity. cbn [us_current]. destruct (us_current u) as [c|], (us_current u') as [c'|]; try contradiction; [|reflexivity]. f_equal. apply current_velocity_label. exact HC.
Qed.
End Run.

(** ** Movements *)
Definition named_all (name : string) (a : airplane) : airplane := with_labels (named name a) a.
Lemma renamed_id ws : map (wing_renamed (fun n => n)) ws = ws.
Proof. rewrite <- (map_id ws) at 2. apply map_ext. intros []; reflexivity. Qed.
Lemma generate_label lb m n dt : generate_airplanes (base_with_labels lb m) n dt = result_map (map (named_all (lb_name lb))) (generate_airplanes m n dt).
Proof.
  unfold generate_airplanes. cbn [am_base am_wings am_x_ref am_y_ref am_z_ref base_with_labels with_labels a_x_ref a_y_ref a_z_ref a_name].
  rewrite result_map_bind. apply bind_ext; intros xs. rewrite result_map_bind. apply bind_ext; intros ys. rewrite result_map_bind. apply bind_ext; intros zs.
  rewrite result_map_bind. apply bind_ext; intros hs. apply mapM_commute. intros k _.
  rewrite result_map_bind. apply bind_ext; intros x. rewrite result_map_bind. apply bind_ext; intros y. rewrite result_map_bind. apply bind_ext; intros z.
  rewrite result_map_bind. apply bind_ext; intros ws. unfold new_airplane. destruct ws as [|w ws]; [reflexivity|]. cbn [result_map]. f_equal. unfold named_all, with_labels, named. cbn [lb_name lb_weight lb_s_ref lb_c_ref lb_b_ref lb_wing_name a_wings a_weight a_s_ref a_c_ref a_b_ref a_x_ref a_y_ref a_z_ref a_num_panels a_force_wind a_force_coefficients a_moment_wind a_moment_coefficients].
  rewrite renamed_id. reflexivity.
Qed.
Lemma label_periods lbs ams om t nu : len lbs = len ams -> max_period (map2 base_with_labels lbs ams) (base_with_thrust t nu om) = max_period ams om.
Proof.
  intros E. unfold max_period. apply bind_both; [|reflexivity]. revert lbs E. induction ams as [|m ams IH]; intros [|d ds] E; try discriminate; [reflexivity|]. cbn in E. cbn [map2 mapM]. rewrite IH by lia. reflexivity.
Qed.
Definition movement_label (lbs : list labels) (t nu : R) (m : movement) : movement :=
  mkmovement (map2 base_with_labels lbs (mv_airplane_movements m)) (base_with_thrust t nu (mv_op_movement m)) (mv_num_steps m) (mv_num_cycles m) (mv_num_chords m) (mv_delta_time m)
             (map2 (fun lb row => map (named_all (lb_name lb)) row) lbs (mv_airplanes m)) (mv_operating_points m).
Lemma new_movement_label lbs t nu ams om (n : option Z) cy ch (dt : option R) : len lbs = len ams -> chord_unused n dt lbs ams ->
  new_movement (map2 base_with_labels lbs ams) (base_with_thrust t nu om) n cy ch dt = result_map (movement_label lbs t nu) (new_movement ams om n cy ch dt).
Proof.
  intros E HC. unfold new_movement. rewrite label_periods by exact E. rewrite result_map_bind. apply bind_ext; intros _. rewrite result_map_bind. apply bind_ext; intros _. rewrite result_map_bind. apply bind_both.
  { destruct dt as [dt|]; [reflexivity|]. destruct HC as [[_ HC]|HC]; [contradiction HC; reflexivity|]. apply bind_both; [|reflexivity]. clear E. induction HC as [|lb m lbs ams Hc HC IH]; [reflexivity|]. cbn [map2 mapM]. rewrite IH.
    cbn [am_base base_with_labels with_labels a_wings a_c_ref om_base base_with_thrust]. rewrite index_map, bind_result_map, Hc. reflexivity. }
  intros d. rewrite result_map_bind. apply bind_both.
  { destruct n as [n|]; [reflexivity|]. destruct HC as [[HC _]|HC]; [contradiction HC; reflexivity|]. apply bind_ext; intros p. destruct (Reqb p 0); [|reflexivity]. apply bind_both; [|reflexivity]. f_equal. rewrite map_map2. clear E. induction HC as [|lb m lbs ams Hc HC IH]; [reflexivity|]. cbn [map2 map]. rewrite IH. f_equal. exact Hc. }
  intros [[k cy'] ch']. rewrite (mapM_map2 (fun m => generate_airplanes m k d) _ base_with_labels (fun lb => map (named_all (lb_name lb)))) by ((intros; apply generate_label) || exact E).
  rewrite bind_result_map, result_map_bind. apply bind_ext; intros l. rewrite result_map_bind. apply bind_both; [reflexivity|]. intros ops. reflexivity.
Qed.
Lemma column_label lbs (l : list (list airplane)) k : len lbs = len l ->
  column (map2 (fun lb row => map (named_all (lb_name lb)) row) lbs l) k = result_map (map2 (fun lb => named_all (lb_name lb)) lbs) (column l k).
Proof. intros E. unfold column. apply mapM_map2; [intros; apply index_map | exact E]. Qed.
Lemma named_as_labels (lbs : list labels) l : map2 (fun lb => named_all (lb_name lb)) lbs l = map2 with_labels (map2 (fun lb a => named (lb_name lb) a) lbs l) l.
Proof. revert lbs. induction l as [|a l IH]; intros [|d ds]; try reflexivity. cbn [map2]. rewrite IH. reflexivity. Qed.
Lemma problem_labelled lbs t nu ams om n cy ch dt m only up : len lbs = len ams -> chord_unused n dt lbs ams ->
  new_movement ams om n cy ch dt = Ok m -> new_unsteady_problem m only = Ok up ->
  exists m' up', new_movement (map2 base_with_labels lbs ams) (base_with_thrust t nu om) n cy ch dt = Ok m' /\ new_unsteady_problem m' only = Ok up' /\
    labels_for (names_only lbs up) up /\ other_labels (names_only lbs up) up up'.
Proof.
  intros E HC Em Eup. destruct (new_movement_count _ _ _ _ _ _ _ Em) as [CL CA]. exists (movement_label lbs t nu m).
  assert (EO : mv_op_movement m = om).
  { clear -Em. unfold new_movement in Em. do 4 (apply bind_Ok in Em; destruct Em as (? & _ & Em)). match goal with x : (Z * option R * option R)%type |- _ => destruct x as [[k c1] c2] end.
    apply bind_Ok in Em. destruct Em as (l & El & Em). apply bind_Ok in Em. destruct Em as (ops & _ & Em). apply L_Geometry.Ok_eq in Em. subst m. reflexivity. }
  assert (EP : mv_max_period (movement_label lbs t nu m) = mv_max_period m) by (unfold mv_max_period; cbn [mv_airplane_movements mv_op_movement movement_label]; rewrite CA; apply label_periods; exact E).
  unfold new_unsteady_problem in Eup |- *. rewrite EP. destruct (mv_max_period m) as [p|e]; [cbn [bind] in Eup |- *|discriminate]. cbn [mv_num_steps mv_delta_time mv_airplanes mv_operating_points movement_label].
  apply bind_Ok in Eup. destruct Eup as (steps & Es & Eup). apply L_Geometry.Ok_eq in Eup. subst up.
  assert (HL : Forall (fun sp => len lbs = len (sp_airplanes sp)) steps).
  { apply mapM_Forall2 in Es. clear -Es CL E. remember (seq 0 (Z.to_nat (mv_num_steps m))) as ks. clear Heqks. induction Es as [|k sp ks steps Hk Es IH]; constructor; [|exact IH].
    apply bind_Ok in Hk. destruct Hk as (as_ & Ea & Hk). apply bind_Ok in Hk. destruct Hk as (op & _ & Hk). apply L_Geometry.Ok_eq in Hk. subst sp. cbn. rewrite (mapM_same_length _ _ _ Ea). congruence. }
  assert (ES : mapM (fun step => let* airplanes := column (map2 (fun lb row => map (named_all (lb_name lb)) row) lbs (mv_airplanes m)) step in let* op := index (mv_operating_points m) step in Ok (mksteady airplanes op)) (seq 0 (Z.to_nat (mv_num_steps m))) =
    Ok (map (fun sp => mksteady (map2 (fun lb => named_all (lb_name lb)) lbs (sp_airplanes sp)) (sp_operating_point sp)) steps)).
  { rewrite (mapM_commute (fun step => let* airplanes := column (mv_airplanes m) step in let* op := index (mv_operating_points m) step in Ok (mksteady airplanes op)) _ (fun sp => mksteady (map2 (fun lb => named_all (lb_name lb)) lbs (sp_airplanes sp)) (sp_operating_point sp))).
    - rewrite Es. reflexivity.
    - intros k _. rewrite column_label by congruence. rewrite bind_result_map, result_map_bind. apply bind_ext; intros as_. rewrite result_map_bind. apply bind_ext; intros op. reflexivity. }
  rewrite ES. cbn [bind]. eexists. split; [rewrite new_movement_label by assumption; rewrite Em; reflexivity|]. split; [reflexivity|]. split.
  - unfold labels_for, names_only. cbn [up_steady_problems]. clear -HL. induction HL as [|sp steps H HL IH]; constructor; [|exact IH]. cbn [snd]. rewrite map2_same_length by exact H. reflexivity.
  - unfold other_labels, names_only. cbn [up_movement up_num_steps up_delta_time up_only_final_results up_max_period up_first_averaging_step up_first_results_step up_final up_final_mean up_final_rms up_steady_problems]. f_equal.
    clear. induction steps as [|sp steps IH]; [reflexivity|]. cbn [map map2]. rewrite IH. f_equal. unfold step_with_labels. cbn [fst snd]. f_equal; [apply named_as_labels|]. destruct (sp_operating_point sp); reflexivity.
Qed.

(** ** Statements *)
Lemma horseshoe_labels solve op thrust nu lbs l : len lbs = len l -> Forall without_coefficients l ->
  (forall s, hs_run solve (hs_new l op) = Ok s -> hs_run solve (hs_new (map2 with_labels lbs l) (with_nu nu (with_thrust thrust op))) = Ok (hs_with_labels lbs thrust nu s)) /\
  (forall e, hs_run solve (hs_new l op) = Err e -> hs_run solve (hs_new (map2 with_labels lbs l) (with_nu nu (with_thrust thrust op))) = Err e).
Proof. intros E F. rewrite <- (label_fresh_all op) by exact F. rewrite hs_labelled by exact E. split; intros x ->; reflexivity. Qed.
Lemma ring_labels solve op thrust nu lbs l : len lbs = len l -> Forall without_coefficients l ->
  (forall s, ring_run solve (ring_new l op) = Ok s -> ring_run solve (ring_new (map2 with_labels lbs l) (with_nu nu (with_thrust thrust op))) = Ok (ring_with_labels lbs thrust nu s)) /\
  (forall e, ring_run solve (ring_new l op) = Err e -> ring_run solve (ring_new (map2 with_labels lbs l) (with_nu nu (with_thrust thrust op))) = Err e).
Proof. intros E F. rewrite <- (label_fresh_all op) by exact F. rewrite ring_labelled by exact E. split; intros x ->; reflexivity. Qed.
Lemma start_labels ls up up' s0 : created up -> labels_for ls up -> other_labels ls up up' -> unsteady_new up = Ok s0 ->
  exists s0', unsteady_new up' = Ok s0' /\ state_label ls s0 s0'.
Proof.
  intros HC HP HO H. pose proof (created_clean up HC) as Cl. unfold unsteady_new in *. apply bind_Ok in H. destruct H as (sp & Ei & H). apply L_Geometry.Ok_eq in H. subst s0.
  assert (ES : map2 step_with_labels ls (up_steady_problems up) = map2 sl ls (up_steady_problems up)).
  { clear -Cl. revert ls. induction Cl as [|sq steps Hs Cl IH]; intros [|vs ls]; try reflexivity. cbn [map2]. rewrite IH. f_equal. unfold step_with_labels, step_solved_with_labels. f_equal. symmetry. apply label_fresh_all.
    eapply Forall_impl; [|exact Hs]. intros a (_ & H1 & _ & H2 & _). split; assumption. }
  unfold other_labels in HO. rewrite ES in HO. assert (E4 : up_steady_problems up' = map2 sl ls (up_steady_problems up)) by (rewrite HO; reflexivity).
  pose proof (index_label ls _ 0 HP) as HI. rewrite Ei in HI. destruct HI as (vs & _ & _ & Ei'). rewrite E4, Ei'. cbn [bind]. eexists. split; [reflexivity|].
  unfold state_label. cbn. split; [exact HP|]. split; [exact HO|]. repeat split.
Qed.
Lemma unsteady_labels solve prescribed lines ls up up' s : created up -> labels_for ls up -> other_labels ls up up' ->
  finished solve prescribed lines up s -> exists s', finished solve prescribed lines up' s' /\ unsteady_with_labels ls s s'.
Proof.
  intros HC HP HO (s0 & E0 & ER). destruct (start_labels _ _ _ _ HC HP HO E0) as (s0' & E0' & HS). pose proof (run_label solve prescribed lines ls s0 s0' HS) as R. rewrite ER in R.
  destruct (unsteady_run solve prescribed lines s0') as [s'|e] eqn:ER'; [|contradiction]. exists s'. split; [exists s0'; auto | exact R].
Qed.
Lemma unsteady_labels_error solve prescribed lines ls up up' s0 e : created up -> labels_for ls up -> other_labels ls up up' ->
  unsteady_new up = Ok s0 -> unsteady_run solve prescribed lines s0 = Err e -> exists s0', unsteady_new up' = Ok s0' /\ unsteady_run solve prescribed lines s0' = Err e.
Proof.
  intros HC HP HO E0 ER. destruct (start_labels _ _ _ _ HC HP HO E0) as (s0' & E0' & HS). pose proof (run_label solve prescribed lines ls s0 s0' HS) as R. rewrite ER in R.
  exists s0'. split; [exact E0'|]. destruct (unsteady_run solve prescribed lines s0') as [s'|e']; [contradiction|]. cbn in R. congruence.
Qed.
