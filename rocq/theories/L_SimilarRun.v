(** The same flight at another speed: whole runs. *)
From Coq Require Import List ZArith Lia Lra Bool Reals.
From Verif Require Import M_Unsteady S_Solve S_Unsteady S_UnsteadyRun S_Movement S_Similar L_Base L_Loads L_Geometry L_Scaling L_Aero L_RigidShift L_UnsteadyStep L_Unsteady L_UnsteadyRun L_UnsteadyFinal L_UnsteadyProps L_NoLoads L_ImageRun L_Similar.
Import ListNotations.
Local Open Scope R_scope.
Local Open Scope list_scope.

Section Run.
Context (c r : R) (Hc : 0 < c) (Hr : 0 < r).
Notation sc_ring := (sc_ring c). Notation sc_airplane := (sc_airplane c r). Notation sc_step := (sc_step c r). Notation sc_wake := (sc_wake c).
Notation sc_row := (sc_row c r). Notation sc_last := (sc_last c). Notation sc_current := (sc_current c r). Notation sc_final := (sc_final c r).
Notation lf := (load_factor c r).
(** The scaled problem; what is not used in a run is taken from [u']. *)
Definition sc_problem (u' up : unsteady_problem) : unsteady_problem :=
  mkunsteady (up_movement u') (up_num_steps up) (up_delta_time up / c) (up_only_final_results u') (up_max_period u') (up_first_averaging_step up) (up_first_results_step up)
             (sc_final (up_final up)) (sc_final (up_final_mean up)) (sc_final (up_final_rms up)) (map sc_step (up_steady_problems up)).
Definition sc_solver (u' : unsteady_problem) (s : unsteady_solver) : unsteady_solver :=
  mkus (sc_problem u' (us_problem s)) (map sc_ring (us_heap s)) (us_num_wake s) (map sc_wake (us_wakes s)) (option_map sc_current (us_current s)) (us_streamline_points s).

Lemma sc_set_airplanes k airplanes steps : set_airplanes k (map sc_airplane airplanes) (map sc_step steps) = result_map (map sc_step) (set_airplanes k airplanes steps).
Proof.
  unfold set_airplanes. rewrite index_map, bind_result_map, result_map_bind. apply bind_ext; intros sp. cbn [result_map]. rewrite <- set_at_map. reflexivity.
Qed.
Lemma sc_num_panels airplanes : num_panels_of (map sc_airplane airplanes) = num_panels_of airplanes.
Proof.
  unfold num_panels_of. generalize 0%nat. induction airplanes as [|a l IH]; intros k; cbn [map fold_left]; [reflexivity|]. apply IH.
Qed.
Lemma sc_seeds rows : seeds_of (map rr_panel (map sc_row rows)) = seeds_of (map rr_panel rows).
Proof.
  unfold seeds_of. induction rows as [|x rows IH]; cbn [map filter]; [reflexivity|]. change (p_is_trailing_edge (rr_panel (sc_row x))) with (p_is_trailing_edge (rr_panel x)).
  destruct (p_is_trailing_edge (rr_panel x)); cbn [map]; rewrite IH; reflexivity.
Qed.

(** One step, when its system is square. *)
Lemma sc_unsteady_step solve (HS : SolveSpec solve) prescribed u' s k s' :
  (forall sp rows la, index (up_steady_problems (us_problem s)) k = Ok sp -> unsteady_collapse (sp_airplanes sp) = Ok rows ->
     last_step_arrays (num_panels_of (sp_airplanes sp)) k (up_steady_problems (us_problem s)) = Ok la ->
     num_panels_of (sp_airplanes sp) = length rows /\ length (la_collocations la) = length rows) ->
  unsteady_step solve prescribed s k = Ok s' -> unsteady_step solve prescribed (sc_solver u' s) k = Ok (sc_solver u' s').
Proof.
  intros HL E. unfold unsteady_step in E |- *. cbn zeta in E |- *. apply bind_Ok in E. destruct E as (sp & Esp & E). apply bind_Ok in E. destruct E as (al & Eal & E).
  apply bind_Ok in E. destruct E as (rows & Erows & E). apply bind_Ok in E. destruct E as (wake & Ewake & E). apply bind_Ok in E. destruct E as (la & Ela & E).
  destruct (HL sp rows la Esp Erows Ela) as [Ln Lc]. clear HL.
  apply bind_Ok in E. destruct E as (xs & Exs & E). apply bind_Ok in E. destruct E as (a1 & Ea1 & E). apply bind_Ok in E. destruct E as (a2 & Ea2 & E).
  apply bind_Ok in E. destruct E as (steps & Es & E). apply bind_Ok in E. destruct E as (hs & Ehs & E). apply Ok_eq in E. subst s'.
  cbn [sc_solver us_problem us_heap us_num_wake us_wakes us_current us_streamline_points sc_problem up_steady_problems up_delta_time up_first_results_step up_num_steps].
  rewrite index_map, Esp. cbn [result_map bind]. rewrite index_map, Eal. cbn [result_map bind].
  change (sp_airplanes (sc_step sp)) with (map sc_airplane (sp_airplanes sp)). change (sp_operating_point (sc_step sp)) with (faster c r (sp_operating_point sp)).
  rewrite sc_collapse, Erows. cbn [result_map bind]. rewrite (sc_collapse_wake c r), Ewake. cbn [result_map bind]. rewrite sc_num_panels, sc_last_arrays, Ela. cbn [result_map bind].
  rewrite (sc_influences c r _ _ (op_nu (sp_operating_point sp))). rewrite (sc_freestream c r), (sc_freestream_influences c r). change (op_nu (faster c r (sp_operating_point sp))) with (c * op_nu (sp_operating_point sp)).
  rewrite (sc_wake_influences c r Hc), sc_rhs.
  rewrite (solve_scale solve _ _ xs c HS); [|rewrite Ln; apply step_matrix_square | rewrite Ln; etransitivity; [apply (step_rhs_length k (up_delta_time (us_problem s)) rows la wake (sp_operating_point sp)); exact Lc | symmetry; apply step_matrix_length] | exact Exs].
  cbn [bind]. rewrite (sc_update c r unsteady_set_strength unsteady_set_strength (Rmult c)) by (intros; apply sc_set_strength). rewrite Ea1. cbn [result_map bind].
  match type of Ea2 with context [current_velocity ?u] => set (cu := u) in * end.
  match goal with |- context [current_velocity ?u] => assert (Ecu : u = sc_current cu) by (unfold cu, L_Similar.sc_current; cbn [cu_step cu_op cu_freestream cu_rows cu_last cu_seeds cu_wing_influences cu_freestream_influences cu_wake_influences cu_strengths cu_wake]; rewrite sc_seeds; reflexivity); rewrite Ecu; clear Ecu end.
  assert (EA : (if (up_first_results_step (us_problem s) <=? Z.of_nat k)%Z then
     let* loads := unsteady_loads (op_density (faster c r (sp_operating_point sp))) (up_delta_time (us_problem s) / c) k (current_velocity (sc_current cu)) (map sc_airplane a1) (map sc_row rows) (sc_last la) (map (Rmult c) xs) in
     process_forces (faster c r (sp_operating_point sp)) (map fst loads) (map snd loads) (map sc_airplane a1)
     else Ok (map sc_airplane a1)) = Ok (map sc_airplane a2)).
  { destruct (up_first_results_step (us_problem s) <=? Z.of_nat k)%Z; [|congruence]. apply bind_Ok in Ea2. destruct Ea2 as (loads & El & Ep).
    change (op_density (faster c r (sp_operating_point sp))) with (r * op_density (sp_operating_point sp)). rewrite (sc_loads c r _ _ _ (current_velocity cu)) by (intros; apply (sc_current_velocity c r Hc)).
    rewrite El. cbn [result_map bind]. rewrite (sc_process c r Hc Hr), Ep. reflexivity. }
  rewrite EA. cbn [bind]. rewrite sc_set_airplanes, Es. cbn [result_map bind].
  destruct (Z.of_nat k <? up_num_steps (us_problem s) - 1)%Z.
  - apply bind_Ok in Ehs. destruct Ehs as (nx & En & Ehs). apply bind_Ok in Ehs. destruct Ehs as (rr & Err & Ehs). apply bind_Ok in Ehs. destruct Ehs as (st & Est & Ehs). apply Ok_eq in Ehs. subst hs.
    rewrite index_map, En. cbn [result_map bind]. change (sp_airplanes (sc_step nx)) with (map sc_airplane (sp_airplanes nx)).
    rewrite (sc_populate c r Hc _ _ (convect_vertex prescribed (freestream_velocity (sp_operating_point sp)) (current_velocity cu) (up_delta_time (us_problem s)))).
    2: { intros v. rewrite <- (sc_freestream c r). apply (sc_convect c r Hc). }
    rewrite Err. cbn [result_map bind fst snd]. rewrite sc_set_airplanes, Est. cbn [result_map bind fst snd].
    unfold sc_solver, sc_problem, up_set_steps. cbn [us_problem us_heap us_num_wake us_wakes us_current us_streamline_points up_movement up_num_steps up_delta_time up_only_final_results up_max_period up_first_averaging_step up_first_results_step up_final up_final_mean up_final_rms up_steady_problems option_map].
    rewrite <- set_at_map. reflexivity.
  - apply Ok_eq in Ehs. subst hs. cbn [bind fst snd].
    unfold sc_solver, sc_problem, up_set_steps. cbn [us_problem us_heap us_num_wake us_wakes us_current us_streamline_points up_movement up_num_steps up_delta_time up_only_final_results up_max_period up_first_averaging_step up_first_results_step up_final up_final_mean up_final_rms up_steady_problems option_map].
    rewrite <- set_at_map. reflexivity.
Qed.

(** ** The start *)
Lemma sc_no_final : sc_final no_final_loads = no_final_loads.
Proof. reflexivity. Qed.
Lemma sc_zero_wake n : sc_wake (zero_wake n) = zero_wake n.
Proof. unfold zero_wake, L_Similar.sc_wake. cbn [wk_strengths wk_ages wk_front_right wk_front_left wk_back_left wk_back_right]. rewrite !repeat_map. f_equal; f_equal; field; lra. Qed.
Lemma sc_start up up' s0 s1 : created up -> same_flight c r up up' -> unsteady_new up = Ok s0 -> unsteady_start 0 s0 = Ok s1 ->
  exists s0', unsteady_new up' = Ok s0' /\ unsteady_start 0 s0' = Ok (sc_solver up' s1).
Proof.
  intros HC [F1 F2 F3 F4 F5 (F6 & F7 & F8) F9] E0 E1. pose proof (created_clean up HC) as Cl. destruct (created_fields up HC) as (C1 & C2 & C3 & _).
  set (h := fun sp => mksteady (sp_airplanes sp) (faster c r (sp_operating_point sp))) in *.
  unfold unsteady_new in *. apply bind_Ok in E0. destruct E0 as (sp & Esp & E0). apply Ok_eq in E0. subst s0. rewrite F9, index_map, Esp. cbn [result_map bind]. eexists. split; [reflexivity|].
  unfold unsteady_start in *. cbn [us_problem us_heap us_num_wake us_wakes us_current us_streamline_points] in *. rewrite F2, F9, F1.
  apply bind_Ok in E1. destruct E1 as (counts & Ec & E1). apply bind_Ok in E1. destruct E1 as (steps & Es & E1). apply Ok_eq in E1. subst s1.
  rewrite (mapM_commute (fun k => let* sp := index (up_steady_problems up) k in Ok (k * total_spanwise (sp_airplanes sp))%nat) _ (fun k => k)).
  2: { intros k _. rewrite index_map, bind_result_map, result_map_bind. apply bind_ext. reflexivity. }
  rewrite Ec. cbn [result_map bind]. rewrite map_id.
  assert (EM : mapM (unsteady_init_step 0 (up_delta_time up / c)) (map h (up_steady_problems up)) = Ok (map sc_step steps)).
  { clear -Hc Es Cl. revert steps Es. induction (up_steady_problems up) as [|sp l IH]; intros steps Es; cbn [map mapM] in *; [apply Ok_eq in Es; subst steps; reflexivity|].
    apply Forall_cons_iff in Cl. destruct Cl as [Cs Cl]. apply bind_Ok in Es. destruct Es as (sp1 & E1 & Es). apply bind_Ok in Es. destruct Es as (l1 & E2 & Es). apply Ok_eq in Es. subst steps.
    unfold h at 1. rewrite (sc_init_step c r Hc), E1.
    - cbn [result_map bind]. rewrite (IH Cl l1 E2). reflexivity.
    - eapply Forall_impl; [|exact Cs]. intros a. apply airplane_clean_iff. }
  rewrite EM. cbn [bind app]. unfold sc_solver, sc_problem, up_set_steps. cbn [us_problem us_heap us_num_wake us_wakes us_current us_streamline_points up_movement up_num_steps up_delta_time up_only_final_results up_max_period up_first_averaging_step up_first_results_step up_final up_final_mean up_final_rms up_steady_problems option_map map].
  rewrite F1, F2, F3, F4, F6, F7, F8, C1, C2, C3, !sc_no_final.
  assert (EZ : map sc_wake (map zero_wake counts) = map zero_wake counts) by (rewrite map_map; apply map_ext; intros; apply sc_zero_wake). rewrite EZ. reflexivity.
Qed.
Lemma sc_after solve (HS : SolveSpec solve) prescribed up up' n s : created up -> same_flight c r up up' -> (n <= length (up_steady_problems up))%nat ->
  after solve prescribed up n s -> after solve prescribed up' n (sc_solver up' s).
Proof.
  intros HC SF. revert s. induction n as [|n IH]; intros s Hn HA.
  - destruct HA as (s0 & s1 & E0 & E1 & E). cbn in E. apply Ok_eq in E. subst s1. destruct (sc_start up up' s0 s HC SF E0 E1) as (s0' & E0' & E1'). exists s0', (sc_solver up' s). auto.
  - destruct (created_some up HC ltac:(lia)) as [F HM]. apply after_S in HA. destruct HA as (s' & HA & Es). apply after_S. exists (sc_solver up' s'). split; [apply IH; [lia | exact HA]|].
    destruct (after_ran solve HS prescribed F up n s' HM HA ltac:(lia)) as (s1 & conv & _ & R). destruct R as [R1 R2 R3 R4 _ _ _].
    assert (L1 := Forall2_length _ _ _ R3).
    destruct (unsteady_step_ok solve prescribed F (us_problem s1) conv n s' R1 R4 ltac:(lia)) as (sp & rows & la & Hsp & Erows & _ & Prows & Ela & Sla & _).
    apply (sc_unsteady_step solve HS); [|exact Es].
    intros sp' rows' la' Hsp' Erows' Ela'. apply index_Some in Hsp'. assert (sp' = sp) by congruence. subst sp'. assert (rows' = rows) by congruence. subst rows'.
    assert (Ln : num_panels_of (sp_airplanes sp) = length rows).
    { assert (RS : ready_step F sp). { destruct (Forall2_in_r _ _ _ _ (ri_kept _ _ _ _ R4) (nth_error_In _ _ Hsp)) as (sp0 & H0 & HSS). eapply solved_ready; [exact HSS | apply (rp_steps _ _ R1); exact H0]. }
      destruct (ready_count _ _ RS) as [Cn Cn']. apply (f_equal (@length _)) in Prows. rewrite map_length in Prows. congruence. }
    rewrite Ln in Ela'. assert (la' = la) by congruence. subst la'. split; [exact Ln | apply Sla].
Qed.

(** ** Final loads *)
Definition sc_ld (l : load) : load := mkload (vscale lf (ld_force l)) (ld_force_coefficients l) (vscale lf (ld_moment l)) (ld_moment_coefficients l).
Lemma sc_loads_of a : loads_of (sc_airplane a) = result_map sc_ld (loads_of a).
Proof.
  unfold loads_of. change (a_force_wind (sc_airplane a)) with (sc_load c r (a_force_wind a)). change (a_moment_wind (sc_airplane a)) with (sc_load c r (a_moment_wind a)).
  change (a_force_coefficients (sc_airplane a)) with (a_force_coefficients a). change (a_moment_coefficients (sc_airplane a)) with (a_moment_coefficients a).
  destruct (a_force_wind a), (a_force_coefficients a), (a_moment_wind a), (a_moment_coefficients a); reflexivity.
Qed.
Lemma sc_history u' up id : load_history (sc_problem u' up) id = result_map (map sc_ld) (load_history up id).
Proof.
  unfold load_history. change (averaging_steps (sc_problem u' up)) with (averaging_steps up). cbn [sc_problem up_steady_problems]. apply mapM_commute. intros k _.
  rewrite index_map, bind_result_map, result_map_bind. apply bind_ext; intros sp. change (sp_airplanes (sc_step sp)) with (map sc_airplane (sp_airplanes sp)).
  rewrite index_map, bind_result_map, result_map_bind. apply bind_ext; intros a. apply sc_loads_of.
Qed.
Lemma sc_append f l : append_load (sc_final f) (sc_ld l) = sc_final (append_load f l).
Proof. unfold append_load, L_Similar.sc_final. cbn. rewrite !map_app. reflexivity. Qed.
Lemma sc_mean l : mean_of (map (Rmult lf) l) = lf * mean_of l.
Proof.
  unfold mean_of. rewrite map_length. replace (rsum (map (Rmult lf) l)) with (lf * rsum l); [unfold Rdiv; ring|]. induction l as [|x l IH]; cbn [map]; [rewrite rsum_nil; ring|]. rewrite !rsum_cons, <- IH. ring.
Qed.
Lemma sc_rms l : rms_of (map (Rmult lf) l) = lf * rms_of l.
Proof.
  pose proof (load_factor_pos c r Hc Hr) as P. unfold rms_of. rewrite map_map.
  replace (mean_of (map (fun x => lf * x * (lf * x)) l)) with (lf * lf * mean_of (map (fun x => x * x) l)).
  - rewrite sqrt_mult_alt by nra. rewrite sqrt_square by lra. reflexivity.
  - unfold mean_of. rewrite !map_length. replace (rsum (map (fun x => lf * x * (lf * x)) l)) with (lf * lf * rsum (map (fun x => x * x) l)); [unfold Rdiv; ring|].
    rewrite <- rsum_map_scale. f_equal. apply map_ext. intros; ring.
Qed.
Lemma sc_component f l : (forall xs, f (map (Rmult lf) xs) = lf * f xs) -> each_component f (map (vscale lf) l) = vscale lf (each_component f l).
Proof.
  intros H. unfold each_component. rewrite !map_map.
  assert (X : forall g : vec -> R, (forall v, g (vscale lf v) = lf * g v) -> f (map (fun v => g (vscale lf v)) l) = lf * f (map g l)).
  { intros g Hg. rewrite <- H, map_map. f_equal. apply map_ext. exact Hg. }
  rewrite (X vx), (X vy), (X vz) by reflexivity. reflexivity.
Qed.
Lemma sc_each f h : (forall xs, f (map (Rmult lf) xs) = lf * f xs) -> each_load f (map sc_ld h) = sc_ld (each_load f h).
Proof.
  intros H. unfold each_load. rewrite !map_map. unfold sc_ld at 5. cbn [ld_force ld_force_coefficients ld_moment ld_moment_coefficients]. rewrite <- !(sc_component f) by exact H. rewrite !map_map. reflexivity.
Qed.
Lemma sc_finalize_airplane u' up id : (up_max_period u' = 0 <-> up_max_period up = 0) -> finalize_airplane (sc_problem u' up) id = result_map (sc_problem u') (finalize_airplane up id).
Proof.
  intros HT. unfold finalize_airplane. rewrite sc_history, bind_result_map, result_map_bind. apply bind_ext; intros h. cbn [sc_problem up_max_period].
  assert (EB : Reqb (up_max_period u') 0 = Reqb (up_max_period up) 0). { apply eq_true_iff_eq. rewrite !Reqb_true. exact HT. }
  rewrite EB. destruct (Reqb (up_max_period up) 0).
  - rewrite map_length, index_map, bind_result_map, result_map_bind. apply bind_ext; intros l. cbn [result_map]. unfold up_set_final, sc_problem. cbn. rewrite sc_append. reflexivity.
  - cbn [result_map]. rewrite (sc_each mean_of h sc_mean), (sc_each rms_of h sc_rms). unfold up_set_final, sc_problem. cbn. rewrite !sc_append. reflexivity.
Qed.
Lemma sc_finalize u' up : (up_max_period u' = 0 <-> up_max_period up = 0) -> finalize (sc_problem u' up) = result_map (sc_problem u') (finalize up).
Proof.
  intros HT. unfold finalize. cbn [sc_problem up_steady_problems]. rewrite index_map, bind_result_map, result_map_bind. apply bind_ext; intros sp. change (sp_airplanes (sc_step sp)) with (map sc_airplane (sp_airplanes sp)). rewrite map_length.
  fold (sc_problem u' up). generalize (seq 0 (length (sp_airplanes sp))). intros l. revert up HT. induction l as [|id l IH]; intros up HT; cbn [foldM]; [reflexivity|].
  rewrite (sc_finalize_airplane u' up id HT), bind_result_map, result_map_bind. destruct (finalize_airplane up id) as [up1|e] eqn:E; [|reflexivity]. cbn [bind]. apply IH.
  assert (X : up_max_period up1 = up_max_period up); [|rewrite X; exact HT].
  unfold finalize_airplane in E. apply bind_Ok in E. destruct E as (h & _ & E). destruct (Reqb (up_max_period up) 0); [apply bind_Ok in E; destruct E as (x & _ & E)|]; apply Ok_eq in E; subst up1; reflexivity.
Qed.

(** ** What the scaled results look like *)
Lemma map_Forall2 {A B} (R : A -> B -> Prop) (f : A -> B) l : (forall x, R x (f x)) -> Forall2 R l (map f l).
Proof. intros H. induction l; constructor; auto. Qed.
Lemma sc_panel_similar p : panel_similar c r p (sc_panel c r p).
Proof. unfold panel_similar. cbn [sc_panel p_ring_vortex p_force_geometry p_moment_geometry p_force_wind p_moment_wind p_induced_drag_coefficient p_side_force_coefficient p_lift_coefficient]. split; [destruct (p_ring_vortex p); cbn; auto 6 | repeat (split; [reflexivity|]); reflexivity]. Qed.
Lemma sc_airplane_similar a : airplane_similar c r a (sc_airplane a).
Proof.
  repeat (split; [reflexivity|]). apply map_Forall2. intros w. split; [|reflexivity]. apply map_Forall2. intros row. apply map_Forall2. apply sc_panel_similar.
Qed.
Lemma sc_run_similar u' s s' : us_problem s' = sc_problem u' (us_problem s) -> us_wakes s' = map sc_wake (us_wakes s) -> us_current s' = option_map sc_current (us_current s) -> run_similar c r s s'.
Proof.
  intros E1 E2 E3. constructor.
  - rewrite E1. apply map_Forall2. intros sp. apply map_Forall2. apply sc_airplane_similar.
  - rewrite E2. apply map_Forall2. intros w. repeat (split; [reflexivity|]). reflexivity.
  - intros points v Hv. unfold unsteady_solution_velocity in *. rewrite E3. destruct (us_current s) as [u|]; [|discriminate]. cbn [option_map]. apply Ok_eq in Hv. subst v. f_equal. apply (sc_current_velocity c r Hc).
  - rewrite E1. repeat (split; [reflexivity|]). reflexivity.
  - rewrite E1. repeat (split; [reflexivity|]). reflexivity.
  - rewrite E1. repeat (split; [reflexivity|]). reflexivity.
Qed.
Lemma similar_after solve (HS : SolveSpec solve) prescribed up up' n s : created up -> same_flight c r up up' -> (n <= length (up_steady_problems up))%nat ->
  after solve prescribed up n s -> exists s', after solve prescribed up' n s' /\ run_similar c r s s'.
Proof. intros HC SF Hn HA. exists (sc_solver up' s). split; [apply (sc_after solve HS prescribed up up' n s HC SF Hn HA) | apply (sc_run_similar up'); reflexivity]. Qed.
Lemma similar_finished solve (HS : SolveSpec solve) prescribed (lines : bool) up up' s : created up -> same_flight c r up up' ->
  finished solve prescribed lines up s -> exists s', finished solve prescribed lines up' s' /\ run_similar c r s s'.
Proof.
  intros HC SF HF. destruct (finished_meshed _ _ _ up s HC HF) as [F HM]. destruct (finished_inv _ _ _ _ _ F HF HM) as (sf & f & m & rr & HA & Efin & _ & _ & _ & _ & Ew & Ec & _).
  pose proof (after_problem solve HS prescribed up _ sf F HA HM (le_n _)) as EP.
  pose proof (sc_after solve HS prescribed up up' _ sf HC SF (le_n _) HA) as (s0' & s1' & E0' & E1' & E').
  assert (HT : up_max_period up' = 0 <-> up_max_period (us_problem sf) = 0) by (rewrite EP; exact (sf_periodic _ _ _ _ SF)).
  pose proof (sc_finalize up' (us_problem sf) HT) as EF. rewrite Efin in EF. cbn [result_map] in EF.
  assert (EN : Z.to_nat (up_num_steps (us_problem s1')) = length (up_steady_problems up)).
  { unfold unsteady_new in E0'. apply bind_Ok in E0'. destruct E0' as (sp & _ & E0'). apply Ok_eq in E0'. subst s0'. unfold unsteady_start in E1'. apply bind_Ok in E1'. destruct E1' as (x & _ & E1'). apply bind_Ok in E1'. destruct E1' as (y & _ & E1'). apply Ok_eq in E1'. subst s1'.
    cbn [us_problem up_set_steps up_num_steps]. rewrite (sf_num_steps _ _ _ _ SF), <- (mp_size _ _ HM), Nat2Z.id. reflexivity. }
  assert (HR : exists ls, unsteady_run solve prescribed lines s0' = Ok (mkus (sc_problem up' (us_problem s)) (map sc_ring (us_heap sf)) (us_num_wake sf) (map sc_wake (us_wakes sf)) (option_map sc_current (us_current sf)) ls)).
  { unfold unsteady_run, unsteady_run_with. rewrite E1'. cbn [bind]. rewrite EN, E'. cbn [bind]. change (us_problem (sc_solver up' sf)) with (sc_problem up' (us_problem sf)). rewrite EF. cbn [bind].
    cbn [sc_solver us_heap us_num_wake us_wakes us_current us_streamline_points].
    destruct lines; [|eexists; reflexivity].
    destruct (us_current sf) as [u|] eqn:Eu; [eexists; reflexivity|]. exfalso.
    destruct HF as (s0 & E0 & E). unfold unsteady_run, unsteady_run_with in E. destruct HA as (s0a & s1a & A0 & A1 & A2). assert (s0a = s0) by congruence. subst s0a. rewrite A1 in E. cbn [bind] in E.
    assert (EN1 : Z.to_nat (up_num_steps (us_problem s1a)) = length (up_steady_problems up)).
    { unfold unsteady_new in A0. apply bind_Ok in A0. destruct A0 as (sp & _ & A0). apply Ok_eq in A0. subst s0. unfold unsteady_start in A1. apply bind_Ok in A1. destruct A1 as (x & _ & A1). apply bind_Ok in A1. destruct A1 as (y & _ & A1). apply Ok_eq in A1. subst s1a.
      cbn [us_problem up_set_steps up_num_steps]. rewrite <- (mp_size _ _ HM), Nat2Z.id. reflexivity. }
    rewrite EN1, A2 in E. cbn [bind] in E. rewrite Efin in E. cbn [bind] in E. rewrite Eu in E. discriminate E. }
  destruct HR as [ls HR]. eexists. split; [exists s0'; split; [exact E0' | exact HR]|]. apply (sc_run_similar up'); cbn [us_problem us_wakes us_current]; [reflexivity | rewrite Ew; reflexivity | rewrite Ec; reflexivity].
Qed.
End Run.
