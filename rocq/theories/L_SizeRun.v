(** Unsteady runs with everything built larger or smaller: whole runs. *)
From Coq Require Import List ZArith Lia Lra Bool Reals.
From Verif Require Import M_Unsteady S_Solve S_Unsteady S_UnsteadyRun S_Loads S_Solvable S_Movement S_Size S_SizeUnsteady L_Base L_Loads L_Geometry L_Scaling L_Aero L_RigidShift L_UnsteadyStep L_Unsteady L_UnsteadyRun L_UnsteadyFinal L_UnsteadyProps L_NoLoads L_ImageRun L_Wake L_Similar L_SimilarRun L_Size L_SizeSolvers L_SizeUnsteady.
Import ListNotations.
Local Open Scope R_scope.
Local Open Scope list_scope.

Section Run.
Context (k : R) (Hk : 0 < k).
Notation bg_ring := (bg_ring k). Notation bg_airplane := (bg_airplane k). Notation bg_step := (bg_step k). Notation bg_wake := (bg_wake k).
Notation bg_row := (bg_row k). Notation bg_last := (bg_last k). Notation bg_current := (bg_current k). Notation bg_final := (bg_final k).
(** The larger problem; what is not used in a run is taken from [u']. *)
Definition bg_problem (u' up : unsteady_problem) : unsteady_problem :=
  mkunsteady (up_movement u') (up_num_steps up) (k * up_delta_time up) (up_only_final_results u') (up_max_period u') (up_first_averaging_step up) (up_first_results_step up)
             (bg_final (up_final up)) (bg_final (up_final_mean up)) (bg_final (up_final_rms up)) (map bg_step (up_steady_problems up)).
Definition bg_solver (u' : unsteady_problem) (s : unsteady_solver) : unsteady_solver :=
  mkus (bg_problem u' (us_problem s)) (map bg_ring (us_heap s)) (us_num_wake s) (map bg_wake (us_wakes s)) (option_map bg_current (us_current s)) (us_streamline_points s).

Lemma bg_set_airplanes i airplanes steps : set_airplanes i (map bg_airplane airplanes) (map bg_step steps) = result_map (map bg_step) (set_airplanes i airplanes steps).
Proof.
  unfold set_airplanes. rewrite index_map, bind_result_map, result_map_bind. apply bind_ext; intros sp. cbn [result_map]. rewrite <- set_at_map. reflexivity.
Qed.
Lemma bg_num_panels airplanes : num_panels_of (map bg_airplane airplanes) = num_panels_of airplanes.
Proof.
  unfold num_panels_of. generalize 0%nat. induction airplanes as [|a l IH]; intros n; cbn [map fold_left]; [reflexivity|]. apply IH.
Qed.
Lemma bg_seeds rows : seeds_of (map rr_panel (map bg_row rows)) = map (vscale k) (seeds_of (map rr_panel rows)).
Proof.
  unfold seeds_of. induction rows as [|x rows IH]; cbn [map filter]; [reflexivity|]. change (p_is_trailing_edge (rr_panel (bg_row x))) with (p_is_trailing_edge (rr_panel x)).
  destruct (p_is_trailing_edge (rr_panel x)); cbn [map]; rewrite IH; [|reflexivity]. f_equal. change (rr_panel (bg_row x)) with (bg_panel k (rr_panel x)). cbn [bg_panel p_back_left p_back_right]. rewrite big_sub. vring.
Qed.
Lemma set_airplanes_at i airplanes steps steps' sp : index steps i = Ok sp -> set_airplanes i airplanes steps = Ok steps' ->
  nth_error steps' i = Some (mksteady airplanes (sp_operating_point sp)) /\ forall j, j <> i -> nth_error steps' j = nth_error steps j.
Proof.
  intros Ei E. unfold set_airplanes in E. rewrite Ei in E. cbn [bind] in E. apply Ok_eq in E. subst steps'. apply index_Some in Ei. assert (L : (i < length steps)%nat) by (apply nth_error_Some; congruence). split.
  - rewrite set_at_nth by exact L. rewrite Nat.eqb_refl. reflexivity.
  - intros j Hj. rewrite set_at_nth by exact L. destruct (Nat.eqb_spec j i); [contradiction | reflexivity].
Qed.

(** One step, when its system is square. *)
Lemma bg_unsteady_step solve (HS : SolveSpec solve) prescribed u' s i s' :
  (forall sp rows la, index (up_steady_problems (us_problem s)) i = Ok sp -> unsteady_collapse (sp_airplanes sp) = Ok rows ->
     last_step_arrays (num_panels_of (sp_airplanes sp)) i (up_steady_problems (us_problem s)) = Ok la ->
     num_panels_of (sp_airplanes sp) = length rows /\ length (la_collocations la) = length rows) ->
  unsteady_step solve prescribed s i = Ok s' -> resolved_step k prescribed i s' -> unsteady_step solve prescribed (bg_solver u' s) i = Ok (bg_solver u' s').
Proof.
  intros HL E HR. unfold unsteady_step in E |- *. cbn zeta in E |- *. apply bind_Ok in E. destruct E as (sp & Esp & E). apply bind_Ok in E. destruct E as (al & Eal & E).
  apply bind_Ok in E. destruct E as (rows & Erows & E). apply bind_Ok in E. destruct E as (wake & Ewake & E). apply bind_Ok in E. destruct E as (la & Ela & E).
  destruct (HL sp rows la Esp Erows Ela) as [Ln Lc]. clear HL.
  apply bind_Ok in E. destruct E as (xs & Exs & E). apply bind_Ok in E. destruct E as (a1 & Ea1 & E). apply bind_Ok in E. destruct E as (a2 & Ea2 & E).
  apply bind_Ok in E. destruct E as (steps & Es & E). apply bind_Ok in E. destruct E as (hs & Ehs & E). apply Ok_eq in E. subst s'.
  set (up := us_problem s) in *.
  destruct (set_airplanes_at i a2 _ _ _ Esp Es) as [N1 _].
  assert (N2 : nth_error (snd hs) i = Some (mksteady a2 (sp_operating_point sp))).
  { destruct (Z.of_nat i <? up_num_steps up - 1)%Z; [|apply Ok_eq in Ehs; subst hs; exact N1].
    apply bind_Ok in Ehs. destruct Ehs as (nx & En & Ehs). apply bind_Ok in Ehs. destruct Ehs as (rr & Err & Ehs). apply bind_Ok in Ehs. destruct Ehs as (st & Est & Ehs). apply Ok_eq in Ehs. subst hs. cbn [snd].
    destruct (set_airplanes_at _ _ _ _ _ En Est) as [_ N]. rewrite N by lia. exact N1. }
  assert (ST1 : Forall2 airplane_stays (sp_airplanes sp) a1) by (eapply update_stays; [apply strength_stays | exact Ea1]).
  assert (ST : Forall2 airplane_stays (sp_airplanes sp) a2).
  { destruct (up_first_results_step up <=? Z.of_nat i)%Z; [|apply Ok_eq in Ea2; subst a2; exact ST1]. apply bind_Ok in Ea2. destruct Ea2 as (loads & _ & Ep). eapply compose_F2; [exact airplane_stays_trans | exact ST1 | exact (process_stays _ _ _ _ _ Ep)]. }
  assert (RV : forall x, step_points prescribed (up_set_steps (snd hs) up) i x -> resolved k (row_legs rows ++ wake_legs wake) x).
  { intros x Hx. apply (row_legs_resolved k _ _ a2 wake x Erows ST). apply (HR (mksteady a2 (sp_operating_point sp)) wake x); [exact N2 | | exact Hx].
    cbn [us_wakes]. apply index_Some in Eal. rewrite set_at_nth by (apply nth_error_Some; congruence). rewrite Nat.eqb_refl. reflexivity. }
  clear HR.
  assert (RC : forall x, In x (map rr_collocation rows) -> resolved k (row_legs rows ++ wake_legs wake) x).
  { intros x Hx. apply RV. left. apply in_map_iff in Hx. destruct Hx as (y & <- & Hy). destruct (stays_panel _ _ _ ST (proj1 (row_panel _ _ _ Erows Hy))) as (q & Hq & _ & Sq & _). exists (mksteady a2 (sp_operating_point sp)), q. split; [exact N2|]. split; [exact Hq|]. left. symmetry. exact Sq. }
  assert (RL : (up_first_results_step up <= Z.of_nat i)%Z -> forall f x, In f [rr_right_center; rr_front_center; rr_left_center] -> In x (map f rows) -> resolved k (row_legs rows ++ wake_legs wake) x).
  { intros Hi f x Hf Hx. apply RV. left. apply in_map_iff in Hx. destruct Hx as (y & <- & Hy). destruct (row_panel _ _ _ Erows Hy) as [Py Vy]. destruct (stays_panel _ _ _ ST Py) as (q & Hq & _ & _ & Sq). exists (mksteady a2 (sp_operating_point sp)), q. split; [exact N2|]. split; [exact Hq|]. right. split; [exact Hi|]. rewrite Sq. unfold leg_centers. rewrite Vy.
    cbn [In] in Hf. destruct Hf as [<-|[<-|[<-|[]]]]; cbn; tauto. }
  assert (RC1 := fun x Hx => proj1 (proj1 (resolved_app k _ _ x) (RC x Hx))). assert (RC2 := fun x Hx => proj2 (proj1 (resolved_app k _ _ x) (RC x Hx))).
  cbn [bg_solver us_problem us_heap us_num_wake us_wakes us_current us_streamline_points bg_problem up_steady_problems up_delta_time up_first_results_step up_num_steps]. fold up.
  rewrite index_map, Esp. cbn [result_map bind]. rewrite index_map, Eal. cbn [result_map bind].
  change (sp_airplanes (bg_step sp)) with (map bg_airplane (sp_airplanes sp)). change (sp_operating_point (bg_step sp)) with (thicker k (sp_operating_point sp)).
  rewrite bg_collapse, Erows. cbn [result_map bind]. rewrite bg_collapse_wake, Ewake. cbn [result_map bind]. rewrite bg_num_panels, (bg_last_arrays k Hk), Ela. cbn [result_map bind].
  rewrite (bg_influences k Hk _ _ (op_nu (sp_operating_point sp))) by exact RC1. change (freestream_velocity (thicker k (sp_operating_point sp))) with (freestream_velocity (sp_operating_point sp)). rewrite (bg_freestream_influences k Hk). change (op_nu (thicker k (sp_operating_point sp))) with (k * op_nu (sp_operating_point sp)).
  rewrite (bg_wake_influences k Hk) by exact RC2.
  rewrite (solve_matrix_scale solve _ _ xs (/ k) HS); [|rewrite Ln; apply step_matrix_square | rewrite Ln; etransitivity; [apply (step_rhs_length i (up_delta_time up) rows la wake (sp_operating_point sp)); exact Lc | symmetry; apply step_matrix_length] | apply Rinv_neq_0_compat; lra | exact Exs].
  rewrite Rinv_inv. cbn [bind]. rewrite (bg_update k unsteady_set_strength unsteady_set_strength (Rmult k)) by (intros; apply bg_set_strength). rewrite Ea1. cbn [result_map bind].
  match type of Ea2 with context [current_velocity ?u] => set (cu := u) in * end.
  match goal with |- context [current_velocity ?u] => assert (Ecu : u = bg_current cu) by (unfold cu, L_SizeUnsteady.bg_current; cbn [cu_step cu_op cu_freestream cu_rows cu_last cu_seeds cu_wing_influences cu_freestream_influences cu_wake_influences cu_strengths cu_wake]; rewrite bg_seeds; reflexivity); rewrite Ecu; clear Ecu end.
  assert (EA : (if (up_first_results_step up <=? Z.of_nat i)%Z then
     let* loads := unsteady_loads (op_density (thicker k (sp_operating_point sp))) (k * up_delta_time up) i (current_velocity (bg_current cu)) (map bg_airplane a1) (map bg_row rows) (bg_last la) (map (Rmult k) xs) in
     process_forces (thicker k (sp_operating_point sp)) (map fst loads) (map snd loads) (map bg_airplane a1)
     else Ok (map bg_airplane a1)) = Ok (map bg_airplane a2)).
  { destruct (up_first_results_step up <=? Z.of_nat i)%Z eqn:Ei; [|congruence]. apply Z.leb_le in Ei. apply bind_Ok in Ea2. destruct Ea2 as (loads & El & Ep).
    change (op_density (thicker k (sp_operating_point sp))) with (op_density (sp_operating_point sp)). rewrite (bg_loads k Hk _ _ _ (current_velocity cu)).
    - rewrite El. cbn [result_map bind]. rewrite (bg_process k Hk), Ep. reflexivity.
    - intros f Hf. apply (bg_current_velocity k Hk). intros x Hx. exact (RL Ei f x Hf Hx). }
  rewrite EA. cbn [bind]. rewrite bg_set_airplanes, Es. cbn [result_map bind].
  destruct (Z.of_nat i <? up_num_steps up - 1)%Z eqn:Elast.
  - apply Z.ltb_lt in Elast. apply bind_Ok in Ehs. destruct Ehs as (nx & En & Ehs). apply bind_Ok in Ehs. destruct Ehs as (rr & Err & Ehs). apply bind_Ok in Ehs. destruct Ehs as (st & Est & Ehs). apply Ok_eq in Ehs. subst hs. cbn [snd fst] in *.
    rewrite index_map, En. cbn [result_map bind]. change (sp_airplanes (bg_step nx)) with (map bg_airplane (sp_airplanes nx)).
    destruct (set_airplanes_at _ _ _ _ _ En Est) as [N3 _].
    rewrite (bg_populate k i (up_delta_time up) (convect_vertex prescribed (freestream_velocity (sp_operating_point sp)) (current_velocity cu) (up_delta_time up)) _ (us_heap s) a2 (sp_airplanes nx) rr Err).
    2: { intros -> b v x Hb Hv Hx. apply (bg_convect k Hk prescribed (up_delta_time up) (sp_operating_point sp) cu x). intros Hp. apply RV. right. split; [exact Hp|]. split; [exact Elast|].
         exists (mksteady (snd rr) (sp_operating_point nx)), v. split; [exact N3|]. split; [unfold wings_of; apply in_concat; exists (a_wings b); split; [apply in_map; exact Hb | exact Hv] | exact Hx]. }
    2: { intros Hn a t row x Ha Ht Hr Hx. apply (bg_convect k Hk prescribed (up_delta_time up) (sp_operating_point sp) cu x). intros Hp. apply RV. right. split; [exact Hp|]. split; [exact Elast|]. destruct i as [|i]; [contradiction|].
         exists (mksteady a2 (sp_operating_point sp)), t, row. split; [exact N2|]. split; [unfold wings_of; apply in_concat; exists (a_wings a); split; [apply in_map; exact Ha | exact Ht] | auto]. }
    cbn [bind fst snd]. rewrite bg_set_airplanes, Est. cbn [result_map bind fst snd].
    unfold bg_solver, bg_problem, up_set_steps. cbn [us_problem us_heap us_num_wake us_wakes us_current us_streamline_points up_movement up_num_steps up_delta_time up_only_final_results up_max_period up_first_averaging_step up_first_results_step up_final up_final_mean up_final_rms up_steady_problems option_map].
    rewrite <- set_at_map. reflexivity.
  - apply Ok_eq in Ehs. subst hs. cbn [bind fst snd].
    unfold bg_solver, bg_problem, up_set_steps. cbn [us_problem us_heap us_num_wake us_wakes us_current us_streamline_points up_movement up_num_steps up_delta_time up_only_final_results up_max_period up_first_averaging_step up_first_results_step up_final up_final_mean up_final_rms up_steady_problems option_map].
    rewrite <- set_at_map. reflexivity.
Qed.

(** ** The start *)
Lemma bg_zero_wake n : bg_wake (zero_wake n) = zero_wake n.
Proof. unfold zero_wake, L_SizeUnsteady.bg_wake. cbn [wk_strengths wk_ages wk_front_right wk_front_left wk_back_left wk_back_right]. rewrite !repeat_map, Rmult_0_r. replace (vscale k vzero) with vzero by vring. reflexivity. Qed.
Lemma bg_span airplanes : total_spanwise (map (larger_airplane k) airplanes) = total_spanwise airplanes.
Proof.
  unfold total_spanwise. generalize 0%nat. induction airplanes as [|a l IH]; intros n; cbn [map fold_left]; [reflexivity|]. rewrite IH. f_equal.
  change (a_wings (larger_airplane k a)) with (map (larger_wing k) (a_wings a)). clear. revert n. induction (a_wings a) as [|w ws IH]; intros n; cbn [map fold_left]; [reflexivity|]. apply IH.
Qed.
Lemma bg_start up up' s0 s1 : created up -> larger_flight k up up' -> unsteady_new up = Ok s0 -> unsteady_start 0 s0 = Ok s1 ->
  exists s0', unsteady_new up' = Ok s0' /\ unsteady_start 0 s0' = Ok (bg_solver up' s1).
Proof.
  intros HC [F1 F2 F3 F4 F5 (F6 & F7 & F8) F9] E0 E1. pose proof (created_clean up HC) as Cl. destruct (created_fields up HC) as (C1 & C2 & C3 & _).
  set (h := fun sp => mksteady (map (larger_airplane k) (sp_airplanes sp)) (thicker k (sp_operating_point sp))) in *.
  unfold unsteady_new in *. apply bind_Ok in E0. destruct E0 as (sp & Esp & E0). apply Ok_eq in E0. subst s0. rewrite F9, index_map, Esp. cbn [result_map bind]. eexists. split; [reflexivity|].
  unfold unsteady_start in *. cbn [us_problem us_heap us_num_wake us_wakes us_current us_streamline_points] in *. rewrite F2, F9, F1.
  apply bind_Ok in E1. destruct E1 as (counts & Ec & E1). apply bind_Ok in E1. destruct E1 as (steps & Es & E1). apply Ok_eq in E1. subst s1.
  rewrite (mapM_commute (fun k => let* sp := index (up_steady_problems up) k in Ok (k * total_spanwise (sp_airplanes sp))%nat) _ (fun k => k)).
  2: { intros i _. rewrite index_map, bind_result_map, result_map_bind. apply bind_ext. intros x. cbn [h sp_airplanes result_map]. unfold h. cbn [sp_airplanes]. rewrite bg_span. reflexivity. }
  rewrite Ec. cbn [result_map bind]. rewrite map_id.
  assert (EM : mapM (unsteady_init_step 0 (k * up_delta_time up)) (map h (up_steady_problems up)) = Ok (map bg_step steps)).
  { clear -Hk Es Cl. revert steps Es. induction (up_steady_problems up) as [|sp l IH]; intros steps Es; cbn [map mapM] in *; [apply Ok_eq in Es; subst steps; reflexivity|].
    apply Forall_cons_iff in Cl. destruct Cl as [Cs Cl]. apply bind_Ok in Es. destruct Es as (sp1 & E1 & Es). apply bind_Ok in Es. destruct Es as (l1 & E2 & Es). apply Ok_eq in Es. subst steps.
    unfold h at 1. rewrite (bg_init_step k Hk), E1.
    - cbn [result_map bind]. rewrite (IH Cl l1 E2). reflexivity.
    - eapply Forall_impl; [|exact Cs]. intros a. apply airplane_clean_iff. }
  rewrite EM. cbn [bind app]. unfold bg_solver, bg_problem, up_set_steps. cbn [us_problem us_heap us_num_wake us_wakes us_current us_streamline_points up_movement up_num_steps up_delta_time up_only_final_results up_max_period up_first_averaging_step up_first_results_step up_final up_final_mean up_final_rms up_steady_problems option_map map].
  rewrite F1, F2, F3, F4, F6, F7, F8, C1, C2, C3.
  assert (EZ : map bg_wake (map zero_wake counts) = map zero_wake counts) by (rewrite map_map; apply map_ext; intros; apply bg_zero_wake). rewrite EZ. reflexivity.
Qed.
Lemma bg_after solve (HS : SolveSpec solve) prescribed up up' n s : created up -> larger_flight k up up' -> (n <= length (up_steady_problems up))%nat ->
  resolved_steps k solve prescribed up n -> after solve prescribed up n s -> after solve prescribed up' n (bg_solver up' s).
Proof.
  intros HC SF. revert s. induction n as [|n IH]; intros s Hn HR HA.
  - destruct HA as (s0 & s1 & E0 & E1 & E). cbn in E. apply Ok_eq in E. subst s1. destruct (bg_start up up' s0 s HC SF E0 E1) as (s0' & E0' & E1'). exists s0', (bg_solver up' s). auto.
  - pose proof (HR n s ltac:(lia) HA) as Rn. destruct (created_some up HC ltac:(lia)) as [F HM]. apply after_S in HA. destruct HA as (s' & HA & Es). apply after_S. exists (bg_solver up' s'). split; [apply IH; [lia | intros i t Hi; apply HR; lia | exact HA]|].
    destruct (after_ran solve HS prescribed F up n s' HM HA ltac:(lia)) as (s1 & conv & _ & R). destruct R as [R1 R2 R3 R4 _ _ _].
    assert (L1 := Forall2_length _ _ _ R3).
    destruct (unsteady_step_ok solve prescribed F (us_problem s1) conv n s' R1 R4 ltac:(lia)) as (sp & rows & la & Hsp & Erows & _ & Prows & Ela & Sla & _).
    apply (bg_unsteady_step solve HS); [|exact Es|exact Rn].
    intros sp' rows' la' Hsp' Erows' Ela'. apply index_Some in Hsp'. assert (sp' = sp) by congruence. subst sp'. assert (rows' = rows) by congruence. subst rows'.
    assert (Ln : num_panels_of (sp_airplanes sp) = length rows).
    { assert (RS : ready_step F sp). { destruct (Forall2_in_r _ _ _ _ (ri_kept _ _ _ _ R4) (nth_error_In _ _ Hsp)) as (sp0 & H0 & HSS). eapply solved_ready; [exact HSS | apply (rp_steps _ _ R1); exact H0]. }
      destruct (ready_count _ _ RS) as [Cn Cn']. apply (f_equal (@length _)) in Prows. rewrite map_length in Prows. congruence. }
    rewrite Ln in Ela'. assert (la' = la) by congruence. subst la'. split; [exact Ln | apply Sla].
Qed.

(** ** Final loads *)
Definition bg_ld (l : load) : load := mkload (vscale (k ^ 2) (ld_force l)) (ld_force_coefficients l) (vscale (k ^ 3) (ld_moment l)) (ld_moment_coefficients l).
Lemma bg_loads_of a : loads_of (bg_airplane a) = result_map bg_ld (loads_of a).
Proof.
  unfold loads_of. change (a_force_wind (bg_airplane a)) with (bg_force k (a_force_wind a)). change (a_moment_wind (bg_airplane a)) with (bg_moment k (a_moment_wind a)).
  change (a_force_coefficients (bg_airplane a)) with (a_force_coefficients a). change (a_moment_coefficients (bg_airplane a)) with (a_moment_coefficients a).
  destruct (a_force_wind a), (a_force_coefficients a), (a_moment_wind a), (a_moment_coefficients a); reflexivity.
Qed.
Lemma bg_history u' up id : load_history (bg_problem u' up) id = result_map (map bg_ld) (load_history up id).
Proof.
  unfold load_history. change (averaging_steps (bg_problem u' up)) with (averaging_steps up). cbn [bg_problem up_steady_problems]. apply mapM_commute. intros i _.
  rewrite index_map, bind_result_map, result_map_bind. apply bind_ext; intros sp. change (sp_airplanes (bg_step sp)) with (map bg_airplane (sp_airplanes sp)).
  rewrite index_map, bind_result_map, result_map_bind. apply bind_ext; intros a. apply bg_loads_of.
Qed.
Lemma bg_append f l : append_load (bg_final f) (bg_ld l) = bg_final (append_load f l).
Proof. unfold append_load, L_SizeUnsteady.bg_final, bg_ld. cbn [fl_forces fl_force_coefficients fl_moments fl_moment_coefficients ld_force ld_force_coefficients ld_moment ld_moment_coefficients]. rewrite !map_app. reflexivity. Qed.
Lemma mean_scaled c l : mean_of (map (Rmult c) l) = c * mean_of l.
Proof.
  unfold mean_of. rewrite map_length. replace (rsum (map (Rmult c) l)) with (c * rsum l); [unfold Rdiv; ring|]. induction l as [|x l IH]; cbn [map]; [rewrite rsum_nil; ring|]. rewrite !rsum_cons, <- IH. ring.
Qed.
Lemma rms_scaled c l : 0 < c -> rms_of (map (Rmult c) l) = c * rms_of l.
Proof.
  intros P. unfold rms_of. rewrite map_map.
  replace (mean_of (map (fun x => c * x * (c * x)) l)) with (c * c * mean_of (map (fun x => x * x) l)).
  - rewrite sqrt_mult_alt by nra. rewrite sqrt_square by lra. reflexivity.
  - rewrite <- mean_scaled, map_map. f_equal. apply map_ext. intros; ring.
Qed.
Lemma component_scaled f c l : (forall xs, f (map (Rmult c) xs) = c * f xs) -> each_component f (map (vscale c) l) = vscale c (each_component f l).
Proof.
  intros H. unfold each_component. rewrite !map_map.
  assert (X : forall g : vec -> R, (forall v, g (vscale c v) = c * g v) -> f (map (fun v => g (vscale c v)) l) = c * f (map g l)).
  { intros g Hg. rewrite <- H, map_map. f_equal. apply map_ext. exact Hg. }
  rewrite (X vx), (X vy), (X vz) by reflexivity. reflexivity.
Qed.
Lemma bg_each f h : (forall c xs, 0 < c -> f (map (Rmult c) xs) = c * f xs) -> each_load f (map bg_ld h) = bg_ld (each_load f h).
Proof.
  intros H. unfold each_load, bg_ld. cbn [ld_force ld_force_coefficients ld_moment ld_moment_coefficients]. rewrite !map_map. cbn [ld_force ld_force_coefficients ld_moment ld_moment_coefficients].
  rewrite <- (component_scaled f (k ^ 2)), <- (component_scaled f (k ^ 3)) by (intros; apply H; apply pow_lt; exact Hk). rewrite !map_map. reflexivity.
Qed.
Lemma bg_finalize_airplane u' up id : (up_max_period u' = 0 <-> up_max_period up = 0) -> finalize_airplane (bg_problem u' up) id = result_map (bg_problem u') (finalize_airplane up id).
Proof.
  intros HT. unfold finalize_airplane. rewrite bg_history, bind_result_map, result_map_bind. apply bind_ext; intros h. cbn [bg_problem up_max_period].
  assert (EB : Reqb (up_max_period u') 0 = Reqb (up_max_period up) 0). { apply eq_true_iff_eq. rewrite !Reqb_true. exact HT. }
  rewrite EB. destruct (Reqb (up_max_period up) 0).
  - rewrite map_length, index_map, bind_result_map, result_map_bind. apply bind_ext; intros l. cbn [result_map]. unfold up_set_final, bg_problem. cbn [up_movement up_num_steps up_delta_time up_only_final_results up_max_period up_first_averaging_step up_first_results_step up_final up_final_mean up_final_rms up_steady_problems]. rewrite bg_append. reflexivity.
  - cbn [result_map]. rewrite (bg_each mean_of h) by (intros; apply mean_scaled). rewrite (bg_each rms_of h) by (intros; apply rms_scaled; assumption). unfold up_set_final, bg_problem. cbn [up_movement up_num_steps up_delta_time up_only_final_results up_max_period up_first_averaging_step up_first_results_step up_final up_final_mean up_final_rms up_steady_problems]. rewrite !bg_append. reflexivity.
Qed.
Lemma bg_finalize u' up : (up_max_period u' = 0 <-> up_max_period up = 0) -> finalize (bg_problem u' up) = result_map (bg_problem u') (finalize up).
Proof.
  intros HT. unfold finalize. cbn [bg_problem up_steady_problems]. rewrite index_map, bind_result_map, result_map_bind. apply bind_ext; intros sp. change (sp_airplanes (bg_step sp)) with (map bg_airplane (sp_airplanes sp)). rewrite map_length.
  fold (bg_problem u' up). generalize (seq 0 (length (sp_airplanes sp))). intros l. revert up HT. induction l as [|id l IH]; intros up HT; cbn [foldM]; [reflexivity|].
  rewrite (bg_finalize_airplane u' up id HT), bind_result_map, result_map_bind. destruct (finalize_airplane up id) as [up1|e] eqn:E; [|reflexivity]. cbn [bind]. apply IH.
  assert (X : up_max_period up1 = up_max_period up); [|rewrite X; exact HT].
  unfold finalize_airplane in E. apply bind_Ok in E. destruct E as (h & _ & E). destruct (Reqb (up_max_period up) 0); [apply bind_Ok in E; destruct E as (x & _ & E)|]; apply Ok_eq in E; subst up1; reflexivity.
Qed.

(** ** What the larger results look like *)
Lemma bg_panel_enlarged p : panel_enlarged k p (bg_panel k p).
Proof.
  split; [repeat split|]. split; [cbn [bg_panel p_ring_vortex]; destruct (p_ring_vortex p); cbn; auto 6 | repeat (split; [reflexivity|]); reflexivity].
Qed.
Lemma bg_airplane_enlarged a : S_SizeUnsteady.airplane_enlarged k a (bg_airplane a).
Proof.
  repeat (split; [reflexivity|]). apply map_Forall2. intros w. split; [|reflexivity]. apply map_Forall2. intros row. apply map_Forall2. apply bg_panel_enlarged.
Qed.
(** The vortices that the velocities after a step are computed from. *)
Definition current_vortices (n : nat) (s : unsteady_solver) : Prop :=
  forall i, n = S i -> exists u sp, us_current s = Some u /\ nth_error (up_steady_problems (us_problem s)) i = Some sp /\ nth_error (us_wakes s) i = Some (cu_wake u) /\
    forall x, resolved k (vortices_of sp (cu_wake u)) x -> resolved k (row_legs (cu_rows u) ++ wake_legs (cu_wake u)) x.
Lemma step_vortices solve prescribed s i s' : unsteady_step solve prescribed s i = Ok s' -> current_vortices (S i) s'.
Proof.
  intros E j Hj. injection Hj as <-. unfold unsteady_step in E. cbn zeta in E. apply bind_Ok in E. destruct E as (sp & Esp & E). apply bind_Ok in E. destruct E as (al & Eal & E).
  apply bind_Ok in E. destruct E as (rows & Erows & E). apply bind_Ok in E. destruct E as (wake & Ewake & E). apply bind_Ok in E. destruct E as (la & Ela & E).
  apply bind_Ok in E. destruct E as (xs & Exs & E). apply bind_Ok in E. destruct E as (a1 & Ea1 & E). apply bind_Ok in E. destruct E as (a2 & Ea2 & E).
  apply bind_Ok in E. destruct E as (steps & Es & E). apply bind_Ok in E. destruct E as (hs & Ehs & E). apply Ok_eq in E. subst s'.
  set (up := us_problem s) in *.
  destruct (set_airplanes_at i a2 _ _ _ Esp Es) as [N1 _].
  assert (N2 : nth_error (snd hs) i = Some (mksteady a2 (sp_operating_point sp))).
  { destruct (Z.of_nat i <? up_num_steps up - 1)%Z; [|apply Ok_eq in Ehs; subst hs; exact N1].
    apply bind_Ok in Ehs. destruct Ehs as (nx & En & Ehs). apply bind_Ok in Ehs. destruct Ehs as (rr & Err & Ehs). apply bind_Ok in Ehs. destruct Ehs as (st & Est & Ehs). apply Ok_eq in Ehs. subst hs. cbn [snd].
    destruct (set_airplanes_at _ _ _ _ _ En Est) as [_ N]. rewrite N by lia. exact N1. }
  assert (ST1 : Forall2 airplane_stays (sp_airplanes sp) a1) by (eapply update_stays; [apply strength_stays | exact Ea1]).
  assert (ST : Forall2 airplane_stays (sp_airplanes sp) a2).
  { destruct (up_first_results_step up <=? Z.of_nat i)%Z; [|apply Ok_eq in Ea2; subst a2; exact ST1]. apply bind_Ok in Ea2. destruct Ea2 as (loads & _ & Ep). eapply compose_F2; [exact airplane_stays_trans | exact ST1 | exact (process_stays _ _ _ _ _ Ep)]. }
  cbn [us_current us_problem us_wakes up_set_steps up_steady_problems]. do 2 eexists. split; [reflexivity|]. split; [exact N2|]. cbn [cu_wake cu_rows].
  split; [apply index_Some in Eal; rewrite set_at_nth by (apply nth_error_Some; congruence); rewrite Nat.eqb_refl; reflexivity|].
  intros x Hx. exact (row_legs_resolved k _ _ a2 wake x Erows ST Hx).
Qed.
Lemma after_vortices solve prescribed up n s : after solve prescribed up n s -> current_vortices n s.
Proof.
  destruct n as [|n]; [intros _ i; discriminate|]. intros HA. apply after_S in HA. destruct HA as (s' & _ & Es). exact (step_vortices _ _ _ _ _ Es).
Qed.
Lemma bg_run_enlarged n u' s s' : us_problem s' = bg_problem u' (us_problem s) -> us_wakes s' = map bg_wake (us_wakes s) -> us_current s' = option_map bg_current (us_current s) ->
  current_vortices n s -> run_enlarged k n s s'.
Proof.
  intros E1 E2 E3 HV. constructor.
  - rewrite E1. apply map_Forall2. intros sp. apply map_Forall2. apply bg_airplane_enlarged.
  - rewrite E2. apply map_Forall2. intros w. repeat (split; [reflexivity|]). reflexivity.
  - intros i sp w points v Hn Hsp Hw HR Hv. destruct (HV i Hn) as (u & sp' & Eu & Hsp' & Hw' & Hl). assert (sp' = sp) by congruence. subst sp'. assert (Ew : cu_wake u = w) by congruence.
    unfold unsteady_solution_velocity in *. rewrite E3, Eu in *. cbn [option_map]. apply Ok_eq in Hv. subst v. f_equal. apply (bg_current_velocity k Hk). intros x Hx. apply Hl. rewrite Ew. exact (HR x Hx).
  - rewrite E1. repeat (split; [reflexivity|]). reflexivity.
  - rewrite E1. repeat (split; [reflexivity|]). reflexivity.
  - rewrite E1. repeat (split; [reflexivity|]). reflexivity.
Qed.
Lemma enlarged_after solve (HS : SolveSpec solve) prescribed up up' n s : created up -> larger_flight k up up' -> (n <= length (up_steady_problems up))%nat -> resolved_steps k solve prescribed up n ->
  after solve prescribed up n s -> exists s', after solve prescribed up' n s' /\ run_enlarged k n s s'.
Proof. intros HC SF Hn HR HA. exists (bg_solver up' s). split; [apply (bg_after solve HS prescribed up up' n s HC SF Hn HR HA) | apply (bg_run_enlarged n up'); try reflexivity; exact (after_vortices _ _ _ _ _ HA)]. Qed.
Lemma enlarged_finished solve (HS : SolveSpec solve) prescribed (lines : bool) up up' s : created up -> larger_flight k up up' -> resolved_steps k solve prescribed up (length (up_steady_problems up)) ->
  finished solve prescribed lines up s -> exists s', finished solve prescribed lines up' s' /\ run_enlarged k (length (up_steady_problems up)) s s'.
Proof.
  intros HC SF HRes HF. destruct (finished_meshed _ _ _ up s HC HF) as [F HM]. destruct (finished_inv _ _ _ _ _ F HF HM) as (sf & f & m & rr & HA & Efin & _ & Es & _ & _ & Ew & Ec & _).
  pose proof (after_problem solve HS prescribed up _ sf F HA HM (le_n _)) as EP.
  pose proof (bg_after solve HS prescribed up up' _ sf HC SF (le_n _) HRes HA) as (s0' & s1' & E0' & E1' & E').
  assert (HT : up_max_period up' = 0 <-> up_max_period (us_problem sf) = 0) by (rewrite EP; exact (lf_periodic _ _ _ SF)).
  pose proof (bg_finalize up' (us_problem sf) HT) as EF. rewrite Efin in EF. cbn [result_map] in EF.
  assert (EN : Z.to_nat (up_num_steps (us_problem s1')) = length (up_steady_problems up)).
  { unfold unsteady_new in E0'. apply bind_Ok in E0'. destruct E0' as (sp & _ & E0'). apply Ok_eq in E0'. subst s0'. unfold unsteady_start in E1'. apply bind_Ok in E1'. destruct E1' as (x & _ & E1'). apply bind_Ok in E1'. destruct E1' as (y & _ & E1'). apply Ok_eq in E1'. subst s1'.
    cbn [us_problem up_set_steps up_num_steps]. rewrite (lf_num_steps _ _ _ SF), <- (mp_size _ _ HM), Nat2Z.id. reflexivity. }
  assert (HR : exists ls, unsteady_run solve prescribed lines s0' = Ok (mkus (bg_problem up' (us_problem s)) (map bg_ring (us_heap sf)) (us_num_wake sf) (map bg_wake (us_wakes sf)) (option_map bg_current (us_current sf)) ls)).
  { unfold unsteady_run, unsteady_run_with. rewrite E1'. cbn [bind]. rewrite EN, E'. cbn [bind]. change (us_problem (bg_solver up' sf)) with (bg_problem up' (us_problem sf)). rewrite EF. cbn [bind].
    cbn [bg_solver us_heap us_num_wake us_wakes us_current us_streamline_points].
    destruct lines; [|eexists; reflexivity].
    destruct (us_current sf) as [u|] eqn:Eu; [eexists; reflexivity|]. exfalso.
    destruct HF as (s0 & E0 & E). unfold unsteady_run, unsteady_run_with in E. destruct HA as (s0a & s1a & A0 & A1 & A2). assert (s0a = s0) by congruence. subst s0a. rewrite A1 in E. cbn [bind] in E.
    assert (EN1 : Z.to_nat (up_num_steps (us_problem s1a)) = length (up_steady_problems up)).
    { unfold unsteady_new in A0. apply bind_Ok in A0. destruct A0 as (sp & _ & A0). apply Ok_eq in A0. subst s0. unfold unsteady_start in A1. apply bind_Ok in A1. destruct A1 as (x & _ & A1). apply bind_Ok in A1. destruct A1 as (y & _ & A1). apply Ok_eq in A1. subst s1a.
      cbn [us_problem up_set_steps up_num_steps]. rewrite <- (mp_size _ _ HM), Nat2Z.id. reflexivity. }
    rewrite EN1, A2 in E. cbn [bind] in E. rewrite Efin in E. cbn [bind] in E. rewrite Eu in E. discriminate E. }
  destruct HR as [ls HR]. eexists. split; [exists s0'; split; [exact E0' | exact HR]|]. apply (bg_run_enlarged _ up'); cbn [us_problem us_wakes us_current]; [reflexivity | rewrite Ew; reflexivity | rewrite Ec; reflexivity|].
  intros i Hi. destruct (after_vortices _ _ _ _ _ HA i Hi) as (u & sp & A & B & C & D). exists u, sp. rewrite Ec, Ew, Es. auto.
Qed.
End Run.
