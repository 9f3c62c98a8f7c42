(** Moving the reference point of the base airplanes of a movement; statements. *)
From Coq Require Import List ZArith Lia Lra Bool Reals String.
From Verif Require Import M_Horseshoe M_Unsteady S_Loads S_UnsteadyRun S_Reference L_Base L_Loads L_Horseshoe L_Geometry L_RigidShift L_Similar L_Again L_CausalMovement L_Problems L_NoLoads L_Reference L_ReferenceRun L_ReferenceUnsteady.
Import ListNotations.
Local Open Scope R_scope.
Local Open Scope list_scope.

Lemma oscillate_base o base d n dt : oscillate o (base + d) n dt = result_map (map (fun x => x + d)) (oscillate o base n dt).
Proof.
  unfold oscillate, oscillating_sinspace, oscillating_linspace. destruct (String.eqb (osc_spacing o) "sine"); [|destruct (String.eqb (osc_spacing o) "uniform"); [|reflexivity]];
    (destruct (count n) as [k|e]; cbn [bind result_map]; [|reflexivity]); (destruct (Reqb (osc_amplitude o) 0 || Reqb (osc_period o) 0); cbn [result_map]; f_equal;
      [rewrite repeat_map; reflexivity | rewrite map_map; apply map_ext; intros t; ring]).
Qed.
Lemma generate_base d m n dt : generate_airplanes (moved_base d m) n dt = result_map (map (moved_reference d)) (generate_airplanes m n dt).
Proof.
  unfold generate_airplanes. cbn [am_base am_wings am_x_ref am_y_ref am_z_ref moved_base].
  change (a_x_ref (moved_reference d (am_base m))) with (a_x_ref (am_base m) + vx d). change (a_y_ref (moved_reference d (am_base m))) with (a_y_ref (am_base m) + vy d). change (a_z_ref (moved_reference d (am_base m))) with (a_z_ref (am_base m) + vz d).
  rewrite !oscillate_base, bind_result_map, result_map_bind. apply bind_ext; intros xs. rewrite bind_result_map, result_map_bind. apply bind_ext; intros ys. rewrite bind_result_map, result_map_bind. apply bind_ext; intros zs.
  rewrite result_map_bind. apply bind_ext; intros hs. apply mapM_commute. intros k _.
  rewrite !index_map, bind_result_map, result_map_bind. apply bind_ext; intros x. rewrite bind_result_map, result_map_bind. apply bind_ext; intros y. rewrite bind_result_map, result_map_bind. apply bind_ext; intros z.
  rewrite result_map_bind. apply bind_ext; intros ws. change (a_name (moved_reference d (am_base m))) with (a_name (am_base m)). unfold new_airplane. destruct ws; reflexivity.
Qed.
Lemma moved_periods ds ams om : List.length ds = List.length ams -> max_period (map2 moved_base ds ams) om = max_period ams om.
Proof.
  intros E. unfold max_period. apply bind_both; [|reflexivity]. revert ds E. induction ams as [|m ams IH]; intros [|d ds] E; try discriminate; [reflexivity|]. cbn in E. cbn [map2 mapM]. rewrite IH by lia. reflexivity.
Qed.
Definition movement_moved (ds : list vec) (m : movement) : movement :=
  mkmovement (map2 moved_base ds (mv_airplane_movements m)) (mv_op_movement m) (mv_num_steps m) (mv_num_cycles m) (mv_num_chords m) (mv_delta_time m)
             (map2 (fun d row => map (moved_reference d) row) ds (mv_airplanes m)) (mv_operating_points m).
Lemma new_movement_moved ds ams om n cy ch dt : List.length ds = List.length ams ->
  new_movement (map2 moved_base ds ams) om n cy ch dt = result_map (movement_moved ds) (new_movement ams om n cy ch dt).
Proof.
  intros E. unfold new_movement. rewrite moved_periods by exact E. rewrite result_map_bind. apply bind_ext; intros _. rewrite result_map_bind. apply bind_ext; intros _. rewrite result_map_bind. apply bind_both.
  { destruct dt as [dt|]; [reflexivity|]. apply bind_both; [|reflexivity]. revert ds E. induction ams as [|m ams IH]; intros [|d ds] E; try discriminate; [reflexivity|]. cbn in E. cbn [map2 mapM]. rewrite IH by lia. reflexivity. }
  intros t. rewrite result_map_bind. apply bind_both.
  { destruct n as [n|]; [reflexivity|]. apply bind_ext; intros p. destruct (Reqb p 0); [|reflexivity]. apply bind_both; [|reflexivity]. f_equal. rewrite map_map2. revert ds E. induction ams as [|m ams IH]; intros [|d ds] E; try discriminate; [reflexivity|]. cbn in E. cbn [map2 map]. rewrite IH by lia. reflexivity. }
  intros [[k cy'] ch']. rewrite (mapM_map2 (fun m => generate_airplanes m k t) _ moved_base (fun d => map (moved_reference d))) by ((intros; apply generate_base) || exact E).
  rewrite bind_result_map, result_map_bind. apply bind_ext; intros l. rewrite result_map_bind. apply bind_ext; intros ops. reflexivity.
Qed.
Lemma new_movement_count ams om n cy ch dt m : new_movement ams om n cy ch dt = Ok m -> List.length (mv_airplanes m) = List.length ams /\ mv_airplane_movements m = ams.
Proof.
  unfold new_movement. intros H. do 4 (apply bind_Ok in H; destruct H as (? & _ & H)). match goal with x : (Z * option R * option R)%type |- _ => destruct x as [[k c1] c2] end.
  apply bind_Ok in H. destruct H as (l & El & H). apply bind_Ok in H. destruct H as (ops & _ & H). apply Ok_eq in H. subst m. split; [apply (mapM_same_length _ _ _ El) | reflexivity].
Qed.
Lemma column_moved ds (l : list (list airplane)) k : List.length ds = List.length l ->
  column (map2 (fun d row => map (moved_reference d) row) ds l) k = result_map (map2 moved_reference ds) (column l k).
Proof. intros E. unfold column. apply mapM_map2; [intros; apply index_map | exact E]. Qed.
Lemma moved_as_points ds l : map2 moved_reference ds l = map2 with_reference (map2 (fun d a => vadd (a_xyz_ref a) d) ds l) l.
Proof. revert ds. induction l as [|a l IH]; intros [|d ds]; try reflexivity. cbn [map2]. rewrite IH. reflexivity. Qed.
Lemma problem_moved ds ams om n cy ch dt m only up : List.length ds = List.length ams ->
  new_movement ams om n cy ch dt = Ok m -> new_unsteady_problem m only = Ok up ->
  exists m' up', new_movement (map2 moved_base ds ams) om n cy ch dt = Ok m' /\ new_unsteady_problem m' only = Ok up' /\
    points_for (moved_points ds up) up /\ other_references (moved_points ds up) up up'.
Proof.
  intros E Em Eup. destruct (new_movement_count _ _ _ _ _ _ _ Em) as [CL CA]. exists (movement_moved ds m).
  assert (EP : mv_max_period (movement_moved ds m) = mv_max_period m) by (unfold mv_max_period; cbn [mv_airplane_movements mv_op_movement movement_moved]; rewrite CA; apply moved_periods; exact E).
  unfold new_unsteady_problem in Eup |- *. rewrite EP. destruct (mv_max_period m) as [p|e]; [cbn [bind] in Eup |- *|discriminate]. cbn [mv_num_steps mv_delta_time mv_airplanes mv_operating_points movement_moved].
  apply bind_Ok in Eup. destruct Eup as (steps & Es & Eup). apply Ok_eq in Eup. subst up.
  assert (HL : Forall (fun sp => List.length ds = List.length (sp_airplanes sp)) steps).
  { apply mapM_Forall2 in Es. clear -Es CL E. remember (seq 0 (Z.to_nat (mv_num_steps m))) as ks. clear Heqks. induction Es as [|k sp ks steps Hk Es IH]; constructor; [|exact IH].
    apply bind_Ok in Hk. destruct Hk as (as_ & Ea & Hk). apply bind_Ok in Hk. destruct Hk as (op & _ & Hk). apply Ok_eq in Hk. subst sp. cbn. rewrite (mapM_same_length _ _ _ Ea). congruence. }
  assert (ES : mapM (fun step => let* airplanes := column (map2 (fun d row => map (moved_reference d) row) ds (mv_airplanes m)) step in let* op := index (mv_operating_points m) step in Ok (mksteady airplanes op)) (seq 0 (Z.to_nat (mv_num_steps m))) =
    Ok (map (fun sp => mksteady (map2 moved_reference ds (sp_airplanes sp)) (sp_operating_point sp)) steps)).
  { rewrite (mapM_commute (fun step => let* airplanes := column (mv_airplanes m) step in let* op := index (mv_operating_points m) step in Ok (mksteady airplanes op)) _ (fun sp => mksteady (map2 moved_reference ds (sp_airplanes sp)) (sp_operating_point sp))).
    - rewrite Es. reflexivity.
    - intros k _. rewrite column_moved by congruence. rewrite bind_result_map, result_map_bind. apply bind_ext; intros as_. rewrite result_map_bind. apply bind_ext; intros op. reflexivity. }
  rewrite ES. cbn [bind]. eexists. split; [rewrite new_movement_moved by exact E; rewrite Em; reflexivity|]. split; [reflexivity|]. split.
  - unfold points_for, moved_points. cbn [up_steady_problems]. clear -HL. induction HL as [|sp steps H HL IH]; constructor; [|exact IH]. rewrite map2_same_length by exact H. reflexivity.
  - unfold other_references, moved_points. cbn [up_movement up_num_steps up_delta_time up_only_final_results up_max_period up_first_averaging_step up_first_results_step up_final up_final_mean up_final_rms up_steady_problems]. f_equal.
    clear. induction steps as [|sp steps IH]; [reflexivity|]. cbn [map map2]. rewrite IH. f_equal. unfold step_with_references. f_equal. apply moved_as_points.
Qed.

(** ** Statements *)
Lemma horseshoe_reference solve op points airplanes s : List.length points = List.length airplanes -> Forall without_moments airplanes ->
  hs_run solve (hs_new airplanes op) = Ok s ->
  exists s', hs_run solve (hs_new (map2 with_reference points airplanes) op) = Ok s' /\ hs_about points s s'.
Proof.
  intros E F H. pose proof (hs_moved solve op points airplanes E) as R. rewrite H, about_fresh_all in R by exact F.
  destruct (hs_run solve (hs_new (map2 with_reference points airplanes) op)) as [s'|e]; [|contradiction]. exists s'. auto.
Qed.
Lemma horseshoe_reference_error solve op points airplanes e : List.length points = List.length airplanes -> Forall without_moments airplanes ->
  hs_run solve (hs_new airplanes op) = Err e -> hs_run solve (hs_new (map2 with_reference points airplanes) op) = Err e.
Proof.
  intros E F H. pose proof (hs_moved solve op points airplanes E) as R. rewrite H, about_fresh_all in R by exact F.
  destruct (hs_run solve (hs_new (map2 with_reference points airplanes) op)) as [s'|e']; [contradiction|]. cbn in R. congruence.
Qed.
Lemma ring_reference solve op points airplanes s : List.length points = List.length airplanes -> Forall without_moments airplanes ->
  ring_run solve (ring_new airplanes op) = Ok s ->
  exists s', ring_run solve (ring_new (map2 with_reference points airplanes) op) = Ok s' /\ ring_about points s s'.
Proof.
  intros E F H. pose proof (ring_moved solve op points airplanes E) as R. rewrite H, about_fresh_all in R by exact F.
  destruct (ring_run solve (ring_new (map2 with_reference points airplanes) op)) as [s'|e]; [|contradiction]. exists s'. auto.
Qed.
Lemma ring_reference_error solve op points airplanes e : List.length points = List.length airplanes -> Forall without_moments airplanes ->
  ring_run solve (ring_new airplanes op) = Err e -> ring_run solve (ring_new (map2 with_reference points airplanes) op) = Err e.
Proof.
  intros E F H. pose proof (ring_moved solve op points airplanes E) as R. rewrite H, about_fresh_all in R by exact F.
  destruct (ring_run solve (ring_new (map2 with_reference points airplanes) op)) as [s'|e']; [contradiction|]. cbn in R. congruence.
Qed.
Lemma clean_moments a : airplane_clean a -> without_moments a.
Proof.
  intros (_ & _ & H3 & H4 & F). split; [exact H3|]. split; [exact H4|]. eapply Forall_impl; [|exact F]. intros w. apply Forall_impl. intros row. apply Forall_impl. intros p (_ & M1 & _ & M2 & _). auto.
Qed.
Lemma start_references points up up' s0 : created up -> points_for points up -> other_references points up up' -> unsteady_new up = Ok s0 ->
  exists s0', unsteady_new up' = Ok s0' /\ state_about points s0 s0'.
Proof.
  intros HC HP HO H. pose proof (created_clean up HC) as Cl. unfold unsteady_new in *. apply bind_Ok in H. destruct H as (sp & Ei & H). apply Ok_eq in H. subst s0.
  assert (ES : map2 step_with_references points (up_steady_problems up) = map2 step_about points (up_steady_problems up)).
  { clear -Cl. revert points. induction Cl as [|sq steps Hs Cl IH]; intros [|vs points]; try reflexivity. cbn [map2]. rewrite IH. f_equal. unfold step_with_references, step_about. f_equal. symmetry. apply about_fresh_all.
    eapply Forall_impl; [|exact Hs]. apply clean_moments. }
  unfold other_references in HO. rewrite ES in HO. assert (E4 : up_steady_problems up' = map2 step_about points (up_steady_problems up)) by (rewrite HO; reflexivity).
  pose proof (index_about points _ 0 HP) as HI. rewrite Ei in HI. destruct HI as (vs & _ & _ & Ei'). rewrite E4, Ei'. cbn [bind]. eexists. split; [reflexivity|].
  unfold state_about. cbn. split; [exact HP|]. split; [exact HO|]. repeat split.
Qed.
Lemma unsteady_reference solve prescribed lines points up up' s : created up -> points_for points up -> other_references points up up' ->
  finished solve prescribed lines up s -> exists s', finished solve prescribed lines up' s' /\ unsteady_about points s s'.
Proof.
  intros HC HP HO (s0 & E0 & ER). destruct (start_references _ _ _ _ HC HP HO E0) as (s0' & E0' & HS). pose proof (run_moved solve prescribed lines points s0 s0' HS) as R. rewrite ER in R.
  destruct (unsteady_run solve prescribed lines s0') as [s'|e] eqn:ER'; [|contradiction]. exists s'. split; [exists s0'; auto | exact R].
Qed.
Lemma unsteady_reference_error solve prescribed lines points up up' s0 e : created up -> points_for points up -> other_references points up up' ->
  unsteady_new up = Ok s0 -> unsteady_run solve prescribed lines s0 = Err e -> exists s0', unsteady_new up' = Ok s0' /\ unsteady_run solve prescribed lines s0' = Err e.
Proof.
  intros HC HP HO E0 ER. destruct (start_references _ _ _ _ HC HP HO E0) as (s0' & E0' & HS). pose proof (run_moved solve prescribed lines points s0 s0' HS) as R. rewrite ER in R.
  exists s0'. split; [exact E0'|]. destruct (unsteady_run solve prescribed lines s0') as [s'|e']; [contradiction|]. cbn in R. congruence.
Qed.
Lemma new_without_moments wings name x y z weight s c b a :
  (forall w, In w wings -> exists sections n x' y' z' u sym ch nc sp, new_wing sections n x' y' z' u sym ch nc sp = Ok w) ->
  new_airplane wings name x y z weight s c b = Ok a -> without_moments a.
Proof.
  intros HW H. apply clean_moments. unfold new_airplane in H. destruct wings as [|w0 wings]; [discriminate|]. apply Ok_eq in H. subst a. unfold airplane_clean. cbn [a_force_wind a_force_coefficients a_moment_wind a_moment_coefficients a_wings].
  repeat (split; [reflexivity|]). apply Forall_forall. intros w Hw. destruct (HW w Hw) as (? & ? & ? & ? & ? & ? & ? & ? & ? & ? & E). exact (new_wing_clean _ _ _ _ _ _ _ _ _ _ _ E).
Qed.
