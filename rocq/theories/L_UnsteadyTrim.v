(** Proofs about the unsteady trim analysis, and examples for both analyses. *)
From Coq Require Import List ZArith Lia Lra Bool Reals String.
From Verif Require Import M_Trim M_Convergence S_Geometry S_Vortices S_Solve S_Loads S_Wing S_Trim S_Unsteady S_UnsteadyRun S_Movement
  L_Base L_Loads L_Horseshoe L_Geometry L_Frames L_Movement L_Problems L_Example L_Example3 L_Example4 L_Gauss L_AnalysisExample L_Trim.
Import ListNotations.
Local Open Scope R_scope.
Local Open Scope list_scope.

(** ** The unsteady objective always raises *)
Lemma no_total_attribute up name : In name ["final_total_near_field_force_coefficients_wind_axes"; "final_total_near_field_moment_coefficients_wind_axes"]%string ->
  final_attribute up name = Err EAttributeError.
Proof. intros [<-|[<-|[]]]; reflexivity. Qed.
Lemma unsteady_objective_raises solve am weight cut_off s x :
  unsteady_objective solve am weight cut_off s x =
  match trial_run solve am (at_speed_and_angles (uts_op s) (ut_velocity x) (ut_alpha x) (ut_beta x)) with
  | Ok _ => Err EAttributeError
  | Err e => Err e
  end.
Proof.
  unfold unsteady_objective, trial_run, still_air. change (op_set (ut_velocity x) (ut_alpha x) (ut_beta x) (uts_op s)) with (at_speed_and_angles (uts_op s) (ut_velocity x) (ut_alpha x) (ut_beta x)).
  cbn zeta. destruct (new_movement _ _ _ _ _ _) as [m|e]; [|reflexivity]. cbn [bind].
  destruct (new_unsteady_problem m true) as [up|e]; [|reflexivity]. cbn [bind].
  destruct (unsteady_new up) as [u|e]; [|reflexivity]. cbn [bind].
  destruct (unsteady_run solve true true u) as [u'|e]; [|reflexivity]. cbn [bind].
  rewrite no_total_attribute by (left; reflexivity). reflexivity.
Qed.
Section Unsteady.
Variables (solve : list (list R) -> list R -> result (list R)) (local global : optimiser unsteady_point)
  (local_calls global_calls : nat) (am : airplane_movement) (op : operating_point) (cut_off : R).
Notation run := (unsteady_trim solve local global local_calls global_calls am op cut_off).
Definition first_query (next : optimiser unsteady_point) (calls : nat) : option unsteady_point :=
  match calls with O => None | S _ => next [] end.
Definition after_query (x : unsteady_point) : result (list (option R) * operating_point) :=
  match trial_run solve am (at_speed_and_angles op (ut_velocity x) (ut_alpha x) (ut_beta x)) with
  | Ok _ => Err EAttributeError
  | Err e => Err e
  end.
Lemma unsteady_trim_is : run =
  match first_query local local_calls, first_query global global_calls with
  | Some x, _ => after_query x
  | None, Some x => after_query x
  | None, None => Ok (nans 3, op)
  end.
Proof.
  unfold unsteady_trim, first_query, after_query. cbn zeta.
  destruct local_calls as [|l]; cbn [minimise bind fst snd].
  2: destruct (local []) as [x|]; cbn [minimise bind fst snd].
  2: { rewrite unsteady_objective_raises. cbn [uts_op]. destruct (trial_run _ _ _); reflexivity. }
  all: destruct global_calls as [|g]; cbn [minimise bind fst snd]; [reflexivity|];
    destruct (global []) as [y|]; cbn [minimise bind fst snd]; [|reflexivity];
    rewrite unsteady_objective_raises; cbn [uts_op]; destruct (trial_run _ _ _); reflexivity.
Qed.
Lemma unsteady_trim_never r op' : run = Ok (r, op') -> r = nans 3 /\ op' = op /\
  (local_calls = O \/ local [] = None) /\ (global_calls = O \/ global [] = None).
Proof.
  rewrite unsteady_trim_is. unfold first_query, after_query.
  destruct local_calls as [|l], global_calls as [|g]; try destruct (local []) as [x|]; try destruct (global []) as [y|];
    try (destruct (trial_run _ _ _)); try discriminate; intros [= <- <-]; auto 6.
Qed.
Lemma unsteady_trim_raises x : (local_calls > 0)%nat -> local [] = Some x ->
  run = match trial_run solve am (at_speed_and_angles op (ut_velocity x) (ut_alpha x) (ut_beta x)) with
        | Ok _ => Err EAttributeError
        | Err e => Err e
        end.
Proof.
  intros H E. rewrite unsteady_trim_is. unfold first_query. destruct local_calls as [|l]; [lia|]. rewrite E. reflexivity.
Qed.
End Unsteady.

(** ** A static wing for the default ten chords: ten steps of one second *)
Lemma windy_default : exists m, new_movement [ex_airplane_movement 0 resting] (windy resting) None None None None = Ok m /\
  mv_num_steps m = 10%Z /\ mv_delta_time m = 1.
Proof.
  assert (HA : Forall airplane_movable [ex_airplane_movement 0 resting]) by (constructor; [apply ex_movable; left; reflexivity | constructor]).
  assert (HP : populated [ex_airplane_movement 0 resting]) by (apply movable_populated; [discriminate | exact HA]).
  destruct (proj2 (max_period_total [ex_airplane_movement 0 resting] (windy resting)) HP) as [p Hp].
  assert (p = 0).
  { apply (largest_unique _ _ _ (max_period_largest _ _ _ Hp)). split; [cbn; tauto|]. intros q Hq. cbn in Hq. decompose [or] Hq; subst; try lra; try contradiction. }
  subst p.
  destruct (proj2 (movement_succeeds [ex_airplane_movement 0 resting] (windy resting) (Some 10%Z) None None 1 10 eq_refl ltac:(lia))) as [m Hm].
  { split; [reflexivity|]. split; [reflexivity|]. split; [exact HA | left; reflexivity]. }
  assert (Hw : index (a_wings (am_base (ex_airplane_movement 0 resting))) 0 = Ok (ex_wing false)) by reflexivity.
  assert (Hc : a_c_ref (am_base (ex_airplane_movement 0 resting)) = 4) by reflexivity.
  assert (Hv : op_velocity (om_base (windy resting)) = 4) by reflexivity.
  clear HA HP. revert Hp Hm Hw Hc Hv. generalize (ex_airplane_movement 0 resting) (windy resting). intros am om Hp Hm Hw Hc Hv.
  unfold new_movement in *. cbn [is_some bind] in *. cbn zeta in *. rewrite Hp. cbn [bind mapM map py_max fold_left] in *. rewrite Hw, Hc, Hv. cbn [bind].
  cbn [List.length Nat.eqb]. cbn [bind]. rewrite (proj2 (Reqb_true 0 0) eq_refl). cbn [bind].
  change (w_num_chordwise_panels (ex_wing false)) with 1%nat.
  assert (Edt : rsum [4 / INR 1 / 4] / INR 1 = 1). { rewrite rsum_cons. change (rsum []) with 0. cbn [INR]. field. }
  rewrite Edt. assert (En : py_ceil (10 * 4 / (1 * 4)) = 10%Z).
  { pose proof (ceil_spec (10 * 4 / (1 * 4))) as H. replace (10 * 4 / (1 * 4)) with 10 in * by field.
    assert (IZR (py_ceil 10) < 11) by lra. assert (10 <= IZR (py_ceil 10)) by lra. apply lt_IZR in H0. apply le_IZR in H1. lia. }
  rewrite En.
  apply bind_Ok in Hm. destruct Hm as (l & El & Hm). apply bind_Ok in Hm. destruct Hm as (ops & Eo & Hm).
  rewrite El. cbn [bind]. rewrite Eo. cbn [bind]. eexists. split; [reflexivity|]. split; reflexivity.
Qed.
Lemma windy_trial : exists s, trial_run gauss_solve (ex_airplane_movement 0 resting) (mkop 1 4 30 0 0 0) = Ok s.
Proof.
  destruct windy_default as (m & Hm & HN & HD).
  destruct (windy_problem_of resting true _ _ _ _ m 10 (or_introl eq_refl) ltac:(lia) Hm HN HD) as (up & a & Hup & Edt & Hlen & Ea & Hst).
  assert (HC : created up) by (do 7 eexists; exists true; split; eassumption).
  destruct (windy_run gauss_solve gauss_solve_spec true resting up a HC Edt ltac:(rewrite Hlen; lia) Ea Hst true) as (s & s0 & E0 & E).
  exists s. unfold trial_run. change (mkopmove (mkop 1 4 30 0 0 0) (mkosc 0 0 "sine")) with (windy resting).
  rewrite Hm. cbn [bind]. rewrite Hup. cbn [bind]. rewrite E0. cbn [bind]. exact E.
Qed.

(** ** The wide plate trimmed *)
Definition once (x : trim_point) : optimiser trim_point := fun past => match past with [] => Some x | _ => None end.
Definition plate_problem : steady_problem := mksteady [wide_airplane 1] (ex_op 1 10).
Definition faster : trim_point := mktrim 20 30 0 5.
Lemma plate_evaluated : exists y, 0 <= y /\ steady_outcome gauss_solve plate_problem faster (Ok (Some y)).
Proof.
  destruct (wide_run gauss_solve 1 20 1 gauss_solve_spec) as (A & s & _ & E & _).
  pose proof (hs_run_same _ _ _ E) as Fs. cbn [hs_new hso_airplanes] in Fs. inversion Fs as [|x a l l' Hsame H1 X1 X2]; subst. inversion H1; subst. clear Fs H1. symmetry in X2.
  pose proof (hs_run_inv _ _ _ E) as (_ & _ & _ & _ & _ & _ & airplanes1 & _ & Ep). apply process_forces_sound in Ep. destruct Ep as (us & r & _ & F3).
  rewrite X2 in F3. inversion F3 as [|b u ? ? ? ? T Fr Y1 Y2 Y3]; subst. destruct T as (_ & _ & _ & _ & _ & T6 & T7).
  match type of T6 with _ = Some ?cf => match type of T7 with _ = Some ?cm =>
    exists (imbalance (ex_op 1 20) a 5 (a_weight (wide_airplane 1)) cf cm); split; [|exists (wide_airplane 1), (ex_op 1 20), a, cf, cm] end end.
  - unfold imbalance. cbn zeta. match goal with |- 0 <= (vnorm ?u + vnorm ?w) / 2 => assert (0 <= vnorm u) by apply sqrt_pos; assert (0 <= vnorm w) by apply sqrt_pos; lra end.
  - split; [reflexivity|]. split; [split; [reflexivity|]; exists s, []; auto|]. split; [reflexivity|].
    intros H. exfalso. apply H. destruct Hsame as (_ & _ & _ & _ & E1 & E2 & E3 & _). unfold finite_for. rewrite E1, E2, E3.
    unfold dynamic_pressure. cbn. repeat split; lra.
Qed.
Lemma plate_rules velocity_bounds : in_interval 10 velocity_bounds ->
  all_hold (trim_rules plate_problem velocity_bounds (-90, 90) (-90, 90) (0, 10)).
Proof.
  intros H P e [E|[E|[E|[E|[E|[]]]]]]; injection E as <- _; unfold in_interval in *; cbn in *; try lra. discriminate.
Qed.
Lemma plate_trimmed : exists cut_off problem',
  steady_trim gauss_solve (once faster) (fun _ => None) 100 100 plate_problem (5, 50) (-90, 90) (-90, 90) (0, 10) cut_off =
    Ok ([Some 20; Some 30; Some 0; Some 5], problem') /\
  sp_operating_point problem' = mkop 1 20 30 0 0 0.
Proof.
  destruct plate_evaluated as (y & Hy & Ho).
  assert (E : exists problem', steady_trim gauss_solve (once faster) (fun _ => None) 100 100 plate_problem (5, 50) (-90, 90) (-90, 90) (0, 10) (y + 1) = Ok (point_list faster, problem')).
  { apply trim_found; [apply gauss_solve_spec|]. split; [apply plate_rules; unfold in_interval; cbn; lra|]. left. exists [], (Some y).
    split; [|split; [exact Ho|]].
    - split; [constructor|]. split; [intros ? ? []|]. split; [cbn; lia | reflexivity].
    - exists y. split; [reflexivity | lra]. }
  destruct E as (problem' & E). exists (y + 1), problem'. split; [exact E|].
  destruct (trim_leaves _ gauss_solve_spec _ _ _ _ _ _ _ _ _ _ _ _ E) as (_ & _ & H). exact (H faster eq_refl).
Qed.
Lemma plate_untrimmed : exists problem',
  steady_trim gauss_solve (once faster) (fun _ => None) 100 100 plate_problem (5, 50) (-90, 90) (-90, 90) (0, 10) 0 =
    Ok ([None; None; None; None], problem').
Proof.
  destruct plate_evaluated as (y & Hy & Ho).
  apply (trim_not_found _ gauss_solve_spec). split; [apply plate_rules; unfold in_interval; cbn; lra|].
  assert (H0 : exhausted (steady_outcome gauss_solve plate_problem) (fun _ => None) 0 100).
  { exists []. split; [constructor|]. split; [intros ? ? []|]. right. split; [cbn; lia | reflexivity]. }
  split; [|exact H0].
  exists [(faster, Some y)]. split; [|split].
  - change [(faster, Some y)] with ([] ++ [(faster, Some y)]). constructor; [constructor | reflexivity | exact Ho].
  - intros x v [[= <- <-]|[]] (z & Ez & Hz). injection Ez as <-. lra.
  - right. split; [cbn; lia | reflexivity].
Qed.
Lemma plate_rejected cut_off local global : steady_trim gauss_solve local global 100 100 plate_problem (20, 50) (-90, 90) (-90, 90) (5, 10) cut_off = Err EBaseVelocityBounds.
Proof.
  apply (trim_failed _ gauss_solve_spec). left. exists [(sp_airplanes plate_problem <> [], EIndexError)]. eexists _, _. split; [reflexivity|]. split.
  - intros P e [[= <- _]|[]]. discriminate.
  - unfold in_interval. cbn. lra.
Qed.
Lemma trim_changes_operating_point : exists problem local global cut_off velocity_bounds alpha_bounds beta_bounds
  thrust_bounds r problem',
  steady_trim gauss_solve local global 100 100 problem velocity_bounds alpha_bounds beta_bounds thrust_bounds cut_off =
    Ok (r, problem') /\
  op_velocity (sp_operating_point problem) = 10 /\ op_velocity (sp_operating_point problem') = 20.
Proof.
  destruct plate_trimmed as (cut_off & problem' & E & Eo).
  exists plate_problem, (once faster), (fun _ => None), cut_off, (5, 50), (-90, 90), (-90, 90), (0, 10), [Some 20; Some 30; Some 0; Some 5], problem'.
  split; [exact E|]. split; [reflexivity|]. rewrite Eo. reflexivity.
Qed.
