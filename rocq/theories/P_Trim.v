(** Property theorems: trim analyses (C49, C50). *)
From Coq Require Import String Arith.
From Verif Require Import M_Trim S_Loads S_Solve S_Wing S_Trim L_Trim L_UnsteadyTrim L_Gauss L_Example L_Example3 L_AnalysisExample.

(** ** C49: steady trim *)
(** A point is returned exactly when the checks pass and an optimiser asks for it, it is
    the first one with an imbalance below the cut-off, and nothing failed before. *)
Theorem C49_found : forall solve problem cut_off local global local_calls global_calls
  velocity_bounds alpha_bounds beta_bounds thrust_bounds velocity alpha beta thrust,
  SolveSpec solve ->
  let outcome := steady_outcome solve problem in
  let x := mktrim velocity alpha beta thrust in
  (exists problem', steady_trim solve local global local_calls global_calls problem
     velocity_bounds alpha_bounds beta_bounds thrust_bounds cut_off =
     Ok ([Some velocity; Some alpha; Some beta; Some thrust], problem')) <->
  all_hold (trim_rules problem velocity_bounds alpha_bounds beta_bounds thrust_bounds) /\
  (accepts outcome local cut_off local_calls x \/
   exhausted outcome local cut_off local_calls /\ accepts outcome global cut_off global_calls x).
Proof. intros solve problem cut_off local global lc gc vb ab bb tb v a b t HS. exact (trim_found solve HS problem cut_off local global lc gc vb ab bb tb (mktrim v a b t)). Qed.
Print Assumptions C49_found.

(** Four NaNs are returned exactly when both optimisers end without having seen a value
    below the cut-off. *)
Theorem C49_not_found : forall solve problem cut_off local global local_calls global_calls
  velocity_bounds alpha_bounds beta_bounds thrust_bounds,
  SolveSpec solve ->
  let outcome := steady_outcome solve problem in
  (exists problem', steady_trim solve local global local_calls global_calls problem
     velocity_bounds alpha_bounds beta_bounds thrust_bounds cut_off = Ok ([None; None; None; None], problem')) <->
  all_hold (trim_rules problem velocity_bounds alpha_bounds beta_bounds thrust_bounds) /\
  exhausted outcome local cut_off local_calls /\ exhausted outcome global cut_off global_calls.
Proof. intros solve problem cut_off local global lc gc vb ab bb tb HS. exact (trim_not_found solve HS problem cut_off local global lc gc vb ab bb tb). Qed.
Print Assumptions C49_not_found.

(** It raises exactly for the first violated check, or with a solver's error. *)
Theorem C49_failed : forall solve problem cut_off local global local_calls global_calls
  velocity_bounds alpha_bounds beta_bounds thrust_bounds e,
  SolveSpec solve ->
  let outcome := steady_outcome solve problem in
  let rules := trim_rules problem velocity_bounds alpha_bounds beta_bounds thrust_bounds in
  steady_trim solve local global local_calls global_calls problem
    velocity_bounds alpha_bounds beta_bounds thrust_bounds cut_off = Err e <->
  first_violated rules e \/
  all_hold rules /\ (fails outcome local cut_off local_calls e \/
                     exhausted outcome local cut_off local_calls /\ fails outcome global cut_off global_calls e).
Proof. intros solve problem cut_off local global lc gc vb ab bb tb e HS. exact (trim_failed solve HS problem cut_off local global lc gc vb ab bb tb e). Qed.
Print Assumptions C49_failed.

(** Nothing else is ever returned. *)
Theorem C49_nans_or_point : forall solve problem cut_off local global local_calls global_calls
  velocity_bounds alpha_bounds beta_bounds thrust_bounds r problem',
  SolveSpec solve ->
  steady_trim solve local global local_calls global_calls problem
    velocity_bounds alpha_bounds beta_bounds thrust_bounds cut_off = Ok (r, problem') ->
  r = [None; None; None; None] \/
  exists x, r = [Some (tp_velocity x); Some (tp_alpha x); Some (tp_beta x); Some (tp_thrust x)].
Proof. intros solve problem cut_off local global lc gc vb ab bb tb r p' HS. exact (trim_shape solve HS problem cut_off local global lc gc vb ab bb tb r p'). Qed.
Print Assumptions C49_nans_or_point.

(** At a returned point drag and lift are within the cut-off of thrust and weight, there
    is hardly any side force, and all three moments are small. *)
Theorem C49_balance : forall solve problem cut_off local global local_calls global_calls
  velocity_bounds alpha_bounds beta_bounds thrust_bounds velocity alpha beta thrust problem',
  SolveSpec solve ->
  steady_trim solve local global local_calls global_calls problem
    velocity_bounds alpha_bounds beta_bounds thrust_bounds cut_off =
    Ok ([Some velocity; Some alpha; Some beta; Some thrust], problem') ->
  exists first s a rest f m,
    let op := at_speed_and_angles (sp_operating_point problem) velocity alpha beta in
    let force := dynamic_pressure op * a_s_ref first in
    nth_error (sp_airplanes problem) 0 = Some first /\
    hs_run solve (hs_new (sp_airplanes problem) op) = Ok s /\ hso_airplanes s = a :: rest /\
    a_force_wind a = Some f /\ a_moment_wind a = Some m /\
    vnorm (vsub (mkvec (- vx f) (vy f) (- vz f)) (mkvec thrust 0 (a_weight first))) < 2 * cut_off * Rabs force /\
    Rabs (vx m) < 2 * cut_off * Rabs (force * a_b_ref first) /\
    Rabs (vy m) < 2 * cut_off * Rabs (force * a_c_ref first) /\
    Rabs (vz m) < 2 * cut_off * Rabs (force * a_b_ref first).
Proof. intros solve problem cut_off local global lc gc vb ab bb tb v a b t p' HS. exact (trim_balance solve HS problem cut_off local global lc gc vb ab bb tb (mktrim v a b t) p'). Qed.
Print Assumptions C49_balance.

(** It lies within the bounds if the optimisers keep to them. *)
Theorem C49_in_bounds : forall solve problem cut_off local global local_calls global_calls
  velocity_bounds alpha_bounds beta_bounds thrust_bounds velocity alpha beta thrust problem',
  SolveSpec solve ->
  (forall past y, local past = Some y \/ global past = Some y ->
     in_interval (tp_velocity y) velocity_bounds /\ in_interval (tp_alpha y) alpha_bounds /\
     in_interval (tp_beta y) beta_bounds /\ in_interval (tp_thrust y) thrust_bounds) ->
  steady_trim solve local global local_calls global_calls problem
    velocity_bounds alpha_bounds beta_bounds thrust_bounds cut_off =
    Ok ([Some velocity; Some alpha; Some beta; Some thrust], problem') ->
  in_interval velocity velocity_bounds /\ in_interval alpha alpha_bounds /\
  in_interval beta beta_bounds /\ in_interval thrust thrust_bounds.
Proof. intros solve problem cut_off local global lc gc vb ab bb tb v a b t p' HS. exact (trim_in_bounds solve HS problem cut_off local global lc gc vb ab bb tb (mktrim v a b t) p'). Qed.
Print Assumptions C49_in_bounds.

(** Afterwards the problem has the same airplanes up to vortices and loads.  Of its
    operating point only speed and angles differ; those of a returned point stay set,
    its thrust is not stored. *)
Theorem C49_problem_after : forall solve problem cut_off local global local_calls global_calls
  velocity_bounds alpha_bounds beta_bounds thrust_bounds r problem',
  SolveSpec solve ->
  steady_trim solve local global local_calls global_calls problem
    velocity_bounds alpha_bounds beta_bounds thrust_bounds cut_off = Ok (r, problem') ->
  Forall2 same_airplane (sp_airplanes problem) (sp_airplanes problem') /\
  (exists v a b, sp_operating_point problem' = at_speed_and_angles (sp_operating_point problem) v a b) /\
  (forall x, r = [Some (tp_velocity x); Some (tp_alpha x); Some (tp_beta x); Some (tp_thrust x)] ->
     sp_operating_point problem' =
     at_speed_and_angles (sp_operating_point problem) (tp_velocity x) (tp_alpha x) (tp_beta x)).
Proof. intros solve problem cut_off local global lc gc vb ab bb tb r p' HS. exact (trim_leaves solve HS problem cut_off local global lc gc vb ab bb tb r p'). Qed.
Print Assumptions C49_problem_after.

(** So the operating point passed in is changed. *)
Theorem C49_operating_point_kept_refuted : exists problem local global cut_off velocity_bounds alpha_bounds beta_bounds
  thrust_bounds r problem',
  steady_trim gauss_solve local global 100 100 problem velocity_bounds alpha_bounds beta_bounds thrust_bounds cut_off =
    Ok (r, problem') /\
  op_velocity (sp_operating_point problem) = 10 /\ op_velocity (sp_operating_point problem') = 20.
Proof. exact trim_changes_operating_point. Qed.
Print Assumptions C49_operating_point_kept_refuted.

(** A 4 m by 4 m plate is trimmed, not trimmed, and rejected. *)
Example C49_plate :
  (exists cut_off problem', steady_trim gauss_solve (once faster) (fun _ => None) 100 100 plate_problem
     (5, 50) (-90, 90) (-90, 90) (0, 10) cut_off = Ok ([Some 20; Some 30; Some 0; Some 5], problem') /\
     sp_operating_point problem' = mkop 1 20 30 0 0 0) /\
  (exists problem', steady_trim gauss_solve (once faster) (fun _ => None) 100 100 plate_problem
     (5, 50) (-90, 90) (-90, 90) (0, 10) 0 = Ok ([None; None; None; None], problem')) /\
  (forall cut_off local global, steady_trim gauss_solve local global 100 100 plate_problem
     (20, 50) (-90, 90) (-90, 90) (5, 10) cut_off = Err EBaseVelocityBounds).
Proof. exact (conj plate_trimmed (conj plate_untrimmed plate_rejected)). Qed.

(** ** C50: unsteady trim *)
(** As soon as an optimiser evaluates anything the analysis raises: the attributes it
    reads from the solved problem do not exist. *)
Theorem C50_refuted : forall solve local global local_calls global_calls am op cut_off x,
  (local_calls > 0)%nat -> local [] = Some x ->
  unsteady_trim solve local global local_calls global_calls am op cut_off =
  match trial_run solve am (at_speed_and_angles op (ut_velocity x) (ut_alpha x) (ut_beta x)) with
  | Ok _ => Err EAttributeError
  | Err e => Err e
  end.
Proof. exact unsteady_trim_raises. Qed.
Print Assumptions C50_refuted.

(** It returns only if nothing was evaluated, and then NaNs. *)
Theorem C50_never_trims : forall solve local global local_calls global_calls am op cut_off r op',
  unsteady_trim solve local global local_calls global_calls am op cut_off = Ok (r, op') ->
  r = [None; None; None] /\ op' = op /\
  (local_calls = 0%nat \/ local [] = None) /\ (global_calls = 0%nat \/ global [] = None).
Proof. exact unsteady_trim_never. Qed.
Print Assumptions C50_never_trims.

(** A wing whose unsteady run succeeds: the analysis still raises. *)
Example C50_plate : forall cut_off,
  (exists s, trial_run gauss_solve (ex_airplane_movement 0 resting) (mkop 1 4 30 0 0 0) = Ok s) /\
  unsteady_trim gauss_solve (fun past => match past with [] => Some (mkutrim 4 30 0) | _ => None end) (fun _ => None) 100 100
    (ex_airplane_movement 0 resting) (mkop 1 10 5 0 0 0) cut_off = Err EAttributeError.
Proof.
  intros cut_off. split; [exact windy_trial|].
  rewrite (unsteady_trim_raises _ _ _ _ _ _ _ _ (mkutrim 4 30 0)); [|exact (le_n_S _ _ (Nat.le_0_l _)) | reflexivity].
  destruct windy_trial as [s E]. cbn [ut_velocity ut_alpha ut_beta].
  change (at_speed_and_angles (mkop 1 10 5 0 0 0) 4 30 0) with (mkop 1 4 30 0 0 0). rewrite E. reflexivity.
Qed.
