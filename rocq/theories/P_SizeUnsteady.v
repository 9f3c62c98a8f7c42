(** C67 for unsteady simulations: the same flight with everything built larger or smaller. *)
From Coq Require Import List ZArith Lia Lra Reals.
From Verif Require Import M_Unsteady S_Solve S_Unsteady S_UnsteadyRun S_Similar S_SizeUnsteady L_Gauss L_SizeMovement L_SizeRun L_SizeRunExample L_FreeWake.
Import ListNotations.
Local Open Scope R_scope.

(** With all lengths, the time step and the viscosity [k] times as large, and nothing that is cut off at one of the two sizes only:
    the run finishes too; the wake has [k] times the coordinates, strengths and ages, velocities stay, forces are [k^2] and moments
    [k^3] times as large, and all coefficients, final, mean and rms values included, are the same. *)
Theorem C67_unsteady_finished : forall k solve prescribed lines up up' s,
  SolveSpec solve -> 0 < k -> created up -> larger_flight k up up' ->
  resolved_steps k solve prescribed up (length (up_steady_problems up)) -> finished solve prescribed lines up s ->
  exists s', finished solve prescribed lines up' s' /\ run_enlarged k (length (up_steady_problems up)) s s'.
Proof. exact (fun k solve prescribed lines up up' s HS Hk => enlarged_finished k Hk solve HS prescribed lines up up' s). Qed.
Print Assumptions C67_unsteady_finished.

(** The same after every step. *)
Theorem C67_unsteady_steps : forall k solve prescribed up up' n s,
  SolveSpec solve -> 0 < k -> created up -> larger_flight k up up' -> (n <= length (up_steady_problems up))%nat ->
  resolved_steps k solve prescribed up n -> after solve prescribed up n s ->
  exists s', after solve prescribed up' n s' /\ run_enlarged k n s s'.
Proof. exact (fun k solve prescribed up up' n s HS Hk => enlarged_after k Hk solve HS prescribed up up' n s). Qed.
Print Assumptions C67_unsteady_steps.

(** Building larger never cuts off anything that was not. *)
Theorem C67_unsteady_larger : forall k solve prescribed up n,
  1 <= k -> clear_steps solve prescribed up n -> resolved_steps k solve prescribed up n.
Proof. exact larger_steps. Qed.
Print Assumptions C67_unsteady_larger.

(** Movements: with all lengths, displacements and periods, and the time step if given, [k] times as large, and the same angles and
    speeds, there are as many steps, averaged over the same window, and each airplane is [k] times as large.  The viscosity has to be
    assigned to the steps, as movements drop it (C36). *)
Theorem C67_movement : forall k ams om n cy ch dt m only up,
  0 < k -> new_movement ams om n cy ch dt = Ok m -> new_unsteady_problem m only = Ok up ->
  exists m' up', new_movement (map (larger_airplane_movement k) ams) (slower_wind k om) n cy ch (option_map (Rmult k) dt) = Ok m' /\
    new_unsteady_problem m' only = Ok up' /\ larger_flight k up (set_viscosity (k * op_nu default_operating_point) up').
Proof. exact enlarged_movement. Qed.
Print Assumptions C67_movement.

(** Without that, no two problems made from movements are the same flight at different sizes. *)
Theorem C67_viscosity_refuted : forall k up up',
  created up -> created up' -> (0 < length (up_steady_problems up))%nat -> k <> 1 -> ~ larger_flight k up up'.
Proof. exact (fun k up up' HC HC' HL Hne LF => Hne (created_size k up up' HC HC' LF HL)). Qed.
Print Assumptions C67_viscosity_refuted.

(** From the arguments of the movement to the results. *)
Theorem C67_unsteady_run : forall k ams om n cy ch dt m only up solve prescribed lines s,
  SolveSpec solve -> 0 < k -> new_movement ams om n cy ch dt = Ok m -> new_unsteady_problem m only = Ok up ->
  resolved_steps k solve prescribed up (length (up_steady_problems up)) -> finished solve prescribed lines up s ->
  exists m' up' s', new_movement (map (larger_airplane_movement k) ams) (slower_wind k om) n cy ch (option_map (Rmult k) dt) = Ok m' /\
    new_unsteady_problem m' only = Ok up' /\ finished solve prescribed lines (set_viscosity (k * op_nu default_operating_point) up') s' /\
    run_enlarged k (length (up_steady_problems up)) s s'.
Proof. exact enlarged_run. Qed.
Print Assumptions C67_unsteady_run.

(** Non-vacuity: a plate at incidence, three steps with a prescribed wake, at any larger size. *)
Example C67_unsteady_plate : forall k, 1 <= k -> exists up up' s,
  SolveSpec gauss_solve /\ created up /\ length (up_steady_problems up) = 3%nat /\ larger_flight k up up' /\
  resolved_steps k gauss_solve true up 3 /\ finished gauss_solve true true up s.
Proof.
  intros k Hk. destruct (calm_larger k ltac:(lra)) as (up & up' & s & H1 & H2 & H3 & H4 & H5 & H6). exists up, up', s.
  repeat (split; [assumption|]). split; [exact (larger_steps k _ _ _ _ Hk H5) | exact H6].
Qed.
(** The same with a free wake, for a plate gliding edge on. *)
Example C67_unsteady_free_wake : forall k, 1 <= k -> exists up up' s,
  SolveSpec gauss_solve /\ created up /\ length (up_steady_problems up) = 3%nat /\ larger_flight k up up' /\
  resolved_steps k gauss_solve false up 3 /\ finished gauss_solve false true up s.
Proof.
  intros k Hk. destruct (glide_larger k false ltac:(lra)) as (up & up' & s & H1 & H2 & H3 & H4 & H5 & H6). exists up, up', s.
  repeat (split; [assumption|]). split; [exact (larger_steps k _ _ _ _ Hk H5) | exact H6].
Qed.
