(** C83: small changes of the input change the results of the unsteady solver only a little. *)
From Coq Require Import List ZArith Lia Lra Reals.
From Verif Require Import M_Unsteady S_Solve S_Mirror S_Unsteady S_UnsteadyRun S_Size S_SizeUnsteady S_Continuous S_ContinuousUnsteady L_Gauss L_ContinuousUnsteady L_ContinuousFlight L_FreeWake.
Import ListNotations.
Local Open Scope R_scope.

(** Problems come closer and closer to [up]: wings, reference dimensions, freestreams, viscosities and the time step.  If [up] can be
    run for [n] steps, no panel of it is degenerate and no velocity it uses is on the edge of where a vortex is cut off, then so can all
    but finitely many of the others, and their vortices, wakes, velocities, loads and coefficients come closer and closer too. *)
Theorem C83_after : forall solve prescribed ups up n s,
  SolveSpec solve -> created up -> approaching_problem ups up -> 0 < up_delta_time up ->
  (forall sp p, In sp (up_steady_problems up) -> In p (all_panels (sp_airplanes sp)) -> p_area p <> 0) ->
  (forall sp, In sp (up_steady_problems up) -> 0 <= op_nu (sp_operating_point sp)) ->
  (n <= length (up_steady_problems up))%nat -> steps_off_edges solve prescribed up n -> after solve prescribed up n s ->
  exists ss N, (forall k, (N <= k)%nat -> after solve prescribed (ups k) n (ss k)) /\ approaching_run n ss s.
Proof. exact (fun solve prescribed ups up n s HS => unsteady_after_continuous solve HS prescribed ups up n s). Qed.
Print Assumptions C83_after.

(** The same for whole runs, with final, mean and root mean square loads. *)
Theorem C83_finished : forall solve prescribed lines ups up s,
  SolveSpec solve -> created up -> approaching_problem ups up -> 0 < up_delta_time up ->
  (forall sp p, In sp (up_steady_problems up) -> In p (all_panels (sp_airplanes sp)) -> p_area p <> 0) ->
  (forall sp, In sp (up_steady_problems up) -> 0 <= op_nu (sp_operating_point sp)) ->
  steps_off_edges solve prescribed up (length (up_steady_problems up)) -> finished solve prescribed lines up s ->
  exists ss N, (forall k, (N <= k)%nat -> finished solve prescribed lines (ups k) (ss k)) /\ approaching_run (length (up_steady_problems up)) ss s.
Proof. exact (fun solve prescribed lines ups up s HS => unsteady_run_continuous solve HS prescribed lines ups up s). Qed.
Print Assumptions C83_finished.

(** Non-vacuity: a plate at incidence, three steps with a prescribed wake, and a slightly denser, faster and differently directed
    freestream with a slightly longer time step. *)
Example C83_plate : exists ups up s,
  SolveSpec gauss_solve /\ created up /\ approaching_problem ups up /\ (forall n, up_delta_time (ups n) <> up_delta_time up) /\ 0 < up_delta_time up /\
  (forall sp p, In sp (up_steady_problems up) -> In p (all_panels (sp_airplanes sp)) -> p_area p <> 0) /\
  (forall sp, In sp (up_steady_problems up) -> 0 <= op_nu (sp_operating_point sp)) /\
  length (up_steady_problems up) = 3%nat /\ steps_off_edges gauss_solve true up 3 /\ finished gauss_solve true true up s.
Proof. exact (calm_near true). Qed.
(** The same with a free wake, for a plate gliding edge on. *)
Example C83_free_wake : exists ups up s,
  SolveSpec gauss_solve /\ created up /\ approaching_problem ups up /\ (forall n, up_delta_time (ups n) <> up_delta_time up) /\ 0 < up_delta_time up /\
  (forall sp p, In sp (up_steady_problems up) -> In p (all_panels (sp_airplanes sp)) -> p_area p <> 0) /\
  (forall sp, In sp (up_steady_problems up) -> 0 <= op_nu (sp_operating_point sp)) /\
  length (up_steady_problems up) = 3%nat /\ steps_off_edges gauss_solve false up 3 /\ finished gauss_solve false true up s.
Proof. exact (glide_near false true). Qed.
