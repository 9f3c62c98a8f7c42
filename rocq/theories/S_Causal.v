(** What two simulations that begin alike have in common. *)
From Verif Require Import M_Unsteady.
Import ListNotations.
Local Open Scope R_scope.

(** Two problems whose first [n] time steps are the same: the same airplanes in the same conditions, the same time
    step, and loads asked for at the same ones of these steps.  Nothing is said about what comes later. *)
Record begin_alike (n : nat) (up up' : unsteady_problem) : Prop := {
  ba_time : up_delta_time up' = up_delta_time up;
  ba_long : (n <= length (up_steady_problems up))%nat;
  ba_long' : (n <= length (up_steady_problems up'))%nat;
  ba_steps : forall k, (k < n)%nat -> nth_error (up_steady_problems up') k = nth_error (up_steady_problems up) k;
  ba_loads : forall k, (k < n)%nat -> (up_first_results_step up' <=? Z.of_nat k)%Z = (up_first_results_step up <=? Z.of_nat k)%Z }.
(** Two states of the solver with the same results for the first [n] time steps: everything written into the airplanes
    (vortices, strengths, wakes, loads), the recorded wakes, and the arrays of the current step, from which velocities
    are computed. *)
Record results_alike (n : nat) (s s' : unsteady_solver) : Prop := {
  ra_steps : forall k, (k < n)%nat -> nth_error (up_steady_problems (us_problem s')) k = nth_error (up_steady_problems (us_problem s)) k;
  ra_wakes : forall k, (k < n)%nat -> nth_error (us_wakes s') k = nth_error (us_wakes s) k;
  ra_current : us_current s' = us_current s;
  ra_velocity : forall points, unsteady_solution_velocity s' points = unsteady_solution_velocity s points }.
(** The movement [m] is the first [n] time steps of the movement [m']. *)
Record beginning (n : nat) (m m' : movement) : Prop := {
  be_steps : mv_num_steps m = Z.of_nat n;
  be_time : mv_delta_time m = mv_delta_time m';
  be_airplanes : mv_airplanes m = map (firstn n) (mv_airplanes m');
  be_points : mv_operating_points m = firstn n (mv_operating_points m') }.
