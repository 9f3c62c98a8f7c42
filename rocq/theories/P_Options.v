(** C85: what the options of an unsteady run leave alone. *)
From Coq Require Import List ZArith Lia Reals.
From Verif Require Import M_Unsteady S_Solve S_Unsteady S_UnsteadyRun L_Gauss L_Example3 L_Example4 L_Example5 L_Options.
Import ListNotations.
Local Open Scope R_scope.

(** Whether the wake is prescribed or free makes no difference to the first time step: the panels, their vortices and loads, the airplanes'
    loads and the recorded (empty) wake are the same.  In a run of one time step everything is the same. *)
Theorem C85_first_step : forall solve prescribed prescribed' streamlines streamlines' up s s', created up ->
  finished solve prescribed streamlines up s -> finished solve prescribed' streamlines' up s' ->
  nth_error (up_steady_problems (us_problem s)) 0 = nth_error (up_steady_problems (us_problem s')) 0 /\
  nth_error (us_wakes s) 0 = nth_error (us_wakes s') 0 /\
  (length (up_steady_problems up) = 1%nat ->
   us_problem s = us_problem s' /\ us_wakes s = us_wakes s' /\ forall points, unsteady_solution_velocity s points = unsteady_solution_velocity s' points).
Proof. exact wake_kinds. Qed.
Print Assumptions C85_first_step.

(** Whether streamlines are wanted makes no difference to anything else. *)
Theorem C85_streamlines : forall solve prescribed up s s', finished solve prescribed true up s -> finished solve prescribed false up s' ->
  us_problem s = us_problem s' /\ us_wakes s = us_wakes s' /\ us_heap s = us_heap s' /\
  (forall points, unsteady_solution_velocity s points = unsteady_solution_velocity s' points) /\ us_streamline_points s' = None.
Proof. exact streamline_option. Qed.
Print Assumptions C85_streamlines.

(** Non-vacuity: a plate in a gust with either wake, with and without streamlines. *)
Example C85_gust : forall prescribed streamlines, exists up s, (exists m, new_movement [ex_airplane_movement 0 resting] (windy gust) (Some 3%Z) None None (Some 1) = Ok m /\
    new_unsteady_problem m false = Ok up) /\ finished gauss_solve prescribed streamlines up s.
Proof. intros prescribed streamlines. exact (windy_runs gust prescribed streamlines false (or_intror (or_introl eq_refl))). Qed.
