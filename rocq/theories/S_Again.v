(** Specification vocabulary for running the unsteady solver more than once. *)
From Coq Require Import List ZArith Reals.
From Verif Require Import M_Unsteady S_Loads S_Vortices S_Unsteady S_UnsteadyRun.
Import ListNotations.
Local Open Scope R_scope.
Local Open Scope list_scope.

(** What users can have after making the problem [up]: a new solver for it, a solver
    that has run, any number of times and with any settings, and a new solver for a
    problem that has been solved. *)
Inductive used (solve : list (list R) -> list R -> result (list R)) (up : unsteady_problem) : unsteady_solver -> Prop :=
| used_new s : unsteady_new up = Ok s -> used solve up s
| used_run prescribed streamlines s t : used solve up s -> unsteady_run solve prescribed streamlines s = Ok t -> used solve up t
| used_again s t : used solve up s -> unsteady_new (us_problem s) = Ok t -> used solve up t.

(** The same steps where wings refer to wake ring vortices with numbers larger by [k]. *)
Definition renumber_wing (k : nat) (w : wing) : wing := w_set_wake (w_wake_vertices w) (map (map (Nat.add k)) (w_wake_rings w)) w.
Definition renumber_airplane (k : nat) (a : airplane) : airplane := a_set_wings (map (renumber_wing k) (a_wings a)) a.
Definition renumber_step (k : nat) (sp : steady_problem) : steady_problem :=
  mksteady (map (renumber_airplane k) (sp_airplanes sp)) (sp_operating_point sp).
(** Final loads with others appended. *)
Definition both_loads (f g : final_loads) : final_loads :=
  mkfinal (fl_forces f ++ fl_forces g) (fl_force_coefficients f ++ fl_force_coefficients g)
          (fl_moments f ++ fl_moments g) (fl_moment_coefficients f ++ fl_moment_coefficients g).

(** The run that led from [u] to [t] did what a first run did that ended in [s]: the
    same geometry, circulations, loads and wakes, with new wake ring vortices after
    those [u] already had; the same recorded wakes, followed by what is left over; the
    same velocities everywhere.  The final loads are appended to those of [u]. *)
Record repeats (u s t : unsteady_solver) : Prop := {
  re_steps : up_steady_problems (us_problem t) = map (renumber_step (length (us_heap u))) (up_steady_problems (us_problem s));
  re_rings : us_heap t = us_heap u ++ us_heap s;
  re_wakes : exists rest, us_wakes t = us_wakes s ++ rest;
  re_counts : exists rest, us_num_wake t = us_num_wake s ++ rest;
  re_velocity : forall points, unsteady_solution_velocity t points = unsteady_solution_velocity s points;
  re_flapping : forall m point, In (m, point) flapping_methods -> m t = m s;
  re_lines : us_streamline_points t = match us_streamline_points s with Some lines => Some lines | None => us_streamline_points u end;
  re_final : up_final (us_problem t) = both_loads (up_final (us_problem u)) (up_final (us_problem s));
  re_mean : up_final_mean (us_problem t) = both_loads (up_final_mean (us_problem u)) (up_final_mean (us_problem s));
  re_rms : up_final_rms (us_problem t) = both_loads (up_final_rms (us_problem u)) (up_final_rms (us_problem s)) }.
