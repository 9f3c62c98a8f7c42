(** Unsteady problems that come closer and closer to a given one, and results that do. *)
From Coq Require Import List ZArith Reals.
From Verif Require Import M_Unsteady S_Mirror S_Unsteady S_UnsteadyRun S_Solvable S_Size S_SizeUnsteady S_Continuous.
Import ListNotations.
Local Open Scope R_scope.

(** Wings and airplanes as in [approaching_airplane], whose wakes (empty at first) come closer too. *)
Definition flying_wing (T : (nat -> panel) -> panel -> Prop) (u : nat -> wing) (w : wing) : Prop :=
  approaching_wing T u w /\ each (each vtends) (fun n => w_wake_vertices (u n)) (w_wake_vertices w) /\
  forall n, w_num_chordwise_panels (u n) = w_num_chordwise_panels w /\ w_num_spanwise_panels (u n) = w_num_spanwise_panels w /\
            w_wake_rings (u n) = w_wake_rings w.
Definition flying_airplane (T : (nat -> panel) -> panel -> Prop) (u : nat -> airplane) (a : airplane) : Prop :=
  tends (fun n => a_s_ref (u n)) (a_s_ref a) /\ tends (fun n => a_c_ref (u n)) (a_c_ref a) /\ tends (fun n => a_b_ref (u n)) (a_b_ref a) /\
  vtends (fun n => a_xyz_ref (u n)) (a_xyz_ref a) /\ (forall n, a_num_panels (u n) = a_num_panels a) /\
  each (flying_wing T) (fun n => a_wings (u n)) (a_wings a).
(** The viscosity enters the flow behind the wings. *)
Definition approaching_flow (u : nat -> operating_point) (op : operating_point) : Prop :=
  approaching_op u op /\ tends (fun n => op_nu (u n)) (op_nu op).
Definition approaching_step (T : (nat -> panel) -> panel -> Prop) (u : nat -> steady_problem) (sp : steady_problem) : Prop :=
  approaching_flow (fun n => sp_operating_point (u n)) (sp_operating_point sp) /\
  each (flying_airplane T) (fun n => sp_airplanes (u n)) (sp_airplanes sp).
(** As many time steps, of nearly the same length, with results wanted from the same steps. *)
Definition same_schedule (u : nat -> unsteady_problem) (up : unsteady_problem) : Prop :=
  tends (fun n => up_delta_time (u n)) (up_delta_time up) /\
  forall n, up_num_steps (u n) = up_num_steps up /\ up_first_results_step (u n) = up_first_results_step up /\
    up_first_averaging_step (u n) = up_first_averaging_step up /\ (up_max_period (u n) = 0 <-> up_max_period up = 0) /\
    up_final (u n) = up_final up /\ up_final_mean (u n) = up_final_mean up /\ up_final_rms (u n) = up_final_rms up.
Definition approaching_problem (u : nat -> unsteady_problem) (up : unsteady_problem) : Prop :=
  same_schedule u up /\ each (approaching_step approaching_panel) (fun n => up_steady_problems (u n)) (up_steady_problems up).

(** In none of the first [n] steps a point whose velocity the step used is on the edge of where a vortex is cut off. *)
Definition steps_off_edges (solve : list (list R) -> list R -> result (list R)) (prescribed : bool) (up : unsteady_problem) (n : nat) : Prop :=
  forall i s, (i < n)%nat -> after solve prescribed up (S i) s ->
  forall sp w x, nth_error (up_steady_problems (us_problem s)) i = Some sp -> nth_error (us_wakes s) i = Some w ->
    step_points prescribed (us_problem s) i x -> off_edges (vortices_of sp w) x.

(** ** Results *)
Definition approaching_ring (u : nat -> ring_vortex) (r : ring_vortex) : Prop :=
  tends (fun n => rv_strength (u n)) (rv_strength r) /\ tends (fun n => rv_age (u n)) (rv_age r) /\
  vtends (fun n => rv_front_left (u n)) (rv_front_left r) /\ vtends (fun n => rv_front_right (u n)) (rv_front_right r) /\
  vtends (fun n => rv_back_left (u n)) (rv_back_left r) /\ vtends (fun n => rv_back_right (u n)) (rv_back_right r).
(** Panels with their ring vortices. *)
Definition approaching_vortex (u : nat -> panel) (p : panel) : Prop :=
  approaching_panel u p /\ present approaching_ring (fun n => p_ring_vortex (u n)) (p_ring_vortex p).
Definition approaching_wake (u : nat -> wake_arrays) (w : wake_arrays) : Prop :=
  each tends (fun n => wk_strengths (u n)) (wk_strengths w) /\ each tends (fun n => wk_ages (u n)) (wk_ages w) /\
  each vtends (fun n => wk_front_right (u n)) (wk_front_right w) /\ each vtends (fun n => wk_front_left (u n)) (wk_front_left w) /\
  each vtends (fun n => wk_back_left (u n)) (wk_back_left w) /\ each vtends (fun n => wk_back_right (u n)) (wk_back_right w).
(** Final loads; the coefficients where they are defined. *)
Definition with_coefficients (up : unsteady_problem) : Prop :=
  forall sp a, In sp (up_steady_problems up) -> In a (sp_airplanes sp) ->
    dynamic_pressure (sp_operating_point sp) <> 0 /\ a_s_ref a <> 0 /\ a_b_ref a <> 0 /\ a_c_ref a <> 0.
Definition approaching_final (coefficients : Prop) (u : nat -> final_loads) (f : final_loads) : Prop :=
  each vtends (fun n => fl_forces (u n)) (fl_forces f) /\ each vtends (fun n => fl_moments (u n)) (fl_moments f) /\
  (coefficients -> each vtends (fun n => fl_force_coefficients (u n)) (fl_force_coefficients f) /\
                   each vtends (fun n => fl_moment_coefficients (u n)) (fl_moment_coefficients f)).
(** After [n] steps: panels, vortices, wakes and loads come closer, and so do the velocities that the solver gives. *)
Record approaching_run (n : nat) (ss : nat -> unsteady_solver) (s : unsteady_solver) : Prop := {
  ar_steps : each (approaching_step approaching_vortex) (fun k => up_steady_problems (us_problem (ss k))) (up_steady_problems (us_problem s));
  ar_loads : forall i, (i < n)%nat -> (up_first_results_step (us_problem s) <= Z.of_nat i)%Z ->
    exists u sp, (forall k, nth_error (up_steady_problems (us_problem (ss k))) i = Some (u k)) /\ nth_error (up_steady_problems (us_problem s)) i = Some sp /\
      each (approaching_solution (dynamic_pressure (sp_operating_point sp)) ring_strength) (fun k => sp_airplanes (u k)) (sp_airplanes sp);
  ar_wakes : each approaching_wake (fun k => us_wakes (ss k)) (us_wakes s);
  ar_velocity : forall i sp w xs x, n = S i -> nth_error (up_steady_problems (us_problem s)) i = Some sp -> nth_error (us_wakes s) i = Some w ->
    vtends xs x -> off_edges (vortices_of sp w) x ->
    exists vs v, (forall k, unsteady_solution_velocity (ss k) [xs k] = Ok [vs k]) /\ unsteady_solution_velocity s [x] = Ok [v] /\ vtends vs v;
  ar_final : approaching_final (with_coefficients (us_problem s)) (fun k => up_final (us_problem (ss k))) (up_final (us_problem s));
  ar_mean : approaching_final (with_coefficients (us_problem s)) (fun k => up_final_mean (us_problem (ss k))) (up_final_mean (us_problem s));
  ar_rms : approaching_final (with_coefficients (us_problem s)) (fun k => up_final_rms (us_problem (ss k))) (up_final_rms (us_problem s)) }.
