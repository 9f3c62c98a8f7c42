(** The same flight at another speed and in another density. *)
From Coq Require Import List ZArith Reals.
From Verif Require Import M_Unsteady S_Unsteady S_UnsteadyRun.
Import ListNotations.
Local Open Scope R_scope.

(** The flow at [c] times the speed and [r] times the density.  The wake spreads with the
    viscosity, so that has to grow along with the speed. *)
Definition faster (c r : R) (op : operating_point) : operating_point :=
  mkop (r * op_density op) (c * op_velocity op) (op_alpha op) (op_beta op) (op_external_thrust op) (c * op_nu op).
(** The same airplanes in the same positions at every step, at [c] times the speed: the steps are [c]
    times as short. *)
Record same_flight (c r : R) (up up' : unsteady_problem) : Prop := {
  sf_time : up_delta_time up' = up_delta_time up / c;
  sf_num_steps : up_num_steps up' = up_num_steps up;
  sf_results : up_first_results_step up' = up_first_results_step up;
  sf_averaging : up_first_averaging_step up' = up_first_averaging_step up;
  sf_periodic : up_max_period up' = 0 <-> up_max_period up = 0;
  sf_unsolved : up_final up' = no_final_loads /\ up_final_mean up' = no_final_loads /\ up_final_rms up' = no_final_loads;
  sf_steps : up_steady_problems up' =
    map (fun sp => mksteady (sp_airplanes sp) (faster c r (sp_operating_point sp))) (up_steady_problems up) }.

(** ** Movements *)
(** The same motion, [c] times as quick. *)
Definition quicker (c : R) (o : oscillation) : oscillation := mkosc (osc_amplitude o) (osc_period o / c) (osc_spacing o).
Definition quicker_section (c : R) (m : section_movement) : section_movement :=
  mksecmove (sm_base m) (quicker c (sm_sweeping m)) (sm_custom_sweep m) (quicker c (sm_pitching m)) (sm_custom_pitch m) (quicker c (sm_heaving m)) (sm_custom_heave m).
Definition quicker_wing (c : R) (m : wing_movement) : wing_movement :=
  mkwingmove (wm_base m) (map (quicker_section c) (wm_sections m)) (quicker c (wm_x_le m)) (quicker c (wm_y_le m)) (quicker c (wm_z_le m)).
Definition quicker_airplane (c : R) (m : airplane_movement) : airplane_movement :=
  mkairmove (am_base m) (map (quicker_wing c) (am_wings m)) (quicker c (am_x_ref m)) (quicker c (am_y_ref m)) (quicker c (am_z_ref m)).
(** The wind and its gusts. *)
Definition faster_wind (c r : R) (m : op_movement) : op_movement :=
  mkopmove (faster c r (om_base m)) (mkosc (c * osc_amplitude (om_velocity m)) (osc_period (om_velocity m) / c) (osc_spacing (om_velocity m))).
(** Assigning the viscosity of every step. *)
Definition set_viscosity (nu : R) (up : unsteady_problem) : unsteady_problem :=
  up_set_steps (map (fun sp => let op := sp_operating_point sp in
    mksteady (sp_airplanes sp) (mkop (op_density op) (op_velocity op) (op_alpha op) (op_beta op) (op_external_thrust op) nu)) (up_steady_problems up)) up.

(** ** What becomes of the results: strengths grow like the speed, forces and moments like density times
    speed squared, and coefficients stay the same. *)
Definition ring_similar (c : R) (o o' : option ring_vortex) : Prop :=
  match o, o' with
  | Some v, Some v' => rv_strength v' = c * rv_strength v /\ rv_front_left v' = rv_front_left v /\ rv_front_right v' = rv_front_right v /\
                       rv_back_left v' = rv_back_left v /\ rv_back_right v' = rv_back_right v
  | None, None => True
  | _, _ => False
  end.
Definition panel_similar (c r : R) (p p' : panel) : Prop :=
  ring_similar c (p_ring_vortex p) (p_ring_vortex p') /\
  p_force_geometry p' = option_map (vscale (r * c ^ 2)) (p_force_geometry p) /\
  p_moment_geometry p' = option_map (vscale (r * c ^ 2)) (p_moment_geometry p) /\
  p_force_wind p' = option_map (vscale (r * c ^ 2)) (p_force_wind p) /\
  p_moment_wind p' = option_map (vscale (r * c ^ 2)) (p_moment_wind p) /\
  p_induced_drag_coefficient p' = p_induced_drag_coefficient p /\
  p_side_force_coefficient p' = p_side_force_coefficient p /\
  p_lift_coefficient p' = p_lift_coefficient p.
Definition wing_similar (c r : R) (w w' : wing) : Prop :=
  Forall2 (Forall2 (panel_similar c r)) (w_panels w) (w_panels w') /\ w_wake_vertices w' = w_wake_vertices w.
Definition airplane_similar (c r : R) (a a' : airplane) : Prop :=
  a_force_wind a' = option_map (vscale (r * c ^ 2)) (a_force_wind a) /\
  a_moment_wind a' = option_map (vscale (r * c ^ 2)) (a_moment_wind a) /\
  a_force_coefficients a' = a_force_coefficients a /\ a_moment_coefficients a' = a_moment_coefficients a /\
  Forall2 (wing_similar c r) (a_wings a) (a_wings a').
(** The record of a wake. *)
Definition record_similar (c : R) (w w' : wake_arrays) : Prop :=
  wk_strengths w' = map (Rmult c) (wk_strengths w) /\ wk_ages w' = map (fun a => a / c) (wk_ages w) /\
  wk_front_right w' = wk_front_right w /\ wk_front_left w' = wk_front_left w /\
  wk_back_left w' = wk_back_left w /\ wk_back_right w' = wk_back_right w.
Definition final_similar (c r : R) (l l' : final_loads) : Prop :=
  fl_forces l' = map (vscale (r * c ^ 2)) (fl_forces l) /\ fl_moments l' = map (vscale (r * c ^ 2)) (fl_moments l) /\
  fl_force_coefficients l' = fl_force_coefficients l /\ fl_moment_coefficients l' = fl_moment_coefficients l.
Record run_similar (c r : R) (s s' : unsteady_solver) : Prop := {
  rs_steps : Forall2 (fun sp sp' => Forall2 (airplane_similar c r) (sp_airplanes sp) (sp_airplanes sp'))
                     (up_steady_problems (us_problem s)) (up_steady_problems (us_problem s'));
  rs_wakes : Forall2 (record_similar c) (us_wakes s) (us_wakes s');
  rs_velocity : forall points v, unsteady_solution_velocity s points = Ok v ->
    unsteady_solution_velocity s' points = Ok (map (vscale c) v);
  rs_final : final_similar c r (up_final (us_problem s)) (up_final (us_problem s'));
  rs_mean : final_similar c r (up_final_mean (us_problem s)) (up_final_mean (us_problem s'));
  rs_rms : final_similar c r (up_final_rms (us_problem s)) (up_final_rms (us_problem s')) }.
(** The same wind in another density. *)
Definition denser (r : R) (m : op_movement) : op_movement :=
  let op := om_base m in
  mkopmove (mkop (r * op_density op) (op_velocity op) (op_alpha op) (op_beta op) (op_external_thrust op) (op_nu op)) (om_velocity m).
