(** What happens when the point that moments are taken about is moved. *)
From Verif Require Import M_Horseshoe M_Unsteady.

(** The moment of a load about a point that is [d] further on. *)
Definition moved_moment (d force moment : vec) : vec := vsub moment (vcross d force).
(** The same where the loads may not be there yet. *)
Definition moved_moment_opt (d : vec) (force moment : option vec) : option vec :=
  match force, moment with Some f, Some m => Some (moved_moment d f m) | _, m => m end.
(** Components in wind axes. *)
Definition in_wind_axes (op : operating_point) (v : vec) : vec := mvmul (mtrans (rotation_wind_to_geometry op)) v.

(** A panel with its moments taken about a point that is [d] further on: nothing else changes. *)
Definition panel_about (op : operating_point) (d : vec) (p : panel) : panel :=
  mkpanel (p_front_right p) (p_front_left p) (p_back_left p) (p_back_right p) (p_is_leading_edge p) (p_is_trailing_edge p)
          (p_is_right_edge p) (p_is_left_edge p) (p_local_chordwise p) (p_local_spanwise p) (p_ring_vortex p)
          (p_horseshoe_vortex p) (p_force_geometry p)
          (moved_moment_opt d (p_force_geometry p) (p_moment_geometry p))
          (p_force_wind p)
          (moved_moment_opt (in_wind_axes op d) (p_force_wind p) (p_moment_wind p))
          (p_induced_drag_coefficient p) (p_side_force_coefficient p) (p_lift_coefficient p).
Definition wing_about (op : operating_point) (d : vec) (w : wing) : wing :=
  w_set_panels (map (map (panel_about op d)) (w_panels w)) w.
(** The coefficients of the moment [m] that the airplane reports. *)
Definition coefficients_of (op : operating_point) (a : airplane) (m : vec) : vec :=
  let q := dynamic_pressure op in
  mkvec (vx m / (q * a_s_ref a * a_b_ref a)) (vy m / (q * a_s_ref a * a_c_ref a)) (vz m / (q * a_s_ref a * a_b_ref a)).
(** An airplane with [point] as reference point, all its moments now being about that point: its
    forces, its vortices and all other attributes stay the same. *)
Definition airplane_about (op : operating_point) (point : vec) (a : airplane) : airplane :=
  let d := vsub point (a_xyz_ref a) in
  mkairplane (map (wing_about op d) (a_wings a)) (a_name a) (vx point) (vy point) (vz point) (a_weight a) (a_s_ref a) (a_c_ref a)
             (a_b_ref a) (a_num_panels a) (a_force_wind a) (a_force_coefficients a)
             (moved_moment_opt (in_wind_axes op d) (a_force_wind a) (a_moment_wind a))
             (match a_force_wind a, a_moment_coefficients a with
              | Some f, Some cm => Some (vsub cm (coefficients_of op a (vcross (in_wind_axes op d) f)))
              | _, cm => cm
              end).
(** The same airplane with another reference point. *)
Definition with_reference (point : vec) (a : airplane) : airplane :=
  mkairplane (a_wings a) (a_name a) (vx point) (vy point) (vz point) (a_weight a) (a_s_ref a) (a_c_ref a) (a_b_ref a)
             (a_num_panels a) (a_force_wind a) (a_force_coefficients a) (a_moment_wind a) (a_moment_coefficients a).
(** Moments have not been calculated yet. *)
Definition without_moments (a : airplane) : Prop :=
  a_moment_wind a = None /\ a_moment_coefficients a = None /\
  Forall (fun w => Forall (Forall (fun p => p_moment_geometry p = None /\ p_moment_wind p = None)) (w_panels w)) (a_wings a).

(** The rows of the solvers' arrays: only the reference point and the moments stored with the panel
    may differ. *)
Definition hs_row_about (op : operating_point) (r r' : hs_row) : Prop :=
  r' = mkhsrow (panel_about op (vsub (hr_ref r') (hr_ref r)) (hr_panel r)) (hr_ref r') (hr_vortex r).
Definition ring_row_about (op : operating_point) (r r' : ring_row) : Prop :=
  r' = mkringrow (panel_about op (vsub (rr_ref r') (rr_ref r)) (rr_panel r)) (rr_ref r') (rr_vortex r)
                 (rr_hs_back_right r) (rr_hs_front_right r) (rr_hs_front_left r) (rr_hs_back_left r).

(** The results of two runs of the steady solvers, the second about the given points. *)
Definition hs_about (points : list vec) (s s' : hs_solver) : Prop :=
  hso_airplanes s' = map2 (airplane_about (hso_op s)) points (hso_airplanes s) /\
  hso_op s' = hso_op s /\ hso_freestream s' = hso_freestream s /\
  Forall2 (hs_row_about (hso_op s)) (hso_rows s) (hso_rows s') /\
  hso_influences s' = hso_influences s /\ hso_freestream_influences s' = hso_freestream_influences s /\
  hso_strengths s' = hso_strengths s /\ hso_seed_points s' = hso_seed_points s /\
  hso_streamline_points s' = hso_streamline_points s /\
  (forall points, hs_solution_velocity s' points = hs_solution_velocity s points).
Definition ring_about (points : list vec) (s s' : ring_solver) : Prop :=
  rso_airplanes s' = map2 (airplane_about (rso_op s)) points (rso_airplanes s) /\
  rso_op s' = rso_op s /\ rso_freestream s' = rso_freestream s /\
  Forall2 (ring_row_about (rso_op s)) (rso_rows s) (rso_rows s') /\
  rso_influences s' = rso_influences s /\ rso_freestream_influences s' = rso_freestream_influences s /\
  rso_strengths s' = rso_strengths s /\ rso_hs_strengths s' = rso_hs_strengths s /\
  rso_seed_points s' = rso_seed_points s /\ rso_streamline_points s' = rso_streamline_points s /\
  (forall points, ring_solution_velocity s' points = ring_solution_velocity s points).

(** A time step of an unsteady problem about the given points; all time steps of it. *)
Definition step_about (points : list vec) (sp : steady_problem) : steady_problem :=
  mksteady (map2 (airplane_about (sp_operating_point sp)) points (sp_airplanes sp)) (sp_operating_point sp).
Definition step_with_references (points : list vec) (sp : steady_problem) : steady_problem :=
  mksteady (map2 with_reference points (sp_airplanes sp)) (sp_operating_point sp).
(** The same problem, but for the movement it was made from, with other reference points. *)
Definition other_references (points : list (list vec)) (up up' : unsteady_problem) : Prop :=
  up' = mkunsteady (up_movement up') (up_num_steps up) (up_delta_time up) (up_only_final_results up) (up_max_period up)
                   (up_first_averaging_step up) (up_first_results_step up) (up_final up) (up_final_mean up) (up_final_rms up)
                   (map2 step_with_references points (up_steady_problems up)).
(** Points for every airplane of every time step. *)
Definition points_for (points : list (list vec)) (up : unsteady_problem) : Prop :=
  Forall2 (fun vs sp => length vs = length (sp_airplanes sp)) points (up_steady_problems up).
(** Final loads with the same forces. *)
Definition same_final_forces (f f' : final_loads) : Prop :=
  fl_forces f' = fl_forces f /\ fl_force_coefficients f' = fl_force_coefficients f /\
  length (fl_moments f') = length (fl_moments f) /\ length (fl_moment_coefficients f') = length (fl_moment_coefficients f).
(** The results of two runs of the unsteady solver, the second about the given points. *)
Definition unsteady_about (points : list (list vec)) (s s' : unsteady_solver) : Prop :=
  let up := us_problem s in
  let up' := us_problem s' in
  up' = mkunsteady (up_movement up') (up_num_steps up) (up_delta_time up) (up_only_final_results up) (up_max_period up)
                   (up_first_averaging_step up) (up_first_results_step up) (up_final up') (up_final_mean up') (up_final_rms up')
                   (map2 step_about points (up_steady_problems up)) /\
  same_final_forces (up_final up) (up_final up') /\ same_final_forces (up_final_mean up) (up_final_mean up') /\
  same_final_forces (up_final_rms up) (up_final_rms up') /\
  us_heap s' = us_heap s /\ us_num_wake s' = us_num_wake s /\ us_wakes s' = us_wakes s /\
  us_streamline_points s' = us_streamline_points s /\
  (forall points, unsteady_solution_velocity s' points = unsteady_solution_velocity s points).

(** ** Movements *)
(** The reference point moved by [d]. *)
Definition moved_reference (d : vec) (a : airplane) : airplane := with_reference (vadd (a_xyz_ref a) d) a.
(** A movement of the airplane whose base airplane has its reference point moved by [d]. *)
Definition moved_base (d : vec) (am : airplane_movement) : airplane_movement :=
  mkairmove (moved_reference d (am_base am)) (am_wings am) (am_x_ref am) (am_y_ref am) (am_z_ref am).
(** The reference points that come of it. *)
Definition moved_points (ds : list vec) (up : unsteady_problem) : list (list vec) :=
  map (fun sp => map2 (fun d a => vadd (a_xyz_ref a) d) ds (sp_airplanes sp)) (up_steady_problems up).
(** The loads kept at the end of two runs whose reference points are [ds] apart, in a flow with the
    directions of [op]. *)
Definition final_about (op : operating_point) (ds : list vec) (f f' : final_loads) : Prop :=
  same_final_forces f f' /\
  forall i d force moment, nth_error ds i = Some d -> nth_error (fl_forces f) i = Some force -> nth_error (fl_moments f) i = Some moment ->
    nth_error (fl_moments f') i = Some (moved_moment (in_wind_axes op d) force moment).
