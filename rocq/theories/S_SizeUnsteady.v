(** The same flight with everything built larger or smaller. *)
From Coq Require Import List ZArith Reals.
From Verif Require Import M_Unsteady S_Unsteady S_UnsteadyRun S_Loads S_Solvable S_Size.
Import ListNotations.
Local Open Scope R_scope.

(** ** The problem [k] times as large, before anything has been computed *)
Definition larger_panel (k : R) (p : panel) : panel :=
  mkpanel (vscale k (p_front_right p)) (vscale k (p_front_left p)) (vscale k (p_back_left p)) (vscale k (p_back_right p))
    (p_is_leading_edge p) (p_is_trailing_edge p) (p_is_right_edge p) (p_is_left_edge p) (p_local_chordwise p) (p_local_spanwise p)
    (p_ring_vortex p) (p_horseshoe_vortex p) (p_force_geometry p) (p_moment_geometry p) (p_force_wind p) (p_moment_wind p)
    (p_induced_drag_coefficient p) (p_side_force_coefficient p) (p_lift_coefficient p).
Definition larger_wing (k : R) (w : wing) : wing :=
  mkwing (map (enlarged_section k) (w_sections w)) (w_name w) (k * w_x_le w) (k * w_y_le w) (k * w_z_le w) (w_unit_normal w)
    (w_symmetric w) (w_unit_chordwise w) (w_num_chordwise_panels w) (w_chordwise_spacing w) (w_num_spanwise_panels w) (w_num_panels w)
    (map (map (larger_panel k)) (w_panels w)) (map (map (vscale k)) (w_wake_vertices w)) (w_wake_rings w).
Definition larger_airplane (k : R) (a : airplane) : airplane :=
  mkairplane (map (larger_wing k) (a_wings a)) (a_name a) (k * a_x_ref a) (k * a_y_ref a) (k * a_z_ref a) (a_weight a)
    (k ^ 2 * a_s_ref a) (k * a_c_ref a) (k * a_b_ref a) (a_num_panels a)
    (a_force_wind a) (a_force_coefficients a) (a_moment_wind a) (a_moment_coefficients a).
(** The same wind; the wake spreads with the viscosity, so that has to grow along with the lengths. *)
Definition thicker (k : R) (op : operating_point) : operating_point :=
  mkop (op_density op) (op_velocity op) (op_alpha op) (op_beta op) (op_external_thrust op) (k * op_nu op).
(** At the same speed it takes [k] times as long to get [k] times as far. *)
Record larger_flight (k : R) (up up' : unsteady_problem) : Prop := {
  lf_time : up_delta_time up' = k * up_delta_time up;
  lf_num_steps : up_num_steps up' = up_num_steps up;
  lf_results : up_first_results_step up' = up_first_results_step up;
  lf_averaging : up_first_averaging_step up' = up_first_averaging_step up;
  lf_periodic : up_max_period up' = 0 <-> up_max_period up = 0;
  lf_unsolved : up_final up' = no_final_loads /\ up_final_mean up' = no_final_loads /\ up_final_rms up' = no_final_loads;
  lf_steps : up_steady_problems up' =
    map (fun sp => mksteady (map (larger_airplane k) (sp_airplanes sp)) (thicker k (sp_operating_point sp))) (up_steady_problems up) }.

(** ** Movements *)
(** The same angles, [k] times as slow. *)
Definition slower (k : R) (o : oscillation) : oscillation := mkosc (osc_amplitude o) (k * osc_period o) (osc_spacing o).
(** [k] times as far, [k] times as slow. *)
Definition farther (k : R) (o : oscillation) : oscillation := mkosc (k * osc_amplitude o) (k * osc_period o) (osc_spacing o).
Definition larger_section_movement (k : R) (m : section_movement) : section_movement :=
  mksecmove (enlarged_section k (sm_base m)) (slower k (sm_sweeping m)) (sm_custom_sweep m) (slower k (sm_pitching m)) (sm_custom_pitch m)
            (slower k (sm_heaving m)) (sm_custom_heave m).
Definition larger_wing_movement (k : R) (m : wing_movement) : wing_movement :=
  mkwingmove (larger_wing k (wm_base m)) (map (larger_section_movement k) (wm_sections m)) (farther k (wm_x_le m)) (farther k (wm_y_le m)) (farther k (wm_z_le m)).
Definition larger_airplane_movement (k : R) (m : airplane_movement) : airplane_movement :=
  mkairmove (larger_airplane k (am_base m)) (map (larger_wing_movement k) (am_wings m)) (farther k (am_x_ref m)) (farther k (am_y_ref m)) (farther k (am_z_ref m)).
Definition slower_wind (k : R) (m : op_movement) : op_movement := mkopmove (om_base m) (slower k (om_velocity m)).

(** ** What has to be resolved *)
(** The legs of a panel's ring vortex and of the ring vortices in the record of a wake. *)
Definition panel_legs (p : panel) : path :=
  match p_ring_vortex p with
  | Some v => [(lv_origin (rv_right_leg v), lv_termination (rv_right_leg v)); (lv_termination (rv_right_leg v), lv_origin (rv_left_leg v));
               (lv_origin (rv_left_leg v), lv_termination (rv_left_leg v)); (lv_termination (rv_left_leg v), lv_origin (rv_right_leg v))]
  | None => []
  end.
Definition wake_legs (w : wake_arrays) : list path :=
  [combine (wk_back_right w) (wk_front_right w); combine (wk_front_right w) (wk_front_left w);
   combine (wk_front_left w) (wk_back_left w); combine (wk_back_left w) (wk_back_right w)].
Definition vortices_of (sp : steady_problem) (w : wake_arrays) : list path :=
  map panel_legs (all_panels (sp_airplanes sp)) ++ wake_legs w.
(** Where a step needs velocities: at the collocation points; if it computes loads, at the middle of the right, front
    and left legs; and, if the wake is free and the step is not the last, at the wake's vertices, which in the
    first step are the trailing edges of the wings of the second. *)
Definition leg_centers (p : panel) : list vec :=
  match p_ring_vortex p with
  | Some v => [lv_center (rv_right_leg v); lv_center (rv_front_leg v); lv_center (rv_left_leg v)]
  | None => []
  end.
Definition wings_of (sp : steady_problem) : list wing := concat (map a_wings (sp_airplanes sp)).
Definition step_points (prescribed : bool) (up : unsteady_problem) (i : nat) (x : vec) : Prop :=
  (exists sp p, nth_error (up_steady_problems up) i = Some sp /\ In p (all_panels (sp_airplanes sp)) /\
     (x = p_collocation_point p \/ ((up_first_results_step up <= Z.of_nat i)%Z /\ In x (leg_centers p)))) \/
  (prescribed = false /\ (Z.of_nat i < up_num_steps up - 1)%Z /\
   match i with
   | O => exists sp w, nth_error (up_steady_problems up) 1 = Some sp /\ In w (wings_of sp) /\ In x (hd [] (w_wake_vertices w))
   | S _ => exists sp w row, nth_error (up_steady_problems up) i = Some sp /\ In w (wings_of sp) /\ In row (w_wake_vertices w) /\ In x row
   end).
(** Everything step [i] needed, with [s] the solver after it, is cut off at both sizes or at neither. *)
Definition resolved_step (k : R) (prescribed : bool) (i : nat) (s : unsteady_solver) : Prop :=
  forall sp w x, nth_error (up_steady_problems (us_problem s)) i = Some sp -> nth_error (us_wakes s) i = Some w ->
    step_points prescribed (us_problem s) i x -> resolved k (vortices_of sp w) x.
Definition resolved_steps (k : R) (solve : list (list R) -> list R -> result (list R)) (prescribed : bool) (up : unsteady_problem) (n : nat) : Prop :=
  forall i s, (i < n)%nat -> after solve prescribed up (S i) s -> resolved_step k prescribed i s.
(** Nothing is cut off at all, but for points on the line of a vortex, where the velocity is zero anyway. *)
Definition clear_steps (solve : list (list R) -> list R -> result (list R)) (prescribed : bool) (up : unsteady_problem) (n : nat) : Prop :=
  forall i s, (i < n)%nat -> after solve prescribed up (S i) s ->
  forall sp w x, nth_error (up_steady_problems (us_problem s)) i = Some sp -> nth_error (us_wakes s) i = Some w -> step_points prescribed (us_problem s) i x ->
  forall v sg, In v (vortices_of sp w) -> In sg v -> vcross (vsub (fst sg) x) (vsub (snd sg) x) = vzero \/ ~ cut_off x sg.

(** ** What becomes of the results *)
Definition ring_enlarged (k : R) (o o' : option ring_vortex) : Prop :=
  match o, o' with
  | Some v, Some v' => rv_strength v' = k * rv_strength v /\ rv_front_left v' = vscale k (rv_front_left v) /\ rv_front_right v' = vscale k (rv_front_right v) /\
                       rv_back_left v' = vscale k (rv_back_left v) /\ rv_back_right v' = vscale k (rv_back_right v)
  | None, None => True
  | _, _ => False
  end.
Definition panel_enlarged (k : R) (p p' : panel) : Prop :=
  enlarged_panel k p p' /\ ring_enlarged k (p_ring_vortex p) (p_ring_vortex p') /\
  p_force_geometry p' = option_map (vscale (k ^ 2)) (p_force_geometry p) /\
  p_moment_geometry p' = option_map (vscale (k ^ 3)) (p_moment_geometry p) /\
  p_force_wind p' = option_map (vscale (k ^ 2)) (p_force_wind p) /\
  p_moment_wind p' = option_map (vscale (k ^ 3)) (p_moment_wind p) /\
  p_induced_drag_coefficient p' = p_induced_drag_coefficient p /\
  p_side_force_coefficient p' = p_side_force_coefficient p /\
  p_lift_coefficient p' = p_lift_coefficient p.
Definition wing_enlarged (k : R) (w w' : wing) : Prop :=
  Forall2 (Forall2 (panel_enlarged k)) (w_panels w) (w_panels w') /\ w_wake_vertices w' = map (map (vscale k)) (w_wake_vertices w).
Definition airplane_enlarged (k : R) (a a' : airplane) : Prop :=
  a_force_wind a' = option_map (vscale (k ^ 2)) (a_force_wind a) /\
  a_moment_wind a' = option_map (vscale (k ^ 3)) (a_moment_wind a) /\
  a_force_coefficients a' = a_force_coefficients a /\ a_moment_coefficients a' = a_moment_coefficients a /\
  Forall2 (wing_enlarged k) (a_wings a) (a_wings a').
Definition record_enlarged (k : R) (w w' : wake_arrays) : Prop :=
  wk_strengths w' = map (Rmult k) (wk_strengths w) /\ wk_ages w' = map (Rmult k) (wk_ages w) /\
  wk_front_right w' = map (vscale k) (wk_front_right w) /\ wk_front_left w' = map (vscale k) (wk_front_left w) /\
  wk_back_left w' = map (vscale k) (wk_back_left w) /\ wk_back_right w' = map (vscale k) (wk_back_right w).
Definition final_enlarged (k : R) (l l' : final_loads) : Prop :=
  fl_forces l' = map (vscale (k ^ 2)) (fl_forces l) /\ fl_moments l' = map (vscale (k ^ 3)) (fl_moments l) /\
  fl_force_coefficients l' = fl_force_coefficients l /\ fl_moment_coefficients l' = fl_moment_coefficients l.
(** After [n] steps. *)
Record run_enlarged (k : R) (n : nat) (s s' : unsteady_solver) : Prop := {
  re_steps : Forall2 (fun sp sp' => Forall2 (airplane_enlarged k) (sp_airplanes sp) (sp_airplanes sp'))
                     (up_steady_problems (us_problem s)) (up_steady_problems (us_problem s'));
  re_wakes : Forall2 (record_enlarged k) (us_wakes s) (us_wakes s');
  re_velocity : forall i sp w points v, n = S i -> nth_error (up_steady_problems (us_problem s)) i = Some sp -> nth_error (us_wakes s) i = Some w ->
    (forall x, In x points -> resolved k (vortices_of sp w) x) ->
    unsteady_solution_velocity s points = Ok v -> unsteady_solution_velocity s' (map (vscale k) points) = Ok v;
  re_final : final_enlarged k (up_final (us_problem s)) (up_final (us_problem s'));
  re_mean : final_enlarged k (up_final_mean (us_problem s)) (up_final_mean (us_problem s'));
  re_rms : final_enlarged k (up_final_rms (us_problem s)) (up_final_rms (us_problem s')) }.
