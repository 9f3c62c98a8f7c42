(** What it means that names, weights, reference dimensions and the external thrust are mere labels of
    the airplanes and operating points. *)
From Verif Require Import M_Horseshoe M_Unsteady.

(** Other labels for an airplane: name, weight, reference area, chord and span, and new names for its wings. *)
Record labels : Type := mklabels {
  lb_name : string;
  lb_weight : R;
  lb_s_ref : R; lb_c_ref : R; lb_b_ref : R;
  lb_wing_name : string -> string
}.
Definition wing_renamed (f : string -> string) (w : wing) : wing :=
  mkwing (w_sections w) (f (w_name w)) (w_x_le w) (w_y_le w) (w_z_le w) (w_unit_normal w) (w_symmetric w)
         (w_unit_chordwise w) (w_num_chordwise_panels w) (w_chordwise_spacing w)
         (w_num_spanwise_panels w) (w_num_panels w) (w_panels w) (w_wake_vertices w) (w_wake_rings w).
(** The same airplane with other labels. *)
Definition with_labels (lb : labels) (a : airplane) : airplane :=
  mkairplane (map (wing_renamed (lb_wing_name lb)) (a_wings a)) (lb_name lb) (a_x_ref a) (a_y_ref a) (a_z_ref a) (lb_weight lb)
             (lb_s_ref lb) (lb_c_ref lb) (lb_b_ref lb) (a_num_panels a) (a_force_wind a) (a_force_coefficients a)
             (a_moment_wind a) (a_moment_coefficients a).
(** Coefficients of a force and of a moment in wind axes for the given dimensions: drag, side force and
    lift; rolling, pitching and yawing moment. *)
Definition force_over (q s : R) (f : vec) : vec := mkvec (- vx f / (q * s)) (vy f / (q * s)) (- vz f / (q * s)).
Definition moment_over (q s b c : R) (m : vec) : vec := mkvec (vx m / (q * s * b)) (vy m / (q * s * c)) (vz m / (q * s * b)).
(** The solved airplane with other labels: everything else is the same, panels, vortices, forces and moments among it,
    except that the coefficients are for the new dimensions. *)
Definition solved_with_labels (op : operating_point) (lb : labels) (a : airplane) : airplane :=
  mkairplane (map (wing_renamed (lb_wing_name lb)) (a_wings a)) (lb_name lb) (a_x_ref a) (a_y_ref a) (a_z_ref a) (lb_weight lb)
             (lb_s_ref lb) (lb_c_ref lb) (lb_b_ref lb) (a_num_panels a)
             (a_force_wind a)
             (match a_force_wind a, a_force_coefficients a with
              | Some f, Some _ => Some (force_over (dynamic_pressure op) (lb_s_ref lb) f)
              | _, c => c
              end)
             (a_moment_wind a)
             (match a_moment_wind a, a_moment_coefficients a with
              | Some m, Some _ => Some (moment_over (dynamic_pressure op) (lb_s_ref lb) (lb_b_ref lb) (lb_c_ref lb) m)
              | _, c => c
              end).
(** No coefficients have been calculated yet. *)
Definition without_coefficients (a : airplane) : Prop := a_force_coefficients a = None /\ a_moment_coefficients a = None.

(** The operating point with another external thrust; with another viscosity. *)
Definition with_thrust (t : R) (op : operating_point) : operating_point :=
  mkop (op_density op) (op_velocity op) (op_alpha op) (op_beta op) t (op_nu op).
Definition with_nu (nu : R) (op : operating_point) : operating_point :=
  mkop (op_density op) (op_velocity op) (op_alpha op) (op_beta op) (op_external_thrust op) nu.

(** Results of the steady solvers with other labels: all other attributes are the same. *)
Definition hs_with_labels (lbs : list labels) (thrust nu : R) (s : hs_solver) : hs_solver :=
  mkhssolver (map2 (solved_with_labels (hso_op s)) lbs (hso_airplanes s)) (with_nu nu (with_thrust thrust (hso_op s)))
             (hso_freestream s) (hso_rows s) (hso_influences s) (hso_freestream_influences s) (hso_strengths s)
             (hso_seed_points s) (hso_streamline_points s).
Definition ring_with_labels (lbs : list labels) (thrust nu : R) (s : ring_solver) : ring_solver :=
  mkringsolver (map2 (solved_with_labels (rso_op s)) lbs (rso_airplanes s)) (with_nu nu (with_thrust thrust (rso_op s)))
               (rso_freestream s) (rso_rows s) (rso_influences s) (rso_freestream_influences s) (rso_strengths s)
               (rso_hs_strengths s) (rso_seed_points s) (rso_streamline_points s).

(** ** Unsteady problems *)
(** A time step with other labels, before and after it is solved. *)
Definition step_with_labels (l : R * list labels) (sp : steady_problem) : steady_problem :=
  mksteady (map2 with_labels (snd l) (sp_airplanes sp)) (with_thrust (fst l) (sp_operating_point sp)).
Definition step_solved_with_labels (l : R * list labels) (sp : steady_problem) : steady_problem :=
  mksteady (map2 (solved_with_labels (sp_operating_point sp)) (snd l) (sp_airplanes sp)) (with_thrust (fst l) (sp_operating_point sp)).
(** Labels for every airplane of every time step. *)
Definition labels_for (ls : list (R * list labels)) (up : unsteady_problem) : Prop :=
  Forall2 (fun l sp => length (snd l) = length (sp_airplanes sp)) ls (up_steady_problems up).
(** The same problem, but for the movement it was made from, with other labels. *)
Definition other_labels (ls : list (R * list labels)) (up up' : unsteady_problem) : Prop :=
  up' = mkunsteady (up_movement up') (up_num_steps up) (up_delta_time up) (up_only_final_results up) (up_max_period up)
                   (up_first_averaging_step up) (up_first_results_step up) (up_final up) (up_final_mean up) (up_final_rms up)
                   (map2 step_with_labels ls (up_steady_problems up)).
(** Final loads with the same forces and moments. *)
Definition same_final_loads (f f' : final_loads) : Prop :=
  fl_forces f' = fl_forces f /\ fl_moments f' = fl_moments f /\
  length (fl_force_coefficients f') = length (fl_force_coefficients f) /\
  length (fl_moment_coefficients f') = length (fl_moment_coefficients f).
(** The results of two runs of the unsteady solver, the second with other labels. *)
Definition unsteady_with_labels (ls : list (R * list labels)) (s s' : unsteady_solver) : Prop :=
  let up := us_problem s in
  let up' := us_problem s' in
  up' = mkunsteady (up_movement up') (up_num_steps up) (up_delta_time up) (up_only_final_results up) (up_max_period up)
                   (up_first_averaging_step up) (up_first_results_step up) (up_final up') (up_final_mean up') (up_final_rms up')
                   (map2 step_solved_with_labels ls (up_steady_problems up)) /\
  same_final_loads (up_final up) (up_final up') /\ same_final_loads (up_final_mean up) (up_final_mean up') /\
  same_final_loads (up_final_rms up) (up_final_rms up') /\
  us_heap s' = us_heap s /\ us_num_wake s' = us_num_wake s /\ us_wakes s' = us_wakes s /\
  us_streamline_points s' = us_streamline_points s /\
  (forall points, unsteady_solution_velocity s' points = unsteady_solution_velocity s points).

(** ** Movements *)
(** The movement of the airplane with other labels for its base airplane. *)
Definition base_with_labels (lb : labels) (am : airplane_movement) : airplane_movement :=
  mkairmove (with_labels lb (am_base am)) (am_wings am) (am_x_ref am) (am_y_ref am) (am_z_ref am).
(** The movement of the operating point with another thrust and viscosity. *)
Definition base_with_thrust (thrust nu : R) (om : op_movement) : op_movement :=
  mkopmove (with_nu nu (with_thrust thrust (om_base om))) (om_velocity om).
(** The labels its airplanes get: the name only. *)
Definition named (name : string) (a : airplane) : labels := mklabels name (a_weight a) (a_s_ref a) (a_c_ref a) (a_b_ref a) (fun n => n).
Definition names_only (lbs : list labels) (up : unsteady_problem) : list (R * list labels) :=
  map (fun sp => (op_external_thrust (sp_operating_point sp), map2 (fun lb a => named (lb_name lb) a) lbs (sp_airplanes sp))) (up_steady_problems up).
(** The reference chord plays a part where the time step or the number of steps is to be chosen. *)
Definition chord_unused {A B} (n : option A) (dt : option B) (lbs : list labels) (ams : list airplane_movement) : Prop :=
  (n <> None /\ dt <> None) \/ Forall2 (fun lb am => lb_c_ref lb = a_c_ref (am_base am)) lbs ams.
