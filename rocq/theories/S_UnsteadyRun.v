(** Specification vocabulary for whole runs of the unsteady solver. *)
From Verif Require Import M_Unsteady S_Loads S_Vortices S_Unsteady.

(** An unsteady problem as users make them: from a movement. *)
Definition created (up : unsteady_problem) : Prop :=
  exists airplane_movements op_movement num_steps num_cycles num_chords delta_time m only_final_results,
    new_movement airplane_movements op_movement num_steps num_cycles num_chords delta_time = Ok m /\
    new_unsteady_problem m only_final_results = Ok up.
(** The state of the solver after [n] time steps of a run. *)
Definition after (solve : list (list R) -> list R -> result (list R)) (prescribed : bool) (up : unsteady_problem) (n : nat)
           (s : unsteady_solver) : Prop :=
  exists s0 s1, unsteady_new up = Ok s0 /\ unsteady_start 0 s0 = Ok s1 /\ unsteady_steps solve prescribed n s1 = Ok s.
(** The state of the solver after a run. *)
Definition finished (solve : list (list R) -> list R -> result (list R)) (prescribed streamlines : bool) (up : unsteady_problem)
           (s : unsteady_solver) : Prop :=
  exists s0, unsteady_new up = Ok s0 /\ unsteady_run solve prescribed streamlines s0 = Ok s.
(** The problem of time step [k] in the state [s]. *)
Definition step_at (s : unsteady_solver) (k : nat) (sp : steady_problem) : Prop :=
  nth_error (up_steady_problems (us_problem s)) k = Some sp.

(** The ring vortex of the panel [p] at (c, s): its front vertices are the panel's
    quarter chord points, its back vertices those of the panel behind, or at the
    trailing edge one panel length behind its front vertices and [drift] downstream. *)
Definition bound_ring (drift : vec) (m : list (list panel)) (c s : nat) (p : panel) (r : ring_vortex) : Prop :=
  ring_consistent r /\
  rv_front_left r = p_front_left_vortex_vertex p /\ rv_front_right r = p_front_right_vortex_vertex p /\
  (S c = length m ->
     rv_back_left r = vadd (vadd (rv_front_left r) (vsub (p_back_left p) (p_front_left p))) drift /\
     rv_back_right r = vadd (vadd (rv_front_right r) (vsub (p_back_right p) (p_front_right p))) drift) /\
  (S c <> length m -> exists q, at_position m (S c) s q /\
     rv_back_left r = p_front_left_vortex_vertex q /\ rv_back_right r = p_front_right_vortex_vertex q).

(** ** Final loads *)
(** The loads of an airplane and where the problem keeps their final values. *)
Definition load_lists : list ((airplane -> option vec) * (final_loads -> list vec)) :=
  [(a_force_wind, fl_forces); (a_force_coefficients, fl_force_coefficients);
   (a_moment_wind, fl_moments); (a_moment_coefficients, fl_moment_coefficients)].
(** The values of a load of airplane number [i] at the steps [first], ..., [last - 1]. *)
Definition window (s : unsteady_solver) (first last i : nat) (get : airplane -> option vec) (vs : list vec) : Prop :=
  Forall2 (fun k v => exists sp a, step_at s k sp /\ nth_error (sp_airplanes sp) i = Some a /\ get a = Some v)
          (seq first (last - first)) vs.
Definition mean_is (vs : list vec) (m : vec) : Prop := vscale (INR (length vs)) m = vsum vs.
Definition rms_is (vs : list vec) (r : vec) : Prop :=
  forall coordinate, In coordinate [vx; vy; vz] ->
    0 <= coordinate r /\ INR (length vs) * coordinate r ^ 2 = rsum (map (fun v => coordinate v ^ 2) vs).

(** ** Histories *)
(** After [n] time steps: between two steps, or with all of them after the run. *)
Definition has_run (solve : list (list R) -> list R -> result (list R)) (prescribed : bool) (up : unsteady_problem) (n : nat)
           (s : unsteady_solver) : Prop :=
  after solve prescribed up n s \/
  (exists streamlines, finished solve prescribed streamlines up s) /\ n = length (up_steady_problems up).
(** Wing number [i] of step [k], counted airplane after airplane. *)
Definition wing_at (s : unsteady_solver) (k i : nat) (w : wing) : Prop :=
  exists sp, step_at s k sp /\ nth_error (step_wings sp) i = Some w.
(** Panel number [i] of step [k], counted wing after wing. *)
Definition panel_of_step (s : unsteady_solver) (k i : nat) (p : panel) : Prop :=
  exists sp, step_at s k sp /\ nth_error (step_panels sp) i = Some p.
(** Entry (r, c) of a grid. *)
Definition entry {A} (m : list (list A)) (r c : nat) (x : A) : Prop :=
  exists row, nth_error m r = Some row /\ nth_error row c = Some x.
Definition freestream_at (s : unsteady_solver) (k : nat) : vec :=
  match nth_error (up_steady_problems (us_problem s)) k with
  | Some sp => freestream_velocity (sp_operating_point sp)
  | None => vzero
  end.
(** The sum of the freestream velocities of the steps [i], ..., [j - 1]. *)
Definition swept (s : unsteady_solver) (i j : nat) : vec := vsum (map (freestream_at s) (seq i (j - i))).

(** A quarter of the way the freestream covers in step [k]. *)
Definition drift_at (s : unsteady_solver) (k : nat) : vec :=
  vscale (25 / 100) (vscale (up_delta_time (us_problem s)) (freestream_at s k)).

(** ** Velocities *)
(** The velocity a ring vortex of a given age induces: that of its four legs. *)
Definition ring_velocity (nu age : R) (x : vec) (r : ring_vortex) : vec :=
  vsum (map (fun l => line_velocity x (lv_origin l) (lv_termination l) (rv_strength r) age nu)
            [rv_right_leg r; rv_front_leg r; rv_left_leg r; rv_back_leg r]).
(** The apparent velocity at a point of panel number [i] due to the panel's own
    motion during step [k]: zero in the first step, then the displacement since the
    last step, backwards, over the time step. *)
Definition apparent_velocity (point : panel -> vec) (s : unsteady_solver) (k i : nat) (v : vec) : Prop :=
  match k with
  | O => v = vzero
  | S k' => exists p q, panel_of_step s k' i p /\ panel_of_step s k i q /\
                        vscale (up_delta_time (us_problem s)) v = vsub (point p) (point q)
  end.

(** The centers of three legs of a panel's ring vortex. *)
Definition right_center (p : panel) : vec := match p_ring_vortex p with Some r => lv_center (rv_right_leg r) | None => vzero end.
Definition front_center (p : panel) : vec := match p_ring_vortex p with Some r => lv_center (rv_front_leg r) | None => vzero end.
Definition left_center (p : panel) : vec := match p_ring_vortex p with Some r => lv_center (rv_left_leg r) | None => vzero end.
(** The methods that give apparent velocities and the points they are for. *)
Definition flapping_methods : list ((unsteady_solver -> result (list vec)) * (panel -> vec)) :=
  [(flapping_at_collocation_points, p_collocation_point); (flapping_at_right_leg_centers, right_center);
   (flapping_at_front_leg_centers, front_center); (flapping_at_left_leg_centers, left_center)].
(** The influence of the ring vortices of a step on its collocation points: the
    normal velocity each of them would induce with unit strength. *)
Definition influence_matrix (sp : steady_problem) (A : list (list R)) : Prop :=
  exists rs, Forall2 (fun p r => p_ring_vortex p = Some r) (step_panels sp) rs /\
    A = map (fun p => map (fun r => vdot (ring_velocity (op_nu (sp_operating_point sp)) 0 (p_collocation_point p) (ring_update_strength 1 r))
                                         (p_unit_normal p)) rs) (step_panels sp).

(** ** What a run leaves alone *)
(** The same wing up to vortices, loads and wake. *)
Definition kept_wing (w v : wing) : Prop :=
  v = w_set_wake (w_wake_vertices v) (w_wake_rings v) (w_set_panels (w_panels v) w) /\
  Forall2 (Forall2 same_panel) (w_panels w) (w_panels v).
Definition kept_airplane (a b : airplane) : Prop :=
  Forall2 kept_wing (a_wings a) (a_wings b) /\
  a_name b = a_name a /\ a_xyz_ref b = a_xyz_ref a /\ a_weight b = a_weight a /\
  a_s_ref b = a_s_ref a /\ a_c_ref b = a_c_ref a /\ a_b_ref b = a_b_ref a /\
  a_num_panels b = a_num_panels a.
Definition kept_step (sp sp' : steady_problem) : Prop :=
  sp_operating_point sp' = sp_operating_point sp /\ Forall2 kept_airplane (sp_airplanes sp) (sp_airplanes sp').

(** ** Wakes *)
(** The ring (r, c) in the wake of wing number [i] at step [k]: its corners are wake
    vertices of the wing, its age counts the steps since it was shed, and its
    strength is that of the trailing edge panel that shed it. *)
Definition wake_ring (s : unsteady_solver) (k i r c : nat) (ring : ring_vortex) : Prop :=
  ring_consistent ring /\
  rv_age ring = INR r * up_delta_time (us_problem s) /\
  (exists w, wing_at s k i w /\
     entry (w_wake_vertices w) r c (rv_front_left ring) /\ entry (w_wake_vertices w) r (S c) (rv_front_right ring) /\
     entry (w_wake_vertices w) (S r) c (rv_back_left ring) /\ entry (w_wake_vertices w) (S r) (S c) (rv_back_right ring)) /\
  exists w, wing_at s (k - 1 - r) i w /\ nth_error (trailing_strengths w) c = Some (rv_strength ring).
(** The wake of step [k]: for every wing a grid of such rings. *)
Definition wake_is (s : unsteady_solver) (k : nat) (grids : list (list (list ring_vortex))) : Prop :=
  exists sp, step_at s k sp /\
  Forall2 (fun w g => grid k (w_num_spanwise_panels w) g) (step_wings sp) grids /\
  forall i g r c ring, nth_error grids i = Some g -> entry g r c ring -> wake_ring s k i r c ring.

(** ** Loads *)
(** Panel number [i] of step [k] is [p], at (c, j) on the wing [w] of the airplane [a]. *)
Definition panel_place (s : unsteady_solver) (k i : nat) (a : airplane) (w : wing) (c j : nat) (p : panel) : Prop :=
  exists sp, step_at s k sp /\ nth_error (flat_panels (sp_airplanes sp)) i = Some (a, w, p) /\ at_position (w_panels w) c j p.
(** The circulation of panel number [i] one step before step [k]; zero before the first. *)
Definition last_circulation (s : unsteady_solver) (k i : nat) (g : R) : Prop :=
  match k with O => g = 0 | S k' => exists p, panel_of_step s k' i p /\ g = strength_of p end.

(** ** The same up to loads *)
Definition alike_panel (p q : panel) : Prop :=
  same_panel p q /\ p_ring_vortex q = p_ring_vortex p /\ p_horseshoe_vortex q = p_horseshoe_vortex p.
Definition alike_wing (w v : wing) : Prop :=
  v = w_set_panels (w_panels v) w /\ Forall2 (Forall2 alike_panel) (w_panels w) (w_panels v).
Definition alike_airplane (a b : airplane) : Prop :=
  Forall2 alike_wing (a_wings a) (a_wings b) /\
  a_name b = a_name a /\ a_xyz_ref b = a_xyz_ref a /\ a_weight b = a_weight a /\
  a_s_ref b = a_s_ref a /\ a_c_ref b = a_c_ref a /\ a_b_ref b = a_b_ref a /\
  a_num_panels b = a_num_panels a.
Definition alike_step (sp sp' : steady_problem) : Prop :=
  sp_operating_point sp' = sp_operating_point sp /\ Forall2 alike_airplane (sp_airplanes sp) (sp_airplanes sp').

(** ** Loads not computed *)
Definition panel_without_loads (p : panel) : Prop :=
  p_force_geometry p = None /\ p_moment_geometry p = None /\ p_force_wind p = None /\ p_moment_wind p = None /\
  p_induced_drag_coefficient p = None /\ p_side_force_coefficient p = None /\ p_lift_coefficient p = None.
Definition airplane_without_loads (a : airplane) : Prop :=
  a_force_wind a = None /\ a_force_coefficients a = None /\ a_moment_wind a = None /\ a_moment_coefficients a = None /\
  forall w row p, In w (a_wings a) -> In row (w_panels w) -> In p row -> panel_without_loads p.

(** Two solvers with the same flow: the same wake, solution, streamlines and final
    loads, and equal time steps but for the loads of the steps before [first]. *)
Record same_flow (first : Z) (s t : unsteady_solver) : Prop := {
  sf_heap : us_heap t = us_heap s;
  sf_wakes : us_wakes t = us_wakes s;
  sf_counts : us_num_wake t = us_num_wake s;
  sf_current : us_current t = us_current s;
  sf_lines : us_streamline_points t = us_streamline_points s;
  sf_final : up_final (us_problem t) = up_final (us_problem s);
  sf_mean : up_final_mean (us_problem t) = up_final_mean (us_problem s);
  sf_rms : up_final_rms (us_problem t) = up_final_rms (us_problem s);
  sf_alike : Forall2 alike_step (up_steady_problems (us_problem s)) (up_steady_problems (us_problem t));
  sf_equal : forall k, (first <= Z.of_nat k)%Z ->
    nth_error (up_steady_problems (us_problem t)) k = nth_error (up_steady_problems (us_problem s)) k }.
