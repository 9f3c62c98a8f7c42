(** Property theorems C24, C40 - C45, C54 and C56 (the unsteady solver and its wake;
    pterasoftware/unsteady_ring_vortex_lattice_method.py).  [has_run solve prescribed
    up n s] says that [s] is the solver for the problem [up] after [n] time steps. *)
From Coq Require Import Reals List Lia.
From Verif Require Import M_Unsteady S_Solve S_Geometry S_Loads S_Movement S_Unsteady S_UnsteadyRun L_Gauss L_RingLegs L_UnsteadyFinal L_UnsteadyProps L_UnsteadyProps2
  L_UnsteadyFlow L_UnsteadyStill L_Static L_Example4 L_Example5 L_Statements4 L_FlapExample L_WakeGap.

(** ** C24  No penetration.  After step [n] the velocity the solver reports at the
    collocation point of every panel, with the apparent velocity of the panel's own
    motion, has no component along the normal. *)
Theorem C24_no_penetration : forall solve, SolveSpec solve -> forall prescribed up n s i p,
  created up -> has_run solve prescribed up (S n) s -> up_delta_time up <> 0 -> panel_of_step s n i p ->
  exists u v, unsteady_solution_velocity s [p_collocation_point p] = Ok [u] /\
    apparent_velocity p_collocation_point s n i v /\ vdot (vadd u v) (p_unit_normal p) = 0.
Proof. exact no_penetration. Qed.
Print Assumptions C24_no_penetration.

(** The velocity the solver reports is that of the bound ring vortices, the wake and
    the freestream. *)
Theorem C24_velocity : forall solve, SolveSpec solve -> forall prescribed up n s,
  created up -> has_run solve prescribed up (S n) s ->
  exists sp rs grids, step_at s n sp /\ Forall2 (fun p r => p_ring_vortex p = Some r) (step_panels sp) rs /\ wake_is s n grids /\
    let nu := op_nu (sp_operating_point sp) in
    forall x, unsteady_solution_velocity s [x] =
      Ok [vadd (vadd (vsum (map (ring_velocity nu 0 x) rs))
                     (vsum (map (fun r => ring_velocity nu (rv_age r) x r) (concat (map (@concat ring_vortex) grids)))))
               (freestream_velocity (sp_operating_point sp))].
Proof. exact velocity_field. Qed.
Print Assumptions C24_velocity.

(** A plate in a gust: the strengths are not zero and later steps have a wake. *)
Example C24_applies : forall prescribed only, exists up s,
  windy_case gust prescribed true only up s /\ created up /\ up_delta_time up <> 0 /\ has_run gauss_solve prescribed up 3 s /\
  (exists t, has_run gauss_solve prescribed up 2 t /\ exists p, panel_of_step t 1 0 p) /\
  exists t sp p r, has_run gauss_solve prescribed up 1 t /\ step_at t 0 sp /\ step_panels sp = [p] /\ p_ring_vortex p = Some r /\ rv_strength r <> 0.
Proof. exact windy_hypotheses. Qed.
Example C24_solver : SolveSpec gauss_solve.
Proof. exact gauss_solve_spec. Qed.

(** ** C40  Final loads. *)
Theorem C40_static : forall solve, SolveSpec solve -> forall prescribed streamlines up s,
  created up -> finished solve prescribed streamlines up s -> up_max_period up = 0 ->
  forall load final, In (load, final) load_lists ->
  exists sp, step_at s (length (up_steady_problems up) - 1) sp /\
    Forall2 (fun a v => load a = Some v) (sp_airplanes sp) (final (up_final (us_problem s))) /\
    final (up_final_mean (us_problem s)) = [] /\ final (up_final_rms (us_problem s)) = [].
Proof. exact final_loads_static. Qed.
Print Assumptions C40_static.

Theorem C40_periodic : forall solve, SolveSpec solve -> forall prescribed streamlines up s,
  created up -> finished solve prescribed streamlines up s -> up_max_period up <> 0 ->
  forall load final, In (load, final) load_lists ->
  let n := length (up_steady_problems up) in
  let first := Z.to_nat (up_first_averaging_step up) in
  final (up_final (us_problem s)) = [] /\
  (forall k sp, step_at s k sp ->
     length (final (up_final_mean (us_problem s))) = length (sp_airplanes sp) /\
     length (final (up_final_rms (us_problem s))) = length (sp_airplanes sp)) /\
  forall i m r, nth_error (final (up_final_mean (us_problem s))) i = Some m -> nth_error (final (up_final_rms (us_problem s))) i = Some r ->
    exists vs, window s first n i load vs /\ mean_is vs m /\ rms_is vs r /\
      forall coordinate, In coordinate [vx; vy; vz] -> Rabs (coordinate m) <= coordinate r.
Proof. exact final_loads_periodic. Qed.
Print Assumptions C40_periodic.

Example C40_applies : (exists up s, created up /\ finished gauss_solve true false up s /\ up_max_period up = 0) /\
  exists up s, created up /\ finished gauss_solve false true up s /\ up_max_period up <> 0.
Proof. exact windy_periods. Qed.

(** ** C41  Wake sizes. *)
Theorem C41_sizes : forall solve, SolveSpec solve -> forall prescribed up n s k i w,
  created up -> has_run solve prescribed up n s -> wing_at s k i w ->
  ((k <= n)%nat -> grid k (w_num_spanwise_panels w) (w_wake_rings w) /\
     match k with O => w_wake_vertices w = [] | S _ => grid (S k) (S (w_num_spanwise_panels w)) (w_wake_vertices w) end) /\
  ((n < k)%nat -> w_wake_rings w = [] /\ w_wake_vertices w = []).
Proof. exact wake_sizes. Qed.
Print Assumptions C41_sizes.

Theorem C41_arrays : forall solve, SolveSpec solve -> forall prescribed up n s k sp,
  created up -> has_run solve prescribed up n s -> step_at s k sp ->
  let size := (k * list_sum (map w_num_spanwise_panels (step_wings sp)))%nat in
  nth_error (us_num_wake s) k = Some size /\
  exists wk, nth_error (us_wakes s) k = Some wk /\
    length (wk_strengths wk) = size /\ length (wk_ages wk) = size /\ length (wk_front_right wk) = size /\
    length (wk_front_left wk) = size /\ length (wk_back_left wk) = size /\ length (wk_back_right wk) = size.
Proof. exact wake_arrays_sizes. Qed.
Print Assumptions C41_arrays.

(** No entry is left unset: the record of a step that was run is that of its wake. *)
Theorem C41_filled : forall solve, SolveSpec solve -> forall prescribed up n s k,
  created up -> has_run solve prescribed up n s -> (k < n)%nat ->
  exists grids, wake_is s k grids /\ nth_error (us_wakes s) k = Some (record_of (concat (map (@concat ring_vortex) grids))).
Proof. exact wake_recorded. Qed.
Print Assumptions C41_filled.

(** Nothing overruns: a run succeeds unless a step's linear system cannot be solved. *)
Theorem C41_runs : forall solve, SolveSpec solve -> forall prescribed up streamlines s0,
  created up -> unsteady_new up = Ok s0 ->
  (exists s, unsteady_run solve prescribed streamlines s0 = Ok s) \/
  exists k s sp A b e, after solve prescribed up k s /\ step_at s k sp /\ influence_matrix sp A /\ length b = length A /\ solve A b = Err e /\
    unsteady_run solve prescribed streamlines s0 = Err e.
Proof. exact run_outcome. Qed.
Print Assumptions C41_runs.

Example C41_applies : forall prescribed, exists up s w grids, created up /\ has_run gauss_solve prescribed up 3 s /\ wing_at s 2 0 w /\
  wake_is s 2 grids /\ (exists ring g, nth_error grids 0 = Some g /\ entry g 1 0 ring) /\ (exists id, entry (w_wake_rings w) 1 0 id) /\
  (exists v, entry (w_wake_vertices w) 2 0 v) /\ exists p, nth_error (trailing_panels w) 0 = Some p.
Proof. exact windy_grids. Qed.

(** ** C42  Prescribed wake convection.  The oldest row of vertices (r = k) starts at
    the trailing edge of step 1, as step 0 has no wake vertices. *)
Theorem C42_prescribed : forall solve, SolveSpec solve -> forall up n s,
  created up -> has_run solve true up n s -> forall k i w r c v, (0 < k <= n)%nat -> wing_at s k i w ->
  entry (w_wake_vertices w) r c v ->
  (r <= k)%nat /\ exists w' v0, wing_at s (Nat.max 1 (k - r)) i w' /\ nth_error (trailing_vertices w') c = Some v0 /\
    v = vadd v0 (vscale (up_delta_time up) (swept s (k - r) k)).
Proof. exact prescribed_vertices. Qed.
Print Assumptions C42_prescribed.

(** One step, for prescribed and free wakes: the free wake moves with the velocity
    the solver reports after the step. *)
Theorem C42_one_step : forall solve, SolveSpec solve -> forall prescribed up n s k i t w,
  created up -> has_run solve prescribed up n s -> (k < n)%nat -> wing_at s k i t -> wing_at s (S k) i w ->
  nth_error (w_wake_vertices w) 0 = Some (trailing_vertices w) /\
  exists sk, after solve prescribed up (S k) sk /\
  forall r c v, entry (w_wake_vertices w) (S r) c v ->
  exists v0 u, (match k with O => entry [trailing_vertices w] r c v0 | S _ => entry (w_wake_vertices t) r c v0 end) /\
    unsteady_solution_velocity sk [v0] = Ok [u] /\
    v = vadd v0 (vscale (up_delta_time up) (if prescribed then freestream_at s k else u)).
Proof. exact wake_moves. Qed.
Print Assumptions C42_one_step.

(** ** C43  Wake strengths and ages.  [wake_is] says that ring (r, c) of step [k] has
    the age [r delta_time] and the strength of the trailing edge panel in column [c]
    at step [k - 1 - r]. *)
Theorem C43_recorded : forall solve, SolveSpec solve -> forall prescribed up n s k,
  created up -> has_run solve prescribed up n s -> (k < n)%nat ->
  exists grids, wake_is s k grids /\ nth_error (us_wakes s) k = Some (record_of (concat (map (@concat ring_vortex) grids))).
Proof. exact wake_recorded. Qed.
Print Assumptions C43_recorded.

Theorem C43_objects : forall solve, SolveSpec solve -> forall prescribed up n s k sp,
  created up -> has_run solve prescribed up n s -> k = Nat.min n (length (up_steady_problems up) - 1) -> step_at s k sp ->
  exists grids, wake_is s k grids /\ Forall2 (fun w g => S_Unsteady.holds (us_heap s) (w_wake_rings w) g) (step_wings sp) grids.
Proof. exact wake_objects. Qed.
Print Assumptions C43_objects.

(** ** C44  The wake is attached and continuous. *)
Theorem C44_attached : forall solve, SolveSpec solve -> forall prescribed up n s k grids i g w c ring p,
  created up -> has_run solve prescribed up n s -> (k <= n)%nat -> wake_is s k grids -> nth_error grids i = Some g ->
  entry g 0 c ring -> wing_at s k i w -> nth_error (trailing_panels w) c = Some p ->
  rv_front_left ring = back_left_of p /\
  (forall q, nth_error (trailing_panels w) (S c) = Some q -> rv_front_right ring = back_left_of q) /\
  (S c = length (trailing_panels w) -> rv_front_right ring = back_right_of p).
Proof. exact wake_attached. Qed.
Print Assumptions C44_attached.

(** Without spanwise gaps the next panel's back left vertex is the panel's back right one. *)
Theorem C44_attached_right : forall solve, SolveSpec solve -> forall prescribed up n s k i w c p q,
  created up -> has_run solve prescribed up n s -> wing_at s k i w -> spanwise_watertight (w_panels w) ->
  nth_error (trailing_panels w) c = Some p -> nth_error (trailing_panels w) (S c) = Some q -> back_right_of p = back_left_of q.
Proof. exact watertight_trailing. Qed.
Print Assumptions C44_attached_right.

(** With a gap it is not, and the wake leaves the panel's right end: three steps of a wing whose
    flaps end at half its span, for both wake models. *)
Theorem C44_attached_right_refuted : forall only prescribed lines : bool, exists am mv up s g w ring p,
  new_movement [am] calm (Some 3%Z) None None (Some 1) = Ok mv /\ new_unsteady_problem mv only = Ok up /\ finished gauss_solve prescribed lines up s /\
  wake_is s 1 [g] /\ wing_at s 1 0 w /\ entry g 0 2 ring /\ nth_error (trailing_panels w) 2 = Some p /\ rv_front_right ring <> back_right_of p.
Proof. exact wake_gap. Qed.
Print Assumptions C44_attached_right_refuted.

Theorem C44_continuous : forall s k grids i g r c ring,
  wake_is s k grids -> nth_error grids i = Some g -> entry g r c ring ->
  (forall right, entry g r (S c) right -> rv_front_right ring = rv_front_left right /\ rv_back_right ring = rv_back_left right) /\
  (forall behind, entry g (S r) c behind -> rv_back_left ring = rv_front_left behind /\ rv_back_right ring = rv_front_right behind).
Proof. exact wake_continuous. Qed.
Print Assumptions C44_continuous.

(** ** C45  History. *)
Theorem C45_kept : forall solve, SolveSpec solve -> forall prescribed up m n s s' k,
  created up -> has_run solve prescribed up m s -> has_run solve prescribed up n s' -> (k < m)%nat -> (m <= n)%nat ->
  nth_error (us_wakes s') k = nth_error (us_wakes s) k /\ forall sp, step_at s k sp <-> step_at s' k sp.
Proof. exact record_kept. Qed.
Print Assumptions C45_kept.

(** The ring vortex objects of a step are another matter: later steps move, age and
    reuse them. *)
Theorem C45_objects_shared : forall solve, SolveSpec solve -> forall prescribed up n s k i t r c id,
  created up -> has_run solve prescribed up n s -> let last := Nat.min n (length (up_steady_problems up) - 1) in (k <= last)%nat ->
  wing_at s k i t -> entry (w_wake_rings t) r c id ->
  exists ring, nth_error (us_heap s) id = Some ring /\ wake_ring s last i (r + (last - k)) c ring.
Proof. exact objects_shared. Qed.
Print Assumptions C45_objects_shared.

Theorem C45_objects_kept_refuted : exists up s w id ring wk, created up /\ finished gauss_solve false true up s /\
  wing_at s 1 0 w /\ w_wake_rings w = [[id]] /\ nth_error (us_heap s) id = Some ring /\
  nth_error (us_wakes s) 1 = Some wk /\ wk_ages wk = [0] /\ rv_age ring <> 0.
Proof. exact wake_objects_age. Qed.
Print Assumptions C45_objects_kept_refuted.

(** ** C54  Apparent velocities. *)
Theorem C54_apparent : forall solve, SolveSpec solve -> forall prescribed up n s method point,
  created up -> has_run solve prescribed up (S n) s -> up_delta_time up <> 0 -> In (method, point) flapping_methods ->
  exists vs sp, method s = Ok vs /\ step_at s n sp /\ length vs = length (step_panels sp) /\
    forall i v, nth_error vs i = Some v -> apparent_velocity point s n i v.
Proof. exact apparent_velocities. Qed.
Print Assumptions C54_apparent.

Theorem C54_first_step : forall solve, SolveSpec solve -> forall prescribed up s method point,
  created up -> has_run solve prescribed up 1 s -> In (method, point) flapping_methods ->
  exists vs sp, method s = Ok vs /\ step_at s 0 sp /\ length vs = length (step_panels sp) /\ forall v, In v vs -> v = vzero.
Proof. exact first_apparent_velocities. Qed.
Print Assumptions C54_first_step.

(** Two consecutive snapshots that agree. *)
Theorem C54_same_snapshots : forall solve, SolveSpec solve -> forall prescribed up k s a b method point,
  created up -> has_run solve prescribed up (S (S k)) s -> up_delta_time up <> 0 ->
  nth_error (up_steady_problems up) k = Some a -> nth_error (up_steady_problems up) (S k) = Some b -> sp_airplanes b = sp_airplanes a ->
  freestream_velocity (sp_operating_point b) = freestream_velocity (sp_operating_point a) -> In (method, point) flapping_methods ->
  exists vs sp, method s = Ok vs /\ step_at s (S k) sp /\ length vs = length (step_panels sp) /\ forall v, In v vs -> v = vzero.
Proof. exact still_everywhere. Qed.
Print Assumptions C54_same_snapshots.

(** Every snapshot of a movement that moves nothing is the same. *)
Theorem C54_snapshots : forall ams om num_steps num_cycles num_chords delta_time m only up i j a b,
  new_movement ams om num_steps num_cycles num_chords delta_time = Ok m -> new_unsteady_problem m only = Ok up ->
  Forall airplane_unmoving ams -> nth_error (up_steady_problems up) i = Some a -> nth_error (up_steady_problems up) j = Some b ->
  sp_airplanes a = sp_airplanes b /\ (unmoving (om_velocity om) -> a = b).
Proof. exact static_snapshots. Qed.
Print Assumptions C54_snapshots.

Theorem C54_static : forall solve, SolveSpec solve -> forall prescribed ams om num_steps num_cycles num_chords delta_time m only up n s method point,
  new_movement ams om num_steps num_cycles num_chords delta_time = Ok m -> new_unsteady_problem m only = Ok up ->
  Forall airplane_unmoving ams -> unmoving (om_velocity om) -> has_run solve prescribed up (S n) s -> up_delta_time up <> 0 ->
  In (method, point) flapping_methods ->
  exists vs sp, method s = Ok vs /\ step_at s n sp /\ length vs = length (step_panels sp) /\ forall v, In v vs -> v = vzero.
Proof. exact static_flapping. Qed.
Print Assumptions C54_static.

Theorem C54_no_periods : forall solve, SolveSpec solve -> forall prescribed ams om num_steps num_cycles num_chords delta_time m only up n s method point,
  new_movement ams om num_steps num_cycles num_chords delta_time = Ok m -> new_unsteady_problem m only = Ok up ->
  (forall p, In p (all_periods ams om) -> p = 0) -> has_run solve prescribed up (S n) s -> up_delta_time up <> 0 ->
  In (method, point) flapping_methods ->
  exists vs sp, method s = Ok vs /\ step_at s n sp /\ length vs = length (step_panels sp) /\ forall v, In v vs -> v = vzero.
Proof. exact periodless_flapping. Qed.
Print Assumptions C54_no_periods.

(** A still wing in a changing wind: zero at collocation points and front legs, but
    not at the side legs of trailing edge panels, whose rings reach a quarter of a
    step's drift downstream. *)
Theorem C54_still_wing : forall solve, SolveSpec solve -> forall prescribed up k s a b method point,
  created up -> has_run solve prescribed up (S (S k)) s -> up_delta_time up <> 0 ->
  nth_error (up_steady_problems up) k = Some a -> nth_error (up_steady_problems up) (S k) = Some b -> sp_airplanes b = sp_airplanes a ->
  In (method, point) [(flapping_at_collocation_points, p_collocation_point); (flapping_at_front_leg_centers, front_center)] ->
  exists vs sp, method s = Ok vs /\ step_at s (S k) sp /\ length vs = length (step_panels sp) /\ forall v, In v vs -> v = vzero.
Proof. exact still_points. Qed.
Print Assumptions C54_still_wing.

Theorem C54_still_wing_legs : forall solve, SolveSpec solve -> forall prescribed up k s a b method point,
  created up -> has_run solve prescribed up (S (S k)) s -> up_delta_time up <> 0 ->
  nth_error (up_steady_problems up) k = Some a -> nth_error (up_steady_problems up) (S k) = Some b -> sp_airplanes b = sp_airplanes a ->
  In (method, point) [(flapping_at_right_leg_centers, right_center); (flapping_at_left_leg_centers, left_center)] ->
  exists vs sp, method s = Ok vs /\ step_at s (S k) sp /\
    Forall2 (fun p v => v = if p_is_trailing_edge p then vscale (/ 8) (vsub (freestream_velocity (sp_operating_point a)) (freestream_velocity (sp_operating_point b))) else vzero)
      (step_panels sp) vs.
Proof. exact still_legs. Qed.
Print Assumptions C54_still_wing_legs.

Theorem C54_still_wing_legs_refuted : exists up s a b vs v, created up /\ has_run gauss_solve false up 2 s /\ up_delta_time up <> 0 /\
  nth_error (up_steady_problems up) 0 = Some a /\ nth_error (up_steady_problems up) 1 = Some b /\ sp_airplanes b = sp_airplanes a /\
  flapping_at_right_leg_centers s = Ok vs /\ In v vs /\ v <> vzero.
Proof. exact gust_moves_legs. Qed.
Print Assumptions C54_still_wing_legs_refuted.

Example C54_applies : exists ams om m up s, new_movement ams om (Some 3%Z) None None (Some 1) = Ok m /\ new_unsteady_problem m false = Ok up /\
  Forall airplane_unmoving ams /\ unmoving (om_velocity om) /\ has_run gauss_solve false up 3 s /\ up_delta_time up <> 0.
Proof. exact windy_still. Qed.

(** ** C56  A run leaves the geometry alone and places the bound vortices. *)
Theorem C56_geometry_kept : forall solve, SolveSpec solve -> forall prescribed up n s,
  created up -> has_run solve prescribed up n s -> Forall2 kept_step (up_steady_problems up) (up_steady_problems (us_problem s)).
Proof. exact steps_kept. Qed.
Print Assumptions C56_geometry_kept.

Theorem C56_bound_rings : forall solve, SolveSpec solve -> forall prescribed up n s k i w c j p,
  created up -> has_run solve prescribed up n s -> wing_at s k i w -> at_position (w_panels w) c j p ->
  exists r, p_ring_vortex p = Some r /\ bound_ring (drift_at s k) (w_panels w) c j p r.
Proof. exact bound_rings. Qed.
Print Assumptions C56_bound_rings.
