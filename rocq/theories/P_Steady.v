(** Property theorems C22, C23, C27, C28, C30, C31 (the two steady solvers).
    [SolveSpec solve] says what np.linalg.solve does on exact reals; it is met
    by Gaussian elimination ([solve_exists]). *)
From Coq Require Import Lra.
From Verif Require Import M_Loads M_Horseshoe M_SteadyRing S_Geometry S_Vortices S_Solve S_Loads
  L_Base L_Rotations L_Loads L_Horseshoe L_SteadyRing L_RingLegs L_Gauss L_Example L_Example2 L_Frames L_Scaling L_Rerun L_Tighten.

Example solve_exists : exists solve, SolveSpec solve.
Proof. exists gauss_solve. exact gauss_solve_spec. Qed.

(** ** C22  No flow through the panels after the horseshoe solver. *)
Theorem C22_horseshoe_no_penetration : forall solve s s', SolveSpec solve -> hs_run solve s = Ok s' ->
  forall p, In p (all_panels (hso_airplanes s')) ->
  exists u, hs_solution_velocity s' [p_collocation_point p] = [u] /\ vdot u (p_unit_normal p) = 0.
Proof. exact horseshoe_no_penetration. Qed.
Print Assumptions C22_horseshoe_no_penetration.

(** The run succeeds exactly when the linear solve does, and it keeps the
    airplanes' geometry. *)
Theorem C22_horseshoe_succeeds_iff : forall solve s, SolveSpec solve ->
  let rows := hs_rows_of (hso_op s) (hso_airplanes s) in
  ((exists s', hs_run solve s = Ok s') <->
   exists xs, solve (hs_influences rows) (map Ropp (freestream_influences (map hr_normal rows) (hso_freestream s))) = Ok xs).
Proof. exact hs_run_succeeds_iff. Qed.
Print Assumptions C22_horseshoe_succeeds_iff.

Theorem C22_horseshoe_keeps_geometry : forall solve s s', hs_run solve s = Ok s' ->
  Forall2 same_airplane (hso_airplanes s) (hso_airplanes s').
Proof. exact hs_run_same. Qed.
Print Assumptions C22_horseshoe_keeps_geometry.

Example C22_solved : exists A s', 0 < A /\
  hs_run gauss_solve (hs_new [ex_airplane false] (ex_op 1 10)) = Ok s' /\ hso_strengths s' = [- (10 / 2) / A].
Proof. exact (ex_horseshoe_run gauss_solve 1 10 gauss_solve_spec). Qed.

(** ** C23  No flow through the panels after the first run of the ring solver.
    [fresh_ring] holds of a newly constructed solver. *)
Theorem C23_ring_no_penetration : forall solve s s', SolveSpec solve -> fresh_ring s -> ring_run solve s = Ok s' ->
  forall p, In p (all_panels (rso_airplanes s')) ->
  exists u, ring_solution_velocity s' [p_collocation_point p] = [u] /\ vdot u (p_unit_normal p) = 0.
Proof. exact ring_no_penetration. Qed.
Print Assumptions C23_ring_no_penetration.

Theorem C23_new_solver_is_fresh : forall airplanes op,
  (forall a, In a airplanes -> a_num_panels a = length (airplane_panels a)) -> fresh_ring (ring_new airplanes op).
Proof. exact ring_new_fresh. Qed.
Print Assumptions C23_new_solver_is_fresh.

(** On well meshed wings the run fails only in the linear solve. *)
Theorem C23_ring_succeeds_with_solve : forall solve s, SolveSpec solve -> sized_ring s ->
  (forall a w, In a (rso_airplanes s) -> In w (a_wings a) -> well_meshed (w_panels w)) ->
  exists airplanes0 rows,
    ring_init (rso_op s) (rso_airplanes s) = Ok airplanes0 /\ ring_collapse airplanes0 = Ok rows /\
    forall xs,
    solve (ring_influences rows (rso_strengths s) (ring_collapse_hs_strengths rows (rso_hs_strengths s)))
          (map Ropp (freestream_influences (map rr_normal rows) (rso_freestream s))) = Ok xs ->
    exists s', ring_run solve s = Ok s' /\ rso_strengths s' = xs.
Proof. exact ring_run_total. Qed.
Print Assumptions C23_ring_succeeds_with_solve.

Theorem C23_ring_keeps_geometry : forall solve s s', ring_run solve s = Ok s' ->
  Forall2 same_airplane (rso_airplanes s) (rso_airplanes s').
Proof. exact ring_run_same. Qed.
Print Assumptions C23_ring_keeps_geometry.

(** Every trailing-edge panel sheds a horseshoe vortex of its ring's strength,
    from the ring's back leg straight along the freestream, twenty spans long. *)
Theorem C23_trailing_horseshoes : forall solve s s' a w p,
  ring_run solve s = Ok s' -> In a (rso_airplanes s') -> In w (a_wings a) -> In p (concat (w_panels w)) ->
  p_is_trailing_edge p = true ->
  exists r h, p_ring_vortex p = Some r /\ p_horseshoe_vortex p = Some h /\
    hs_strength h = rv_strength r /\ horseshoe_consistent h /\
    hs_finite_leg_origin h = rv_back_right r /\ hs_finite_leg_termination h = rv_back_left r /\
    hs_infinite_leg_direction h = freestream_direction (rso_op s) /\ hs_infinite_leg_length h = w_span w * 20.
Proof. exact ring_trailing_horseshoes. Qed.
Print Assumptions C23_trailing_horseshoes.

Example C23_solved : exists s' p q x1 x2,
  fresh_ring (ring_new [ex2_airplane] (ex2_op 1 10)) /\
  ring_run gauss_solve (ring_new [ex2_airplane] (ex2_op 1 10)) = Ok s' /\
  rso_strengths s' = [x1; x2] /\ rso_rows s' = [ex2_ring_row 0 1 p; ex2_ring_row 1 3 q] /\ 0 < x1 * x2.
Proof.
  destruct (ex2_run gauss_solve 1 10 gauss_solve_spec) as (s' & p & q & x1 & x2 & H1 & H2 & H3 & H4 & _); [lra|].
  exists s', p, q, x1, x2. split; [apply ex2_fresh|]. auto.
Qed.

(** ** C27  Kutta-Joukowski loads. *)
Theorem C27_horseshoe_kutta_joukowski : forall solve s s', SolveSpec solve -> hs_run solve s = Ok s' ->
  forall a p, In a (hso_airplanes s') -> In p (airplane_panels a) ->
  exists h v f,
    p_horseshoe_vortex p = Some h /\ horseshoe_consistent h /\
    hs_finite_leg_origin h = p_front_right_vortex_vertex p /\
    hs_finite_leg_termination h = p_front_left_vortex_vertex p /\
    hs_solution_velocity s' [lv_center (hs_finite_leg h)] = [v] /\
    f = vscale (op_density (hso_op s') * hs_strength h) (vcross v (lv_vector (hs_finite_leg h))) /\
    p_force_geometry p = Some f /\
    p_moment_geometry p = Some (vcross (vsub (lv_center (hs_finite_leg h)) (a_xyz_ref a)) f) /\
    vdot f v = 0 /\ vdot f (lv_vector (hs_finite_leg h)) = 0.
Proof. exact horseshoe_kutta_joukowski. Qed.
Print Assumptions C27_horseshoe_kutta_joukowski.

(** In the ring solver the leg shared by two panels carries the difference of
    their circulations ([net_right], [net_front], [net_left]). *)
Theorem C27_ring_kutta_joukowski : forall solve s s', SolveSpec solve -> sized_ring s ->
  (forall a w, In a (rso_airplanes s) -> In w (a_wings a) -> well_meshed (w_panels w)) ->
  ring_run solve s = Ok s' ->
  forall a w c j p, In a (rso_airplanes s') -> In w (a_wings a) -> at_position (w_panels w) c j p ->
  exists r vr vf vl,
    p_ring_vortex p = Some r /\ ring_consistent r /\
    ring_solution_velocity s' [lv_center (rv_right_leg r)] = [vr] /\
    ring_solution_velocity s' [lv_center (rv_front_leg r)] = [vf] /\
    ring_solution_velocity s' [lv_center (rv_left_leg r)] = [vl] /\
    let rho := op_density (rso_op s') in
    let fr := vscale (rho * net_right (w_panels w) c j) (vcross vr (lv_vector (rv_right_leg r))) in
    let ff := vscale (rho * net_front (w_panels w) c j) (vcross vf (lv_vector (rv_front_leg r))) in
    let fl := vscale (rho * net_left (w_panels w) c j) (vcross vl (lv_vector (rv_left_leg r))) in
    p_force_geometry p = Some (vadd (vadd ff fl) fr) /\
    p_moment_geometry p =
      Some (vadd (vadd (vcross (vsub (lv_center (rv_front_leg r)) (a_xyz_ref a)) ff)
                       (vcross (vsub (lv_center (rv_left_leg r)) (a_xyz_ref a)) fl))
                 (vcross (vsub (lv_center (rv_right_leg r)) (a_xyz_ref a)) fr)) /\
    vdot fr vr = 0 /\ vdot fr (lv_vector (rv_right_leg r)) = 0 /\
    vdot ff vf = 0 /\ vdot ff (lv_vector (rv_front_leg r)) = 0 /\
    vdot fl vl = 0 /\ vdot fl (lv_vector (rv_left_leg r)) = 0.
Proof. exact ring_kutta_joukowski. Qed.
Print Assumptions C27_ring_kutta_joukowski.

Theorem C27_horseshoe_no_circulation_no_load : forall solve s s', SolveSpec solve -> hs_run solve s = Ok s' ->
  forall a p h, In a (hso_airplanes s') -> In p (airplane_panels a) -> p_horseshoe_vortex p = Some h -> hs_strength h = 0 ->
  p_force_geometry p = Some vzero /\ p_moment_geometry p = Some vzero.
Proof. exact hs_no_load. Qed.
Print Assumptions C27_horseshoe_no_circulation_no_load.

Theorem C27_ring_no_circulation_no_load : forall solve s s', SolveSpec solve -> sized_ring s ->
  (forall a w, In a (rso_airplanes s) -> In w (a_wings a) -> well_meshed (w_panels w)) ->
  ring_run solve s = Ok s' ->
  forall a w c j p, In a (rso_airplanes s') -> In w (a_wings a) -> at_position (w_panels w) c j p ->
  net_right (w_panels w) c j = 0 -> net_front (w_panels w) c j = 0 -> net_left (w_panels w) c j = 0 ->
  p_force_geometry p = Some vzero /\ p_moment_geometry p = Some vzero.
Proof. exact ring_no_load. Qed.
Print Assumptions C27_ring_no_circulation_no_load.

Example C27_well_meshed_wing : sized_ring (ring_new [ex2_airplane] (ex2_op 1 10)) /\
  forall a w, In a [ex2_airplane] -> In w (a_wings a) -> well_meshed (w_panels w).
Proof. split; [apply fresh_sized, ex2_fresh | exact ex2_meshed]. Qed.

(** ** C28  Speed and density at fixed angles: strengths scale with speed,
    loads with dynamic pressure, coefficients do not change.  A run at one
    speed succeeds whenever the run at the other does. *)
Theorem C28_horseshoe_speed_and_density : forall solve airplanes op op' k r s, SolveSpec solve -> same_angles op op' ->
  op_velocity op' = k * op_velocity op -> op_density op' = r * op_density op ->
  op_velocity op <> 0 -> op_density op <> 0 -> k <> 0 -> r <> 0 ->
  hs_run solve (hs_new airplanes op) = Ok s ->
  exists s', hs_run solve (hs_new airplanes op') = Ok s' /\
    hso_strengths s' = map (Rmult k) (hso_strengths s) /\
    (forall x v, hs_solution_velocity s [x] = [v] -> hs_solution_velocity s' [x] = [vscale k v]) /\
    Forall2 (scaled_airplane (r * (k * k))) (hso_airplanes s) (hso_airplanes s').
Proof. exact hs_scaled. Qed.
Print Assumptions C28_horseshoe_speed_and_density.

Theorem C28_ring_speed_and_density : forall solve airplanes op op' k r s, SolveSpec solve ->
  (forall a, In a airplanes -> well_meshed_airplane a) -> same_angles op op' ->
  op_velocity op' = k * op_velocity op -> op_density op' = r * op_density op ->
  op_velocity op <> 0 -> op_density op <> 0 -> k <> 0 -> r <> 0 ->
  ring_run solve (ring_new airplanes op) = Ok s ->
  exists s', ring_run solve (ring_new airplanes op') = Ok s' /\
    rso_strengths s' = map (Rmult k) (rso_strengths s) /\
    (forall x v, ring_solution_velocity s [x] = [v] -> ring_solution_velocity s' [x] = [vscale k v]) /\
    Forall2 (scaled_airplane (r * (k * k))) (rso_airplanes s) (rso_airplanes s').
Proof. exact ring_scaled_run. Qed.
Print Assumptions C28_ring_speed_and_density.

Example C28_two_speeds : same_angles (ex2_op 1 10) (ex2_op 2 30) /\
  op_velocity (ex2_op 2 30) = 3 * op_velocity (ex2_op 1 10) /\ op_density (ex2_op 2 30) = 2 * op_density (ex2_op 1 10).
Proof. cbn. repeat split; lra. Qed.

(** ** C30  Running again.  The horseshoe solver reproduces strengths, loads and
    velocities, but appends its streamline seeds a second time. *)
Theorem C30_horseshoe_rerun : forall solve s s1, SolveSpec solve -> hs_run solve s = Ok s1 ->
  exists s2, hs_run solve s1 = Ok s2 /\
    hso_strengths s2 = hso_strengths s1 /\ hso_airplanes s2 = hso_airplanes s1 /\
    (forall points, hs_solution_velocity s2 points = hs_solution_velocity s1 points) /\
    exists fresh, hso_seed_points s1 = hso_seed_points s ++ fresh /\ hso_seed_points s2 = hso_seed_points s1 ++ fresh.
Proof. exact hs_rerun. Qed.
Print Assumptions C30_horseshoe_rerun.

Theorem C30_horseshoe_seeds_refuted : forall solve, SolveSpec solve ->
  exists airplanes op s1 s2, hs_run solve (hs_new airplanes op) = Ok s1 /\ hs_run solve s1 = Ok s2 /\
    hso_seed_points s2 <> hso_seed_points s1 /\ length (hso_seed_points s2) = (2 * length (hso_seed_points s1))%nat.
Proof. exact hs_rerun_seeds. Qed.
Print Assumptions C30_horseshoe_seeds_refuted.

(** The ring solver does not even reproduce its strengths. *)
Theorem C30_ring_rerun_refuted : forall solve, SolveSpec solve ->
  exists airplanes op s1 s2, fresh_ring (ring_new airplanes op) /\
    (forall a, In a airplanes -> well_meshed_airplane a) /\
    ring_run solve (ring_new airplanes op) = Ok s1 /\ ring_run solve s1 = Ok s2 /\
    rso_strengths s2 <> rso_strengths s1.
Proof. exact ring_rerun_differs. Qed.
Print Assumptions C30_ring_rerun_refuted.

(** ** C31  Legs shared by spanwise neighbours.  On every watertight wing the
    full force of the shared leg is added to both panels, so the total counts
    it twice; and there is a wing on which it is not zero. *)
Theorem C31_shared_leg_in_both_panels : forall solve s s', SolveSpec solve -> sized_ring s ->
  (forall a w, In a (rso_airplanes s) -> In w (a_wings a) -> well_meshed (w_panels w) /\ spanwise_watertight (w_panels w)) ->
  ring_run solve s = Ok s' ->
  forall a w c j p q, In a (rso_airplanes s') -> In w (a_wings a) ->
  at_position (w_panels w) c j p -> at_position (w_panels w) c (S j) q ->
  exists r r' v vp up vq uq,
    p_ring_vortex p = Some r /\ p_ring_vortex q = Some r' /\
    rv_front_right r = rv_front_left r' /\ rv_back_right r = rv_back_left r' /\
    ring_solution_velocity s' [lv_center (rv_right_leg r)] = [v] /\
    ring_solution_velocity s' [lv_center (rv_front_leg r)] = [vp] /\
    ring_solution_velocity s' [lv_center (rv_left_leg r)] = [up] /\
    ring_solution_velocity s' [lv_center (rv_front_leg r')] = [vq] /\
    ring_solution_velocity s' [lv_center (rv_right_leg r')] = [uq] /\
    let rho := op_density (rso_op s') in
    let shared := vscale (rho * (rv_strength r - rv_strength r')) (vcross v (lv_vector (rv_right_leg r))) in
    p_force_geometry p =
      Some (vadd (vadd (vscale (rho * net_front (w_panels w) c j) (vcross vp (lv_vector (rv_front_leg r))))
                       (vscale (rho * net_left (w_panels w) c j) (vcross up (lv_vector (rv_left_leg r))))) shared) /\
    p_force_geometry q =
      Some (vadd (vadd (vscale (rho * net_front (w_panels w) c (S j)) (vcross vq (lv_vector (rv_front_leg r'))))
                       (vscale (rho * net_right (w_panels w) c (S j)) (vcross uq (lv_vector (rv_right_leg r'))))) shared).
Proof. exact ring_shared_leg_twice. Qed.
Print Assumptions C31_shared_leg_in_both_panels.

Theorem C31_shared_leg_once_refuted : forall solve, SolveSpec solve ->
  exists airplanes op s' a w p q r r' v vp up vq uq fp fq,
    (forall b, In b airplanes -> well_meshed_airplane b /\ forall u, In u (a_wings b) -> spanwise_watertight (w_panels u)) /\
    ring_run solve (ring_new airplanes op) = Ok s' /\
    rso_airplanes s' = [a] /\ a_wings a = [w] /\ w_panels w = [[p; q]] /\
    p_ring_vortex p = Some r /\ p_ring_vortex q = Some r' /\
    rv_front_right r = rv_front_left r' /\ rv_back_right r = rv_back_left r' /\
    ring_solution_velocity s' [lv_center (rv_right_leg r)] = [v] /\
    ring_solution_velocity s' [lv_center (rv_front_leg r)] = [vp] /\
    ring_solution_velocity s' [lv_center (rv_left_leg r)] = [up] /\
    ring_solution_velocity s' [lv_center (rv_front_leg r')] = [vq] /\
    ring_solution_velocity s' [lv_center (rv_right_leg r')] = [uq] /\
    p_force_geometry p = Some fp /\ p_force_geometry q = Some fq /\
    let rho := op_density (rso_op s') in
    let gp := rv_strength r in
    let gq := rv_strength r' in
    let outer_p := vadd (vscale (rho * gp) (vcross vp (lv_vector (rv_front_leg r))))
                        (vscale (rho * gp) (vcross up (lv_vector (rv_left_leg r)))) in
    let outer_q := vadd (vscale (rho * gq) (vcross vq (lv_vector (rv_front_leg r'))))
                        (vscale (rho * gq) (vcross uq (lv_vector (rv_right_leg r')))) in
    let shared := vscale (rho * (gp - gq)) (vcross v (lv_vector (rv_right_leg r))) in
    shared <> vzero /\
    vadd fp fq = vadd (vadd outer_p outer_q) (vadd shared shared) /\
    vadd fp fq <> vadd (vadd outer_p outer_q) shared.
Proof. exact shared_leg_counted_twice. Qed.
Print Assumptions C31_shared_leg_once_refuted.
