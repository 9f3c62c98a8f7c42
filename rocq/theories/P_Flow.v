(** Properties C72 and C73: the flow between and far from the vortices. *)
From Coq Require Import List Reals.
From Verif Require Import M_Horseshoe M_SteadyRing M_Unsteady S_Solve S_Vortices S_Loads S_Mirror S_Unsteady S_UnsteadyRun S_Solvable S_Size S_Flow
  L_Gauss L_Example L_Flow3 L_FlowSolvers L_FlowUnsteady L_FlowExample.
Import ListNotations.
Local Open Scope R_scope.

(** ** C72  The flow neither makes nor destroys fluid.  [hs_solution_velocity] and its
    kin are the solvers' [calculate_solution_velocity]. *)
Theorem C72_horseshoe : forall solve airplanes op s, SolveSpec solve -> hs_run solve (hs_new airplanes op) = Ok s ->
  exists V, (forall y, hs_solution_velocity s [y] = [V y]) /\
    forall x, (forall v g, In v (horseshoe_paths op airplanes) -> In g v -> off_threshold x g) -> incompressible V x.
Proof. exact hs_incompressible. Qed.
Print Assumptions C72_horseshoe.

Theorem C72_ring : forall solve airplanes op s, SolveSpec solve -> (forall a, In a airplanes -> well_meshed_airplane a) -> ring_run solve (ring_new airplanes op) = Ok s ->
  exists V, (forall y, ring_solution_velocity s [y] = [V y]) /\
    forall x, (forall v g, In v (steady_ring_paths op airplanes) -> In g v -> off_threshold x g) -> incompressible V x.
Proof. exact ring_incompressible. Qed.
Print Assumptions C72_ring.

(** The wake's cores grow with age, and still no fluid is made or lost. *)
Theorem C72_unsteady : forall solve, SolveSpec solve -> forall prescribed up n s, created up -> has_run solve prescribed up (S n) s ->
  exists V sp rs grids, (forall y, unsteady_solution_velocity s [y] = Ok [V y]) /\ step_at s n sp /\
    Forall2 (fun p r => p_ring_vortex p = Some r) (step_panels sp) rs /\ wake_is s n grids /\
    forall x, (forall r g, In r (rs ++ concat (map (@concat ring_vortex) grids)) -> In g (ring_legs r) -> off_threshold x g) -> incompressible V x.
Proof. exact unsteady_incompressible. Qed.
Print Assumptions C72_unsteady.

(** The points left out are thin: every point has others as near as you like that are not left out. *)
Theorem C72_nearby : forall (segments : list (vec * vec)) x e, 0 < e ->
  exists y, vnorm (vsub y x) < e /\ forall s, In s segments -> off_threshold y s.
Proof. exact off_nearby. Qed.
Print Assumptions C72_nearby.

(** A ring vortex without a core, and so the first step of an unsteady run, spins nowhere between the vortices. *)
Theorem C72_ring_vortex : forall br fr fl bl g nu x, (forall s, In s (closed_path br fr fl bl) -> well_clear x s) ->
  exists V, (forall y, collapsed_ring [y] [br] [fr] [fl] [bl] [g] None nu = [V y]) /\ irrotational V x.
Proof. exact quad_irrotational. Qed.
Print Assumptions C72_ring_vortex.

Theorem C72_first_step : forall solve, SolveSpec solve -> forall prescribed up s, created up -> has_run solve prescribed up 1 s ->
  exists V sp rs, (forall y, unsteady_solution_velocity s [y] = Ok [V y]) /\ step_at s 0 sp /\
    Forall2 (fun p r => p_ring_vortex p = Some r) (step_panels sp) rs /\
    forall x, (forall r g, In r rs -> In g (ring_legs r) -> well_clear x g) -> irrotational V x.
Proof. exact first_irrotational. Qed.
Print Assumptions C72_first_step.

(** The steady solvers: a horseshoe vortex is cut off twenty spans behind the wing, and
    each of its two ends leaves a spin everywhere; nothing else does. *)
Theorem C72_horseshoe_curl : forall solve airplanes op s, SolveSpec solve -> hs_run solve (hs_new airplanes op) = Ok s ->
  exists V gs, (forall y, hs_solution_velocity s [y] = [V y]) /\ map horseshoe_strength (panels_of (hso_airplanes s)) = map Some gs /\
    forall x, (forall v g, In v (horseshoe_paths op airplanes) -> In g v -> well_clear x g) ->
    exists J, field_derivative V x J /\ curl J = vsum (map2 (fun v g => vsub (spin x g (start v)) (spin x g (finish v))) (horseshoe_paths op airplanes) gs).
Proof. exact hs_curl. Qed.
Print Assumptions C72_horseshoe_curl.

(** The ring solver: the ring itself (the first four segments of a path) leaves none. *)
Theorem C72_ring_curl : forall solve airplanes op s, SolveSpec solve -> (forall a, In a airplanes -> well_meshed_airplane a) -> ring_run solve (ring_new airplanes op) = Ok s ->
  exists V gs, (forall y, ring_solution_velocity s [y] = [V y]) /\ map ring_strength (panels_of (rso_airplanes s)) = map Some gs /\
    forall x, (forall v g, In v (steady_ring_paths op airplanes) -> In g v -> well_clear x g) ->
    exists J, field_derivative V x J /\
      curl J = vsum (map2 (fun v g => vsub (spin x g (start (skipn 4 v))) (spin x g (finish (skipn 4 v)))) (steady_ring_paths op airplanes) gs).
Proof. exact ring_curl. Qed.
Print Assumptions C72_ring_curl.

(** So the flow between the vortices of the steady solvers is not irrotational. *)
Theorem C72_irrotational_refuted : forall solve, SolveSpec solve -> exists airplanes op s V x,
  hs_run solve (hs_new airplanes op) = Ok s /\ (forall y, hs_solution_velocity s [y] = [V y]) /\
  (forall v g, In v (horseshoe_paths op airplanes) -> In g v -> well_clear x g) /\ ~ irrotational V x.
Proof. exact flow_spins. Qed.
Print Assumptions C72_irrotational_refuted.

Theorem C72_ring_irrotational_refuted : forall solve, SolveSpec solve -> exists airplanes op s V x,
  ring_run solve (ring_new airplanes op) = Ok s /\ (forall y, ring_solution_velocity s [y] = [V y]) /\
  (forall v g, In v (steady_ring_paths op airplanes) -> In g v -> well_clear x g) /\ ~ irrotational V x.
Proof. exact ring_flow_spins. Qed.
Print Assumptions C72_ring_irrotational_refuted.

(** A plate at 30 degrees; for the runs themselves see the two refutations above, and for later steps with a wake C24_applies. *)
Example C72_applies : well_meshed_airplane (ex_airplane false) /\
  (forall v g, In v (horseshoe_paths (ex_op 1 10) [ex_airplane false]) -> In g v -> well_clear half_way g) /\
  (forall v g, In v (steady_ring_paths (ex_op 1 10) [ex_airplane false]) -> In g v -> well_clear half_way g) /\
  (forall x g, well_clear x g -> off_threshold x g).
Proof. exact (conj (ex_well_meshed false) (conj plate_clear (conj plate_ring_clear well_clear_off))). Qed.
Example C72_first_step_applies : forall prescribed, exists up s sp rs x, created up /\ has_run gauss_solve prescribed up 1 s /\ step_at s 0 sp /\
  Forall2 (fun p r => p_ring_vortex p = Some r) (step_panels sp) rs /\ length rs = 1%nat /\ forall r g, In r rs -> In g (ring_legs r) -> well_clear x g.
Proof. exact plate_first_step. Qed.

(** ** C73  Far away the flow is the free stream. *)
Theorem C73_segment : forall y a b g age nu, 0 < vnorm y -> 2 * (vnorm a + vnorm b) <= vnorm y ->
  vnorm (line_velocity y a b g age nu) <= 2 * Rabs g * vnorm (vsub b a) / (PI * vnorm y ^ 2).
Proof. exact far_line. Qed.
Print Assumptions C73_segment.

Theorem C73_horseshoe : forall solve airplanes op s, SolveSpec solve -> hs_run solve (hs_new airplanes op) = Ok s ->
  exists V, (forall y, hs_solution_velocity s [y] = [V y]) /\ settles V (freestream_velocity op).
Proof. exact hs_settles. Qed.
Print Assumptions C73_horseshoe.

Theorem C73_ring : forall solve airplanes op s, SolveSpec solve -> (forall a, In a airplanes -> well_meshed_airplane a) -> ring_run solve (ring_new airplanes op) = Ok s ->
  exists V, (forall y, ring_solution_velocity s [y] = [V y]) /\ settles V (freestream_velocity op).
Proof. exact ring_settles. Qed.
Print Assumptions C73_ring.

Theorem C73_unsteady : forall solve, SolveSpec solve -> forall prescribed up n s, created up -> has_run solve prescribed up (S n) s ->
  exists V sp, (forall y, unsteady_solution_velocity s [y] = Ok [V y]) /\ step_at s n sp /\ settles V (freestream_velocity (sp_operating_point sp)).
Proof. exact unsteady_settles. Qed.
Print Assumptions C73_unsteady.

Example C73_applies : (exists A s, 0 < A /\ hs_run gauss_solve (hs_new [ex_airplane false] (ex_op 1 10)) = Ok s /\ hso_strengths s = [- (10 / 2) / A]) /\
  (exists A s, 0 < A /\ A = ex_Q + ex_H (freestream_direction (ex_op 1 10)) /\ ring_run gauss_solve (ring_new [ex_airplane false] (ex_op 1 10)) = Ok s /\ rso_strengths s = [- (10 / 2) / A]).
Proof. exact (conj (ex_horseshoe_run gauss_solve 1 10 gauss_solve_spec) (ex_ring_first gauss_solve 1 10 gauss_solve_spec)). Qed.
