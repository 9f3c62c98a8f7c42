(** Property theorems C79 (small changes of the input). *)
From Coq Require Import List Reals.
From Verif Require Import M_Loads M_Horseshoe M_SteadyRing S_Solve S_Loads S_Mirror S_Solvable S_Size S_Continuous
  L_Gauss L_ContinuousExample.
Import ListNotations.
Local Open Scope R_scope.

(** ** C79  Small changes of the input change the results of the steady solvers only a little: if
    a case can be solved, then so can all cases close enough to it, and as cases come closer to it (in the flow
    and in the corners of the panels), so do vortex strengths, loads, coefficients and velocities -
    unless the solver uses a point exactly on the edge of where a vortex is cut off. *)
Theorem C79_horseshoe : forall solve ops op cases airplanes s, SolveSpec solve ->
  approaching_op ops op -> approaching cases airplanes -> (forall p, In p (panels_of airplanes) -> p_area p <> 0) ->
  (forall p x, In p (panels_of airplanes) -> In x (horseshoe_points p) -> off_edges (horseshoe_paths op airplanes) x) ->
  hs_run solve (hs_new airplanes op) = Ok s ->
  exists ss N, (forall n, (N <= n)%nat -> hs_run solve (hs_new (cases n) (ops n)) = Ok (ss n)) /\
    each (approaching_solution (dynamic_pressure op) horseshoe_strength) (fun n => hso_airplanes (ss n)) (hso_airplanes s) /\
    forall xs x, vtends xs x -> off_edges (horseshoe_paths op airplanes) x ->
      each vtends (fun n => hs_solution_velocity (ss n) [xs n]) (hs_solution_velocity s [x]).
Proof. exact hs_near. Qed.
Print Assumptions C79_horseshoe.

Theorem C79_ring : forall solve ops op cases airplanes s, SolveSpec solve ->
  approaching_op ops op -> approaching cases airplanes -> (forall p, In p (panels_of airplanes) -> p_area p <> 0) ->
  (forall a, In a airplanes -> well_meshed_airplane a) ->
  (forall x, In x (ring_points (panels_of airplanes) (steady_ring_paths op airplanes)) -> off_edges (steady_ring_paths op airplanes) x) ->
  ring_run solve (ring_new airplanes op) = Ok s ->
  exists ss N, (forall n, (N <= n)%nat -> ring_run solve (ring_new (cases n) (ops n)) = Ok (ss n)) /\
    each (approaching_solution (dynamic_pressure op) ring_strength) (fun n => rso_airplanes (ss n)) (rso_airplanes s) /\
    forall xs x, vtends xs x -> off_edges (steady_ring_paths op airplanes) x ->
      each vtends (fun n => ring_solution_velocity (ss n) [xs n]) (ring_solution_velocity s [x]).
Proof. exact ring_near. Qed.
Print Assumptions C79_ring.

(** Without the condition on the edges the claim is false: plates come closer and closer to one that both
    solvers solve, and none of them can be solved. *)
Theorem C79_edge_refuted : exists ops op cases airplanes s s0, approaching_op ops op /\ approaching cases airplanes /\
  (forall p, In p (panels_of airplanes) -> p_area p <> 0) /\ (forall a, In a airplanes -> well_meshed_airplane a) /\
  hs_run gauss_solve (hs_new airplanes op) = Ok s /\ ring_run gauss_solve (ring_new airplanes op) = Ok s0 /\
  forall solve n, SolveSpec solve ->
    (~ exists s', hs_run solve (hs_new (cases n) (ops n)) = Ok s') /\ (~ exists s', ring_run solve (ring_new (cases n) (ops n)) = Ok s').
Proof. exact jump_example. Qed.
Print Assumptions C79_edge_refuted.

(** A plate, larger plates and faster flows that meet the hypotheses. *)
Example C79_plate : exists ops op cases airplanes, approaching_op ops op /\ approaching cases airplanes /\
  (forall n, op_alpha (ops n) <> op_alpha op) /\ length (panels_of airplanes) = 1%nat /\
  (forall p, In p (panels_of airplanes) -> p_area p <> 0) /\ (forall a, In a airplanes -> well_meshed_airplane a) /\
  (forall p x, In p (panels_of airplanes) -> In x (horseshoe_points p) -> off_edges (horseshoe_paths op airplanes) x) /\
  (forall x, In x (ring_points (panels_of airplanes) (steady_ring_paths op airplanes)) -> off_edges (steady_ring_paths op airplanes) x) /\
  (exists s, hs_run gauss_solve (hs_new airplanes op) = Ok s) /\ (exists s, ring_run gauss_solve (ring_new airplanes op) = Ok s).
Proof. exact near_example. Qed.
