(** Property theorems C81 (airplanes far apart). *)
From Coq Require Import List Reals.
From Verif Require Import M_Loads M_Horseshoe M_SteadyRing S_Solve S_Loads S_Mirror S_Solvable S_Continuous S_Apart
  L_Gauss L_ApartExample.
Import ListNotations.
Local Open Scope R_scope.

(** ** C81  Airplanes that are far apart do not influence each other: if each of two groups of airplanes can be
    solved alone, then so can both together once one of them is moved far enough away, in any direction; and as
    it is moved farther and farther away, the strengths, loads and coefficients of every airplane come closer to
    those of its group alone, and the velocities near each group to those of that group alone. *)
Theorem C81_horseshoe : forall solve op near far ts fars s1 s2, SolveSpec solve ->
  receding ts -> (forall n, Forall2 (shifted_airplane (ts n)) far (fars n)) ->
  (forall p, In p (panels_of (near ++ far)) -> p_area p <> 0) ->
  hs_run solve (hs_new near op) = Ok s1 -> hs_run solve (hs_new far op) = Ok s2 ->
  exists ss N, (forall n, (N <= n)%nat -> hs_run solve (hs_new (near ++ fars n) op) = Ok (ss n)) /\
    each_from N (approaching_results (dynamic_pressure op) horseshoe_strength) (fun n => hso_airplanes (ss n)) (hso_airplanes s1 ++ hso_airplanes s2) /\
    (forall x, each_from N vtends (fun n => hs_solution_velocity (ss n) [x]) (hs_solution_velocity s1 [x])) /\
    (forall x, each_from N vtends (fun n => hs_solution_velocity (ss n) [vadd x (ts n)]) (hs_solution_velocity s2 [x])).
Proof. exact hs_distant. Qed.
Print Assumptions C81_horseshoe.

Theorem C81_ring : forall solve op near far ts fars s1 s2, SolveSpec solve ->
  receding ts -> (forall n, Forall2 (shifted_airplane (ts n)) far (fars n)) ->
  (forall p, In p (panels_of (near ++ far)) -> p_area p <> 0) -> (forall n a, In a (near ++ far ++ fars n) -> well_meshed_airplane a) ->
  ring_run solve (ring_new near op) = Ok s1 -> ring_run solve (ring_new far op) = Ok s2 ->
  exists ss N, (forall n, (N <= n)%nat -> ring_run solve (ring_new (near ++ fars n) op) = Ok (ss n)) /\
    each_from N (approaching_results (dynamic_pressure op) ring_strength) (fun n => rso_airplanes (ss n)) (rso_airplanes s1 ++ rso_airplanes s2) /\
    (forall x, each_from N vtends (fun n => ring_solution_velocity (ss n) [x]) (ring_solution_velocity s1 [x])) /\
    (forall x, each_from N vtends (fun n => ring_solution_velocity (ss n) [vadd x (ts n)]) (ring_solution_velocity s2 [x])).
Proof. exact ring_distant. Qed.
Print Assumptions C81_ring.

(** A plate and another one moved sideways, which meet the hypotheses. *)
Example C81_plates : exists ts near far fars op, receding ts /\ (forall n, Forall2 (shifted_airplane (ts n)) far (fars n)) /\
  (forall n m, ts n = ts m -> n = m) /\ length (panels_of near) = 1%nat /\ length (panels_of far) = 1%nat /\
  (forall p, In p (panels_of (near ++ far)) -> p_area p <> 0) /\ (forall n a, In a (near ++ far ++ fars n) -> well_meshed_airplane a) /\
  (exists s1 s2, hs_run gauss_solve (hs_new near op) = Ok s1 /\ hs_run gauss_solve (hs_new far op) = Ok s2) /\
  (exists s1 s2, ring_run gauss_solve (ring_new near op) = Ok s1 /\ ring_run gauss_solve (ring_new far op) = Ok s2).
Proof. exact distant_example. Qed.
