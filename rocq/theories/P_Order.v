(** Property theorems C63 (results do not depend on the order of the lists). *)
From Verif Require Import M_Geometry M_Horseshoe M_SteadyRing S_Solve S_Loads S_Mirror S_Order
  L_Gauss L_Example L_Example2 L_Example6 L_Order L_OrderExample.

(** ** C63  Listing the airplanes of a problem, or the wings of an airplane, in another order, or
    reading a wing's rows from its other tip, changes nothing: the solver succeeds as before, the
    velocities are the same at every point, and every panel and airplane has the same loads. *)
Theorem C63_horseshoe_reordered : forall solve partner l l' op s, SolveSpec solve ->
  reordered partner l l' -> hs_run solve (hs_new l op) = Ok s ->
  exists s', hs_run solve (hs_new l' op) = Ok s' /\
    (forall x v, hs_solution_velocity s [x] = [v] -> hs_solution_velocity s' [x] = [v]) /\
    paired partner (same_solution horseshoe_strength) (hso_airplanes s) (hso_airplanes s').
Proof. exact hs_reordered. Qed.
Print Assumptions C63_horseshoe_reordered.

Theorem C63_ring_reordered : forall solve partner l l' op s, SolveSpec solve ->
  reordered partner l l' ->
  (forall a, In a l -> well_meshed_airplane a) -> (forall a, In a l' -> well_meshed_airplane a) ->
  ring_run solve (ring_new l op) = Ok s ->
  exists s', ring_run solve (ring_new l' op) = Ok s' /\
    (forall x v, ring_solution_velocity s [x] = [v] -> ring_solution_velocity s' [x] = [v]) /\
    paired partner (same_solution ring_strength) (rso_airplanes s) (rso_airplanes s').
Proof. exact ring_reordered. Qed.
Print Assumptions C63_ring_reordered.

(** Exchanging two airplanes, or two wings of an airplane, is such a reordering. *)
Theorem C63_exchanges :
  (forall a b, reordered (fun k => (1 - k)%nat) [a; b] [b; a]) /\
  forall a w v, reordered (fun k => k) [a_set_wings [w; v] a] [a_set_wings [v; w] a].
Proof. exact (conj swapped_airplanes swapped_wings). Qed.
Print Assumptions C63_exchanges.

(** A wing read from its other tip, whose problem both solvers solve. *)
Example C63_case :
  reordered (fun k => k) [ex_airplane true] [turned_airplane] /\
  well_meshed_airplane (ex_airplane true) /\ well_meshed_airplane turned_airplane /\
  (exists s, hs_run gauss_solve (hs_new [ex_airplane true] (ex2_op 1 10)) = Ok s) /\
  exists s, ring_run gauss_solve (ring_new [ex_airplane true] (ex2_op 1 10)) = Ok s.
Proof.
  split; [exact turned_reordered|]. split; [exact (ex_well_meshed true)|]. split; [exact turned_well_meshed|].
  split; [exact (sym_horseshoe_run gauss_solve 1 10 gauss_solve_spec)|]. exact (sym_ring_run gauss_solve 1 10 gauss_solve_spec).
Qed.
