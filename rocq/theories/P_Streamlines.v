(** Property theorems C52, the part about the three solvers: where the streamlines they
    report start and how they go on (steady_horseshoe_vortex_lattice_method.py,
    steady_ring_vortex_lattice_method.py, unsteady_ring_vortex_lattice_method.py,
    functions.py:calculate_streamlines). *)
From Coq Require Import Lra.
From Verif Require Import M_Horseshoe M_SteadyRing M_Unsteady S_Loads S_Solve S_Unsteady S_UnsteadyRun S_Streamlines
  L_Gauss L_Example L_Example2 L_Example4 L_Statements4 L_Tighten.

Theorem C52_horseshoe_streamlines : forall solve airplanes op s, hs_run solve (hs_new airplanes op) = Ok s ->
  exists lines, hso_streamline_points s = Some lines /\
    traced (hs_solution_velocity s) (trailing_midpoints (all_panels (hso_airplanes s))) lines.
Proof. exact hs_streamlines. Qed.
Print Assumptions C52_horseshoe_streamlines.

Theorem C52_ring_streamlines : forall solve airplanes op s, ring_run solve (ring_new airplanes op) = Ok s ->
  exists lines, rso_streamline_points s = Some lines /\
    traced (ring_solution_velocity s) (trailing_midpoints (all_panels (rso_airplanes s))) lines.
Proof. exact ring_streamlines. Qed.
Print Assumptions C52_ring_streamlines.

(** After an unsteady run: from the trailing edges of the last step, in the flow of the last step. *)
Theorem C52_unsteady_streamlines : forall solve, SolveSpec solve -> forall prescribed up s,
  created up -> finished solve prescribed true up s ->
  exists sp V lines, step_at s (length (up_steady_problems up) - 1) sp /\ us_streamline_points s = Some lines /\
    (forall points, unsteady_solution_velocity s points = Ok (V points)) /\ traced V (trailing_midpoints (step_panels sp)) lines.
Proof. exact unsteady_streamlines. Qed.
Print Assumptions C52_unsteady_streamlines.

Example C52_applies : (exists s, ring_run gauss_solve (ring_new [ex2_airplane] (ex2_op 1 10)) = Ok s) /\
  exists up s, created up /\ finished gauss_solve false true up s.
Proof.
  split; [destruct (ex2_run gauss_solve 1 10 gauss_solve_spec) as (s & p & q & x1 & x2 & H1 & H2 & _); [lra | eauto]|].
  destruct windy_periods as [_ (up & s & H1 & H2 & _)]. eauto.
Qed.
