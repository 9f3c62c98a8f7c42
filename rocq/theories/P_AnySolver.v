(** Property theorems C87 (the choice of the linear solver). *)
From Coq Require Import List ZArith Reals String.
From Verif Require Import M_Unsteady M_Horseshoe M_SteadyRing M_Convergence M_Trim S_Solve S_Unsteady S_UnsteadyRun L_SteadyRing L_Example L_AnySolver.
Import ListNotations.
Local Open Scope R_scope.

(** ** C87  The linear systems alone decide the results: with any two linear solvers that meet the specification (in S_Solve.v: answer
    with the solution of a square system if there is exactly one, and raise some error otherwise), a run ends with the same state or
    fails with both.  Nothing in a run depends on how the system is solved. *)
Theorem C87_horseshoe : forall solve solve', SolveSpec solve -> SolveSpec solve' -> forall s s',
  hs_run solve s = Ok s' <-> hs_run solve' s = Ok s'.
Proof. exact horseshoe_any. Qed.
Print Assumptions C87_horseshoe.

Theorem C87_ring : forall solve solve', SolveSpec solve -> SolveSpec solve' -> forall s s', fresh_ring s ->
  (ring_run solve s = Ok s' <-> ring_run solve' s = Ok s').
Proof. exact ring_any. Qed.
Print Assumptions C87_ring.

(** The unsteady solver: after every time step, and at the end. *)
Theorem C87_unsteady_steps : forall solve solve' up prescribed n s, SolveSpec solve -> SolveSpec solve' -> created up ->
  (n <= length (up_steady_problems up))%nat -> (after solve prescribed up n s <-> after solve' prescribed up n s).
Proof. exact steps_any. Qed.
Print Assumptions C87_unsteady_steps.

Theorem C87_unsteady : forall solve solve', SolveSpec solve -> SolveSpec solve' -> forall up prescribed streamlines s, created up ->
  (finished solve prescribed streamlines up s <-> finished solve' prescribed streamlines up s).
Proof. exact unsteady_any. Qed.
Print Assumptions C87_unsteady.

(** So do the analyses: the convergence searches stop at the same mesh, and trimming ends with the same point and problem. *)
Theorem C87_steady_convergence : forall solve solve', SolveSpec solve -> SolveSpec solve' ->
  forall pchip database ref solver_type ars chords criteria r,
  analyze_steady_convergence pchip database solve ref solver_type ars chords criteria = Ok r <->
  analyze_steady_convergence pchip database solve' ref solver_type ars chords criteria = Ok r.
Proof. exact steady_convergence_any. Qed.
Print Assumptions C87_steady_convergence.

Theorem C87_unsteady_convergence : forall solve solve', SolveSpec solve -> SolveSpec solve' ->
  forall pchip database ref prescribed_wake free_wake cycles chords ars chordwise mask criteria r,
  analyze_unsteady_convergence pchip database solve ref prescribed_wake free_wake cycles chords ars chordwise mask criteria = Ok r <->
  analyze_unsteady_convergence pchip database solve' ref prescribed_wake free_wake cycles chords ars chordwise mask criteria = Ok r.
Proof. exact unsteady_convergence_any. Qed.
Print Assumptions C87_unsteady_convergence.

Theorem C87_steady_trim : forall solve solve', SolveSpec solve -> SolveSpec solve' ->
  forall local global local_calls global_calls problem velocity alpha beta thrust cut_off r,
  steady_trim solve local global local_calls global_calls problem velocity alpha beta thrust cut_off = Ok r <->
  steady_trim solve' local global local_calls global_calls problem velocity alpha beta thrust cut_off = Ok r.
Proof. exact steady_trim_any. Qed.
Print Assumptions C87_steady_trim.

(** Two solvers that meet the specification and are not the same, and runs that succeed with one of them, the unsteady one with a free wake. *)
Example C87_two_solvers : SolveSpec (relabelled ELinAlg) /\ SolveSpec (relabelled EValueError) /\ relabelled ELinAlg [[0]] [0] <> relabelled EValueError [[0]] [0] /\
  (exists s, hs_run (relabelled ELinAlg) (hs_new [ex_airplane false] (ex_op 1 10)) = Ok s) /\
  fresh_ring (ring_new [ex_airplane false] (ex_op 1 10)) /\ (exists s, ring_run (relabelled ELinAlg) (ring_new [ex_airplane false] (ex_op 1 10)) = Ok s) /\
  exists up s, created up /\ finished (relabelled ELinAlg) false true up s.
Proof. exact two_solvers. Qed.
