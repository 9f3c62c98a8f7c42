(** C69: running the unsteady solver again. *)
From Coq Require Import List ZArith Lia Lra Reals String.
From Verif Require Import M_Unsteady M_Output S_Solve S_Unsteady S_UnsteadyRun S_Again L_Gauss L_AgainRun L_AgainProps.
Import ListNotations.
Local Open Scope R_scope.

(** Whatever was run before on a problem, by this solver or by others, a run fails exactly when a first run fails, with the same error, and does
    what a first run does: the same geometry, circulations, loads, wakes, velocities and streamlines.  Only the final loads are appended to those
    that are there. *)
Theorem C69_again : forall solve prescribed lines up u s0,
  SolveSpec solve -> created up -> used solve up u -> unsteady_new up = Ok s0 ->
  match unsteady_run solve prescribed lines s0, unsteady_run solve prescribed lines u with
  | Ok s, Ok t => repeats u s t
  | Err e, Err e' => e = e'
  | _, _ => False
  end.
Proof. exact (fun solve prescribed lines up u s0 HS => run_again solve HS prescribed lines up u s0). Qed.
Print Assumptions C69_again.

(** So the final loads at a given place in the lists stay those of the first run, whatever the settings of the later runs. *)
Theorem C69_stale : forall solve prescribed lines up u t,
  SolveSpec solve -> created up -> used solve up u -> unsteady_run solve prescribed lines u = Ok t ->
  forall kind load final i v, In kind [up_final; up_final_mean; up_final_rms] -> In (load, final) load_lists ->
  nth_error (final (kind (us_problem u))) i = Some v -> nth_error (final (kind (us_problem t))) i = Some v.
Proof. exact (fun solve prescribed lines up u t HS => run_stale solve HS prescribed lines up u t). Qed.
Print Assumptions C69_stale.

(** And what is printed after a later run is what was printed before it. *)
Theorem C69_printed : forall solve prescribed lines up u t reports,
  SolveSpec solve -> created up -> used solve up u -> unsteady_run solve prescribed lines u = Ok t ->
  print_unsteady_results u = Ok reports -> print_unsteady_results t = Ok reports.
Proof. exact (fun solve prescribed lines up u t reports HS => run_printed solve HS prescribed lines up u t reports). Qed.
Print Assumptions C69_printed.

(** After two runs there are two entries for each airplane. *)
Theorem C69_entries : forall solve prescribed lines prescribed' lines' up s t k sp,
  SolveSpec solve -> created up -> finished solve prescribed lines up s -> up_max_period up <> 0 -> unsteady_run solve prescribed' lines' s = Ok t ->
  step_at t k sp -> forall load final, In (load, final) load_lists -> length (final (up_final_mean (us_problem t))) = (2 * length (sp_airplanes sp))%nat.
Proof. exact (fun solve prescribed lines prescribed' lines' up s t k sp HS => run_entries solve HS prescribed lines prescribed' lines' up s t k sp). Qed.
Print Assumptions C69_entries.

(** It is not so that the final lists have one entry for each airplane. *)
Theorem C69_final_refuted : exists up s t sp,
  created up /\ finished gauss_solve true false up s /\ unsteady_run gauss_solve true false s = Ok t /\ step_at t 0 sp /\
  length (fl_forces (up_final_mean (us_problem t))) <> length (sp_airplanes sp).
Proof. exact gusty_entries. Qed.
Print Assumptions C69_final_refuted.

(** Non-vacuity: a plate in gusts, run with a prescribed wake and then with a free one. *)
Example C69_gusts : exists up s t,
  SolveSpec gauss_solve /\ created up /\ finished gauss_solve true false up s /\ up_max_period up <> 0 /\ unsteady_run gauss_solve false true s = Ok t /\
  length (up_steady_problems up) = 3%nat /\ (exists reports, print_unsteady_results s = Ok reports).
Proof.
  destruct (gusty_again true false false true) as (up & s & t & HC & HF & HP & E & L & R & _). exists up, s, t. exact (conj gauss_solve_spec (conj HC (conj HF (conj HP (conj E (conj L R)))))).
Qed.
