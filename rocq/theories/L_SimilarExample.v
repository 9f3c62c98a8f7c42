(** Example for similar flights: the plate in gusts. *)
From Coq Require Import List ZArith Lia Lra Reals.
From Verif Require Import M_Unsteady S_Solve S_Unsteady S_UnsteadyRun S_Similar L_Gauss L_ImageExample L_SimilarMovement.
Local Open Scope R_scope.
Lemma gusts_similar : exists up up' s,
  SolveSpec gauss_solve /\ created up /\ length (up_steady_problems up) = 3%nat /\ same_flight 2 3 up up' /\ finished gauss_solve false true up s.
Proof.
  destruct (plates_image 0 1 false false true ltac:(lra)) as (up & _ & s & HC & _ & _ & _ & _ & _ & HF & HL & _).
  destruct HC as (ams & om & n & cy & ch & d & m & only & Em & Eup). destruct (similar_movement 2 3 _ _ _ _ _ _ _ _ _ ltac:(lra) Em Eup) as (m' & up' & _ & _ & SF).
  exists up, (set_viscosity (2 * op_nu default_operating_point) up'), s. split; [exact gauss_solve_spec|]. split; [do 7 eexists; exists only; split; [exact Em | exact Eup]|]. auto.
Qed.
