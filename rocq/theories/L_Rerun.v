(** Running a steady solver again. *)
From Coq Require Import Lra Lia.
From Verif Require Import M_Loads M_Horseshoe M_SteadyRing S_Geometry S_Vortices S_Solve S_Loads
  L_Base L_Rotations L_Aero L_Loads L_Horseshoe L_SteadyRing L_Example.

Lemma hs_rerun_total solve s s1 : SolveSpec solve -> hs_run solve s = Ok s1 -> exists s2, hs_run solve s1 = Ok s2.
Proof.
  intros HS E. pose proof (hs_run_same _ _ _ E) as S1. apply hs_run_inv in E. destruct E as (O1 & V1 & R1 & X1 & _).
  pose proof (hs_rows_same (hso_op s) _ _ S1) as SR. destruct (same_rows_maps _ _ SR) as (Hc & Hn & _).
  destruct (hs_run_total solve s1 (hso_strengths s1) HS) as (s2 & E2 & _); [|eauto].
  rewrite O1, V1, (same_rows_influences _ _ SR), Hn. exact X1.
Qed.
Lemma hs_rerun solve s s1 : SolveSpec solve -> hs_run solve s = Ok s1 ->
  exists s2, hs_run solve s1 = Ok s2 /\
    hso_strengths s2 = hso_strengths s1 /\ hso_airplanes s2 = hso_airplanes s1 /\
    (forall points, hs_solution_velocity s2 points = hs_solution_velocity s1 points) /\
    exists fresh, hso_seed_points s1 = hso_seed_points s ++ fresh /\ hso_seed_points s2 = hso_seed_points s1 ++ fresh.
Proof.
  intros HS E. destruct (hs_rerun_total _ _ _ HS E) as [s2 E2]. exists s2. split; [exact E2|]. exact (hs_run_twice _ _ _ _ HS E E2).
Qed.
Lemma hs_rerun_seeds solve : SolveSpec solve ->
  exists airplanes op s1 s2, hs_run solve (hs_new airplanes op) = Ok s1 /\ hs_run solve s1 = Ok s2 /\
    hso_seed_points s2 <> hso_seed_points s1 /\ length (hso_seed_points s2) = (2 * length (hso_seed_points s1))%nat.
Proof.
  intros HS. destruct (ex_horseshoe_run solve 1 1 HS) as (A & s1 & _ & E & _).
  destruct (hs_rerun _ _ _ HS E) as (s2 & E2 & _ & _ & _ & fresh & F1 & F2).
  exists [ex_airplane false], (ex_op 1 1), s1, s2. split; [exact E|]. split; [exact E2|].
  apply hs_run_inv in E. destruct E as (_ & _ & _ & _ & D & _). cbn [hs_new hso_seed_points app] in D, F1.
  assert (Hf : length fresh = 1%nat).
  { rewrite D in F1. rewrite <- F1. reflexivity. }
  rewrite F2, F1. split.
  - intros X. apply (f_equal (@length _)) in X. rewrite app_length in X. lia.
  - rewrite app_length. lia.
Qed.
