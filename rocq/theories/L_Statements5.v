(** Finished and unfinished runs of the examples of P_Image.v. *)
From Coq Require Import List ZArith Lia Lra Bool Reals String.
From Verif Require Import M_Unsteady S_Unsteady S_UnsteadyRun S_Mirror S_Rigid S_Solve S_Image S_Movement L_Base L_Gauss L_UnsteadyFinal L_Example4 L_ImageRun L_SymmetricFlight L_ImageExample L_SymmetricExample.
Import ListNotations.
Local Open Scope R_scope.
Local Open Scope list_scope.

Lemma symmetric_runs (only prescribed lines : bool) : exists mv up s sf,
  new_movement [still_airplane sym_movement] (windy gust) (Some 3%Z) None None (Some 1) = Ok mv /\ new_unsteady_problem mv only = Ok up /\
  (forall am, In am [still_airplane sym_movement] -> symmetric_movement am) /\ no_sideslip (om_base (windy gust)) /\ mv_delta_time mv <> 0 /\
  (up_first_averaging_step up < up_num_steps up)%Z /\ finished gauss_solve prescribed lines up s /\ after gauss_solve prescribed up 3 sf.
Proof.
  destruct (symmetric_run only prescribed lines) as (mv & up & s & Hm & Hup & HS & HN & Hdt & HW & L & HF).
  assert (HC : created up) by (do 7 eexists; exists only; split; [exact Hm | exact Hup]).
  destruct (created_some up HC ltac:(lia)) as [F HM]. destruct (finished_inv _ _ _ _ _ F HF HM) as (sf & _ & _ & _ & HA & _). rewrite L in HA.
  exists mv, up, s, sf. repeat (split; [assumption|]). exact HA.
Qed.
Lemma plate_own_image (prescribed : bool) : exists up s,
  created up /\ up_delta_time up <> 0 /\ isometric true reflection /\ problem_image true reflection (mkvec 0 1 0) alone up up /\
  after gauss_solve prescribed up 3 s /\ partner alone 0%nat = 0%nat.
Proof.
  destruct (plates_image (1 / 2) (1 / 2) false prescribed false ltac:(lra)) as (up & up' & s & HC & _ & Hdt & _ & _ & HP & HF & L & E). rewrite (E eq_refl) in HP.
  destruct (created_some up HC ltac:(lia)) as [F HM]. destruct (finished_inv _ _ _ _ _ F HF HM) as (sf & _ & _ & _ & HA & _). rewrite L in HA.
  exists up, sf. repeat (split; [assumption|]). split; [|repeat (split; [assumption|]); reflexivity].
  exact reflection_isometric.
Qed.
