(** Cases that can be solved. *)
From Coq Require Import List ZArith Lia Lra Bool Reals String.
From Verif Require Import M_Unsteady M_Horseshoe M_SteadyRing S_Unsteady S_UnsteadyRun S_Loads S_Solve S_Movement S_Solvable L_Base L_Loads L_Gauss L_Horseshoe L_SteadyRing L_Geometry L_Wake L_UnsteadyFlow
  L_Example L_Example2 L_Example3 L_Example4 L_Example6 L_Solvable L_SymmetricExample L_FlapExample.
Import ListNotations.
Local Open Scope R_scope.
Local Open Scope list_scope.

Lemma plate_distinguishable : List.length (panels_of [ex_airplane false]) = 1%nat /\ distinguishable (panels_of [ex_airplane false]) (horseshoe_paths (ex_op 1 10) [ex_airplane false]) /\
  distinguishable (panels_of [ex_airplane false]) (steady_ring_paths (ex_op 1 10) [ex_airplane false]).
Proof.
  split; [reflexivity|]. split.
  - apply (horseshoe_solvable gauss_solve _ _ gauss_solve_spec). destruct (ex_horseshoe_run gauss_solve 1 10 gauss_solve_spec) as (A & s & _ & E & _). eauto.
  - assert (HM : forall a w, In a [ex_airplane false] -> In w (a_wings a) -> well_meshed (w_panels w)) by (intros a w [<-|[]]; apply (proj1 (ex_well_meshed false))).
    apply (proj1 (ring_solvable gauss_solve [ex_airplane false] (ex_op 1 10) gauss_solve_spec (ex_fresh _) HM)). destruct (ex_ring_first gauss_solve 1 10 gauss_solve_spec) as (A & s & _ & _ & E & _). exists s. exact E.
Qed.
Lemma flap_distinguishable : exists up sp, created up /\ In sp (up_steady_problems up) /\ List.length (step_panels sp) = 4%nat /\
  distinguishable (step_panels sp) (unsteady_ring_paths (up_delta_time up) sp).
Proof.
  destruct (flap_problem false) as (w' & mv & up & Hm & Hup & Edt & L & EP' & _ & Hst).
  assert (HC : created up) by (do 7 eexists; exists false; split; [exact Hm | exact Hup]).
  destruct (nth_in_range (up_steady_problems up) 0 ltac:(lia)) as [sp Hsp]. exists up, sp. split; [exact HC|]. pose proof (nth_error_In _ _ Hsp) as Hin. split; [exact Hin|]. split.
  - rewrite panels_of_wings, (proj1 (Hst _ _ Hsp)). cbn [map concat]. rewrite EP'. reflexivity.
  - pose proof (unsteady_solvable gauss_solve gauss_solve_spec false up false HC) as HI. destruct (proj1 HI) as [_ HD]; [|apply HD; exact Hin].
    exact (flap_run gauss_solve gauss_solve_spec false up w' HC Edt ltac:(lia) EP' Hst false).
Qed.
