(** The velocity a panel says its vortices induce (C86). *)
From Coq Require Import List String.
From Verif Require Import M_Horseshoe M_SteadyRing M_Unsteady S_Solve S_Mirror S_Loads S_Solvable L_SteadyRing S_Unsteady S_UnsteadyRun L_PanelVelocity L_Gauss L_Example L_Example4 L_Example5.
Import ListNotations.
Local Open Scope R_scope.

(** ** C86  The full property is: at every point, a panel gives the velocity its
    vortices induce there.  It holds as long as the panel has no vortices: a new
    wing's panels give zero everywhere. *)
Theorem C86_new_wing : forall sections name x y z normal symmetric chordwise chordwise_panels spacing w p point,
  new_wing sections name x y z normal symmetric chordwise chordwise_panels spacing = Ok w ->
  In p (concat (w_panels w)) -> p_calculate_induced_velocity p point = Ok vzero.
Proof. exact new_wing_velocity. Qed.
Print Assumptions C86_new_wing.

(** It gives a velocity only then, and otherwise fails with an AttributeError. *)
Theorem C86_without_vortices_only : forall p point v, p_calculate_induced_velocity p point = Ok v <->
  p_ring_vortex p = None /\ p_horseshoe_vortex p = None /\ v = vzero.
Proof. exact velocity_ok_iff. Qed.
Print Assumptions C86_without_vortices_only.
Theorem C86_error : forall p point e, p_calculate_induced_velocity p point = Err e -> e = EAttributeError.
Proof. exact velocity_error. Qed.
Print Assumptions C86_error.

(** So it fails on every panel of every solved airplane. *)
Theorem C86_horseshoe_fails : forall solve s s' p point, SolveSpec solve -> hs_run solve s = Ok s' -> In p (panels_of (hso_airplanes s')) ->
  p_calculate_induced_velocity p point = Err EAttributeError.
Proof. exact horseshoe_velocity_fails. Qed.
Print Assumptions C86_horseshoe_fails.
Theorem C86_ring_fails : forall solve airplanes op s p point, SolveSpec solve -> fresh_ring (ring_new airplanes op) ->
  ring_run solve (ring_new airplanes op) = Ok s -> In p (panels_of (rso_airplanes s)) ->
  p_calculate_induced_velocity p point = Err EAttributeError.
Proof. exact ring_velocity_fails. Qed.
Print Assumptions C86_ring_fails.
Theorem C86_unsteady_fails : forall solve prescribed up n s k i w c j p point, SolveSpec solve ->
  created up -> has_run solve prescribed up n s -> wing_at s k i w -> at_position (w_panels w) c j p ->
  p_calculate_induced_velocity p point = Err EAttributeError.
Proof. exact unsteady_velocity_fails. Qed.
Print Assumptions C86_unsteady_fails.

(** A solved plate: its vortex has a strength, but the panel gives no velocity at any point. *)
Theorem C86_velocity_refuted : exists s p g, hs_run gauss_solve (hs_new [ex_airplane false] (ex_op 1 10)) = Ok s /\ In p (panels_of (hso_airplanes s)) /\
  horseshoe_strength p = Some g /\ g <> 0 /\ forall point, p_calculate_induced_velocity p point = Err EAttributeError.
Proof. exact plate_velocity_fails. Qed.
Print Assumptions C86_velocity_refuted.

Example C86_ring_case : exists s, fresh_ring (ring_new [ex_airplane false] (ex_op 1 4)) /\ ring_run gauss_solve (ring_new [ex_airplane false] (ex_op 1 4)) = Ok s.
Proof. destruct (ex_ring_first gauss_solve 1 4 gauss_solve_spec) as (A & s & _ & _ & E & _). exists s. split; [exact (ex_fresh _) | exact E]. Qed.
Example C86_unsteady_case : forall prescribed : bool, exists up s, created up /\ has_run gauss_solve prescribed up 3 s.
Proof.
  intros prescribed. destruct (windy_runs gust prescribed true false (or_intror (or_introl eq_refl))) as (up & s & H). exists up, s.
  destruct (windy_facts _ _ _ _ _ _ (or_intror (or_introl eq_refl)) H) as (H1 & _ & _ & H2 & _). split; assumption.
Qed.
Example C86_new_case : exists w, new_wing [ex_section 0; ex_section 1] "wing" 0 0 0 (mkvec 0 1 0) true (mkvec 1 0 0) 1 "uniform" = Ok w /\ concat (w_panels w) <> [].
Proof. exists (ex_wing true). split; [exact (ex_wing_ok true) | discriminate]. Qed.
