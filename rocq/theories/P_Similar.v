(** C68: the same flight at another speed, in another density. *)
From Coq Require Import List ZArith Lia Lra Reals.
From Verif Require Import M_Unsteady S_Solve S_Unsteady S_UnsteadyRun S_Movement S_Similar L_Gauss L_SimilarRun L_SimilarMovement L_SimilarExample.
Import ListNotations.
Local Open Scope R_scope.

(** A run at [c] times the speed, with steps [c] times as short, in [r] times the density and [c] times the
    viscosity: it finishes too, strengths are [c] times and ages 1 / [c] times as large, the wake has the same
    vertices, velocities are [c] times, forces and moments [r c^2] times as large and all coefficients are the same. *)
Theorem C68_finished : forall c r solve prescribed lines up up' s,
  SolveSpec solve -> 0 < c -> 0 < r -> created up -> same_flight c r up up' -> finished solve prescribed lines up s ->
  exists s', finished solve prescribed lines up' s' /\ run_similar c r s s'.
Proof. exact (fun c r solve prescribed lines up up' s HS Hc Hr => similar_finished c r Hc Hr solve HS prescribed lines up up' s). Qed.
Print Assumptions C68_finished.

(** The same after every step. *)
Theorem C68_steps : forall c r solve prescribed up up' n s,
  SolveSpec solve -> 0 < c -> 0 < r -> created up -> same_flight c r up up' -> (n <= length (up_steady_problems up))%nat -> after solve prescribed up n s ->
  exists s', after solve prescribed up' n s' /\ run_similar c r s s'.
Proof. exact (fun c r solve prescribed up up' n s HS Hc Hr => similar_after c r Hc Hr solve HS prescribed up up' n s). Qed.
Print Assumptions C68_steps.

(** Movements: with all periods and the time step, if given, divided by [c], and the wind [c] times as fast, the steps are
    the same in number, go through the same airplanes and are averaged over the same window.  The viscosity has to be
    assigned to the steps, as movements drop it (C36). *)
Theorem C68_movement : forall c r ams om n cy ch dt m only up,
  0 < c -> new_movement ams om n cy ch dt = Ok m -> new_unsteady_problem m only = Ok up ->
  exists m' up', new_movement (map (quicker_airplane c) ams) (faster_wind c r om) n cy ch (option_map (fun t => t / c) dt) = Ok m' /\
    new_unsteady_problem m' only = Ok up' /\ same_flight c r up (set_viscosity (c * op_nu default_operating_point) up').
Proof. exact similar_movement. Qed.
Print Assumptions C68_movement.

(** Without that, no two problems made from movements are the same flight at different speeds. *)
Theorem C68_viscosity_refuted : forall c r up up',
  created up -> created up' -> (0 < length (up_steady_problems up))%nat -> c <> 1 -> ~ same_flight c r up up'.
Proof. exact (fun c r up up' HC HC' HL Hne SF => Hne (created_speed c r up up' HC HC' SF HL)). Qed.
Print Assumptions C68_viscosity_refuted.

(** Density alone needs no such care: from the arguments of the movement to the results. *)
Theorem C68_density : forall r ams om n cy ch dt m only up solve prescribed lines s,
  SolveSpec solve -> 0 < r -> new_movement ams om n cy ch dt = Ok m -> new_unsteady_problem m only = Ok up -> finished solve prescribed lines up s ->
  exists m' up' s', new_movement ams (denser r om) n cy ch dt = Ok m' /\ new_unsteady_problem m' only = Ok up' /\
    finished solve prescribed lines up' s' /\ run_similar 1 r s s'.
Proof. exact similar_density. Qed.
Print Assumptions C68_density.

(** Non-vacuity: a plate in gusts, three steps with a free wake, at twice the speed in three times the density. *)
Example C68_gusts : exists up up' s,
  SolveSpec gauss_solve /\ created up /\ length (up_steady_problems up) = 3%nat /\ same_flight 2 3 up up' /\ finished gauss_solve false true up s.
Proof. exact gusts_similar. Qed.
