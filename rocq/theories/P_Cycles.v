(** Properties of movements through several cycles (C80).  [repeats k l]: every item of [l] is the same as the one [k]
    places before it; see S_Cycles. *)
From Verif Require Import M_Unsteady S_Movement S_Cycles L_Cycles L_CyclesExample L_Example3.
Import ListNotations.
Local Open Scope R_scope.

(** ** C80: every cycle of a movement is the same *)
(** If [k] time steps are a whole number of periods of everything that oscillates, the airplanes and the operating
    points of a movement are those of [k] steps before, in every attribute: positions, meshes, references, names. *)
Theorem C80_snapshots : forall ams om steps cycles chords delta m k, new_movement ams om steps cycles chords delta = Ok m ->
  Forall (comes_back k (mv_delta_time m)) (all_oscillations ams om) ->
  Forall (repeats k) (mv_airplanes m) /\ repeats k (mv_operating_points m).
Proof. exact movement_repeats. Qed.
Print Assumptions C80_snapshots.
(** So are the problems handed to the solver. *)
Theorem C80_problems : forall ams om steps cycles chords delta m up only_final_results k, new_movement ams om steps cycles chords delta = Ok m ->
  new_unsteady_problem m only_final_results = Ok up -> Forall (comes_back k (mv_delta_time m)) (all_oscillations ams om) ->
  repeats k (up_steady_problems up).
Proof. exact problem_repeats. Qed.
Print Assumptions C80_problems.
(** If the longest period is [k] time steps and the movement lasts as long, the final results are averaged over exactly
    the last [k] steps. *)
Theorem C80_averaged : forall m only_final_results up k, new_unsteady_problem m only_final_results = Ok up ->
  0 < up_max_period up -> 0 < mv_delta_time m -> INR k * mv_delta_time m = up_max_period up -> (Z.of_nat k <= mv_num_steps m)%Z ->
  (up_first_averaging_step up = mv_num_steps m - Z.of_nat k)%Z.
Proof. exact cycle_averaged. Qed.
Print Assumptions C80_averaged.
(** A movement of [c] cycles of [k] steps has [c * k] steps. *)
Theorem C80_whole_cycles : forall ams om c k m p,
  new_movement ams om None (Some (INR c)) None None = Ok m \/ (exists dt, new_movement ams om None (Some (INR c)) None (Some dt) = Ok m) ->
  max_period ams om = Ok p -> 0 < p -> INR k * mv_delta_time m = p -> mv_num_steps m = Z.of_nat (c * k).
Proof. exact cycles_whole. Qed.
Print Assumptions C80_whole_cycles.

(** Eight steps of a plate that flaps once in four. *)
Example C80_flapping : exists m up, new_movement [ex_airplane_movement 0 flap] ex_op_movement (Some 8%Z) None None (Some (1 / 2)) = Ok m /\
  new_unsteady_problem m true = Ok up /\ Forall (comes_back 4 (mv_delta_time m)) (all_oscillations [ex_airplane_movement 0 flap] ex_op_movement) /\
  0 < up_max_period up /\ 0 < mv_delta_time m /\ INR 4 * mv_delta_time m = up_max_period up /\ (Z.of_nat 4 <= mv_num_steps m)%Z /\
  Forall (fun l => List.length l = 8%nat) (mv_airplanes m) /\ List.length (mv_airplanes m) = 1%nat.
Proof. exact flap_cycles. Qed.
