(** C84: small changes of a movement's arguments change its snapshots, and the results of the unsteady solver, only a little. *)
From Coq Require Import List ZArith Lia Lra Reals String.
From Verif Require Import M_Unsteady S_Solve S_Mirror S_Unsteady S_UnsteadyRun S_Size S_SizeUnsteady S_Continuous S_ContinuousShape S_ContinuousUnsteady S_ContinuousMovement S_ContinuousDefault
  L_Gauss L_ContinuousUnsteady L_ContinuousMovement L_ContinuousMovementRun L_ContinuousDefault L_ContinuousDefaultRun L_ContinuousVertical.
Import ListNotations.
Local Open Scope R_scope.

(** Positions, chords, twists, amplitudes, periods, the freestream and the time step come closer and closer to those of a movement with a
    given time step.  Then all but finitely many of the others can be made too, in as many steps, and their snapshots come closer. *)
Theorem C84_movement : forall dts dt, tends dts dt -> forall AMS ams OM om num_steps num_cycles num_chords m only up,
  each (approaching_airplane_movement dts dt) AMS ams -> approaching_op_movement OM om ->
  same_clock AMS ams OM om num_steps num_cycles dts dt (mv_num_steps m) ->
  new_movement ams om num_steps num_cycles num_chords (Some dt) = Ok m -> new_unsteady_problem m only = Ok up -> (0 < mv_num_steps m)%Z ->
  no_vertical_wings ams (mv_airplanes m) -> main_wings_wide (mv_airplanes m) ->
  exists MS UPS N, (forall n, (N <= n)%nat -> new_movement (AMS n) (OM n) num_steps num_cycles num_chords (Some (dts n)) = Ok (MS n) /\
      new_unsteady_problem (MS n) only = Ok (UPS n)) /\
    approaching_problem UPS up.
Proof. exact movement_continuous. Qed.
Print Assumptions C84_movement.

(** The number of steps and the averaging window are the same where the longest period and the cycles wanted are not a whole number of
    time steps. *)
Theorem C84_clock : forall dts dt, tends dts dt -> forall AMS ams OM om num_steps num_cycles num_chords m,
  each (approaching_airplane_movement dts dt) AMS ams -> approaching_op_movement OM om -> dt <> 0 -> between_steps ams om num_steps num_cycles dt ->
  new_movement ams om num_steps num_cycles num_chords (Some dt) = Ok m ->
  same_clock AMS ams OM om num_steps num_cycles dts dt (mv_num_steps m).
Proof. exact clock_settles. Qed.
Print Assumptions C84_clock.

(** They are the same, too, where the longest period and the time step are. *)
Theorem C84_same_times : forall AMS ams OM om num_steps num_cycles num_chords dt m,
  (forall n, max_period (AMS n) (OM n) = max_period ams om) -> (num_steps = None -> max_period ams om <> Ok 0) ->
  new_movement ams om num_steps num_cycles num_chords (Some dt) = Ok m ->
  same_clock AMS ams OM om num_steps num_cycles (fun _ => dt) dt (mv_num_steps m).
Proof. exact clock_kept. Qed.
Print Assumptions C84_same_times.

(** Non-vacuity: a plate in a gust whose period changes, with a changing time step and a computed number of steps. *)
Example C84_gust : exists AMS ams OM om dts m up, tends dts (7 / 5) /\ (forall n, dts n <> 7 / 5) /\
  each (approaching_airplane_movement dts (7 / 5)) AMS ams /\ approaching_op_movement OM om /\ (forall n, max_period (AMS n) (OM n) <> max_period ams om) /\
  between_steps ams om None None (7 / 5) /\
  new_movement ams om None None None (Some (7 / 5)) = Ok m /\ new_unsteady_problem m false = Ok up /\ mv_num_steps m = 9%Z /\
  no_vertical_wings ams (mv_airplanes m) /\ main_wings_wide (mv_airplanes m).
Proof. exact gust_example. Qed.

(** And so do the results of the solver, where no panel is degenerate and no velocity used is on the edge of where a vortex is cut off. *)
Theorem C84_flight : forall solve prescribed lines AMS ams OM om num_steps num_cycles num_chords dts dt m only up s, SolveSpec solve -> tends dts dt ->
  each (approaching_airplane_movement dts dt) AMS ams -> approaching_op_movement OM om ->
  same_clock AMS ams OM om num_steps num_cycles dts dt (mv_num_steps m) ->
  new_movement ams om num_steps num_cycles num_chords (Some dt) = Ok m -> new_unsteady_problem m only = Ok up -> 0 < dt -> (0 < mv_num_steps m)%Z ->
  no_vertical_wings ams (mv_airplanes m) -> main_wings_wide (mv_airplanes m) ->
  (forall sp p, In sp (up_steady_problems up) -> In p (all_panels (sp_airplanes sp)) -> p_area p <> 0) ->
  steps_off_edges solve prescribed up (length (up_steady_problems up)) -> finished solve prescribed lines up s ->
  exists UPS ss N, (forall n, (N <= n)%nat -> exists m', new_movement (AMS n) (OM n) num_steps num_cycles num_chords (Some (dts n)) = Ok m' /\
      new_unsteady_problem m' only = Ok (UPS n) /\ finished solve prescribed lines (UPS n) (ss n)) /\
    approaching_run (length (up_steady_problems up)) ss s.
Proof. exact flight_continuous. Qed.
Print Assumptions C84_flight.

(** Non-vacuity: a plate flown for three steps; its tip moves outboard, back and up and is longer and twisted, the reference point and the
    speed begin to oscillate, the freestream is denser, faster and differently directed, and the time step is longer. *)
Example C84_plate : exists AMS ams OM om dts m up s, SolveSpec gauss_solve /\ tends dts 1 /\ (forall n, dts n <> 1) /\
  each (approaching_airplane_movement dts 1) AMS ams /\ (forall n, AMS n <> ams) /\ approaching_op_movement OM om /\
  same_clock AMS ams OM om (Some 3%Z) None dts 1 (mv_num_steps m) /\
  new_movement ams om (Some 3%Z) None None (Some 1) = Ok m /\ new_unsteady_problem m false = Ok up /\ (0 < mv_num_steps m)%Z /\
  no_vertical_wings ams (mv_airplanes m) /\ main_wings_wide (mv_airplanes m) /\
  (forall sp p, In sp (up_steady_problems up) -> In p (all_panels (sp_airplanes sp)) -> p_area p <> 0) /\
  steps_off_edges gauss_solve true up (length (up_steady_problems up)) /\ finished gauss_solve true true up s.
Proof. exact (flight_example true). Qed.

(** A time step that is not given but computed comes closer, too, if the freestream moves. *)
Theorem C84_default_step : forall AMS ams OM om num_steps num_cycles num_chords m,
  each approaching_base AMS ams -> approaching_op_movement OM om -> op_velocity (om_base om) <> 0 ->
  new_movement ams om num_steps num_cycles num_chords None = Ok m ->
  new_movement ams om num_steps num_cycles num_chords (Some (mv_delta_time m)) = Ok m /\ mv_delta_time m = default_time_step ams om /\
  tends (fun n => default_time_step (AMS n) (OM n)) (mv_delta_time m) /\
  forall n, new_movement (AMS n) (OM n) num_steps num_cycles num_chords None =
            new_movement (AMS n) (OM n) num_steps num_cycles num_chords (Some (default_time_step (AMS n) (OM n))).
Proof. exact default_continuous. Qed.
Print Assumptions C84_default_step.
Theorem C84_default_flight : forall solve prescribed lines AMS ams OM om num_steps num_cycles num_chords m only up s, SolveSpec solve ->
  each (approaching_airplane_movement (fun n => default_time_step (AMS n) (OM n)) (mv_delta_time m)) AMS ams -> each approaching_base AMS ams ->
  approaching_op_movement OM om -> op_velocity (om_base om) <> 0 ->
  same_clock AMS ams OM om num_steps num_cycles (fun n => default_time_step (AMS n) (OM n)) (mv_delta_time m) (mv_num_steps m) ->
  new_movement ams om num_steps num_cycles num_chords None = Ok m -> new_unsteady_problem m only = Ok up -> 0 < mv_delta_time m -> (0 < mv_num_steps m)%Z ->
  no_vertical_wings ams (mv_airplanes m) -> main_wings_wide (mv_airplanes m) ->
  (forall sp p, In sp (up_steady_problems up) -> In p (all_panels (sp_airplanes sp)) -> p_area p <> 0) ->
  steps_off_edges solve prescribed up (length (up_steady_problems up)) -> finished solve prescribed lines up s ->
  exists UPS ss N, (forall n, (N <= n)%nat -> exists m', new_movement (AMS n) (OM n) num_steps num_cycles num_chords None = Ok m' /\
      new_unsteady_problem m' only = Ok (UPS n) /\ finished solve prescribed lines (UPS n) (ss n)) /\
    approaching_run (length (up_steady_problems up)) ss s.
Proof. exact default_flight. Qed.
Print Assumptions C84_default_flight.
(** The plate again, with the time step left out. *)
Example C84_default_plate : exists AMS ams OM om m up s,
  each (approaching_airplane_movement (fun n => default_time_step (AMS n) (OM n)) (mv_delta_time m)) AMS ams /\ each approaching_base AMS ams /\
  approaching_op_movement OM om /\ op_velocity (om_base om) <> 0 /\
  (forall n, default_time_step (AMS n) (OM n) <> mv_delta_time m) /\
  same_clock AMS ams OM om (Some 3%Z) None (fun n => default_time_step (AMS n) (OM n)) (mv_delta_time m) (mv_num_steps m) /\
  new_movement ams om (Some 3%Z) None None None = Ok m /\ new_unsteady_problem m false = Ok up /\ 0 < mv_delta_time m /\ (0 < mv_num_steps m)%Z /\
  no_vertical_wings ams (mv_airplanes m) /\ main_wings_wide (mv_airplanes m) /\
  (forall sp p, In sp (up_steady_problems up) -> In p (all_panels (sp_airplanes sp)) -> p_area p <> 0) /\
  steps_off_edges gauss_solve true up (length (up_steady_problems up)) /\ finished gauss_solve true true up s.
Proof. exact (default_example true). Qed.

(** The condition on vertical wings is needed: the tips of [U] come closer and closer to the tip straight above the root of [m], leaning
    inwards less and less; the snapshot of [m] has its tip above the root, but those of [U] have theirs below. *)
Theorem C84_vertical_refuted : exists U m W w tips tip, approaching_wing_movement (fun _ => 1) 1 U m /\
  (forall n, generate_wings (U n) 1 1 = Ok [W n]) /\ generate_wings m 1 1 = Ok [w] /\
  (forall n, nth_error (w_sections (W n)) 1 = Some (tips n)) /\ nth_error (w_sections w) 1 = Some tip /\
  (exists base, nth_error (wm_sections m) 1 = Some base /\ cs_leading_edge (sm_base base) = cs_leading_edge tip) /\
  cs_z_le tip = 1 /\ forall n, cs_z_le (tips n) < 0.
Proof. exact vertical_jump. Qed.
Print Assumptions C84_vertical_refuted.
