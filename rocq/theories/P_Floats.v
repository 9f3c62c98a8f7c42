(** C70: the whole numbers that the code computes from measured times. *)
From Verif Require Import S_Floats L_Floats L_FloatSteps L_FloatExample.
Local Open Scope R_scope.

(** Rounding gives a double, and no double is nearer. *)
Theorem C70_nearest : forall x, double (rounded x) /\ forall y, double y -> Rabs (rounded x - x) <= Rabs (y - x).
Proof. exact rounded_nearest. Qed.
Print Assumptions C70_nearest.

Theorem C70_cycles : forall c p dt n, tiny <= c * p -> 0 < dt -> countable (c * p / dt) -> least (lasts dt (c * p)) n ->
  within_one (float_cycle_steps c p dt) n /\ (float_cycle_steps c p dt <> n -> almost_whole (c * p / dt)).
Proof. exact cycle_steps_float. Qed.
Print Assumptions C70_cycles.

Theorem C70_chords : forall k c dt v n, tiny <= k * c -> tiny <= dt * v -> countable (k * c / (dt * v)) -> least (flies dt v (k * c)) n ->
  within_one (float_chord_steps k c dt v) n /\ (float_chord_steps k c dt v <> n -> almost_whole (k * c / (dt * v))).
Proof. exact chord_steps_float. Qed.
Print Assumptions C70_chords.

(** The same of the movements built elsewhere in the model, whose arithmetic is exact. *)
Theorem C70_periodic_movement : forall ams om num_cycles num_chords delta_time m p,
  new_movement ams om None num_cycles num_chords delta_time = Ok m -> largest (all_periods ams om) p -> p <> 0 ->
  let cycles := given num_cycles 3 in let dt := mv_delta_time m in
  0 < dt -> tiny <= cycles * p -> countable (cycles * p / dt) ->
  within_one (float_cycle_steps cycles p dt) (mv_num_steps m) /\ (float_cycle_steps cycles p dt <> mv_num_steps m -> almost_whole (cycles * p / dt)).
Proof. exact movement_float. Qed.
Print Assumptions C70_periodic_movement.

Theorem C70_static_movement : forall ams om num_cycles num_chords delta_time m,
  new_movement ams om None num_cycles num_chords delta_time = Ok m -> largest (all_periods ams om) 0 ->
  exists c, largest (map (fun am => a_c_ref (am_base am)) ams) c /\
    let chords := given num_chords 10 in let dt := mv_delta_time m in let v := op_velocity (om_base om) in
    (tiny <= chords * c -> tiny <= dt * v -> countable (chords * c / (dt * v)) ->
     within_one (float_chord_steps chords c dt v) (mv_num_steps m) /\ (float_chord_steps chords c dt v <> mv_num_steps m -> almost_whole (chords * c / (dt * v)))).
Proof. exact static_float. Qed.
Print Assumptions C70_static_movement.

Theorem C70_exact : forall c p dt n, 0 < dt -> double (c * p) -> double (c * p / dt) -> least (lasts dt (c * p)) n -> float_cycle_steps c p dt = n.
Proof. exact cycle_steps_exact. Qed.
Print Assumptions C70_exact.

(** A time step obtained by dividing the period by a whole number. *)
Theorem C70_divided : forall c p n, (1 <= c)%Z -> (1 <= n)%Z -> tiny <= p / IZR n -> IZR (c * n) <= huge ->
  let dt := fdiv p (IZR n) in float_cycle_steps (IZR c) p dt = (c * n)%Z \/ float_cycle_steps (IZR c) p dt = (c * n + 1)%Z.
Proof. exact divided_cycles. Qed.
Print Assumptions C70_divided.

Theorem C70_divided_refuted : exists c n p, (1 <= c)%Z /\ (1 <= n)%Z /\ double p /\ tiny <= p / IZR n /\ IZR (c * n) <= huge /\
  float_cycle_steps (IZR c) p (fdiv p (IZR n)) <> (c * n)%Z.
Proof. exact divided_refuted. Qed.
Print Assumptions C70_divided_refuted.

Theorem C70_cycles_refuted : exists c p dt n, tiny <= c * p /\ 0 < dt /\ countable (c * p / dt) /\ least (lasts dt (c * p)) n /\ float_cycle_steps c p dt <> n.
Proof. exact cycles_refuted. Qed.
Print Assumptions C70_cycles_refuted.

Theorem C70_window : forall n dt p, 0 <= IZR n <= huge -> 0 <= p / dt <= huge ->
  within_one (float_averaging_step n dt p) (first_averaging_step n dt p).
Proof. exact averaging_step_float. Qed.
Print Assumptions C70_window.

Theorem C70_divided_window : forall p n steps, (1 <= n <= steps)%Z -> tiny <= p / IZR n -> IZR steps <= huge ->
  let dt := fdiv p (IZR n) in let averaged := (steps - float_averaging_step steps dt p)%Z in averaged = n \/ averaged = (n + 1)%Z.
Proof. exact divided_window. Qed.
Print Assumptions C70_divided_window.

Theorem C70_frames : forall dt, 0 < dt -> countable (1 / dt) ->
  let rate := float_frame_rate dt in let exact := frame_rate dt in
  within_one (snd rate) (snd exact) /\ (snd exact = 50%Z -> snd rate = 49%Z \/ snd rate = 50%Z) /\ ((snd exact < 50)%Z -> (snd exact <= snd rate)%Z) /\
  Rabs (fst rate - fst exact) <= fst exact / 2 ^ 51.
Proof. exact frame_rate_float. Qed.
Print Assumptions C70_frames.

Theorem C70_frames_refuted : exists dt, 0 < dt /\ countable (1 / dt) /\ snd (frame_rate dt) = 50%Z /\ snd (float_frame_rate dt) = 49%Z.
Proof. exact frames_refuted. Qed.
Print Assumptions C70_frames_refuted.

(** A period of 0.1 s in thirty steps, ten chords of 1 m at 16 m/s, and counts that come
    out exactly. *)
Example C70_tenth : tiny <= 3 * double_0_1 /\ 0 < fdiv double_0_1 30 /\ countable (3 * double_0_1 / fdiv double_0_1 30) /\
  least (lasts (fdiv double_0_1 30) (3 * double_0_1)) 90%Z.
Proof. exact tenth_counts. Qed.
Example C70_tenth_divided : tiny <= double_0_1 / IZR 30 /\ IZR (3 * 30) <= huge.
Proof. exact tenth_divided. Qed.
Example C70_ninety_one : float_cycle_steps 3 double_0_1 (fdiv double_0_1 30) = 91%Z.
Proof. exact ninety_one. Qed.
Example C70_ten_chords : tiny <= 10 * 1 /\ tiny <= / 8 * 16 /\ countable (10 * 1 / (/ 8 * 16)) /\ least (flies (/ 8) 16 (10 * 1)) 5.
Proof. exact chord_example. Qed.
Example C70_whole : 0 < / 32 /\ double (3 * 1) /\ double (3 * 1 / / 32) /\ least (lasts (/ 32) (3 * 1)) 96.
Proof. exact exact_example. Qed.
Example C70_averages : 0 <= IZR 90 <= huge /\ 0 <= double_0_1 / fdiv double_0_1 30 <= huge.
Proof. exact window_example. Qed.
