(** Property theorems C32 - C38 (movements and unsteady problems;
    pterasoftware/movement.py and pterasoftware/problems.py). *)
From Coq Require Import Lra Lia.
From Verif Require Import M_Movement S_Geometry S_Wing S_Movement L_Base L_Loads L_Geometry L_Example L_Movement L_Snapshots L_Problems L_Surface L_Example3 L_Statements3.

(** ** C32  Movement length.  [movement_rules] lists the rules on the optional
    arguments in the order they are checked. *)
Theorem C32_rejects : forall ams om num_steps num_cycles num_chords delta_time p e,
  max_period ams om = Ok p -> first_violated (movement_rules p num_steps num_cycles num_chords) e ->
  new_movement ams om num_steps num_cycles num_chords delta_time = Err e.
Proof. exact movement_rejected. Qed.
Print Assumptions C32_rejects.

Theorem C32_rules_hold : forall ams om num_steps num_cycles num_chords delta_time p m,
  max_period ams om = Ok p -> new_movement ams om num_steps num_cycles num_chords delta_time = Ok m ->
  all_hold (movement_rules p num_steps num_cycles num_chords).
Proof. exact movement_accepts_rules. Qed.
Print Assumptions C32_rules_hold.

Theorem C32_given_steps : forall ams om n num_cycles num_chords delta_time m,
  new_movement ams om (Some n) num_cycles num_chords delta_time = Ok m ->
  mv_num_steps m = n /\ mv_num_cycles m = None /\ mv_num_chords m = None.
Proof. exact given_steps. Qed.
Print Assumptions C32_given_steps.

Theorem C32_static_steps : forall ams om num_cycles num_chords delta_time m,
  new_movement ams om None num_cycles num_chords delta_time = Ok m -> largest (all_periods ams om) 0 ->
  exists c, largest (map (fun am => a_c_ref (am_base am)) ams) c /\ mv_num_chords m = Some (given num_chords 10) /\ mv_num_cycles m = None /\
    (0 < mv_delta_time m * op_velocity (om_base om) ->
     least (flies (mv_delta_time m) (op_velocity (om_base om)) (given num_chords 10 * c)) (mv_num_steps m)).
Proof. exact static_steps. Qed.
Print Assumptions C32_static_steps.

Theorem C32_periodic_steps : forall ams om num_cycles num_chords delta_time m p,
  new_movement ams om None num_cycles num_chords delta_time = Ok m -> largest (all_periods ams om) p -> p <> 0 ->
  mv_num_cycles m = Some (given num_cycles 3) /\ mv_num_chords m = None /\
  (0 < mv_delta_time m -> least (lasts (mv_delta_time m) (given num_cycles 3 * p)) (mv_num_steps m)).
Proof. exact periodic_steps. Qed.
Print Assumptions C32_periodic_steps.

Theorem C32_time_step : forall ams om num_steps num_cycles num_chords delta_time m,
  new_movement ams om num_steps num_cycles num_chords delta_time = Ok m ->
  match delta_time with
  | Some dt => mv_delta_time m = dt
  | None => exists dts, Forall2 (wing_step (op_velocity (om_base om))) ams dts /\ mv_delta_time m = mean dts
  end.
Proof. exact time_step. Qed.
Print Assumptions C32_time_step.

(** Movements are accepted whenever the rules hold and the snapshots can be built. *)
Theorem C32_accepts : forall ams om num_steps num_cycles num_chords delta_time p,
  ams <> [] -> Forall airplane_movable ams -> good_spacing (om_velocity om) -> max_period ams om = Ok p -> 0 <= p ->
  all_hold (movement_rules p num_steps num_cycles num_chords) -> 0 < op_velocity (om_base om) ->
  (forall am, In am ams -> 0 < a_c_ref (am_base am) /\
     exists w, nth_error (a_wings (am_base am)) 0 = Some w /\ (1 <= w_num_chordwise_panels w)%nat) ->
  (forall dt, delta_time = Some dt -> 0 < dt) -> (forall n, num_steps = Some n -> (1 <= n)%Z) ->
  (forall k, num_cycles = Some k -> 0 < k) -> (forall k, num_chords = Some k -> 0 < k) ->
  exists m, new_movement ams om num_steps num_cycles num_chords delta_time = Ok m /\ (1 <= mv_num_steps m)%Z /\ 0 < mv_delta_time m.
Proof. exact movement_accepted. Qed.
Print Assumptions C32_accepts.

Theorem C32_accepts_iff : forall ams om num_steps num_cycles num_chords dt n,
  num_steps = Some n -> (1 <= n)%Z ->
  (succeeds (new_movement ams om num_steps num_cycles num_chords (Some dt)) <->
   num_cycles = None /\ num_chords = None /\ Forall airplane_movable ams /\ good_spacing (om_velocity om)).
Proof. exact movement_succeeds. Qed.
Print Assumptions C32_accepts_iff.

Example C32_flapping : exists m, new_movement [ex_airplane_movement 0 flap] ex_op_movement None None None None = Ok m /\
  mv_num_cycles m = Some 3 /\ mv_delta_time m = 4 /\ mv_num_steps m = 2%Z.
Proof. exact flapping_three_cycles. Qed.
Example C32_rejected_chords : new_movement [ex_airplane_movement 0 flap] ex_op_movement None None (Some 2) None = Err EChordsPeriodic.
Proof.
  apply (C32_rejects _ _ _ _ _ _ _ _ (ex_periods 0)). unfold movement_rules. rewrite !violated_cons.
  right. split; [left; reflexivity|]. right. split; [left; reflexivity|]. right. split; [right; reflexivity|]. left. split; [|reflexivity].
  intros [H|H]; [discriminate H | lra].
Qed.

(** ** C33  Snapshots and steady problems line up *)
Theorem C33_lengths : forall ams om num_steps num_cycles num_chords delta_time m,
  new_movement ams om num_steps num_cycles num_chords delta_time = Ok m ->
  (0 <= mv_num_steps m)%Z /\ length (mv_operating_points m) = Z.to_nat (mv_num_steps m) /\
  Forall2 (fun am history => length history = Z.to_nat (mv_num_steps m) /\
             Forall (fun a => length (a_wings a) = length (am_wings am) /\
                              Forall2 (fun wm w => length (w_sections w) = length (wm_sections wm)) (am_wings am) (a_wings a)) history)
          ams (mv_airplanes m).
Proof. exact snapshot_lengths. Qed.
Print Assumptions C33_lengths.

Theorem C33_problem_created : forall ams om num_steps num_cycles num_chords delta_time m only_final_results,
  new_movement ams om num_steps num_cycles num_chords delta_time = Ok m -> populated ams ->
  exists problem, new_unsteady_problem m only_final_results = Ok problem.
Proof. exact unsteady_succeeds. Qed.
Print Assumptions C33_problem_created.

Theorem C33_problem_lines_up : forall m only_final_results problem,
  new_unsteady_problem m only_final_results = Ok problem ->
  up_movement problem = m /\ up_num_steps problem = mv_num_steps m /\ up_delta_time problem = mv_delta_time m /\
  length (up_steady_problems problem) = Z.to_nat (mv_num_steps m) /\
  forall i sp, nth_error (up_steady_problems problem) i = Some sp -> lines_up m i sp.
Proof. exact problem_lines_up. Qed.
Print Assumptions C33_problem_lines_up.

(** Exactly which movements have snapshots. *)
Theorem C33_wings_created_iff : forall m n dt, (1 <= n)%Z -> (succeeds (generate_wings m n dt) <-> wing_movable m).
Proof. exact wings_succeed. Qed.
Print Assumptions C33_wings_created_iff.

Theorem C33_airplanes_created_iff : forall m n dt, (1 <= n)%Z -> (succeeds (generate_airplanes m n dt) <-> airplane_movable m).
Proof. exact airplanes_succeed. Qed.
Print Assumptions C33_airplanes_created_iff.

Example C33_example : exists m up, new_movement [ex_airplane_movement 0 flap] ex_op_movement (Some 4%Z) None None (Some (1 / 2)) = Ok m /\
  mv_num_steps m = 4%Z /\ new_unsteady_problem m true = Ok up /\ up_first_averaging_step up = 0%Z.
Proof. exact (ex_movement 0). Qed.

(** ** C34  Oscillation profiles.  [follows_wave w a T base n dt l]: [l] has [n] values,
    the i-th being base + a w(i dt / T), or base when a or T is zero. *)
Theorem C34_sine : forall a T base n dt l, oscillating_sinspace a T base n dt = Ok l -> follows_wave sine_wave a T base n dt l.
Proof. exact sinspace_wave. Qed.
Print Assumptions C34_sine.

Theorem C34_uniform : exists f, triangle_wave f /\
  forall a T base n dt l, oscillating_linspace a T base n dt = Ok l -> follows_wave f a T base n dt l.
Proof. exact uniform_profile. Qed.
Print Assumptions C34_uniform.

Theorem C34_custom : forall f a T base n dt l, oscillating_customspace a T base n dt f = Ok l ->
  follows_wave (fun s => f (2 * PI * s)) a T base n dt l.
Proof. exact customspace_wave. Qed.
Print Assumptions C34_custom.

Theorem C34_unit_waves : unit_wave sine_wave /\ (forall f, triangle_wave f -> unit_wave f) /\
  (forall f, f 0 = 0 -> (forall x, Rabs (f x) <= 1) -> (forall x, f (x + 2 * PI) = f x) -> unit_wave (fun s => f (2 * PI * s))).
Proof. exact unit_waves. Qed.
Print Assumptions C34_unit_waves.

Theorem C34_start_bound_repeat : forall w a T base n dt l, follows_wave w a T base n dt l -> unit_wave w ->
  length l = Z.to_nat n /\
  (forall v, nth_error l 0 = Some v -> v = base) /\
  (forall i v, nth_error l i = Some v -> Rabs (v - base) <= Rabs a) /\
  (forall i k j u v, INR k * dt = IZR j * T -> nth_error l i = Some u -> nth_error l (i + k) = Some v -> v = u) /\
  (a = 0 \/ T = 0 -> l = repeat base (length l)).
Proof. exact wave_laws. Qed.
Print Assumptions C34_start_bound_repeat.

Theorem C34_created : forall a T base n dt, (0 <= n)%Z ->
  (exists l, oscillating_sinspace a T base n dt = Ok l) /\ (exists l, oscillating_linspace a T base n dt = Ok l) /\
  (forall f, exists l, oscillating_customspace a T base n dt f = Ok l).
Proof. exact profiles_created. Qed.
Print Assumptions C34_created.

Example C34_quarter_period : exists l, oscillating_sinspace 3 4 10 2 1 = Ok l /\ nth_error l 1 = Some 13.
Proof. exact quarter_period. Qed.

(** ** C35  Maximum period *)
Theorem C35_largest : forall ams om p, max_period ams om = Ok p -> largest (all_periods ams om) p.
Proof. exact max_period_largest. Qed.
Print Assumptions C35_largest.

Theorem C35_defined_iff : forall ams om, (exists p, max_period ams om = Ok p) <-> populated ams.
Proof. exact max_period_total. Qed.
Print Assumptions C35_defined_iff.

Theorem C35_zero_iff : forall ams om p, max_period ams om = Ok p -> (forall q, In q (all_periods ams om) -> 0 <= q) ->
  (p = 0 <-> forall q, In q (all_periods ams om) -> q = 0).
Proof. exact period_zero_iff. Qed.
Print Assumptions C35_zero_iff.

Example C35_flapping : max_period [ex_airplane_movement 0 flap] ex_op_movement = Ok 2.
Proof. exact (ex_periods 0). Qed.

(** ** C36  Snapshots keep what does not move.  False as stated: unit vectors, the
    airplane's weight and reference dimensions and the operating point's viscosity
    and external thrust fall back to the constructors' defaults. *)
Theorem C36_airplane_partial : forall m n dt l i a, generate_airplanes m n dt = Ok l -> nth_error l i = Some a ->
  airplane_kept m a /\ airplane_reset a.
Proof. exact generated_airplane_kept. Qed.
Print Assumptions C36_airplane_partial.

Theorem C36_wing_partial : forall m n dt ws i w, generate_wings m n dt = Ok ws -> nth_error ws i = Some w -> wing_kept m w /\ wing_reset w.
Proof. exact generated_wing_kept. Qed.
Print Assumptions C36_wing_partial.

Theorem C36_operating_point_partial : forall m n dt l i op, generate_operating_points m n dt = Ok l -> nth_error l i = Some op ->
  op_density op = op_density (om_base m) /\ op_alpha op = op_alpha (om_base m) /\ op_beta op = op_beta (om_base m) /\
  op_external_thrust op = 0 /\ op_nu op = 1506 / 100000000.
Proof. exact operating_point_kept. Qed.
Print Assumptions C36_operating_point_partial.

Theorem C36_wing_refuted : exists sections m ws w,
  new_wing sections "wing" 0 0 0 (mkvec 0 0 1) false (mkvec 1 0 0) 1 "uniform" = Ok (wm_base m) /\
  map sm_base (wm_sections m) = sections /\ wing_unmoving m /\ generate_wings m 1 1 = Ok ws /\ In w ws /\
  w_unit_normal w <> w_unit_normal (wm_base m) /\
  exists s t, In s sections /\ In t (w_sections w) /\ cs_unit_normal t <> cs_unit_normal s.
Proof. exact fin_turned. Qed.
Print Assumptions C36_wing_refuted.

Theorem C36_airplane_refuted : exists m l a,
  (exists w, new_airplane [w] "plane" 0 0 0 6 (Some 8) (Some 4) (Some 3) = Ok (am_base m)) /\
  generate_airplanes m 1 1 = Ok l /\ In a l /\ a_weight a <> a_weight (am_base m) /\ a_b_ref a <> a_b_ref (am_base m).
Proof. exact airplane_attributes_dropped. Qed.
Print Assumptions C36_airplane_refuted.

Theorem C36_operating_point_refuted : exists m l op, generate_operating_points m 1 1 = Ok l /\ In op l /\
  op_nu op <> op_nu (om_base m) /\ op_external_thrust op <> op_external_thrust (om_base m).
Proof. exact operating_point_dropped. Qed.
Print Assumptions C36_operating_point_refuted.

(** ** C37  The first snapshot.  False as stated: it reproduces the base leading edges
    exactly when every section lies outboard of the previous one without both sweep
    and dihedral, or straight above or behind it. *)
Theorem C37_first_snapshot_iff : forall m n dt ws w, generate_wings m n dt = Ok ws -> nth_error ws 0 = Some w -> sections_start_at_base m ->
  w_leading_edge w = w_leading_edge (wm_base m) /\
  (map cs_leading_edge (w_sections w) = base_edges m <->
   (forall root, nth_error (base_edges m) 0 = Some root -> root = vzero) /\ successive representable (base_edges m)).
Proof. exact first_wing. Qed.
Print Assumptions C37_first_snapshot_iff.

Theorem C37_static_wing : forall m n dt ws, generate_wings m n dt = Ok ws -> wing_unmoving m -> plain_base m ->
  ws = repeat (wm_base m) (Z.to_nat n).
Proof. exact static_wings. Qed.
Print Assumptions C37_static_wing.

Theorem C37_swept_dihedral_refuted : exists sections m ws w,
  new_wing sections "wing" 0 0 0 (mkvec 0 1 0) false (mkvec 1 0 0) 1 "uniform" = Ok (wm_base m) /\
  map sm_base (wm_sections m) = sections /\ wing_unmoving m /\ generate_wings m 1 1 = Ok ws /\ nth_error ws 0 = Some w /\
  map cs_leading_edge (w_sections w) <> map cs_leading_edge sections.
Proof. exact swept_dihedral_refuted. Qed.
Print Assumptions C37_swept_dihedral_refuted.

Theorem C37_port_wing_refuted : exists sections m ws w,
  new_wing sections "wing" 0 0 0 (mkvec 0 1 0) false (mkvec 1 0 0) 1 "uniform" = Ok (wm_base m) /\
  map sm_base (wm_sections m) = sections /\ wing_unmoving m /\ generate_wings m 1 1 = Ok ws /\ nth_error ws 0 = Some w /\
  map cs_leading_edge (w_sections w) <> map cs_leading_edge sections /\ map cs_leading_edge sections = [vzero; mkvec 0 (-1) 0].
Proof. exact backward_refuted. Qed.
Print Assumptions C37_port_wing_refuted.

Example C37_representable : successive representable (base_edges (ex_wing_movement flap)) /\ sections_start_at_base (ex_wing_movement flap) /\
  wing_movable (ex_wing_movement flap) /\ plain_base (ex_wing_movement flap).
Proof.
  split; [exact (proj2 (proj2 (ex_plain flap)))|]. split; [|split; [|apply ex_plain]].
  - intros sm [<-|[<-|[]]]; split; left; reflexivity.
  - apply plate_movable; [left| |]; reflexivity.
Qed.

(** ** C38  Averaging window *)
Theorem C38_window : forall m only_final_results problem, new_unsteady_problem m only_final_results = Ok problem ->
  let n := mv_num_steps m in let dt := mv_delta_time m in let p := up_max_period problem in
  let first := up_first_averaging_step problem in
  largest (all_periods (mv_airplane_movements m) (mv_op_movement m)) p /\
  (p = 0 -> first = (n - 1)%Z) /\
  (0 < p -> 0 < dt -> lasts dt p n -> least (lasts dt p) (n - first)) /\
  (0 < p -> 0 < dt -> ~ lasts dt p n -> first = 0%Z) /\
  (0 <= p -> 0 < dt -> (0 < n)%Z -> (0 <= first < n)%Z) /\
  up_first_results_step problem = (if only_final_results then first else 0%Z).
Proof. exact averaging_window. Qed.
Print Assumptions C38_window.

(** There always is a step to average over: wings have two cross sections. *)
Theorem C38_some_step : forall ams om num_cycles num_chords num_steps delta_time m am wm,
  new_movement ams om num_steps num_cycles num_chords delta_time = Ok m -> In am ams -> In wm (am_wings am) ->
  (2 <= length (wm_sections wm))%nat -> (1 <= mv_num_steps m)%Z.
Proof. exact steps_positive. Qed.
Print Assumptions C38_some_step.

Example C38_example : exists m up, new_movement [ex_airplane_movement 0 flap] ex_op_movement (Some 4%Z) None None (Some (1 / 2)) = Ok m /\
  mv_num_steps m = 4%Z /\ new_unsteady_problem m true = Ok up /\ up_first_averaging_step up = 0%Z.
Proof. exact (ex_movement 0). Qed.
