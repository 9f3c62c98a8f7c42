(** Properties of the point that moments are taken about (C76). *)
From Verif Require Import M_Horseshoe M_Unsteady S_Solve S_UnsteadyRun S_Reference L_ReferenceMovement L_ReferenceFinal L_DivideExample L_SymmetricExample L_Gauss L_Example L_Example3 L_Example4 L_Example5 L_Example6 L_Example2.
Import ListNotations.
Local Open Scope R_scope.

(** ** C76: moving the reference points changes the moments by lever arm times force, and nothing else *)
(** The steady solvers: airplanes without moments, run with their own reference points and with others. *)
Theorem C76_horseshoe : forall solve op points airplanes s, List.length points = List.length airplanes -> Forall without_moments airplanes ->
  hs_run solve (hs_new airplanes op) = Ok s ->
  exists s', hs_run solve (hs_new (map2 with_reference points airplanes) op) = Ok s' /\ hs_about points s s'.
Proof. exact horseshoe_reference. Qed.
Print Assumptions C76_horseshoe.
Theorem C76_horseshoe_failure : forall solve op points airplanes e, List.length points = List.length airplanes -> Forall without_moments airplanes ->
  hs_run solve (hs_new airplanes op) = Err e -> hs_run solve (hs_new (map2 with_reference points airplanes) op) = Err e.
Proof. exact horseshoe_reference_error. Qed.
Print Assumptions C76_horseshoe_failure.
Theorem C76_ring : forall solve op points airplanes s, List.length points = List.length airplanes -> Forall without_moments airplanes ->
  ring_run solve (ring_new airplanes op) = Ok s ->
  exists s', ring_run solve (ring_new (map2 with_reference points airplanes) op) = Ok s' /\ ring_about points s s'.
Proof. exact ring_reference. Qed.
Print Assumptions C76_ring.
Theorem C76_ring_failure : forall solve op points airplanes e, List.length points = List.length airplanes -> Forall without_moments airplanes ->
  ring_run solve (ring_new airplanes op) = Err e -> ring_run solve (ring_new (map2 with_reference points airplanes) op) = Err e.
Proof. exact ring_reference_error. Qed.
Print Assumptions C76_ring_failure.
(** Airplanes as the constructors make them have no moments. *)
Theorem C76_new_airplanes : forall wings name x y z weight s c b a,
  (forall w, In w wings -> exists sections n x' y' z' u sym ch nc sp, new_wing sections n x' y' z' u sym ch nc sp = Ok w) ->
  new_airplane wings name x y z weight s c b = Ok a -> without_moments a.
Proof. exact new_without_moments. Qed.
Print Assumptions C76_new_airplanes.

(** The unsteady solver: other reference points for any airplanes at any time steps. *)
Theorem C76_unsteady : forall solve prescribed lines points up up' s, created up -> points_for points up -> other_references points up up' ->
  finished solve prescribed lines up s ->
  exists s', finished solve prescribed lines up' s' /\ unsteady_about points s s'.
Proof. exact unsteady_reference. Qed.
Print Assumptions C76_unsteady.
Theorem C76_unsteady_failure : forall solve prescribed lines points up up' s0 e, created up -> points_for points up -> other_references points up up' ->
  unsteady_new up = Ok s0 -> unsteady_run solve prescribed lines s0 = Err e ->
  exists s0', unsteady_new up' = Ok s0' /\ unsteady_run solve prescribed lines s0' = Err e.
Proof. exact unsteady_reference_error. Qed.
Print Assumptions C76_unsteady_failure.
(** Moving the reference points of a movement's base airplanes is such a change. *)
Theorem C76_movement : forall ds ams om n cy ch dt m only up, List.length ds = List.length ams ->
  new_movement ams om n cy ch dt = Ok m -> new_unsteady_problem m only = Ok up ->
  exists m' up', new_movement (map2 moved_base ds ams) om n cy ch dt = Ok m' /\ new_unsteady_problem m' only = Ok up' /\
    points_for (moved_points ds up) up /\ other_references (moved_points ds up) up up'.
Proof. exact problem_moved. Qed.
Print Assumptions C76_movement.

(** The loads kept at the end of a run: the last time step's if nothing oscillates, otherwise the
    means over the averaging window.  The root mean squares of moments obey no such law: of those,
    [unsteady_about] gives the forces. *)
Theorem C76_final : forall solve, SolveSpec solve -> forall prescribed lines ds ams om n cy ch dt m only up s, List.length ds = List.length ams ->
  new_movement ams om n cy ch dt = Ok m -> new_unsteady_problem m only = Ok up -> finished solve prescribed lines up s ->
  (up_first_averaging_step up < up_num_steps up)%Z ->
  exists m' up' s', new_movement (map2 moved_base ds ams) om n cy ch dt = Ok m' /\ new_unsteady_problem m' only = Ok up' /\
    finished solve prescribed lines up' s' /\ unsteady_about (moved_points ds up) s s' /\
    final_about (om_base om) ds (up_final (us_problem s)) (up_final (us_problem s')) /\
    final_about (om_base om) ds (up_final_mean (us_problem s)) (up_final_mean (us_problem s')).
Proof. exact movement_finals_moved. Qed.
Print Assumptions C76_final.

Example C76_applies_horseshoe : exists s s', hs_run gauss_solve (hs_new [ex_airplane false] (ex_op 1 4)) = Ok s /\
  hs_run gauss_solve (hs_new [with_reference (mkvec 1 2 3) (ex_airplane false)] (ex_op 1 4)) = Ok s' /\ hs_about [mkvec 1 2 3] s s'.
Proof.
  destruct (ex_horseshoe_run gauss_solve 1 4 gauss_solve_spec) as (A & s & _ & E & _).
  destruct (C76_horseshoe gauss_solve (ex_op 1 4) [mkvec 1 2 3] [ex_airplane false] s eq_refl) as (s' & E' & H); [repeat constructor | exact E|].
  exists s, s'. auto.
Qed.
Example C76_applies_ring : exists s s', ring_run gauss_solve (ring_new [ex_airplane true] (ex2_op 1 4)) = Ok s /\
  ring_run gauss_solve (ring_new [with_reference (mkvec 1 2 3) (ex_airplane true)] (ex2_op 1 4)) = Ok s' /\ ring_about [mkvec 1 2 3] s s'.
Proof.
  destruct (sym_ring_run gauss_solve 1 4 gauss_solve_spec) as (s & E).
  destruct (C76_ring gauss_solve (ex2_op 1 4) [mkvec 1 2 3] [ex_airplane true] s eq_refl) as (s' & E' & H); [repeat constructor | exact E|].
  exists s, s'. auto.
Qed.
(** Three steps in a rising wind. *)
Example C76_applies_unsteady : exists up up' s s', created up /\ other_references (moved_points [mkvec 1 2 3] up) up up' /\
  finished gauss_solve false true up s /\ finished gauss_solve false true up' s' /\ unsteady_about (moved_points [mkvec 1 2 3] up) s s' /\
  List.length (up_steady_problems up) = 3%nat.
Proof.
  destruct (windy_runs gust false true false (or_intror (or_introl eq_refl))) as (up & s & W). destruct (windy_facts _ _ _ _ _ _ (or_intror (or_introl eq_refl)) W) as (C & _ & L & _).
  destruct W as [(m & Em & Eup) HF]. destruct (C76_movement [mkvec 1 2 3] [ex_airplane_movement 0 resting] _ _ _ _ _ m _ up eq_refl Em Eup) as (m' & up' & _ & _ & P & O).
  destruct (C76_unsteady _ _ _ _ _ _ s C P O HF) as (s' & HF' & R). exists up, up', s, s'. auto 8.
Qed.
(** Three steps in a gust, over which the loads are averaged. *)
Example C76_applies_final : forall only prescribed lines : bool, exists m up s,
  new_movement [still_airplane long_movement] (windy gust) (Some 3%Z) None None (Some 1) = Ok m /\ new_unsteady_problem m only = Ok up /\
  finished gauss_solve prescribed lines up s /\ (up_first_averaging_step up < up_num_steps up)%Z /\ List.length (up_steady_problems up) = 3%nat.
Proof. intros only prescribed lines. destruct (long_flight only prescribed lines) as (m & up & s & H1 & H2 & _ & H3 & H4 & H5). exists m, up, s. auto. Qed.
