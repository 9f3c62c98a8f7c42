(** Properties of unsteady simulations that begin alike (C75). *)
From Verif Require Import M_Unsteady S_UnsteadyRun S_Solve S_Causal L_Causal L_CausalMovement L_CausalExample L_Gauss L_Example3 L_Example4 L_Example5.
Import ListNotations.
Local Open Scope R_scope.

(** ** C75: a simulation never looks ahead *)
(** Two problems with the same first [n] time steps have the same results for these steps after [n] steps, whatever
    comes later in either: airplanes with their strengths, loads and wakes, recorded wakes, velocities. *)
Theorem C75_causal : forall solve prescribed n up up' s, SolveSpec solve -> created up -> created up' -> (0 < n)%nat ->
  begin_alike n up up' -> after solve prescribed up n s ->
  exists s', after solve prescribed up' n s' /\ results_alike n s s'.
Proof. intros solve prescribed n up up' s HS. exact (never_ahead solve HS prescribed n up up' s). Qed.
Print Assumptions C75_causal.
(** If the linear system of one of these steps cannot be solved in the one run, the other run stops there as well, with
    the same exception. *)
Theorem C75_failure : forall solve prescribed n up up' s0 s1 s0' s1' e, SolveSpec solve -> created up -> created up' ->
  begin_alike n up up' -> unsteady_new up = Ok s0 -> unsteady_start 0 s0 = Ok s1 -> unsteady_new up' = Ok s0' -> unsteady_start 0 s0' = Ok s1' ->
  unsteady_steps solve prescribed n s1 = Err e -> unsteady_steps solve prescribed n s1' = Err e.
Proof. intros solve prescribed n up up' s0 s1 s0' s1' e HS. exact (fail_alike solve HS prescribed n up up' s0 s1 s0' s1' e). Qed.
Print Assumptions C75_failure.
(** A movement of [m'] steps, however their number was asked for, begins with the movement of [n] steps made from the
    same parts with the same time step. *)
Theorem C75_movement : forall ams om steps cycles chords delta m' n, new_movement ams om steps cycles chords delta = Ok m' ->
  (1 <= n)%nat -> (Z.of_nat n <= mv_num_steps m')%Z ->
  exists m, new_movement ams om (Some (Z.of_nat n)) None None (Some (mv_delta_time m')) = Ok m /\ beginning n m m'.
Proof. exact movement_beginning. Qed.
Print Assumptions C75_movement.
(** If a simulation runs to its end, so does the simulation of its first [n] steps, and the longer one's results for
    these steps are the shorter one's. *)
Theorem C75_longer : forall solve prescribed lines lines' ams om steps cycles chords delta m' up' s' n, SolveSpec solve ->
  new_movement ams om steps cycles chords delta = Ok m' -> new_unsteady_problem m' false = Ok up' ->
  (1 <= n <= length (up_steady_problems up'))%nat -> finished solve prescribed lines' up' s' ->
  exists m up s, new_movement ams om (Some (Z.of_nat n)) None None (Some (mv_delta_time m')) = Ok m /\
    new_unsteady_problem m false = Ok up /\ length (up_steady_problems up) = n /\ finished solve prescribed lines up s /\
    forall k, (k < n)%nat -> nth_error (up_steady_problems (us_problem s')) k = nth_error (up_steady_problems (us_problem s)) k /\
      nth_error (us_wakes s') k = nth_error (us_wakes s) k.
Proof. intros solve prescribed lines lines' ams om steps cycles chords delta m' up' s' n HS. exact (longer_begins solve HS prescribed lines lines' ams om steps cycles chords delta m' up' s' n). Qed.
Print Assumptions C75_longer.

(** The plate in a rising wind and the plate in a steady wind: alike for one step, different after it. *)
Example C75_gust : exists up up' s s', created up /\ created up' /\ begin_alike 1 up up' /\
  nth_error (up_steady_problems up') 1 <> nth_error (up_steady_problems up) 1 /\
  after gauss_solve false up 1 s /\ after gauss_solve false up' 1 s' /\ results_alike 1 s s'.
Proof.
  destruct (windy_runs gust false false false (or_intror (or_introl eq_refl))) as (up & s & W). destruct (windy_runs resting false false false (or_introl eq_refl)) as (up' & s' & W').
  destruct (windy_begin_alike _ _ _ _ _ _ W W') as (C & C' & B & D). destruct (windy_facts _ _ _ _ _ _ (or_intror (or_introl eq_refl)) W) as (_ & _ & _ & _ & A & _).
  destruct (A 1%nat ltac:(repeat constructor)) as [t Ht]. destruct (C75_causal gauss_solve false 1 up up' t gauss_solve_spec C C' (le_n 1) B Ht) as (t' & Ht' & R).
  exists up, up', t, t'. auto 8.
Qed.
(** Two steps of the run of three. *)
Example C75_two_of_three : exists m' up' s' m up s, new_movement [ex_airplane_movement 0 resting] (windy gust) (Some 3%Z) None None (Some 1) = Ok m' /\
  new_unsteady_problem m' false = Ok up' /\ finished gauss_solve true true up' s' /\
  new_movement [ex_airplane_movement 0 resting] (windy gust) (Some 2%Z) None None (Some (mv_delta_time m')) = Ok m /\
  new_unsteady_problem m false = Ok up /\ finished gauss_solve true true up s /\
  forall k, (k < 2)%nat -> nth_error (up_steady_problems (us_problem s')) k = nth_error (up_steady_problems (us_problem s)) k.
Proof.
  destruct (windy_runs gust true true false (or_intror (or_introl eq_refl))) as (up' & s' & W).
  destruct (windy_facts _ _ _ _ _ _ (or_intror (or_introl eq_refl)) W) as (_ & _ & L & _). destruct W as [(m' & Em & Eup) HF].
  destruct (C75_longer gauss_solve true true true _ _ _ _ _ _ m' up' s' 2 gauss_solve_spec Em Eup ltac:(rewrite L; repeat constructor) HF) as (m & up & s & H1 & H2 & _ & H3 & H4).
  exists m', up', s', m, up, s. repeat (split; [assumption|]). intros k Hk. apply (H4 k Hk).
Qed.
