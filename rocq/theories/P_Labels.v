(** Properties of names, weights, reference dimensions, thrust and viscosity (C82). *)
From Verif Require Import M_Horseshoe M_Unsteady S_Solve S_UnsteadyRun S_Labels L_LabelsUnsteady L_Gauss L_Example L_Example3 L_Example4 L_Example5 L_Example6 L_Example2.
Import ListNotations.
Local Open Scope R_scope.

(** ** C82: names, weights, reference dimensions and thrust do not enter the flow *)
(** The steady solvers: with other labels, another thrust and another viscosity a run ends with the same result in
    every attribute, only the coefficients are for the new dimensions. *)
Theorem C82_horseshoe : forall solve op thrust nu lbs airplanes, List.length lbs = List.length airplanes -> Forall without_coefficients airplanes ->
  (forall s, hs_run solve (hs_new airplanes op) = Ok s ->
     hs_run solve (hs_new (map2 with_labels lbs airplanes) (with_nu nu (with_thrust thrust op))) = Ok (hs_with_labels lbs thrust nu s)) /\
  (forall e, hs_run solve (hs_new airplanes op) = Err e ->
     hs_run solve (hs_new (map2 with_labels lbs airplanes) (with_nu nu (with_thrust thrust op))) = Err e).
Proof. exact horseshoe_labels. Qed.
Print Assumptions C82_horseshoe.
Theorem C82_ring : forall solve op thrust nu lbs airplanes, List.length lbs = List.length airplanes -> Forall without_coefficients airplanes ->
  (forall s, ring_run solve (ring_new airplanes op) = Ok s ->
     ring_run solve (ring_new (map2 with_labels lbs airplanes) (with_nu nu (with_thrust thrust op))) = Ok (ring_with_labels lbs thrust nu s)) /\
  (forall e, ring_run solve (ring_new airplanes op) = Err e ->
     ring_run solve (ring_new (map2 with_labels lbs airplanes) (with_nu nu (with_thrust thrust op))) = Err e).
Proof. exact ring_labels. Qed.
Print Assumptions C82_ring.

(** The unsteady solver: other labels and thrusts at any time steps.  Its viscosity does enter. *)
Theorem C82_unsteady : forall solve prescribed lines ls up up' s, created up -> labels_for ls up -> other_labels ls up up' ->
  finished solve prescribed lines up s ->
  exists s', finished solve prescribed lines up' s' /\ unsteady_with_labels ls s s'.
Proof. exact unsteady_labels. Qed.
Print Assumptions C82_unsteady.
Theorem C82_unsteady_failure : forall solve prescribed lines ls up up' s0 e, created up -> labels_for ls up -> other_labels ls up up' ->
  unsteady_new up = Ok s0 -> unsteady_run solve prescribed lines s0 = Err e ->
  exists s0', unsteady_new up' = Ok s0' /\ unsteady_run solve prescribed lines s0' = Err e.
Proof. exact unsteady_labels_error. Qed.
Print Assumptions C82_unsteady_failure.
(** Other labels of the base airplanes and another thrust and viscosity of the base operating point reach the
    problem as other names only, provided the time step and the number of steps do not depend on a changed chord. *)
Theorem C82_movement : forall lbs thrust nu ams om n cy ch dt m only up, List.length lbs = List.length ams -> chord_unused n dt lbs ams ->
  new_movement ams om n cy ch dt = Ok m -> new_unsteady_problem m only = Ok up ->
  exists m' up', new_movement (map2 base_with_labels lbs ams) (base_with_thrust thrust nu om) n cy ch dt = Ok m' /\
    new_unsteady_problem m' only = Ok up' /\ labels_for (names_only lbs up) up /\ other_labels (names_only lbs up) up up'.
Proof. exact problem_labelled. Qed.
Print Assumptions C82_movement.

Definition ex_labels : labels := mklabels "Glider" 420 7 2 3 (fun name => ("Old " ++ name)%string).
Example C82_applies_horseshoe : exists s, hs_run gauss_solve (hs_new [ex_airplane false] (ex_op 1 4)) = Ok s /\
  hs_run gauss_solve (hs_new [with_labels ex_labels (ex_airplane false)] (with_nu 1 (with_thrust 5 (ex_op 1 4)))) = Ok (hs_with_labels [ex_labels] 5 1 s).
Proof.
  destruct (ex_horseshoe_run gauss_solve 1 4 gauss_solve_spec) as (A & s & _ & E & _). exists s. split; [exact E|].
  destruct (C82_horseshoe gauss_solve (ex_op 1 4) 5 1 [ex_labels] [ex_airplane false] eq_refl) as [H _]; [repeat constructor|]. exact (H s E).
Qed.
Example C82_applies_ring : exists s, ring_run gauss_solve (ring_new [ex_airplane true] (ex2_op 1 4)) = Ok s /\
  ring_run gauss_solve (ring_new [with_labels ex_labels (ex_airplane true)] (with_nu 1 (with_thrust 5 (ex2_op 1 4)))) = Ok (ring_with_labels [ex_labels] 5 1 s).
Proof.
  destruct (sym_ring_run gauss_solve 1 4 gauss_solve_spec) as (s & E). exists s. split; [exact E|].
  destruct (C82_ring gauss_solve (ex2_op 1 4) 5 1 [ex_labels] [ex_airplane true] eq_refl) as [H _]; [repeat constructor|]. exact (H s E).
Qed.
(** Three steps in a rising wind, with other labels at each step. *)
Example C82_applies_unsteady : exists up up' s s' ls, created up /\ labels_for ls up /\ other_labels ls up up' /\
  ls = map (fun sp => (5, map (fun _ => ex_labels) (sp_airplanes sp))) (up_steady_problems up) /\
  finished gauss_solve false true up s /\ finished gauss_solve false true up' s' /\ unsteady_with_labels ls s s' /\
  List.length (up_steady_problems up) = 3%nat.
Proof.
  destruct (windy_runs gust false true false (or_intror (or_introl eq_refl))) as (up & s & W). destruct (windy_facts _ _ _ _ _ _ (or_intror (or_introl eq_refl)) W) as (C & _ & L & _).
  destruct W as [(m & Em & Eup) HF].
  set (ls := map (fun sp => (5, map (fun _ => ex_labels) (sp_airplanes sp))) (up_steady_problems up)).
  assert (PL : labels_for ls up).
  { unfold labels_for, ls. generalize (up_steady_problems up) as l. intros l. induction l as [|sp l IH]; constructor; [cbn [snd]; rewrite map_length; reflexivity | exact IH]. }
  destruct (C82_unsteady gauss_solve false true ls up (mkunsteady (up_movement up) (up_num_steps up) (up_delta_time up) (up_only_final_results up) (up_max_period up)
                   (up_first_averaging_step up) (up_first_results_step up) (up_final up) (up_final_mean up) (up_final_rms up)
                   (map2 step_with_labels ls (up_steady_problems up))) s C PL eq_refl HF) as (s' & HF' & R).
  eexists up, _, s, s', ls. split; [exact C|]. split; [exact PL|]. split; [|split; [reflexivity|]; split; [exact HF|]; split; [exact HF'|]; split; [exact R | exact L]]. reflexivity.
Qed.
(** The movement of that problem with other labels and another thrust and viscosity. *)
Example C82_applies_movement : exists m up m' up', new_movement [ex_airplane_movement 0 resting] (windy gust) (Some 3%Z) None None (Some 1) = Ok m /\
  new_unsteady_problem m false = Ok up /\
  new_movement [base_with_labels ex_labels (ex_airplane_movement 0 resting)] (base_with_thrust 5 1 (windy gust)) (Some 3%Z) None None (Some 1) = Ok m' /\
  new_unsteady_problem m' false = Ok up' /\ other_labels (names_only [ex_labels] up) up up'.
Proof.
  destruct (windy_problem gust false (or_intror (or_introl eq_refl))) as (m & up & a & Em & Eup & _).
  destruct (fun H => C82_movement [ex_labels] 5 1 [ex_airplane_movement 0 resting] _ _ _ _ _ m _ up eq_refl H Em Eup) as (m' & up' & H1 & H2 & _ & H3); [left; split; discriminate|].
  exists m, up, m', up'. auto.
Qed.
