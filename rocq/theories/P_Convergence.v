(** C46-C48: the convergence searches and the meshes they generate. *)
From Coq Require Import Lra Lia.
From Verif Require Import M_Convergence S_Convergence S_Geometry S_Solve.
From Verif Require Import L_Analysis L_AnalysisExample L_AnalysisExample2 L_FlapExample L_Gauss L_Gaps L_Example.

(** ** C46: steady search *)
(** [in_ranges], [acceptable], [reached], [ran], [answer] and [results2] are defined in
    S_Convergence.v.  Solvers are run at [ar_hi, ..., ar_lo] times [chord_lo, ..., chord_hi]
    in this order; the search stops at the first acceptable run and answers with the
    coarser values it was compared with. *)
Theorem C46_found : forall pchip database solve ref solver_type ars chords criteria,
  let trial := steady_trial pchip database solve solver_type ref in
  let c := results2 trial in
  sp_airplanes ref <> [] ->
  (forall ar n p, in_ranges (fst ars) (snd ars) (fst chords) (snd chords) ar n -> In p (c ar n) -> fst p <> 0 /\ snd p <> 0) ->
  forall a b,
  analyze_steady_convergence pchip database solve ref solver_type ars chords criteria = Ok (Some (a, b)) <->
  exists ar n,
    reached criteria (fst ars) (snd ars) (fst chords) (snd chords) trial c ar n /\ ran trial c ar n /\
    acceptable criteria (fst ars) (snd ars) (fst chords) (snd chords) c ar n /\
    answer criteria (fst ars) (fst chords) (snd chords) c ar n a b.
Proof. exact steady_analysis_found. Qed.
Print Assumptions C46_found.

Theorem C46_not_found : forall pchip database solve ref solver_type ars chords criteria,
  let trial := steady_trial pchip database solve solver_type ref in
  let c := results2 trial in
  sp_airplanes ref <> [] ->
  (forall ar n p, in_ranges (fst ars) (snd ars) (fst chords) (snd chords) ar n -> In p (c ar n) -> fst p <> 0 /\ snd p <> 0) ->
  (analyze_steady_convergence pchip database solve ref solver_type ars chords criteria = Ok None <->
   forall ar n, in_ranges (fst ars) (snd ars) (fst chords) (snd chords) ar n ->
     ran trial c ar n /\ ~ acceptable criteria (fst ars) (snd ars) (fst chords) (snd chords) c ar n).
Proof. exact steady_analysis_not_found. Qed.
Print Assumptions C46_not_found.

Theorem C46_failed : forall pchip database solve ref solver_type ars chords criteria,
  let trial := steady_trial pchip database solve solver_type ref in
  let c := results2 trial in
  sp_airplanes ref <> [] ->
  (forall ar n p, in_ranges (fst ars) (snd ars) (fst chords) (snd chords) ar n -> In p (c ar n) -> fst p <> 0 /\ snd p <> 0) ->
  forall e,
  analyze_steady_convergence pchip database solve ref solver_type ars chords criteria = Err e <->
  exists ar n, reached criteria (fst ars) (snd ars) (fst chords) (snd chords) trial c ar n /\ trial ar n = Err e.
Proof. exact steady_analysis_failed. Qed.
Print Assumptions C46_failed.

Theorem C46_answer_in_ranges : forall pchip database solve ref solver_type ars chords criteria a b,
  analyze_steady_convergence pchip database solve ref solver_type ars chords criteria = Ok (Some (a, b)) ->
  in_ranges (fst ars) (snd ars) (fst chords) (snd chords) a b /\
  exists v, steady_trial pchip database solve solver_type ref a b = Ok v.
Proof. exact steady_analysis_ran. Qed.
Print Assumptions C46_answer_in_ranges.

Theorem C46_bad_solver_type : forall pchip database solve ref solver_type ars chords criteria,
  solver_type <> "steady horseshoe vortex lattice method"%string ->
  solver_type <> "steady ring vortex lattice method"%string ->
  (exists ar n, in_ranges (fst ars) (snd ars) (fst chords) (snd chords) ar n) ->
  exists e, analyze_steady_convergence pchip database solve ref solver_type ars chords criteria = Err e.
Proof. exact bad_solver_type. Qed.
Print Assumptions C46_bad_solver_type.

(** With an empty range nothing is run, and nothing is checked. *)
Theorem C46_empty_ranges : forall pchip database solve ref solver_type ars chords criteria,
  (forall ar n, ~ in_ranges (fst ars) (snd ars) (fst chords) (snd chords) ar n) ->
  analyze_steady_convergence pchip database solve ref solver_type ars chords criteria = Ok None.
Proof. exact steady_analysis_empty. Qed.
Print Assumptions C46_empty_ranges.

(** The hypothesis that no coefficient is zero is needed: a moment that is zero in all
    runs hides the changes of the next airplane's moment. *)
Theorem C46_zero_moments_refuted : exists trial : Z -> Z -> result (list (R * R)),
  (forall ar n, exists v, trial ar n = Ok v) /\
  steady_search trial 1 1 1 3 50 = Ok (Some (1, 1)%Z) /\
  ~ exists ar n, in_ranges 1 1 1 3 ar n /\ acceptable 50 1 1 1 3 (results2 trial) ar n.
Proof. exact zero_moments_hide. Qed.
Print Assumptions C46_zero_moments_refuted.

(** And results that do not change at all, being zero, do not pass. *)
Theorem C46_zero_loads_refuted : exists trial : Z -> Z -> result (list (R * R)),
  (forall ar n, trial ar n = Ok [(0, 0)]) /\ steady_search trial 4 1 3 4 5 = Ok None.
Proof. exact zero_loads_never_settle. Qed.
Print Assumptions C46_zero_loads_refuted.

(** The answer combines the coarser values of two comparisons; that mesh itself was
    not compared with a finer one, and its results can be far from those of every
    other mesh in the ranges. *)
Theorem C46_answer_settled_refuted : exists f : Z -> Z -> R,
  steady_search (fun ar n => Ok [(f ar n, f ar n)]) 3 2 1 2 50 = Ok (Some (3, 1)%Z) /\
  forall ar n, in_ranges 3 2 1 2 ar n -> (ar, n) <> (3, 1)%Z ->
    ~ close 50 [f ar n] [f 3%Z 1%Z] /\ ~ close 50 [f 3%Z 1%Z] [f ar n].
Proof. exact (ex_intro _ corner corner_search). Qed.
Print Assumptions C46_answer_settled_refuted.

(** A plate of 4 by 4 at 30 degrees: the analysis runs, no coefficient is zero. *)
Example C46_plate : forall pchip database criteria,
  let trial := steady_trial pchip database gauss_solve horseshoe_method wide_problem in
  sp_airplanes wide_problem <> [] /\
  (forall ar n p, in_ranges 1 1 1 1 ar n -> In p (results2 trial ar n) -> fst p <> 0 /\ snd p <> 0) /\
  (exists x y, trial 1%Z 1%Z = Ok [(x, y)]) /\
  analyze_steady_convergence pchip database gauss_solve wide_problem horseshoe_method (1, 1)%Z (1, 1)%Z criteria = Ok (Some (1, 1)%Z).
Proof.
  intros pchip database criteria. split; [discriminate|]. split; [intros ar n p; exact (wide_nonzero _ _ _ ar n p gauss_solve_spec)|].
  split; [|exact (wide_analysis _ _ _ _ gauss_solve_spec)].
  destruct (wide_trial pchip database gauss_solve gauss_solve_spec) as (x & y & _ & _ & E). exists x, y. exact E.
Qed.

(** ** C47: unsteady search *)
Theorem C47_found : forall pchip database solve ref prescribed free cycles chords_long ars chords mask criteria period,
  let used := match mask with Some l => l | None => repeat true 6 end in
  let lengths := if Reqb period 0 then chords_long else cycles in
  let trial := unsteady_trial pchip database solve used (Reqb period 0) (up_movement ref) in
  let c := results4 trial in
  mv_max_period (up_movement ref) = Ok period ->
  mv_airplane_movements (up_movement ref) <> [] -> In true used ->
  forall wake' l' a b,
  analyze_unsteady_convergence pchip database solve ref prescribed free cycles chords_long ars chords mask criteria =
    Ok (Some (wake', l', a, b)) <->
  exists wake l ar n,
    reached4 criteria prescribed free (fst lengths) (snd lengths) (fst ars) (snd ars) (fst chords) (snd chords) trial c wake l ar n /\
    ran4 trial c wake l ar n /\
    acceptable4 criteria prescribed free (fst lengths) (snd lengths) (fst ars) (snd ars) (fst chords) (snd chords) c wake l ar n /\
    answer4 criteria prescribed (fst lengths) (snd lengths) (fst ars) (fst chords) (snd chords) c wake l ar n wake' l' a b.
Proof. exact unsteady_analysis_found. Qed.
Print Assumptions C47_found.

Theorem C47_not_found : forall pchip database solve ref prescribed free cycles chords_long ars chords mask criteria period,
  let used := match mask with Some l => l | None => repeat true 6 end in
  let lengths := if Reqb period 0 then chords_long else cycles in
  let trial := unsteady_trial pchip database solve used (Reqb period 0) (up_movement ref) in
  let c := results4 trial in
  mv_max_period (up_movement ref) = Ok period ->
  mv_airplane_movements (up_movement ref) <> [] -> In true used ->
  (analyze_unsteady_convergence pchip database solve ref prescribed free cycles chords_long ars chords mask criteria = Ok None <->
   forall wake l ar n,
     in_ranges4 prescribed free (fst lengths) (snd lengths) (fst ars) (snd ars) (fst chords) (snd chords) wake l ar n ->
     ran4 trial c wake l ar n /\
     ~ acceptable4 criteria prescribed free (fst lengths) (snd lengths) (fst ars) (snd ars) (fst chords) (snd chords) c wake l ar n).
Proof. exact unsteady_analysis_not_found. Qed.
Print Assumptions C47_not_found.

Theorem C47_failed : forall pchip database solve ref prescribed free cycles chords_long ars chords mask criteria period,
  let used := match mask with Some l => l | None => repeat true 6 end in
  let lengths := if Reqb period 0 then chords_long else cycles in
  let trial := unsteady_trial pchip database solve used (Reqb period 0) (up_movement ref) in
  let c := results4 trial in
  mv_max_period (up_movement ref) = Ok period ->
  mv_airplane_movements (up_movement ref) <> [] -> In true used ->
  forall e,
  analyze_unsteady_convergence pchip database solve ref prescribed free cycles chords_long ars chords mask criteria = Err e <->
  exists wake l ar n,
    reached4 criteria prescribed free (fst lengths) (snd lengths) (fst ars) (snd ars) (fst chords) (snd chords) trial c wake l ar n /\
    trial wake l ar n = Err e.
Proof. exact unsteady_analysis_failed. Qed.
Print Assumptions C47_failed.

Theorem C47_answer_in_ranges : forall pchip database solve ref prescribed free cycles chords_long ars chords mask criteria period,
  let used := match mask with Some l => l | None => repeat true 6 end in
  let lengths := if Reqb period 0 then chords_long else cycles in
  mv_max_period (up_movement ref) = Ok period -> forall wake l a b,
  analyze_unsteady_convergence pchip database solve ref prescribed free cycles chords_long ars chords mask criteria =
    Ok (Some (wake, l, a, b)) ->
  in_ranges4 prescribed free (fst lengths) (snd lengths) (fst ars) (snd ars) (fst chords) (snd chords) wake l a b /\
  exists v, unsteady_trial pchip database solve used (Reqb period 0) (up_movement ref) wake l a b = Ok v.
Proof. exact unsteady_analysis_ran. Qed.
Print Assumptions C47_answer_in_ranges.

(** The plate of 4 by 4 at rest in a level flow, with a free wake two chords long: the analysis runs and answers. *)
Example C47_plate : exists m ref, new_movement [wide_movement 1] calm None None (Some 2) None = Ok m /\ new_unsteady_problem m false = Ok ref /\
  mv_max_period (up_movement ref) = Ok 0 /\ mv_airplane_movements (up_movement ref) <> [] /\
  forall pchip database criteria,
    (forall wake l, (1 <= l)%Z -> exists v, length v = 6%nat /\ unsteady_trial pchip database gauss_solve (repeat true 6) true (up_movement ref) wake l 1 1 = Ok [v]) /\
    analyze_unsteady_convergence pchip database gauss_solve ref false true (1, 1)%Z (2, 2)%Z (1, 1)%Z (1, 1)%Z None criteria = Ok (Some (false, 2, 1, 1)%Z).
Proof. exact wide_unsteady_analysis. Qed.

(** ** C48: the meshes *)
(** [remeshed_airplane], [recounted_sections] and [wanted_across]: S_Convergence.v. *)
Theorem C48_steady_meshes : forall pchip database solve ref solver_type ar n v,
  interpolating pchip ->
  (forall a w s, In a (sp_airplanes ref) -> In w (a_wings a) -> In s (w_sections w) -> built_airfoil pchip database (cs_airfoil s)) ->
  steady_trial pchip database solve solver_type ref ar n = Ok v ->
  exists airplanes solved,
    Forall2 (remeshed_airplane n ar) (sp_airplanes ref) airplanes /\
    run_steady solve solver_type (mksteady airplanes (sp_operating_point ref)) = Ok solved /\
    Forall2 (fun a p => exists f m, a_force_coefficients a = Some f /\ a_moment_coefficients a = Some m /\ p = (vnorm f, vnorm m)) solved v.
Proof. exact steady_trial_meshes. Qed.
Print Assumptions C48_steady_meshes.

Theorem C48_unsteady_meshes : forall pchip database solve ref mask period wake l ar n v,
  let used := match mask with Some l => l | None => repeat true 6 end in
  let static := Reqb period 0 in
  interpolating pchip ->
  (forall m wm s, In m (mv_airplane_movements (up_movement ref)) -> In wm (am_wings m) -> In s (wm_sections wm) ->
     built_airfoil pchip database (cs_airfoil (sm_base s))) ->
  unsteady_trial pchip database solve used static (up_movement ref) wake l ar n = Ok v ->
  exists ams m up s t,
    Forall2 (remeshed_airplane_movement n ar) (mv_airplane_movements (up_movement ref)) ams /\
    new_movement ams (mv_op_movement (up_movement ref)) None (if static then None else Some (IZR l)) (if static then Some (IZR l) else None) None = Ok m /\
    new_unsteady_problem m true = Ok up /\ unsteady_new up = Ok s /\ unsteady_run solve wake false s = Ok t /\
    length v = length ams /\ compared used (if static then up_final (us_problem t) else up_final_rms (us_problem t)) v.
Proof. exact unsteady_trial_meshes. Qed.
Print Assumptions C48_unsteady_meshes.

(** The number of panels across a strip is the wanted one up to rounding; it is at
    least one exactly when more than half a panel is wanted. *)
Theorem C48_counts : forall n ar w w' i s t s',
  remeshed_wing n ar w w' ->
  nth_error (w_sections w) i = Some s -> nth_error (w_sections w) (S i) = Some t -> nth_error (w_sections w') i = Some s' ->
  ((1 <= cs_num_spanwise_panels s')%nat <-> 1 / 2 < wanted_across n ar s t) /\
  (cs_num_spanwise_panels s' = 0%nat <-> Rabs (wanted_across n ar s t) <= 1 / 2) /\
  Rabs (INR (cs_num_spanwise_panels s') - wanted_across n ar s t) <= 1 / 2.
Proof. exact strip_count. Qed.
Print Assumptions C48_counts.

(** A wing of one panel, 4 long and 1 across, becomes a wing without panels. *)
Theorem C48_at_least_one_refuted : exists w,
  new_wing [plate 0 "symmetric" 0 1; plate 1 "symmetric" 0 1] "wing" 0 0 0 (mkvec 0 1 0) false (mkvec 1 0 0) 1 "uniform" = Ok w /\
  length (concat (w_panels w)) = 1%nat /\
  forall pchip database, exists w', copy_wing pchip database 1 1 w = Ok w' /\ concat (w_panels w') = [].
Proof. exact no_panels. Qed.
Print Assumptions C48_at_least_one_refuted.

(** In a symmetric wing the same strip ends the analysis with an error. *)
Theorem C48_symmetric_needs_panels : forall pchip database n ar w i s t,
  interpolating pchip -> Forall (fun x => built_airfoil pchip database (cs_airfoil x)) (w_sections w) ->
  w_symmetric w = true -> nth_error (w_sections w) i = Some s -> nth_error (w_sections w) (S i) = Some t ->
  wanted_across n ar s t <= 1 / 2 -> exists e, copy_wing pchip database n ar w = Err e.
Proof. exact symmetric_needs_panels. Qed.
Print Assumptions C48_symmetric_needs_panels.

(** A vertical strip (a fin) always ends it: its length is measured along y. *)
Theorem C48_vertical_strip_fails : forall pchip database solve ref solver_type ars chords criteria a w i s t,
  In a (sp_airplanes ref) -> In w (a_wings a) ->
  nth_error (w_sections w) i = Some s -> nth_error (w_sections w) (S i) = Some t -> cs_y_le t = cs_y_le s ->
  (exists ar n, in_ranges (fst ars) (snd ars) (fst chords) (snd chords) ar n) ->
  exists e, analyze_steady_convergence pchip database solve ref solver_type ars chords criteria = Err e.
Proof. exact vertical_strip. Qed.
Print Assumptions C48_vertical_strip_fails.

(** The plate again; [table] looks values up and so interpolates. *)
Example C48_plate : forall database, interpolating table /\
  (forall a w s, In a (sp_airplanes wide_problem) -> In w (a_wings a) -> In s (w_sections w) -> built_airfoil table database (cs_airfoil s)) /\
  (exists v, steady_trial table database gauss_solve horseshoe_method wide_problem 1 1 = Ok v) /\
  (forall k y, wanted_across 1 1 (plate 0 "symmetric" 0 k) (plate y "symmetric" 0 k) = y / 4).
Proof.
  intros database. split; [exact table_interpolating|]. split; [|split].
  - intros a w s [<-|[]] [<-|[]] [<-|[<-|[]]]; apply plate_built.
  - destruct (wide_trial table database gauss_solve gauss_solve_spec) as (x & y & _ & _ & E). eauto.
  - intros k y. unfold wanted_across, plate; cbn. field.
Qed.
