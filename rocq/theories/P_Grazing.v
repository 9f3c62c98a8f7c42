(** Properties of wings that only graze the stream (C77). *)
From Coq Require Import Lra.
From Verif Require Import M_Horseshoe M_SteadyRing M_Unsteady S_Solve S_Mirror S_Loads S_Solvable S_Streamlines L_SteadyRing S_Unsteady S_UnsteadyRun S_Grazing L_Grazing L_GrazingRun L_GrazingLoads L_GrazingProps L_GrazingExample L_Gauss L_Wake L_Example.
Import ListNotations.
Local Open Scope R_scope.

(** ** C77: a wing leaves the stream alone exactly if the stream only grazes it, and then it carries no loads *)
Theorem C77_horseshoe : forall solve airplanes op s, SolveSpec solve -> hs_run solve (hs_new airplanes op) = Ok s ->
  ((forall p, In p (panels_of airplanes) -> grazes op p) <-> forall p, In p (panels_of (hso_airplanes s)) -> horseshoe_strength p = Some 0).
Proof. exact horseshoe_grazing. Qed.
Print Assumptions C77_horseshoe.
Theorem C77_horseshoe_unloaded : forall solve airplanes op s, SolveSpec solve -> hs_run solve (hs_new airplanes op) = Ok s ->
  (forall p, In p (panels_of airplanes) -> grazes op p) ->
  (forall a, In a (hso_airplanes s) -> unloaded op a) /\
  uniform (hs_solution_velocity s) (freestream_velocity op) /\
  exists lines, hso_streamline_points s = Some lines /\ straight_on (freestream_velocity op) (trailing_midpoints (all_panels (hso_airplanes s))) lines.
Proof. exact horseshoe_unloaded. Qed.
Print Assumptions C77_horseshoe_unloaded.
Theorem C77_ring : forall solve airplanes op s, SolveSpec solve -> fresh_ring (ring_new airplanes op) -> ring_run solve (ring_new airplanes op) = Ok s ->
  ((forall p, In p (panels_of airplanes) -> grazes op p) <-> forall p, In p (panels_of (rso_airplanes s)) -> ring_strength p = Some 0).
Proof. exact ring_grazing. Qed.
Print Assumptions C77_ring.
Theorem C77_ring_unloaded : forall solve airplanes op s, SolveSpec solve -> fresh_ring (ring_new airplanes op) ->
  (forall a w, In a airplanes -> In w (a_wings a) -> well_meshed (w_panels w)) -> ring_run solve (ring_new airplanes op) = Ok s ->
  (forall p, In p (panels_of airplanes) -> grazes op p) ->
  (forall a, In a (rso_airplanes s) -> unloaded op a) /\
  uniform (ring_solution_velocity s) (freestream_velocity op) /\
  exists lines, rso_streamline_points s = Some lines /\ straight_on (freestream_velocity op) (trailing_midpoints (all_panels (rso_airplanes s))) lines.
Proof. exact ring_unloaded. Qed.
Print Assumptions C77_ring_unloaded.

(** The unsteady solver, over the first [n] time steps. *)
Theorem C77_unsteady : forall solve, SolveSpec solve -> forall prescribed up n s, created up -> has_run solve prescribed up n s -> up_delta_time up <> 0 ->
  (grazes_all_along up n <-> forall k sp p, (k < n)%nat -> step_at s k sp -> In p (step_panels sp) -> ring_strength p = Some 0).
Proof. exact unsteady_grazing. Qed.
Print Assumptions C77_unsteady.
Theorem C77_unsteady_wake : forall solve, SolveSpec solve -> forall prescribed up n s grids, created up -> has_run solve prescribed up n s -> up_delta_time up <> 0 ->
  grazes_all_along up n -> forall k, (k <= n)%nat -> wake_is s k grids -> forall r, In r (concat (map (@concat ring_vortex) grids)) -> rv_strength r = 0.
Proof. exact grazing_wake. Qed.
Print Assumptions C77_unsteady_wake.
Theorem C77_unsteady_flow : forall solve, SolveSpec solve -> forall prescribed up n s, created up -> has_run solve prescribed up (S n) s -> up_delta_time up <> 0 ->
  grazes_all_along up (S n) -> forall points, unsteady_solution_velocity s points = Ok (map (fun _ => freestream_at s n) points).
Proof. exact grazing_flow. Qed.
Print Assumptions C77_unsteady_flow.
Theorem C77_unsteady_unloaded : forall solve, SolveSpec solve -> forall prescribed up n s k sp a, created up -> has_run solve prescribed up n s -> up_delta_time up <> 0 ->
  grazes_all_along up n -> (k < n)%nat -> (up_first_results_step up <= Z.of_nat k)%Z -> step_at s k sp -> In a (sp_airplanes sp) ->
  unloaded (sp_operating_point sp) a.
Proof. exact grazing_unloaded. Qed.
Print Assumptions C77_unsteady_unloaded.
Theorem C77_unsteady_final : forall solve, SolveSpec solve -> forall prescribed lines up s get fl, created up -> finished solve prescribed lines up s ->
  0 < up_delta_time up -> 0 <= up_max_period up -> grazes_all_along up (List.length (up_steady_problems up)) ->
  In (get, fl) load_lists -> measured up \/ fl = fl_forces \/ fl = fl_moments ->
  forall v, In v (fl (up_final (us_problem s)) ++ fl (up_final_mean (us_problem s)) ++ fl (up_final_rms (us_problem s))) -> v = vzero.
Proof. exact grazing_final. Qed.
Print Assumptions C77_unsteady_final.
Theorem C77_unsteady_streamlines : forall solve, SolveSpec solve -> forall prescribed up s, created up -> finished solve prescribed true up s -> up_delta_time up <> 0 ->
  grazes_all_along up (List.length (up_steady_problems up)) ->
  exists sp lines, step_at s (List.length (up_steady_problems up) - 1) sp /\ us_streamline_points s = Some lines /\
    straight_on (freestream_velocity (sp_operating_point sp)) (trailing_midpoints (step_panels sp)) lines.
Proof. exact grazing_streamlines. Qed.
Print Assumptions C77_unsteady_streamlines.
(** It then makes no difference which wake model is chosen. *)
Theorem C77_any_wake_steps : forall solve, SolveSpec solve -> forall prescribed prescribed' up n s, created up -> up_delta_time up <> 0 ->
  (n <= List.length (up_steady_problems up))%nat -> grazes_all_along up n -> after solve prescribed up n s -> after solve prescribed' up n s.
Proof. exact any_wake. Qed.
Print Assumptions C77_any_wake_steps.
Theorem C77_any_wake : forall solve, SolveSpec solve -> forall prescribed prescribed' lines up s, created up -> up_delta_time up <> 0 ->
  grazes_all_along up (List.length (up_steady_problems up)) -> finished solve prescribed lines up s -> finished solve prescribed' lines up s.
Proof. exact any_wake_run. Qed.
Print Assumptions C77_any_wake.

Example C77_applies_horseshoe : exists s, hs_run gauss_solve (hs_new [ex_airplane false] (level_op 4 0)) = Ok s /\
  (forall p, In p (panels_of [ex_airplane false]) -> grazes (level_op 4 0) p) /\ uniform (hs_solution_velocity s) (mkvec 4 0 0).
Proof.
  destruct (level_horseshoe gauss_solve 4 gauss_solve_spec) as [s E]. exists s. split; [exact E|]. split; [exact (level_grazing 4)|].
  rewrite <- (level_velocity 4 0). exact (proj1 (proj2 (C77_horseshoe_unloaded _ _ _ _ gauss_solve_spec E (level_grazing 4)))).
Qed.
(** The same airplane at another angle is not grazed. *)
Example C77_not_always : exists s, hs_run gauss_solve (hs_new [ex_airplane false] (ex_op 1 4)) = Ok s /\
  ~ forall p, In p (panels_of (hso_airplanes s)) -> horseshoe_strength p = Some 0.
Proof.
  destruct (ex_horseshoe_run gauss_solve 1 4 gauss_solve_spec) as (A & s & _ & E & _). exists s. split; [exact E|]. intros H. pose proof (proj2 (C77_horseshoe _ _ _ _ gauss_solve_spec E) H) as HG.
  exact (ex_not_grazed 1 4 ltac:(lra) (HG ex_panel (or_introl eq_refl))).
Qed.
Example C77_applies_ring : exists s, ring_run gauss_solve (ring_new [ex_airplane false] (level_op 4 0)) = Ok s /\ forall a, In a (rso_airplanes s) -> unloaded (level_op 4 0) a.
Proof.
  destruct (level_ring gauss_solve 4 gauss_solve_spec) as [s E]. exists s. split; [exact E|].
  refine (proj1 (C77_ring_unloaded _ _ _ _ gauss_solve_spec (ex_fresh _) _ E (level_grazing 4))). intros a w [<-|[]] Hw. exact (proj1 (ex_well_meshed false) w Hw).
Qed.
(** Three time steps of a wing gliding edge on. *)
Example C77_applies_unsteady : forall only prescribed lines : bool, exists up s, created up /\ up_delta_time up = 1 /\ up_max_period up = 0 /\ (up_first_results_step up < 3)%Z /\
  List.length (up_steady_problems up) = 3%nat /\ grazes_all_along up 3 /\ measured up /\
  (exists sp, nth_error (up_steady_problems up) 2 = Some sp /\ freestream_velocity (sp_operating_point sp) = mkvec 4 0 0) /\ finished gauss_solve prescribed lines up s.
Proof. exact glide_case. Qed.
