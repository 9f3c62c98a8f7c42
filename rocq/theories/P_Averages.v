(** Property theorems C88 (final averages; pterasoftware/unsteady_ring_vortex_lattice_method.py:
    finalize_near_field_forces_and_moments). *)
From Coq Require Import Reals List ZArith Lia.
From Verif Require Import M_Unsteady S_Solve S_UnsteadyRun S_Averages L_Gauss L_FlapExample L_AnalysisExample2 L_Averages L_AveragesExample.
Import ListNotations.
Local Open Scope R_scope.

(** ** C88: what final averages tell about the steps they are taken over *)
(** Each component of a mean lies between two values that were reached, and so does each root mean
    square, between two absolute values.  The root mean square is at least the absolute mean, and is
    it exactly if the component did not change. *)
Theorem C88_range : forall solve, SolveSpec solve -> forall prescribed lines up s, created up -> finished solve prescribed lines up s ->
  up_max_period up <> 0 -> (up_first_averaging_step up < up_num_steps up)%Z ->
  forall load final, In (load, final) load_lists -> forall component i mean rms, In component [vx; vy; vz] ->
  nth_error (final (up_final_mean (us_problem s))) i = Some mean -> nth_error (final (up_final_rms (us_problem s))) i = Some rms ->
  (exists k v, averaged up s i load k v /\ component v <= component mean) /\
  (exists k v, averaged up s i load k v /\ component mean <= component v) /\
  (exists k v, averaged up s i load k v /\ Rabs (component v) <= component rms) /\
  (exists k v, averaged up s i load k v /\ component rms <= Rabs (component v)) /\
  Rabs (component mean) <= component rms /\
  (component rms = Rabs (component mean) <-> forall k v, averaged up s i load k v -> component v = component mean).
Proof. exact averages_range. Qed.
Print Assumptions C88_range.

(** At constant dynamic pressure and reference dimensions the averaged coefficients are those of the
    averaged loads. *)
Theorem C88_force_coefficients : forall solve, SolveSpec solve -> forall prescribed lines up s, created up -> finished solve prescribed lines up s ->
  up_max_period up <> 0 -> (up_first_averaging_step up < up_num_steps up)%Z ->
  forall i q area span chord mean rms mean' rms', same_scales up s i q area span chord -> q <> 0 -> area <> 0 ->
  nth_error (fl_forces (up_final_mean (us_problem s))) i = Some mean -> nth_error (fl_forces (up_final_rms (us_problem s))) i = Some rms ->
  nth_error (fl_force_coefficients (up_final_mean (us_problem s))) i = Some mean' -> nth_error (fl_force_coefficients (up_final_rms (us_problem s))) i = Some rms' ->
  (vx mean' * (q * area) = - vx mean /\ vy mean' * (q * area) = vy mean /\ vz mean' * (q * area) = - vz mean) /\
  forall component, In component [vx; vy; vz] -> component rms' * Rabs (q * area) = component rms.
Proof. exact averages_force_coefficients. Qed.
Print Assumptions C88_force_coefficients.
Theorem C88_moment_coefficients : forall solve, SolveSpec solve -> forall prescribed lines up s, created up -> finished solve prescribed lines up s ->
  up_max_period up <> 0 -> (up_first_averaging_step up < up_num_steps up)%Z ->
  forall i q area span chord mean rms mean' rms', same_scales up s i q area span chord -> q <> 0 -> area <> 0 -> span <> 0 -> chord <> 0 ->
  nth_error (fl_moments (up_final_mean (us_problem s))) i = Some mean -> nth_error (fl_moments (up_final_rms (us_problem s))) i = Some rms ->
  nth_error (fl_moment_coefficients (up_final_mean (us_problem s))) i = Some mean' -> nth_error (fl_moment_coefficients (up_final_rms (us_problem s))) i = Some rms' ->
  forall component length, In (component, length) [(vx, span); (vy, chord); (vz, span)] ->
    component mean' * (q * area * length) = component mean /\ component rms' * Rabs (q * area * length) = component rms.
Proof. exact averages_moment_coefficients. Qed.
Print Assumptions C88_moment_coefficients.

(** Three steps, the last two of which are averaged. *)
Example C88_applies : forall only prescribed lines : bool, exists m up s,
  new_movement [wide_movement 0] idle_wind (Some 3%Z) None None (Some 1) = Ok m /\ new_unsteady_problem m only = Ok up /\ finished gauss_solve prescribed lines up s /\
  up_max_period up <> 0 /\ up_num_steps up = 3%Z /\ up_first_averaging_step up = 1%Z /\ same_scales up s 0 8 16 4 4.
Proof. exact idle_averages. Qed.
