(** Property theorems C65 (images of unsteady problems, symmetric flapping flight). *)
From Coq Require Import List ZArith Reals.
From Verif Require Import M_Unsteady S_Geometry S_Solve S_Mirror S_Rigid S_Movement S_Unsteady S_UnsteadyRun S_Image
  L_Gauss L_SymmetricExample L_FlapExample L_ImageRun L_ImageFinal L_SymmetricFlight L_ImageMovement L_Example4 L_ImageExample L_Statements5.
Import ListNotations.
Local Open Scope R_scope.

(** ** C65  A problem whose airplanes and flow are, at every time step, the image of those of
    another under one motion of space (shifts, turns, reflections), with airplanes and wings
    listed in any order and wings numbered from either tip, runs as well.  Strengths, wakes,
    loads and velocities are images of one another at every step. *)
Theorem C65_run_image : forall mirror m t pr up up' solve prescribed n s,
  SolveSpec solve -> isometric mirror m -> created up -> created up' -> up_delta_time up <> 0 ->
  problem_image mirror m t pr up up' -> after solve prescribed up n s ->
  exists s', after solve prescribed up' n s' /\ run_image mirror m t pr (up_first_results_step up) n s s'.
Proof. exact image_run. Qed.
Print Assumptions C65_run_image.

(** So are the loads kept at the end: those of the last step, or the averages over the window;
    root mean squares are the same, since they have no signs. *)
Theorem C65_finished_image : forall mirror m t pr up up' solve prescribed lines s,
  SolveSpec solve -> isometric mirror m -> created up -> created up' -> up_delta_time up <> 0 ->
  problem_image mirror m t pr up up' ->
  up_max_period up' = up_max_period up -> (up_first_averaging_step up < up_num_steps up)%Z ->
  finished solve prescribed lines up s ->
  exists s', finished solve prescribed lines up' s' /\
    run_image mirror m t pr (up_first_results_step up) (length (up_steady_problems up)) s s' /\
    final_image pr (wind_image mirror) (wind_image_moment mirror) (up_final (us_problem s)) (up_final (us_problem s')) /\
    final_image pr (wind_image mirror) (wind_image_moment mirror) (up_final_mean (us_problem s)) (up_final_mean (us_problem s')) /\
    final_image pr (fun v => v) (fun v => v) (up_final_rms (us_problem s)) (up_final_rms (us_problem s')).
Proof. exact (fun mirror m t pr up up' solve prescribed lines s HS HI HC HC' Hdt HP Hper Hwin => image_finished solve HS prescribed lines mirror m t HI pr up up' HC HC' HP Hdt Hper Hwin s). Qed.
Print Assumptions C65_finished_image.

(** The plate in gusts, with moments about a corner, seen in a mirror that stands in its middle. *)
Example C65_mirror_example : exists up up' s,
  created up /\ created up' /\ up_delta_time up <> 0 /\ up_max_period up' = up_max_period up /\ (up_first_averaging_step up < up_num_steps up)%Z /\
  problem_image true reflection (mkvec 0 1 0) alone up up' /\ finished gauss_solve false true up s /\ length (up_steady_problems up) = 3%nat /\ (0 = 1 -> up' = up).
Proof. exact (plates_image 0 1 false false true (eq_sym (Rminus_0_r 1))). Qed.

(** Where airplanes are placed and in which order they and their wings are listed does not
    matter: movements that differ in nothing else give problems that are images. *)
Theorem C65_elsewhere : forall d f g ams ams' om ns cy ch dt ns' cy' ch' dt' mv mv' only up up',
  movements_elsewhere d f g ams ams' ->
  new_movement ams om ns cy ch dt = Ok mv -> new_movement ams' om ns' cy' ch' dt' = Ok mv' ->
  mv_num_steps mv' = mv_num_steps mv -> mv_delta_time mv' = mv_delta_time mv ->
  new_unsteady_problem mv only = Ok up -> new_unsteady_problem mv' only = Ok up' ->
  problem_image false mid d (in_order f g) up up' /\ up_max_period up' = up_max_period up.
Proof. exact problem_elsewhere. Qed.
Print Assumptions C65_elsewhere.

Theorem C65_elsewhere_exists : forall d f g ams ams' om n dt mv only up,
  movements_elsewhere d f g ams ams' -> (1 <= n)%Z ->
  new_movement ams om (Some n) None None (Some dt) = Ok mv -> new_unsteady_problem mv only = Ok up ->
  exists mv' up', new_movement ams' om (Some n) None None (Some dt) = Ok mv' /\ new_unsteady_problem mv' only = Ok up' /\
    mv_num_steps mv' = mv_num_steps mv /\ mv_delta_time mv' = mv_delta_time mv.
Proof. exact movement_elsewhere_exists. Qed.
Print Assumptions C65_elsewhere_exists.

Theorem C65_elsewhere_run : forall d f g ams ams' om ns cy ch dt ns' cy' ch' dt' mv mv' only up up' solve prescribed n s,
  SolveSpec solve -> movements_elsewhere d f g ams ams' ->
  new_movement ams om ns cy ch dt = Ok mv -> new_movement ams' om ns' cy' ch' dt' = Ok mv' ->
  mv_num_steps mv' = mv_num_steps mv -> mv_delta_time mv' = mv_delta_time mv -> mv_delta_time mv <> 0 ->
  new_unsteady_problem mv only = Ok up -> new_unsteady_problem mv' only = Ok up' -> after solve prescribed up n s ->
  exists s', after solve prescribed up' n s' /\ run_image false mid d (in_order f g) (up_first_results_step up) n s s'.
Proof. exact run_elsewhere. Qed.
Print Assumptions C65_elsewhere_run.

(** The plate in gusts, anywhere else. *)
Example C65_elsewhere_example : forall d, exists mv mv' up up' s,
  new_movement [plate_about 0] (windy gust) (Some 3%Z) None None (Some 1) = Ok mv /\
  new_movement (map (shifted_airplane d) [plate_about 0]) (windy gust) (Some 3%Z) None None (Some 1) = Ok mv' /\
  mv_num_steps mv' = mv_num_steps mv /\ mv_delta_time mv' = mv_delta_time mv /\ mv_delta_time mv <> 0 /\
  new_unsteady_problem mv false = Ok up /\ new_unsteady_problem mv' false = Ok up' /\ after gauss_solve true up 3 s /\
  movements_elsewhere d (fun k => k) (fun _ k => k) [plate_about 0] (map (shifted_airplane d) [plate_about 0]).
Proof. exact (fun d => plate_shifted d false true). Qed.
(** Two airplanes listed the other way round, the second with its wings after the first in reverse order. *)
Example C65_order_example : forall (a b : airplane_movement) (w : wing_movement) ws,
  (forall am v, In am [a; b] -> In v (am_wings am) -> has_panels v) -> am_wings b = w :: ws ->
  movements_elsewhere vzero (fun k => 1 - k)%nat
    (fun k => match k with O => fun j => j | S _ => fun j => match j with O => O | S i => length ws - i end end)%nat
    [a; b] [mkairmove (am_base b) (w :: rev ws) (am_x_ref b) (am_y_ref b) (am_z_ref b); a].
Proof. exact (fun a b w ws H EW => swapped_elsewhere a b _ w ws H EW eq_refl). Qed.

(** A problem that is its own image in a mirror stays so, and an airplane that is its own image
    feels no side force, rolling or yawing moment. *)
Theorem C65_own_image : forall m t pr up solve prescribed n s,
  SolveSpec solve -> isometric true m -> created up -> up_delta_time up <> 0 -> problem_image true m t pr up up ->
  after solve prescribed up n s ->
  run_image true m t pr (up_first_results_step up) n s s /\
  forall k sp i a, (k < n)%nat -> (up_first_results_step up <= Z.of_nat k)%Z -> step_at s k sp ->
    nth_error (sp_airplanes sp) i = Some a -> partner pr i = i -> no_lateral_loads a.
Proof. exact own_image. Qed.
Print Assumptions C65_own_image.

(** The plate in gusts, with moments about its middle. *)
Example C65_own_image_example : forall prescribed, exists up s,
  created up /\ up_delta_time up <> 0 /\ isometric true reflection /\ problem_image true reflection (mkvec 0 1 0) alone up up /\
  after gauss_solve prescribed up 3 s /\ partner alone 0%nat = 0%nat.
Proof. exact plate_own_image. Qed.

(** Symmetric wings that flap in the middle of the flow, without sideslip. *)
Theorem C65_symmetric_flight : forall ams om ns cy ch d mv only up solve prescribed n s,
  SolveSpec solve -> new_movement ams om ns cy ch d = Ok mv -> new_unsteady_problem mv only = Ok up ->
  (forall am, In am ams -> symmetric_movement am) -> no_sideslip (om_base om) -> mv_delta_time mv <> 0 ->
  after solve prescribed up n s ->
  (forall x u, unsteady_solution_velocity s [x] = Ok [u] -> unsteady_solution_velocity s [across x] = Ok [across u]) /\
  forall k sp a, (k < n)%nat -> (up_first_results_step up <= Z.of_nat k)%Z -> step_at s k sp ->
    In a (sp_airplanes sp) -> no_lateral_loads a.
Proof. exact symmetric_flight. Qed.
Print Assumptions C65_symmetric_flight.

Theorem C65_symmetric_finals : forall ams om ns cy ch d mv only up solve prescribed lines s,
  SolveSpec solve -> new_movement ams om ns cy ch d = Ok mv -> new_unsteady_problem mv only = Ok up ->
  (forall am, In am ams -> symmetric_movement am) -> no_sideslip (om_base om) -> mv_delta_time mv <> 0 ->
  (up_first_averaging_step up < up_num_steps up)%Z -> finished solve prescribed lines up s ->
  forall fl, In fl [up_final (us_problem s); up_final_mean (us_problem s)] ->
    (forall f, In f (fl_forces fl ++ fl_force_coefficients fl) -> vy f = 0) /\
    (forall m, In m (fl_moments fl ++ fl_moment_coefficients fl) -> vx m = 0 /\ vz m = 0).
Proof. exact symmetric_finals. Qed.
Print Assumptions C65_symmetric_finals.

(** A symmetric wing of two panels in gusts. *)
Example C65_symmetric_example : forall only prescribed lines, exists mv up s sf,
  new_movement [still_airplane sym_movement] (windy gust) (Some 3%Z) None None (Some 1) = Ok mv /\ new_unsteady_problem mv only = Ok up /\
  (forall am, In am [still_airplane sym_movement] -> symmetric_movement am) /\ no_sideslip (om_base (windy gust)) /\ mv_delta_time mv <> 0 /\
  (up_first_averaging_step up < up_num_steps up)%Z /\ finished gauss_solve prescribed lines up s /\ after gauss_solve prescribed up 3 sf.
Proof. exact symmetric_runs. Qed.

(** Without "deflected alike" this fails.  A wing that is its own mirror image, with symmetric
    flaps on the inner half of its span, sheds a wake that is not: where the flap ends, the wake
    follows the inner panel on one side and the outer panel on the other. *)
Theorem C65_flap_refuted : forall only prescribed, exists am mv up s g l r,
  symmetric_but_for_flaps am /\ (forall w, In w (am_wings am) -> mirrored_wing mirrored_panel (wm_base w) (wm_base w)) /\ no_sideslip (om_base calm) /\
  new_movement [am] calm (Some 3%Z) None None (Some 1) = Ok mv /\ mv_delta_time mv <> 0 /\ new_unsteady_problem mv only = Ok up /\
  after gauss_solve prescribed up 3 s /\ wake_is s 1 [g] /\ (exists w, wing_at s 1 0 w /\ w_num_spanwise_panels w = 4%nat) /\
  entry g 0 1 l /\ entry g 0 2 r /\ across (rv_front_left l) <> rv_front_right r.
Proof. exact flap_wake. Qed.
Print Assumptions C65_flap_refuted.
