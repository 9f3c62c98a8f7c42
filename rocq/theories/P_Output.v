(** Property theorems C53, C55 and C59-C62 (pictures, animations, plots and printed
    results; pterasoftware/output.py).  [solved solve s airplanes] says that the solver
    [s] was run and leaves [airplanes] to be shown; [created] and [finished] are as for
    the unsteady solver. *)
From Coq Require Import Reals List ZArith String.
From Verif Require Import M_Output S_Solve S_Loads S_Unsteady S_UnsteadyRun S_Output L_Gauss L_Example L_AnalysisExample L_Output L_Print L_OutputExample.
Import ListNotations.
Local Open Scope R_scope.

(** ** C53  Pictures.  Four points per panel and a face that joins its corners in the order
    front left, front right, back right, back left; panel after panel. *)
Theorem C53_panel_surfaces : forall airplanes,
  shows (get_panel_surfaces airplanes) (map outline (all_panels airplanes)) /\
  List.length (mesh_points (get_panel_surfaces airplanes)) = (4 * List.length (all_panels airplanes))%nat.
Proof. exact panel_surfaces. Qed.
Print Assumptions C53_panel_surfaces.

Theorem C53_scalars : forall airplanes t coefficient, In (t, coefficient) scalar_types ->
  get_scalars airplanes t = map coefficient (all_panels airplanes).
Proof. exact scalars_are. Qed.
Print Assumptions C53_scalars.

Theorem C53_other_scalars : forall airplanes t, ~ In t (map fst scalar_types) -> get_scalars airplanes t = [].
Proof. exact other_scalars. Qed.
Print Assumptions C53_other_scalars.

(** The wake mesh of step [k] shows the wake rings of step [k], none missing. *)
Theorem C53_wake_surfaces : forall solve, SolveSpec solve -> forall prescribed up n s k sp,
  created up -> has_run solve prescribed up n s -> (k < n)%nat -> step_at s k sp ->
  exists m, get_wake_ring_vortex_surfaces s k = Ok m /\ shows_wake s k m.
Proof. exact run_wake. Qed.
Print Assumptions C53_wake_surfaces.

(** Every solved problem can be drawn, with scalars or without. *)
Theorem C53_draw : forall solve, SolveSpec solve -> forall s airplanes t coefficient show_streamlines show_wake_vortices,
  solved solve s airplanes -> all_panels airplanes <> [] -> In (t, coefficient) scalar_types ->
  (show_streamlines = false \/ streamline_points s <> None) ->
  exists pic, draw s (Some t) show_streamlines show_wake_vortices = Ok pic /\
    drawing s airplanes show_streamlines show_wake_vortices pic /\ coloured t airplanes (pic_scalars pic).
Proof. exact draw_coloured. Qed.
Print Assumptions C53_draw.

Theorem C53_draw_plain : forall solve, SolveSpec solve -> forall s airplanes scalar_type show_streamlines show_wake_vortices,
  solved solve s airplanes -> (forall t, scalar_type = Some t -> ~ In t (map fst scalar_types)) ->
  (show_streamlines = false \/ streamline_points s <> None) ->
  exists pic, draw s scalar_type show_streamlines show_wake_vortices = Ok pic /\
    drawing s airplanes show_streamlines show_wake_vortices pic /\ pic_scalars pic = None.
Proof. exact draw_plain. Qed.
Print Assumptions C53_draw_plain.

(** When drawing raises: streamlines that were not computed, scalars of no panels. *)
Theorem C53_no_streamlines : forall solve, SolveSpec solve -> forall s airplanes scalar_type show_wake_vortices,
  solved solve s airplanes -> streamline_points s = None ->
  (forall t, scalar_type = Some t -> ~ In t (map fst scalar_types)) \/ all_panels airplanes <> [] ->
  draw s scalar_type true show_wake_vortices = Err EAttributeError.
Proof. exact draw_no_streamlines. Qed.
Print Assumptions C53_no_streamlines.

Theorem C53_no_panels : forall solve s airplanes t coefficient show_streamlines show_wake_vortices,
  SolveSpec solve -> solved solve s airplanes -> all_panels airplanes = [] -> In (t, coefficient) scalar_types ->
  draw s (Some t) show_streamlines show_wake_vortices = Err EValueError.
Proof. exact draw_empty. Qed.
Print Assumptions C53_no_panels.

Example C53_applies_steady : exists s a p, solved gauss_solve (HorseshoeSolver s) [a] /\ all_panels [a] = [p] /\ streamline_points (HorseshoeSolver s) <> None.
Proof. exact solved_plate. Qed.
Example C53_applies_unsteady : exists s sp p, solved gauss_solve (UnsteadySolver s) (sp_airplanes sp) /\ all_panels (sp_airplanes sp) = [p] /\
  streamline_points (UnsteadySolver s) <> None.
Proof. exact solved_wind. Qed.

(** ** C59  Animations.  One frame per time step, each with the panels and wake of its
    own step; one set of colours for all of them. *)
Theorem C59_coloured : forall solve, SolveSpec solve -> forall prescribed streamlines up s t coefficient show_wake_vortices,
  created up -> finished solve prescribed streamlines up s -> up_delta_time up <> 0 ->
  up_first_results_step up = 0%Z -> In (t, coefficient) scalar_types -> (exists k sp p, step_at s k sp /\ In p (step_panels sp)) ->
  exists an cs c, animate s (Some t) show_wake_vortices = Ok an /\ frames_of s show_wake_vortices (an_frames an) /\
    scalars_of_run s coefficient cs /\ colouring cs c /\
    forall k sp pic, step_at s k sp -> nth_error (an_frames an) k = Some pic -> pic_scalars pic = Some (t, map coefficient (step_panels sp), c).
Proof. exact animate_coloured. Qed.
Print Assumptions C59_coloured.

Theorem C59_plain : forall solve, SolveSpec solve -> forall prescribed streamlines up s scalar_type show_wake_vortices,
  created up -> finished solve prescribed streamlines up s -> up_delta_time up <> 0 ->
  (forall t, scalar_type = Some t -> ~ In t (map fst scalar_types)) ->
  exists an, animate s scalar_type show_wake_vortices = Ok an /\ frames_of s show_wake_vortices (an_frames an) /\
    forall pic, In pic (an_frames an) -> pic_scalars pic = None.
Proof. exact animate_plain. Qed.
Print Assumptions C59_plain.

(** With only_final_results the first steps have no loads: the animation with scalars
    raises, although the same results can be drawn. *)
Theorem C59_only_final_results : forall solve, SolveSpec solve -> forall prescribed streamlines up s t coefficient show_wake_vortices k sp p,
  created up -> finished solve prescribed streamlines up s -> up_delta_time up <> 0 -> In (t, coefficient) scalar_types ->
  (Z.of_nat k < up_first_results_step up)%Z -> step_at s k sp -> In p (step_panels sp) ->
  animate s (Some t) show_wake_vortices = Err ETypeError.
Proof. exact animate_late. Qed.
Print Assumptions C59_only_final_results.

Theorem C59_refuted : exists up s, created up /\ finished gauss_solve true false up s /\ up_delta_time up <> 0 /\
  animate s (Some "lift"%string) false = Err ETypeError /\
  exists pic, draw (UnsteadySolver s) (Some "lift"%string) false false = Ok pic.
Proof. exact animation_refuted. Qed.
Print Assumptions C59_refuted.

Example C59_applies : exists up s k sp p, created up /\ finished gauss_solve false true up s /\ up_delta_time up <> 0 /\
  up_first_results_step up = 0%Z /\ step_at s k sp /\ In p (step_panels sp).
Proof. exact animation_applies. Qed.

(** ** C60  Playback.  A frame stands for one time step, so the film runs at the speed it is
    labelled with when [an_fps] times the time step is [an_speed].  That holds for time
    steps below 1/50 s and for those a whole number of which make a second; else the
    rate is the next whole number below. *)
Theorem C60_playback : forall s scalar_type show_wake_vortices an, animate s scalar_type show_wake_vortices = Ok an ->
  let dt := up_delta_time (us_problem s) in 0 < dt ->
  0 < an_speed an <= 1 /\ IZR (an_fps an) <= an_speed an / dt < IZR (an_fps an) + 1 /\ (an_fps an <= 50)%Z /\
  (50 * dt < 1 -> an_fps an = 50%Z /\ IZR (an_fps an) * dt = an_speed an) /\ (1 <= 50 * dt -> an_speed an = 1) /\
  (forall n, 1 <= 50 * dt -> IZR n * dt = 1 -> an_fps an = n /\ IZR (an_fps an) * dt = an_speed an).
Proof. exact playback_spec. Qed.
Print Assumptions C60_playback.

(** Labelled "100%": at 0.4 s per step two frames per second are 80%; at 2 s per step the
    rate is no frames per second. *)
Theorem C60_refuted :
  (exists up s an, created up /\ finished gauss_solve true false up s /\ up_delta_time (us_problem s) = 2 / 5 /\ animate s None true = Ok an /\
    an_speed an = 1 /\ an_fps an = 2%Z /\ IZR (an_fps an) * up_delta_time (us_problem s) <> an_speed an) /\
  exists up s an, created up /\ finished gauss_solve true false up s /\ up_delta_time (us_problem s) = 2 /\ animate s None true = Ok an /\
    an_speed an = 1 /\ an_fps an = 0%Z.
Proof. exact playback_refuted. Qed.
Print Assumptions C60_refuted.

Example C60_applies : exists up s an, created up /\ finished gauss_solve true false up s /\ up_delta_time (us_problem s) = 1 /\ animate s None true = Ok an /\
  (an_speed an, an_fps an) = frame_rate 1.
Proof. exact (playback_at 1 Rlt_0_1). Qed.

(** ** C61  Plots.  Four figures per airplane; each curve has the airplane's own loads at
    the steps with results, over the times of those steps. *)
Theorem C61_plots : forall solve, SolveSpec solve -> forall prescribed streamlines up s,
  created up -> finished solve prescribed streamlines up s -> (up_first_results_step up <= up_num_steps up)%Z ->
  exists groups sp0, plot_results_versus_time s = Ok (concat groups) /\ step_at s 0 sp0 /\
    List.length groups = List.length (sp_airplanes sp0) /\
    forall i a group, nth_error (sp_airplanes sp0) i = Some a -> nth_error groups i = Some group ->
      Forall2 (figure_ok s (Z.to_nat (up_first_results_step up)) (List.length (up_steady_problems up)) i (a_name a) (up_delta_time up))
              load_figures group.
Proof. exact plots. Qed.
Print Assumptions C61_plots.

Theorem C61_no_window : forall s, (up_num_steps (us_problem s) < up_first_results_step (us_problem s))%Z ->
  plot_results_versus_time s = Err EValueError.
Proof. exact plots_negative. Qed.
Print Assumptions C61_no_window.

Example C61_applies : forall only : bool, exists up s, created up /\ finished gauss_solve false true up s /\
  (up_first_results_step up <= up_num_steps up)%Z /\ exists sp, step_at s 0 sp /\ sp_airplanes sp <> [].
Proof. exact plots_apply. Qed.

(** ** C62  Printed results of the steady solvers. *)
Theorem C62_horseshoe : forall solve s s', hs_run solve s = Ok s' ->
  exists reports, print_steady_results (hso_airplanes s') = Ok reports /\ Forall2 reported (hso_airplanes s') reports.
Proof. exact print_horseshoe. Qed.
Print Assumptions C62_horseshoe.

Theorem C62_ring : forall solve s s', ring_run solve s = Ok s' ->
  exists reports, print_steady_results (rso_airplanes s') = Ok reports /\ Forall2 reported (rso_airplanes s') reports.
Proof. exact print_ring. Qed.
Print Assumptions C62_ring.

Theorem C62_not_solved : forall airplanes,
  (exists a, In a airplanes /\ (a_force_wind a = None \/ a_moment_wind a = None \/ a_force_coefficients a = None \/ a_moment_coefficients a = None)) ->
  print_steady_results airplanes = Err ETypeError.
Proof. exact print_missing. Qed.
Print Assumptions C62_not_solved.

(** The drag and lift forces that are printed have the opposite sign of their
    coefficients. *)
Theorem C62_horseshoe_signs : forall solve s s', hs_run solve s = Ok s' ->
  let q := op_density (hso_op s) * (op_velocity (hso_op s) * op_velocity (hso_op s)) / 2 in
  forall a f cf, In a (hso_airplanes s') -> a_force_wind a = Some f -> a_force_coefficients a = Some cf -> q <> 0 -> a_s_ref a <> 0 ->
    vx f = - (vx cf * q * a_s_ref a) /\ vy f = vy cf * q * a_s_ref a /\ vz f = - (vz cf * q * a_s_ref a).
Proof. exact printed_signs_steady. Qed.
Print Assumptions C62_horseshoe_signs.

Theorem C62_ring_signs : forall solve s s', ring_run solve s = Ok s' ->
  let q := op_density (rso_op s) * (op_velocity (rso_op s) * op_velocity (rso_op s)) / 2 in
  forall a f cf, In a (rso_airplanes s') -> a_force_wind a = Some f -> a_force_coefficients a = Some cf -> q <> 0 -> a_s_ref a <> 0 ->
    vx f = - (vx cf * q * a_s_ref a) /\ vy f = vy cf * q * a_s_ref a /\ vz f = - (vz cf * q * a_s_ref a).
Proof. exact printed_signs_ring. Qed.
Print Assumptions C62_ring_signs.

(** A plate at 30 degrees: "Lift" is printed as a negative number, "CL" as a positive one. *)
Theorem C62_same_sign_refuted : exists s report lift cl,
  hs_run gauss_solve (hs_new [wide_airplane 1] (ex_op 1 10)) = Ok s /\ print_steady_results (hso_airplanes s) = Ok [report] /\
  In ("Lift"%string, Some lift) report /\ In ("CL"%string, Some cl) report /\ lift < 0 /\ 0 < cl.
Proof. exact printed_opposite. Qed.
Print Assumptions C62_same_sign_refuted.

(** ** C55  Printed results of the unsteady solver: the means, which only problems with
    something that oscillates have. *)
Theorem C55_periodic : forall solve, SolveSpec solve -> forall prescribed streamlines up s,
  created up -> finished solve prescribed streamlines up s -> up_max_period up <> 0 ->
  exists sp reports, step_at s 0 sp /\ print_unsteady_results s = Ok reports /\ List.length reports = List.length (sp_airplanes sp) /\
    forall i a r, nth_error (sp_airplanes sp) i = Some a -> nth_error reports i = Some r -> exists f m cf cm,
      let means := up_final_mean (us_problem s) in
      nth_error (fl_forces means) i = Some f /\ nth_error (fl_moments means) i = Some m /\
      nth_error (fl_force_coefficients means) i = Some cf /\ nth_error (fl_moment_coefficients means) i = Some cm /\
      prints r (a_name a) "Final " f m cf cm.
Proof. exact print_periodic. Qed.
Print Assumptions C55_periodic.

Theorem C55_static : forall solve, SolveSpec solve -> forall prescribed streamlines up s sp,
  created up -> finished solve prescribed streamlines up s -> up_max_period up = 0 -> step_at s 0 sp -> sp_airplanes sp <> [] ->
  print_unsteady_results s = Err EIndexError.
Proof. exact print_static. Qed.
Print Assumptions C55_static.

Theorem C55_refuted : exists up s, created up /\ finished gauss_solve true false up s /\ print_unsteady_results s = Err EIndexError.
Proof. exact print_static_refuted. Qed.
Print Assumptions C55_refuted.

Example C55_applies : exists up s, created up /\ finished gauss_solve false true up s /\ up_max_period up <> 0.
Proof. exact (proj2 L_Statements4.windy_periods). Qed.
