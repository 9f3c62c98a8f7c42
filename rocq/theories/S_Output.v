(** Specification vocabulary for pictures, plots and printed results. *)
From Coq Require Import String.
From Verif Require Import M_Output S_Loads S_Convergence S_Unsteady S_UnsteadyRun S_Vortices.
Local Open Scope string_scope.
Local Open Scope list_scope.
Local Open Scope R_scope.

(** ** Meshes *)
(** How PyVista reads a flat list of faces: a number of corners, then as many indices of
    points; [quads] are the corners of one face after the other. *)
Inductive reads (points : list vec) : list nat -> list (list vec) -> Prop :=
  | reads_none : reads points [] []
  | reads_face : forall indices corners faces quads,
      Forall2 (fun i v => nth_error points i = Some v) indices corners -> reads points faces quads ->
      reads points (List.length indices :: indices ++ faces) (corners :: quads).
Definition shows (m : mesh) (quads : list (list vec)) : Prop := reads (mesh_points m) (mesh_faces m) quads.
Definition outline (p : panel) : list vec := [p_front_left p; p_front_right p; p_back_right p; p_back_left p].
Definition ring_outline (r : ring_vortex) : list vec := [rv_front_left r; rv_front_right r; rv_back_right r; rv_back_left r].
(** A mesh of the wake of step [k]. *)
Definition shows_wake (s : unsteady_solver) (k : nat) (m : mesh) : Prop :=
  exists grids, wake_is s k grids /\ shows m (map ring_outline (concat (map (@concat ring_vortex) grids))).
(** The scalars that can be shown. *)
Definition scalar_types : list (string * (panel -> option R)) :=
  [("induced drag", p_induced_drag_coefficient); ("side force", p_side_force_coefficient); ("lift", p_lift_coefficient)].
(** The straight pieces of the streamlines: row after row of points, one point per streamline. *)
Definition piece (points : list (list vec)) (pq : vec * vec) : Prop :=
  exists i j row next, nth_error points i = Some row /\ nth_error points (S i) = Some next /\
    nth_error row j = Some (fst pq) /\ nth_error next j = Some (snd pq).

(** ** Colours *)
Definition is_least (l : list R) (x : R) : Prop := In x l /\ forall y, In y l -> x <= y.
Definition is_greatest (l : list R) (x : R) : Prop := In x l /\ forall y, In y l -> y <= x.
Definition is_average (l : list R) (m : R) : Prop := INR (List.length l) * m = rsum l.
Definition is_deviation (l : list R) (m sd : R) : Prop :=
  0 <= sd /\ INR (List.length l) * sd ^ 2 = rsum (map (fun x => (x - m) ^ 2) l).
Definition rounded (digits : nat) (x y : R) : Prop := exists k : Z, nearest (x * 10 ^ digits) k /\ y * 10 ^ digits = IZR k.
(** The colours for the scalars [l]: with values on both sides of zero zero is in the
    middle; else the limits are values' own, and only values far from the mean are beyond. *)
Definition colouring (l : list R) (c : colours) : Prop :=
  exists lo hi m sd, is_least l lo /\ is_greatest l hi /\ is_average l m /\ is_deviation l m sd /\
    rounded 2 lo (co_text_min c) /\ rounded 2 hi (co_text_max c) /\
    (co_diverging c = false <-> 0 < lo \/ hi < 0 \/ lo = 0 /\ hi = 0) /\
    (co_diverging c = true -> co_min c = - co_max c /\ co_max c = 3 * sd) /\
    (co_diverging c = false -> lo <= co_min c <= co_max c /\ co_max c <= hi /\
       forall x, In x l -> Rabs (x - m) <= 3 * sd -> co_min c <= x <= co_max c).

(** ** Solved problems *)
(** A solver that was run and the airplanes it leaves to be shown: for an unsteady
    problem those of the last step, which is to be one of those with results (C38). *)
Inductive solved (solve : list (list R) -> list R -> result (list R)) : solver -> list airplane -> Prop :=
  | solved_horseshoe : forall s0 s, hs_run solve s0 = Ok s -> solved solve (HorseshoeSolver s) (hso_airplanes s)
  | solved_ring : forall s0 s, ring_run solve s0 = Ok s -> solved solve (RingSolver s) (rso_airplanes s)
  | solved_unsteady : forall prescribed lines up s sp, created up -> finished solve prescribed lines up s ->
      (up_first_results_step up < Z.of_nat (List.length (up_steady_problems up)))%Z ->
      step_at s (List.length (up_steady_problems up) - 1) sp -> solved solve (UnsteadySolver s) (sp_airplanes sp).
(** What a picture by [draw] shows, apart from the scalars. *)
Definition drawing (s : solver) (airplanes : list airplane) (show_streamlines show_wake_vortices : bool) (pic : picture) : Prop :=
  shows (pic_panels pic) (map outline (all_panels airplanes)) /\
  (forall pq, In pq (pic_lines pic) <-> show_streamlines = true /\ exists points, streamline_points s = Some points /\ piece points pq) /\
  match pic_wake pic with
  | Some m => show_wake_vortices = true /\ exists u, s = UnsteadySolver u /\ shows_wake u (List.length (up_steady_problems (us_problem u)) - 1) m
  | None => show_wake_vortices = false \/ forall u, s <> UnsteadySolver u
  end.
(** The scalars [t] of the airplanes' panels, and colours for them. *)
Definition coloured (t : string) (airplanes : list airplane) (shown : option (string * list (option R) * colours)) : Prop :=
  exists coefficient cs c, In (t, coefficient) scalar_types /\ map coefficient (all_panels airplanes) = map Some cs /\
    shown = Some (t, map Some cs, c) /\ colouring cs c.
(** The scalars of all steps, one after the other. *)
Definition scalars_of_run (s : unsteady_solver) (coefficient : panel -> option R) (cs : list R) : Prop :=
  map coefficient (concat (map step_panels (up_steady_problems (us_problem s)))) = map Some cs.
(** The frames of an animation, one per step, apart from the scalars. *)
Definition frames_of (s : unsteady_solver) (show_wake_vortices : bool) (frames : list picture) : Prop :=
  List.length frames = List.length (up_steady_problems (us_problem s)) /\
  forall k sp pic, step_at s k sp -> nth_error frames k = Some pic ->
    shows (pic_panels pic) (map outline (step_panels sp)) /\ pic_lines pic = [] /\
    match pic_wake pic with
    | Some m => show_wake_vortices = true /\ (0 < k)%nat /\ shows_wake s k m
    | None => show_wake_vortices = false \/ k = O
    end.

(** ** Plots *)
(** The four figures of an airplane: title, lines and where their values are from. *)
Definition load_figures : list (string * (airplane -> option vec) * list (string * (vec -> R))) :=
  let forces := [("Induced Drag", vx); ("Side Force", vy); ("Lift", vz)] in
  let moments := [("Roll", vx); ("Pitch", vy); ("Yaw", vz)] in
  [(" Forces vs. Time", a_force_wind, forces); (" Force Coefficients vs. Time", a_force_coefficients, forces);
   (" Moments vs. Time", a_moment_wind, moments); (" Moment Coefficients vs. Time", a_moment_coefficients, moments)].
(** A figure for airplane number [i] of the steps [first], ..., [n - 1]: what [spec] says. *)
Definition figure_ok (s : unsteady_solver) (first n i : nat) (name : string) (dt : R) (spec : string * (airplane -> option vec) * list (string * (vec -> R))) (f : figure) : Prop :=
  let '(title, get, lines) := spec in
  fig_title f = (name ++ title)%string /\
  List.length (fig_times f) = (n - first)%nat /\ (forall k t, nth_error (fig_times f) k = Some t -> t = dt * (INR first + INR k)) /\
  exists vs, window s first n i get vs /\ fig_lines f = map (fun lc => (fst lc, map (fun v => Some (snd lc v)) vs)) lines.


(** ** Printed results *)
(** The lines under each heading: label and component. *)
Definition prints (lines : list line) (title final : string) (forces moments force_coefficients moment_coefficients : vec) : Prop :=
  exists v1 v2 v3 m1 m2 m3 c1 c2 c3 d1 d2 d3,
    lines = [(title, None);
             (final ++ "Forces in Wind Axes", None)%string;
             ("Induced Drag", Some v1); ("Side Force", Some v2); ("Lift", Some v3);
             (final ++ "Moments in Wind Axes", None)%string;
             ("Rolling Moment", Some m1); ("Pitching Moment", Some m2); ("Yawing Moment", Some m3);
             (final ++ "Force Coefficients in Wind Axes", None)%string;
             ("CDi", Some c1); ("CY", Some c2); ("CL", Some c3);
             (final ++ "Moment Coefficients in Wind Axes", None)%string;
             ("Cl", Some d1); ("Cm", Some d2); ("Cn", Some d3)] /\
    rounded 3 (vx forces) v1 /\ rounded 3 (vy forces) v2 /\ rounded 3 (vz forces) v3 /\
    rounded 3 (vx moments) m1 /\ rounded 3 (vy moments) m2 /\ rounded 3 (vz moments) m3 /\
    rounded 3 (vx force_coefficients) c1 /\ rounded 3 (vy force_coefficients) c2 /\ rounded 3 (vz force_coefficients) c3 /\
    rounded 3 (vx moment_coefficients) d1 /\ rounded 3 (vy moment_coefficients) d2 /\ rounded 3 (vz moment_coefficients) d3.
(** The report on an airplane with all its loads. *)
Definition reported (a : airplane) (lines : list line) : Prop :=
  exists f m cf cm, a_force_wind a = Some f /\ a_moment_wind a = Some m /\ a_force_coefficients a = Some cf /\ a_moment_coefficients a = Some cm /\
    prints lines ("Airplane " ++ a_name a)%string "" f m cf cm.
