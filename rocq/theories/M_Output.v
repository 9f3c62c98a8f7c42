(** Model of pterasoftware/output.py: what the functions hand to PyVista, Matplotlib,
    webp and [print].  The libraries' rendering, the windows, files, colours, fonts,
    positions and markers are left out. *)
From Coq Require Import String.
From Verif Require Export M_Convergence.
Local Open Scope string_scope.
Local Open Scope list_scope.
Local Open Scope R_scope.

(** ** Meshes *)
(** pv.PolyData(points, faces): the faces are flat, each its number of corners
    followed by the indices of its points.  (output.py:1154-1156 and 1231-1233) *)
Record mesh : Type := mkmesh { mesh_points : list vec; mesh_faces : list nat }.
(** output.py:1129-1153 and 1203-1230: one more quadrilateral; [num] is [panel_num] or
    [wake_ring_vortex_num]. *)
Definition add_face (front_left front_right back_right back_left : vec) (num : nat) (m : mesh) : mesh :=
  mkmesh (mesh_points m ++ [front_left; front_right; back_right; back_left])
         (mesh_faces m ++ [4; num * 4; num * 4 + 1; num * 4 + 2; num * 4 + 3])%nat.
(** output.py:1101-1156 [get_panel_surfaces] *)
Definition surface_panel (acc : mesh * nat) (p : panel) : mesh * nat :=
  let (m, panel_num) := acc in
  (add_face (p_front_left p) (p_front_right p) (p_back_right p) (p_back_left p) panel_num m, S panel_num).
(** output.py:1101-1156 *)
Definition get_panel_surfaces (airplanes : list airplane) : mesh :=
  fst (fold_left (fun acc a => fold_left (fun acc w => fold_left surface_panel (ravel (w_panels w)) acc) (a_wings a) acc)
                 airplanes (mkmesh [] [], O)).
(** output.py:1159-1233 [get_wake_ring_vortex_surfaces].  output.py:1230 changes the loop
    variable, which the next iteration sets again. *)
Definition surface_ring (wk : wake_arrays) (m : mesh) (num : nat) : result mesh :=
  let* front_right := index (wk_front_right wk) num in
  let* front_left := index (wk_front_left wk) num in
  let* back_left := index (wk_back_left wk) num in
  let* back_right := index (wk_back_right wk) num in
  Ok (add_face front_left front_right back_right back_left num m).
(** output.py:1159-1233 *)
Definition get_wake_ring_vortex_surfaces (s : unsteady_solver) (step : nat) : result mesh :=
  let* num := index (us_num_wake s) step in
  let* wk := index (us_wakes s) step in
  foldM (surface_ring wk) (mkmesh [] []) (seq 0 num).
(** output.py:1236-1274 [get_scalars].  A coefficient that was not computed is None, and
    then so is the entry of the (object) array. *)
Definition panel_scalar (scalar_type : string) (p : panel) : list (option R) :=
  (if String.eqb scalar_type "induced drag" then [p_induced_drag_coefficient p] else []) ++
  (if String.eqb scalar_type "side force" then [p_side_force_coefficient p] else []) ++
  (if String.eqb scalar_type "lift" then [p_lift_coefficient p] else []).
(** output.py:1236-1274 *)
Definition get_scalars (airplanes : list airplane) (scalar_type : string) : list (option R) :=
  fold_left (fun acc a => fold_left (fun acc w => fold_left (fun acc p => acc ++ panel_scalar scalar_type p)
                                                            (ravel (w_panels w)) acc) (a_wings a) acc)
            airplanes [].

(** ** Colours *)
(** output.py:172-178 and 365-371; [None] is Python's None. *)
Definition shown_scalars (scalar_type : option string) : option string :=
  match scalar_type with
  | Some t => if String.eqb t "induced drag" || String.eqb t "side force" || String.eqb t "lift" then Some t else None
  | None => None
  end.
(** The numbers in an array that [min], [max], [np.min], ... are applied to: an empty
    array is a ValueError, one with a None a TypeError.  (output.py:374-385) *)
Fixpoint all_numbers (l : list (option R)) : option (list R) :=
  match l with
  | [] => Some []
  | None :: _ => None
  | Some x :: l => match all_numbers l with Some xs => Some (x :: xs) | None => None end
  end.
(** output.py:187-203 *)
Definition numbers (l : list (option R)) : result (list R) :=
  match l with
  | [] => Err EValueError
  | _ => match all_numbers l with Some xs => Ok xs | None => Err ETypeError end
  end.
(** [min], [np.min], [max], [np.max] of a non-empty array.  (output.py:188-198) *)
Definition smallest (l : list R) : R := match l with [] => 0 | x :: l => fold_left Rmin l x end.
(** output.py:189-202 *)
Definition greatest (l : list R) : R := match l with [] => 0 | x :: l => fold_left Rmax l x end.
(** [np.mean], [np.std].  (output.py:197-201) *)
Definition average (l : list R) : R := rsum l / INR (List.length l).
(** output.py:197-207 *)
Definition deviation (l : list R) : R := sqrt (average (map (fun x => (x - average l) * (x - average l)) l)).
(** [np.sign].  (output.py:194) *)
Definition sign (x : R) : R := if Rltb 0 x then 1 else if Rltb x 0 then -1 else 0.
(** [round(x, digits)] and [np.round(x, digits)], rounding halves to even.  (output.py:188-189) *)
Definition round_to (digits : nat) (x : R) : R := IZR (py_round (x * 10 ^ digits)) / 10 ^ digits.
(** output.py:49-50, 86, 188-206 and 390-406: the colour map, its limits, and the texts
    "Min" and "Max". *)
Record colours : Type := mkcolours { co_diverging : bool; co_min : R; co_max : R; co_text_min : R; co_text_max : R }.
(** output.py:188-207 and 390-406 *)
Definition colours_of (scalars : list R) : colours :=
  let least := smallest scalars in
  let most := greatest scalars in
  let m := average scalars in
  let sd := deviation scalars in
  if Reqb (sign least) (sign most) then
    mkcolours false (Rmax (m - 3 * sd) least) (Rmin (m + 3 * sd) most) (round_to 2 least) (round_to 2 most)
  else
    mkcolours true (- 3 * sd) (3 * sd) (round_to 2 least) (round_to 2 most).

(** ** Pictures *)
(** What a picture shows: output.py:1277-1346 [plot_scalars] (with the title of the bar
    left out) or output.py:221-226, 428-433 and 526-531. *)
Record picture : Type := mkpicture {
  pic_panels : mesh;
  pic_scalars : option (string * list (option R) * colours);
  pic_wake : option mesh;
  pic_lines : list (vec * vec)
}.
(** The solvers [draw] accepts (output.py:151-169). *)
Inductive solver : Type :=
  | HorseshoeSolver (s : hs_solver)
  | RingSolver (s : ring_solver)
  | UnsteadySolver (s : unsteady_solver).
(** output.py:151-169 *)
Definition drawn (s : solver) : result (list airplane) :=
  match s with
  | HorseshoeSolver s => Ok (hso_airplanes s)
  | RingSolver s => Ok (rso_airplanes s)
  | UnsteadySolver s =>
      let* sp := index (up_steady_problems (us_problem s)) (Z.to_nat (up_num_steps (us_problem s) - 1)) in
      Ok (sp_airplanes sp)
  end.
(** output.py:210-226 *)
Definition drawn_wake (s : solver) (show : bool) : result (option mesh) :=
  match s with
  | UnsteadySolver s =>
      if show then let* m := get_wake_ring_vortex_surfaces s (Z.to_nat (up_num_steps (us_problem s) - 1)) in Ok (Some m)
      else Ok None
  | _ => Ok None
  end.
(** output.py:229-232 *)
Definition streamline_points (s : solver) : option (list (list vec)) :=
  match s with
  | HorseshoeSolver s => hso_streamline_points s
  | RingSolver s => rso_streamline_points s
  | UnsteadySolver s => us_streamline_points s
  end.
(** output.py:229-257: [points] is a list of rows of points, one row per streamline step. *)
Definition spanwise_line (points : list (list vec)) (spanwise : nat) : result (list (vec * vec)) :=
  let* points := mapM (fun row => index row spanwise) points in
  Ok (combine points (tl points)).
(** output.py:229-257 *)
Definition streamlines (points : option (list (list vec))) : result (list (vec * vec)) :=
  match points with
  | None => Err EAttributeError
  | Some points =>
      let* lines := mapM (spanwise_line points) (seq 0 (match points with [] => O | row :: _ => List.length row end)) in
      Ok (concat lines)
  end.
(** output.py:106-296 [draw] *)
Definition draw (s : solver) (scalar_type : option string) (show_streamlines show_wake_vortices : bool) : result picture :=
  let* airplanes := drawn s in
  let* wake := drawn_wake s show_wake_vortices in
  let* scalars := match shown_scalars scalar_type with
                  | None => Ok None
                  | Some t => let* xs := numbers (get_scalars airplanes t) in
                              Ok (Some (t, get_scalars airplanes t, colours_of xs))
                  end in
  let* lines := if show_streamlines then streamlines (streamline_points s) else Ok [] in
  Ok (mkpicture (get_panel_surfaces airplanes) scalars wake lines).

(** ** Animations *)
(** The frames, the label of the speed (in parts of real time) and the frame rate.
    output.py:353, 485, 535 and 550: without [save] the later frames are drawn, but not kept. *)
Record animation : Type := mkanimation { an_frames : list picture; an_speed : R; an_fps : Z }.
(** output.py:339-343; a time step of zero is a ZeroDivisionError *)
Definition frame_rate (delta_time : R) : R * Z :=
  let requested := 1 / delta_time in
  let speed := if Rltb 50 requested then 50 / requested else 1 in
  (speed, Int_part (requested * speed)).
(** output.py:405-433 and 477-531: a picture of step [step] *)
Definition frame_scalars (first_results_step : Z) (shown : option (string * colours)) (step : nat) (airplanes : list airplane)
  : option (string * list (option R) * colours) :=
  match shown with
  | Some (t, c) => if (first_results_step <=? Z.of_nat step)%Z then Some (t, get_scalars airplanes t, c) else None
  | None => None
  end.
(** output.py:409-433: the first picture has no wake; and output.py:413 shows scalars only if
    [first_results_step == 0]. *)
Definition first_frame (first_results_step : Z) (shown : option (string * colours)) (airplanes : list airplane) : picture :=
  mkpicture (get_panel_surfaces airplanes)
            (match shown with
             | Some (t, c) => if (first_results_step =? 0)%Z then Some (t, get_scalars airplanes t, c) else None
             | None => None
             end) None [].
(** output.py:477-531 *)
Definition later_frame (s : unsteady_solver) (first_results_step : Z) (shown : option (string * colours)) (show_wake_vortices : bool)
                       (step : nat) (airplanes : list airplane) : result picture :=
  let* wake := if show_wake_vortices then let* m := get_wake_ring_vortex_surfaces s step in Ok (Some m) else Ok None in
  Ok (mkpicture (get_panel_surfaces airplanes) (frame_scalars first_results_step shown step airplanes) wake []).
(** output.py:299-557 [animate] *)
Definition animate (s : unsteady_solver) (scalar_type : option string) (show_wake_vortices : bool) : result animation :=
  let first_results_step := up_first_results_step (us_problem s) in
  let step_airplanes := map sp_airplanes (up_steady_problems (us_problem s)) in
  let* _ := check (negb (Reqb (up_delta_time (us_problem s)) 0)) EZeroDivision in
  let rate := frame_rate (up_delta_time (us_problem s)) in
  let* shown := match shown_scalars scalar_type with
                | None => Ok None
                | Some t => let* xs := numbers (concat (map (fun airplanes => get_scalars airplanes t) step_airplanes)) in
                            Ok (Some (t, colours_of xs))
                end in
  match step_airplanes with
  | [] => Err EIndexError
  | airplanes :: rest =>
      let* frames := mapM (fun sa => later_frame s first_results_step shown show_wake_vortices (fst sa) (snd sa))
                          (combine (seq 1 (List.length rest)) rest) in
      Ok (mkanimation (first_frame first_results_step shown airplanes :: frames) (fst rate) (snd rate))
  end.

(** ** Plots *)
(** output.py:639-700 *)
Record figure : Type := mkfigure { fig_title : string; fig_times : list R; fig_lines : list (string * list (option R)) }.
(** output.py:590-595 *)
Definition plot_times (first_results_step num_steps : Z) (delta_time : R) : list R :=
  linspace (delta_time * IZR first_results_step) (delta_time * IZR (num_steps - 1)) (Z.to_nat (num_steps - first_results_step)).
(** output.py:599-636: the row [airplane_id, component] of an array of zeros filled with an
    airplane's total (None becomes nan, modelled as [None]).  An airplane that a step does
    not have leaves its zero. *)
Definition total_entry (get : airplane -> option vec) (component : vec -> R) (airplane_id : nat) (sp : steady_problem) : option R :=
  match nth_error (sp_airplanes sp) airplane_id with
  | Some a => match get a with Some v => Some (component v) | None => None end
  | None => Some 0
  end.
(** output.py:599-636 *)
Definition total_row (steps : list steady_problem) (get : airplane -> option vec) (airplane_id : nat) (component : vec -> R) : list (option R) :=
  map (total_entry get component airplane_id) steps.
(** output.py:639-874, for one airplane *)
Definition figures_of (steps : list steady_problem) (times : list R) (airplane_id : nat) (name : string) : list figure :=
  let lines labels get := map2 (fun label component => (label, total_row steps get airplane_id component)) labels [vx; vy; vz] in
  let forces := ["Induced Drag"; "Side Force"; "Lift"] in
  let moments := ["Roll"; "Pitch"; "Yaw"] in
  [ mkfigure (name ++ " Forces vs. Time")%string times (lines forces a_force_wind);
    mkfigure (name ++ " Force Coefficients vs. Time")%string times (lines forces a_force_coefficients);
    mkfigure (name ++ " Moments vs. Time")%string times (lines moments a_moment_wind);
    mkfigure (name ++ " Moment Coefficients vs. Time")%string times (lines moments a_moment_coefficients) ].
(** output.py:560-874 [plot_results_versus_time]; [num_airplanes] is the number of airplanes
    of the first step (unsteady_ring_vortex_lattice_method.py:106).  NumPy rejects a
    negative length (output.py:590 and 599); the first step with results is not negative. *)
Definition plot_results_versus_time (s : unsteady_solver) : result (list figure) :=
  let up := us_problem s in
  let first := Z.to_nat (up_first_results_step up) in
  let* _ := check (up_first_results_step up <=? up_num_steps up)%Z EValueError in
  let* steps := mapM (index (up_steady_problems up)) (seq first (Z.to_nat (up_num_steps up) - first)) in
  let* base := index (up_steady_problems up) 0 in
  let* _ := check (forallb (fun sp => (List.length (sp_airplanes sp) <=? List.length (sp_airplanes base))%nat) steps) EIndexError in
  let times := plot_times (up_first_results_step up) (up_num_steps up) (up_delta_time up) in
  Ok (concat (map2 (figures_of steps times) (seq 0 (List.length (sp_airplanes base))) (map a_name (sp_airplanes base)))).

(** ** Printed results *)
(** A printed line: a text, and a number where the line has one (the units are left
    out).  (output.py:887-971) *)
Definition line : Type := string * option R.
(** output.py:887-971 and 996-1098, for one airplane; [final] is "Final " in the latter *)
Definition report (title final : string) (forces moments force_coefficients moment_coefficients : vec) : list line :=
  let three labels v := map2 (fun label component => (label, Some (round_to 3 (component v)))) labels [vx; vy; vz] in
  [(title, None); ((final ++ "Forces in Wind Axes")%string, None)] ++ three ["Induced Drag"; "Side Force"; "Lift"] forces ++
  [((final ++ "Moments in Wind Axes")%string, None)] ++ three ["Rolling Moment"; "Pitching Moment"; "Yawing Moment"] moments ++
  [((final ++ "Force Coefficients in Wind Axes")%string, None)] ++ three ["CDi"; "CY"; "CL"] force_coefficients ++
  [((final ++ "Moment Coefficients in Wind Axes")%string, None)] ++ three ["Cl"; "Cm"; "Cn"] moment_coefficients.
(** Subscripting None is a TypeError.  (output.py:887-971) *)
Definition present {A} (o : option A) : result A := match o with Some x => Ok x | None => Err ETypeError end.
(** output.py:877-971 [print_steady_results], given the solver's airplanes *)
Definition print_steady_results (airplanes : list airplane) : result (list (list line)) :=
  mapM (fun a =>
    let* f := present (a_force_wind a) in
    let* m := present (a_moment_wind a) in
    let* cf := present (a_force_coefficients a) in
    let* cm := present (a_moment_coefficients a) in
    Ok (report ("Airplane " ++ a_name a)%string "" f m cf cm)) airplanes.
(** output.py:974-1098 [print_unsteady_results] *)
Definition print_unsteady_results (s : unsteady_solver) : result (list (list line)) :=
  let means := up_final_mean (us_problem s) in
  let* base := index (up_steady_problems (us_problem s)) 0 in
  mapM (fun ia =>
    let* f := index (fl_forces means) (fst ia) in
    let* m := index (fl_moments means) (fst ia) in
    let* cf := index (fl_force_coefficients means) (fst ia) in
    let* cm := index (fl_moment_coefficients means) (fst ia) in
    Ok (report (a_name (snd ia)) "Final " f m cf cm))
    (combine (seq 0 (List.length (sp_airplanes base))) (sp_airplanes base)).
