(** Model of pterasoftware/convergence.py.  Logging, the measured iteration times
    and the progress messages are left out. *)
From Verif Require Export M_Unsteady M_Horseshoe.

(** ** Numbers *)
(** Python's round of a float to an integer: halves go to the even neighbour.
    (convergence.py:190-209) *)
Definition py_round (x : R) : Z :=
  let f := Int_part x in
  let d := x - IZR f in
  if Rltb d (1 / 2) then f
  else if Rltb (1 / 2) d then (f + 1)%Z
  else if Z.even f then f else (f + 1)%Z.
(** list(range(lo, hi + 1)) and list(range(hi, lo - 1, -1)).  (convergence.py:120-122) *)
Definition range_up (lo hi : Z) : list Z :=
  map (fun k => (lo + Z.of_nat k)%Z) (seq 0 (Z.to_nat (hi + 1 - lo))).
(** convergence.py:117-119 *)
Definition range_down (hi lo : Z) : list Z :=
  map (fun k => (hi - Z.of_nat k)%Z) (seq 0 (Z.to_nat (hi - (lo - 1)))).
(** convergence.py:149 and 153 *)
Definition enumerate {A} (l : list A) : list (nat * A) := combine (seq 0 (length l)) l.
(** A change in percent: NumPy's [100 * np.abs((new - old) / old)] is infinite when
    only [old] is zero and NaN when both are.  (convergence.py:321-340) *)
Inductive change : Type := Percent (x : R) | Infinite | NotANumber.
(** convergence.py:321-340 *)
Definition percent_change (new old : R) : change :=
  if Reqb old 0 then (if Reqb new 0 then NotANumber else Infinite)
  else Percent (100 * Rabs ((new - old) / old)).
(** [<] of floats: false as soon as a NaN takes part.  (convergence.py:326-340) *)
Definition change_ltb (a b : change) : bool :=
  match a, b with
  | Percent x, Percent y => Rltb x y
  | Percent _, Infinite => true
  | _, _ => false
  end.
(** Python's max: a later value replaces the best one only if it is larger.
    (convergence.py:321-340) *)
Definition max_change (a b : change) : change := if change_ltb a b then b else a.
(** convergence.py:321-340 *)
Definition py_max_change (l : list change) : result change :=
  match l with [] => Err EValueError | x :: l' => Ok (fold_left max_change l' x) end.
(** np.max: NaN if any element is.  (convergence.py:1029-1035) *)
Definition np_max2 (a b : change) : change :=
  match a, b with
  | NotANumber, _ | _, NotANumber => NotANumber
  | _, _ => max_change a b
  end.
(** convergence.py:1029-1035 *)
Definition np_max_change (l : list change) : result change :=
  match l with [] => Err EValueError | x :: l' => Ok (fold_left np_max2 l' x) end.
(** convergence.py:401-402 *)
Definition below (criteria : R) (c : change) : bool := change_ltb c (Percent criteria).

(** ** Remeshed geometry *)
(** convergence.py:190-209 and 760-783.  The divisions raise ZeroDivisionError. *)
Definition section_spanwise (inner outer : section) (num_chordwise ar : Z) : result Z :=
  let section_length := cs_y_le outer - cs_y_le inner in
  let section_area := section_length * (cs_chord inner + cs_chord outer) / 2 in
  if Reqb section_length 0 then Err EZeroDivision
  else
    let mean_chord := section_area / section_length in
    if Reqb (mean_chord * IZR ar) 0 then Err EZeroDivision
    else Ok (py_round (section_length * IZR num_chordwise / (mean_chord * IZR ar))).
(** convergence.py:181-211: the last section gets no panels. *)
Definition spanwise_after (s : section) (rest : list section) (num_chordwise ar : Z) : result Z :=
  match rest with
  | [] => Ok 0%Z
  | next :: _ => section_spanwise s next num_chordwise ar
  end.
Section Copies.
Variable pchip : list (R * R) -> result (R -> R).
Variable database : list ascii -> option (list R).
(** convergence.py:213-235 and 802-822.  A negative number of panels is an error here; in
    Python it is one when the wing is meshed. *)
Definition copy_section (s : section) (num_spanwise : Z) : result section :=
  let* a := new_airfoil pchip database (af_name (cs_airfoil s)) (Some (af_coordinates (cs_airfoil s)))
                        (af_repanel (cs_airfoil s)) (af_n_points_per_side (cs_airfoil s)) in
  let* k := count num_spanwise in
  new_section a (cs_x_le s) (cs_y_le s) (cs_z_le s) (cs_chord s) default_unit_normal (cs_twist s)
              (cs_control_surface_type s) (cs_control_surface_hinge_point s) (cs_control_surface_deflection s)
              k (cs_spanwise_spacing s).
(** convergence.py:174-235 *)
Fixpoint copy_sections (num_chordwise ar : Z) (l : list section) : result (list section) :=
  match l with
  | [] => Ok []
  | s :: rest =>
      let* k := spanwise_after s rest num_chordwise ar in
      let* s' := copy_section s k in
      let* rest' := copy_sections num_chordwise ar rest in
      Ok (s' :: rest')
  end.
(** convergence.py:237-250 and 857-869 *)
Definition copy_wing_with (w : wing) (num_chordwise : Z) (sections : list section) : result wing :=
  let* n := count num_chordwise in
  new_wing sections (w_name w) (w_x_le w) (w_y_le w) (w_z_le w) default_unit_normal (w_symmetric w)
           default_unit_chordwise n (w_chordwise_spacing w).
(** convergence.py:172-250 *)
Definition copy_wing (num_chordwise ar : Z) (w : wing) : result wing :=
  let* sections := copy_sections num_chordwise ar (w_sections w) in
  copy_wing_with w num_chordwise sections.
(** convergence.py:252-267 and 898-911 *)
Definition copy_airplane_with (a : airplane) (wings : list wing) : result airplane :=
  new_airplane wings (a_name a) (a_x_ref a) (a_y_ref a) (a_z_ref a) (a_weight a) None None None.
(** convergence.py:168-267 *)
Definition copy_airplane (num_chordwise ar : Z) (a : airplane) : result airplane :=
  let* wings := mapM (copy_wing num_chordwise ar) (a_wings a) in
  copy_airplane_with a wings.

(** convergence.py:737-854 *)
Fixpoint copy_section_movements (num_chordwise ar : Z) (l : list section_movement) : result (list section_movement) :=
  match l with
  | [] => Ok []
  | m :: rest =>
      let* k := spanwise_after (sm_base m) (map sm_base rest) num_chordwise ar in
      let* s := copy_section (sm_base m) k in
      let* rest' := copy_section_movements num_chordwise ar rest in
      Ok (mksecmove s (sm_sweeping m) (sm_custom_sweep m) (sm_pitching m) (sm_custom_pitch m)
                    (sm_heaving m) (sm_custom_heave m) :: rest')
  end.
(** The wing assigns its chordwise vector to its sections (geometry.py:333-334),
    which are the same objects as the movements' base sections. *)
Definition sm_set_base (m : section_movement) (s : section) : section_movement :=
  mksecmove s (sm_sweeping m) (sm_custom_sweep m) (sm_pitching m) (sm_custom_pitch m) (sm_heaving m) (sm_custom_heave m).
(** convergence.py:719-895 *)
Definition copy_wing_movement (num_chordwise ar : Z) (m : wing_movement) : result wing_movement :=
  let* sections := copy_section_movements num_chordwise ar (wm_sections m) in
  let* w := copy_wing_with (wm_base m) num_chordwise (map sm_base sections) in
  Ok (mkwingmove w (map2 sm_set_base sections (w_sections w)) (wm_x_le m) (wm_y_le m) (wm_z_le m)).
(** convergence.py:703-937 *)
Definition copy_airplane_movement (num_chordwise ar : Z) (m : airplane_movement) : result airplane_movement :=
  let* wings := mapM (copy_wing_movement num_chordwise ar) (am_wings m) in
  let* a := copy_airplane_with (am_base m) (map wm_base wings) in
  Ok (mkairmove a wings (am_x_ref m) (am_y_ref m) (am_z_ref m)).
End Copies.

(** ** Steady convergence *)
(** One iteration's results: the norms of the force and of the moment coefficients
    of every airplane.  (convergence.py:296-304) *)
Definition steady_coefficients : Type := list (R * R).
(** convergence.py:296-304 *)
Definition coefficient_norms (a : airplane) : result (R * R) :=
  match a_force_coefficients a, a_moment_coefficients a with
  | Some f, Some m => Ok (vnorm f, vnorm m)
  | _, _ => Err ETypeError
  end.
(** convergence.py:275-290: the airplanes after the run of the chosen solver. *)
Definition run_steady (solve : list (list R) -> list R -> result (list R)) (solver_type : string) (p : steady_problem)
  : result (list airplane) :=
  if String.eqb solver_type "steady horseshoe vortex lattice method" then
    let* s := hs_run solve (hs_new (sp_airplanes p) (sp_operating_point p)) in Ok (hso_airplanes s)
  else if String.eqb solver_type "steady ring vortex lattice method" then
    let* s := ring_run solve (ring_new (sp_airplanes p) (sp_operating_point p)) in Ok (rso_airplanes s)
  else Err EBadSolverType.
(** convergence.py:167-304: the body of the loops up to the recorded coefficients. *)
Definition steady_trial pchip database solve (solver_type : string) (ref : steady_problem) (ar num_chordwise : Z)
  : result steady_coefficients :=
  let* airplanes := mapM (copy_airplane pchip database num_chordwise ar) (sp_airplanes ref) in
  let* solved := run_steady solve solver_type (mksteady airplanes (sp_operating_point ref)) in
  mapM coefficient_norms solved.
(** convergence.py:321-340 and 355-376 *)
Definition steady_change (these last : steady_coefficients) : result change :=
  let* f := py_max_change (map2 percent_change (map fst these) (map fst last)) in
  let* m := py_max_change (map2 percent_change (map snd these) (map snd last)) in
  Ok (max_change f m).
(** The arrays force_coefficients and moment_coefficients (convergence.py:130-143). *)
Definition set2 {A} (i j : nat) (x : A) (memory : nat -> nat -> A) : nat -> nat -> A :=
  fun i' j' => if Nat.eqb i' i && Nat.eqb j' j then x else memory i' j'.
(** convergence.py:321, 355, 1025, 1049, 1074 and 1098: infinite when there is no previous value. *)
Definition change_from {A} (difference : A -> A -> result change) (these : A) (id : nat) (last : A) : result change :=
  if Nat.ltb 0 id then difference these last else Ok Infinite.
(** convergence.py:149-153 and 158-472, with the nested loops as the list of their iterations
    (ar_id, panel_aspect_ratio, chord_id, num_chordwise_panels). *)
Fixpoint steady_loop (trial : Z -> Z -> result steady_coefficients) (criteria : R) (ars chords : list Z)
         (memory : nat -> nat -> steady_coefficients) (iterations : list (nat * Z * (nat * Z)))
  : result (option (Z * Z)) :=
  match iterations with
  | [] => Ok None
  | ((ar_id, ar), (chord_id, num_chordwise)) :: rest =>
      let* these := trial ar num_chordwise in
      let memory := set2 ar_id chord_id these memory in
      let* ar_pc := change_from steady_change these ar_id (memory (ar_id - 1)%nat chord_id) in
      let* chord_pc := change_from steady_change these chord_id (memory ar_id (chord_id - 1)%nat) in
      let ar_saturated := Z.eqb ar 1 in
      let single_ar := Nat.eqb (length ars) 1 in
      let single_chord := Nat.eqb (length chords) 1 in
      let ar_converged := below criteria ar_pc in
      let chord_converged := below criteria chord_pc in
      let ar_passed := ar_converged || single_ar || ar_saturated in
      let chord_passed := chord_converged || single_chord in
      if ar_passed && chord_passed then
        let converged_ar_id := if single_ar then ar_id else if ar_converged then (ar_id - 1)%nat else ar_id in
        let converged_chord_id := if single_chord then chord_id else (chord_id - 1)%nat in
        let* converged_chords := index chords converged_chord_id in
        let* converged_ar := index ars converged_ar_id in
        Ok (Some (converged_ar, converged_chords))
      else steady_loop trial criteria ars chords memory rest
  end.
(** convergence.py:36-472.  [None] stands for [None, None]. *)
Definition steady_search (trial : Z -> Z -> result steady_coefficients) (ar_hi ar_lo chord_lo chord_hi : Z) (criteria : R)
  : result (option (Z * Z)) :=
  let ars := range_down ar_hi ar_lo in
  let chords := range_up chord_lo chord_hi in
  steady_loop trial criteria ars chords (fun _ _ => []) (list_prod (enumerate ars) (enumerate chords)).
(** convergence.py:36-472 *)
Definition analyze_steady_convergence pchip database solve (ref : steady_problem) (solver_type : string)
           (panel_aspect_ratio_bounds num_chordwise_panels_bounds : Z * Z) (criteria : R) : result (option (Z * Z)) :=
  steady_search (steady_trial pchip database solve solver_type ref)
                (fst panel_aspect_ratio_bounds) (snd panel_aspect_ratio_bounds)
                (fst num_chordwise_panels_bounds) (snd num_chordwise_panels_bounds) criteria.

(** ** Unsteady convergence *)
(** One iteration's results: the chosen coefficients of every airplane.
    (convergence.py:978-1004) *)
Definition unsteady_coefficients : Type := list (list R).
(** Indexing a (6,) array with a list of booleans.  (convergence.py:978-1004) *)
Definition masked (mask : list bool) (l : list R) : result (list R) :=
  if Nat.eqb (length mask) (length l) then Ok (map snd (filter fst (combine mask l))) else Err EIndexError.
(** convergence.py:978-1004 *)
Definition components (v : vec) : list R := [vx v; vy v; vz v].
(** convergence.py:978-1004 *)
Definition final_coefficients (is_static : bool) (mask : list bool) (up : unsteady_problem) (id : nat) : result (list R) :=
  let loads := if is_static then up_final up else up_final_rms up in
  let* f := index (fl_force_coefficients loads) id in
  let* m := index (fl_moment_coefficients loads) id in
  masked mask (components f ++ components m).
(** convergence.py:940-951.  [wake_length] counts chords or cycles. *)
Definition convergence_movement (is_static : bool) (ams : list airplane_movement) (om : op_movement) (wake_length : Z)
  : result movement :=
  if is_static then new_movement ams om None None (Some (IZR wake_length)) None
  else new_movement ams om None (Some (IZR wake_length)) None None.
(** convergence.py:681-1004 *)
Definition unsteady_trial pchip database solve (mask : list bool) (is_static : bool) (ref : movement)
           (wake : bool) (wake_length ar num_chordwise : Z) : result unsteady_coefficients :=
  let* ams := mapM (copy_airplane_movement pchip database num_chordwise ar) (mv_airplane_movements ref) in
  let* m := convergence_movement is_static ams (mv_op_movement ref) wake_length in
  let* up := new_unsteady_problem m true in
  let* s := unsteady_new up in
  let* s := unsteady_run solve wake false s in
  mapM (final_coefficients is_static mask (us_problem s)) (seq 0 (length ams)).
(** convergence.py:1029-1035, 1053-1059, 1078-1084 and 1102-1108 *)
Definition unsteady_change (these last : unsteady_coefficients) : result change :=
  np_max_change (map2 percent_change (ravel these) (ravel last)).
(** convergence.py:1006-1010 *)
Definition set4 {A} (h i j k : nat) (x : A) (memory : nat -> nat -> nat -> nat -> A) : nat -> nat -> nat -> nat -> A :=
  fun h' i' j' k' =>
    if Nat.eqb h' h && Nat.eqb i' i && Nat.eqb j' j && Nat.eqb k' k then x else memory h' i' j' k'.
(** convergence.py:644-679 and 1008-1274, with the nested loops as the list of their iterations
    (wake, wake length, panel aspect ratio, chordwise panels, each with its number). *)
Fixpoint unsteady_loop (trial : bool -> Z -> Z -> Z -> result unsteady_coefficients) (criteria : R)
         (wakes : list bool) (lengths ars chords : list Z)
         (memory : nat -> nat -> nat -> nat -> unsteady_coefficients)
         (iterations : list (nat * bool * (nat * Z) * ((nat * Z) * (nat * Z))))
  : result (option (bool * Z * Z * Z)) :=
  match iterations with
  | [] => Ok None
  | ((wake_id, wake), (length_id, wake_length), ((ar_id, ar), (chord_id, num_chordwise))) :: rest =>
      let* these := trial wake wake_length ar num_chordwise in
      let memory := set4 wake_id length_id ar_id chord_id these memory in
      let* wake_pc := change_from unsteady_change these wake_id (memory (wake_id - 1)%nat length_id ar_id chord_id) in
      let* length_pc := change_from unsteady_change these length_id (memory wake_id (length_id - 1)%nat ar_id chord_id) in
      let* ar_pc := change_from unsteady_change these ar_id (memory wake_id length_id (ar_id - 1)%nat chord_id) in
      let* chord_pc := change_from unsteady_change these chord_id (memory wake_id length_id ar_id (chord_id - 1)%nat) in
      let wake_saturated := negb wake in
      let ar_saturated := Z.eqb ar 1 in
      let single_wake := Nat.eqb (length wakes) 1 in
      let single_length := Nat.eqb (length lengths) 1 in
      let single_ar := Nat.eqb (length ars) 1 in
      let single_chord := Nat.eqb (length chords) 1 in
      let wake_converged := below criteria wake_pc in
      let length_converged := below criteria length_pc in
      let ar_converged := below criteria ar_pc in
      let chord_converged := below criteria chord_pc in
      let wake_passed := wake_converged || single_wake || wake_saturated in
      let length_passed := length_converged || single_length in
      let ar_passed := ar_converged || single_ar || ar_saturated in
      let chord_passed := chord_converged || single_chord in
      if wake_passed && length_passed && ar_passed && chord_passed then
        let converged_wake_id := if single_wake then wake_id else if wake_converged then (wake_id - 1)%nat else wake_id in
        let converged_length_id := if single_length then length_id else (length_id - 1)%nat in
        let converged_ar_id := if single_ar then ar_id else if ar_converged then (ar_id - 1)%nat else ar_id in
        let converged_chord_id := if single_chord then chord_id else (chord_id - 1)%nat in
        let* converged_wake := index wakes converged_wake_id in
        let* converged_length := index lengths converged_length_id in
        let* converged_chords := index chords converged_chord_id in
        let* converged_ar := index ars converged_ar_id in
        Ok (Some (converged_wake, converged_length, converged_ar, converged_chords))
      else unsteady_loop trial criteria wakes lengths ars chords memory rest
  end.
(** convergence.py:592-596 *)
Definition wake_list (prescribed_wake free_wake : bool) : list bool :=
  (if prescribed_wake then [true] else []) ++ (if free_wake then [false] else []).
(** convergence.py:592-1274 *)
Definition unsteady_search (trial : bool -> Z -> Z -> Z -> result unsteady_coefficients)
           (prescribed_wake free_wake : bool) (length_lo length_hi ar_hi ar_lo chord_lo chord_hi : Z) (criteria : R)
  : result (option (bool * Z * Z * Z)) :=
  let wakes := wake_list prescribed_wake free_wake in
  let lengths := range_up length_lo length_hi in
  let ars := range_down ar_hi ar_lo in
  let chords := range_up chord_lo chord_hi in
  unsteady_loop trial criteria wakes lengths ars chords (fun _ _ _ _ => [])
    (list_prod (list_prod (enumerate wakes) (enumerate lengths)) (list_prod (enumerate ars) (enumerate chords))).
(** convergence.py:476-1274 *)
Definition analyze_unsteady_convergence pchip database solve (ref : unsteady_problem) (prescribed_wake free_wake : bool)
           (num_cycles_bounds num_chords_bounds panel_aspect_ratio_bounds num_chordwise_panels_bounds : Z * Z)
           (coefficient_mask : option (list bool)) (criteria : R) : result (option (bool * Z * Z * Z)) :=
  let m := up_movement ref in
  let* period := mv_max_period m in
  let is_static := Reqb period 0 in
  let mask := match coefficient_mask with Some l => l | None => repeat true 6 end in
  let lengths := if is_static then num_chords_bounds else num_cycles_bounds in
  unsteady_search (unsteady_trial pchip database solve mask is_static m) prescribed_wake free_wake
                  (fst lengths) (snd lengths)
                  (fst panel_aspect_ratio_bounds) (snd panel_aspect_ratio_bounds)
                  (fst num_chordwise_panels_bounds) (snd num_chordwise_panels_bounds) criteria.
