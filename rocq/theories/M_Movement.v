(** Model of pterasoftware/movement.py and pterasoftware/problems.py. *)
From Verif Require Export M_Geometry M_OperatingPoint.
From Coq Require Export ZArith.

(** ** Numbers *)
(** math.floor and math.ceil.  (problems.py:77-88) *)
Definition py_floor (x : R) : Z := Int_part x.
(** movement.py:179 and 189 *)
Definition py_ceil (x : R) : Z := (- Int_part (- x))%Z.
(** np.ones(n) and np.linspace(.., n, ..) raise ValueError when n is negative.
    (movement.py:1161-1164, 1384-1390, 1422-1428 and 1470-1476) *)
Definition count (n : Z) : result nat := if (0 <=? n)%Z then Ok (Z.to_nat n) else Err EValueError.
(** Python's max of a list: ValueError when it is empty.  (movement.py:165, 223, 462 and 828) *)
Definition py_max (l : list R) : result R :=
  match l with
  | [] => Err EValueError
  | x :: l' => Ok (fold_left Rmax l' x)
  end.
(** scipy.signal.sawtooth(t, 0.5): a rise over the first half of each period of
    length 2 pi, a fall over the second.  SciPy computes tmod = mod(t, 2 pi),
    then tmod / (pi w) - 1 where tmod < 2 pi w and (pi (w + 1) - tmod) / (pi (1 - w))
    elsewhere, with w = 0.5.  (movement.py:1437) *)
Definition sawtooth (t : R) : R :=
  let tmod := t - 2 * PI * IZR (py_floor (t / (2 * PI))) in
  let w := 5 / 10 in
  if Rltb tmod (2 * PI * w) then tmod / (PI * w) - 1 else (PI * (w + 1) - tmod) / (PI * (1 - w)).

(** ** Oscillations *)
(** movement.py:1364-1399 *)
Definition oscillating_sinspace (amplitude period base : R) (num_steps : Z) (delta_time : R) : result (list R) :=
  let* n := count num_steps in
  if Reqb amplitude 0 || Reqb period 0 then Ok (repeat base n)
  else
    let times := linspace_open 0 (IZR num_steps * delta_time) n in
    let b := 2 * PI / period in
    Ok (map (fun t => amplitude * sin (b * (t - 0)) + base) times).
(** movement.py:1402-1437 *)
Definition oscillating_linspace (amplitude period base : R) (num_steps : Z) (delta_time : R) : result (list R) :=
  let* n := count num_steps in
  if Reqb amplitude 0 || Reqb period 0 then Ok (repeat base n)
  else
    let times := linspace_open 0 (IZR num_steps * delta_time) n in
    let b := 2 * PI / period in
    Ok (map (fun t => amplitude * sawtooth (b * t + PI / 2) + base) times).
(** movement.py:1440-1485.  Simplification: the custom function, which gets the
    whole array of times, is taken to act on each element. *)
Definition oscillating_customspace (amplitude period base : R) (num_steps : Z) (delta_time : R) (f : R -> R)
  : result (list R) :=
  let* n := count num_steps in
  if Reqb amplitude 0 || Reqb period 0 then Ok (repeat base n)
  else
    let times := linspace_open 0 (IZR num_steps * delta_time) n in
    let b := 2 * PI / period in
    Ok (map (fun t => amplitude * f (b * (t - 0)) + base) times).

(** The amplitude, period and spacing of one moving quantity.
    (movement.py:281-317, 520-554 and 917-971) *)
Record oscillation : Type := mkosc { osc_amplitude : R; osc_period : R; osc_spacing : string }.
(** movement.py:334-409, 570-645, 1303-1326: sine or uniform, else an exception. *)
Definition oscillate (o : oscillation) (base : R) (num_steps : Z) (delta_time : R) : result (list R) :=
  if String.eqb (osc_spacing o) "sine" then
    oscillating_sinspace (osc_amplitude o) (osc_period o) base num_steps delta_time
  else if String.eqb (osc_spacing o) "uniform" then
    oscillating_linspace (osc_amplitude o) (osc_period o) base num_steps delta_time
  else Err EBadSpacing.
(** movement.py:1029-1158: the same with custom functions. *)
Definition oscillate_custom (o : oscillation) (custom : option (R -> R)) (base : R) (num_steps : Z) (delta_time : R)
  : result (list R) :=
  if String.eqb (osc_spacing o) "sine" then
    oscillating_sinspace (osc_amplitude o) (osc_period o) base num_steps delta_time
  else if String.eqb (osc_spacing o) "uniform" then
    oscillating_linspace (osc_amplitude o) (osc_period o) base num_steps delta_time
  else if String.eqb (osc_spacing o) "custom" then
    match custom with
    | None => Err ENoCustomFunction
    | Some f => oscillating_customspace (osc_amplitude o) (osc_period o) base num_steps delta_time f
    end
  else Err EBadSpacing.

(** ** Cross sections *)
(** movement.py:860-971: WingCrossSectionMovement. *)
Record section_movement : Type := mksecmove {
  sm_base : section;
  sm_sweeping : oscillation; sm_custom_sweep : option (R -> R);
  sm_pitching : oscillation; sm_custom_pitch : option (R -> R);
  sm_heaving : oscillation; sm_custom_heave : option (R -> R)
}.
(** movement.py:1226-1237 *)
Definition sm_max_period (m : section_movement) : R :=
  Rmax (Rmax (osc_period (sm_sweeping m)) (osc_period (sm_pitching m))) (osc_period (sm_heaving m)).
(** The default arguments of WingCrossSection, Wing and Airplane left out by the
    snapshots (geometry.py:187-199 and 524-538). *)
Definition default_unit_normal : vec := mkvec 0 1 0.
(** geometry.py:187-200: the default of unit_chordwise_vector. *)
Definition default_unit_chordwise : vec := mkvec 1 0 0.
(** movement.py:1184-1224 *)
Definition section_at (b : section) (x y z twist : R) : result section :=
  new_section (cs_airfoil b) x y z (cs_chord b) default_unit_normal twist (cs_control_surface_type b)
              (cs_control_surface_hinge_point b) (cs_control_surface_deflection b)
              (cs_num_spanwise_panels b) (cs_spanwise_spacing b).
(** Reading four parallel lists step by step (movement.py:1198-1221). *)
Definition map4M {A B C D E} (f : A -> B -> C -> D -> result E) (a : list A) (b : list B) (c : list C) (d : list D)
  : result (list E) :=
  mapM (fun q => f (fst (fst q)) (snd (fst q)) (fst (snd q)) (snd (snd q))) (combine (combine a b) (combine c d)).
(** movement.py:973-1224 [generate_wing_cross_sections].  [last] holds the leading
    edges of the next section inboard, one per step. *)
Definition generate_sections (m : section_movement) (num_steps : Z) (delta_time : R) (last : list vec)
           (vertical : bool) (span sweep heave : R) : result (list section) :=
  let b := sm_base m in
  let* sweeping := oscillate_custom (sm_sweeping m) (sm_custom_sweep m) sweep num_steps delta_time in
  let* pitching := oscillate_custom (sm_pitching m) (sm_custom_pitch m) (cs_twist b) num_steps delta_time in
  let* heaving := oscillate_custom (sm_heaving m) (sm_custom_heave m) heave num_steps delta_time in
  let* n := count num_steps in
  let xs := if vertical then repeat (cs_x_le b) n
            else map2 (fun l sh => vx l + span * cos (fst sh * PI / 180) * sin (snd sh * PI / 180)) last (combine sweeping heaving) in
  let ys := if vertical then repeat (cs_y_le b) n
            else map2 (fun l sh => vy l + span * cos (fst sh * PI / 180) * cos (snd sh * PI / 180)) last (combine sweeping heaving) in
  let zs := if vertical then repeat (cs_z_le b) n
            else map2 (fun l sh => vz l + span * sin (fst sh * PI / 180)) last (combine sweeping heaving) in
  let twists := if vertical then repeat (cs_twist b) n else pitching in
  map4M (section_at b) xs ys zs twists.

(** ** Wings *)
(** movement.py:491-554: WingMovement. *)
Record wing_movement : Type := mkwingmove {
  wm_base : wing;
  wm_sections : list section_movement;
  wm_x_le : oscillation; wm_y_le : oscillation; wm_z_le : oscillation
}.
(** movement.py:815-839 *)
Definition wm_max_period (m : wing_movement) : result R :=
  let* p := py_max (map sm_max_period (wm_sections m)) in
  Ok (Rmax (Rmax (Rmax p (osc_period (wm_x_le m))) (osc_period (wm_y_le m))) (osc_period (wm_z_le m))).
(** movement.py:721-750: span, sweep, heave (in degrees) and whether the part of
    the wing inboard of [this] is vertical. *)
Definition base_angles (this last : vec) : R * R * R * bool :=
  let span := sqrt ((vx this - vx last) ^ 2 + (vy this - vy last) ^ 2 + (vz this - vz last) ^ 2) in
  if negb (Reqb (vy this) (vy last)) then
    (span, atan ((vz this - vz last) / (vy this - vy last)) * 180 / PI,
     atan ((vx this - vx last) / (vy this - vy last)) * 180 / PI, false)
  else (span, 0, 0, true).
(** movement.py:665-695: the root section must not sweep or heave. *)
Definition root_fixed (m : section_movement) : bool :=
  Reqb (osc_amplitude (sm_sweeping m)) 0 && Reqb (osc_period (sm_sweeping m)) 0 &&
  Reqb (osc_amplitude (sm_heaving m)) 0 && Reqb (osc_period (sm_heaving m)) 0.
(** movement.py:655-777: every section's time history, from root to tip; [last] is
    None at the root. *)
Fixpoint section_histories (num_steps : Z) (delta_time : R) (last : option (list section))
         (ms : list section_movement) : result (list (list section)) :=
  match ms with
  | [] => Ok []
  | m :: ms' =>
      let* h :=
        match last with
        | None =>
            let* _ := check (root_fixed m) ERootSectionMoves in
            let* n := count num_steps in
            generate_sections m num_steps delta_time (repeat vzero n) false 0 0 0
        | Some sections =>
            let les := map cs_leading_edge sections in
            let* first := index les 0 in
            let '(span, sweep, heave, vertical) := base_angles (cs_leading_edge (sm_base m)) first in
            generate_sections m num_steps delta_time les vertical span sweep heave
        end in
      let* rest := section_histories num_steps delta_time (Some h) ms' in
      Ok (h :: rest)
  end.
(** array[:, step] of an array of objects.
    (The objects of one time step: one column of the array filled at movement.py:413-424.) *)
Definition column {A} (rows : list (list A)) (step : nat) : result (list A) := mapM (fun r => index r step) rows.
(** movement.py:556-813 [generate_wings]. *)
Definition generate_wings (m : wing_movement) (num_steps : Z) (delta_time : R) : result (list wing) :=
  let b := wm_base m in
  let* xs := oscillate (wm_x_le m) (w_x_le b) num_steps delta_time in
  let* ys := oscillate (wm_y_le m) (w_y_le b) num_steps delta_time in
  let* zs := oscillate (wm_z_le m) (w_z_le b) num_steps delta_time in
  let* histories := section_histories num_steps delta_time None (wm_sections m) in
  mapM (fun step =>
          let* x := index xs step in
          let* y := index ys step in
          let* z := index zs step in
          let* sections := column histories step in
          new_wing sections (w_name b) x y z default_unit_normal (w_symmetric b) default_unit_chordwise
                   (w_num_chordwise_panels b) (w_chordwise_spacing b))
       (seq 0 (Z.to_nat num_steps)).

(** ** Airplanes *)
(** movement.py:250-317: AirplaneMovement. *)
Record airplane_movement : Type := mkairmove {
  am_base : airplane;
  am_wings : list wing_movement;
  am_x_ref : oscillation; am_y_ref : oscillation; am_z_ref : oscillation
}.
(** movement.py:451-471 *)
Definition am_max_period (m : airplane_movement) : result R :=
  let* ps := mapM wm_max_period (am_wings m) in
  let* p := py_max ps in
  Ok (Rmax (Rmax (Rmax p (osc_period (am_x_ref m))) (osc_period (am_y_ref m))) (osc_period (am_z_ref m))).
(** movement.py:319-449 [generate_airplanes]. *)
Definition generate_airplanes (m : airplane_movement) (num_steps : Z) (delta_time : R) : result (list airplane) :=
  let b := am_base m in
  let* xs := oscillate (am_x_ref m) (a_x_ref b) num_steps delta_time in
  let* ys := oscillate (am_y_ref m) (a_y_ref b) num_steps delta_time in
  let* zs := oscillate (am_z_ref m) (a_z_ref b) num_steps delta_time in
  let* histories := mapM (fun w => generate_wings w num_steps delta_time) (am_wings m) in
  mapM (fun step =>
          let* x := index xs step in
          let* y := index ys step in
          let* z := index zs step in
          let* wings := column histories step in
          new_airplane wings (a_name b) x y z 0 None None None)
       (seq 0 (Z.to_nat num_steps)).

(** ** Operating points *)
(** movement.py:1258-1286: OperatingPointMovement. *)
Record op_movement : Type := mkopmove { om_base : operating_point; om_velocity : oscillation }.
(** movement.py:1352-1361 *)
Definition om_max_period (m : op_movement) : R := osc_period (om_velocity m).
(** movement.py:1288-1350 [generate_operating_points]. *)
Definition generate_operating_points (m : op_movement) (num_steps : Z) (delta_time : R) : result (list operating_point) :=
  let b := om_base m in
  let* vs := oscillate (om_velocity m) (op_velocity b) num_steps delta_time in
  mapM (fun step =>
          let* v := index vs step in
          Ok (mkop (op_density b) v (op_alpha b) (op_beta b) (op_external_thrust default_operating_point)
                   (op_nu default_operating_point)))
       (seq 0 (Z.to_nat num_steps)).

(** ** Movements *)
(** movement.py:60-209: attributes of a Movement. *)
Record movement : Type := mkmovement {
  mv_airplane_movements : list airplane_movement;
  mv_op_movement : op_movement;
  mv_num_steps : Z;
  mv_num_cycles : option R;
  mv_num_chords : option R;
  mv_delta_time : R;
  mv_airplanes : list (list airplane);
  mv_operating_points : list operating_point
}.
(** movement.py:211-230 *)
Definition max_period (ams : list airplane_movement) (om : op_movement) : result R :=
  let* ps := mapM am_max_period ams in
  let* p := py_max ps in
  Ok (Rmax p (om_max_period om)).
(** [is not None] (movement.py:123-124) *)
Definition is_some {A} (o : option A) : bool := match o with Some _ => true | None => false end.
(** movement.py:60-209 [Movement.__init__].  [delta_time] divides by the number of
    chordwise panels and the speed, [num_steps] by the time step. *)
Definition new_movement (ams : list airplane_movement) (om : op_movement) (num_steps : option Z)
           (num_cycles num_chords delta_time : option R) : result movement :=
  let* _ :=
    if is_some num_cycles then
      let* bad := if is_some num_steps then Ok true else let* p := max_period ams om in Ok (Reqb p 0) in
      check (negb bad) (if is_some num_steps then EStepsAndCycles else ECyclesStatic)
    else Ok tt in
  let* _ :=
    if is_some num_chords then
      let* bad := if is_some num_steps then Ok true else let* p := max_period ams om in Ok (negb (Reqb p 0)) in
      check (negb bad) (if is_some num_steps then EStepsAndChords else EChordsPeriodic)
    else Ok tt in
  let velocity := op_velocity (om_base om) in
  let* dt :=
    match delta_time with
    | Some dt => Ok dt
    | None =>
        let* dts := mapM (fun m => let* w := index (a_wings (am_base m)) 0 in
                                   Ok (a_c_ref (am_base m) / INR (w_num_chordwise_panels w) / velocity)) ams in
        if Nat.eqb (length dts) 0 then Err EZeroDivision else Ok (rsum dts / INR (length dts))
    end in
  let* r :=
    match num_steps with
    | Some n => Ok (n, num_cycles, num_chords)
    | None =>
        let* p := max_period ams om in
        if Reqb p 0 then
          let* c := py_max (map (fun m => a_c_ref (am_base m)) ams) in
          let chords := match num_chords with Some k => k | None => 10 end in
          Ok (py_ceil (chords * c / (dt * velocity)), num_cycles, Some chords)
        else
          let cycles := match num_cycles with Some k => k | None => 3 end in
          Ok (py_ceil (cycles * p / dt), Some cycles, num_chords)
    end in
  let '(n, cycles, chords) := r in
  let* airplanes := mapM (fun m => generate_airplanes m n dt) ams in
  let* ops := generate_operating_points om n dt in
  Ok (mkmovement ams om n cycles chords dt airplanes ops).
(** movement.py:211-230, with the object's attributes. *)
Definition mv_max_period (m : movement) : result R := max_period (mv_airplane_movements m) (mv_op_movement m).

(** ** Problems *)
(** problems.py:30-41 *)
Record steady_problem : Type := mksteady { sp_airplanes : list airplane; sp_operating_point : operating_point }.
(** The final results of an unsteady problem (problems.py:98-120). *)
Record final_loads : Type := mkfinal {
  fl_forces : list vec; fl_force_coefficients : list vec; fl_moments : list vec; fl_moment_coefficients : list vec
}.
(** problems.py:98-120: the lists are empty at first. *)
Definition no_final_loads : final_loads := mkfinal [] [] [] [].
(** problems.py:57-143: attributes of an UnsteadyProblem. *)
Record unsteady_problem : Type := mkunsteady {
  up_movement : movement;
  up_num_steps : Z;
  up_delta_time : R;
  up_only_final_results : bool;
  up_max_period : R;
  up_first_averaging_step : Z;
  up_first_results_step : Z;
  up_final : final_loads;
  up_final_mean : final_loads;
  up_final_rms : final_loads;
  up_steady_problems : list steady_problem
}.
(** problems.py:77-88 *)
Definition first_averaging_step (num_steps : Z) (delta_time period : R) : Z :=
  if Reqb period 0 then (num_steps - 1)%Z else Z.max 0 (py_floor (IZR num_steps - period / delta_time)).
(** problems.py:57-143 [UnsteadyProblem.__init__] *)
Definition new_unsteady_problem (m : movement) (only_final_results : bool) : result unsteady_problem :=
  let* p := mv_max_period m in
  let first := first_averaging_step (mv_num_steps m) (mv_delta_time m) p in
  let* problems :=
    mapM (fun step =>
            let* airplanes := column (mv_airplanes m) step in
            let* op := index (mv_operating_points m) step in
            Ok (mksteady airplanes op))
         (seq 0 (Z.to_nat (mv_num_steps m))) in
  Ok (mkunsteady m (mv_num_steps m) (mv_delta_time m) only_final_results p first
                 (if only_final_results then first else 0%Z) no_final_loads no_final_loads no_final_loads problems).
