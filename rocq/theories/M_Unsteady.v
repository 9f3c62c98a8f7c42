(** Model of pterasoftware/unsteady_ring_vortex_lattice_method.py. *)
From Verif Require Export M_SteadyRing M_Movement.

(** unsteady_ring_vortex_lattice_method.py:162-168 and 172-177: one step's entry of the lists
    [wake_ring_vortex_..._list]. *)
Record wake_arrays : Type := mkwake {
  wk_strengths : list R;
  wk_ages : list R;
  wk_front_right : list vec;
  wk_front_left : list vec;
  wk_back_left : list vec;
  wk_back_right : list vec
}.
(** unsteady_ring_vortex_lattice_method.py:233-246 *)
Definition zero_wake (n : nat) : wake_arrays :=
  mkwake (repeat 0 n) (repeat 0 n) (repeat vzero n) (repeat vzero n) (repeat vzero n) (repeat vzero n).

(** unsteady_ring_vortex_lattice_method.py:148-157: attributes of the previous step's panels.  The four arrays of
    previous vortex vertices and the previous back leg centers are never read and
    are left out. *)
Record last_arrays : Type := mklast {
  la_collocations : list vec;
  la_strengths : list R;
  la_right_centers : list vec;
  la_front_centers : list vec;
  la_left_centers : list vec
}.

(** unsteady_ring_vortex_lattice_method.py:109-137 and 172-178: the attributes of the current step. *)
Record current_step : Type := mkcurrent {
  cu_step : nat;
  cu_op : operating_point;
  cu_freestream : vec;
  cu_rows : list ring_row;
  cu_last : last_arrays;
  cu_seeds : list vec;
  cu_wing_influences : list (list R);
  cu_freestream_influences : list R;
  cu_wake_influences : list R;
  cu_strengths : list R;
  cu_wake : wake_arrays
}.

(** unsteady_ring_vortex_lattice_method.py:93-178: the solver object.  [us_heap] holds the wake's RingVortex objects
    in the order of their creation: wings of successive steps refer to the same
    objects (unsteady_ring_vortex_lattice_method.py:1384-1386).  The snapshots inside [up_movement] are in Python the
    same objects as those of [up_steady_problems]; only the latter are updated here. *)
Record unsteady_solver : Type := mkus {
  us_problem : unsteady_problem;
  us_heap : list ring_vortex;
  us_num_wake : list nat;
  us_wakes : list wake_arrays;
  us_current : option current_step;
  us_streamline_points : option (list (list vec))
}.
(** unsteady_ring_vortex_lattice_method.py:93-178 *)
Definition unsteady_new (up : unsteady_problem) : result unsteady_solver :=
  let* _ := index (up_steady_problems up) 0 in
  Ok (mkus up [] [] [] None None).
(** Assignment to the panels reached through steady_problems (unsteady_ring_vortex_lattice_method.py:103 and 556-562). *)
Definition up_set_steps (l : list steady_problem) (up : unsteady_problem) : unsteady_problem :=
  mkunsteady (up_movement up) (up_num_steps up) (up_delta_time up) (up_only_final_results up) (up_max_period up)
             (up_first_averaging_step up) (up_first_results_step up) (up_final up) (up_final_mean up)
             (up_final_rms up) l.
(** unsteady_ring_vortex_lattice_method.py:1648-1727 *)
Definition up_set_final (f mean rms : final_loads) (up : unsteady_problem) : unsteady_problem :=
  mkunsteady (up_movement up) (up_num_steps up) (up_delta_time up) (up_only_final_results up) (up_max_period up)
             (up_first_averaging_step up) (up_first_results_step up) f mean rms (up_steady_problems up).

(** Writing [values] to an array from entry 0 on; an array that is too short raises.
    (unsteady_ring_vortex_lattice_method.py:597-617) *)
Definition overwrite {A} (array values : list A) : result (list A) :=
  if Nat.leb (length values) (length array) then Ok (values ++ skipn (length values) array) else Err EIndexError.
(** Assignment to entry [i] of a list or an array, as unsteady_ring_vortex_lattice_method.py:1463-1472. *)
Definition set_at {A} (i : nat) (x : A) (l : list A) : list A := firstn i l ++ x :: skipn (S i) l.
(** numpy.vstack of a new first row and an array: rows of different lengths raise.
    (unsteady_ring_vortex_lattice_method.py:1328-1333 and 1384-1386) *)
Definition vstack {A} (row : list A) (m : list (list A)) : result (list (list A)) :=
  let* _ := check (forallb (fun r => Nat.eqb (length r) (length row)) m) EValueError in Ok (row :: m).

(** unsteady_ring_vortex_lattice_method.py:505-562: the ring vortex of the panel at (c, s).  Its strength is None until
    the step is solved; [blank] stands for it. *)
Definition unsteady_init_panel (blank : R) (drift : vec) (m : list (list panel)) (c s : nat) (p : panel) : result panel :=
  let fl := p_front_left_vortex_vertex p in
  let fr := p_front_right_vortex_vertex p in
  if p_is_trailing_edge p then
    let bl := vadd (vadd fl (vsub (p_back_left p) (p_front_left p))) drift in
    let br := vadd (vadd fr (vsub (p_back_right p) (p_front_right p))) drift in
    Ok (p_set_ring (Some (new_ring fl fr bl br blank)) p)
  else
    let* next := panel_at m (S c) s in
    Ok (p_set_ring (Some (new_ring fl fr (p_front_left_vortex_vertex next) (p_front_right_vortex_vertex next) blank)) p).
(** unsteady_ring_vortex_lattice_method.py:505-562 *)
Definition unsteady_init_wing (blank : R) (drift : vec) (w : wing) : result wing :=
  let m := w_panels w in
  let* m' := mapiM (fun c row => mapiM (fun s p => unsteady_init_panel blank drift m c s p) row) m in
  Ok (w_set_panels m' w).
(** unsteady_ring_vortex_lattice_method.py:502 *)
Definition unsteady_init_airplane (blank : R) (drift : vec) (a : airplane) : result airplane :=
  let* ws := mapM (unsteady_init_wing blank drift) (a_wings a) in Ok (a_set_wings ws a).
(** unsteady_ring_vortex_lattice_method.py:493-503 and 540-542 *)
Definition unsteady_init_step (blank dt : R) (sp : steady_problem) : result steady_problem :=
  let drift := vscale (25 / 100) (vscale dt (freestream_velocity (sp_operating_point sp))) in
  let* airplanes := mapM (unsteady_init_airplane blank drift) (sp_airplanes sp) in
  Ok (mksteady airplanes (sp_operating_point sp)).

(** unsteady_ring_vortex_lattice_method.py:584-595 and functions.py:531-607.  The unsteady solver has no horseshoe
    vortices: those fields of the row are unused. *)
Definition unsteady_make_row (awp : airplane * wing * panel) : result ring_row :=
  let '(a, _, p) := awp in
  match p_ring_vortex p with
  | None => Err EAttributeError
  | Some r => Ok (mkringrow p (a_xyz_ref a) r vzero vzero vzero vzero)
  end.
(** unsteady_ring_vortex_lattice_method.py:572-595 *)
Definition unsteady_collapse (airplanes : list airplane) : result (list ring_row) :=
  mapM unsteady_make_row (flat_panels airplanes).
(** unsteady_ring_vortex_lattice_method.py:576-581 and 597-617: the wake ring vortices, wing after wing, row after row. *)
Definition wake_references (airplanes : list airplane) : list nat :=
  concat (map (fun a => concat (map (fun w => ravel (w_wake_rings w)) (a_wings a))) airplanes).
(** unsteady_ring_vortex_lattice_method.py:597-617 *)
Definition collapse_wake (heap : list ring_vortex) (airplanes : list airplane) (allocated : wake_arrays)
  : result wake_arrays :=
  let* rings := mapM (index heap) (wake_references airplanes) in
  let* strengths := overwrite (wk_strengths allocated) (map rv_strength rings) in
  let* ages := overwrite (wk_ages allocated) (map rv_age rings) in
  let* fr := overwrite (wk_front_right allocated) (map rv_front_right rings) in
  let* fl := overwrite (wk_front_left allocated) (map rv_front_left rings) in
  let* bl := overwrite (wk_back_left allocated) (map rv_back_left rings) in
  let* br := overwrite (wk_back_right allocated) (map rv_back_right rings) in
  Ok (mkwake strengths ages fr fl bl br).
(** unsteady_ring_vortex_lattice_method.py:393-410 and 621-670; [n] is the number of panels of the current step. *)
Definition last_step_arrays (n step : nat) (steps : list steady_problem) : result last_arrays :=
  match step with
  | O => Ok (mklast (zeros n) (repeat 0 n) (zeros n) (zeros n) (zeros n))
  | S previous =>
      let* sp := index steps previous in
      let* rows := unsteady_collapse (sp_airplanes sp) in
      let* collocations := overwrite (zeros n) (map rr_collocation rows) in
      let* strengths := overwrite (repeat 0 n) (map (fun r => rv_strength (rr_vortex r)) rows) in
      let* right_centers := overwrite (zeros n) (map rr_right_center rows) in
      let* front_centers := overwrite (zeros n) (map rr_front_center rows) in
      let* left_centers := overwrite (zeros n) (map rr_left_center rows) in
      Ok (mklast collocations strengths right_centers front_centers left_centers)
  end.

(** unsteady_ring_vortex_lattice_method.py:1474-1584: the four methods differ only in the points. *)
Definition flapping_velocities (step : nat) (dt : R) (these last : list vec) : list vec :=
  match step with
  | O => zeros (length these)
  | S _ => map2 (fun p q => vdiv (vopp (vsub p q)) dt) these last
  end.

(** unsteady_ring_vortex_lattice_method.py:672-700 *)
Definition unsteady_wing_influences (rows : list ring_row) (strengths : list R) (nu : R) : list (list R) :=
  normal_components
    (expanded_ring (map rr_collocation rows) (map rr_back_right rows) (map rr_front_right rows)
                   (map rr_front_left rows) (map rr_back_left rows) strengths None nu)
    (map rr_normal rows).
(** np.einsum("ij,ij->i", a, b).  (unsteady_ring_vortex_lattice_method.py:727-736 and 769-775) *)
Definition row_dots (a b : list vec) : list R := map2 vdot a b.
(** unsteady_ring_vortex_lattice_method.py:702-736 *)
Definition unsteady_freestream_influences (step : nat) (dt : R) (rows : list ring_row) (last : last_arrays) (freestream : vec)
  : list R :=
  map2 Rplus (freestream_influences (map rr_normal rows) freestream)
       (row_dots (map rr_normal rows) (flapping_velocities step dt (map rr_collocation rows) (la_collocations last))).
(** Velocity induced by the wake at [points] (unsteady_ring_vortex_lattice_method.py:757-767 and 836-845). *)
Definition wake_velocities (wake : wake_arrays) (nu : R) (points : list vec) : list vec :=
  collapsed_ring points (wk_back_right wake) (wk_front_right wake) (wk_front_left wake) (wk_back_left wake)
                 (wk_strengths wake) (Some (wk_ages wake)) nu.
(** unsteady_ring_vortex_lattice_method.py:738-775 *)
Definition unsteady_wake_influences (step n : nat) (rows : list ring_row) (wake : wake_arrays) (nu : R) : list R :=
  match step with
  | O => repeat 0 n
  | S _ => row_dots (wake_velocities wake nu (map rr_collocation rows)) (map rr_normal rows)
  end.
(** unsteady_ring_vortex_lattice_method.py:790-795 *)
Definition unsteady_set_strength (p : panel) (g : R) : result panel :=
  match p_ring_vortex p with
  | None => Err EAttributeError
  | Some r => Ok (p_set_ring (Some (ring_update_strength g r)) p)
  end.

(** unsteady_ring_vortex_lattice_method.py:797-853 [calculate_solution_velocity] *)
Definition unsteady_velocity_of (rows : list ring_row) (strengths : list R) (wake : wake_arrays) (nu : R) (freestream : vec)
           (points : list vec) : list vec :=
  map (fun v => vadd v freestream)
      (add_rows (collapsed_ring points (map rr_back_right rows) (map rr_front_right rows)
                                (map rr_front_left rows) (map rr_back_left rows) strengths None nu)
                (wake_velocities wake nu points)).
(** unsteady_ring_vortex_lattice_method.py:797-853 *)
Definition current_velocity (c : current_step) (points : list vec) : list vec :=
  unsteady_velocity_of (cu_rows c) (cu_strengths c) (cu_wake c) (op_nu (cu_op c)) (cu_freestream c) points.
(** unsteady_ring_vortex_lattice_method.py:797-853 *)
Definition unsteady_solution_velocity (s : unsteady_solver) (points : list vec) : result (list vec) :=
  match us_current s with Some c => Ok (current_velocity c points) | None => Err EAttributeError end.
(** unsteady_ring_vortex_lattice_method.py:1474-1584 as methods, called after a step. *)
Definition flapping_at (point : ring_row -> vec) (lasts : last_arrays -> list vec) (s : unsteady_solver) : result (list vec) :=
  match us_current s with
  | Some c => Ok (flapping_velocities (cu_step c) (up_delta_time (us_problem s)) (map point (cu_rows c)) (lasts (cu_last c)))
  | None => Err EAttributeError
  end.
(** unsteady_ring_vortex_lattice_method.py:1474-1500 *)
Definition flapping_at_collocation_points : unsteady_solver -> result (list vec) := flapping_at rr_collocation la_collocations.
(** unsteady_ring_vortex_lattice_method.py:1502-1528 *)
Definition flapping_at_right_leg_centers : unsteady_solver -> result (list vec) := flapping_at rr_right_center la_right_centers.
(** unsteady_ring_vortex_lattice_method.py:1530-1556 *)
Definition flapping_at_front_leg_centers : unsteady_solver -> result (list vec) := flapping_at rr_front_center la_front_centers.
(** unsteady_ring_vortex_lattice_method.py:1558-1584 *)
Definition flapping_at_left_leg_centers : unsteady_solver -> result (list vec) := flapping_at rr_left_center la_left_centers.

(** unsteady_ring_vortex_lattice_method.py:985-1061: force and moment of one panel.  [steady] are the loads of the
    three legs, computed as in the steady solver. *)
Definition unsteady_panel_loads (density dt : R) (r : ring_row) (change : R) (steady : vec * vec) : vec * vec :=
  let f := vdiv (vscale (density * change * p_area (rr_panel r)) (rr_normal r)) dt in
  (vadd (fst steady) f, vadd (snd steady) (vcross (vsub (rr_collocation r) (rr_ref r)) f)).
(** unsteady_ring_vortex_lattice_method.py:855-1061.  The effective strengths (unsteady_ring_vortex_lattice_method.py:870-964) and the leg loads
    (unsteady_ring_vortex_lattice_method.py:985-1008 and 1031-1048) are those of the steady solver. *)
Definition unsteady_loads (density dt : R) (step : nat) (velocity : list vec -> list vec) (airplanes : list airplane)
           (rows : list ring_row) (last : last_arrays) (strengths : list R) : result (list (vec * vec)) :=
  let* effective := mapM effective_strengths (combine (flat_panels airplanes) strengths) in
  let moving points lasts := add_rows (velocity points) (flapping_velocities step dt points lasts) in
  let v_front := moving (map rr_front_center rows) (la_front_centers last) in
  let v_left := moving (map rr_left_center rows) (la_left_centers last) in
  let v_right := moving (map rr_right_center rows) (la_right_centers last) in
  let legs := map2 (fun re vs => ring_panel_loads density (fst re) (snd re) (fst (fst vs)) (snd (fst vs)) (snd vs))
                   (combine rows effective) (combine (combine v_right v_front) v_left) in
  let changes := map2 Rminus strengths (la_strengths last) in
  Ok (map2 (fun rc l => unsteady_panel_loads density dt (fst rc) (snd rc) l) (combine rows changes) legs).

(** unsteady_ring_vortex_lattice_method.py:1132-1168 and 1295-1324: the row of back vertices of the next wing's
    trailing edge ring vortices. *)
Definition back_vertex (side : ring_vortex -> vec) (m : list (list panel)) (c s : nat) : result vec :=
  let* p := panel_at m c s in
  match p_ring_vortex p with Some r => Ok (side r) | None => Err EAttributeError end.
(** unsteady_ring_vortex_lattice_method.py:1137-1168 and 1304-1324 *)
Definition trailing_edge_row (this_wing next_wing : wing) : result (list vec) :=
  let c := (w_num_chordwise_panels this_wing - 1)%nat in
  let n := w_num_spanwise_panels this_wing in
  let* lefts := mapM (back_vertex rv_back_left (w_panels next_wing) c) (seq 0 n) in
  let* last := match n with
               | O => Ok vzero
               | S s => back_vertex rv_back_right (w_panels next_wing) c s
               end in
  Ok (lefts ++ [last]).
(** unsteady_ring_vortex_lattice_method.py:1173, 1225, 1237, 1328 and 1384 *)
Definition w_set_wake (vertices : list (list vec)) (rings : list (list nat)) (w : wing) : wing :=
  mkwing (w_sections w) (w_name w) (w_x_le w) (w_y_le w) (w_z_le w) (w_unit_normal w) (w_symmetric w)
         (w_unit_chordwise w) (w_num_chordwise_panels w) (w_chordwise_spacing w)
         (w_num_spanwise_panels w) (w_num_panels w) (w_panels w) vertices rings.
(** unsteady_ring_vortex_lattice_method.py:1117-1333, one wing.  [convect] moves a vertex for one time step. *)
Definition next_wake_vertices (step : nat) (convect : vec -> vec) (this_wing next_wing : wing) : result wing :=
  let* first := trailing_edge_row this_wing next_wing in
  let* vertices :=
    match step with
    | O => vstack first [map convect first]
    | S _ => vstack first (map (map convect) (w_wake_vertices this_wing))
    end in
  Ok (w_set_wake vertices (w_wake_rings next_wing) next_wing).
(** unsteady_ring_vortex_lattice_method.py:1196-1221 and 1263-1292 *)
Definition convect_vertex (prescribed_wake : bool) (freestream : vec) (velocity : list vec -> list vec) (dt : R) (v : vec) : vec :=
  vadd v (vscale dt (if prescribed_wake then freestream else nth 0 (velocity [v]) vzero)).
(** unsteady_ring_vortex_lattice_method.py:1114-1117 and 1353-1356: the first walk raises if the next airplane has more
    wings than this one, the second if it has fewer. *)
Definition for_wings {S} (f : S -> wing -> wing -> result (S * wing)) (st : S) (these nexts : list wing)
  : result (S * list wing) :=
  let* _ := check (Nat.eqb (length nexts) (length these)) EIndexError in
  let fix go st these nexts :=
    match these, nexts with
    | t :: these', n :: nexts' =>
        let* r := f st t n in
        let* rs := go (fst r) these' nexts' in
        Ok (fst rs, snd r :: snd rs)
    | _, _ => Ok (st, nexts)
    end in
  go st these nexts.
(** unsteady_ring_vortex_lattice_method.py:1111-1117 and 1350-1356: the walk over the next step's wings with the
    current step's wing at the same position; [st] is threaded through. *)
Definition for_airplanes {S} (f : S -> wing -> wing -> result (S * wing)) (st : S) (these nexts : list airplane)
  : result (S * list airplane) :=
  let* _ := check (Nat.leb (length nexts) (length these)) EIndexError in
  let fix go st these nexts :=
    match these, nexts with
    | t :: these', n :: nexts' =>
        let* r := for_wings f st (a_wings t) (a_wings n) in
        let* rs := go (fst r) these' nexts' in
        Ok (fst rs, a_set_wings (snd r) n :: snd rs)
    | _, _ => Ok (st, nexts)
    end in
  go st these nexts.

(** unsteady_ring_vortex_lattice_method.py:1407-1423: the corners FL, FR, BL, BR of the cell (c, s) of a vertex grid. *)
Definition cell (vertices : list (list vec)) (c s : nat) : result (vec * vec * vec * vec) :=
  let* front := index vertices c in
  let* back := index vertices (S c) in
  let* fl := index front s in
  let* fr := index front (S s) in
  let* bl := index back s in
  let* br := index back (S s) in
  Ok (fl, fr, bl, br).
(** A loop whose body changes state and may raise, as unsteady_ring_vortex_lattice_method.py:1389-1472. *)
Fixpoint foldM {A S} (f : S -> A -> result S) (st : S) (l : list A) : result S :=
  match l with
  | [] => Ok st
  | x :: xs => let* st := f st x in foldM f st xs
  end.
(** unsteady_ring_vortex_lattice_method.py:1451-1472: a new ring vortex behind the trailing edge panel of column [s]. *)
Definition shed_ring (vertices : list (list vec)) (this_wing : wing) (s : nat) : result ring_vortex :=
  let* corners := cell vertices 0 s in
  let '(fl, fr, bl, br) := corners in
  let* strength := ring_strength_at (w_panels this_wing) (w_num_chordwise_panels this_wing - 1) s in
  Ok (new_ring fl fr bl br strength).
(** unsteady_ring_vortex_lattice_method.py:1425-1449: an older ring vortex object is moved and ages. *)
Definition move_ring (step : nat) (dt : R) (vertices : list (list vec)) (ids : list (list nat)) (heap : list ring_vortex)
           (cs : nat * nat) : result (list ring_vortex) :=
  let '(c, s) := cs in
  let* corners := cell vertices c s in
  let '(fl, fr, bl, br) := corners in
  let* row := index ids c in
  let* id := index row s in
  let* r := index heap id in
  let r := ring_update_position fl fr bl br r in
  Ok (set_at id (ring_set_age (match step with O => dt | S _ => rv_age r + dt end) r) heap).
(** unsteady_ring_vortex_lattice_method.py:1359-1472, one wing.  The loop over the vertex grid does row 0 (new objects)
    before the other rows (existing objects); the last row and column of vertices
    start no ring. *)
Definition next_wake_rings (step : nat) (dt : R) (heap : list ring_vortex) (this_wing next_wing : wing)
  : result (list ring_vortex * wing) :=
  let vertices := w_wake_vertices next_wing in
  let rows := (length vertices - 1)%nat in
  let columns := (length (hd [] vertices) - 1)%nat in
  let* ids := vstack (seq (length heap) columns) (w_wake_rings this_wing) in
  let* shed := mapM (shed_ring vertices this_wing) (seq 0 (match rows with O => 0 | S _ => columns end)) in
  let* heap := foldM (move_ring step dt vertices ids) (heap ++ shed)
                     (list_prod (seq 1 (rows - 1)) (seq 0 columns)) in
  Ok (heap, w_set_wake vertices ids next_wing).

(** unsteady_ring_vortex_lattice_method.py:1069-1472 [populate_next_airplanes_wake]: all wake vertices first, then all
    wake ring vortices. *)
Definition populate_wake (step : nat) (dt : R) (convect : vec -> vec) (heap : list ring_vortex) (these nexts : list airplane)
  : result (list ring_vortex * list airplane) :=
  let* r := for_airplanes (fun st t n => let* w := next_wake_vertices step convect t n in Ok (st, w)) tt these nexts in
  for_airplanes (next_wake_rings step dt) heap these (snd r).

(** Assignment to the airplanes of step [k] (unsteady_ring_vortex_lattice_method.py:329-331 and 1103). *)
Definition set_airplanes (k : nat) (airplanes : list airplane) (steps : list steady_problem) : result (list steady_problem) :=
  let* sp := index steps k in
  Ok (set_at k (mksteady airplanes (sp_operating_point sp)) steps).

(** unsteady_ring_vortex_lattice_method.py:324-464: the body of the loop over the time steps. *)
Definition unsteady_step (solve : list (list R) -> list R -> result (list R)) (prescribed_wake : bool)
           (s : unsteady_solver) (step : nat) : result unsteady_solver :=
  let up := us_problem s in
  let dt := up_delta_time up in
  let* sp := index (up_steady_problems up) step in
  let op := sp_operating_point sp in
  let freestream := freestream_velocity op in
  let n := num_panels_of (sp_airplanes sp) in
  let* allocated := index (us_wakes s) step in
  let* rows := unsteady_collapse (sp_airplanes sp) in
  let* wake := collapse_wake (us_heap s) (sp_airplanes sp) allocated in
  let* last := last_step_arrays n step (up_steady_problems up) in
  let influences := unsteady_wing_influences rows (repeat 1 n) (op_nu op) in
  let fs := unsteady_freestream_influences step dt rows last freestream in
  let wk := unsteady_wake_influences step n rows wake (op_nu op) in
  let* strengths := solve influences (map2 Rminus (map Ropp wk) fs) in
  let* airplanes := update_panels unsteady_set_strength (sp_airplanes sp) strengths in
  let c := mkcurrent step op freestream rows last (seeds_of (map rr_panel rows)) influences fs wk strengths wake in
  let* airplanes :=
    if (up_first_results_step up <=? Z.of_nat step)%Z then
      let* loads := unsteady_loads (op_density op) dt step (current_velocity c) airplanes rows last strengths in
      process_forces op (map fst loads) (map snd loads) airplanes
    else Ok airplanes in
  let* steps := set_airplanes step airplanes (up_steady_problems up) in
  let* hs :=
    if (Z.of_nat step <? up_num_steps up - 1)%Z then
      let* next := index steps (S step) in
      let convect := convect_vertex prescribed_wake freestream (current_velocity c) dt in
      let* r := populate_wake step dt convect (us_heap s) airplanes (sp_airplanes next) in
      let* steps := set_airplanes (S step) (snd r) steps in
      Ok (fst r, steps)
    else Ok (us_heap s, steps) in
  Ok (mkus (up_set_steps (snd hs) up) (fst hs) (us_num_wake s) (set_at step wake (us_wakes s)) (Some c)
           (us_streamline_points s)).

(** unsteady_ring_vortex_lattice_method.py:213-263 and 316-317: before the loop over the time steps. *)
Definition total_spanwise (airplanes : list airplane) : nat :=
  fold_left (fun n a => fold_left (fun n w => n + w_num_spanwise_panels w) (a_wings a) n)%nat airplanes 0%nat.
(** unsteady_ring_vortex_lattice_method.py:213-263 and 493-562 *)
Definition unsteady_start (blank : R) (s : unsteady_solver) : result unsteady_solver :=
  let up := us_problem s in
  let* counts := mapM (fun k => let* sp := index (up_steady_problems up) k in
                                Ok (k * total_spanwise (sp_airplanes sp))%nat)
                      (seq 0 (Z.to_nat (up_num_steps up))) in
  let* steps := mapM (unsteady_init_step blank (up_delta_time up)) (up_steady_problems up) in
  Ok (mkus (up_set_steps steps up) (us_heap s) (us_num_wake s ++ counts) (us_wakes s ++ map zero_wake counts)
           (us_current s) (us_streamline_points s)).

(** ** Final loads *)
(** unsteady_ring_vortex_lattice_method.py:1603-1614 *)
Record load : Type := mkload { ld_force : vec; ld_force_coefficients : vec; ld_moment : vec; ld_moment_coefficients : vec }.
(** unsteady_ring_vortex_lattice_method.py:1627-1639.  NumPy turns a missing load (None) into NaN; here it is an error. *)
Definition loads_of (a : airplane) : result load :=
  match a_force_wind a, a_force_coefficients a, a_moment_wind a, a_moment_coefficients a with
  | Some f, Some cf, Some m, Some cm => Ok (mkload f cf m cm)
  | _, _, _, _ => Err ETypeError
  end.
(** unsteady_ring_vortex_lattice_method.py:1617-1641: the loads of airplane number [id] over the averaging window.  All
    steps have the same number of airplanes; with fewer at some step Python would leave
    zeros. *)
Definition averaging_steps (up : unsteady_problem) : list nat :=
  seq (Z.to_nat (up_first_averaging_step up)) (Z.to_nat (up_num_steps up - up_first_averaging_step up)).
(** unsteady_ring_vortex_lattice_method.py:1617-1641 *)
Definition load_history (up : unsteady_problem) (id : nat) : result (list load) :=
  mapM (fun k => let* sp := index (up_steady_problems up) k in
                 let* a := index (sp_airplanes sp) id in
                 loads_of a) (averaging_steps up).
(** unsteady_ring_vortex_lattice_method.py:1648-1659, 1703-1714 and 1716-1727 *)
Definition append_load (f : final_loads) (l : load) : final_loads :=
  mkfinal (fl_forces f ++ [ld_force l]) (fl_force_coefficients f ++ [ld_force_coefficients l])
          (fl_moments f ++ [ld_moment l]) (fl_moment_coefficients f ++ [ld_moment_coefficients l]).
(** np.mean(axis=-1) and np.sqrt(np.mean(np.square(..), axis=-1)).
    (unsteady_ring_vortex_lattice_method.py:1661-1672) *)
Definition mean_of (l : list R) : R := rsum l / INR (length l).
(** unsteady_ring_vortex_lattice_method.py:1674-1701 *)
Definition rms_of (l : list R) : R := sqrt (mean_of (map (fun x => x * x) l)).
(** unsteady_ring_vortex_lattice_method.py:1661-1701 *)
Definition each_component (f : list R -> R) (l : list vec) : vec := mkvec (f (map vx l)) (f (map vy l)) (f (map vz l)).
(** unsteady_ring_vortex_lattice_method.py:1661-1701 *)
Definition each_load (f : list R -> R) (l : list load) : load :=
  mkload (each_component f (map ld_force l)) (each_component f (map ld_force_coefficients l))
         (each_component f (map ld_moment l)) (each_component f (map ld_moment_coefficients l)).
(** unsteady_ring_vortex_lattice_method.py:1645-1727, one airplane. *)
Definition finalize_airplane (up : unsteady_problem) (id : nat) : result unsteady_problem :=
  let* history := load_history up id in
  if Reqb (up_max_period up) 0 then
    let* l := index history (length history - 1) in
    Ok (up_set_final (append_load (up_final up) l) (up_final_mean up) (up_final_rms up) up)
  else
    Ok (up_set_final (up_final up) (append_load (up_final_mean up) (each_load mean_of history))
                     (append_load (up_final_rms up) (each_load rms_of history)) up).
(** unsteady_ring_vortex_lattice_method.py:1586-1727 [finalize_near_field_forces_and_moments] *)
Definition finalize (up : unsteady_problem) : result unsteady_problem :=
  let* sp := index (up_steady_problems up) 0 in
  foldM finalize_airplane up (seq 0 (length (sp_airplanes sp))).

(** unsteady_ring_vortex_lattice_method.py:180-476 [run].  The logging level (C51), the progress bar and its estimated
    times (unsteady_ring_vortex_lattice_method.py:268-300) are left out. *)
Definition unsteady_steps (solve : list (list R) -> list R -> result (list R)) (prescribed_wake : bool) (n : nat)
           (s : unsteady_solver) : result unsteady_solver :=
  foldM (unsteady_step solve prescribed_wake) s (seq 0 n).
(** unsteady_ring_vortex_lattice_method.py:180-476 *)
Definition unsteady_run_with (blank : R) (solve : list (list R) -> list R -> result (list R))
           (prescribed_wake streamlines : bool) (s : unsteady_solver) : result unsteady_solver :=
  let* s := unsteady_start blank s in
  let* s := unsteady_steps solve prescribed_wake (Z.to_nat (up_num_steps (us_problem s))) s in
  let* up := finalize (us_problem s) in
  let* lines :=
    if streamlines then
      match us_current s with
      | None => Err ETypeError
      | Some c => Ok (Some (calculate_streamlines (current_velocity c) (cu_seeds c) 25 (2 / 100)))
      end
    else Ok (us_streamline_points s) in
  Ok (mkus up (us_heap s) (us_num_wake s) (us_wakes s) (us_current s) lines).
(** unsteady_ring_vortex_lattice_method.py:180-476 *)
Definition unsteady_run := unsteady_run_with 0.
