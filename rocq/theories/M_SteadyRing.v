(** Model of pterasoftware/steady_ring_vortex_lattice_method.py. *)
From Verif Require Export M_Loads.

(** One row of the per-panel arrays (functions.py:531-607 and steady_ring_vortex_lattice_method.py:257-309).
    The four horseshoe corners are zero rows unless the panel is on the
    trailing edge. *)
Record ring_row : Type := mkringrow {
  rr_panel : panel;
  rr_ref : vec;
  rr_vortex : ring_vortex;
  rr_hs_back_right : vec;
  rr_hs_front_right : vec;
  rr_hs_front_left : vec;
  rr_hs_back_left : vec
}.
(** functions.py:556-558 *)
Definition rr_back_right (r : ring_row) : vec := lv_origin (rv_right_leg (rr_vortex r)).
(** functions.py:559-561 *)
Definition rr_front_right (r : ring_row) : vec := lv_termination (rv_right_leg (rr_vortex r)).
(** functions.py:562-564 *)
Definition rr_front_left (r : ring_row) : vec := lv_origin (rv_left_leg (rr_vortex r)).
(** functions.py:565-567 *)
Definition rr_back_left (r : ring_row) : vec := lv_termination (rv_left_leg (rr_vortex r)).
(** functions.py:553 *)
Definition rr_normal (r : ring_row) : vec := p_unit_normal (rr_panel r).
(** functions.py:555 *)
Definition rr_collocation (r : ring_row) : vec := p_collocation_point (rr_panel r).
(** functions.py:568-570 *)
Definition rr_right_center (r : ring_row) : vec := lv_center (rv_right_leg (rr_vortex r)).
(** functions.py:574-576 *)
Definition rr_front_center (r : ring_row) : vec := lv_center (rv_front_leg (rr_vortex r)).
(** functions.py:580-582 *)
Definition rr_left_center (r : ring_row) : vec := lv_center (rv_left_leg (rr_vortex r)).
(** functions.py:571-573 *)
Definition rr_right_vector (r : ring_row) : vec := lv_vector (rv_right_leg (rr_vortex r)).
(** functions.py:577-579 *)
Definition rr_front_vector (r : ring_row) : vec := lv_vector (rv_front_leg (rr_vortex r)).
(** functions.py:583-585 *)
Definition rr_left_vector (r : ring_row) : vec := lv_vector (rv_left_leg (rr_vortex r)).

(** The solver object (steady_ring_vortex_lattice_method.py:62-122).  [vortex_strengths] starts as ones and
    [horseshoe_vortex_strengths] as zeros, one per panel. *)
Record ring_solver : Type := mkringsolver {
  rso_airplanes : list airplane;
  rso_op : operating_point;
  rso_freestream : vec;
  rso_rows : list ring_row;
  rso_influences : list (list R);
  rso_freestream_influences : list R;
  rso_strengths : list R;
  rso_hs_strengths : list R;
  rso_seed_points : list vec;
  rso_streamline_points : option (list (list vec))
}.
(** steady_ring_vortex_lattice_method.py:75-77 *)
Definition num_panels_of (airplanes : list airplane) : nat :=
  fold_left (fun n a => n + a_num_panels a)%nat airplanes 0%nat.
(** steady_ring_vortex_lattice_method.py:62-122 *)
Definition ring_new (airplanes : list airplane) (op : operating_point) : ring_solver :=
  let n := num_panels_of airplanes in
  mkringsolver airplanes op (freestream_velocity op) [] [] [] (repeat 1 n) (repeat 0 n) [] None.

(** Looking up wing.panels[c, s].  (steady_ring_vortex_lattice_method.py:211) *)
Definition panel_at (m : list (list panel)) (c s : nat) : result panel :=
  let* row := index m c in index row s.
(** Python's [i - 1] as an index: -1 is the last element.
    (steady_ring_vortex_lattice_method.py:516-519 and 541-544) *)
Definition py_pred (i n : nat) : nat := match i with O => (n - 1)%nat | S j => j end.

(** steady_ring_vortex_lattice_method.py:207-255: the vortices of the panel at (c, s). *)
Definition ring_init_panel (direction : vec) (leg_length : R) (m : list (list panel)) (c s : nat) (p : panel)
  : result panel :=
  let fl := p_front_left_vortex_vertex p in
  let fr := p_front_right_vortex_vertex p in
  if p_is_trailing_edge p then
    let bl := vadd fl (vsub (p_back_left p) (p_front_left p)) in
    let br := vadd fr (vsub (p_back_right p) (p_front_right p)) in
    Ok (p_set_ring (Some (new_ring fl fr bl br 0))
         (p_set_horseshoe (Some (new_horseshoe br bl 0 direction leg_length)) p))
  else
    let* next := panel_at m (S c) s in
    Ok (p_set_ring (Some (new_ring fl fr (p_front_left_vortex_vertex next) (p_front_right_vortex_vertex next) 0)) p).
(** The loops of steady_ring_vortex_lattice_method.py:207-208, whose body may raise. *)
Definition mapiM {A B} (f : nat -> A -> result B) (l : list A) : result (list B) :=
  mapM (fun ix => f (fst ix) (snd ix)) (combine (seq 0 (length l)) l).
(** steady_ring_vortex_lattice_method.py:204-255 *)
Definition ring_init_wing (direction : vec) (w : wing) : result wing :=
  let m := w_panels w in
  let* m' := mapiM (fun c row => mapiM (fun s p => ring_init_panel direction (w_span w * 20) m c s p) row) m in
  Ok (w_set_panels m' w).
(** steady_ring_vortex_lattice_method.py:199 *)
Definition ring_init_airplane (direction : vec) (a : airplane) : result airplane :=
  let* ws := mapM (ring_init_wing direction) (a_wings a) in Ok (a_set_wings ws a).
(** steady_ring_vortex_lattice_method.py:193-198 *)
Definition ring_init (op : operating_point) (airplanes : list airplane) : result (list airplane) :=
  mapM (ring_init_airplane (freestream_direction op)) airplanes.

(** steady_ring_vortex_lattice_method.py:257-309 and functions.py:531-607. *)
Definition ring_make_row (awp : airplane * wing * panel) : result ring_row :=
  let '(a, _, p) := awp in
  match p_ring_vortex p with
  | None => Err EAttributeError
  | Some r =>
      if p_is_trailing_edge p then
        match p_horseshoe_vortex p with
        | None => Err EAttributeError
        | Some h => Ok (mkringrow p (a_xyz_ref a) r
                          (lv_origin (hs_right_leg h)) (lv_termination (hs_right_leg h))
                          (lv_origin (hs_left_leg h)) (lv_termination (hs_left_leg h)))
        end
      else Ok (mkringrow p (a_xyz_ref a) r vzero vzero vzero vzero)
  end.
(** steady_ring_vortex_lattice_method.py:265-309 *)
Definition ring_collapse (airplanes : list airplane) : result (list ring_row) :=
  mapM ring_make_row (flat_panels airplanes).
(** steady_ring_vortex_lattice_method.py:306: trailing edge entries of horseshoe_vortex_strengths become 1. *)
Definition ring_collapse_hs_strengths (rows : list ring_row) (old : list R) : list R :=
  map2 (fun r o => if p_is_trailing_edge (rr_panel r) then 1 else o) rows old.

(** steady_ring_vortex_lattice_method.py:311-359.  [strengths] is the solver's current vortex_strengths. *)
Definition ring_influences (rows : list ring_row) (strengths hs_strengths : list R) : list (list R) :=
  normal_components
    (add_grids
       (expanded_ring (map rr_collocation rows) (map rr_back_right rows) (map rr_front_right rows)
                      (map rr_front_left rows) (map rr_back_left rows) strengths None 0)
       (expanded_horseshoe (map rr_collocation rows) (map rr_hs_back_right rows) (map rr_hs_front_right rows)
                           (map rr_hs_front_left rows) (map rr_hs_back_left rows) hs_strengths None 0))
    (map rr_normal rows).

(** steady_ring_vortex_lattice_method.py:371-386 *)
Definition ring_set_strength (p : panel) (g : R) : result panel :=
  match p_ring_vortex p with
  | None => Err EAttributeError
  | Some r =>
      let p := p_set_ring (Some (ring_update_strength g r)) p in
      match p_horseshoe_vortex p with
      | None => Ok p
      | Some h => Ok (p_set_horseshoe (Some (hs_update_strength g h)) p)
      end
  end.
(** steady_ring_vortex_lattice_method.py:381-386 *)
Definition ring_solved_hs_strengths (rows : list ring_row) (strengths old : list R) : list R :=
  map2 (fun rg o => match p_horseshoe_vortex (rr_panel (fst rg)) with Some _ => snd rg | None => o end)
       (combine rows strengths) old.

(** steady_ring_vortex_lattice_method.py:388-444 *)
Definition ring_velocity_of (rows : list ring_row) (strengths hs_strengths : list R) (freestream : vec)
           (points : list vec) : list vec :=
  map (fun v => vadd v freestream)
      (add_rows
         (collapsed_ring points (map rr_back_right rows) (map rr_front_right rows)
                         (map rr_front_left rows) (map rr_back_left rows) strengths None 0)
         (collapsed_horseshoe points (map rr_hs_back_right rows) (map rr_hs_front_right rows)
                              (map rr_hs_front_left rows) (map rr_hs_back_left rows) hs_strengths None 0)).
(** steady_ring_vortex_lattice_method.py:388-444 *)
Definition ring_solution_velocity (s : ring_solver) (points : list vec) : list vec :=
  ring_velocity_of (rso_rows s) (rso_strengths s) (rso_hs_strengths s) (rso_freestream s) points.

(** Reading a neighbour's ring strength; a missing vortex raises.
    (steady_ring_vortex_lattice_method.py:491-502, 516-527, 541-551) *)
Definition ring_strength_at (m : list (list panel)) (c s : nat) : result R :=
  let* p := panel_at m c s in
  match p_ring_vortex p with Some r => Ok (rv_strength r) | None => Err EAttributeError end.
(** local_chordwise_position and local_spanwise_position are None before meshing.py sets them; arithmetic on None raises (steady_ring_vortex_lattice_method.py:492-493). *)
Definition position_of (o : option nat) : result nat :=
  match o with Some n => Ok n | None => Err ETypeError end.
(** The truth value of an attribute that may be None (steady_ring_vortex_lattice_method.py:480 and 531). *)
Definition truthy (o : option bool) : bool := match o with Some b => b | None => false end.
(** steady_ring_vortex_lattice_method.py:470-555: effective strengths of the right, front and left legs. *)
Definition effective_strengths (awpg : (airplane * wing * panel) * R) : result (R * R * R) :=
  let '((_, w, p), g) := awpg in
  let m := w_panels w in
  let* right_strength :=
    if truthy (p_is_right_edge p) then Ok g
    else let* c := position_of (p_local_chordwise p) in
         let* s := position_of (p_local_spanwise p) in
         let* n := ring_strength_at m c (S s) in Ok (g - n) in
  let* front_strength :=
    if p_is_leading_edge p then Ok g
    else let* c := position_of (p_local_chordwise p) in
         let* s := position_of (p_local_spanwise p) in
         let* n := ring_strength_at m (py_pred c (length m)) s in Ok (g - n) in
  let* left_strength :=
    if truthy (p_is_left_edge p) then Ok g
    else let* c := position_of (p_local_chordwise p) in
         let* s := position_of (p_local_spanwise p) in
         let* row := index m c in
         let* n := ring_strength_at m c (py_pred s (length row)) in Ok (g - n) in
  Ok (right_strength, front_strength, left_strength).

(** steady_ring_vortex_lattice_method.py:572-632: per panel force and moment from the three leg forces. *)
Definition ring_panel_loads (density : R) (r : ring_row) (strengths : R * R * R) (v_right v_front v_left : vec)
  : vec * vec :=
  let '(g_right, g_front, g_left) := strengths in
  let f_right := leg_force density g_right v_right (rr_right_vector r) in
  let f_front := leg_force density g_front v_front (rr_front_vector r) in
  let f_left := leg_force density g_left v_left (rr_left_vector r) in
  (vadd (vadd f_front f_left) f_right,
   vadd (vadd (vcross (vsub (rr_front_center r) (rr_ref r)) f_front)
              (vcross (vsub (rr_left_center r) (rr_ref r)) f_left))
        (vcross (vsub (rr_right_center r) (rr_ref r)) f_right)).
(** steady_ring_vortex_lattice_method.py:446-632 *)
Definition ring_loads (density : R) (velocity : list vec -> list vec) (airplanes : list airplane)
           (rows : list ring_row) (strengths : list R) : result (list (vec * vec)) :=
  let* effective := mapM effective_strengths (combine (flat_panels airplanes) strengths) in
  let v_front := velocity (map rr_front_center rows) in
  let v_left := velocity (map rr_left_center rows) in
  let v_right := velocity (map rr_right_center rows) in
  Ok (map2 (fun re vs => ring_panel_loads density (fst re) (snd re) (fst (fst vs)) (snd (fst vs)) (snd vs))
           (combine rows effective) (combine (combine v_right v_front) v_left)).

(** steady_ring_vortex_lattice_method.py:124-169 [run]. *)
Definition ring_run (solve : list (list R) -> list R -> result (list R)) (s : ring_solver) : result ring_solver :=
  let op := rso_op s in
  let freestream := rso_freestream s in
  let* airplanes := ring_init op (rso_airplanes s) in
  let* rows := ring_collapse airplanes in
  let seeds := rso_seed_points s ++ seeds_of (map rr_panel rows) in
  let hs_ones := ring_collapse_hs_strengths rows (rso_hs_strengths s) in
  let influences := ring_influences rows (rso_strengths s) hs_ones in
  let fs := freestream_influences (map rr_normal rows) freestream in
  let* strengths := solve influences (map Ropp fs) in
  let* airplanes := update_panels ring_set_strength airplanes strengths in
  let hs_strengths := ring_solved_hs_strengths rows strengths hs_ones in
  let velocity := ring_velocity_of rows strengths hs_strengths freestream in
  let* loads := ring_loads (op_density op) velocity airplanes rows strengths in
  let* airplanes := process_forces op (map fst loads) (map snd loads) airplanes in
  let streamlines := calculate_streamlines velocity seeds 25 (2 / 100) in
  Ok (mkringsolver airplanes op freestream rows influences fs strengths hs_strengths seeds (Some streamlines)).
