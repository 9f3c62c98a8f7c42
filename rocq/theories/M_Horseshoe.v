(** Model of pterasoftware/steady_horseshoe_vortex_lattice_method.py. *)
From Verif Require Export M_Loads.

(** What collapse_geometry stores per panel (one row of each array).
    (steady_horseshoe_vortex_lattice_method.py:215-243) *)
Record hs_row : Type := mkhsrow {
  hr_panel : panel;
  hr_ref : vec;
  hr_vortex : horseshoe_vortex
}.
(** steady_horseshoe_vortex_lattice_method.py:223-225 *)
Definition hr_back_right (r : hs_row) : vec := lv_origin (hs_right_leg (hr_vortex r)).
(** steady_horseshoe_vortex_lattice_method.py:226-228 *)
Definition hr_front_right (r : hs_row) : vec := lv_termination (hs_right_leg (hr_vortex r)).
(** steady_horseshoe_vortex_lattice_method.py:229-231 *)
Definition hr_front_left (r : hs_row) : vec := lv_origin (hs_left_leg (hr_vortex r)).
(** steady_horseshoe_vortex_lattice_method.py:232-234 *)
Definition hr_back_left (r : hs_row) : vec := lv_termination (hs_left_leg (hr_vortex r)).
(** steady_horseshoe_vortex_lattice_method.py:235-237 *)
Definition hr_bound_center (r : hs_row) : vec := lv_center (hs_finite_leg (hr_vortex r)).
(** steady_horseshoe_vortex_lattice_method.py:238-240 *)
Definition hr_bound_vector (r : hs_row) : vec := lv_vector (hs_finite_leg (hr_vortex r)).
(** steady_horseshoe_vortex_lattice_method.py:216-218 *)
Definition hr_normal (r : hs_row) : vec := p_unit_normal (hr_panel r).
(** steady_horseshoe_vortex_lattice_method.py:220-222 *)
Definition hr_collocation (r : hs_row) : vec := p_collocation_point (hr_panel r).

(** The solver object (steady_horseshoe_vortex_lattice_method.py:60-98).  [rows] holds the per-panel arrays, empty
    before the first run. *)
Record hs_solver : Type := mkhssolver {
  hso_airplanes : list airplane;
  hso_op : operating_point;
  hso_freestream : vec;
  hso_rows : list hs_row;
  hso_influences : list (list R);
  hso_freestream_influences : list R;
  hso_strengths : list R;
  hso_seed_points : list vec;
  hso_streamline_points : option (list (list vec))
}.
(** steady_horseshoe_vortex_lattice_method.py:60-98 *)
Definition hs_new (airplanes : list airplane) (op : operating_point) : hs_solver :=
  mkhssolver airplanes op (freestream_velocity op) [] [] [] [] [] None.

(** steady_horseshoe_vortex_lattice_method.py:149-191.  A vortex is created with strength None; the model uses 0,
    which nothing reads before calculate_vortex_strengths overwrites it.  The
    loop runs over range(num_chordwise) x range(num_spanwise), which is the
    whole matrix (property C11). *)
Definition hs_init_panel (direction : vec) (leg_length : R) (p : panel) : panel :=
  p_set_horseshoe (Some (new_horseshoe (p_front_right_vortex_vertex p) (p_front_left_vortex_vertex p) 0
                                       direction leg_length)) p.
(** steady_horseshoe_vortex_lattice_method.py:171-191 *)
Definition hs_init_wing (direction : vec) (w : wing) : wing :=
  w_set_panels (map (map (hs_init_panel direction (w_span w * 20))) (w_panels w)) w.
(** steady_horseshoe_vortex_lattice_method.py:166 *)
Definition hs_init_airplane (direction : vec) (a : airplane) : airplane :=
  a_set_wings (map (hs_init_wing direction) (a_wings a)) a.
(** steady_horseshoe_vortex_lattice_method.py:160-165 *)
Definition hs_init (op : operating_point) (airplanes : list airplane) : list airplane :=
  map (hs_init_airplane (freestream_direction op)) airplanes.

(** steady_horseshoe_vortex_lattice_method.py:193-259 *)
Definition hs_make_row (awp : airplane * wing * panel) : result hs_row :=
  let '(a, _, p) := awp in
  match p_horseshoe_vortex p with
  | Some h => Ok (mkhsrow p (a_xyz_ref a) h)
  | None => Err EAttributeError
  end.
(** steady_horseshoe_vortex_lattice_method.py:201-259 *)
Definition hs_collapse (airplanes : list airplane) : result (list hs_row) :=
  mapM hs_make_row (flat_panels airplanes).

(** steady_horseshoe_vortex_lattice_method.py:261-285 *)
Definition hs_influences (rows : list hs_row) : list (list R) :=
  normal_components
    (expanded_horseshoe (map hr_collocation rows) (map hr_back_right rows) (map hr_front_right rows)
                        (map hr_front_left rows) (map hr_back_left rows)
                        (map (fun _ => 1) rows) None 0)
    (map hr_normal rows).

(** steady_horseshoe_vortex_lattice_method.py:298-300 *)
Definition hs_set_strength (p : panel) (g : R) : result panel :=
  match p_horseshoe_vortex p with
  | Some h => Ok (p_set_horseshoe (Some (hs_update_strength g h)) p)
  | None => Err EAttributeError
  end.

(** steady_horseshoe_vortex_lattice_method.py:302-333 *)
Definition hs_velocity_of (rows : list hs_row) (strengths : list R) (freestream : vec) (points : list vec)
  : list vec :=
  map (fun v => vadd v freestream)
      (collapsed_horseshoe points (map hr_back_right rows) (map hr_front_right rows)
                           (map hr_front_left rows) (map hr_back_left rows) strengths None 0).
(** steady_horseshoe_vortex_lattice_method.py:302-333 *)
Definition hs_solution_velocity (s : hs_solver) (points : list vec) : list vec :=
  hs_velocity_of (hso_rows s) (hso_strengths s) (hso_freestream s) points.

(** steady_horseshoe_vortex_lattice_method.py:335-363 *)
Definition hs_forces (density : R) (rows : list hs_row) (strengths : list R) (freestream : vec) : list vec :=
  let velocities := hs_velocity_of rows strengths freestream (map hr_bound_center rows) in
  map2 (fun rg v => leg_force density (snd rg) v (hr_bound_vector (fst rg)))
       (combine rows strengths) velocities.
(** steady_horseshoe_vortex_lattice_method.py:359-363 *)
Definition hs_moments (rows : list hs_row) (forces : list vec) : list vec :=
  map2 (fun r f => vcross (vsub (hr_bound_center r) (hr_ref r)) f) rows forces.

(** steady_horseshoe_vortex_lattice_method.py:100-147 [run].  [solve] stands for np.linalg.solve.  The streamlines
    use the default 25 steps of 0.02 s (functions.py:200). *)
Definition hs_run (solve : list (list R) -> list R -> result (list R)) (s : hs_solver) : result hs_solver :=
  let op := hso_op s in
  let freestream := hso_freestream s in
  let airplanes := hs_init op (hso_airplanes s) in
  let* rows := hs_collapse airplanes in
  let seeds := hso_seed_points s ++ seeds_of (map hr_panel rows) in
  let influences := hs_influences rows in
  let fs := freestream_influences (map hr_normal rows) freestream in
  let* strengths := solve influences (map Ropp fs) in
  let* airplanes := update_panels hs_set_strength airplanes strengths in
  let forces := hs_forces (op_density op) rows strengths freestream in
  let moments := hs_moments rows forces in
  let* airplanes := process_forces op forces moments airplanes in
  let streamlines := calculate_streamlines (hs_velocity_of rows strengths freestream) seeds 25 (2 / 100) in
  Ok (mkhssolver airplanes op freestream rows influences fs strengths seeds (Some streamlines)).
