(** Model of the load processing in pterasoftware/functions.py and of the
    solvers' walks over airplanes, wings and panels. *)
From Verif Require Export M_Geometry M_Aero.

(** All panels of an airplane in the order every solver visits them:
    [for wing in airplane.wings: for panel in np.ravel(wing.panels)].
    (functions.py:323-324, steady_horseshoe_vortex_lattice_method.py:205-211) *)
Definition airplane_panels (a : airplane) : list panel :=
  concat (map (fun w => ravel (w_panels w)) (a_wings a)).
(** functions.py:322-324, steady_horseshoe_vortex_lattice_method.py:204-211 *)
Definition all_panels (airplanes : list airplane) : list panel :=
  concat (map airplane_panels airplanes).
(** The same walk keeping the enclosing airplane and wing.
    (steady_horseshoe_vortex_lattice_method.py:204-211, steady_ring_vortex_lattice_method.py:268-275) *)
Definition flat_panels (airplanes : list airplane) : list (airplane * wing * panel) :=
  concat (map (fun a => concat (map (fun w => map (fun p => (a, w, p)) (ravel (w_panels w))) (a_wings a)))
              airplanes).

(** Walk a list, handing each element the next part of [bs] ([self.panels[i]]
    with a running global index).  Running out of values raises IndexError.
    (steady_horseshoe_vortex_lattice_method.py:298-300) *)
Fixpoint consume {A B C} (f : A -> list B -> result (C * list B)) (l : list A) (bs : list B)
  : result (list C * list B) :=
  match l with
  | [] => Ok ([], bs)
  | x :: xs =>
      let* r := f x bs in
      let* rs := consume f xs (snd r) in
      Ok (fst r :: fst rs, snd rs)
  end.
(** steady_horseshoe_vortex_lattice_method.py:298-300 *)
Definition consume_panel {B} (g : panel -> B -> result panel) (p : panel) (bs : list B)
  : result (panel * list B) :=
  match bs with
  | [] => Err EIndexError
  | b :: bs' => let* q := g p b in Ok (q, bs')
  end.
(** functions.py:299-313 *)
Definition consume_wing {B} (g : panel -> B -> result panel) (w : wing) (bs : list B)
  : result (wing * list B) :=
  let* r := consume (consume (consume_panel g)) (w_panels w) bs in
  Ok (w_set_panels (fst r) w, snd r).
(** functions.py:299-313 *)
Definition consume_airplane {B} (g : panel -> B -> result panel) (a : airplane) (bs : list B)
  : result (airplane * list B) :=
  let* r := consume (consume_wing g) (a_wings a) bs in
  Ok (a_set_wings (fst r) a, snd r).
(** Update every panel with the value at its global index.
    (functions.py:299-313, steady_horseshoe_vortex_lattice_method.py:298-300, steady_ring_vortex_lattice_method.py:372-386) *)
Definition update_panels {B} (g : panel -> B -> result panel) (airplanes : list airplane) (bs : list B)
  : result (list airplane) :=
  let* r := consume (consume_airplane g) airplanes bs in Ok (fst r).

(** Reading [panel.near_field_force_geometry_axes]; adding [None] raises TypeError.
    (functions.py:325-327) *)
Definition force_of (p : panel) : result vec :=
  match p_force_geometry p with Some f => Ok f | None => Err ETypeError end.
(** functions.py:328-330 *)
Definition moment_of (p : panel) : result vec :=
  match p_moment_geometry p with Some f => Ok f | None => Err ETypeError end.

(** functions.py:317-342 and 344-396 (steady), 448-473 and 476-528 (unsteady):
    totals of one airplane and its coefficients. *)
Definition force_coefficients (f : vec) (q s_ref : R) : vec :=
  mkvec (- vx f / q / s_ref) (vy f / q / s_ref) (- vz f / q / s_ref).
(** functions.py:362-396 and 494-528 *)
Definition moment_coefficients (m : vec) (q s_ref b_ref c_ref : R) : vec :=
  mkvec (vx m / q / s_ref / b_ref) (vy m / q / s_ref / c_ref) (vz m / q / s_ref / b_ref).
(** functions.py:322-396 and 454-528 *)
Definition airplane_totals (rotation : mat) (q : R) (a : airplane) : result airplane :=
  let* forces := mapM force_of (airplane_panels a) in
  let* moments := mapM moment_of (airplane_panels a) in
  let f := mvmul rotation (vsum forces) in
  let m := mvmul rotation (vsum moments) in
  Ok (a_set_loads f (force_coefficients f q (a_s_ref a)) m
                  (moment_coefficients m q (a_s_ref a) (a_b_ref a) (a_c_ref a)) a).

(** functions.py:270-396 [process_steady_solver_forces] and 399-528
    [process_unsteady_solver_forces] (the same computation on the current
    step's airplanes and operating point). *)
Definition process_forces (op : operating_point) (forces moments : list vec) (airplanes : list airplane)
  : result (list airplane) :=
  let q := dynamic_pressure op in
  let rotation := mtrans (rotation_wind_to_geometry op) in
  let set_loads p fm :=
    Ok (p_set_loads (fst fm) (snd fm) (mvmul rotation (fst fm)) (mvmul rotation (snd fm)) q p) in
  let* airplanes := update_panels set_loads airplanes (combine forces moments) in
  mapM (airplane_totals rotation q) airplanes.

(** functions.py:610-623 and -b passed to the solve
    (steady_horseshoe…:293-295, steady_ring…:367-369). *)
Definition freestream_influences (normals : list vec) (freestream : vec) : list R :=
  map (fun n => vdot n freestream) normals.
(** np.einsum("...k,...k->...", velocities, expand_dims(normals, 1)):
    entry (i, j) is velocities[i, j] . normals[i].
    (steady_horseshoe_vortex_lattice_method.py:281-285, steady_ring_vortex_lattice_method.py:355-359) *)
Definition normal_components (velocities : list (list vec)) (normals : list vec) : list (list R) :=
  map2 (fun row n => map (fun v => vdot v n) row) velocities normals.

(** functions.py:600-607, steady_horseshoe…:246-256: one seed point at the
    middle of the back edge of every trailing edge panel. *)
Definition seeds_of (panels : list panel) : list vec :=
  map (fun p => vadd (p_back_left p) (vscale (5 / 10) (vsub (p_back_right p) (p_back_left p))))
      (filter p_is_trailing_edge panels).

(** A row of panel force: density * strength * cross(velocity, leg).
    (steady_horseshoe_vortex_lattice_method.py:351-355, steady_ring_vortex_lattice_method.py:572-598) *)
Definition leg_force (density strength : R) (velocity leg : vec) : vec :=
  vscale (density * strength) (vcross velocity leg).
