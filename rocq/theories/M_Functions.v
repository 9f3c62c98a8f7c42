(** Model of pterasoftware/functions.py (pure helpers). *)
From Verif Require Export M_Base.

(** functions.py:58-91 [cosspace]: mean + amp * cos(linspace(pi, 0, n, endpoint)). *)
Definition cosspace (minimum maximum : R) (n_points : nat) (endpoint : bool) : list R :=
  let mean := (maximum + minimum) / 2 in
  let amp := (maximum - minimum) / 2 in
  map (fun t => mean + amp * cos t)
      (if endpoint then linspace PI 0 n_points else linspace_open PI 0 n_points).

(** functions.py:116-151 [angle_axis_rotation_matrix] after normalisation:
    a scalar angle (M_Arrays has the array-of-angles overload). *)
Definition rodrigues (angle : R) (u : vec) : mat :=
  let s := sin angle in
  let c := cos angle in
  let ux := vx u in let uy := vy u in let uz := vz u in
  mkmat
    (mkvec (c + ux ^ 2 * (1 - c)) (ux * uy * (1 - c) - uz * s) (ux * uz * (1 - c) + uy * s))
    (mkvec (uy * ux * (1 - c) + uz * s) (c + uy ^ 2 * (1 - c)) (uy * uz * (1 - c) - ux * s))
    (mkvec (uz * ux * (1 - c) - uy * s) (uz * uy * (1 - c) + ux * s) (c + uz ^ 2 * (1 - c))).

(** functions.py:94-151 [angle_axis_rotation_matrix]. *)
Definition angle_axis_rotation_matrix (angle : R) (axis : vec) (axis_already_normalized : bool) : mat :=
  let axis := if axis_already_normalized then axis else vdiv axis (vnorm axis) in
  rodrigues angle axis.

(** functions.py:154-197 [numba_centroid_of_quadrilateral]. *)
Definition centroid_of_quadrilateral (fl fr bl br : vec) : vec :=
  mkvec ((vx fl + vx fr + vx bl + vx br) / 4)
        ((vy fl + vy fr + vy bl + vy br) / 4)
        ((vz fl + vz fr + vz bl + vz br) / 4).

(** functions.py:200-244 [calculate_streamlines].  [velocity] is
    [solver.calculate_solution_velocity] (an (N,3) array to an (N,3) array);
    the result is the list of rows [streamline_points].  The Python loop reads
    row [-1] of the growing array; the model carries that row explicitly. *)
Fixpoint streamline_rows (velocity : list vec -> list vec) (delta_time : R)
         (num_steps : nat) (last_row : list vec) : list (list vec) :=
  match num_steps with
  | O => []
  | S k =>
      let total_velocities := velocity last_row in
      let new_row := map2 (fun p v => vadd p (vscale delta_time v)) last_row total_velocities in
      new_row :: streamline_rows velocity delta_time k new_row
  end.
(** functions.py:200-245 *)
Definition calculate_streamlines (velocity : list vec -> list vec) (seed_points : list vec)
           (num_steps : nat) (delta_time : R) : list (list vec) :=
  seed_points :: streamline_rows velocity delta_time num_steps seed_points.

(** functions.py:247-267 [convert_logging_level_name_to_value]; the values are
    the standard [logging] module constants. *)
Definition convert_logging_level_name_to_value (name : string) : result Z :=
  if String.eqb name "Debug" then Ok 10%Z
  else if String.eqb name "Info" then Ok 20%Z
  else if String.eqb name "Warning" then Ok 30%Z
  else if String.eqb name "Error" then Ok 40%Z
  else if String.eqb name "Critical" then Ok 50%Z
  else Err EBadLoggingLevel.

(** functions.py:661-718 [reflect_point_across_plane]: the 4x4 affine matrix
    applied to (x, y, z, 1), written out row by row. *)
Definition reflect_point_across_plane (point plane_unit_normal plane_point : vec) : vec :=
  let x := vx point in let y := vy point in let z := vz point in
  let a := vx plane_unit_normal in let b := vy plane_unit_normal in let c := vz plane_unit_normal in
  let d := vdot (vopp plane_point) plane_unit_normal in
  let ab := a * b in let ac := a * c in let ad := a * d in
  let bc := b * c in let bd := b * d in let cd := c * d in
  let a2 := a ^ 2 in let b2 := b ^ 2 in let c2 := c ^ 2 in
  mkvec ((1 - 2 * a2) * x + (-2 * ab) * y + (-2 * ac) * z + (-2 * ad) * 1)
        ((-2 * ab) * x + (1 - 2 * b2) * y + (-2 * bc) * z + (-2 * bd) * 1)
        ((-2 * ac) * x + (-2 * bc) * y + (1 - 2 * c2) * z + (-2 * cd) * 1).

(** functions.py:721-757 [interp_between_points]: row [i], column [j] is
    start_i + norm_spacings_j * (end_i - start_i).  [end_points] shorter than
    [start_points] would raise IndexError in Python; the model truncates and the
    theorems assume equal lengths. *)
Definition interp_between_points (start_points end_points : list vec) (norm_spacings : list R)
  : list (list vec) :=
  map2 (fun s e => let vector := vsub e s in
                   map (fun k => vadd s (vscale k vector)) norm_spacings)
       start_points end_points.
