(** Two functions of functions.py on whole arrays: the loop behind every cross product of
    the unsteady solver, and the rotation matrices of an array of angles. *)
From Verif Require Export M_Unsteady M_Functions.
Local Open Scope R_scope.

(** functions.py:649-658, the loop's body.  Numba does not check indices: a row that
    [vectors_2] does not have is read from outside the array, modelled as an error. *)
Definition cross_row (vectors_1 vectors_2 crosses : list vec) (i : nat) : result (list vec) :=
  let* a := index vectors_1 i in
  let* b := index vectors_2 i in
  Ok (set_at i (mkvec (vy a * vz b - vz a * vy b) (vz a * vx b - vx a * vz b) (vx a * vy b - vy a * vx b)) crosses).
(** functions.py:626-659 [numba_1d_explicit_cross] *)
Definition explicit_cross (vectors_1 vectors_2 : list vec) : result (list vec) :=
  foldM (cross_row vectors_1 vectors_2) (repeat vzero (length vectors_1)) (seq 0 (length vectors_1)).

(** functions.py:94-151 [angle_axis_rotation_matrix] for an array of N angles: an array of
    3 x 3 x N numbers, by rows, columns and angles. *)
Definition rotation_matrices (angles : list R) (axis : vec) (axis_already_normalized : bool) : list (list (list R)) :=
  let axis := if axis_already_normalized then axis else vdiv axis (vnorm axis) in
  let sin_theta := map sin angles in
  let cos_theta := map cos angles in
  let ux := vx axis in let uy := vy axis in let uz := vz axis in
  [ [ map (fun c => c + ux ^ 2 * (1 - c)) cos_theta;
      map2 (fun c s => ux * uy * (1 - c) - uz * s) cos_theta sin_theta;
      map2 (fun c s => ux * uz * (1 - c) + uy * s) cos_theta sin_theta ];
    [ map2 (fun c s => uy * ux * (1 - c) + uz * s) cos_theta sin_theta;
      map (fun c => c + uy ^ 2 * (1 - c)) cos_theta;
      map2 (fun c s => uy * uz * (1 - c) - ux * s) cos_theta sin_theta ];
    [ map2 (fun c s => uz * ux * (1 - c) - uy * s) cos_theta sin_theta;
      map2 (fun c s => uz * uy * (1 - c) + ux * s) cos_theta sin_theta;
      map (fun c => c + uz ^ 2 * (1 - c)) cos_theta ] ].
