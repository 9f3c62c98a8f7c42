(** Model of pterasoftware/operating_point.py. *)
From Verif Require Export M_Functions.

(** operating_point.py:46-88: the stored attributes. *)
Record operating_point : Type := mkop {
  op_density : R;
  op_velocity : R;
  op_alpha : R;            (* degrees *)
  op_beta : R;             (* degrees *)
  op_external_thrust : R;
  op_nu : R
}.

(** operating_point.py:46-54: the default argument values. *)
Definition default_operating_point : operating_point :=
  mkop (1225 / 1000) 10 5 0 0 (1506 / 100000000).

(** operating_point.py:90-99 [calculate_dynamic_pressure]. *)
Definition dynamic_pressure (op : operating_point) : R :=
  5 / 10 * op_density op * op_velocity op ^ 2.

(** np.radians.  (operating_point.py:109-112) *)
Definition radians (d : R) : R := d * (PI / 180).

(** operating_point.py:101-138 [calculate_rotation_matrix_wind_to_geometry]:
    axes_flip @ alpha_rotation @ beta_rotation @ eye. *)
Definition rotation_wind_to_geometry (op : operating_point) : mat :=
  let sa := sin (radians (op_alpha op)) in
  let ca := cos (radians (op_alpha op)) in
  let sb := sin (radians (op_beta op)) in
  let cb := cos (radians (op_beta op)) in
  let alpha_rotation := mkmat (mkvec ca 0 (- sa)) (mkvec 0 1 0) (mkvec sa 0 ca) in
  let beta_rotation := mkmat (mkvec cb (- sb) 0) (mkvec sb cb 0) (mkvec 0 0 1) in
  let axes_flip := mkmat (mkvec (-1) 0 0) (mkvec 0 1 0) (mkvec 0 0 (-1)) in
  mmul (mmul (mmul axes_flip alpha_rotation) beta_rotation) mid.

(** operating_point.py:140-153. *)
Definition freestream_direction (op : operating_point) : vec :=
  mvmul (rotation_wind_to_geometry op) (mkvec (-1) 0 0).

(** operating_point.py:155-166. *)
Definition freestream_velocity (op : operating_point) : vec :=
  vscale (op_velocity op) (freestream_direction op).
