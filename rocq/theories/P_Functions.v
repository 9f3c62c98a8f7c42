(** Property theorems C01, C03, C04, C05, C51, C52 (pterasoftware/functions.py). *)
From Coq Require Import Lra Lia.
From Verif Require Import M_Functions S_Geometry L_Base L_Functions.

(** ** C01  Axis-angle rotation.
    The only inputs the function cannot handle are the zero axis and, with
    [axis_already_normalized=True], an axis that is not of unit length. *)
Theorem C01_rotation_is_proper : forall angle axis normalized,
  axis <> vzero -> (normalized = true -> vnorm axis = 1) ->
  proper_rotation (angle_axis_rotation_matrix angle axis normalized).
Proof. exact rotation_is_proper. Qed.
Print Assumptions C01_rotation_is_proper.

Theorem C01_rotation_fixes_axis : forall angle axis normalized,
  axis <> vzero -> (normalized = true -> vnorm axis = 1) ->
  forall k, mvmul (angle_axis_rotation_matrix angle axis normalized) (vscale k axis) = vscale k axis.
Proof. exact rotation_fixes_axis. Qed.
Print Assumptions C01_rotation_fixes_axis.

(** A vector perpendicular to the axis turns by [angle], right-handed about the axis. *)
Theorem C01_rotation_turns_by_angle : forall angle axis normalized v,
  axis <> vzero -> (normalized = true -> vnorm axis = 1) -> vdot axis v = 0 ->
  mvmul (angle_axis_rotation_matrix angle axis normalized) v =
  vadd (vscale (cos angle) v) (vscale (sin angle / vnorm axis) (vcross axis v)).
Proof. exact rotation_turns. Qed.
Print Assumptions C01_rotation_turns_by_angle.

Theorem C01_rotation_undone_by_opposite : forall angle axis normalized v,
  axis <> vzero -> (normalized = true -> vnorm axis = 1) ->
  mvmul (angle_axis_rotation_matrix (- angle) axis normalized)
        (mvmul (angle_axis_rotation_matrix angle axis normalized) v) = v.
Proof. exact rotation_inverse. Qed.
Print Assumptions C01_rotation_undone_by_opposite.

Theorem C01_rotation_composes : forall angle1 angle2 axis normalized v,
  axis <> vzero -> (normalized = true -> vnorm axis = 1) ->
  mvmul (angle_axis_rotation_matrix angle1 axis normalized)
        (mvmul (angle_axis_rotation_matrix angle2 axis normalized) v)
  = mvmul (angle_axis_rotation_matrix (angle1 + angle2) axis normalized) v.
Proof. exact rotation_composes. Qed.
Print Assumptions C01_rotation_composes.

Theorem C01_rotation_ignores_axis_length : forall angle axis k,
  axis <> vzero -> 0 < k ->
  angle_axis_rotation_matrix angle (vscale k axis) false = angle_axis_rotation_matrix angle axis false.
Proof. exact rotation_axis_length. Qed.
Print Assumptions C01_rotation_ignores_axis_length.

Example C01_hypotheses_met :
  mkvec 1 2 2 <> vzero /\ (false = true -> vnorm (mkvec 1 2 2) = 1) /\
  vdot (mkvec 1 2 2) (mkvec 0 1 (-1)) = 0.
Proof.
  split; [intros H; injection H; lra | split; [discriminate | unfold vdot; cbn [vx vy vz]; ring]].
Qed.

(** ** C03  Reflection in a plane with a unit normal. *)
Theorem C03_reflection_is_mirror_image : forall point normal plane_point,
  reflect_point_across_plane point normal plane_point = mirror normal plane_point point.
Proof. exact reflect_is_mirror. Qed.
Print Assumptions C03_reflection_is_mirror_image.

Theorem C03_reflection_involution : forall point normal plane_point, vnorm normal = 1 ->
  reflect_point_across_plane (reflect_point_across_plane point normal plane_point) normal plane_point = point.
Proof. exact reflect_involution. Qed.
Print Assumptions C03_reflection_involution.

Theorem C03_reflection_isometry : forall normal plane_point, vnorm normal = 1 ->
  isometry (fun point => reflect_point_across_plane point normal plane_point).
Proof. exact reflect_isometry. Qed.
Print Assumptions C03_reflection_isometry.

Theorem C03_reflection_fixed_points : forall point normal plane_point, vnorm normal = 1 ->
  (reflect_point_across_plane point normal plane_point = point <-> on_plane normal plane_point point).
Proof. exact reflect_fixes_iff. Qed.
Print Assumptions C03_reflection_fixed_points.

Theorem C03_reflection_midpoint_on_plane : forall point normal plane_point, vnorm normal = 1 ->
  on_plane normal plane_point (midpoint point (reflect_point_across_plane point normal plane_point)) /\
  exists k, vsub (reflect_point_across_plane point normal plane_point) point = vscale k normal.
Proof. exact reflect_midpoint. Qed.
Print Assumptions C03_reflection_midpoint_on_plane.

Example C03_hypotheses_met : vnorm (mkvec (3 / 5) 0 (4 / 5)) = 1.
Proof. apply vdot_1_norm; unfold vdot; cbn [vx vy vz]; field. Qed.

(** ** C04  Cosine spacing.  [endpoint] selects whether the last value is the maximum. *)
Theorem C04_cosspace_length : forall minimum maximum n endpoint,
  length (cosspace minimum maximum n endpoint) = n.
Proof. exact cosspace_length. Qed.
Print Assumptions C04_cosspace_length.

Theorem C04_cosspace_first : forall minimum maximum n endpoint, (1 <= n)%nat ->
  nth_error (cosspace minimum maximum n endpoint) 0 = Some minimum.
Proof. exact cosspace_first. Qed.
Print Assumptions C04_cosspace_first.

Theorem C04_cosspace_last : forall minimum maximum n, (2 <= n)%nat ->
  nth_error (cosspace minimum maximum n true) (n - 1) = Some maximum.
Proof. exact cosspace_last. Qed.
Print Assumptions C04_cosspace_last.

Theorem C04_cosspace_increasing : forall minimum maximum n endpoint, minimum < maximum ->
  strictly_increasing (cosspace minimum maximum n endpoint).
Proof. exact cosspace_increasing. Qed.
Print Assumptions C04_cosspace_increasing.

Theorem C04_cosspace_symmetric : forall minimum maximum n i x y, (i < n)%nat ->
  nth_error (cosspace minimum maximum n true) i = Some x ->
  nth_error (cosspace minimum maximum n true) (n - 1 - i) = Some y -> (2 <= n)%nat ->
  x + y = minimum + maximum.
Proof. exact cosspace_symmetric. Qed.
Print Assumptions C04_cosspace_symmetric.

Theorem C04_cosspace_bounds : forall minimum maximum n endpoint x, minimum <= maximum ->
  In x (cosspace minimum maximum n endpoint) -> minimum <= x <= maximum.
Proof. exact cosspace_bounds. Qed.
Print Assumptions C04_cosspace_bounds.

Example C04_hypotheses_met : (1 < 5)%nat /\ (2 <= 5)%nat /\ 0 < 1 /\
  exists x y, nth_error (cosspace 0 1 5 true) 1 = Some x /\ nth_error (cosspace 0 1 5 true) (5 - 1 - 1) = Some y.
Proof. repeat split; try lia; try lra. eexists; eexists; split; reflexivity. Qed.

(** ** C05  Interpolation between pairs of points.
    The code indexes both arrays with the same index, so the arrays must pair up. *)
Theorem C05_interp_shape : forall start_points end_points norm_spacings,
  length start_points = length end_points ->
  length (interp_between_points start_points end_points norm_spacings) = length start_points /\
  (forall row, In row (interp_between_points start_points end_points norm_spacings) ->
               length row = length norm_spacings).
Proof. exact interp_shape. Qed.
Print Assumptions C05_interp_shape.

Theorem C05_interp_point : forall start_points end_points norm_spacings i j p q t,
  nth_error start_points i = Some p -> nth_error end_points i = Some q -> nth_error norm_spacings j = Some t ->
  exists row, nth_error (interp_between_points start_points end_points norm_spacings) i = Some row /\
              length row = length norm_spacings /\ nth_error row j = Some (along p q t).
Proof. exact interp_nth. Qed.
Print Assumptions C05_interp_point.

(** What [along] means: its end points and the matching fraction of the length. *)
Theorem C05_fraction_along : forall p q t,
  along p q 0 = p /\ along p q 1 = q /\
  (0 <= t -> vnorm (vsub (along p q t) p) = t * vnorm (vsub q p)).
Proof. exact along_meaning. Qed.
Print Assumptions C05_fraction_along.

Example C05_hypotheses_met :
  exists row, nth_error (interp_between_points [vzero; mkvec 1 0 0] [mkvec 0 2 0; mkvec 1 2 0] [0; / 2; 1]) 1 = Some row /\
  length row = 3%nat /\ nth_error row 1 = Some (along (mkvec 1 0 0) (mkvec 1 2 0) (/ 2)).
Proof. exact (interp_nth [vzero; mkvec 1 0 0] [mkvec 0 2 0; mkvec 1 2 0] [0; / 2; 1] 1 1 _ _ _ eq_refl eq_refl eq_refl). Qed.

(** ** C51  Logging level names. *)
Theorem C51_accepted_names : forall name v,
  convert_logging_level_name_to_value name = Ok v <->
  In (name, v) [("Debug", 10%Z); ("Info", 20%Z); ("Warning", 30%Z); ("Error", 40%Z); ("Critical", 50%Z)]%string.
Proof. exact logging_level_iff. Qed.
Print Assumptions C51_accepted_names.

Theorem C51_rejected_names : forall name,
  ~ In name ["Debug"; "Info"; "Warning"; "Error"; "Critical"]%string <->
  convert_logging_level_name_to_value name = Err EBadLoggingLevel.
Proof. exact logging_level_rejects. Qed.
Print Assumptions C51_rejected_names.

Theorem C51_levels_injective : forall name name' v,
  convert_logging_level_name_to_value name = Ok v ->
  convert_logging_level_name_to_value name' = Ok v -> name = name'.
Proof. exact logging_level_injective. Qed.
Print Assumptions C51_levels_injective.

Example C51_some_accepted : convert_logging_level_name_to_value "Warning" = Ok 30%Z.
Proof. reflexivity. Qed.
Example C51_some_rejected : convert_logging_level_name_to_value "warning" = Err EBadLoggingLevel.
Proof. reflexivity. Qed.

(** ** C52  Streamlines.  [V] is the solver's velocity function on arrays of points. *)
Theorem C52_streamlines_rows : forall V seeds num_steps delta_time,
  length (calculate_streamlines V seeds num_steps delta_time) = S num_steps /\
  nth_error (calculate_streamlines V seeds num_steps delta_time) 0 = Some seeds /\
  ((forall l, length (V l) = length l) ->
   forall row, In row (calculate_streamlines V seeds num_steps delta_time) -> length row = length seeds).
Proof. exact streamlines_rows. Qed.
Print Assumptions C52_streamlines_rows.

Theorem C52_streamlines_advance : forall V seeds num_steps delta_time i row next,
  nth_error (calculate_streamlines V seeds num_steps delta_time) i = Some row ->
  nth_error (calculate_streamlines V seeds num_steps delta_time) (S i) = Some next ->
  next = map2 (fun p v => vadd p (vscale delta_time v)) row (V row).
Proof. exact streamlines_step. Qed.
Print Assumptions C52_streamlines_advance.

(** When the velocity at a point depends on that point only, so does its streamline. *)
Theorem C52_streamlines_independent : forall f delta_time num_steps seeds j p,
  nth_error seeds j = Some p ->
  map (fun row => nth_error row j) (calculate_streamlines (map f) seeds num_steps delta_time) =
  map (fun row => nth_error row 0) (calculate_streamlines (map f) [p] num_steps delta_time).
Proof. exact streamlines_independent. Qed.
Print Assumptions C52_streamlines_independent.

Example C52_hypotheses_met :
  let rows := calculate_streamlines (map (fun _ => mkvec 1 0 0)) [vzero; mkvec 0 1 0] 3 (/ 2) in
  (exists row, nth_error rows 2 = Some row) /\ (exists row, nth_error rows 3 = Some row).
Proof. split; eexists; reflexivity. Qed.
