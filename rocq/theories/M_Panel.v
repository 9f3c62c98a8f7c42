(** Model of pterasoftware/panel.py. *)
From Verif Require Export M_Vortices.

(** panel.py:74-134 [Panel.__init__]: attributes.  [None] attributes are options. *)
Record panel : Type := mkpanel {
  p_front_right : vec;
  p_front_left : vec;
  p_back_left : vec;
  p_back_right : vec;
  p_is_leading_edge : bool;
  p_is_trailing_edge : bool;
  p_is_right_edge : option bool;
  p_is_left_edge : option bool;
  p_local_chordwise : option nat;
  p_local_spanwise : option nat;
  p_ring_vortex : option ring_vortex;
  p_horseshoe_vortex : option horseshoe_vortex;
  p_force_geometry : option vec;
  p_moment_geometry : option vec;
  p_force_wind : option vec;
  p_moment_wind : option vec;
  p_induced_drag_coefficient : option R;
  p_side_force_coefficient : option R;
  p_lift_coefficient : option R
}.
(** panel.py:75-134 *)
Definition new_panel (fr fl bl br : vec) (is_le is_te : bool) : panel :=
  mkpanel fr fl bl br is_le is_te None None None None None None None None None None None None None.

(** panel.py:136-178: leg vectors. *)
Definition p_right_leg (p : panel) : vec := vsub (p_front_right p) (p_back_right p).
(** panel.py:147-156 *)
Definition p_front_leg (p : panel) : vec := vsub (p_front_left p) (p_front_right p).
(** panel.py:158-167 *)
Definition p_left_leg (p : panel) : vec := vsub (p_back_left p) (p_front_left p).
(** panel.py:169-178 *)
Definition p_back_leg (p : panel) : vec := vsub (p_back_right p) (p_back_left p).

(** panel.py:180-189 *)
Definition p_front_right_vortex_vertex (p : panel) : vec :=
  vadd (p_back_right p) (vscale (75 / 100) (p_right_leg p)).
(** panel.py:191-200 *)
Definition p_front_left_vortex_vertex (p : panel) : vec :=
  vadd (p_front_left p) (vscale (25 / 100) (p_left_leg p)).
(** panel.py:202-225 *)
Definition p_collocation_point (p : panel) : vec :=
  let right_mark := vadd (p_back_right p) (vscale (25 / 100) (p_right_leg p)) in
  let left_mark := vadd (p_front_left p) (vscale (75 / 100) (p_left_leg p)) in
  let v := vsub left_mark right_mark in
  vadd right_mark (vscale (5 / 10) v).

(** panel.py:315-344: diagonals and their cross product. *)
Definition p_first_diagonal (p : panel) : vec := vsub (p_front_right p) (p_back_left p).
(** panel.py:325-334 *)
Definition p_second_diagonal (p : panel) : vec := vsub (p_front_left p) (p_back_right p).
(** panel.py:335-344 *)
Definition p_cross (p : panel) : vec := vcross (p_first_diagonal p) (p_second_diagonal p).

(** panel.py:227-241 *)
Definition p_area (p : panel) : R := vnorm (p_cross p) / 2.
(** panel.py:243-254; a degenerate panel ([p_cross = 0]) gives NaN in NumPy:
    theorems about it assume [p_cross p <> vzero]. *)
Definition p_unit_normal (p : panel) : vec := vdiv (p_cross p) (vnorm (p_cross p)).
(** panel.py:256-271 *)
Definition p_unit_spanwise (p : panel) : vec :=
  let spanwise := vdiv (vadd (vopp (p_front_leg p)) (p_back_leg p)) 2 in
  vdiv spanwise (vnorm spanwise).
(** panel.py:273-287 *)
Definition p_unit_chordwise (p : panel) : vec :=
  let chordwise := vdiv (vadd (vopp (p_right_leg p)) (p_left_leg p)) 2 in
  vdiv chordwise (vnorm chordwise).
(** panel.py:289-300 *)
Definition p_average_span (p : panel) : R := (vnorm (p_front_leg p) + vnorm (p_back_leg p)) / 2.
(** panel.py:302-313 *)
Definition p_average_chord (p : panel) : R := (vnorm (p_right_leg p) + vnorm (p_left_leg p)) / 2.

(** panel.py:346-371 and 373-394 [calculate_normalized_induced_velocity] and
    [calculate_induced_velocity]: both call a method of the same name on the
    panel's vortices, which neither RingVortex nor HorseshoeVortex defines
    (aerodynamics.py:106-340), so any set vortex raises AttributeError. *)
Definition p_calculate_induced_velocity (p : panel) (point : vec) : result vec :=
  match p_ring_vortex p with
  | Some _ => Err EAttributeError
  | None => match p_horseshoe_vortex p with
            | Some _ => Err EAttributeError
            | None => Ok vzero
            end
  end.

(** panel.py:396-421 *)
Definition p_projected_area (p : panel) (n_hat : vec) : R :=
  let proj_n_1 := vscale (vdot (p_first_diagonal p) n_hat) n_hat in
  let proj_n_2 := vscale (vdot (p_second_diagonal p) n_hat) n_hat in
  let proj_1 := vsub (p_first_diagonal p) proj_n_1 in
  let proj_2 := vsub (p_second_diagonal p) proj_n_2 in
  vnorm (vcross proj_1 proj_2) / 2.

(** Attribute assignments.  (meshing.py:272-284) *)
Definition p_set_position (is_right is_left : bool) (c s : nat) (p : panel) : panel :=
  mkpanel (p_front_right p) (p_front_left p) (p_back_left p) (p_back_right p)
    (p_is_leading_edge p) (p_is_trailing_edge p) (Some is_right) (Some is_left) (Some c) (Some s)
    (p_ring_vortex p) (p_horseshoe_vortex p) (p_force_geometry p) (p_moment_geometry p)
    (p_force_wind p) (p_moment_wind p) (p_induced_drag_coefficient p)
    (p_side_force_coefficient p) (p_lift_coefficient p).
(** steady_ring_vortex_lattice_method.py:249-255 *)
Definition p_set_ring (r : option ring_vortex) (p : panel) : panel :=
  mkpanel (p_front_right p) (p_front_left p) (p_back_left p) (p_back_right p)
    (p_is_leading_edge p) (p_is_trailing_edge p) (p_is_right_edge p) (p_is_left_edge p)
    (p_local_chordwise p) (p_local_spanwise p)
    r (p_horseshoe_vortex p) (p_force_geometry p) (p_moment_geometry p)
    (p_force_wind p) (p_moment_wind p) (p_induced_drag_coefficient p)
    (p_side_force_coefficient p) (p_lift_coefficient p).
(** steady_ring_vortex_lattice_method.py:240-246 *)
Definition p_set_horseshoe (h : option horseshoe_vortex) (p : panel) : panel :=
  mkpanel (p_front_right p) (p_front_left p) (p_back_left p) (p_back_right p)
    (p_is_leading_edge p) (p_is_trailing_edge p) (p_is_right_edge p) (p_is_left_edge p)
    (p_local_chordwise p) (p_local_spanwise p)
    (p_ring_vortex p) h (p_force_geometry p) (p_moment_geometry p)
    (p_force_wind p) (p_moment_wind p) (p_induced_drag_coefficient p)
    (p_side_force_coefficient p) (p_lift_coefficient p).

(** panel.py:423-434 [update_coefficients] together with the assignment of the
    four load attributes that precedes every call (functions.py:306-315 and
    434-443). *)
Definition p_set_loads (force_g moment_g force_w moment_w : vec) (dynamic_pressure : R) (p : panel) : panel :=
  let induced_drag := - vx force_w in
  let side_force := vy force_w in
  let lift := - vz force_w in
  mkpanel (p_front_right p) (p_front_left p) (p_back_left p) (p_back_right p)
    (p_is_leading_edge p) (p_is_trailing_edge p) (p_is_right_edge p) (p_is_left_edge p)
    (p_local_chordwise p) (p_local_spanwise p)
    (p_ring_vortex p) (p_horseshoe_vortex p)
    (Some force_g) (Some moment_g) (Some force_w) (Some moment_w)
    (Some (induced_drag / p_area p / dynamic_pressure))
    (Some (side_force / p_area p / dynamic_pressure))
    (Some (lift / p_area p / dynamic_pressure)).
