(** Property theorems C06 and C07 (pterasoftware/panel.py). *)
From Coq Require Import Lra.
From Verif Require Import M_Panel S_Geometry L_Base L_Panel.

(** ** C06 *)
Theorem C06_panel_points : forall p,
  p_front_right_vortex_vertex p = along (p_front_right p) (p_back_right p) (1 / 4) /\
  p_front_left_vortex_vertex p = along (p_front_left p) (p_back_left p) (1 / 4) /\
  p_collocation_point p = midpoint (along (p_front_right p) (p_back_right p) (3 / 4))
                                   (along (p_front_left p) (p_back_left p) (3 / 4)).
Proof. exact panel_points. Qed.
Print Assumptions C06_panel_points.

(** [panel_map f p] has vertices moved by [f]; [m] is any matrix, [t] any translation. *)
Theorem C06_panel_points_move_with_panel : forall m t p,
  let f := fun q => vadd (mvmul m q) t in
  p_front_right_vortex_vertex (panel_map f p) = f (p_front_right_vortex_vertex p) /\
  p_front_left_vortex_vertex (panel_map f p) = f (p_front_left_vortex_vertex p) /\
  p_collocation_point (panel_map f p) = f (p_collocation_point p).
Proof. exact panel_points_affine. Qed.
Print Assumptions C06_panel_points_move_with_panel.

(** ** C07  A panel is non-degenerate when its diagonals are not parallel. *)
Theorem C07_unit_normal : forall p,
  vcross (vsub (p_front_right p) (p_back_left p)) (vsub (p_front_left p) (p_back_right p)) <> vzero ->
  vnorm (p_unit_normal p) = 1 /\
  vdot (p_unit_normal p) (vsub (p_front_right p) (p_back_left p)) = 0 /\
  vdot (p_unit_normal p) (vsub (p_front_left p) (p_back_right p)) = 0.
Proof. exact normal_unit. Qed.
Print Assumptions C07_unit_normal.

(** Which of the two normals: right-handed from the first to the second diagonal. *)
Theorem C07_unit_normal_side : forall p,
  let c := vcross (vsub (p_front_right p) (p_back_left p)) (vsub (p_front_left p) (p_back_right p)) in
  c <> vzero -> 0 < vdot (p_unit_normal p) c.
Proof. exact normal_side. Qed.
Print Assumptions C07_unit_normal_side.

Theorem C07_normal_moves_with_panel : forall m t p, proper_rotation m ->
  p_unit_normal (panel_map (fun q => vadd (mvmul m q) t) p) = mvmul m (p_unit_normal p).
Proof. exact normal_rigid. Qed.
Print Assumptions C07_normal_moves_with_panel.

Theorem C07_area : forall p,
  p_area p = vnorm (vcross (vsub (p_front_right p) (p_back_left p)) (vsub (p_front_left p) (p_back_right p))) / 2
  /\ 0 <= p_area p.
Proof. exact area_formula. Qed.
Print Assumptions C07_area.

Theorem C07_area_rigid : forall m t p, proper_rotation m ->
  p_area (panel_map (fun q => vadd (mvmul m q) t) p) = p_area p.
Proof. exact area_rigid. Qed.
Print Assumptions C07_area_rigid.

(** The two triangles cut off by a diagonal add up (as vector areas, so for a
    flat convex panel this is the usual area). *)
Theorem C07_area_of_planar_panel : forall p,
  let t1 := vcross (vsub (p_front_left p) (p_front_right p)) (vsub (p_back_left p) (p_front_right p)) in
  let t2 := vcross (vsub (p_back_left p) (p_front_right p)) (vsub (p_back_right p) (p_front_right p)) in
  p_area p = vnorm (vadd t1 t2) / 2.
Proof. exact area_triangles. Qed.
Print Assumptions C07_area_of_planar_panel.

Theorem C07_projected_area_bounds : forall p n, vnorm n = 1 ->
  0 <= p_projected_area p n <= p_area p.
Proof. exact projected_area_bounds. Qed.
Print Assumptions C07_projected_area_bounds.

Theorem C07_projected_area_value : forall p n, vnorm n = 1 ->
  vcross (vsub (p_front_right p) (p_back_left p)) (vsub (p_front_left p) (p_back_right p)) <> vzero ->
  p_projected_area p n = p_area p * Rabs (vdot (p_unit_normal p) n).
Proof. exact projected_area_cosine. Qed.
Print Assumptions C07_projected_area_value.

Theorem C07_projected_area_own_normal : forall p,
  vcross (vsub (p_front_right p) (p_back_left p)) (vsub (p_front_left p) (p_back_right p)) <> vzero ->
  p_projected_area p (p_unit_normal p) = p_area p.
Proof. exact projected_area_own. Qed.
Print Assumptions C07_projected_area_own_normal.

Example C07_hypotheses_met :
  let p := new_panel (mkvec 0 1 0) (mkvec 0 0 0) (mkvec 1 0 0) (mkvec 1 1 0) true true in
  vcross (vsub (p_front_right p) (p_back_left p)) (vsub (p_front_left p) (p_back_right p)) <> vzero /\
  vnorm (mkvec 0 0 1) = 1.
Proof. exact unit_square_nondegenerate. Qed.

(** ** C58  Directions and average dimensions of a panel *)
Theorem C58_directions : forall p,
  let across := vsub (midpoint (p_front_right p) (p_back_right p)) (midpoint (p_front_left p) (p_back_left p)) in
  let backwards := vsub (midpoint (p_back_left p) (p_back_right p)) (midpoint (p_front_left p) (p_front_right p)) in
  (across <> vzero -> vnorm (p_unit_spanwise p) = 1 /\ vscale (vnorm across) (p_unit_spanwise p) = across) /\
  (backwards <> vzero -> vnorm (p_unit_chordwise p) = 1 /\ vscale (vnorm backwards) (p_unit_chordwise p) = backwards).
Proof. exact panel_directions. Qed.
Print Assumptions C58_directions.

Theorem C58_directions_move_with_panel : forall m t p, proper_rotation m ->
  let f := fun q => vadd (mvmul m q) t in
  p_unit_spanwise (panel_map f p) = mvmul m (p_unit_spanwise p) /\ p_unit_chordwise (panel_map f p) = mvmul m (p_unit_chordwise p).
Proof. exact directions_rigid. Qed.
Print Assumptions C58_directions_move_with_panel.

Theorem C58_average_dimensions : forall p,
  p_average_span p = (vnorm (vsub (p_front_right p) (p_front_left p)) + vnorm (vsub (p_back_right p) (p_back_left p))) / 2 /\
  p_average_chord p = (vnorm (vsub (p_back_right p) (p_front_right p)) + vnorm (vsub (p_back_left p) (p_front_left p))) / 2.
Proof. exact average_dimensions. Qed.
Print Assumptions C58_average_dimensions.

Theorem C58_average_dimensions_rigid : forall m t p, proper_rotation m ->
  let f := fun q => vadd (mvmul m q) t in
  p_average_span (panel_map f p) = p_average_span p /\ p_average_chord (panel_map f p) = p_average_chord p.
Proof. exact averages_rigid. Qed.
Print Assumptions C58_average_dimensions_rigid.

(** The averages are no less than the distances between the middles of opposite edges. *)
Theorem C58_average_bounds : forall p,
  vnorm (vsub (midpoint (p_front_right p) (p_back_right p)) (midpoint (p_front_left p) (p_back_left p))) <= p_average_span p /\
  vnorm (vsub (midpoint (p_back_left p) (p_back_right p)) (midpoint (p_front_left p) (p_front_right p))) <= p_average_chord p.
Proof. exact average_bounds. Qed.
Print Assumptions C58_average_bounds.

Example C58_applies :
  let p := new_panel (mkvec 0 1 0) (mkvec 0 0 0) (mkvec 2 0 0) (mkvec 2 1 0) true true in
  p_unit_spanwise p = mkvec 0 1 0 /\ p_unit_chordwise p = mkvec 1 0 0 /\ p_average_span p = 1 /\ p_average_chord p = 2 /\
  vsub (midpoint (p_front_right p) (p_back_right p)) (midpoint (p_front_left p) (p_back_left p)) <> vzero.
Proof. exact square_dimensions. Qed.
