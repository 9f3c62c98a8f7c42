(** The same problem moved and turned as a whole, and moments about another point. *)
From Verif Require Import M_Loads S_Geometry.

(** A rigid motion: a rotation [m] about the origin, then a shift [t]. *)
Definition moved (m : mat) (t x : vec) : vec := vadd (mvmul m x) t.
(** The same flow seen from the turned axes: components in wind axes stay the same. *)
Definition turned_flow (m : mat) (op op' : operating_point) : Prop :=
  op_density op' = op_density op /\ op_velocity op' = op_velocity op /\
  forall v, mvmul (mtrans (rotation_wind_to_geometry op')) (mvmul m v) = mvmul (mtrans (rotation_wind_to_geometry op)) v.

Definition moved_panel (m : mat) (t : vec) (p p' : panel) : Prop :=
  p_front_left p' = moved m t (p_front_left p) /\ p_front_right p' = moved m t (p_front_right p) /\
  p_back_left p' = moved m t (p_back_left p) /\ p_back_right p' = moved m t (p_back_right p).
Definition moved_wing (P : panel -> panel -> Prop) (w w' : wing) : Prop :=
  w_span w' = w_span w /\ Forall2 (Forall2 P) (w_panels w) (w_panels w').
(** Nothing is said about the reference point of [a'].  [P] may depend on the airplanes. *)
Definition moved_airplane (P : airplane -> airplane -> panel -> panel -> Prop) (a a' : airplane) : Prop :=
  a_s_ref a' = a_s_ref a /\ a_c_ref a' = a_c_ref a /\ a_b_ref a' = a_b_ref a /\
  Forall2 (moved_wing (P a a')) (a_wings a) (a_wings a').
Definition moved_airplanes (m : mat) (t : vec) : list airplane -> list airplane -> Prop :=
  Forall2 (moved_airplane (fun _ _ => moved_panel m t)).

(** From the moved reference point to the reference point of [a']; zero when the reference
    point moves along. *)
Definition ref_offset (m : mat) (t : vec) (a a' : airplane) : vec :=
  vsub (a_xyz_ref a') (moved m t (a_xyz_ref a)).
(** A force [f] whose moment is [n] has this moment about a point [d] away. *)
Definition moment_about (d n f : vec) : vec := vsub n (vcross d f).

(** Loads of a moved panel: turned in geometry axes, the same in wind axes, the moments taken
    about the new reference point. *)
Definition moved_loads (m : mat) (t : vec) (op' : operating_point) (a a' : airplane) (p p' : panel) : Prop :=
  let d := ref_offset m t a a' in
  exists fg mg fw mw,
    p_force_geometry p = Some fg /\ p_moment_geometry p = Some mg /\
    p_force_wind p = Some fw /\ p_moment_wind p = Some mw /\
    p_force_geometry p' = Some (mvmul m fg) /\
    p_moment_geometry p' = Some (moment_about d (mvmul m mg) (mvmul m fg)) /\
    p_force_wind p' = Some fw /\
    p_moment_wind p' = Some (moment_about (mvmul (mtrans (rotation_wind_to_geometry op')) d) mw fw) /\
    p_induced_drag_coefficient p' = p_induced_drag_coefficient p /\
    p_side_force_coefficient p' = p_side_force_coefficient p /\
    p_lift_coefficient p' = p_lift_coefficient p.
Definition moved_totals (m : mat) (t : vec) (op' : operating_point) (a a' : airplane) : Prop :=
  let d := mvmul (mtrans (rotation_wind_to_geometry op')) (ref_offset m t a a') in
  let q := 1 / 2 * op_density op' * op_velocity op' ^ 2 in
  exists f n cf cn,
    a_force_wind a = Some f /\ a_moment_wind a = Some n /\
    a_force_coefficients a = Some cf /\ a_moment_coefficients a = Some cn /\
    a_force_wind a' = Some f /\ a_force_coefficients a' = Some cf /\
    a_moment_wind a' = Some (moment_about d n f) /\
    a_moment_coefficients a' =
      Some (mkvec (vx cn - vx (vcross d f) / q / a_s_ref a / a_b_ref a)
                  (vy cn - vy (vcross d f) / q / a_s_ref a / a_c_ref a)
                  (vz cn - vz (vcross d f) / q / a_s_ref a / a_b_ref a)).
Definition moved_solution (m : mat) (t : vec) (op' : operating_point) (strength : panel -> option R) (a a' : airplane) : Prop :=
  moved_totals m t op' a a' /\
  moved_airplane (fun a a' p p' =>
    moved_panel m t p p' /\ moved_loads m t op' a a' p p' /\ strength p <> None /\ strength p' = strength p) a a'.

(** Turning about the y axis by an angle: the rotation that takes the flow at one angle of
    attack to the flow at another. *)
Definition pitch (degrees : R) : mat :=
  let c := cos (radians degrees) in let s := sin (radians degrees) in
  mkmat (mkvec c 0 (- s)) (mkvec 0 1 0) (mkvec s 0 c).
(** The rotation between two flows. *)
Definition turn (op op' : operating_point) : mat :=
  mmul (rotation_wind_to_geometry op') (mtrans (rotation_wind_to_geometry op)).
(** Two airplanes that differ in nothing but the reference point, name and weight. *)
Definition other_reference (a a' : airplane) : Prop :=
  a_wings a' = a_wings a /\ a_s_ref a' = a_s_ref a /\ a_c_ref a' = a_c_ref a /\ a_b_ref a' = a_b_ref a.
