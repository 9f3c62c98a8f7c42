(** Mirror images in the x-z plane: of points, panels, airplanes and solutions. *)
From Verif Require Import M_Loads.

(** The mirror image of a point, a velocity or a force, and that of a moment. *)
Definition across (v : vec) : vec := mkvec (vx v) (- vy v) (vz v).
Definition across_moment (m : vec) : vec := mkvec (- vx m) (vy m) (- vz m).

(** The same flow seen in the mirror: the sideslip changes its sign. *)
Definition mirrored_flow (op op' : operating_point) : Prop :=
  op_density op' = op_density op /\ op_velocity op' = op_velocity op /\
  op_alpha op' = op_alpha op /\ op_beta op' = - op_beta op.

(** A panel's mirror image.  In the mirror the left side is on the right: usually the image of a
    panel has its sides the other way round.  When [keeps] is true the image has kept its sides, as
    the image of a panel of a vertical fin in the plane of symmetry does. *)
Definition mirrored_panel (keeps : bool) (p p' : panel) : Prop :=
  if keeps then
    p_front_left p' = across (p_front_left p) /\ p_front_right p' = across (p_front_right p) /\
    p_back_left p' = across (p_back_left p) /\ p_back_right p' = across (p_back_right p)
  else
    p_front_left p' = across (p_front_right p) /\ p_front_right p' = across (p_front_left p) /\
    p_back_left p' = across (p_back_right p) /\ p_back_right p' = across (p_back_left p).
(** A vortex with its sides kept turns the other way in the mirror. *)
Definition mirrored_strength (keeps : bool) (g : R) : R := if keeps then - g else g.

(** Element [k] of [l] and element [partner k] of [l'] belong together, for all of them. *)
Definition paired {A} (partner : nat -> nat) (P : A -> A -> Prop) (l l' : list A) : Prop :=
  length l' = length l /\
  (forall i j, (i < length l)%nat -> (j < length l)%nat -> partner i = partner j -> i = j) /\
  forall k x, nth_error l k = Some x -> exists x', nth_error l' (partner k) = Some x' /\ P x x'.

(** Wings whose panels are related by [P]: when the sides are not kept, the rows of one are the
    rows of the other read from the other end. *)
Definition mirrored_wing (P : bool -> panel -> panel -> Prop) (w w' : wing) : Prop :=
  w_span w' = w_span w /\
  exists keeps, Forall2 (fun row row' => Forall2 (P keeps) row (if keeps then row' else rev row')) (w_panels w) (w_panels w').
(** Airplanes whose wings are so related, in some order, with the same reference dimensions. *)
Definition mirrored_airplane (P : bool -> panel -> panel -> Prop) (a a' : airplane) : Prop :=
  a_xyz_ref a' = across (a_xyz_ref a) /\
  a_s_ref a' = a_s_ref a /\ a_c_ref a' = a_c_ref a /\ a_b_ref a' = a_b_ref a /\
  exists partner, paired partner (mirrored_wing P) (a_wings a) (a_wings a').
(** Airplane number [partner k] of [l'] is the mirror image of airplane number [k] of [l]. *)
Definition mirrored (partner : nat -> nat) (l l' : list airplane) : Prop :=
  paired partner (mirrored_airplane mirrored_panel) l l'.

(** Solutions that are mirror images.  [strength] is the strength that the solver gives a panel's vortex. *)
Definition mirrored_loads (p p' : panel) : Prop :=
  p_force_geometry p' = option_map across (p_force_geometry p) /\
  p_moment_geometry p' = option_map across_moment (p_moment_geometry p) /\
  p_force_wind p' = option_map across (p_force_wind p) /\
  p_moment_wind p' = option_map across_moment (p_moment_wind p) /\
  p_induced_drag_coefficient p' = p_induced_drag_coefficient p /\
  p_side_force_coefficient p' = option_map Ropp (p_side_force_coefficient p) /\
  p_lift_coefficient p' = p_lift_coefficient p.
Definition mirrored_totals (a a' : airplane) : Prop :=
  a_force_wind a' = option_map across (a_force_wind a) /\
  a_moment_wind a' = option_map across_moment (a_moment_wind a) /\
  a_force_coefficients a' = option_map across (a_force_coefficients a) /\
  a_moment_coefficients a' = option_map across_moment (a_moment_coefficients a).
Definition horseshoe_strength (p : panel) : option R := option_map hs_strength (p_horseshoe_vortex p).
Definition ring_strength (p : panel) : option R := option_map rv_strength (p_ring_vortex p).
Definition mirrored_solution (strength : panel -> option R) (a a' : airplane) : Prop :=
  mirrored_totals a a' /\
  mirrored_airplane (fun keeps p p' =>
    mirrored_panel keeps p p' /\ mirrored_loads p p' /\
    strength p <> None /\ strength p' = option_map (mirrored_strength keeps) (strength p)) a a'.

(** Airplanes and flows that are their own mirror images. *)
Definition symmetric_airplane (a : airplane) : Prop := mirrored_airplane mirrored_panel a a.
Definition no_sideslip (op : operating_point) : Prop := op_beta op = 0.
(** No side force, no rolling moment and no yawing moment. *)
Definition no_lateral_loads (a : airplane) : Prop :=
  exists f m cf cm,
    a_force_wind a = Some f /\ a_moment_wind a = Some m /\
    a_force_coefficients a = Some cf /\ a_moment_coefficients a = Some cm /\
    vy f = 0 /\ vx m = 0 /\ vz m = 0 /\ vy cf = 0 /\ vx cm = 0 /\ vz cm = 0.
