(** The same problem built larger or smaller, with the same flow. *)
From Coq Require Import List Reals.
From Verif Require Import M_Loads M_Meshing S_Geometry S_Solvable.
Import ListNotations.
Local Open Scope R_scope.

(** The same flow; the viscosity may differ. *)
Definition same_stream (op op' : operating_point) : Prop :=
  op_density op' = op_density op /\ op_velocity op' = op_velocity op /\ op_alpha op' = op_alpha op /\ op_beta op' = op_beta op.

(** Everything [k] times as large. *)
Definition enlarged_panel (k : R) (p p' : panel) : Prop :=
  p_front_left p' = vscale k (p_front_left p) /\ p_front_right p' = vscale k (p_front_right p) /\
  p_back_left p' = vscale k (p_back_left p) /\ p_back_right p' = vscale k (p_back_right p).
Definition enlarged_wing (k : R) (P : panel -> panel -> Prop) (w w' : wing) : Prop :=
  w_span w' = k * w_span w /\ Forall2 (Forall2 P) (w_panels w) (w_panels w').
Definition enlarged_airplane (k : R) (P : panel -> panel -> Prop) (a a' : airplane) : Prop :=
  a_s_ref a' = k ^ 2 * a_s_ref a /\ a_c_ref a' = k * a_c_ref a /\ a_b_ref a' = k * a_b_ref a /\
  a_xyz_ref a' = vscale k (a_xyz_ref a) /\ Forall2 (enlarged_wing k P) (a_wings a) (a_wings a').
Definition enlarged_airplanes (k : R) : list airplane -> list airplane -> Prop :=
  Forall2 (enlarged_airplane k (enlarged_panel k)).

(** The cross section with every length multiplied by [k]. *)
Definition enlarged_section (k : R) (s : section) : section :=
  mksection (cs_airfoil s) (k * cs_x_le s) (k * cs_y_le s) (k * cs_z_le s) (k * cs_chord s) (cs_unit_normal s)
            (cs_twist s) (cs_control_surface_type s) (cs_control_surface_hinge_point s)
            (cs_control_surface_deflection s) (cs_num_spanwise_panels s) (cs_spanwise_spacing s) (cs_wing_unit_chordwise s).

(** A point too close to a segment, or to the line through it, as measured against the distance
    between 1 and the next larger floating point number. *)
Definition cut_off (x : vec) (s : vec * vec) : Prop :=
  let r1 := vsub (fst s) x in let r2 := vsub (snd s) x in
  vnorm r1 < / 2 ^ 52 \/ vnorm r2 < / 2 ^ 52 \/ vnorm (vcross r1 r2) ^ 2 < / 2 ^ 52.
(** At [x], the vortices [vs] are cut off at both sizes or at neither. *)
Definition resolved (k : R) (vs : list path) (x : vec) : Prop :=
  forall v s, In v vs -> In s v -> (cut_off (vscale k x) (vscale k (fst s), vscale k (snd s)) <-> cut_off x s).

(** Where the solvers need velocities: at the collocation points, and in the middle of the bound
    legs of the horseshoes, or of the right, front and left legs of the rings, with which their
    paths begin. *)
Definition horseshoe_points (p : panel) : list vec :=
  [p_collocation_point p; midpoint (p_front_right_vortex_vertex p) (p_front_left_vortex_vertex p)].
Definition ring_points (ps : list panel) (vs : list path) : list vec :=
  map p_collocation_point ps ++ concat (map (fun v => map (fun s => midpoint (fst s) (snd s)) (firstn 3 v)) vs).

(** Strengths grow like lengths, forces like areas, moments like volumes; coefficients stay. *)
Definition enlarged_loads (k : R) (p p' : panel) : Prop :=
  exists fg mg fw mw,
    p_force_geometry p = Some fg /\ p_moment_geometry p = Some mg /\ p_force_wind p = Some fw /\ p_moment_wind p = Some mw /\
    p_force_geometry p' = Some (vscale (k ^ 2) fg) /\ p_moment_geometry p' = Some (vscale (k ^ 3) mg) /\
    p_force_wind p' = Some (vscale (k ^ 2) fw) /\ p_moment_wind p' = Some (vscale (k ^ 3) mw) /\
    p_induced_drag_coefficient p' = p_induced_drag_coefficient p /\
    p_side_force_coefficient p' = p_side_force_coefficient p /\
    p_lift_coefficient p' = p_lift_coefficient p.
Definition enlarged_totals (k : R) (a a' : airplane) : Prop :=
  exists f n cf cn,
    a_force_wind a = Some f /\ a_moment_wind a = Some n /\ a_force_coefficients a = Some cf /\ a_moment_coefficients a = Some cn /\
    a_force_wind a' = Some (vscale (k ^ 2) f) /\ a_moment_wind a' = Some (vscale (k ^ 3) n) /\
    a_force_coefficients a' = Some cf /\ a_moment_coefficients a' = Some cn.
Definition enlarged_solution (k : R) (strength : panel -> option R) (a a' : airplane) : Prop :=
  enlarged_totals k a a' /\
  enlarged_airplane k (fun p p' => enlarged_panel k p p' /\ enlarged_loads k p p' /\
    exists g, strength p = Some g /\ strength p' = Some (k * g)) a a'.
