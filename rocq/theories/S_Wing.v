(** Specification vocabulary for wings and their meshes. *)
From Verif Require Import M_Geometry S_Geometry.

(** The deflection the control surface of a symmetric wing's reflected half gets. *)
Definition port_deflection (s : section) : R :=
  if String.eqb (cs_control_surface_type s) "symmetric"
  then cs_control_surface_deflection s else - cs_control_surface_deflection s.

(** Where a section's camber line lies once its flap is deflected: deflect,
    resample at the given fractions of its length, scale by the chord, and lay
    it along the section's chordwise and up directions. *)
Definition camber_points (wing_leading_edge : vec) (fractions : list R) (s : section) (deflection hinge : R)
  : result (list vec) :=
  let* a := add_control_surface (cs_airfoil s) deflection hinge in
  let* line := get_downsampled_mcl fractions (af_mcl_coordinates a) in
  let* back := cs_unit_chordwise s in
  let* up := cs_unit_up s in
  Ok (map (fun p => vadd (vadd wing_leading_edge (cs_leading_edge s))
                         (vscale (cs_chord s) (vadd (vscale (fst p) back) (vscale (snd p) up)))) line).

(** Successive elements of a list. *)
Definition adjacent {A} (l : list A) : list (A * A) := combine l (tl l).

(** Chordwise neighbours share their common edge. *)
Definition chordwise_watertight (m : list (list panel)) : Prop :=
  forall c s row row' p q, nth_error m c = Some row -> nth_error row s = Some p ->
    nth_error m (S c) = Some row' -> nth_error row' s = Some q ->
    p_back_left p = p_front_left q /\ p_back_right p = p_front_right q.

(** The camber line of every interior section is in the same place whether its
    flap is set by the section inboard of it or by itself. *)
Definition flaps_agree (wing_leading_edge : vec) (fractions : list R) (deflection : section -> R)
           (sections : list section) : Prop :=
  forall k a b c, nth_error sections k = Some a -> nth_error sections (S k) = Some b ->
    nth_error sections (S (S k)) = Some c ->
    camber_points wing_leading_edge fractions b (deflection a) (cs_control_surface_hinge_point a) =
    camber_points wing_leading_edge fractions b (deflection b) (cs_control_surface_hinge_point b).

(** Validation rules in the order they are checked: a condition and the
    exception raised when it is the first one violated. *)
Definition rules := list (Prop * err).
Definition all_hold (rs : rules) : Prop := forall P e, In (P, e) rs -> P.
Definition first_violated (rs : rules) (e : err) : Prop :=
  exists before P after, rs = before ++ (P, e) :: after /\ all_hold before /\ ~ P.

Definition section_rules (chord : R) (control_surface_type spanwise_spacing : string) : rules :=
  [ (0 < chord, EBadChord);
    (In control_surface_type ["symmetric"; "asymmetric"]%string, EBadControlSurfaceType);
    (In spanwise_spacing ["cosine"; "uniform"]%string, EBadSpanwiseSpacing) ].

Definition wing_rules (sections : list section) (chordwise_spacing : string) (normal chordwise : vec) : rules :=
  [ ((2 <= length sections)%nat, ETooFewSections);
    (In chordwise_spacing ["cosine"; "uniform"]%string, EBadChordwiseSpacing);
    (forall root, nth_error sections 0 = Some root -> cs_unit_normal root = normal, ERootNormalMismatch);
    (forall root, nth_error sections 0 = Some root -> cs_leading_edge root = vzero, ERootLeadingEdgeNotZero);
    (vdot chordwise normal = 0, EChordwiseNotPerpendicular);
    (forall s, In s sections -> vdot chordwise (cs_unit_normal s) = 0, ESectionPlane) ].

(** What meshing needs besides: a chordwise panel, airfoils that accept the
    control surface of the section inboard of them, and, for the reflected half
    of a symmetric wing, a spanwise panel per section. *)
Definition takes_flap (s : section) (deflection hinge : R) : Prop :=
  exists a, add_control_surface (cs_airfoil s) deflection hinge = Ok a.
Definition meshable (sections : list section) (symmetric : bool) (num_chordwise : nat) : Prop :=
  (1 <= num_chordwise)%nat /\
  forall i o, In (i, o) (adjacent sections) ->
    let hinge := cs_control_surface_hinge_point i in
    takes_flap i (cs_control_surface_deflection i) hinge /\ takes_flap o (cs_control_surface_deflection i) hinge /\
    (symmetric = true -> (1 <= cs_num_spanwise_panels i)%nat /\
       takes_flap i (port_deflection i) hinge /\ takes_flap o (port_deflection i) hinge).

(** Panel [p'] is the mirror image of [p] in the plane through [q] with unit
    normal [n]; left and right are exchanged. *)
Definition mirror_image (n q : vec) (p p' : panel) : Prop :=
  p_front_left p' = mirror n q (p_front_right p) /\ p_front_right p' = mirror n q (p_front_left p) /\
  p_back_left p' = mirror n q (p_back_right p) /\ p_back_right p' = mirror n q (p_back_left p).

(** The same section with an asymmetric control surface deflected the other way. *)
Definition opposed (s : section) : section :=
  mksection (cs_airfoil s) (cs_x_le s) (cs_y_le s) (cs_z_le s) (cs_chord s) (cs_unit_normal s) (cs_twist s)
    (cs_control_surface_type s) (cs_control_surface_hinge_point s) (port_deflection s)
    (cs_num_spanwise_panels s) (cs_spanwise_spacing s) (cs_wing_unit_chordwise s).
