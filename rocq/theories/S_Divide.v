(** A cross section inserted into a wing at the border between two panels. *)
From Coq Require Import String.
From Verif Require Import M_Geometry M_Movement S_Movement S_Mirror S_Image.
Local Open Scope R_scope.

(** Neighbouring sections that differ only in place and chord (and in what concerns the panels outboard of them). *)
Definition alike (a b : section) : Prop :=
  cs_airfoil b = cs_airfoil a /\ cs_unit_normal b = cs_unit_normal a /\ cs_twist b = cs_twist a.
(** The section [a] with [j] panels between it and the next section. *)
Definition with_panels (j : nat) (a : section) : section :=
  mksection (cs_airfoil a) (cs_x_le a) (cs_y_le a) (cs_z_le a) (cs_chord a) (cs_unit_normal a) (cs_twist a)
            (cs_control_surface_type a) (cs_control_surface_hinge_point a) (cs_control_surface_deflection a)
            j (cs_spanwise_spacing a) (cs_wing_unit_chordwise a).
(** The fraction [f] of the way from [x] to [y]. *)
Definition part_way (f x y : R) : R := x + f * (y - x).
(** The section after [j] of [j + k] panels between [a] and [b]: place and chord part of the
    way between those of [a] and [b], everything else as [a]; [k] panels follow. *)
Definition section_between (j k : nat) (a b : section) : section :=
  let f := INR j / INR (j + k) in
  mksection (cs_airfoil a) (part_way f (cs_x_le a) (cs_x_le b)) (part_way f (cs_y_le a) (cs_y_le b))
            (part_way f (cs_z_le a) (cs_z_le b)) (part_way f (cs_chord a) (cs_chord b)) (cs_unit_normal a) (cs_twist a)
            (cs_control_surface_type a) (cs_control_surface_hinge_point a) (cs_control_surface_deflection a)
            k (cs_spanwise_spacing a) (cs_wing_unit_chordwise a).
(** Sections with one more among them. *)
Definition divided (pre : list section) (j k : nat) (a b : section) (post : list section) : list section :=
  pre ++ with_panels j a :: section_between j k a b :: b :: post.
(** A wing in which nothing but the list of sections has changed. *)
Definition with_sections (ss : list section) (w : wing) : wing :=
  mkwing ss (w_name w) (w_x_le w) (w_y_le w) (w_z_le w) (w_unit_normal w) (w_symmetric w) (w_unit_chordwise w)
         (w_num_chordwise_panels w) (w_chordwise_spacing w) (w_num_spanwise_panels w) (w_num_panels w) (w_panels w)
         (w_wake_vertices w) (w_wake_rings w).

(** ** Airplanes and their solutions *)
(** The same panels and dimensions. *)
Definition like_wing (w w' : wing) : Prop :=
  w_panels w' = w_panels w /\ w_num_panels w' = w_num_panels w /\ w_span w' = w_span w /\ w_projected_area w' = w_projected_area w /\
  w_mean_aerodynamic_chord w' = w_mean_aerodynamic_chord w.
(** Wings of the same span with the same panels, on airplanes with the same reference dimensions. *)
Definition same_surface (w w' : wing) : Prop := w_span w' = w_span w /\ w_panels w' = w_panels w.
Definition same_airplane (a a' : airplane) : Prop :=
  a_s_ref a' = a_s_ref a /\ a_c_ref a' = a_c_ref a /\ a_b_ref a' = a_b_ref a /\ a_xyz_ref a' = a_xyz_ref a /\ a_num_panels a' = a_num_panels a /\
  Forall2 same_surface (a_wings a) (a_wings a').
(** Panels of the same shape with vortices of the same strength and the same loads. *)
Definition same_results (strength : panel -> option R) (p p' : panel) : Prop :=
  p_front_left p' = p_front_left p /\ p_front_right p' = p_front_right p /\
  p_back_left p' = p_back_left p /\ p_back_right p' = p_back_right p /\
  strength p <> None /\ strength p' = strength p /\
  p_force_geometry p' = p_force_geometry p /\ p_moment_geometry p' = p_moment_geometry p /\
  p_force_wind p' = p_force_wind p /\ p_moment_wind p' = p_moment_wind p /\
  p_induced_drag_coefficient p' = p_induced_drag_coefficient p /\
  p_side_force_coefficient p' = p_side_force_coefficient p /\ p_lift_coefficient p' = p_lift_coefficient p.
Definition same_solution (strength : panel -> option R) (a a' : airplane) : Prop :=
  a_force_wind a <> None /\ a_force_wind a' = a_force_wind a /\ a_moment_wind a' = a_moment_wind a /\
  a_force_coefficients a' = a_force_coefficients a /\ a_moment_coefficients a' = a_moment_coefficients a /\
  Forall2 (fun w w' => Forall2 (Forall2 (same_results strength)) (w_panels w) (w_panels w')) (a_wings a) (a_wings a').

(** ** Movements *)
(** Neighbouring sections with the same airfoil that pitch alike. *)
Definition pitch_alike (a b : section_movement) : Prop :=
  cs_airfoil (sm_base b) = cs_airfoil (sm_base a) /\ cs_twist (sm_base b) = cs_twist (sm_base a) /\
  sm_pitching b = sm_pitching a /\ sm_custom_pitch b = sm_custom_pitch a.
Definition movement_with_panels (j : nat) (a : section_movement) : section_movement :=
  mksecmove (with_panels j (sm_base a)) (sm_sweeping a) (sm_custom_sweep a) (sm_pitching a) (sm_custom_pitch a) (sm_heaving a) (sm_custom_heave a).
(** The section between sweeps and heaves like the outer section. *)
Definition movement_between (j k : nat) (a b : section_movement) : section_movement :=
  mksecmove (section_between j k (sm_base a) (sm_base b)) (sm_sweeping b) (sm_custom_sweep b) (sm_pitching a) (sm_custom_pitch a) (sm_heaving b) (sm_custom_heave b).
Definition movements_divided (pre : list section_movement) (j k : nat) (a b : section_movement) (post : list section_movement) : list section_movement :=
  pre ++ movement_with_panels j a :: movement_between j k a b :: b :: post.
(** A moving wing with one more section.  From the root to the outer of its two neighbours, the
    sections lie further and further outboard, the angles of sweep and heave can represent the
    base geometry, and the movement starts there. *)
Definition wing_movement_divided (m m' : wing_movement) : Prop :=
  exists pre j k a b post,
    wm_sections m = pre ++ a :: b :: post /\ wm_sections m' = movements_divided pre j k a b post /\
    (1 <= j)%nat /\ (1 <= k)%nat /\ cs_num_spanwise_panels (sm_base a) = (j + k)%nat /\
    cs_spanwise_spacing (sm_base a) = "uniform"%string /\ pitch_alike a b /\
    (let edges := map (fun s => cs_leading_edge (sm_base s)) (pre ++ [a; b]) in
     nth_error edges 0 = Some vzero /\ successive (fun p q => vy p < vy q /\ representable p q) edges) /\
    (forall s, In s (pre ++ [a; b]) -> starts_at_base (sm_sweeping s) (sm_custom_sweep s) /\ starts_at_base (sm_heaving s) (sm_custom_heave s)) /\
    wm_x_le m' = wm_x_le m /\ wm_y_le m' = wm_y_le m /\ wm_z_le m' = wm_z_le m /\
    w_leading_edge (wm_base m') = w_leading_edge (wm_base m) /\
    w_symmetric (wm_base m') = w_symmetric (wm_base m) /\
    w_num_chordwise_panels (wm_base m') = w_num_chordwise_panels (wm_base m) /\
    w_chordwise_spacing (wm_base m') = w_chordwise_spacing (wm_base m).
Definition airplane_movement_divided (m m' : airplane_movement) : Prop :=
  a_xyz_ref (am_base m') = a_xyz_ref (am_base m) /\ a_c_ref (am_base m') = a_c_ref (am_base m) /\
  map w_num_chordwise_panels (a_wings (am_base m')) = map w_num_chordwise_panels (a_wings (am_base m)) /\
  am_x_ref m' = am_x_ref m /\ am_y_ref m' = am_y_ref m /\ am_z_ref m' = am_z_ref m /\
  Forall2 (fun w w' => w' = w \/ wing_movement_divided w w') (am_wings m) (am_wings m').

(** Runs are compared airplane by airplane and wing by wing in the order of the lists. *)
Definition as_listed : pairing := in_order (fun k => k) (fun _ k => k).
