(** Images of unsteady problems and of their solutions: moved and turned as a whole, seen in a
    mirror, or with airplanes and wings listed in another order. *)
From Coq Require Import String.
From Verif Require Import M_Unsteady S_Mirror S_Rigid S_Movement S_Unsteady S_UnsteadyRun.

(** Points are mapped to [moved m t x].  The matrix [m] keeps lengths and angles; it is a
    rotation, or a rotation and a reflection when [mirror] is true. *)
Definition isometric (mirror : bool) (m : mat) : Prop :=
  (forall u v, vdot (mvmul m u) (mvmul m v) = vdot u v) /\ mdet m = (if mirror then - (1) else 1).
(** Components of forces and of moments in wind axes. *)
Definition wind_image (mirror : bool) (v : vec) : vec := if mirror then across v else v.
Definition wind_image_moment (mirror : bool) (v : vec) : vec := if mirror then across_moment v else v.
(** The same flow seen from the image. *)
Definition flow_image (mirror : bool) (m : mat) (op op' : operating_point) : Prop :=
  op_density op' = op_density op /\ op_velocity op' = op_velocity op /\ op_nu op' = op_nu op /\
  forall v, mvmul (mtrans (rotation_wind_to_geometry op')) (mvmul m v) =
            wind_image mirror (mvmul (mtrans (rotation_wind_to_geometry op)) v).

(** Element [k] of [l] and element [partner k] of [l'] belong together, for all of them. *)
Definition pairs {A B} (partner : nat -> nat) (P : nat -> A -> B -> Prop) (l : list A) (l' : list B) : Prop :=
  length l' = length l /\
  (forall i j, (i < length l)%nat -> (j < length l)%nat -> partner i = partner j -> i = j) /\
  forall k x, nth_error l k = Some x -> exists x', nth_error l' (partner k) = Some x' /\ P k x x'.
(** Which airplane is the image of which, which wing of the image is the image of which wing, and
    whether the image of a wing has kept its sides or has left and right interchanged.  The
    same for all time steps. *)
Record pairing := {
  partner : nat -> nat;
  wing_partner : nat -> nat -> nat;
  keeps_sides : nat -> nat -> bool }.
(** Rows read from the other end when the sides are not kept. *)
Definition rows_image {A B} (keeps : bool) (P : A -> B -> Prop) : list (list A) -> list (list B) -> Prop :=
  Forall2 (fun row row' => Forall2 P row (if keeps then row' else rev row')).
(** Airplanes with the same reference dimensions and the image of the reference point, and
    with wings related by [W]. *)
Definition airplane_image (m : mat) (t : vec) (wings : nat -> nat) (keeps : nat -> bool)
           (W : bool -> wing -> wing -> Prop) (a a' : airplane) : Prop :=
  a_xyz_ref a' = moved m t (a_xyz_ref a) /\
  a_s_ref a' = a_s_ref a /\ a_c_ref a' = a_c_ref a /\ a_b_ref a' = a_b_ref a /\
  pairs wings (fun i => W (keeps i)) (a_wings a) (a_wings a').
Definition airplanes_image (m : mat) (t : vec) (pr : pairing) (W : bool -> wing -> wing -> Prop) : list airplane -> list airplane -> Prop :=
  pairs (partner pr) (fun k => airplane_image m t (wing_partner pr k) (keeps_sides pr k) W).

(** A panel whose corners are the images of the corners of another. *)
Definition panel_image (m : mat) (t : vec) (keeps : bool) (p p' : panel) : Prop :=
  let f := moved m t in
  if keeps then
    p_front_left p' = f (p_front_left p) /\ p_front_right p' = f (p_front_right p) /\
    p_back_left p' = f (p_back_left p) /\ p_back_right p' = f (p_back_right p)
  else
    p_front_left p' = f (p_front_right p) /\ p_front_right p' = f (p_front_left p) /\
    p_back_left p' = f (p_back_right p) /\ p_back_right p' = f (p_back_left p).
(** Neighbours in a row share their corners. *)
Definition joined (row : list panel) : Prop :=
  forall s p q, nth_error row s = Some p -> nth_error row (S s) = Some q ->
    p_front_right p = p_front_left q /\ p_back_right p = p_back_left q.
(** The panels of a wing, of which there are some, are the images of those of another.  A wing
    whose image has its sides interchanged must have no gaps in the row along its trailing
    edge, where the wake is shed. *)
Definition wing_image (m : mat) (t : vec) (keeps : bool) (w w' : wing) : Prop :=
  rows_image keeps (panel_image m t keeps) (w_panels w) (w_panels w') /\
  trailing_panels w <> [] /\
  (keeps = false -> joined (trailing_panels w)).
Definition step_image (mirror : bool) (m : mat) (t : vec) (pr : pairing) (sp sp' : steady_problem) : Prop :=
  flow_image mirror m (sp_operating_point sp) (sp_operating_point sp') /\
  airplanes_image m t pr (wing_image m t) (sp_airplanes sp) (sp_airplanes sp').
Record problem_image (mirror : bool) (m : mat) (t : vec) (pr : pairing) (up up' : unsteady_problem) : Prop := {
  pi_time : up_delta_time up' = up_delta_time up;
  pi_results : up_first_results_step up' = up_first_results_step up;
  pi_steps : Forall2 (step_image mirror m t pr) (up_steady_problems up) (up_steady_problems up') }.

(** ** Solutions *)
(** The strength of a vortex and that of its image: one that has kept its sides turns the
    other way in the mirror, one with its sides interchanged does when there is no mirror. *)
Definition sense (mirror keeps : bool) : R := if xorb mirror keeps then 1 else - (1).
Definition strength_image (mirror : bool) (m : mat) (t : vec) (keeps : bool) (w w' : wing) : Prop :=
  rows_image keeps (fun p p' => panel_image m t keeps p p' /\
    exists r r', p_ring_vortex p = Some r /\ p_ring_vortex p' = Some r' /\
      rv_strength r' = sense mirror keeps * rv_strength r) (w_panels w) (w_panels w').
(** The vertices of the wakes of two wings. *)
Definition wake_image (m : mat) (t : vec) (keeps : bool) (w w' : wing) : Prop :=
  rows_image keeps (fun v v' => v' = moved m t v) (w_wake_vertices w) (w_wake_vertices w').
(** Loads: images in geometry axes, mirror images or the same in wind axes. *)
Definition loads_image (mirror : bool) (m : mat) (p p' : panel) : Prop :=
  exists f n fw nw,
    p_force_geometry p = Some f /\ p_moment_geometry p = Some n /\ p_force_wind p = Some fw /\ p_moment_wind p = Some nw /\
    p_force_geometry p' = Some (mvmul m f) /\
    p_moment_geometry p' = Some (vscale (mdet m) (mvmul m n)) /\
    p_force_wind p' = Some (wind_image mirror fw) /\
    p_moment_wind p' = Some (wind_image_moment mirror nw) /\
    p_induced_drag_coefficient p' = p_induced_drag_coefficient p /\
    p_side_force_coefficient p' = (if mirror then option_map Ropp (p_side_force_coefficient p) else p_side_force_coefficient p) /\
    p_lift_coefficient p' = p_lift_coefficient p.
Definition totals_image (mirror : bool) (a a' : airplane) : Prop :=
  exists f n cf cn,
    a_force_wind a = Some f /\ a_moment_wind a = Some n /\ a_force_coefficients a = Some cf /\ a_moment_coefficients a = Some cn /\
    a_force_wind a' = Some (wind_image mirror f) /\ a_moment_wind a' = Some (wind_image_moment mirror n) /\
    a_force_coefficients a' = Some (wind_image mirror cf) /\ a_moment_coefficients a' = Some (wind_image_moment mirror cn).

(** After [n] steps of two runs: images at every step so far. *)
Record run_image (mirror : bool) (m : mat) (t : vec) (pr : pairing) (first : Z) (n : nat) (s s' : unsteady_solver) : Prop := {
  ri_strengths : forall k sp sp', (k < n)%nat -> step_at s k sp -> step_at s' k sp' ->
    airplanes_image m t pr (strength_image mirror m t) (sp_airplanes sp) (sp_airplanes sp');
  ri_wakes : forall k sp sp', (k <= n)%nat -> step_at s k sp -> step_at s' k sp' ->
    airplanes_image m t pr (wake_image m t) (sp_airplanes sp) (sp_airplanes sp');
  ri_loads : forall k sp sp', (k < n)%nat -> (first <= Z.of_nat k)%Z -> step_at s k sp -> step_at s' k sp' ->
    airplanes_image m t pr (fun keeps w w' => rows_image keeps (loads_image mirror m) (w_panels w) (w_panels w')) (sp_airplanes sp) (sp_airplanes sp') /\
    pairs (partner pr) (fun _ => totals_image mirror) (sp_airplanes sp) (sp_airplanes sp');
  ri_velocity : forall x u, unsteady_solution_velocity s [x] = Ok [u] ->
    unsteady_solution_velocity s' [moved m t x] = Ok [mvmul m u] }.

(** The loads kept at the end of a run: forces, moments and their coefficients, one of each per airplane. *)
Definition final_image (pr : pairing) (force moment : vec -> vec) (l l' : final_loads) : Prop :=
  pairs (partner pr) (fun _ v v' => v' = force v) (fl_forces l) (fl_forces l') /\
  pairs (partner pr) (fun _ v v' => v' = force v) (fl_force_coefficients l) (fl_force_coefficients l') /\
  pairs (partner pr) (fun _ v v' => v' = moment v) (fl_moments l) (fl_moments l') /\
  pairs (partner pr) (fun _ v v' => v' = moment v) (fl_moment_coefficients l) (fl_moment_coefficients l').

(** ** Symmetric flight *)
(** Reflection in the x-z plane. *)
Definition reflection : mat := mkmat (mkvec 1 0 0) (mkvec 0 (- (1)) 0) (mkvec 0 0 1).
(** A wing given as symmetric, which flaps on the plane of symmetry: it may move forward and
    upward, and its sections, each of which has some panels, may sweep, heave and pitch.  The
    control surfaces are symmetric and deflected alike. *)
Definition symmetric_wing_movement (m : wing_movement) : Prop :=
  w_symmetric (wm_base m) = true /\ w_y_le (wm_base m) = 0 /\ unmoving (wm_y_le m) /\
  (forall s, In s (removelast (wm_sections m)) -> (1 <= cs_num_spanwise_panels (sm_base s))%nat /\
     (cs_control_surface_type (sm_base s) = "symmetric"%string \/ cs_control_surface_deflection (sm_base s) = 0)) /\
  (forall s t, In s (removelast (wm_sections m)) -> In t (removelast (wm_sections m)) ->
     cs_control_surface_deflection (sm_base s) = cs_control_surface_deflection (sm_base t) /\
     cs_control_surface_hinge_point (sm_base s) = cs_control_surface_hinge_point (sm_base t)).
Definition symmetric_movement (m : airplane_movement) : Prop :=
  a_y_ref (am_base m) = 0 /\ unmoving (am_y_ref m) /\
  forall w, In w (am_wings m) -> symmetric_wing_movement w.

(** The same, but for control surfaces that may be deflected along a part of the span only. *)
Definition symmetric_but_for_flaps (m : airplane_movement) : Prop :=
  a_y_ref (am_base m) = 0 /\ unmoving (am_y_ref m) /\
  forall w, In w (am_wings m) -> w_symmetric (wm_base w) = true /\ w_y_le (wm_base w) = 0 /\ unmoving (wm_y_le w) /\
    forall s, In s (removelast (wm_sections w)) -> (1 <= cs_num_spanwise_panels (sm_base s))%nat /\
      (cs_control_surface_type (sm_base s) = "symmetric"%string \/ cs_control_surface_deflection (sm_base s) = 0).

(** ** Movements elsewhere and in another order *)
Definition wing_movement_elsewhere (d : vec) (m m' : wing_movement) : Prop :=
  wm_sections m' = wm_sections m /\
  wm_x_le m' = wm_x_le m /\ wm_y_le m' = wm_y_le m /\ wm_z_le m' = wm_z_le m /\
  w_leading_edge (wm_base m') = vadd (w_leading_edge (wm_base m)) d /\
  w_symmetric (wm_base m') = w_symmetric (wm_base m) /\
  w_num_chordwise_panels (wm_base m') = w_num_chordwise_panels (wm_base m) /\
  w_chordwise_spacing (wm_base m') = w_chordwise_spacing (wm_base m).
Definition has_panels (m : wing_movement) : Prop :=
  exists s, In s (removelast (wm_sections m)) /\ (1 <= cs_num_spanwise_panels (sm_base s))%nat.
(** The wings may be listed in any order but for the first, whose dimensions the coefficients refer to. *)
Definition airplane_movement_elsewhere (d : vec) (wings : nat -> nat) (m m' : airplane_movement) : Prop :=
  a_xyz_ref (am_base m') = vadd (a_xyz_ref (am_base m)) d /\
  am_x_ref m' = am_x_ref m /\ am_y_ref m' = am_y_ref m /\ am_z_ref m' = am_z_ref m /\
  wings 0%nat = 0%nat /\ pairs wings (fun _ => wing_movement_elsewhere d) (am_wings m) (am_wings m') /\
  forall w, In w (am_wings m) -> has_panels w.
Definition movements_elsewhere (d : vec) (airplanes : nat -> nat) (wings : nat -> nat -> nat) : list airplane_movement -> list airplane_movement -> Prop :=
  pairs airplanes (fun k => airplane_movement_elsewhere d (wings k)).
Definition in_order (airplanes : nat -> nat) (wings : nat -> nat -> nat) : pairing :=
  {| partner := airplanes; wing_partner := wings; keeps_sides := fun _ _ => true |}.
