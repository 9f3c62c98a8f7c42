(** Vocabulary for statements about walks over airplanes, wings and panels. *)
From Verif Require Import M_Loads.

Inductive Forall3 {A B C} (P : A -> B -> C -> Prop) : list A -> list B -> list C -> Prop :=
  | Forall3_nil : Forall3 P [] [] []
  | Forall3_cons x y z xs ys zs : P x y z -> Forall3 P xs ys zs -> Forall3 P (x :: xs) (y :: ys) (z :: zs).

(** Number of panels of the airplanes before number [k]. *)
Definition panels_before (airplanes : list airplane) (k : nat) : nat :=
  length (all_panels (firstn k airplanes)).
(** The entries of an array that belong to airplane number [k]. *)
Definition own_entries {B} (airplanes : list airplane) (k : nat) (l : list B) : list B :=
  match nth_error airplanes k with
  | Some a => firstn (length (airplane_panels a)) (skipn (panels_before airplanes k) l)
  | None => []
  end.

(** Two panels that differ at most in their vortices and loads. *)
Definition same_panel (p q : panel) : Prop :=
  p_front_right q = p_front_right p /\ p_front_left q = p_front_left p /\
  p_back_left q = p_back_left p /\ p_back_right q = p_back_right p /\
  p_is_leading_edge q = p_is_leading_edge p /\ p_is_trailing_edge q = p_is_trailing_edge p /\
  p_is_right_edge q = p_is_right_edge p /\ p_is_left_edge q = p_is_left_edge p /\
  p_local_chordwise q = p_local_chordwise p /\ p_local_spanwise q = p_local_spanwise p.
(** Two wings with the same attributes and the same panels up to vortices and loads. *)
Definition same_wing (w v : wing) : Prop :=
  v = w_set_panels (w_panels v) w /\ Forall2 (Forall2 same_panel) (w_panels w) (w_panels v).
(** Two airplanes equal but for their panels' vortices and loads and their own loads. *)
Definition same_airplane (a b : airplane) : Prop :=
  Forall2 same_wing (a_wings a) (a_wings b) /\
  a_name b = a_name a /\ a_xyz_ref b = a_xyz_ref a /\ a_weight b = a_weight a /\
  a_s_ref b = a_s_ref a /\ a_c_ref b = a_c_ref a /\ a_b_ref b = a_b_ref a /\
  a_num_panels b = a_num_panels a.

(** A panel matrix whose flags and stored positions describe it: rectangular,
    leading/trailing edge = first/last row, left/right edge = first/last column. *)
Definition well_meshed (m : list (list panel)) : Prop :=
  (forall row, In row m -> length row = length (hd [] m)) /\
  forall c row s p, nth_error m c = Some row -> nth_error row s = Some p ->
    p_is_leading_edge p = Nat.eqb c 0 /\ p_is_trailing_edge p = Nat.eqb (S c) (length m) /\
    p_is_left_edge p = Some (Nat.eqb s 0) /\ p_is_right_edge p = Some (Nat.eqb (S s) (length row)) /\
    p_local_chordwise p = Some c /\ p_local_spanwise p = Some s.
Definition well_meshed_airplane (a : airplane) : Prop :=
  (forall w, In w (a_wings a) -> well_meshed (w_panels w)) /\ a_num_panels a = length (airplane_panels a).

(** The panel at a matrix position. *)
Definition at_position (m : list (list panel)) (c s : nat) (p : panel) : Prop :=
  exists row, nth_error m c = Some row /\ nth_error row s = Some p.
(** Circulation of the ring at a matrix position, zero outside the wing. *)
Definition circulation (m : list (list panel)) (c s : nat) : R :=
  match nth_error m c with
  | Some row => match nth_error row s with
                | Some p => match p_ring_vortex p with Some r => rv_strength r | None => 0 end
                | None => 0
                end
  | None => 0
  end.
(** Net circulation of the filaments along a panel's right, front and left
    side: its own minus that of the ring on the other side. *)
Definition net_right (m : list (list panel)) (c s : nat) : R := circulation m c s - circulation m c (S s).
Definition net_front (m : list (list panel)) (c s : nat) : R :=
  circulation m c s - match c with O => 0 | S c' => circulation m c' s end.
Definition net_left (m : list (list panel)) (c s : nat) : R :=
  circulation m c s - match s with O => 0 | S s' => circulation m c s' end.

(** Two spanwise neighbours with a common edge: the left one's right edge is
    the right one's left edge. *)
Definition shares_edge (p q : panel) : Prop :=
  p_front_right p = p_front_left q /\ p_back_right p = p_back_left q.
(** All spanwise neighbours of a panel matrix share their edges. *)
Definition spanwise_watertight (m : list (list panel)) : Prop :=
  forall c s p q, at_position m c s p -> at_position m c (S s) q -> shares_edge p q.

(** The same panel or airplane with loads [c] times as large and the same
    load coefficients. *)
Definition scaled_panel (c : R) (p q : panel) : Prop :=
  same_panel p q /\
  p_force_geometry q = option_map (vscale c) (p_force_geometry p) /\
  p_moment_geometry q = option_map (vscale c) (p_moment_geometry p) /\
  p_force_wind q = option_map (vscale c) (p_force_wind p) /\
  p_moment_wind q = option_map (vscale c) (p_moment_wind p) /\
  p_induced_drag_coefficient q = p_induced_drag_coefficient p /\
  p_side_force_coefficient q = p_side_force_coefficient p /\
  p_lift_coefficient q = p_lift_coefficient p.
Definition scaled_airplane (c : R) (a b : airplane) : Prop :=
  same_airplane a b /\
  Forall2 (scaled_panel c) (airplane_panels a) (airplane_panels b) /\
  a_force_wind b = option_map (vscale c) (a_force_wind a) /\
  a_moment_wind b = option_map (vscale c) (a_moment_wind a) /\
  a_force_coefficients b = a_force_coefficients a /\
  a_moment_coefficients b = a_moment_coefficients a.
