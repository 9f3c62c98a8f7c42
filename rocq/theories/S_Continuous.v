(** Inputs that come closer and closer to given ones, and results that do. *)
From Coq Require Import List Reals.
From Verif Require Import M_Loads S_Geometry S_Solvable S_Size.
Import ListNotations.
Local Open Scope R_scope.

(** Convergence of numbers (the standard library's), of vectors and of lists. *)
Definition tends (u : nat -> R) (x : R) : Prop := Un_cv u x.
Definition vtends (u : nat -> vec) (v : vec) : Prop :=
  tends (fun n => vx (u n)) (vx v) /\ tends (fun n => vy (u n)) (vy v) /\ tends (fun n => vz (u n)) (vz v).
Inductive each {A} (T : (nat -> A) -> A -> Prop) : (nat -> list A) -> list A -> Prop :=
| each_nil u : (forall n, u n = []) -> each T u []
| each_cons u x l a m : (forall n, u n = x n :: l n) -> T x a -> each T l m -> each T u (a :: m).
(** A value that is there from the start or not at all. *)
Definition present {A} (T : (nat -> A) -> A -> Prop) (u : nat -> option A) (o : option A) : Prop :=
  exists x a, (forall n, u n = Some (x n)) /\ o = Some a /\ T x a.

Definition approaching_op (u : nat -> operating_point) (op : operating_point) : Prop :=
  tends (fun n => op_density (u n)) (op_density op) /\ tends (fun n => op_velocity (u n)) (op_velocity op) /\
  tends (fun n => op_alpha (u n)) (op_alpha op) /\ tends (fun n => op_beta (u n)) (op_beta op).
(** The corners come closer; the panel's place in the mesh stays. *)
Definition approaching_panel (u : nat -> panel) (p : panel) : Prop :=
  vtends (fun n => p_front_left (u n)) (p_front_left p) /\ vtends (fun n => p_front_right (u n)) (p_front_right p) /\
  vtends (fun n => p_back_left (u n)) (p_back_left p) /\ vtends (fun n => p_back_right (u n)) (p_back_right p) /\
  forall n, p_is_leading_edge (u n) = p_is_leading_edge p /\ p_is_trailing_edge (u n) = p_is_trailing_edge p /\
    p_is_right_edge (u n) = p_is_right_edge p /\ p_is_left_edge (u n) = p_is_left_edge p /\
    p_local_chordwise (u n) = p_local_chordwise p /\ p_local_spanwise (u n) = p_local_spanwise p.
Definition approaching_wing (T : (nat -> panel) -> panel -> Prop) (u : nat -> wing) (w : wing) : Prop :=
  tends (fun n => w_span (u n)) (w_span w) /\ each (each T) (fun n => w_panels (u n)) (w_panels w).
Definition approaching_airplane (T : (nat -> panel) -> panel -> Prop) (u : nat -> airplane) (a : airplane) : Prop :=
  tends (fun n => a_s_ref (u n)) (a_s_ref a) /\ tends (fun n => a_c_ref (u n)) (a_c_ref a) /\ tends (fun n => a_b_ref (u n)) (a_b_ref a) /\
  vtends (fun n => a_xyz_ref (u n)) (a_xyz_ref a) /\ (forall n, a_num_panels (u n) = a_num_panels a) /\
  each (approaching_wing T) (fun n => a_wings (u n)) (a_wings a).
Definition approaching : (nat -> list airplane) -> list airplane -> Prop := each (approaching_airplane approaching_panel).

(** A point on the edge of where a segment is cut off (compare [cut_off]). *)
Definition on_edge (x : vec) (s : vec * vec) : Prop :=
  let r1 := vsub (fst s) x in let r2 := vsub (snd s) x in
  vnorm r1 = / 2 ^ 52 \/ vnorm r2 = / 2 ^ 52 \/ vnorm (vcross r1 r2) ^ 2 = / 2 ^ 52.
Definition off_edges (vs : list path) (x : vec) : Prop := forall v s, In v vs -> In s v -> ~ on_edge x s.

(** Loads come closer, and coefficients do if what they are divided by is not zero. *)
Definition approaching_loads (pressure : R) (u : nat -> panel) (p : panel) : Prop :=
  present vtends (fun n => p_force_geometry (u n)) (p_force_geometry p) /\ present vtends (fun n => p_moment_geometry (u n)) (p_moment_geometry p) /\
  present vtends (fun n => p_force_wind (u n)) (p_force_wind p) /\ present vtends (fun n => p_moment_wind (u n)) (p_moment_wind p) /\
  (pressure <> 0 ->
   present tends (fun n => p_induced_drag_coefficient (u n)) (p_induced_drag_coefficient p) /\
   present tends (fun n => p_side_force_coefficient (u n)) (p_side_force_coefficient p) /\
   present tends (fun n => p_lift_coefficient (u n)) (p_lift_coefficient p)).
Definition approaching_totals (pressure : R) (u : nat -> airplane) (a : airplane) : Prop :=
  present vtends (fun n => a_force_wind (u n)) (a_force_wind a) /\ present vtends (fun n => a_moment_wind (u n)) (a_moment_wind a) /\
  (pressure <> 0 -> a_s_ref a <> 0 -> a_b_ref a <> 0 -> a_c_ref a <> 0 ->
   present vtends (fun n => a_force_coefficients (u n)) (a_force_coefficients a) /\
   present vtends (fun n => a_moment_coefficients (u n)) (a_moment_coefficients a)).
Definition approaching_solution (pressure : R) (strength : panel -> option R) (u : nat -> airplane) (a : airplane) : Prop :=
  approaching_totals pressure u a /\
  approaching_airplane (fun v p => approaching_panel v p /\ approaching_loads pressure v p /\ present tends (fun n => strength (v n)) (strength p)) u a.
