(** The same problem listed in another order. *)
From Verif Require Import M_Loads S_Mirror.

(** The same panel, with its sides kept ([keeps]) or called the other way round. *)
Definition same_place (keeps : bool) (p p' : panel) : Prop :=
  if keeps then
    p_front_left p' = p_front_left p /\ p_front_right p' = p_front_right p /\
    p_back_left p' = p_back_left p /\ p_back_right p' = p_back_right p
  else
    p_front_left p' = p_front_right p /\ p_front_right p' = p_front_left p /\
    p_back_left p' = p_back_right p /\ p_back_right p' = p_back_left p.
(** [mirrored_wing P] (S_Mirror) relates the panels of two wings, in the order given or with
    every row read from the other end. *)
Definition reordered_airplane (P : bool -> panel -> panel -> Prop) (a a' : airplane) : Prop :=
  a_xyz_ref a' = a_xyz_ref a /\ a_s_ref a' = a_s_ref a /\ a_c_ref a' = a_c_ref a /\ a_b_ref a' = a_b_ref a /\
  exists partner, paired partner (mirrored_wing P) (a_wings a) (a_wings a').
(** Airplane number [partner k] of [l'] is airplane number [k] of [l], its wings in any order. *)
Definition reordered (partner : nat -> nat) (l l' : list airplane) : Prop :=
  paired partner (reordered_airplane same_place) l l'.

Definition same_loads (p p' : panel) : Prop :=
  p_force_geometry p' = p_force_geometry p /\ p_moment_geometry p' = p_moment_geometry p /\
  p_force_wind p' = p_force_wind p /\ p_moment_wind p' = p_moment_wind p /\
  p_induced_drag_coefficient p' = p_induced_drag_coefficient p /\
  p_side_force_coefficient p' = p_side_force_coefficient p /\
  p_lift_coefficient p' = p_lift_coefficient p.
Definition same_totals (a a' : airplane) : Prop :=
  a_force_wind a' = a_force_wind a /\ a_moment_wind a' = a_moment_wind a /\
  a_force_coefficients a' = a_force_coefficients a /\ a_moment_coefficients a' = a_moment_coefficients a.
(** A vortex whose sides have been exchanged turns the other way. *)
Definition same_solution (strength : panel -> option R) (a a' : airplane) : Prop :=
  same_totals a a' /\
  reordered_airplane (fun keeps p p' =>
    same_place keeps p p' /\ same_loads p p' /\
    strength p <> None /\ strength p' = option_map (fun g => if keeps then g else - g) (strength p)) a a'.
