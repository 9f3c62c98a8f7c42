(** Wings and airplanes built from arguments that come closer and closer to given ones. *)
From Coq Require Import List Reals.
From Verif Require Import M_Geometry S_Continuous.
Import ListNotations.
Local Open Scope R_scope.

(** Position, chord and twist come closer; everything else stays. *)
Definition approaching_section (u : nat -> section) (s : section) : Prop :=
  vtends (fun n => cs_leading_edge (u n)) (cs_leading_edge s) /\ tends (fun n => cs_chord (u n)) (cs_chord s) /\
  tends (fun n => cs_twist (u n)) (cs_twist s) /\
  forall n, cs_airfoil (u n) = cs_airfoil s /\ cs_unit_normal (u n) = cs_unit_normal s /\
    cs_control_surface_type (u n) = cs_control_surface_type s /\ cs_control_surface_hinge_point (u n) = cs_control_surface_hinge_point s /\
    cs_control_surface_deflection (u n) = cs_control_surface_deflection s /\ cs_num_spanwise_panels (u n) = cs_num_spanwise_panels s /\
    cs_spanwise_spacing (u n) = cs_spanwise_spacing s.
(** The root stays where the constructor of wings asks it to be. *)
Definition root_at_zero (u : nat -> list section) : Prop := forall n root, nth_error (u n) 0 = Some root -> cs_leading_edge root = vzero.
(** Panels, span and areas come closer, and the mean chord does if the area it is divided by is not zero. *)
Definition approaching_shape (u : nat -> wing) (w : wing) : Prop :=
  approaching_wing approaching_panel u w /\ (forall n, w_num_panels (u n) = w_num_panels w) /\
  tends (fun n => w_projected_area (u n)) (w_projected_area w) /\ tends (fun n => w_wetted_area (u n)) (w_wetted_area w) /\
  (w_projected_area w <> 0 -> tends (fun n => w_mean_aerodynamic_chord (u n)) (w_mean_aerodynamic_chord w)).
(** A reference length that is given or left out. *)
Definition approaching_reference (u : nat -> option R) (o : option R) : Prop :=
  (o = None /\ forall n, u n = None) \/ present tends u o.
