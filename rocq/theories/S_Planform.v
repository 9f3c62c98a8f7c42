(** The area of a wing seen from above, independent of its mesh. *)
From Verif Require Export M_Geometry S_Airfoil S_Wing.
Local Open Scope R_scope.

(** How far back a point of the camber line is along the wing's chordwise direction,
    after the section's twist, per unit of chord. *)
Definition back (s : section) (p : R * R) : R :=
  fst p * cos (cs_twist s * PI / 180) + snd p * sin (cs_twist s * PI / 180).
(** The length of the section seen from above. *)
Definition seen_chord (s : section) : R :=
  let line := af_mcl_coordinates (cs_airfoil s) in
  cs_chord s * (back s (last line (0, 0)) - back s (hd (0, 0) line)).
(** The trapezoid between two sections. *)
Definition trapezoid (n : vec) (io : section * section) : R :=
  let (i, o) := io in
  Rabs (vdot (vsub (cs_leading_edge o) (cs_leading_edge i)) n) * (seen_chord i + seen_chord o) / 2.
(** The section's airfoil was built by the constructor with as many points above as
    below, and no part of its camber line turns forward. *)
Definition lies_open (s : section) : Prop :=
  (exists pchip database name coordinates repanelled np k,
     new_airfoil pchip database name coordinates repanelled np = Ok (cs_airfoil s) /\ balanced k (af_coordinates (cs_airfoil s))) /\
  let line := af_mcl_coordinates (cs_airfoil s) in
  0 <= cs_chord s /\ (2 <= length line)%nat /\ distinct_successive line /\
  forall k p q, nth_error line k = Some p -> nth_error line (S k) = Some q -> back s p <= back s q.
(** A section whose airfoil is repanelled, as airfoils are by default, and which has no
    twist. *)
Definition plain (s : section) : Prop :=
  cs_twist s = 0 /\ 0 <= cs_chord s /\
  exists pchip database name coordinates np, (2 <= np)%nat /\
    new_airfoil pchip database name coordinates true np = Ok (cs_airfoil s).
(** How far outward a section lies from its inner neighbour. *)
Definition reach (n : vec) (io : section * section) : R :=
  vdot (vsub (cs_leading_edge (snd io)) (cs_leading_edge (fst io))) n.
