(** Planform of a wing (C14): projected area, mean chords.  [trapezoid], [seen_chord],
    [lies_open], [plain] and [reach] are in S_Planform. *)
From Verif Require Import M_Geometry S_Wing S_Planform L_Geometry L_PlanformWing L_PlanformChords L_PlanformExample.
Local Open Scope R_scope.

(** The projected area does not depend on the mesh: it is the sum of the trapezoids
    between neighbouring sections, twice for a symmetric wing. *)
Theorem C14_area_of_trapezoids : forall sections name x y z n symmetric c num_chordwise spacing w,
  new_wing sections name x y z n symmetric c num_chordwise spacing = Ok w -> vnorm n = 1 -> vnorm c = 1 ->
  (forall s, In s sections -> lies_open s /\ cs_unit_normal s = n) ->
  (forall s, In s (removelast sections) -> cs_control_surface_deflection s = 0 /\ (1 <= cs_num_spanwise_panels s)%nat) ->
  w_projected_area w = (if symmetric then 2 else 1) * rsum (map (trapezoid n) (adjacent sections)).
Proof. exact planform_area. Qed.
Print Assumptions C14_area_of_trapezoids.

Example C14_twisted_plate :
  let s := mksection (L_Example.flat_named "plate") 0 0 0 4 (mkvec 0 1 0) 60 "symmetric" (75 / 100) 0 1 "uniform" None in
  lies_open s /\ seen_chord s = 2.
Proof. exact twisted_plate. Qed.

(** A section without twist whose airfoil was repanelled, as it is by default, is as long
    as its chord seen from above. *)
Theorem C14_plain_sections : forall s, plain s -> lies_open s /\ seen_chord s = cs_chord s.
Proof. exact plain_open. Qed.
Print Assumptions C14_plain_sections.

(** The standard mean chord is at least the shortest chord, the mean aerodynamic chord at
    least the standard mean chord and at most the longest chord. *)
Theorem C14_mean_chords_ordered : forall sections name x y z n symmetric c num_chordwise spacing w lo hi,
  new_wing sections name x y z n symmetric c num_chordwise spacing = Ok w -> vnorm n = 1 -> vnorm c = 1 ->
  (forall s, In s sections -> plain s /\ cs_unit_normal s = n) ->
  (forall s, In s (removelast sections) -> cs_control_surface_deflection s = 0 /\ (1 <= cs_num_spanwise_panels s)%nat) ->
  outward n sections -> 0 < lo -> (forall s, In s sections -> lo <= cs_chord s <= hi) -> w_span w <> 0 ->
  lo <= w_standard_mean_chord w <= w_mean_aerodynamic_chord w /\ w_mean_aerodynamic_chord w <= hi.
Proof. exact mean_chords_ordered. Qed.
Print Assumptions C14_mean_chords_ordered.

Theorem C14_rectangular : forall sections name x y z n symmetric c num_chordwise spacing w chord,
  new_wing sections name x y z n symmetric c num_chordwise spacing = Ok w -> vnorm n = 1 -> vnorm c = 1 ->
  (forall s, In s sections -> plain s /\ cs_unit_normal s = n) ->
  (forall s, In s (removelast sections) -> cs_control_surface_deflection s = 0 /\ (1 <= cs_num_spanwise_panels s)%nat) ->
  outward n sections -> 0 < chord -> (forall s, In s sections -> cs_chord s = chord) -> w_span w <> 0 ->
  w_projected_area w = chord * w_span w /\ w_standard_mean_chord w = chord /\ w_mean_aerodynamic_chord w = chord.
Proof. exact rectangular_wing. Qed.
Print Assumptions C14_rectangular.

(** Straight taper: the textbook formulas. *)
Theorem C14_tapered : forall root tip name x y z n symmetric c num_chordwise spacing w,
  new_wing [root; tip] name x y z n symmetric c num_chordwise spacing = Ok w -> vnorm n = 1 -> vnorm c = 1 ->
  plain root -> plain tip -> cs_unit_normal root = n -> cs_unit_normal tip = n ->
  cs_control_surface_deflection root = 0 -> (1 <= cs_num_spanwise_panels root)%nat ->
  0 < reach n (root, tip) -> 0 < cs_chord root + cs_chord tip ->
  let r := cs_chord root in let t := cs_chord tip in
  w_projected_area w = w_span w * (r + t) / 2 /\ w_standard_mean_chord w = (r + t) / 2 /\
  w_mean_aerodynamic_chord w = 2 / 3 * (r + t - r * t / (r + t)).
Proof. exact tapered_wing. Qed.
Print Assumptions C14_tapered.

Example C14_tapered_wing : exists a w,
  new_wing [wedge_section a 0 0 4; wedge_section a 1 3 2] "wing" 0 0 0 (mkvec 0 1 0) true (mkvec 1 0 0) 3 "cosine" = Ok w /\
  plain (wedge_section a 0 0 4) /\ plain (wedge_section a 1 3 2) /\
  reach (mkvec 0 1 0) (wedge_section a 0 0 4, wedge_section a 1 3 2) = 3 /\
  w_span w = 6 /\ w_projected_area w = 18 /\ w_standard_mean_chord w = 3 /\ w_mean_aerodynamic_chord w = 28 / 9.
Proof. exact tapered_values. Qed.

(** Chordwise direction, normal of the root section and up direction are a right-handed frame. *)
Theorem C14_axes : forall sections name x y z n symmetric c num_chordwise spacing w,
  new_wing sections name x y z n symmetric c num_chordwise spacing = Ok w -> vnorm n = 1 -> vnorm c = 1 ->
  vnorm (w_unit_up w) = 1 /\ vdot (w_unit_up w) c = 0 /\ vdot (w_unit_up w) n = 0 /\
  vcross (w_unit_up w) c = n /\ vcross n (w_unit_up w) = c.
Proof. exact wing_axes. Qed.
Print Assumptions C14_axes.
