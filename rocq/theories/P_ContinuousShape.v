(** Property theorems C79, continued (small changes of the arguments of the constructors). *)
From Coq Require Import List Reals String.
From Verif Require Import M_Geometry M_Meshing S_Loads S_Continuous S_ContinuousShape L_ContinuousShapeExample.
Import ListNotations.
Local Open Scope R_scope.

(** ** C79  Small changes of positions, chords, twists and reference lengths are small changes of the case:
    what is built from arguments close enough to good ones is built too, and as the arguments come closer,
    so do the corners of the panels, spans, areas, mean chords and reference values. *)
Theorem C79_section : forall airfoil xs x ys y zs z chords chord normal twists twist type hinge deflection num_spanwise spacing s,
  tends xs x -> tends ys y -> tends zs z -> tends chords chord -> tends twists twist ->
  new_section airfoil x y z chord normal twist type hinge deflection num_spanwise spacing = Ok s ->
  exists us N, (forall n, (N <= n)%nat -> new_section airfoil (xs n) (ys n) (zs n) (chords n) normal (twists n) type hinge deflection num_spanwise spacing = Ok (us n)) /\
    approaching_section us s.
Proof. exact section_near. Qed.
Print Assumptions C79_section.

Theorem C79_wing : forall us sections name xs x ys y zs z normal symmetric chordwise num_chordwise spacing w,
  each approaching_section us sections -> root_at_zero us -> tends xs x -> tends ys y -> tends zs z ->
  new_wing sections name x y z normal symmetric chordwise num_chordwise spacing = Ok w ->
  exists ws N, (forall n, (N <= n)%nat -> new_wing (us n) name (xs n) (ys n) (zs n) normal symmetric chordwise num_chordwise spacing = Ok (ws n)) /\
    approaching_shape ws w.
Proof. exact wing_near. Qed.
Print Assumptions C79_wing.

Theorem C79_airplane : forall ws wings name xs x ys y zs z weight ss s cs c bs b a,
  each approaching_shape ws wings -> tends xs x -> tends ys y -> tends zs z ->
  approaching_reference ss s -> approaching_reference cs c -> approaching_reference bs b ->
  (c = None -> forall main, nth_error wings 0 = Some main -> w_projected_area main <> 0) ->
  new_airplane wings name x y z weight s c b = Ok a ->
  exists airplanes N, (forall n, (N <= n)%nat -> new_airplane (ws n) name (xs n) (ys n) (zs n) weight (ss n) (cs n) (bs n) = Ok (airplanes n)) /\
    approaching_airplane approaching_panel airplanes a.
Proof. exact airplane_near. Qed.
Print Assumptions C79_airplane.

(** A wing whose tip moves, grows and twists. *)
Example C79_tip : exists us sections w a, each approaching_section us sections /\ root_at_zero us /\
  (forall n, nth_error (us n) 1 <> nth_error sections 1) /\
  new_wing sections "wing" 0 0 0 (mkvec 0 1 0) false (mkvec 1 0 0) 1 "uniform" = Ok w /\ w_projected_area w <> 0 /\
  new_airplane [w] "plane" 0 0 0 0 None None None = Ok a.
Proof. exact shape_example. Qed.
