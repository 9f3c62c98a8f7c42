(** Model of the vortex classes in pterasoftware/aerodynamics.py. *)
From Verif Require Export M_Functions.

(** aerodynamics.py:84-103 [LineVortex]; [vector] and [center] are computed in
    the constructor from the other two attributes and never changed after. *)
Record line_vortex : Type := mkline {
  lv_origin : vec;
  lv_termination : vec;
  lv_strength : R;
  lv_vector : vec;
  lv_center : vec
}.
(** aerodynamics.py:84-103 *)
Definition new_line_vortex (origin termination : vec) (strength : R) : line_vortex :=
  let vector := vsub termination origin in
  mkline origin termination strength vector (vadd origin (vscale (5 / 10) vector)).

(** aerodynamics.py:186-188 and 282-285 *)
Definition line_set_strength (s : R) (l : line_vortex) : line_vortex :=
  mkline (lv_origin l) (lv_termination l) s (lv_vector l) (lv_center l).

(** aerodynamics.py:106-188 [HorseshoeVortex]. *)
Record horseshoe_vortex : Type := mkhs {
  hs_finite_leg_origin : vec;
  hs_finite_leg_termination : vec;
  hs_strength : R;
  hs_infinite_leg_direction : vec;
  hs_infinite_leg_length : R;
  hs_right_leg_origin : vec;
  hs_left_leg_termination : vec;
  hs_right_leg : line_vortex;
  hs_finite_leg : line_vortex;
  hs_left_leg : line_vortex
}.
(** aerodynamics.py:120-174 *)
Definition new_horseshoe (finite_leg_origin finite_leg_termination : vec) (strength : R)
           (infinite_leg_direction : vec) (infinite_leg_length : R) : horseshoe_vortex :=
  let right_leg_origin :=
    vadd finite_leg_origin (vscale infinite_leg_length infinite_leg_direction) in
  let left_leg_termination :=
    vadd finite_leg_termination (vscale infinite_leg_length infinite_leg_direction) in
  mkhs finite_leg_origin finite_leg_termination strength
       infinite_leg_direction infinite_leg_length
       right_leg_origin left_leg_termination
       (new_line_vortex right_leg_origin finite_leg_origin strength)
       (new_line_vortex finite_leg_origin finite_leg_termination strength)
       (new_line_vortex finite_leg_termination left_leg_termination strength).

(** aerodynamics.py:176-188 *)
Definition hs_update_strength (s : R) (h : horseshoe_vortex) : horseshoe_vortex :=
  mkhs (hs_finite_leg_origin h) (hs_finite_leg_termination h) s
       (hs_infinite_leg_direction h) (hs_infinite_leg_length h)
       (hs_right_leg_origin h) (hs_left_leg_termination h)
       (line_set_strength s (hs_right_leg h))
       (line_set_strength s (hs_finite_leg h))
       (line_set_strength s (hs_left_leg h)).

(** aerodynamics.py:191-340 [RingVortex]. *)
Record ring_vortex : Type := mkring {
  rv_front_left : vec;
  rv_front_right : vec;
  rv_back_left : vec;
  rv_back_right : vec;
  rv_strength : R;
  rv_front_leg : line_vortex;
  rv_left_leg : line_vortex;
  rv_back_leg : line_vortex;
  rv_right_leg : line_vortex;
  rv_center : vec;
  rv_age : R
}.
(** aerodynamics.py:208-270; [age] starts at 0. *)
Definition new_ring (fl fr bl br : vec) (strength : R) : ring_vortex :=
  mkring fl fr bl br strength
         (new_line_vortex fr fl strength)
         (new_line_vortex fl bl strength)
         (new_line_vortex bl br strength)
         (new_line_vortex br fr strength)
         (centroid_of_quadrilateral fl fr bl br)
         0.
(** aerodynamics.py:272-285 *)
Definition ring_update_strength (s : R) (r : ring_vortex) : ring_vortex :=
  mkring (rv_front_left r) (rv_front_right r) (rv_back_left r) (rv_back_right r) s
         (line_set_strength s (rv_front_leg r))
         (line_set_strength s (rv_left_leg r))
         (line_set_strength s (rv_back_leg r))
         (line_set_strength s (rv_right_leg r))
         (rv_center r) (rv_age r).
(** aerodynamics.py:287-340 *)
Definition ring_update_position (fl fr bl br : vec) (r : ring_vortex) : ring_vortex :=
  mkring fl fr bl br (rv_strength r)
         (new_line_vortex fr fl (rv_strength r))
         (new_line_vortex fl bl (rv_strength r))
         (new_line_vortex bl br (rv_strength r))
         (new_line_vortex br fr (rv_strength r))
         (centroid_of_quadrilateral fl fr bl br)
         (rv_age r).
(** Assignment to the public attribute [age]
    (unsteady_ring_vortex_lattice_method.py:1439-1449). *)
Definition ring_set_age (a : R) (r : ring_vortex) : ring_vortex :=
  mkring (rv_front_left r) (rv_front_right r) (rv_back_left r) (rv_back_right r)
         (rv_strength r) (rv_front_leg r) (rv_left_leg r) (rv_back_leg r) (rv_right_leg r)
         (rv_center r) a.

(** The mutators as operations, for histories.  (aerodynamics.py:272-340) *)
Inductive ring_op : Type :=
  | RStrength (s : R)
  | RPosition (fl fr bl br : vec)
  | RAge (a : R).
(** aerodynamics.py:272-340 *)
Definition ring_step (r : ring_vortex) (o : ring_op) : ring_vortex :=
  match o with
  | RStrength s => ring_update_strength s r
  | RPosition fl fr bl br => ring_update_position fl fr bl br r
  | RAge a => ring_set_age a r
  end.
