(** What a vortex object and an induced velocity should look like. *)
From Verif Require Import M_Base M_Vortices S_Geometry.

(** A straight vortex from [a] to [b] of strength [s], with its derived data. *)
Definition leg_is (l : line_vortex) (a b : vec) (s : R) : Prop :=
  lv_origin l = a /\ lv_termination l = b /\ lv_strength l = s /\
  lv_vector l = vsub b a /\ lv_center l = midpoint a b.

(** A ring: front, left, back, right legs run front-right -> front-left ->
    back-left -> back-right -> front-right, all with the ring's strength. *)
Definition ring_consistent (r : ring_vortex) : Prop :=
  leg_is (rv_front_leg r) (rv_front_right r) (rv_front_left r) (rv_strength r) /\
  leg_is (rv_left_leg r) (rv_front_left r) (rv_back_left r) (rv_strength r) /\
  leg_is (rv_back_leg r) (rv_back_left r) (rv_back_right r) (rv_strength r) /\
  leg_is (rv_right_leg r) (rv_back_right r) (rv_front_right r) (rv_strength r) /\
  rv_center r = vscale (/ 4) (vadd (vadd (rv_front_left r) (rv_front_right r))
                                   (vadd (rv_back_left r) (rv_back_right r))).

(** A horseshoe: right leg comes in from far downstream to the finite leg's
    origin, the finite leg crosses, the left leg leaves downstream. *)
Definition horseshoe_consistent (h : horseshoe_vortex) : Prop :=
  let far := vscale (hs_infinite_leg_length h) (hs_infinite_leg_direction h) in
  leg_is (hs_right_leg h) (vadd (hs_finite_leg_origin h) far) (hs_finite_leg_origin h) (hs_strength h) /\
  leg_is (hs_finite_leg h) (hs_finite_leg_origin h) (hs_finite_leg_termination h) (hs_strength h) /\
  leg_is (hs_left_leg h) (hs_finite_leg_termination h) (vadd (hs_finite_leg_termination h) far) (hs_strength h) /\
  hs_right_leg_origin h = vadd (hs_finite_leg_origin h) far /\
  hs_left_leg_termination h = vadd (hs_finite_leg_termination h) far.

(** Last values written by a history of operations. *)
Definition last_strength (s0 : R) (ops : list ring_op) : R :=
  fold_left (fun s o => match o with RStrength s' => s' | _ => s end) ops s0.
Definition last_age (a0 : R) (ops : list ring_op) : R :=
  fold_left (fun a o => match o with RAge a' => a' | _ => a end) ops a0.
Definition last_position (q0 : vec * vec * vec * vec) (ops : list ring_op) : vec * vec * vec * vec :=
  fold_left (fun q o => match o with RPosition fl fr bl br => (fl, fr, bl, br) | _ => q end) ops q0.
Definition ring_position (r : ring_vortex) : vec * vec * vec * vec :=
  (rv_front_left r, rv_front_right r, rv_back_left r, rv_back_right r).

(** The textbook law for the velocity a straight filament from [a] to [b] of
    circulation [g] induces at [p] (Katz & Plotkin, Low-Speed Aerodynamics):
    g/(4 pi) * (r1 x r2)/|r1 x r2|^2 * (r0 . (r1/|r1| - r2/|r2|)), with
    r1 = p - a, r2 = p - b, r0 = b - a. *)
Definition biot_savart (p a b : vec) (g : R) : vec :=
  let v1 := vsub p a in
  let v2 := vsub p b in
  let v0 := vsub b a in
  vscale (g / (4 * PI) * (vdot v0 (vsub (vscale (/ vnorm v1) v1) (vscale (/ vnorm v2) v2)))
          / vdot (vcross v1 v2) (vcross v1 v2))
         (vcross v1 v2).
