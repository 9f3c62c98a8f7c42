(** How a velocity field changes from point to point: its derivative, its divergence
    (how much more fluid leaves a point than enters it) and its curl (how fast it spins). *)
From Coq Require Export Reals.
From Verif Require Export M_Unsteady S_Solvable.
Local Open Scope R_scope.

Definition vector_derivative (f : R -> vec) (d : vec) : Prop :=
  derivable_pt_lim (fun t => vx (f t)) 0 (vx d) /\ derivable_pt_lim (fun t => vy (f t)) 0 (vy d) /\
  derivable_pt_lim (fun t => vz (f t)) 0 (vz d).
(** [J] gives the derivative of the field [V] at [x] in every direction. *)
Definition field_derivative (V : vec -> vec) (x : vec) (J : mat) : Prop :=
  forall h, vector_derivative (fun t => V (vadd x (vscale t h))) (mvmul J h).
Definition divergence (J : mat) : R := vx (r0 J) + vy (r1 J) + vz (r2 J).
Definition curl (J : mat) : vec := mkvec (vy (r2 J) - vz (r1 J)) (vz (r0 J) - vx (r2 J)) (vx (r1 J) - vy (r0 J)).

(** The point is not exactly where a segment's cut-off begins. *)
Definition off_threshold (x : vec) (s : vec * vec) : Prop :=
  let r1 := vsub (fst s) x in let r2 := vsub (snd s) x in
  vnorm r1 <> / 2 ^ 52 /\ vnorm r2 <> / 2 ^ 52 /\ vnorm (vcross r1 r2) ^ 2 <> / 2 ^ 52.
Definition incompressible (V : vec -> vec) (x : vec) : Prop := exists J, field_derivative V x J /\ divergence J = 0.
Definition irrotational (V : vec -> vec) (x : vec) : Prop := exists J, field_derivative V x J /\ curl J = vzero.
(** The point is farther from the segment, its ends and its line than the cut-offs reach. *)
Definition well_clear (x : vec) (s : vec * vec) : Prop :=
  let r1 := vsub (fst s) x in let r2 := vsub (snd s) x in
  / 2 ^ 52 < vnorm r1 /\ / 2 ^ 52 < vnorm r2 /\ / 2 ^ 52 < vnorm (vcross r1 r2) ^ 2.
(** The segments of a ring vortex. *)
Definition ring_legs (r : ring_vortex) : path :=
  map (fun l => (lv_origin l, lv_termination l)) [rv_right_leg r; rv_front_leg r; rv_left_leg r; rv_back_leg r].
(** The velocity of vortices without cores along [vs], of strengths [gs], in a stream. *)
Definition flow_of (vs : list path) (gs : list R) (stream y : vec) : vec :=
  vadd (vsum (map2 (fun v g => vsum (map (fun s => line_velocity y (fst s) (snd s) g 0 0) v)) vs gs)) stream.
(** Far away from the origin the field is the stream; what is left falls off like the square of the distance. *)
Definition settles (V : vec -> vec) (stream : vec) : Prop :=
  exists K D, 0 < D /\ forall y, D <= vnorm y -> vnorm (vsub (V y) stream) <= K / vnorm y ^ 2.
(** The spin that an end [e] of a vortex of strength [g] leaves at [x]. *)
Definition spin (x : vec) (g : R) (e : vec) : vec := vscale (g / (4 * PI) / vnorm (vsub e x) ^ 3) (vsub e x).
(** Where a path begins and ends. *)
Definition start (v : path) : vec := fst (hd (vzero, vzero) v).
Definition finish (v : path) : vec := snd (last v (vzero, vzero)).
