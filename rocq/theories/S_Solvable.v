(** Which cases have an answer: the vortices of a case as straight segments in space, given by
    the panels alone, and what it means that no distribution of strengths goes unnoticed. *)
From Coq Require Import List Reals.
From Verif Require Import M_Unsteady S_Unsteady.
Import ListNotations.
Local Open Scope R_scope.

(** A vortex of a panel: the segments it runs along. *)
Definition path : Type := list (vec * vec).
Definition open_path (a b c d : vec) : path := [(a, b); (b, c); (c, d)].
Definition closed_path (a b c d : vec) : path := [(a, b); (b, c); (c, d); (d, a)].
(** The velocity that a vortex of strength one along [v] induces at the panel's collocation
    point, normal to the panel. *)
Definition felt (p : panel) (v : path) : R :=
  vdot (vsum (map (fun s => line_velocity (p_collocation_point p) (fst s) (snd s) 1 0 0) v)) (p_unit_normal p).
(** Only zero strengths are felt by no panel. *)
Definition distinguishable (ps : list panel) (vs : list path) : Prop :=
  forall gs, length gs = length vs ->
    (forall p, In p ps -> rsum (map2 (fun v g => felt p v * g) vs gs) = 0) ->
    forall g, In g gs -> g = 0.

(** The panels of a mesh row by row, with chordwise and spanwise position. *)
Definition numbered {A} (l : list A) : list (nat * A) := combine (seq 0 (length l)) l.
Definition on_mesh {A} (f : nat -> nat -> panel -> A) (m : list (list panel)) : list A :=
  concat (map (fun row => map (fun p => f (fst row) (fst p) (snd p)) (numbered (snd row))) (numbered m)).
Definition wings_of (airplanes : list airplane) : list wing := concat (map a_wings airplanes).
Definition panels_of (airplanes : list airplane) : list panel := concat (map (fun w => concat (w_panels w)) (wings_of airplanes)).

(** The horseshoe vortex of a panel: along the quarter-chord line and twenty spans down the flow. *)
Definition horseshoe_path (d : vec) (w : wing) (p : panel) : path :=
  let far v := vadd v (vscale (20 * w_span w) d) in
  open_path (far (p_front_right_vortex_vertex p)) (p_front_right_vortex_vertex p) (p_front_left_vortex_vertex p) (far (p_front_left_vortex_vertex p)).
Definition horseshoe_paths (op : operating_point) (airplanes : list airplane) : list path :=
  concat (map (fun w => map (horseshoe_path (freestream_direction op) w) (concat (w_panels w))) (wings_of airplanes)).

(** The ring vortex of a panel: from its quarter-chord line to that of the panel behind it, or,
    on the trailing edge, one panel further and shifted by [shift]. *)
Definition behind (m : list (list panel)) (c j : nat) : option panel :=
  match nth_error m (S c) with Some row => nth_error row j | None => None end.
Definition back_ends (shift : vec) (m : list (list panel)) (c j : nat) (p : panel) : vec * vec :=
  match behind m c j with
  | Some q => (p_front_left_vortex_vertex q, p_front_right_vortex_vertex q)
  | None => (vadd (vadd (p_front_left_vortex_vertex p) (vsub (p_back_left p) (p_front_left p))) shift,
             vadd (vadd (p_front_right_vortex_vertex p) (vsub (p_back_right p) (p_front_right p))) shift)
  end.
Definition ring_path (shift : vec) (m : list (list panel)) (c j : nat) (p : panel) : path :=
  let (bl, br) := back_ends shift m c j p in closed_path br (p_front_right_vortex_vertex p) (p_front_left_vortex_vertex p) bl.
(** In steady flow the trailing edge also sheds horseshoe vortices. *)
Definition steady_ring_path (d : vec) (w : wing) (c j : nat) (p : panel) : path :=
  let (bl, br) := back_ends vzero (w_panels w) c j p in
  let far v := vadd v (vscale (20 * w_span w) d) in
  ring_path vzero (w_panels w) c j p ++ (match behind (w_panels w) c j with Some _ => [] | None => open_path (far br) br bl (far bl) end).
Definition steady_ring_paths (op : operating_point) (airplanes : list airplane) : list path :=
  concat (map (fun w => on_mesh (steady_ring_path (freestream_direction op) w) (w_panels w)) (wings_of airplanes)).
(** In unsteady flow the rings of the trailing edge reach a quarter of a time step into the flow. *)
Definition unsteady_ring_paths (dt : R) (sp : steady_problem) : list path :=
  concat (map (fun w => on_mesh (ring_path (vscale (dt / 4) (freestream_velocity (sp_operating_point sp))) (w_panels w)) (w_panels w)) (step_wings sp)).
