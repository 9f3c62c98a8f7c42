(** Specification vocabulary for the unsteady solver: steps, wings and their wakes. *)
From Verif Require Import M_Unsteady S_Loads.

(** All wings of a step, airplane after airplane. *)
Definition step_wings (sp : steady_problem) : list wing := concat (map a_wings (sp_airplanes sp)).
Definition step_panels (sp : steady_problem) : list panel := all_panels (sp_airplanes sp).

(** The last row of a wing's panels and what its ring vortices look like. *)
Definition trailing_panels (w : wing) : list panel := last (w_panels w) [].
Definition strength_of (p : panel) : R := match p_ring_vortex p with Some r => rv_strength r | None => 0 end.
Definition back_left_of (p : panel) : vec := match p_ring_vortex p with Some r => rv_back_left r | None => vzero end.
Definition back_right_of (p : panel) : vec := match p_ring_vortex p with Some r => rv_back_right r | None => vzero end.
Definition trailing_strengths (w : wing) : list R := map strength_of (trailing_panels w).
(** The back vertices of the trailing edge rings from left to right. *)
Definition trailing_vertices (w : wing) : list vec :=
  map back_left_of (trailing_panels w) ++ [last (map back_right_of (trailing_panels w)) vzero].

(** A ring vortex object of a given age. *)
Definition aged_ring (age : R) (fl fr bl br : vec) (strength : R) : ring_vortex :=
  ring_set_age age (new_ring fl fr bl br strength).
(** The rings between two rows of vertices. *)
Fixpoint rings_between (age : R) (front back : list vec) (strengths : list R) : list ring_vortex :=
  match front, back, strengths with
  | fl :: ((fr :: _) as front'), bl :: ((br :: _) as back'), g :: strengths' =>
      aged_ring age fl fr bl br g :: rings_between age front' back' strengths'
  | _, _, _ => []
  end.
(** The rings of a grid of vertices whose row number [c], [c + 1], ... has the age
    [c dt], [(c + 1) dt], ... *)
Fixpoint rings_from (dt : R) (c : nat) (vertices : list (list vec)) (strengths : list (list R)) : list (list ring_vortex) :=
  match vertices, strengths with
  | front :: vertices', g :: strengths' =>
      match vertices' with
      | back :: _ => rings_between (INR c * dt) front back g :: rings_from dt (S c) vertices' strengths'
      | [] => []
      end
  | _, _ => []
  end.
(** A grid with [rows] rows of [columns] entries. *)
Definition grid {A} (rows columns : nat) (m : list (list A)) : Prop :=
  length m = rows /\ Forall (fun row => length row = columns) m.
(** The objects a grid of references stands for. *)
Definition holds (heap : list ring_vortex) (ids : list (list nat)) (rings : list (list ring_vortex)) : Prop :=
  Forall2 (Forall2 (fun id r => nth_error heap id = Some r)) ids rings.
(** The numbers of chordwise and spanwise panels of every wing of every airplane. *)
Definition layout (airplanes : list airplane) : list (list (nat * nat)) :=
  map (fun a => map (fun w => (w_num_chordwise_panels w, w_num_spanwise_panels w)) (a_wings a)) airplanes.
(** A meshed wing whose panels carry ring vortices. *)
Definition ringed_wing (w : wing) : Prop :=
  well_meshed (w_panels w) /\ (1 <= w_num_chordwise_panels w)%nat /\
  grid (w_num_chordwise_panels w) (w_num_spanwise_panels w) (w_panels w) /\
  forall p, In p (concat (w_panels w)) -> exists r, p_ring_vortex p = Some r.

(** ** What a run keeps *)
(** The same ring vortex or the same with another strength. *)
Definition solved_ring (o o' : option ring_vortex) : Prop :=
  o' = o \/ exists g, o' = option_map (ring_update_strength g) o.
(** The same panel up to loads and the strength of its ring vortex. *)
Definition solved_panel (p q : panel) : Prop :=
  same_panel p q /\ solved_ring (p_ring_vortex p) (p_ring_vortex q).
(** The same wing up to its wake and such panels. *)
Definition solved_wing (w v : wing) : Prop :=
  v = w_set_wake (w_wake_vertices v) (w_wake_rings v) (w_set_panels (w_panels v) w) /\
  Forall2 (Forall2 solved_panel) (w_panels w) (w_panels v).
Definition solved_airplane (a b : airplane) : Prop :=
  Forall2 solved_wing (a_wings a) (a_wings b) /\
  a_name b = a_name a /\ a_xyz_ref b = a_xyz_ref a /\ a_weight b = a_weight a /\
  a_s_ref b = a_s_ref a /\ a_c_ref b = a_c_ref a /\ a_b_ref b = a_b_ref a /\
  a_num_panels b = a_num_panels a.
Definition solved_step (sp sp' : steady_problem) : Prop :=
  sp_operating_point sp' = sp_operating_point sp /\ Forall2 solved_airplane (sp_airplanes sp) (sp_airplanes sp').

(** ** The wake of a step *)
Definition wings_at (steps : list steady_problem) (k : nat) : list wing :=
  match nth_error steps k with Some sp => step_wings sp | None => [] end.
(** For every wing, the rows of strengths shed before step [k], newest first. *)
Fixpoint shed (steps : list steady_problem) (k : nat) : list (list (list R)) :=
  match k with
  | O => map (fun _ => []) (wings_at steps 0)
  | S k => map2 cons (map trailing_strengths (wings_at steps k)) (shed steps k)
  end.
(** The wake of step [k]: for every wing, the rows of its ring vortices. *)
Definition wake_grids (dt : R) (steps : list steady_problem) (k : nat) : list (list (list ring_vortex)) :=
  map2 (fun w G => rings_from dt 0 (w_wake_vertices w) G) (wings_at steps k) (shed steps k).
(** The arrays a solver records for a list of ring vortices. *)
Definition record_of (rings : list ring_vortex) : wake_arrays :=
  mkwake (map rv_strength rings) (map rv_age rings) (map rv_front_right rings) (map rv_front_left rings)
         (map rv_back_left rings) (map rv_back_right rings).
Definition wake_record (dt : R) (steps : list steady_problem) (k : nat) : wake_arrays :=
  record_of (concat (map (@concat ring_vortex) (wake_grids dt steps k))).
