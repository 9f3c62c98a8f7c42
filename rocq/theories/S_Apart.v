(** Two groups of airplanes that get farther and farther apart. *)
From Coq Require Export List Reals.
From Verif Require Export M_Loads S_Continuous.
Import ListNotations.
Local Open Scope R_scope.

(** The shifts grow without bound. *)
Definition receding (ts : nat -> vec) : Prop := forall d, exists N, forall n, (N <= n)%nat -> d < vnorm (ts n).
(** The same airplane shifted by [t], with its reference point. *)
Definition shifted_panel (t : vec) (p p' : panel) : Prop :=
  p_front_left p' = vadd (p_front_left p) t /\ p_front_right p' = vadd (p_front_right p) t /\
  p_back_left p' = vadd (p_back_left p) t /\ p_back_right p' = vadd (p_back_right p) t.
Definition shifted_airplane (t : vec) (a a' : airplane) : Prop :=
  a_s_ref a' = a_s_ref a /\ a_c_ref a' = a_c_ref a /\ a_b_ref a' = a_b_ref a /\ a_xyz_ref a' = vadd (a_xyz_ref a) t /\
  Forall2 (fun w w' => w_span w' = w_span w /\ Forall2 (Forall2 (shifted_panel t)) (w_panels w) (w_panels w')) (a_wings a) (a_wings a').
(** Loads, coefficients and strengths come closer to those of [a]. *)
Definition approaching_results (pressure : R) (strength : panel -> option R) (u : nat -> airplane) (a : airplane) : Prop :=
  approaching_totals pressure u a /\
  each (fun v p => approaching_loads pressure v p /\ present tends (fun n => strength (v n)) (strength p))
       (fun n => airplane_panels (u n)) (airplane_panels a).
(** From number [N] on, [u] has an entry for each entry of [l], and the entries come closer. *)
Definition each_from {A} (N : nat) (T : (nat -> A) -> A -> Prop) (u : nat -> list A) (l : list A) : Prop :=
  (forall n, (N <= n)%nat -> length (u n) = length l) /\
  forall i a, nth_error l i = Some a -> exists x, (forall n, (N <= n)%nat -> nth_error (u n) i = Some (x n)) /\ T x a.
