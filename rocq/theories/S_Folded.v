(** Wings that lie on themselves. *)
From Coq Require Import List Reals.
From Verif Require Import M_Panel.
Import ListNotations.

(** The same quadrangle with its left and right sides exchanged. *)
Definition sides_exchanged (p q : panel) : Prop :=
  p_front_left q = p_front_right p /\ p_front_right q = p_front_left p /\ p_back_left q = p_back_right p /\ p_back_right q = p_back_left p.
(** Columns [j] and [k] of a mesh are in the same place. *)
Definition folded (m : list (list panel)) (j k : nat) : Prop :=
  forall row, In row m -> exists p q, nth_error row j = Some p /\ nth_error row k = Some q /\ sides_exchanged p q.
