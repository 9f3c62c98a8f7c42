(** How an airfoil's name is read. *)
From Coq Require Import List Ascii String.
Import ListNotations.

Definition capitals : list ascii := list_ascii_of_string "ABCDEFGHIJKLMNOPQRSTUVWXYZ".
Definition small_letters : list ascii := list_ascii_of_string "abcdefghijklmnopqrstuvwxyz".
(** [c'] is [c] in lower case. *)
Definition lower_case (c c' : ascii) : Prop :=
  (exists i, nth_error capitals i = Some c /\ nth_error small_letters i = Some c') \/ (~ In c capitals /\ c' = c).
(** Tab, line feed, vertical tab, form feed, carriage return, the four separators and the space. *)
Definition blank (c : ascii) : Prop := In c (map ascii_of_nat [9; 10; 11; 12; 13; 28; 29; 30; 31; 32]).
(** [text] is [name] in lower case and without the blanks around it. *)
Definition plain_name (name : string) (text : list ascii) : Prop :=
  exists before middle after,
    list_ascii_of_string name = before ++ middle ++ after /\ Forall blank before /\ Forall blank after /\
    (forall c, nth_error middle 0 = Some c -> ~ blank c) /\
    (forall c, nth_error (rev middle) 0 = Some c -> ~ blank c) /\ Forall2 lower_case middle text.
