(** How decimal numbers are written, and how a file of coordinates is laid out. *)
From Coq Require Import List Ascii String Reals ZArith.
From Verif Require Import S_Names S_Airfoil.
Import ListNotations.
Local Open Scope R_scope.

(** The digits before the point: each new one multiplies what stands before it by ten. *)
Inductive whole_part : list ascii -> R -> Prop :=
| whole_none : whole_part [] 0
| whole_more t v c d : whole_part t v -> digit c d -> whole_part (t ++ [c]) (10 * v + INR d).
(** The digits after the point. *)
Inductive decimals : list ascii -> R -> Prop :=
| decimals_none : decimals [] 0
| decimals_more t v c d : decimals t v -> digit c d -> decimals (c :: t) ((INR d + v) / 10).
Inductive signed : list ascii -> R -> Prop :=
| no_sign : signed [] 1
| plus_sign : signed ["+"%char] 1
| minus_sign : signed ["-"%char] (-1).
(** Digits, digits with a point after them, before them or among them. *)
Inductive unsigned : list ascii -> R -> Prop :=
| integer t v : t <> [] -> whole_part t v -> unsigned t v
| with_point t v t' v' : t ++ t' <> [] -> whole_part t v -> decimals t' v' -> unsigned (t ++ "."%char :: t') (v + v').
(** A power of ten. *)
Inductive scale : list ascii -> R -> Prop :=
| no_scale : scale [] 1
| ten_to c s n t : c = "e"%char \/ c = "E"%char -> s = [] \/ s = ["+"%char] -> t <> [] -> whole_part t (INR n) -> scale (c :: s ++ t) (10 ^ n)
| tenth_to c n t : c = "e"%char \/ c = "E"%char -> t <> [] -> whole_part t (INR n) -> scale (c :: "-"%char :: t) (/ 10 ^ n).
(** The text is a way to write the number. *)
Definition spelled (text : list ascii) (x : R) : Prop :=
  exists t1 s t2 v t3 p, text = t1 ++ t2 ++ t3 /\ signed t1 s /\ unsigned t2 v /\ scale t3 p /\ x = s * v * p.

(** Tab, line feed, vertical tab, form feed, carriage return and the space. *)
Definition white (c : ascii) : Prop := In c (map ascii_of_nat [9; 10; 11; 12; 13; 32]%nat).
(** The text has ended, or white space comes next. *)
Definition apart (text : list ascii) : Prop := text = [] \/ exists c t, text = c :: t /\ white c.
(** A text of numbers with white space between them, and anywhere around them. *)
Inductive table : list ascii -> list R -> Prop :=
| table_end gap : Forall white gap -> table gap []
| table_more gap t x rest l : Forall white gap -> spelled t x -> apart rest -> table rest l -> table (gap ++ t ++ rest) (x :: l).
(** The text ends in white space, or is empty. *)
Definition closed (text : list ascii) : Prop := text = [] \/ exists t c, text = t ++ [c] /\ white c.
(** The first character of something that is not a number. *)
Definition wordlike (c : ascii) : Prop := ~ white c /\ (forall d, ~ digit c d) /\ ~ In c (list_ascii_of_string "+-.").
(** A file: a line of any text, then [body]. *)
Definition headed (raw header body : list ascii) : Prop :=
  raw = header ++ ascii_of_nat 10 :: body /\ ~ In (ascii_of_nat 10) header.
(** The name is read as the name [text] of a file, not as that of a NACA four-digit airfoil. *)
Definition names_file (name : string) (text : list ascii) : Prop :=
  plain_name name text /\
  forall c1 c2 c3 c4 d1 d2 d3 d4, follows (list_ascii_of_string "naca") text [c1; c2; c3; c4] ->
    ~ (digit c1 d1 /\ digit c2 d2 /\ digit c3 d3 /\ digit c4 d4).
