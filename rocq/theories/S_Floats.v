(** Specifications for whole numbers computed in double precision. *)
From Verif Require Export M_Floats S_Movement.
Local Open Scope R_scope.

(** far above [2 ^ -1022], below which doubles lose digits *)
Definition tiny : R := / 2 ^ 1000.
(** far more time steps than any run has *)
Definition huge : R := 2 ^ 49.
(** so far from both ends that neither underflow nor the number of digits matters *)
Definition countable (x : R) : Prop := tiny <= x <= huge.
(** [k] and [n] are the same or next to each other *)
Definition within_one (k n : Z) : Prop := (n - 1 <= k <= n + 1)%Z.
(** [x] is within one part in [2 ^ 51] of a whole number *)
Definition almost_whole (x : R) : Prop := exists k : Z, Rabs (x - IZR k) <= x / 2 ^ 51.
(** the double that Python reads for 0.1, over [2 ^ 55] *)
Definition double_0_1 : R := 3602879701896397 / 36028797018963968.
(** the double that Python reads for 0.0105, over [2 ^ 59] *)
Definition double_0_0105 : R := 6052837899185947 / 576460752303423488.
