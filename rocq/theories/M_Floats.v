(** The four places where the code turns measured times into whole numbers, modelled
    with double-precision rounding.  Elsewhere the model takes Python's floats to be
    real numbers; here every multiplication, division and subtraction is followed by
    IEEE 754 rounding, to nearest with ties to even.  Overflow, infinities and NaN are
    left out: the theorems' bounds keep the results far below the largest double. *)
From Flocq Require Import Core.
From Verif Require Export M_Output.
Local Open Scope R_scope.

(** IEEE 754 binary64 with gradual underflow: Python's [float]. *)
Definition double_exp : Z -> Z := FLT_exp (-1074) 53.
(** Python's [float]: the numbers that a double holds, the exponent's upper limit left out. *)
Definition double (x : R) : Prop := generic_format radix2 double_exp x.
(** Python's [float]: the double that an arithmetic operation gives for the exact result [x]. *)
Definition rounded (x : R) : R := round radix2 double_exp ZnearestE x.
(** Python's [x * y], [x / y] and [x - y] on floats.  An [int] among the arguments is
    turned into a float first, which the theorems' bounds make exact. *)
Definition fmul (x y : R) : R := rounded (x * y).
(** Python's [x / y] *)
Definition fdiv (x y : R) : R := rounded (x / y).
(** Python's [x - y] *)
Definition fsub (x y : R) : R := rounded (x - y).

(** movement.py:189 [math.ceil(self.num_cycles * max_period / delta_time)] *)
Definition float_cycle_steps (num_cycles max_period delta_time : R) : Z :=
  py_ceil (fdiv (fmul num_cycles max_period) delta_time).
(** movement.py:174-179 [wake_length], [panel_length] and
    [math.ceil(wake_length / panel_length)] *)
Definition float_chord_steps (num_chords max_c_ref delta_time velocity : R) : Z :=
  let wake_length := fmul num_chords max_c_ref in
  let panel_length := fmul delta_time velocity in
  py_ceil (fdiv wake_length panel_length).
(** problems.py:82-87 [first_averaging_step] *)
Definition float_averaging_step (num_steps : Z) (delta_time max_period : R) : Z :=
  if Reqb max_period 0 then (num_steps - 1)%Z
  else Z.max 0 (py_floor (fsub (IZR num_steps) (fdiv max_period delta_time))).
(** output.py:339-343 [requested_fps], [speed] and [actual_fps] *)
Definition float_frame_rate (delta_time : R) : R * Z :=
  let requested_fps := fdiv 1 delta_time in
  let speed := if Rltb 50 requested_fps then fdiv 50 requested_fps else 1 in
  (speed, py_floor (fmul requested_fps speed)).
