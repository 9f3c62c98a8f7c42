(** What it means that a movement repeats itself. *)
From Coq Require Import String.
From Verif Require Import M_Movement.
Import ListNotations.
Local Open Scope R_scope.

(** Everything that moves, each with its custom function. *)
Definition section_oscillations (m : section_movement) : list (oscillation * option (R -> R)) :=
  [(sm_sweeping m, sm_custom_sweep m); (sm_pitching m, sm_custom_pitch m); (sm_heaving m, sm_custom_heave m)].
Definition wing_oscillations (m : wing_movement) : list (oscillation * option (R -> R)) :=
  [(wm_x_le m, None); (wm_y_le m, None); (wm_z_le m, None)] ++ concat (map section_oscillations (wm_sections m)).
Definition airplane_oscillations (m : airplane_movement) : list (oscillation * option (R -> R)) :=
  [(am_x_ref m, None); (am_y_ref m, None); (am_z_ref m, None)] ++ concat (map wing_oscillations (am_wings m)).
Definition all_oscillations (ams : list airplane_movement) (om : op_movement) : list (oscillation * option (R -> R)) :=
  (om_velocity om, None) :: concat (map airplane_oscillations ams).
(** [k] time steps are a whole number of the oscillation's periods, or it does not oscillate.  A custom function has
    the period 2 pi. *)
Definition comes_back (k : nat) (dt : R) (o : oscillation * option (R -> R)) : Prop :=
  osc_amplitude (fst o) = 0 \/ osc_period (fst o) = 0 \/
  ((exists j, INR k * dt = IZR j * osc_period (fst o)) /\
   (osc_spacing (fst o) = "custom"%string -> forall f, snd o = Some f -> forall x, f (x + 2 * PI) = f x)).
(** Every item is the same as the one [k] places before it. *)
Definition repeats {A} (k : nat) (l : list A) : Prop := forall i x, nth_error l (i + k) = Some x -> nth_error l i = Some x.
