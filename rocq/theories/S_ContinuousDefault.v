(** Movements whose time step is computed. *)
From Coq Require Import List ZArith Reals.
From Verif Require Import M_Movement S_Continuous.
Import ListNotations.
Local Open Scope R_scope.

(** The time step computed where none is given: the mean over the airplanes of the time the freestream takes for a chordwise panel of
    the main wing. *)
Definition main_chordwise_panels (am : airplane_movement) : option nat := option_map w_num_chordwise_panels (hd_error (a_wings (am_base am))).
Definition panel_time (v : R) (am : airplane_movement) : R :=
  match main_chordwise_panels am with Some k => a_c_ref (am_base am) / INR k / v | None => 0 end.
Definition default_time_step (ams : list airplane_movement) (om : op_movement) : R :=
  rsum (map (panel_time (op_velocity (om_base om))) ams) / INR (length ams).
Definition approaching_base (u : nat -> airplane_movement) (m : airplane_movement) : Prop :=
  tends (fun n => a_c_ref (am_base (u n))) (a_c_ref (am_base m)) /\ forall n, main_chordwise_panels (u n) = main_chordwise_panels m.
