(** Movements whose arguments come closer and closer to given ones. *)
From Coq Require Import List ZArith Reals.
From Verif Require Import M_Movement S_Continuous S_ContinuousShape.
Import ListNotations.
Local Open Scope R_scope.

(** The amplitude and the period come closer and the spacing stays; what has no period does not get one. *)
Definition approaching_oscillation (u : nat -> oscillation) (o : oscillation) : Prop :=
  tends (fun n => osc_amplitude (u n)) (osc_amplitude o) /\ tends (fun n => osc_period (u n)) (osc_period o) /\
  forall n, (osc_period o = 0 -> osc_period (u n) = 0) /\ osc_spacing (u n) = osc_spacing o.
Section Times.
(** The time steps and the one they come closer to. *)
Variable dts : nat -> R.
Variable dt : R.
(** Custom functions are continuous, unless they are evaluated at the same times. *)
Definition custom_fine (u : nat -> oscillation) (o : oscillation) (f : option (R -> R)) : Prop :=
  forall g, f = Some g -> continuity g \/ forall n, dts n = dt /\ osc_period (u n) = osc_period o.
Definition approaching_section_movement (u : nat -> section_movement) (m : section_movement) : Prop :=
  approaching_section (fun n => sm_base (u n)) (sm_base m) /\
  approaching_oscillation (fun n => sm_sweeping (u n)) (sm_sweeping m) /\
  approaching_oscillation (fun n => sm_pitching (u n)) (sm_pitching m) /\
  approaching_oscillation (fun n => sm_heaving (u n)) (sm_heaving m) /\
  custom_fine (fun n => sm_sweeping (u n)) (sm_sweeping m) (sm_custom_sweep m) /\
  custom_fine (fun n => sm_pitching (u n)) (sm_pitching m) (sm_custom_pitch m) /\
  custom_fine (fun n => sm_heaving (u n)) (sm_heaving m) (sm_custom_heave m) /\
  forall n, sm_custom_sweep (u n) = sm_custom_sweep m /\ sm_custom_pitch (u n) = sm_custom_pitch m /\ sm_custom_heave (u n) = sm_custom_heave m.
(** Root sections neither sweep nor heave: the code raises otherwise. *)
Definition approaching_wing_movement (u : nat -> wing_movement) (m : wing_movement) : Prop :=
  vtends (fun n => w_leading_edge (wm_base (u n))) (w_leading_edge (wm_base m)) /\
  each approaching_section_movement (fun n => wm_sections (u n)) (wm_sections m) /\
  (forall n root, nth_error (wm_sections (u n)) 0 = Some root -> osc_amplitude (sm_sweeping root) = 0 /\ osc_amplitude (sm_heaving root) = 0) /\
  approaching_oscillation (fun n => wm_x_le (u n)) (wm_x_le m) /\ approaching_oscillation (fun n => wm_y_le (u n)) (wm_y_le m) /\
  approaching_oscillation (fun n => wm_z_le (u n)) (wm_z_le m) /\
  forall n, w_name (wm_base (u n)) = w_name (wm_base m) /\ w_symmetric (wm_base (u n)) = w_symmetric (wm_base m) /\
    w_num_chordwise_panels (wm_base (u n)) = w_num_chordwise_panels (wm_base m) /\ w_chordwise_spacing (wm_base (u n)) = w_chordwise_spacing (wm_base m).
Definition approaching_airplane_movement (u : nat -> airplane_movement) (m : airplane_movement) : Prop :=
  vtends (fun n => a_xyz_ref (am_base (u n))) (a_xyz_ref (am_base m)) /\ (forall n, a_name (am_base (u n)) = a_name (am_base m)) /\
  each approaching_wing_movement (fun n => am_wings (u n)) (am_wings m) /\
  approaching_oscillation (fun n => am_x_ref (u n)) (am_x_ref m) /\ approaching_oscillation (fun n => am_y_ref (u n)) (am_y_ref m) /\
  approaching_oscillation (fun n => am_z_ref (u n)) (am_z_ref m).
End Times.
Definition approaching_op_movement (u : nat -> op_movement) (m : op_movement) : Prop :=
  approaching_op (fun n => om_base (u n)) (om_base m) /\ approaching_oscillation (fun n => om_velocity (u n)) (om_velocity m).

(** No section is, in the base wing, at the same y as the section inboard of it is at first: where it is, the code takes the wing to be
    vertical and does not move the section. *)
Definition nowhere_vertical (m : wing_movement) (first : wing) : Prop :=
  forall i inboard outboard, nth_error (w_sections first) i = Some inboard -> nth_error (wm_sections m) (S i) = Some outboard ->
    cs_y_le (sm_base outboard) <> cs_y_le inboard.
(** The same for the wings of all airplanes, with [airplanes] one list of snapshots per airplane movement. *)
Definition no_vertical_wings (ams : list airplane_movement) (airplanes : list (list airplane)) : Prop :=
  forall i j am history a wm w, nth_error ams i = Some am -> nth_error airplanes i = Some history -> nth_error history 0 = Some a ->
    nth_error (am_wings am) j = Some wm -> nth_error (a_wings a) j = Some w -> nowhere_vertical wm w.
(** The main wings of the snapshots have an area; the mean chord is divided by it. *)
Definition main_wings_wide (airplanes : list (list airplane)) : Prop :=
  forall history a main, In history airplanes -> In a history -> nth_error (a_wings a) 0 = Some main -> w_projected_area main <> 0.
(** The number of time steps and the averaging window are computed by rounding from periods and time steps, and are the same, but for
    finitely many exceptions.  Where neither the number of steps nor a period is given, the number of steps depends on the chords. *)
Definition same_clock (AMS : nat -> list airplane_movement) (ams : list airplane_movement) (OM : nat -> op_movement) (om : op_movement)
    (num_steps : option Z) (num_cycles : option R) (dts : nat -> R) (dt : R) (steps : Z) : Prop :=
  exists N, forall n p, (N <= n)%nat -> max_period ams om = Ok p -> exists q, max_period (AMS n) (OM n) = Ok q /\ (q = 0 <-> p = 0) /\
    first_averaging_step steps (dts n) q = first_averaging_step steps dt p /\
    (num_steps = None -> p <> 0 /\ py_ceil (match num_cycles with Some k => k | None => 3 end * q / dts n) = steps).
(** This is so where neither the longest period nor the cycles wanted are a whole number of time steps. *)
Definition whole (x : R) : Prop := exists k : Z, x = IZR k.
Definition between_steps (ams : list airplane_movement) (om : op_movement) (num_steps : option Z) (num_cycles : option R) (dt : R) : Prop :=
  exists p, max_period ams om = Ok p /\ p <> 0 /\ ~ whole (p / dt) /\
    (num_steps = None -> ~ whole (match num_cycles with Some k => k | None => 3 end * p / dt)).
