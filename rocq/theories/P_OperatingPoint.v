(** Property theorem C02 (pterasoftware/operating_point.py). *)
From Coq Require Import Lra.
From Verif Require Import M_OperatingPoint S_Geometry L_Base L_Rotations.

Theorem C02_rotation_is_proper : forall op, proper_rotation (rotation_wind_to_geometry op).
Proof. exact w2g_proper. Qed.
Print Assumptions C02_rotation_is_proper.

Theorem C02_transpose_is_inverse : forall op v,
  mvmul (rotation_wind_to_geometry op) (mvmul (mtrans (rotation_wind_to_geometry op)) v) = v /\
  mvmul (mtrans (rotation_wind_to_geometry op)) (mvmul (rotation_wind_to_geometry op) v) = v.
Proof. exact geometry_wind_roundtrip. Qed.
Print Assumptions C02_transpose_is_inverse.

Theorem C02_freestream_direction : forall op,
  let a := op_alpha op * PI / 180 in let b := op_beta op * PI / 180 in
  freestream_direction op = mkvec (cos a * cos b) (- sin b) (sin a * cos b).
Proof. exact freestream_direction_degrees. Qed.
Print Assumptions C02_freestream_direction.

Theorem C02_freestream_direction_unit : forall op, vnorm (freestream_direction op) = 1.
Proof. exact freestream_direction_unit. Qed.
Print Assumptions C02_freestream_direction_unit.

Theorem C02_freestream_speed : forall op, vnorm (freestream_velocity op) = Rabs (op_velocity op).
Proof. exact freestream_speed. Qed.
Print Assumptions C02_freestream_speed.

(** In wind axes the air always comes from straight ahead. *)
Theorem C02_freestream_in_wind_axes : forall op,
  mvmul (mtrans (rotation_wind_to_geometry op)) (freestream_velocity op) = mkvec (- op_velocity op) 0 0.
Proof. exact freestream_in_wind_axes. Qed.
Print Assumptions C02_freestream_in_wind_axes.

Theorem C02_dynamic_pressure : forall op,
  dynamic_pressure op = op_density op * (op_velocity op * op_velocity op) / 2.
Proof. exact dynamic_pressure_explicit. Qed.
Print Assumptions C02_dynamic_pressure.

(** An operating point made without arguments: air at sea level comes at 10 m/s from 5 degrees below. *)
Theorem C02_default_flow : freestream_velocity default_operating_point = mkvec (10 * cos (5 * PI / 180)) 0 (10 * sin (5 * PI / 180)) /\
  dynamic_pressure default_operating_point = 6125 / 100.
Proof. exact default_flow. Qed.
Print Assumptions C02_default_flow.

(** The theorems have no hypotheses; a concrete value of the direction. *)
Example C02_zero_angles : freestream_direction (mkop 1 10 0 0 0 0) = mkvec 1 0 0.
Proof. exact freestream_zero_angles. Qed.
