(** Wings that only graze the stream: when it does not cross a panel, and what it means
    that a wing leaves the stream alone and carries no loads. *)
From Coq Require Import List ZArith Reals.
From Verif Require Import M_Unsteady S_Loads S_Unsteady S_UnsteadyRun.
Import ListNotations.
Local Open Scope R_scope.

(** The stream does not cross the panel. *)
Definition grazes (op : operating_point) (p : panel) : Prop := vdot (freestream_velocity op) (p_unit_normal p) = 0.
(** In an unsteady problem, in the steps before [n]: nor does the stream as the moving panel
    meets it.  [p] and [q] are the same panel in two successive steps: in a time step the air
    goes on by the freestream velocity times the time step and the panel from [p] to [q]. *)
Definition grazes_all_along (up : unsteady_problem) (n : nat) : Prop :=
  forall k sp i q, (k < n)%nat -> nth_error (up_steady_problems up) k = Some sp -> nth_error (step_panels sp) i = Some q ->
  match k with
  | O => grazes (sp_operating_point sp) q
  | S k' => forall sp' p, nth_error (up_steady_problems up) k' = Some sp' -> nth_error (step_panels sp') i = Some p ->
      vdot (vsub (vscale (up_delta_time up) (freestream_velocity (sp_operating_point sp)))
                 (vsub (p_collocation_point q) (p_collocation_point p))) (p_unit_normal q) = 0
  end.

(** No load on a panel or an airplane.  The coefficients are numbers only if what they are
    divided by is not zero. *)
Definition unloaded_panel (op : operating_point) (p : panel) : Prop :=
  p_force_geometry p = Some vzero /\ p_moment_geometry p = Some vzero /\ p_force_wind p = Some vzero /\ p_moment_wind p = Some vzero /\
  (dynamic_pressure op <> 0 -> p_area p <> 0 ->
   p_induced_drag_coefficient p = Some 0 /\ p_side_force_coefficient p = Some 0 /\ p_lift_coefficient p = Some 0).
Definition unloaded (op : operating_point) (a : airplane) : Prop :=
  (forall p, In p (airplane_panels a) -> unloaded_panel op p) /\
  a_force_wind a = Some vzero /\ a_moment_wind a = Some vzero /\
  (dynamic_pressure op <> 0 -> a_s_ref a <> 0 -> a_force_coefficients a = Some vzero) /\
  (dynamic_pressure op <> 0 -> a_s_ref a <> 0 -> a_b_ref a <> 0 -> a_c_ref a <> 0 -> a_moment_coefficients a = Some vzero).

(** The velocity is [v] everywhere. *)
Definition uniform (velocity : list vec -> list vec) (v : vec) : Prop :=
  forall points, velocity points = map (fun _ => v) points.
(** Streamlines that go straight on: after [k] steps of 0.02 s every point has moved by 0.02 [k v]. *)
Definition straight_on (v : vec) (seeds : list vec) (lines : list (list vec)) : Prop :=
  lines = map (fun k => map (fun x => vadd x (vscale (INR k * (2 / 100)) v)) seeds) (seq 0 26).
(** Everything the coefficients are divided by is not zero. *)
Definition measured (up : unsteady_problem) : Prop :=
  forall sp a, In sp (up_steady_problems up) -> In a (sp_airplanes sp) ->
  dynamic_pressure (sp_operating_point sp) <> 0 /\ a_s_ref a <> 0 /\ a_b_ref a <> 0 /\ a_c_ref a <> 0.
