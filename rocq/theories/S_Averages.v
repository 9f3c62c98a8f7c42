(** What final averages tell about the time steps they are taken over. *)
From Verif Require Import M_Unsteady S_UnsteadyRun.

(** [v] is the load of airplane number [i] at step [k], which is one of those averaged. *)
Definition averaged (up : unsteady_problem) (s : unsteady_solver) (i : nat) (load : airplane -> option vec) (k : nat) (v : vec) : Prop :=
  (up_first_averaging_step up <= Z.of_nat k)%Z /\ exists sp a, step_at s k sp /\ nth_error (sp_airplanes sp) i = Some a /\ load a = Some v.
(** At all these steps the airplane has the dynamic pressure and the reference dimensions given. *)
Definition same_scales (up : unsteady_problem) (s : unsteady_solver) (i : nat) (q area span chord : R) : Prop :=
  forall k sp a, (up_first_averaging_step up <= Z.of_nat k)%Z -> step_at s k sp -> nth_error (sp_airplanes sp) i = Some a ->
    op_density (sp_operating_point sp) * (op_velocity (sp_operating_point sp) * op_velocity (sp_operating_point sp)) / 2 = q /\
    a_s_ref a = area /\ a_b_ref a = span /\ a_c_ref a = chord.
