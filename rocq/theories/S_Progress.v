(** What the progress bar of an unsteady run should count. *)
From Verif Require Export M_Progress S_Unsteady S_Convergence.
Local Open Scope R_scope.

(** The ring vortices that act during a step: those of the panels and those of the wake. *)
Definition vortices (k : nat) (sp : steady_problem) : nat :=
  (list_sum (map a_num_panels (sp_airplanes sp)) + k * list_sum (map w_num_spanwise_panels (step_wings sp)))%nat.
(** How long a step takes, relative to the others. *)
Definition cost (k : nat) (sp : steady_problem) : Z :=
  (match k with O => 0 | 1%nat => 70 | 2%nat => 30 | _ => 3 end * Z.of_nat (vortices k sp))%Z.
(** Where the bar stands once it was advanced [k] times. *)
Definition standing (b : progress) (k : nat) : Z := zsum (firstn k (pg_updates b)).
