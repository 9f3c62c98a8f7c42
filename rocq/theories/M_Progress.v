(** The progress bar of the unsteady solver: what is handed to tqdm, not how it is shown. *)
From Verif Require Export M_Unsteady M_Convergence M_Functions.
Local Open Scope R_scope.

(** unsteady_ring_vortex_lattice_method.py:291-296 *)
Definition step_weight (step : nat) : Z := if Nat.eqb step 1 then 70 else if Nat.eqb step 2 then 30 else 3.
(** unsteady_ring_vortex_lattice_method.py:274-296, the loop's body.  The floats are whole
    numbers, kept exactly as long as they are below 2^53; here they are integers. *)
Definition estimate_step (up : unsteady_problem) (num_wake : list nat) (times : list Z) (step : nat) : result (list Z) :=
  let* sp := index (up_steady_problems up) step in
  let* wake := index num_wake step in
  let num_ring_vortices := (num_panels_of (sp_airplanes sp) + wake)%nat in
  Ok (set_at step (Z.of_nat num_ring_vortices * step_weight step)%Z times).
(** The sum of an array of whole numbers (np.sum). *)
Definition zsum (l : list Z) : Z := fold_left Z.add l 0%Z.
(** unsteady_ring_vortex_lattice_method.py:273-300 *)
Definition approx_times (up : unsteady_problem) (num_wake : list nat) : result (list Z) :=
  let n := Z.to_nat (up_num_steps up) in
  let* times := foldM (estimate_step up num_wake) (repeat 0%Z (n + 1)) (seq 1 (n - 1)) in
  Ok (set_at 0 (py_round (IZR (zsum times) / 100)) times).
(** unsteady_ring_vortex_lattice_method.py:304-314, 321 and 468: the bar's total, whether
    it is shown, and the amounts it is advanced by, in order. *)
Record progress : Type := mkprogress { pg_total : Z; pg_shown : bool; pg_updates : list Z }.
(** unsteady_ring_vortex_lattice_method.py:203-205, 273-321 and 468 *)
Definition progress_bar (logging_level : string) (up : unsteady_problem) (num_wake : list nat) : result progress :=
  let* level := convert_logging_level_name_to_value logging_level in
  let* times := approx_times up num_wake in
  let* first := index times 0 in
  let* rest := mapM (fun step => index times (S step)) (seq 0 (Z.to_nat (up_num_steps up))) in
  Ok (mkprogress (zsum times) (level =? 30)%Z (first :: rest)).
