(** Slices of an array of numbers, and matrices as arrays. *)
From Verif Require Export M_Arrays.
Local Open Scope R_scope.

(** A[:, :, n], unless one of the rows ends before n. *)
Definition slice (A : list (list (list R))) (n : nat) : option (list (list R)) :=
  match A with
  | [[a; b; c]; [d; e; f]; [g; h; i]] =>
      match map (fun l => nth_error l n) [a; b; c; d; e; f; g; h; i] with
      | [Some a; Some b; Some c; Some d; Some e; Some f; Some g; Some h; Some i] => Some [[a; b; c]; [d; e; f]; [g; h; i]]
      | _ => None
      end
  | _ => None
  end.
Definition components (v : vec) : list R := [vx v; vy v; vz v].
Definition entries (M : mat) : list (list R) := [components (r0 M); components (r1 M); components (r2 M)].
