(** Functions of functions.py on whole arrays (C01, C57).  [slice] and [entries] are in
    S_Arrays. *)
From Verif Require Import M_Arrays S_Arrays L_Arrays.
Local Open Scope R_scope.

(** Given an array of angles, slice n of the rotation matrices is the matrix of angle n,
    and there are no further slices. *)
Theorem C01_rotation_of_arrays : forall angles axis normalized n,
  slice (rotation_matrices angles axis normalized) n =
  option_map (fun angle => entries (angle_axis_rotation_matrix angle axis normalized)) (nth_error angles n).
Proof. exact slices. Qed.
Print Assumptions C01_rotation_of_arrays.

(** The loop behind the unsteady solver's cross products gives the cross product of each
    row of the first array with the same row of the second. *)
Theorem C57_explicit_cross : forall a b, (length a <= length b)%nat ->
  exists c, explicit_cross a b = Ok c /\ length c = length a /\
    (forall i u v, nth_error a i = Some u -> nth_error b i = Some v -> nth_error c i = Some (vcross u v)).
Proof. exact cross_entries. Qed.
Print Assumptions C57_explicit_cross.

(** If the second array is shorter, it is read beyond its end. *)
Theorem C57_explicit_cross_short : forall a b, (length b < length a)%nat -> explicit_cross a b = Err EIndexError.
Proof. exact cross_too_short. Qed.
Print Assumptions C57_explicit_cross_short.

Example C57_explicit_cross_met :
  (length [mkvec 1 2 3; mkvec 0 1 0] <= length [mkvec 0 0 1; mkvec 1 0 0])%nat /\ (length [mkvec 0 0 1] < length [mkvec 1 2 3; mkvec 0 1 0])%nat.
Proof. cbn. split; apply le_n. Qed.
