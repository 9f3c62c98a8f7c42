(** Property theorems C89 (four-digit airfoils that keep their points; pterasoftware/geometry.py). *)
From Coq Require Import List Ascii String Reals Lra Lia.
From Verif Require Import M_Airfoil S_Airfoil S_Names L_Names L_OwnPoints.
Import ListNotations.
Local Open Scope R_scope.
Local Open Scope list_scope.

(** ** C89: airfoils named by four digits, made without repanelling *)
(** Such an airfoil has the published points if the nose, the middle one of them, lies ahead of all
    others.  Else the constructor raises an error. *)
Theorem C89_made : forall pchip database name text c1 c2 c3 c4 d1 d2 d3 d4 n_points_per_side,
  plain_name name text -> follows (list_ascii_of_string "naca") text [c1; c2; c3; c4] ->
  digit c1 d1 -> digit c2 d2 -> digit c3 d3 -> digit c4 d4 ->
  let contour := naca_contour d1 d2 (10 * d3 + d4) 100 in
  (foremost contour 99 (0, 0) -> exists a, new_airfoil pchip database name None false n_points_per_side = Ok a /\ af_coordinates a = contour) /\
  (~ foremost contour 99 (0, 0) -> new_airfoil pchip database name None false n_points_per_side = Err EValueError).
Proof. exact own_points. Qed.
Print Assumptions C89_made.
(** Those without camber can all be made. *)
Theorem C89_uncambered : forall pchip database name text c1 c2 c3 c4 d2 d3 d4 n_points_per_side,
  plain_name name text -> follows (list_ascii_of_string "naca") text [c1; c2; c3; c4] ->
  digit c1 0 -> digit c2 d2 -> digit c3 d3 -> digit c4 d4 ->
  exists a, new_airfoil pchip database name None false n_points_per_side = Ok a /\ af_coordinates a = naca_contour 0 d2 (10 * d3 + d4) 100.
Proof. exact own_uncambered. Qed.
Print Assumptions C89_uncambered.
(** The NACA 2412 has a point ahead of its nose and cannot be made. *)
Theorem C89_cambered_refuted : forall pchip database n_points_per_side,
  populate_coordinates database "naca2412" = Ok (naca_contour 2 4 12 100) /\
  new_airfoil pchip database "naca2412" None false n_points_per_side = Err EValueError.
Proof. exact naca2412_refused. Qed.
Print Assumptions C89_cambered_refuted.

(** With repanelling, the default, its lower side is fitted to a point of the upper side too, and
    its upper side is not fitted to the nose. *)
Theorem C89_repanelled_refuted : exists ahead : R * R,
  nth_error (naca_contour 2 4 12 100) 98 = Some ahead /\ (fst ahead < 0) /\ (nth_error (naca_contour 2 4 12 100) 99 = Some (0, 0)) /\
  forall pchip database n_points_per_side a, (1 <= n_points_per_side)%nat -> new_airfoil pchip database "naca2412" None true n_points_per_side = Ok a ->
  exists upper lower, pchip (rev (firstn 99 (naca_contour 2 4 12 100))) = Ok upper /\
    pchip (ahead :: (0, 0) :: skipn 100 (naca_contour 2 4 12 100)) = Ok lower /\
    forall k x, nth_error (cosspace 0 1 n_points_per_side true) k = Some x ->
      sides n_points_per_side (af_coordinates a) k (x, upper x) (x, if Nat.eqb k 0 then upper x else lower x).
Proof. exact naca2412_repanelled. Qed.
Print Assumptions C89_repanelled_refuted.
Example C89_applies_repanelled : forall database, exists a, new_airfoil (fun _ => Ok (fun _ => 0)) database "naca2412" None true 2 = Ok a.
Proof. exact naca2412_flat. Qed.

Example C89_applies : plain_name " NACA0012" (list_ascii_of_string "naca0012") /\
  follows (list_ascii_of_string "naca") (list_ascii_of_string "naca0012") ["0"; "0"; "1"; "2"]%char /\
  digit "0" 0 /\ digit "1" 1 /\ digit "2" 2.
Proof. exact naca0012_named. Qed.
