(** Property theorems C15 - C17 (airfoils; pterasoftware/geometry.py). *)
From Coq Require Import Lra Lia.
From Verif Require Import M_Airfoil S_Geometry S_Airfoil S_Names L_Base L_Meshing L_Geometry L_Airfoil L_Camber L_Surface L_Names L_Example L_Gaps L_Tighten L_Contour.

(** ** C15  NACA airfoils.  The text considered is what stands, in the lower-case
    name without surrounding blanks, between the first "naca" and the next. *)
Theorem C15_four_digit_names : forall database name text c1 c2 c3 c4 d1 d2 d3 d4,
  plain_name name text -> follows (list_ascii_of_string "naca") text [c1; c2; c3; c4] ->
  digit c1 d1 -> digit c2 d2 -> digit c3 d3 -> digit c4 d4 ->
  populate_coordinates database name = Ok (naca_contour d1 d2 (10 * d3 + d4) 100).
Proof. exact plain_four_digits. Qed.
Print Assumptions C15_four_digit_names.

Theorem C15_other_names : forall database name text,
  plain_name name text ->
  (forall c1 c2 c3 c4 d1 d2 d3 d4,
     follows (list_ascii_of_string "naca") text [c1; c2; c3; c4] -> ~ (digit c1 d1 /\ digit c2 d2 /\ digit c3 d3 /\ digit c4 d4)) ->
  (database text = None -> populate_coordinates database name = Err EAirfoilNotInDatabase) /\
  (forall points, database text = Some (numbers_of points) -> populate_coordinates database name = Ok points) /\
  (forall numbers, database text = Some numbers -> Nat.Odd (length numbers) -> populate_coordinates database name = Err EOddCoordinates).
Proof. exact file_names. Qed.
Print Assumptions C15_other_names.

(** Every name has such a text. *)
Theorem C15_every_name : forall name, exists text, plain_name name text.
Proof. exact plain_exists. Qed.
Print Assumptions C15_every_name.

(** The [k]-th points before and after the middle of the contour are matched:
    they lie on either side of the published camber line at the [k]-th
    cosine-spaced station, each at the published half thickness, along the normal
    of the camber line. *)
Theorem C15_points_around_camber_line : forall d1 d2 d34 n k x,
  (d2 <= 9)%nat -> nth_error (cosspace 0 1 n true) k = Some x ->
  let m := INR d1 / 100 in let t := INR d34 / 100 in let p := if Nat.eqb d2 0 then 1 / 2 else INR d2 / 10 in
  exists u l, nth_error (naca_contour d1 d2 d34 n) (n - 1 - k) = Some u /\
    nth_error (naca_contour d1 d2 d34 n) (n - 1 + k) = Some l /\
    mid2 u l = (x, camber_line m p x) /\ dist2 u (x, camber_line m p x) = half_thickness t x /\
    dist2 l (x, camber_line m p x) = half_thickness t x /\
    (fst u - fst l) * 1 + (snd u - snd l) * camber_slope m p x = 0 /\ snd l <= snd u.
Proof. exact naca_contour_pairs. Qed.
Print Assumptions C15_points_around_camber_line.

Theorem C15_number_of_points : forall d1 d2 d34 n, length (naca_contour d1 d2 d34 n) = (2 * n - 1)%nat.
Proof. exact naca_length. Qed.
Print Assumptions C15_number_of_points.

Theorem C15_slope_is_derivative : forall m p x, x <> p -> derivable_pt_lim (camber_line m p) x (camber_slope m p x).
Proof. exact camber_derivative. Qed.
Print Assumptions C15_slope_is_derivative.

(** The trailing edge is open: the two end points straddle (1, 0). *)
Theorem C15_leading_and_trailing_edge : forall d1 d2 d34 n, (d2 <= 9)%nat -> (2 <= n)%nat ->
  exists first last, nth_error (naca_contour d1 d2 d34 n) 0 = Some first /\
    nth_error (naca_contour d1 d2 d34 n) (length (naca_contour d1 d2 d34 n) - 1) = Some last /\
    nth_error (naca_contour d1 d2 d34 n) (n - 1) = Some (0, 0) /\
    mid2 first last = (1, 0) /\ dist2 first (1, 0) = 0.0105 * (INR d34 / 100) /\ dist2 last (1, 0) = 0.0105 * (INR d34 / 100).
Proof. exact naca_contour_ends. Qed.
Print Assumptions C15_leading_and_trailing_edge.

Theorem C15_uncambered_is_symmetric : forall d2 d34 n k x y, (d2 <= 9)%nat -> (k < n)%nat ->
  nth_error (naca_contour 0 d2 d34 n) (n - 1 - k) = Some (x, y) -> nth_error (naca_contour 0 d2 d34 n) (n - 1 + k) = Some (x, - y).
Proof. exact naca_symmetric. Qed.
Print Assumptions C15_uncambered_is_symmetric.

Example C15_names : forall database,
  populate_coordinates database " NACA2412 " = Ok (naca_contour 2 4 12 100) /\
  (database (list_ascii_of_string "naca23012") = Some [1; 0; 0; 2; 1; 3] ->
   populate_coordinates database "naca23012" = Ok [(1, 0); (0, 2); (1, 3)]).
Proof. intros database. split; [reflexivity|]. intros E. apply (f_equal (fun f => match f with None => Err EAirfoilNotInDatabase | Some l => match pairs_of l with Some c => Ok c | None => Err EOddCoordinates end end)) in E. exact E. Qed.

(** ** C16  Resampling of the mean camber line *)
Theorem C16_one_point_per_fraction : forall fractions mcl, mcl <> [] ->
  exists line, get_downsampled_mcl fractions mcl = Ok line /\ length line = length fractions.
Proof. exact resampled_count. Qed.
Print Assumptions C16_one_point_per_fraction.

Theorem C16_at_the_requested_fraction : forall fractions mcl line,
  distinct_successive mcl -> (2 <= length mcl)%nat -> get_downsampled_mcl fractions mcl = Ok line ->
  forall k f pt, nth_error fractions k = Some f -> 0 <= f <= 1 -> nth_error line k = Some pt ->
    at_arc_length mcl (f * polyline_length mcl) pt.
Proof. exact resampled_points. Qed.
Print Assumptions C16_at_the_requested_fraction.

Theorem C16_ends_kept : forall fractions mcl line,
  distinct_successive mcl -> (2 <= length mcl)%nat -> get_downsampled_mcl fractions mcl = Ok line ->
  forall k pt, nth_error line k = Some pt ->
    (nth_error fractions k = Some 0 -> nth_error mcl 0 = Some pt) /\
    (nth_error fractions k = Some 1 -> nth_error mcl (length mcl - 1) = Some pt).
Proof. exact resampled_ends. Qed.
Print Assumptions C16_ends_kept.

(** A larger fraction gives a point further along: on a later segment, or further
    along the same one. *)
Theorem C16_monotone : forall fractions mcl line,
  distinct_successive mcl -> (2 <= length mcl)%nat -> get_downsampled_mcl fractions mcl = Ok line ->
  forall k k' f f' pt pt', nth_error fractions k = Some f -> nth_error fractions k' = Some f' -> 0 <= f < f' -> f' <= 1 ->
    nth_error line k = Some pt -> nth_error line k' = Some pt' ->
    exists i p q t i' p' q' t',
      nth_error mcl i = Some p /\ nth_error mcl (S i) = Some q /\ 0 <= t <= 1 /\
      pt = (fst p + t * (fst q - fst p), snd p + t * (snd q - snd p)) /\
      nth_error mcl i' = Some p' /\ nth_error mcl (S i') = Some q' /\ 0 <= t' <= 1 /\
      pt' = (fst p' + t' * (fst q' - fst p'), snd p' + t' * (snd q' - snd p')) /\
      ((i < i')%nat \/ (i = i' /\ t < t')).
Proof. exact resampled_monotone. Qed.
Print Assumptions C16_monotone.

Example C16_bent_plate : exists line,
  get_downsampled_mcl [0; 1 / 4; 1] [(0, 0); (1, 0); (1, 3)] = Ok line /\ distinct_successive [(0, 0); (1, 0); (1, 3)] /\
  polyline_length [(0, 0); (1, 0); (1, 3)] = 4.
Proof. exact resampled_example. Qed.

(** The camber line that is resampled runs half way between the two sides of the
    contour, and the thickness is the distance between them.  [sides n contour k u l]
    says that [u] and [l] are the [k]-th points behind the leading edge on the two sides. *)
Theorem C16_camber_line_of_contour : forall pchip database name coordinates repanelled np a n,
  new_airfoil pchip database name coordinates repanelled np = Ok a -> balanced n (af_coordinates a) ->
  length (af_mcl_coordinates a) = n /\ length (af_thickness a) = n /\
  forall k u l, (k < n)%nat -> sides n (af_coordinates a) k u l ->
    nth_error (af_mcl_coordinates a) k = Some (mid2 u l) /\
    nth_error (af_thickness a) k = Some (fst (mid2 u l), dist2 u l).
Proof. exact camber_line_of_contour. Qed.
Print Assumptions C16_camber_line_of_contour.

Theorem C16_given_contour_kept : forall pchip database name c np a,
  new_airfoil pchip database name (Some c) false np = Ok a -> af_coordinates a = c.
Proof. exact contour_given. Qed.
Print Assumptions C16_given_contour_kept.

(** A contour given by the user is accepted exactly if its upper and lower sides, both
    counted with the leading edge, have the same number of points or one of them is the
    leading edge alone. *)
Theorem C16_accepted : forall pchip database name contour np,
  (exists a, new_airfoil pchip database name (Some contour) false np = Ok a) <->
  exists i le, foremost contour i le /\ (length contour = 2 * i + 1 \/ i = 0 \/ S i = length contour)%nat.
Proof. exact accepted_contours. Qed.
Print Assumptions C16_accepted.

(** With one side missing, the camber line runs half-way between the leading edge and
    the points of the other side. *)
Theorem C16_one_sided : forall pchip database name contour np a i le,
  new_airfoil pchip database name (Some contour) false np = Ok a -> foremost contour i le ->
  (i = 0%nat -> af_mcl_coordinates a = map (mid2 le) contour /\ af_thickness a = map (fun p => (fst (mid2 le p), dist2 le p)) contour) /\
  (S i = length contour -> af_mcl_coordinates a = map (fun p => mid2 p le) (rev contour) /\
                           af_thickness a = map (fun p => (fst (mid2 p le), dist2 p le)) (rev contour)).
Proof. exact one_sided. Qed.
Print Assumptions C16_one_sided.

Example C16_one_sided_contours : foremost [(0, 0); (1, 2)] 0 (0, 0) /\ foremost [(1, 2); (0, 0)] 1 (0, 0) /\
  forall i le, ~ (foremost [(2, 0); (1, 1); (0, 0); (2, 0)] i le /\ (4 = 2 * i + 1 \/ i = 0 \/ S i = 4)%nat).
Proof. exact one_sided_example. Qed.

(** Repanelling splits the contour at its foremost point and puts the [k]-th point
    of each side on that side's interpolating curve at the [k]-th cosine-spaced
    station; the leading edge itself comes from the upper side. *)
Theorem C16_repanelled_contour : forall pchip database name c np a,
  (1 <= np)%nat -> new_airfoil pchip database name (Some c) true np = Ok a ->
  exists i le upper lower, nth_error c i = Some le /\
    (forall p, In p c -> fst le <= fst p) /\ (forall j p, nth_error c j = Some p -> (j < i)%nat -> fst le < fst p) /\
    pchip (rev (firstn (S i) c)) = Ok upper /\ pchip (skipn i c) = Ok lower /\
    length (af_coordinates a) = (2 * np - 1)%nat /\
    forall k x, nth_error (cosspace 0 1 np true) k = Some x ->
      sides np (af_coordinates a) k (x, upper x) (x, if Nat.eqb k 0 then upper x else lower x).
Proof. exact contour_repanelled. Qed.
Print Assumptions C16_repanelled_contour.

Example C16_wedge : forall database, exists a, new_airfoil straight database "wedge" (Some wedge) true 2 = Ok a /\ balanced 2 (af_coordinates a) /\
  exists k u l, sides 2 (af_coordinates a) k u l /\ snd u <> snd l.
Proof. exact wedge_repanelled. Qed.

(** ** C17  Control surfaces.  [sides n contour k u l] says that [u] and [l] are the
    [k]-th points behind the leading edge on the two sides. *)
Theorem C17_rejected_iff_out_of_range : forall a deflection hinge,
  add_control_surface a deflection hinge = Err EBadDeflection <-> ~ (-90 <= deflection <= 90).
Proof. exact surface_rejected. Qed.
Print Assumptions C17_rejected_iff_out_of_range.

(** Every airfoil has a leading edge in the middle of its contour, unless the
    leading edge is the first or last point given; a repanelled one always does. *)
Theorem C17_contours : forall pchip database name coordinates repanelled n a,
  new_airfoil pchip database name coordinates repanelled n = Ok a ->
  ((exists n', balanced n' (af_coordinates a)) \/
   exists le, (nth_error (af_coordinates a) 0 = Some le \/ nth_error (af_coordinates a) (length (af_coordinates a) - 1) = Some le) /\
     forall p, In p (af_coordinates a) -> fst le <= fst p) /\
  (repanelled = true -> (2 <= n)%nat -> balanced n (af_coordinates a)).
Proof. exact contours. Qed.
Print Assumptions C17_contours.

Theorem C17_ahead_kept_behind_turned : forall pchip database name coordinates repanelled np a n deflection x a',
  new_airfoil pchip database name coordinates repanelled np = Ok a -> balanced n (af_coordinates a) ->
  add_control_surface a deflection x = Ok a' ->
  length (af_coordinates a') = length (af_coordinates a) /\
  exists y split, hinge_on a (x, y) /\
    forall k u l, (k < n)%nat -> sides n (af_coordinates a) k u l ->
      ((k < split)%nat -> fst (mid2 u l) <= x /\ sides n (af_coordinates a') k u l) /\
      (k = split -> x < fst (mid2 u l)) /\
      ((split <= k)%nat ->
         sides n (af_coordinates a') k (turn (x, y) (- (deflection * (PI / 180))) u) (turn (x, y) (- (deflection * (PI / 180))) l)).
Proof. exact ahead_kept_behind_turned. Qed.
Print Assumptions C17_ahead_kept_behind_turned.

Theorem C17_distance_to_hinge_kept : forall hinge angle p, dist2 (turn hinge angle p) hinge = dist2 p hinge.
Proof. exact turn_distance. Qed.
Print Assumptions C17_distance_to_hinge_kept.

Theorem C17_zero_deflection : forall pchip database name coordinates repanelled np a n x a',
  new_airfoil pchip database name coordinates repanelled np = Ok a -> balanced n (af_coordinates a) ->
  add_control_surface a 0 x = Ok a' ->
  af_coordinates a' = af_coordinates a /\ af_mcl_coordinates a' = af_mcl_coordinates a /\ af_thickness a' = af_thickness a.
Proof. exact zero_deflection_kept. Qed.
Print Assumptions C17_zero_deflection.

(** The camber line follows the contour as long as the leading edge stays in front. *)
Theorem C17_camber_line_turned : forall pchip database name coordinates repanelled np a n deflection x a',
  new_airfoil pchip database name coordinates repanelled np = Ok a -> balanced n (af_coordinates a) ->
  add_control_surface a deflection x = Ok a' -> balanced n (af_coordinates a') ->
  exists y split, hinge_on a (x, y) /\
    forall k m, nth_error (af_mcl_coordinates a) k = Some m ->
      ((k < split)%nat -> fst m <= x /\ nth_error (af_mcl_coordinates a') k = Some m) /\
      (k = split -> x < fst m) /\
      ((split <= k)%nat -> nth_error (af_mcl_coordinates a') k = Some (turn (x, y) (- (deflection * (PI / 180))) m)).
Proof. exact camber_line_turned. Qed.
Print Assumptions C17_camber_line_turned.

(** With no camber point behind the hinge there is nothing to deflect. *)
Theorem C17_hinge_behind_trailing_edge : forall a deflection x,
  -90 <= deflection <= 90 -> (2 <= length (af_mcl_coordinates a))%nat ->
  (forall m, In m (af_mcl_coordinates a) -> fst m <= x) -> add_control_surface a deflection x = Err EIndexError.
Proof. exact hinge_behind. Qed.
Print Assumptions C17_hinge_behind_trailing_edge.

Theorem C17_zero_deflection_succeeds : forall pchip database name coordinates repanelled np a n x,
  new_airfoil pchip database name coordinates repanelled np = Ok a -> balanced n (af_coordinates a) -> (2 <= n)%nat ->
  (exists m, In m (af_mcl_coordinates a) /\ x < fst m) -> exists a', add_control_surface a 0 x = Ok a'.
Proof. exact zero_deflection_succeeds. Qed.
Print Assumptions C17_zero_deflection_succeeds.

Example C17_plate : forall pchip database, exists a',
  new_airfoil pchip database "plate" (Some flat_coordinates) false 400 = Ok (flat_named "plate") /\
  balanced 2 flat_coordinates /\ add_control_surface (flat_named "plate") 90 (1 / 2) = Ok a' /\
  af_coordinates a' = [(1 / 2, - (1 / 2)); (0, 0); (1 / 2, - (1 / 2))] /\ balanced 2 (af_coordinates a').
Proof. exact plate_example. Qed.
