(** Specification vocabulary for airfoils. *)
From Verif Require Import M_Base M_Airfoil S_Geometry.

(** ** Text *)
Definition first_occurrence (p s before after : list ascii) : Prop :=
  s = before ++ p ++ after /\
  forall before' after', s = before' ++ p ++ after' -> (length before <= length before')%nat.
Definition contains (p s : list ascii) : Prop := exists before after, s = before ++ p ++ after.
(** What stands in [s] between the first [p] and the next one, or the end. *)
Definition follows (p s number : list ascii) : Prop :=
  exists before rest, first_occurrence p s before rest /\
    ((number = rest /\ ~ contains p rest) \/ exists rest', first_occurrence p rest number rest').
(** The characters of the ten digits. *)
Definition digit (c : ascii) (d : nat) : Prop := (d <= 9)%nat /\ nat_of_ascii c = (48 + d)%nat.

(** ** NACA four-digit airfoils (the published equations) *)
Definition camber_line (m p x : R) : R :=
  if Rle_dec x p then m / p ^ 2 * (2 * p * x - x ^ 2)
  else m / (1 - p) ^ 2 * ((1 - 2 * p) + 2 * p * x - x ^ 2).
Definition camber_slope (m p x : R) : R :=
  if Rle_dec x p then 2 * m / p ^ 2 * (p - x) else 2 * m / (1 - p) ^ 2 * (p - x).
Definition half_thickness (t x : R) : R :=
  5 * t * (0.2969 * sqrt x - 0.1260 * x - 0.3516 * x ^ 2 + 0.2843 * x ^ 3 - 0.1015 * x ^ 4).

(** ** Plane geometry *)
Definition dist2 (p q : R * R) : R := sqrt ((fst p - fst q) ^ 2 + (snd p - snd q) ^ 2).
Definition mid2 (p q : R * R) : R * R := ((fst p + fst q) / 2, (snd p + snd q) / 2).
(** Turn [p] about [c] by the angle [a] (counter-clockwise). *)
Definition turn (c : R * R) (a : R) (p : R * R) : R * R :=
  (fst c + cos a * (fst p - fst c) - sin a * (snd p - snd c),
   snd c + sin a * (fst p - fst c) + cos a * (snd p - snd c)).

(** ** Polylines *)
Fixpoint polyline_length (l : list (R * R)) : R :=
  match l with
  | p :: ((q :: _) as tail) => dist2 p q + polyline_length tail
  | _ => 0
  end.
(** [pt] is the point of the polyline at the arc length [s] from its start. *)
Definition at_arc_length (l : list (R * R)) (s : R) (pt : R * R) : Prop :=
  exists i p q t, nth_error l i = Some p /\ nth_error l (S i) = Some q /\ 0 <= t <= 1 /\
    pt = (fst p + t * (fst q - fst p), snd p + t * (snd q - snd p)) /\
    s = polyline_length (firstn (S i) l) + t * dist2 p q.
Definition distinct_successive (l : list (R * R)) : Prop :=
  forall i p q, nth_error l i = Some p -> nth_error l (S i) = Some q -> p <> q.

(** A contour of [2 n - 1] points running from the trailing edge over the top to
    the leading edge, which is its [n]-th point and its first one of smallest x,
    and back along the bottom. *)
Definition balanced (n : nat) (contour : list (R * R)) : Prop :=
  (1 <= n)%nat /\ length contour = (2 * n - 1)%nat /\
  exists le, nth_error contour (n - 1) = Some le /\
    (forall p, In p contour -> fst le <= fst p) /\
    (forall i p, nth_error contour i = Some p -> (i < n - 1)%nat -> fst le < fst p).
(** The [k]-th points behind the leading edge on the two sides. *)
Definition sides (n : nat) (contour : list (R * R)) (k : nat) (upper lower : R * R) : Prop :=
  nth_error contour (n - 1 - k) = Some upper /\ nth_error contour (n - 1 + k) = Some lower.
(** The hinge lies on the polyline: between two successive points. *)
Definition on_line_through (p q h : R * R) : Prop :=
  (snd h - snd p) * (fst q - fst p) = (snd q - snd p) * (fst h - fst p).
(** The hinge of a control surface of [a] at the chord position [fst h]: on the segment of
    the camber line around it, or on the prolongation of the first or last one. *)
Definition hinge_on (a : airfoil) (h : R * R) : Prop :=
  let l := af_mcl_coordinates a in strictly_increasing (map fst l) ->
  exists i p q, nth_error l i = Some p /\ nth_error l (S i) = Some q /\ on_line_through p q h /\
    (forall p0, nth_error l 0 = Some p0 -> fst p0 <= fst h -> fst p <= fst h) /\
    (forall p1, nth_error l (length l - 1) = Some p1 -> fst h <= fst p1 -> fst h <= fst q).
(** The numbers in a file of coordinates: x and y of each point in turn. *)
Definition numbers_of (points : list (R * R)) : list R := concat (map (fun p => [fst p; snd p]) points).
(** The first of the points of smallest x is the one with index [i]. *)
Definition foremost (contour : list (R * R)) (i : nat) (le : R * R) : Prop :=
  nth_error contour i = Some le /\ (forall p, In p contour -> fst le <= fst p) /\
  (forall j p, nth_error contour j = Some p -> (j < i)%nat -> fst le < fst p).
