(** Model of class Airfoil in pterasoftware/geometry.py. *)
From Verif Require Export M_OperatingPoint.

(** ** Strings (lists of ASCII characters; non-ASCII text is not modelled) *)

(** Python's str.lower on ASCII.  (geometry.py:789) *)
Definition lower_char (c : ascii) : ascii :=
  let n := nat_of_ascii c in
  if Nat.leb 65 n && Nat.leb n 90 then ascii_of_nat (n + 32) else c.
(** What str.strip removes (geometry.py:789). *)
Definition is_space (c : ascii) : bool :=
  let n := nat_of_ascii c in
  (Nat.leb 9 n && Nat.leb n 13) || (Nat.leb 28 n && Nat.leb n 32).
(** str.isdigit (geometry.py:794) *)
Definition is_digit (c : ascii) : bool :=
  let n := nat_of_ascii c in Nat.leb 48 n && Nat.leb n 57.
(** int of one digit (geometry.py:798-800) *)
Definition digit_value (c : ascii) : nat := nat_of_ascii c - 48.
(** One side of str.strip (geometry.py:789). *)
Fixpoint drop_spaces (s : list ascii) : list ascii :=
  match s with
  | c :: s' => if is_space c then drop_spaces s' else s
  | [] => []
  end.
(** str.strip.  (geometry.py:789) *)
Definition strip (s : list ascii) : list ascii := rev (drop_spaces (rev (drop_spaces s))).
(** For [in] and str.split (geometry.py:792-793). *)
Fixpoint starts_with (p s : list ascii) : bool :=
  match p, s with
  | [], _ => true
  | a :: p', b :: s' => Ascii.eqb a b && starts_with p' s'
  | _ :: _, [] => false
  end.
(** The text after the first occurrence of [p]; [None] when [p not in s].
    (geometry.py:792-793) *)
Fixpoint text_after (p s : list ascii) : option (list ascii) :=
  if starts_with p s then Some (skipn (length p) s)
  else match s with [] => None | _ :: s' => text_after p s' end.
(** The text before the first occurrence of [p] (all of it if there is none).
    (geometry.py:793) *)
Fixpoint text_before (p s : list ascii) : list ascii :=
  if starts_with p s then []
  else match s with [] => [] | c :: s' => c :: text_before p s' end.
(** geometry.py:792 *)
Definition naca_text : list ascii := list_ascii_of_string "naca".

(** geometry.py:789-795: lower/strip the name; if it contains "naca" take the
    second item of [name.split("naca")]; accept it if it is four digits. *)
Definition naca_digits (name : string) : option (nat * nat * nat) :=
  let name := strip (map lower_char (list_ascii_of_string name)) in
  match text_after naca_text name with
  | None => None
  | Some rest =>
      let number := text_before naca_text rest in
      match number with
      | [c1; c2; c3; c4] =>
          if forallb is_digit number
          then Some (digit_value c1, digit_value c2, 10 * digit_value c3 + digit_value c4)%nat
          else None
      | _ => None
      end
  end.

(** ** NACA four-digit contours *)

(** geometry.py:807-817 *)
Definition naca_y_t (thickness x : R) : R :=
  5 * thickness *
  (2969 / 10000 * sqrt x - 1260 / 10000 * x - 3516 / 10000 * x ^ 2
   + 2843 / 10000 * x ^ 3 - 1015 / 10000 * x ^ 4).
(** geometry.py:824-841; boolean indexing [x_t[x_t <= camber_loc]] is [filter]. *)
Definition naca_y_c (max_camber camber_loc : R) (x_t : list R) : list R :=
  map (fun x => max_camber / camber_loc ^ 2 * (2 * camber_loc * x - x ^ 2))
      (filter (fun x => Rleb x camber_loc) x_t) ++
  map (fun x => max_camber / (1 - camber_loc) ^ 2 * ((1 - 2 * camber_loc) + 2 * camber_loc * x - x ^ 2))
      (filter (fun x => Rltb camber_loc x) x_t).
(** geometry.py:844-856 *)
Definition naca_slope (max_camber camber_loc : R) (x_t : list R) : list R :=
  map (fun x => 2 * max_camber / camber_loc ^ 2 * (camber_loc - x))
      (filter (fun x => Rleb x camber_loc) x_t) ++
  map (fun x => 2 * max_camber / (1 - camber_loc) ^ 2 * (camber_loc - x))
      (filter (fun x => Rltb camber_loc x) x_t).

(** Elementwise operations on three arrays, as geometry.py:858-867. *)
Definition map3 {A B C D} (f : A -> B -> C -> D) (a : list A) (b : list B) (c : list C) : list D :=
  map2 (fun x yz => f x (fst yz) (snd yz)) a (combine b c).
(** geometry.py:803-877: the contour for given digits and number of points per
    side (100 in the code). *)
Definition naca_contour (d1 d2 d34 : nat) (n_points_per_side : nat) : list (R * R) :=
  let max_camber := INR d1 * (1 / 100) in
  let camber_loc := INR d2 * (1 / 10) in
  let thickness := INR d34 * (1 / 100) in
  let x_t := cosspace 0 1 n_points_per_side true in
  let y_t := map (naca_y_t thickness) x_t in
  let camber_loc := if Reqb camber_loc 0 then 5 / 10 else camber_loc in
  let y_c := naca_y_c max_camber camber_loc x_t in
  let theta := map atan (naca_slope max_camber camber_loc x_t) in
  let x_u := map3 (fun x y t => x - y * sin t) x_t y_t theta in
  let x_l := map3 (fun x y t => x + y * sin t) x_t y_t theta in
  let y_u := map3 (fun c y t => c + y * cos t) y_c y_t theta in
  let y_l := map3 (fun c y t => c - y * cos t) y_c y_t theta in
  combine (rev x_u ++ tl x_l) (rev y_u ++ tl y_l).

(** ** Airfoil objects *)
(** geometry.py:717-773 *)
Record airfoil : Type := mkairfoil {
  af_name : string;
  af_coordinates : list (R * R);
  af_mcl_coordinates : list (R * R);
  af_upper_minus_mcl : list (R * R);
  af_thickness : list (R * R);
  af_repanel : bool;
  af_n_points_per_side : nat
}.

(** np.argmin: index of the first minimum; ValueError on an empty array.  (geometry.py:959) *)
Fixpoint argmin_from (best_i : nat) (best : R) (i : nat) (l : list R) : nat :=
  match l with
  | [] => best_i
  | x :: xs => if Rltb x best then argmin_from i x (S i) xs else argmin_from best_i best (S i) xs
  end.
(** geometry.py:959 *)
Definition argmin (l : list R) : result nat :=
  match l with [] => Err EValueError | x :: xs => Ok (argmin_from 0 x 1 xs) end.

(** geometry.py:950-1000 *)
Definition leading_edge_index (coordinates : list (R * R)) : result nat := argmin (map fst coordinates).
(** geometry.py:964-981 *)
Definition lower_coordinates (coordinates : list (R * R)) : result (list (R * R)) :=
  let* i := leading_edge_index coordinates in Ok (skipn i coordinates).
(** geometry.py:983-1000 *)
Definition upper_coordinates (coordinates : list (R * R)) : result (list (R * R)) :=
  let* i := leading_edge_index coordinates in Ok (firstn (S i) coordinates).

(** Elementwise operation on (n, 2) arrays with NumPy's broadcasting of a
    single row; any other length mismatch raises ValueError.  (geometry.py:935-940) *)
Definition broadcast {A B C} (f : A -> B -> C) (a : list A) (b : list B) : result (list C) :=
  if Nat.eqb (length a) (length b) then Ok (map2 f a b)
  else match a, b with
       | [x], _ => Ok (map (f x) b)
       | _, [y] => Ok (map (fun x => f x y) a)
       | _, _ => Err EValueError
       end.
(** geometry.py:935 *)
Definition pair_mean (p q : R * R) : R * R := ((fst p + fst q) / 2, (snd p + snd q) / 2).
(** geometry.py:940 *)
Definition pair_sub (p q : R * R) : R * R := (fst p - fst q, snd p - snd q).
(** geometry.py:1176-1185 *)
Definition pair_add (p q : R * R) : R * R := (fst p + fst q, snd p + snd q).

(** geometry.py:917-948 [populate_mcl_coordinates], as the tail of the constructor. *)
Definition with_mcl (name : string) (repanel_flag : bool) (n_points_per_side : nat) (coordinates : list (R * R)) : result airfoil :=
  let* up := upper_coordinates coordinates in
  let* lower := lower_coordinates coordinates in
  let upper := rev up in
  let* mcl := broadcast pair_mean upper lower in
  let* umm := broadcast pair_sub upper mcl in
  let thickness := map (fun d => sqrt (fst d ^ 2 + snd d ^ 2) * 2) umm in
  Ok (mkairfoil name coordinates mcl umm (combine (map fst mcl) thickness) repanel_flag n_points_per_side).

(** geometry.py:1080-1126 [repanel_current_airfoil].  [pchip] stands for
    scipy.interpolate.PchipInterpolator: it may raise, else it is a function. *)
Definition repanel (pchip : list (R * R) -> result (R -> R)) (n_points_per_side : nat)
           (coordinates : list (R * R)) : result (list (R * R)) :=
  let* up := upper_coordinates coordinates in
  let* lower := lower_coordinates coordinates in
  let xs := cosspace 0 1 n_points_per_side true in
  let* upper_func := pchip (rev up) in
  let* lower_func := pchip lower in
  Ok (combine (rev xs ++ tl xs) (map upper_func (rev xs) ++ map lower_func (tl xs))).

(** geometry.py:881-915: reading a file of the airfoil database.  [database]
    stands for the package's data files: [None] is FileNotFoundError, [Some l]
    the numbers np.fromstring finds after the first line. *)
Fixpoint pairs_of (l : list R) : option (list (R * R)) :=
  match l with
  | [] => Some []
  | x :: y :: l' => option_map (cons (x, y)) (pairs_of l')
  | [_] => None
  end.
(** geometry.py:775-915 [populate_coordinates]. *)
Definition populate_coordinates (database : list ascii -> option (list R)) (name : string)
  : result (list (R * R)) :=
  match naca_digits name with
  | Some (d1, d2, d34) => Ok (naca_contour d1 d2 d34 100)
  | None =>
      match database (strip (map lower_char (list_ascii_of_string name))) with
      | None => Err EAirfoilNotInDatabase
      | Some l => match pairs_of l with Some c => Ok c | None => Err EOddCoordinates end
      end
  end.

(** geometry.py:717-773 [Airfoil.__init__]. *)
Definition new_airfoil (pchip : list (R * R) -> result (R -> R)) (database : list ascii -> option (list R))
           (name : string) (coordinates : option (list (R * R))) (repanel_flag : bool)
           (n_points_per_side : nat) : result airfoil :=
  let* c := match coordinates with Some c => Ok c | None => populate_coordinates database name end in
  let* c := if repanel_flag then repanel pchip n_points_per_side c else Ok c in
  with_mcl name repanel_flag n_points_per_side c.

(** ** Camber line resampling *)

(** np.interp(x, xp, fp) for non-decreasing xp, with (xp, fp) zipped.  (geometry.py:1036-1046) *)
Fixpoint np_interp (x : R) (l : list (R * R)) : result R :=
  match l with
  | [] => Err EValueError
  | [(_, y0)] => Ok y0
  | (x0, y0) :: (((x1, y1) :: _) as tail) =>
      if Rltb x x0 then Ok y0
      else if Rltb x x1 then Ok ((y1 - y0) / (x1 - x0) * (x - x0) + y0)
      else np_interp x tail
  end.

(** np.cumsum (geometry.py:1025-1027) *)
Fixpoint cumsum_from (acc : R) (l : list R) : list R :=
  match l with [] => [] | x :: xs => (acc + x) :: cumsum_from (acc + x) xs end.
(** geometry.py:1018-1021 *)
Definition point_distance (p q : R * R) : R := sqrt ((fst p - fst q) ^ 2 + (snd p - snd q) ^ 2).
(** geometry.py:1018-1027: arc length from the first point to each point. *)
Definition arc_lengths (mcl : list (R * R)) : list R :=
  0 :: cumsum_from 0 (map2 point_distance mcl (tl mcl)).
(** geometry.py:1002-1050 [get_downsampled_mcl].  A camber line of zero length
    divides by zero (NaN in NumPy); the theorems exclude it. *)
Definition get_downsampled_mcl (mcl_fractions : list R) (mcl : list (R * R)) : result (list (R * R)) :=
  match mcl with
  | [] => Err EIndexError
  | _ =>
      let d := arc_lengths mcl in
      let total := last d 0 in
      let dn := map (fun s => s / total) d in
      let* xs := mapM (fun f => np_interp f (combine dn (map fst mcl))) mcl_fractions in
      let* ys := mapM (fun f => np_interp f (combine dn (map snd mcl))) mcl_fractions in
      Ok (combine xs ys)
  end.

(** ** Control surfaces *)

(** scipy interp1d(kind="linear", fill_value="extrapolate") on points sorted by
    increasing x: the interval is the first whose right end is >= x, or the last
    one; the line through its end points is evaluated.  (The real code sorts
    first; the model takes the points as sorted.).  (geometry.py:1066-1076) *)
Fixpoint interp1d (x : R) (l : list (R * R)) : result R :=
  match l with
  | (x0, y0) :: (((x1, y1) :: rest) as tail) =>
      match rest with
      | [] => Ok ((y1 - y0) / (x1 - x0) * (x - x0) + y0)
      | _ => if Rleb x x1 then Ok ((y1 - y0) / (x1 - x0) * (x - x0) + y0) else interp1d x tail
      end
  | _ => Err EValueError
  end.
(** geometry.py:1052-1078 *)
Definition get_camber_at_chord_fraction (a : airfoil) (chord_fraction : R) : result R :=
  interp1d chord_fraction (af_mcl_coordinates a).

(** First index at which a predicate holds ([np.where(...)[0][0]]).  (geometry.py:1158) *)
Fixpoint first_index {A} (f : A -> bool) (l : list A) : result nat :=
  match l with
  | [] => Err EIndexError
  | x :: xs => if f x then Ok O else let* i := first_index f xs in Ok (S i)
  end.
(** geometry.py:1148-1150 *)
Definition rot2 (s c : R) (p : R * R) : R * R := (c * fst p - s * snd p, s * fst p + c * snd p).

(** geometry.py:1148-1185: the coordinates of the flapped airfoil. *)
Definition flapped_mcl (deflection : R) (hinge : R * R) (split_index : nat) (mcl : list (R * R)) : list (R * R) :=
  let s := sin (radians (- deflection)) in
  let c := cos (radians (- deflection)) in
  firstn split_index mcl ++
  map (fun p => pair_add (rot2 s c (pair_sub p hinge)) hinge) (skipn split_index mcl).
(** geometry.py:1172-1185 *)
Definition flapped_umm (deflection : R) (split_index : nat) (umm : list (R * R)) : list (R * R) :=
  let s := sin (radians (- deflection)) in
  let c := cos (radians (- deflection)) in
  firstn split_index umm ++ map (rot2 s c) (skipn split_index umm).
(** geometry.py:1128-1191 [add_control_surface]. *)
Definition add_control_surface (a : airfoil) (deflection hinge_point : R) : result airfoil :=
  let* _ := check (negb (Rltb 90 deflection || Rltb deflection (-90))) EBadDeflection in
  let* camber := get_camber_at_chord_fraction a hinge_point in
  let hinge := (hinge_point, camber) in
  let* split_index := first_index (fun p => Rltb (fst hinge) (fst p)) (af_mcl_coordinates a) in
  let new_mcl := flapped_mcl deflection hinge split_index (af_mcl_coordinates a) in
  let new_umm := flapped_umm deflection split_index (af_upper_minus_mcl a) in
  let upper := rev (map2 pair_add new_mcl new_umm) in
  let lower := map2 pair_sub new_mcl new_umm in
  with_mcl (append (af_name a) " flapped") false 400 (upper ++ tl lower).
