(** Model of pterasoftware/trim.py.  Logging is left out. *)
From Verif Require Export M_Unsteady M_Horseshoe.

(** SciPy's minimisers: which point is evaluated next, if any, may depend in any way
    on the points evaluated so far and on the objective's values there ([None] is an
    inf or a nan).  The bounds, the first guess and the limit [num_calls], which the
    code hands to SciPy, are part of that choice.  [calls] bounds the number of
    evaluations so that the model is total.  (trim.py:166-179, 182-198, 324-337 and 340-356) *)
Definition optimiser (point : Type) : Type := list (point * option R) -> option point.

(** What calling the objective function leads to: a returned value, or
    StopIteration.  (trim.py:93-159 and 244-319) *)
Inductive evaluation : Type := Value (v : option R) | Stop.

Section Minimise.
Context {point state : Type}.
Variable objective : state -> point -> result (state * evaluation).
(** [true] when the objective function stopped the minimiser (trim.py:166-179,
    182-198 and 324-337, 340-356). *)
Fixpoint minimise (next : optimiser point) (calls : nat) (past : list (point * option R)) (s : state)
  : result (state * bool) :=
  match calls with
  | O => Ok (s, false)
  | S calls' =>
      match next past with
      | None => Ok (s, false)
      | Some x =>
          let* r := objective s x in
          match snd r with
          | Stop => Ok (fst r, true)
          | Value v => minimise next calls' (past ++ [(x, v)]) (fst r)
          end
      end
  end.
End Minimise.

(** ** Steady trim *)
(** trim.py:99 *)
Record trim_point : Type := mktrim { tp_velocity : R; tp_alpha : R; tp_beta : R; tp_thrust : R }.
(** The closure's variables: the problem object, which the objective function
    changes, and the list [current_arguments], where [None] is nan.  (trim.py:90 and 99-106) *)
Record trim_state : Type := mktrimstate { ts_problem : steady_problem; ts_current : list (option R) }.
(** trim.py:90 and 155-156 *)
Definition nans (n : nat) : list (option R) := repeat None n.

(** trim.py:106-108, 258-260 *)
Definition op_set (velocity alpha beta : R) (op : operating_point) : operating_point :=
  mkop (op_density op) velocity alpha beta (op_external_thrust op) (op_nu op).

(** trim.py:93-159.  A zero dynamic pressure or reference dimension makes some
    coefficient an inf or a nan, and with it the objective, which then is not below
    the cut-off; the velocity comes out of a NumPy array, so none of the divisions
    raises. *)
Definition steady_objective (solve : list (list R) -> list R -> result (list R)) (weight cut_off : R)
           (s : trim_state) (x : trim_point) : result (trim_state * evaluation) :=
  let current := [Some (tp_velocity x); Some (tp_alpha x); Some (tp_beta x); Some (tp_thrust x)] in
  let op := op_set (tp_velocity x) (tp_alpha x) (tp_beta x) (sp_operating_point (ts_problem s)) in
  let q := dynamic_pressure op in
  let* first := index (sp_airplanes (ts_problem s)) 0 in
  let s_ref := a_s_ref first in
  let external := vscale (/ s_ref) (vscale (/ q) (mkvec (tp_thrust x) 0 weight)) in
  let* solver := hs_run solve (hs_new (sp_airplanes (ts_problem s)) op) in
  let* a := index (hso_airplanes solver) 0 in
  match a_force_coefficients a, a_moment_coefficients a with
  | Some cf, Some cm =>
      let net_force := vnorm (vsub cf external) in
      let net_moment := vnorm cm in
      let objective := (Rabs net_force + Rabs net_moment) / 2 in
      let finite := negb (Reqb q 0 || Reqb (a_s_ref a) 0 || Reqb (a_b_ref a) 0 || Reqb (a_c_ref a) 0) in
      let problem := mksteady (hso_airplanes solver) op in
      if finite && Rltb objective cut_off
      then Ok (mktrimstate problem current, Stop)
      else Ok (mktrimstate problem (nans 4), Value (if finite then Some objective else None))
  | _, _ => Err ETypeError
  end.

(** trim.py:68-88: one of the checks of the base values *)
Definition within (x : R) (bounds : R * R) : bool := negb (Rltb x (fst bounds) || Rltb (snd bounds) x).
(** trim.py:40-201.  A problem with several airplanes is only logged (57-60).  Beside
    the returned list the model returns the problem object as it is afterwards. *)
Definition steady_trim (solve : list (list R) -> list R -> result (list R))
           (local global : optimiser trim_point) (local_calls global_calls : nat)
           (problem : steady_problem)
           (velocity_bounds alpha_bounds beta_bounds thrust_bounds : R * R) (cut_off : R)
  : result (list (option R) * steady_problem) :=
  let* first := index (sp_airplanes problem) 0 in
  let weight := a_weight first in
  let op := sp_operating_point problem in
  let* _ := check (within (op_velocity op) velocity_bounds) EBaseVelocityBounds in
  let* _ := check (within (op_alpha op) alpha_bounds) EBaseAlphaBounds in
  let* _ := check (within (op_beta op) beta_bounds) EBaseBetaBounds in
  let* _ := check (within (op_external_thrust op) thrust_bounds) EBaseThrustBounds in
  let objective := steady_objective solve weight cut_off in
  let* r := minimise objective local local_calls [] (mktrimstate problem (nans 4)) in
  if snd r then Ok (ts_current (fst r), ts_problem (fst r))
  else
    let* r := minimise objective global global_calls [] (fst r) in
    if snd r then Ok (ts_current (fst r), ts_problem (fst r))
    else Ok (nans 4, ts_problem (fst r)).

(** ** Unsteady trim *)
(** trim.py:250 *)
Record unsteady_point : Type := mkutrim { ut_velocity : R; ut_alpha : R; ut_beta : R }.
(** trim.py:241 and 252-257 *)
Record unsteady_trim_state : Type := mkutrimstate { uts_op : operating_point; uts_current : list (option R) }.

(** movement.py:1258-1286 with its default arguments, as trim.py:268-270 calls it *)
Definition still_air (op : operating_point) : op_movement := mkopmove op (mkosc 0 0 "sine").

(** problems.py:100-119: the attributes of an UnsteadyProblem that hold final loads
    (nothing else in the package adds one), and looking one up by its name. *)
Definition final_attributes (up : unsteady_problem) : list (string * list vec) :=
  let loads kind f :=
    [(("final_" ++ kind ++ "near_field_forces_wind_axes")%string, fl_forces f);
     (("final_" ++ kind ++ "near_field_force_coefficients_wind_axes")%string, fl_force_coefficients f);
     (("final_" ++ kind ++ "near_field_moments_wind_axes")%string, fl_moments f);
     (("final_" ++ kind ++ "near_field_moment_coefficients_wind_axes")%string, fl_moment_coefficients f)] in
  loads EmptyString (up_final up) ++ loads "mean_"%string (up_final_mean up) ++ loads "rms_"%string (up_final_rms up).
(** trim.py:286-291 *)
Definition final_attribute (up : unsteady_problem) (name : string) : result (list vec) :=
  match find (fun kv => String.eqb (fst kv) name) (final_attributes up) with
  | Some kv => Ok (snd kv)
  | None => Err EAttributeError
  end.
(** np.linalg.norm of an (n, 3) array.  (trim.py:293-296) *)
Definition array_norm (l : list vec) : R := sqrt (rsum (map (fun v => vdot v v) l)).

(** trim.py:244-319.  [run] is called with its defaults, a prescribed wake and
    streamlines. *)
Definition unsteady_objective (solve : list (list R) -> list R -> result (list R)) (am : airplane_movement)
           (weight cut_off : R) (s : unsteady_trim_state) (x : unsteady_point)
  : result (unsteady_trim_state * evaluation) :=
  let current := [Some (ut_velocity x); Some (ut_alpha x); Some (ut_beta x)] in
  let op := op_set (ut_velocity x) (ut_alpha x) (ut_beta x) (uts_op s) in
  let q := dynamic_pressure op in
  let s_ref := a_s_ref (am_base am) in
  let external := vscale (/ s_ref) (vscale (/ q) (mkvec 0 0 weight)) in
  let* movement := new_movement [am] (still_air op) None None None None in
  let* problem := new_unsteady_problem movement true in
  let* solver := unsteady_new problem in
  let* solver := unsteady_run solve true true solver in
  let* cf := final_attribute (us_problem solver) "final_total_near_field_force_coefficients_wind_axes" in
  let* cm := final_attribute (us_problem solver) "final_total_near_field_moment_coefficients_wind_axes" in
  let net_force := array_norm (map (fun c => vsub c external) cf) in
  let net_moment := array_norm cm in
  let objective := (Rabs net_force + Rabs net_moment) / 2 in
  let finite := negb (Reqb q 0 || Reqb s_ref 0 || Reqb (a_b_ref (am_base am)) 0 || Reqb (a_c_ref (am_base am)) 0) in
  if finite && Rltb objective cut_off
  then Ok (mkutrimstate op current, Stop)
  else Ok (mkutrimstate op (nans 4), Value (if finite then Some objective else None)).

(** trim.py:205-359.  Base values outside the bounds are only logged (223-236). *)
Definition unsteady_trim (solve : list (list R) -> list R -> result (list R))
           (local global : optimiser unsteady_point) (local_calls global_calls : nat)
           (am : airplane_movement) (op : operating_point) (cut_off : R)
  : result (list (option R) * operating_point) :=
  let weight := a_weight (am_base am) in
  let objective := unsteady_objective solve am weight cut_off in
  let* r := minimise objective local local_calls [] (mkutrimstate op (nans 3)) in
  if snd r then Ok (uts_current (fst r), uts_op (fst r))
  else
    let* r := minimise objective global global_calls [] (fst r) in
    if snd r then Ok (uts_current (fst r), uts_op (fst r))
    else Ok (nans 3, uts_op (fst r)).
