(** What the trim analyses should return, in terms of single solver runs on the
    airplanes as they were passed in. *)
From Verif Require Import M_Trim S_Wing.

(** The operating point with the three quantities trim varies replaced. *)
Definition at_speed_and_angles (op : operating_point) (velocity alpha beta : R) : operating_point :=
  mkop (op_density op) velocity alpha beta (op_external_thrust op) (op_nu op).

(** An optimiser asks for points and sees the values of the objective there
    ([None]: inf or nan).  [outcome x r]: evaluating at [x] gives [r]. *)
Section Asking.
Context {point : Type}.
Variable outcome : point -> result (option R) -> Prop.
Variable next : list (point * option R) -> option point.
(** What it can have seen, latest value last. *)
Inductive seen : list (point * option R) -> Prop :=
  | seen_nothing : seen []
  | seen_one_more past x v : seen past -> next past = Some x -> outcome x (Ok v) -> seen (past ++ [(x, v)]).
Definition below (cut_off : R) (v : option R) : Prop := exists y, v = Some y /\ y < cut_off.
Definition none_below (cut_off : R) (past : list (point * option R)) : Prop :=
  forall x v, In (x, v) past -> ~ below cut_off v.
(** Within [calls] evaluations: it asks for [x] and nothing earlier was accepted; it
    gives up. *)
Definition asks (cut_off : R) (calls : nat) (past : list (point * option R)) (x : point) : Prop :=
  seen past /\ none_below cut_off past /\ (length past < calls)%nat /\ next past = Some x.
Definition gives_up (cut_off : R) (calls : nat) (past : list (point * option R)) : Prop :=
  seen past /\ none_below cut_off past /\
  (length past = calls \/ (length past < calls)%nat /\ next past = None).
Definition accepts (cut_off : R) (calls : nat) (x : point) : Prop :=
  exists past v, asks cut_off calls past x /\ outcome x (Ok v) /\ below cut_off v.
Definition fails (cut_off : R) (calls : nat) (e : err) : Prop :=
  exists past x, asks cut_off calls past x /\ outcome x (Err e).
Definition exhausted (cut_off : R) (calls : nat) : Prop := exists past, gives_up cut_off calls past.
End Asking.

(** ** Steady trim *)
Section Steady.
Variable solve : list (list R) -> list R -> result (list R).
Variable problem : steady_problem.
(** The horseshoe solver's results for the first airplane at some speed and angles. *)
Definition coefficients_at (velocity alpha beta : R) (op : operating_point) (a : airplane) (cf cm : vec) : Prop :=
  op = at_speed_and_angles (sp_operating_point problem) velocity alpha beta /\
  exists s rest, hs_run solve (hs_new (sp_airplanes problem) op) = Ok s /\ hso_airplanes s = a :: rest /\
    a_force_coefficients a = Some cf /\ a_moment_coefficients a = Some cm.
(** The coefficients are finite. *)
Definition finite_for (op : operating_point) (a : airplane) : Prop :=
  dynamic_pressure op <> 0 /\ a_s_ref a <> 0 /\ a_b_ref a <> 0 /\ a_c_ref a <> 0.
(** Mean of the sizes of the net force and net moment coefficients, with a thrust
    against the drag and the weight against the lift. *)
Definition imbalance (op : operating_point) (a : airplane) (thrust weight : R) (cf cm : vec) : R :=
  let per := dynamic_pressure op * a_s_ref a in
  (vnorm (vsub cf (mkvec (thrust / per) 0 (weight / per))) + vnorm cm) / 2.
Definition steady_outcome (x : trim_point) (r : result (option R)) : Prop :=
  match r with
  | Err e => hs_run solve (hs_new (sp_airplanes problem)
                             (at_speed_and_angles (sp_operating_point problem) (tp_velocity x) (tp_alpha x) (tp_beta x)))
             = Err e
  | Ok v =>
      exists first op a cf cm, nth_error (sp_airplanes problem) 0 = Some first /\
        coefficients_at (tp_velocity x) (tp_alpha x) (tp_beta x) op a cf cm /\
        (finite_for op a -> v = Some (imbalance op a (tp_thrust x) (a_weight first) cf cm)) /\
        (~ finite_for op a -> v = None)
  end.
(** The conditions on the problem and the bounds, in the order they are checked. *)
Definition in_interval (x : R) (bounds : R * R) : Prop := fst bounds <= x <= snd bounds.
Definition trim_rules (velocity_bounds alpha_bounds beta_bounds thrust_bounds : R * R) : rules :=
  let op := sp_operating_point problem in
  [(sp_airplanes problem <> [], EIndexError);
   (in_interval (op_velocity op) velocity_bounds, EBaseVelocityBounds);
   (in_interval (op_alpha op) alpha_bounds, EBaseAlphaBounds);
   (in_interval (op_beta op) beta_bounds, EBaseBetaBounds);
   (in_interval (op_external_thrust op) thrust_bounds, EBaseThrustBounds)].
End Steady.

(** ** Unsteady trim: the run made for one point asked for, with the default number of
    time steps in still air. *)
Definition trial_run (solve : list (list R) -> list R -> result (list R)) (am : airplane_movement) (op : operating_point)
  : result unsteady_solver :=
  let* m := new_movement [am] (mkopmove op (mkosc 0 0 "sine"%string)) None None None None in
  let* up := new_unsteady_problem m true in
  let* s := unsteady_new up in
  unsteady_run solve true true s.
