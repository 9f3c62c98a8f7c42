(** Shared vocabulary of the model: errors as values, real-number lists and
    small 3-vectors/matrices standing for NumPy arrays.
    No proofs in this file. *)
From Coq Require Export Reals String Ascii ZArith Bool Arith List.
Export ListNotations.
Open Scope R_scope.

(** Python exceptions as values.  One constructor per [raise] (or implicit
    Python/NumPy error) that the modelled code can produce.
    (For instance functions.py:264-267, geometry.py:277-295 and movement.py:124-128.) *)
Inductive err : Type :=
  (* functions.py:266-267 *)
  | EBadLoggingLevel
  (* geometry.py: Airplane *)
  | ENoWings
  (* geometry.py: Wing *)
  | ETooFewSections | EBadChordwiseSpacing | ERootNormalMismatch
  | ERootLeadingEdgeNotZero | EChordwiseNotPerpendicular | ESectionPlane
  (* geometry.py: WingCrossSection *)
  | EBadChord | EBadControlSurfaceType | EBadSpanwiseSpacing
  (* geometry.py: Airfoil *)
  | EBadDeflection | EOddCoordinates
  | EAirfoilNotInDatabase
  (* movement.py *)
  | EStepsAndCycles | ECyclesStatic | EStepsAndChords | EChordsPeriodic
  | EBadSpacing | ENoCustomFunction | ERootSectionMoves
  (* convergence.py / trim.py *)
  | EBadSolverType | EBaseVelocityBounds | EBaseAlphaBounds | EBaseBetaBounds
  | EBaseThrustBounds
  (* implicit Python/NumPy errors *)
  | EIndexError | EAttributeError | EValueError | ETypeError | EKeyError
  | EZeroDivision | ELinAlg | EStopIteration.

(** A returned value or an exception, for instance functions.py:264-267. *)
Inductive result (A : Type) : Type :=
  | Ok (a : A)
  | Err (e : err).
Arguments Ok {A} _.
Arguments Err {A} _.

(** A statement that may raise followed by the rest of the function, for instance geometry.py:313-334. *)
Definition bind {A B} (r : result A) (f : A -> result B) : result B :=
  match r with Ok a => f a | Err e => Err e end.

(** [raise] unless a condition holds.  (For instance geometry.py:295.) *)
Definition check (b : bool) (e : err) : result unit :=
  if b then Ok tt else Err e.

(** The same, written in order: geometry.py:313-334 is a typical use. *)
Notation "'let*' x := e1 'in' e2" := (bind e1 (fun x => e2))
  (at level 200, x pattern, e1 at level 100, e2 at level 200).

(** Run a function that may raise over a list, stopping at the first error
    (a Python [for] loop whose body may raise).  (For instance geometry.py:313-328.) *)
Fixpoint mapM {A B} (f : A -> result B) (l : list A) : result (list B) :=
  match l with
  | [] => Ok []
  | x :: xs => let* y := f x in let* ys := mapM f xs in Ok (y :: ys)
  end.

(** Indexing a Python sequence: out of range raises [IndexError].
    (For instance movement.py:1200.) *)
Definition index {A} (l : list A) (i : nat) : result A :=
  match nth_error l i with Some x => Ok x | None => Err EIndexError end.

(** Boolean comparisons of reals (Python's [==], [<], [<=] on floats).
    (For instance geometry.py:295.) *)
Definition Reqb (x y : R) : bool := if Req_EM_T x y then true else false.
(** For instance convergence.py:401. *)
Definition Rltb (x y : R) : bool := if Rlt_dec x y then true else false.
(** For instance geometry.py:607. *)
Definition Rleb (x y : R) : bool := if Rle_dec x y then true else false.

(** [sum] of a list of reals, left to right as in NumPy's [+=] loops.
    (For instance movement.py:151.) *)
Definition rsum (l : list R) : R := fold_left Rplus l 0.

(** [range(n)] as reals is [map INR (seq 0 n)]. *)

(** [np.linspace(a, b, n)] with endpoint: [a + i*(b-a)/(n-1)], the single
    value [a] for [n = 1], empty for [n = 0].  (NumPy; used throughout.).
    (For instance functions.py:89 and meshing.py:52.) *)
Definition linspace (a b : R) (n : nat) : list R :=
  map (fun i => a + INR i * ((b - a) / INR (n - 1))) (seq 0 n).

(** [np.linspace(a, b, n, endpoint=False)]: step [(b-a)/n].  (For instance movement.py:1390.) *)
Definition linspace_open (a b : R) (n : nat) : list R :=
  map (fun i => a + INR i * ((b - a) / INR n)) (seq 0 n).

(** ** 3-vectors: NumPy arrays of shape (3,) *)
(** For instance panel.py:145. *)
Record vec : Type := mkvec { vx : R; vy : R; vz : R }.

(** The zero array, for instance functions.py:317-318. *)
Definition vzero : vec := mkvec 0 0 0.
(** array + array, for instance panel.py:189. *)
Definition vadd (u v : vec) : vec := mkvec (vx u + vx v) (vy u + vy v) (vz u + vz v).
(** array - array, for instance panel.py:145. *)
Definition vsub (u v : vec) : vec := mkvec (vx u - vx v) (vy u - vy v) (vz u - vz v).
(** - array, for instance functions.py:686. *)
Definition vopp (u : vec) : vec := mkvec (- vx u) (- vy u) (- vz u).
(** scalar * array, for instance panel.py:410. *)
Definition vscale (k : R) (u : vec) : vec := mkvec (k * vx u) (k * vy u) (k * vz u).
(** array / scalar.  (For instance panel.py:254.) *)
Definition vdiv (u : vec) (k : R) : vec := mkvec (vx u / k) (vy u / k) (vz u / k).
(** [np.dot] of two (3,) arrays.  (For instance geometry.py:295.) *)
Definition vdot (u v : vec) : R := vx u * vx v + vy u * vy v + vz u * vz v.
(** [np.cross].  (For instance panel.py:344.) *)
Definition vcross (u v : vec) : vec :=
  mkvec (vy u * vz v - vz u * vy v)
        (vz u * vx v - vx u * vz v)
        (vx u * vy v - vy u * vx v).
(** [np.linalg.norm].  (For instance panel.py:241.) *)
Definition vnorm (u : vec) : R := sqrt (vdot u u).
(** componentwise equality test, [np.array_equal] on (3,) arrays.
    (For instance geometry.py:277.) *)
Definition veqb (u v : vec) : bool :=
  Reqb (vx u) (vx v) && Reqb (vy u) (vy v) && Reqb (vz u) (vz v).
(** sum of vectors, left to right from the zero array.  (For instance functions.py:324-333.) *)
Definition vsum (l : list vec) : vec := fold_left vadd l vzero.

(** ** 3x3 matrices by rows *)
(** NumPy arrays of shape (3, 3), for instance operating_point.py:113. *)
Record mat : Type := mkmat { r0 : vec; r1 : vec; r2 : vec }.

(** [M @ v].  (For instance functions.py:303.) *)
Definition mvmul (m : mat) (v : vec) : vec :=
  mkvec (vdot (r0 m) v) (vdot (r1 m) v) (vdot (r2 m) v).
(** [np.transpose].  (For instance functions.py:294.) *)
Definition mtrans (m : mat) : mat :=
  mkmat (mkvec (vx (r0 m)) (vx (r1 m)) (vx (r2 m)))
        (mkvec (vy (r0 m)) (vy (r1 m)) (vy (r2 m)))
        (mkvec (vz (r0 m)) (vz (r1 m)) (vz (r2 m))).
(** [A @ B].  (For instance operating_point.py:136.) *)
Definition mmul (a b : mat) : mat :=
  let bt := mtrans b in
  mkmat (mvmul bt (r0 a)) (mvmul bt (r1 a)) (mvmul bt (r2 a)).
(** np.eye(3), for instance operating_point.py:113. *)
Definition mid : mat := mkmat (mkvec 1 0 0) (mkvec 0 1 0) (mkvec 0 0 1).
(** The determinant: not in the code, used to say what a rotation is (functions.py:94-145). *)
Definition mdet (m : mat) : R := vdot (r0 m) (vcross (r1 m) (r2 m)).

(** ** Lists of lists as NumPy matrices *)

(** Row-major flattening, [np.ravel].  (For instance functions.py:324.) *)
Definition ravel {A} (m : list (list A)) : list A := concat m.

(** [np.hstack] of two matrices with equally many rows.  (For instance meshing.py:151.) *)
Fixpoint hstack {A} (a b : list (list A)) : list (list A) :=
  match a, b with
  | x :: xs, y :: ys => (x ++ y) :: hstack xs ys
  | _, _ => []
  end.

(** Elementwise operations on two arrays, for instance panel.py:189. *)
Fixpoint map2 {A B C} (f : A -> B -> C) (a : list A) (b : list B) : list C :=
  match a, b with
  | x :: xs, y :: ys => f x y :: map2 f xs ys
  | _, _ => []
  end.

(** The body of enumerate below, for instance functions.py:298. *)
Fixpoint mapi_from {A B} (k : nat) (f : nat -> A -> B) (l : list A) : list B :=
  match l with [] => [] | x :: xs => f k x :: mapi_from (S k) f xs end.
(** [for i, x in enumerate(l)].  (For instance functions.py:298.) *)
Definition mapi {A B} (f : nat -> A -> B) (l : list A) : list B := mapi_from 0 f l.
