(** What numpy.linalg.solve is assumed to do, over exact reals: for a square
    system it returns the solution when there is exactly one and raises
    LinAlgError otherwise.  This is an assumption about a library, stated as a
    hypothesis of the theorems that need it (and shown satisfiable by Gaussian
    elimination in L_Gauss.v). *)
From Verif Require Import M_Base.

Definition matvec (a : list (list R)) (x : list R) : list R :=
  map (fun row => rsum (map2 Rmult row x)) a.
Definition square (a : list (list R)) : Prop := forall row, In row a -> length row = length a.
Definition solves (a : list (list R)) (b x : list R) : Prop := length x = length a /\ matvec a x = b.

Definition SolveSpec (solve : list (list R) -> list R -> result (list R)) : Prop :=
  forall a b, square a -> length b = length a ->
  forall x, solve a b = Ok x <-> solves a b x /\ forall y, solves a b y -> y = x.
