(** Specifications of elementary geometry, independent of the modelled code. *)
From Verif Require Import M_Base.

(** A proper rotation: preserves every dot product and orientation. *)
Definition proper_rotation (m : mat) : Prop :=
  (forall u v, vdot (mvmul m u) (mvmul m v) = vdot u v) /\ mdet m = 1.

(** [f] preserves all distances. *)
Definition isometry (f : vec -> vec) : Prop :=
  forall p q, vnorm (vsub (f p) (f q)) = vnorm (vsub p q).

(** The plane through [q] with normal [n]. *)
Definition on_plane (n q p : vec) : Prop := vdot n (vsub p q) = 0.

Definition midpoint (p q : vec) : vec := vscale (/ 2) (vadd p q).

(** The point a fraction [t] of the way from [p] to [q]. *)
Definition along (p q : vec) (t : R) : vec := vadd (vscale (1 - t) p) (vscale t q).

(** The mirror image of [p] in the plane through [q] with unit normal [n]:
    go twice the signed distance to the plane back along the normal. *)
Definition mirror (n q p : vec) : vec := vsub p (vscale (2 * vdot n (vsub p q)) n).

Definition strictly_increasing (l : list R) : Prop :=
  forall i j x y, (i < j)%nat -> nth_error l i = Some x -> nth_error l j = Some y -> x < y.
