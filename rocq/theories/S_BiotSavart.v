(** The Biot-Savart law as an integral along the filament. *)
From Coq Require Export Reals RiemannInt.
From Verif Require Import M_Base.

Definition integral (f : R -> R) (lo hi value : R) : Prop :=
  exists integrable : Riemann_integrable f lo hi, RiemannInt integrable = value.
Definition vector_integral (f : R -> vec) (lo hi : R) (value : vec) : Prop :=
  integral (fun t => vx (f t)) lo hi (vx value) /\ integral (fun t => vy (f t)) lo hi (vy value) /\
  integral (fun t => vz (f t)) lo hi (vz value).
(** The velocity that the piece of the straight filament from [a] to [b] at the
    parameter [t] induces at [p], per unit of [t]:
    strength / (4 pi) * dl x r / |r|^3 with r the vector from the piece to [p]. *)
Definition induced_by_piece (p a b : vec) (strength t : R) : vec :=
  let dl := vsub b a in
  let r := vsub p (vadd a (vscale t dl)) in
  vscale (strength / (4 * PI) / vnorm r ^ 3) (vcross dl r).
