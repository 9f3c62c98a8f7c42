(** Where streamlines start and how they go on. *)
From Verif Require Import M_Base M_Panel.

(** The middles of the trailing edges, panel by panel. *)
Definition trailing_midpoints (panels : list panel) : list vec :=
  map (fun p => vscale (1 / 2) (vadd (p_back_left p) (p_back_right p))) (filter p_is_trailing_edge panels).
(** 25 explicit steps of 0.02 s from the seed points; row [i] holds the points of all streamlines after [i] steps. *)
Definition traced (velocity : list vec -> list vec) (seeds : list vec) (lines : list (list vec)) : Prop :=
  length lines = 26%nat /\ nth_error lines 0 = Some seeds /\
  forall i row next, nth_error lines i = Some row -> nth_error lines (S i) = Some next ->
    next = map2 (fun x v => vadd x (vscale (2 / 100) v)) row (velocity row).
