(** The strengths of an unsteady run, stated of rings that exist. *)
From Verif Require Import M_Unsteady S_Solve S_Mirror S_Loads S_Unsteady S_UnsteadyRun S_Grazing L_Base L_Loads L_Horseshoe L_SteadyRing L_UnsteadyProps2 L_UnsteadyFlow L_GrazingRun.
Import ListNotations.
Local Open Scope R_scope.

Section Props.
  Variable solve : list (list R) -> list R -> result (list R).
  Hypothesis HS : SolveSpec solve.
  Variable prescribed : bool.

  Lemma panel_has_ring up n s k sp p : created up -> has_run solve prescribed up n s -> step_at s k sp -> In p (step_panels sp) -> exists r, p_ring_vortex p = Some r.
  Proof.
    intros HC HR Hsp Hp. rewrite panels_of_wings in Hp. apply in_concat in Hp. destruct Hp as (l & Hl & Hp). apply in_map_iff in Hl. destruct Hl as (w & <- & Hw).
    apply In_nth_error in Hw. destruct Hw as [i Hw]. apply in_concat in Hp. destruct Hp as (row & Hrow & Hp). apply In_nth_error in Hrow, Hp. destruct Hrow as [c Hrow], Hp as [j Hp].
    assert (HWi : wing_at s k i w) by (exists sp; auto). assert (HA : at_position (w_panels w) c j p) by (exists row; auto).
    destruct (bound_rings _ HS _ _ _ _ _ _ _ _ _ _ HC HR HWi HA) as (r & Hr & _). eauto.
  Qed.
  Lemma unsteady_grazing up n s : created up -> has_run solve prescribed up n s -> up_delta_time up <> 0 ->
    (grazes_all_along up n <-> forall k sp p, (k < n)%nat -> step_at s k sp -> In p (step_panels sp) -> ring_strength p = Some 0).
  Proof.
    intros HC HR Hdt. rewrite (unsteady_still solve HS prescribed up n s HC HR Hdt). unfold still_air_at, ring_strength, strength_of. split.
    - intros H k sp p Hk Hsp Hp. destruct (panel_has_ring _ _ _ _ _ _ HC HR Hsp Hp) as [r Hr]. specialize (H k Hk sp p Hsp Hp). rewrite Hr in *. cbn. congruence.
    - intros H k Hk sp p Hsp Hp. specialize (H k sp p Hk Hsp Hp). destruct (p_ring_vortex p); [cbn in H; congruence | discriminate].
  Qed.
End Props.
