(** Circulations along the legs of the rings of a wing and of its image. *)
From Coq Require Import List ZArith Lia Lra Reals Bool Permutation.
From Verif Require Import M_Unsteady S_Solve S_Vortices S_Loads S_Mirror S_Rigid
  L_Base L_Loads L_Aero L_Horseshoe L_SteadyRing L_Frames L_Mirror L_MirrorHorseshoe L_MirrorRing L_Rigid L_Wake L_WakeWings L_Unsteady L_UnsteadyStep L_UnsteadyRun L_UnsteadyFlow
  L_UnsteadyProps L_UnsteadyProps2 L_UnsteadyLoads L_UnsteadyFinal S_Unsteady S_UnsteadyRun S_Image L_Pairs L_ImageGeometry L_ImagePlaces L_ImageWake L_ImageSteps L_ImageFlow.
Import ListNotations.
Local Open Scope R_scope.
Local Open Scope list_scope.

Section Nets.
Context (x : R) (k : bool) (m m' : list (list panel)) (H : rows_image k (fun p p' => strength_of p' = x * strength_of p) m m').
Lemma circulation_image c row s : nth_error m c = Some row -> (s < length row)%nat -> circulation m' c (column_of k (length row) s) = x * circulation m c s.
Proof.
  intros Hc L. destruct (rows_image_pos _ _ _ _ _ _ H Hc) as (row' & Hc' & L' & HP). destruct (nth_in_range row s L) as [p Hp]. destruct (HP s p Hp) as (p' & Hp' & E).
  unfold circulation. rewrite Hc, Hc', Hp, Hp'. exact E.
Qed.
End Nets.
Lemma circulation_outside (n : list (list panel)) c row s : nth_error n c = Some row -> (length row <= s)%nat -> circulation n c s = 0.
Proof. intros Hc L. unfold circulation. rewrite Hc. rewrite (proj2 (nth_error_None row s) L). reflexivity. Qed.
Section Nets2.
Context (x : R) (k : bool) (m m' : list (list panel)) (H : rows_image k (fun p p' => strength_of p' = x * strength_of p) m m').
Lemma nets_image c row s : (forall row, In row m -> length row = length (hd [] m)) -> nth_error m c = Some row -> (s < length row)%nat ->
  let j := column_of k (length row) s in
  net_front m' c j = x * net_front m c s /\
  net_left m' c j = x * (if k then net_left m c s else net_right m c s) /\
  net_right m' c j = x * (if k then net_right m c s else net_left m c s).
Proof.
  intros U Hc L j. pose proof (circulation_image _ _ _ _ H _ _ _ Hc L) as E. destruct (rows_image_pos _ _ _ _ _ _ H Hc) as (row' & Hc' & L' & _). fold j in E.
  split.
  { unfold net_front. rewrite E. destruct c as [|c]; [lra|].
    assert (S c < length m)%nat by (apply nth_error_Some; congruence).
    destruct (nth_in_range m c ltac:(lia)) as [r Hr]. assert (Lr : length r = length row) by (rewrite (U r), (U row); [reflexivity| |]; eapply nth_error_In; eauto).
    unfold j. rewrite <- Lr, (circulation_image _ _ _ _ H _ _ _ Hr) by lia. lra. }
  pose proof (fun s => circulation_image _ _ _ _ H c row s Hc) as CI. unfold net_left, net_right. rewrite E. unfold j in *. clear j. destruct k; cbn [column_of] in *.
  - split; [destruct s as [|s]; [lra|]; rewrite (CI s) by lia; lra|].
    destruct (Nat.eq_dec (S s) (length row)) as [Es|Es].
    + rewrite (circulation_outside m' c row' (S s) Hc'), (circulation_outside m c row (S s) Hc) by lia. lra.
    + rewrite (CI (S s)) by lia. lra.
  - split.
    + destruct (Nat.eq_dec (S s) (length row)) as [Es|Es].
      * replace (length row - 1 - s)%nat with 0%nat by lia. rewrite (circulation_outside m c row (S s) Hc) by lia. lra.
      * replace (length row - 1 - s)%nat with (S (length row - 1 - S s)) by lia. rewrite (CI (S s)) by lia. lra.
    + destruct s as [|s].
      * rewrite (circulation_outside m' c row' _ Hc') by lia. lra.
      * replace (S (length row - 1 - S s)) with (length row - 1 - s)%nat by lia. rewrite (CI s) by lia. lra.
Qed.
End Nets2.
