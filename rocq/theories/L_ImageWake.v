(** Rows of wake rings and their images. *)
From Coq Require Import List ZArith Lia Lra Reals Bool Permutation.
From Verif Require Import M_Unsteady S_Vortices S_Loads S_Mirror S_Rigid
  L_Base L_Loads L_Aero L_Mirror L_MirrorHorseshoe L_MirrorRing L_Rigid L_Wake L_UnsteadyProps
  S_Unsteady S_UnsteadyRun S_Image L_Pairs L_ImageGeometry L_ImagePlaces.
Import ListNotations.
Local Open Scope R_scope.
Local Open Scope list_scope.

Lemma row_nth {A B} (P : A -> B -> Prop) (k : bool) l l' i x : Forall2 P l (if k then l' else rev l') -> nth_error l i = Some x ->
  exists x', nth_error l' (column_of k (length l) i) = Some x' /\ P x x'.
Proof.
  intros F Hi. destruct (Forall2_nth_l _ _ _ F i x Hi) as (x' & Hx' & HP). exists x'. split; [|exact HP].
  pose proof (Forall2_length _ _ _ F) as L. rewrite (row_length k l') in L. assert (i < length l)%nat by (apply nth_error_Some; congruence).
  rewrite nth_error_row in Hx' by lia. rewrite L. exact Hx'.
Qed.
Lemma row_nth_intro {A B} (P : A -> B -> Prop) (k : bool) l l' : length l' = length l ->
  (forall i x x', nth_error l i = Some x -> nth_error l' (column_of k (length l) i) = Some x' -> P x x') -> Forall2 P l (if k then l' else rev l').
Proof.
  intros L H. apply Forall2_from_nth; [rewrite (row_length k l'); lia|]. intros i x x' Hx Hx'. apply (H i); [exact Hx|].
  assert (i < length l)%nat by (apply nth_error_Some; congruence). rewrite nth_error_row in Hx' by lia. rewrite <- L. exact Hx'.
Qed.
Lemma rev_if {A B} (k : bool) (f : A -> B) l : (if k then map f l else rev (map f l)) = map f (if k then l else rev l).
Proof. destruct k; [reflexivity | symmetry; apply map_rev]. Qed.

Section Rings.
Context (m : mat) (t : vec) (c : R).
Notation mv := (moved m t).
(** Rings of a wake and their images: their strengths are related by the factor [c]. *)
Definition wake_ring_image (k : bool) (r r' : ring_vortex) : Prop :=
  ring_image m t k r r' /\ rv_strength r' = c * rv_strength r /\ rv_age r' = rv_age r.
Lemma rings_between_image (k : bool) age n front back g front' back' g' : length front = S n -> length back = S n -> length g = n ->
  Forall2 (fun v v' => v' = mv v) front (if k then front' else rev front') -> Forall2 (fun v v' => v' = mv v) back (if k then back' else rev back') ->
  Forall2 (fun x x' => x' = c * x) g (if k then g' else rev g') ->
  Forall2 (wake_ring_image k) (rings_between age front back g) (if k then rings_between age front' back' g' else rev (rings_between age front' back' g')).
Proof.
  intros Lf Lb Lg Ff Fb Fg.
  assert (Lf' : length front' = S n) by (pose proof (Forall2_length _ _ _ Ff) as X; rewrite (row_length k front') in X; lia).
  assert (Lb' : length back' = S n) by (pose proof (Forall2_length _ _ _ Fb) as X; rewrite (row_length k back') in X; lia).
  assert (Lg' : length g' = n) by (pose proof (Forall2_length _ _ _ Fg) as X; rewrite (row_length k g') in X; lia).
  assert (LR : length (rings_between age front back g) = n) by (rewrite rings_between_length; lia).
  apply row_nth_intro; [rewrite !rings_between_length by lia; lia|]. rewrite LR. intros i r r' Hr Hr'.
  assert (Hi : (i < n)%nat) by (rewrite <- LR; apply nth_error_Some; congruence).
  destruct (nth_error front i) as [fl|] eqn:E1; [|apply nth_error_None in E1; lia]. destruct (nth_error front (S i)) as [fr|] eqn:E2; [|apply nth_error_None in E2; lia].
  destruct (nth_error back i) as [bl|] eqn:E3; [|apply nth_error_None in E3; lia]. destruct (nth_error back (S i)) as [br|] eqn:E4; [|apply nth_error_None in E4; lia].
  destruct (nth_error g i) as [x|] eqn:E5; [|apply nth_error_None in E5; lia].
  rewrite (rings_between_nth age g _ _ _ _ _ _ _ _ E1 E2 E3 E4 E5) in Hr. apply Some_eq' in Hr. subst r.
  destruct (row_nth _ _ _ _ _ _ Ff E1) as (fl' & A1 & ->). destruct (row_nth _ _ _ _ _ _ Ff E2) as (fr' & A2 & ->).
  destruct (row_nth _ _ _ _ _ _ Fb E3) as (bl' & A3 & ->). destruct (row_nth _ _ _ _ _ _ Fb E4) as (br' & A4 & ->).
  destruct (row_nth _ _ _ _ _ _ Fg E5) as (x' & A5 & ->). rewrite Lf in A1, A2. rewrite Lb in A3, A4. rewrite Lg in A5.
  destruct k; cbn [column_of] in *.
  - rewrite (rings_between_nth age g' _ _ _ _ _ _ _ _ A1 A2 A3 A4 A5) in Hr'. apply Some_eq' in Hr'. subst r'. split; [|split; reflexivity].
    split; [exact (proj1 (aged_ring_spec age fl fr bl br x))|]. split; [exact (proj1 (aged_ring_spec age _ _ _ _ _))|]. repeat split.
  - replace (S n - 1 - i)%nat with (S (n - 1 - i)) in A1, A3 by lia. replace (S n - 1 - S i)%nat with (n - 1 - i)%nat in A2, A4 by lia.
    rewrite (rings_between_nth age g' _ _ _ _ _ _ _ _ A2 A1 A4 A3 A5) in Hr'. apply Some_eq' in Hr'. subst r'. split; [|split; reflexivity].
    split; [exact (proj1 (aged_ring_spec age fl fr bl br x))|]. split; [exact (proj1 (aged_ring_spec age _ _ _ _ _))|]. repeat split.
Qed.
Lemma rings_from_image (k : bool) dt n V V' G G' : forall i, Forall (fun row => length row = S n) V -> Forall (fun row => length row = n) G ->
  rows_image k (fun v v' => v' = mv v) V V' -> rows_image k (fun x x' => x' = c * x) G G' -> rows_image k (wake_ring_image k) (rings_from dt i V G) (rings_from dt i V' G').
Proof.
  intros i HV HG FV FG. revert i G G' HG FG. induction FV as [|front front' V V' H FV IH]; intros i G G' HG FG; [constructor|].
  destruct FG as [|g g' G G' Hg FG]; [constructor|]. cbn [rings_from]. destruct FV as [|back back' V V' H2 FV]; [constructor|].
  apply Forall_cons_iff in HV. destruct HV as [L1 HV]. apply Forall_cons_iff in HG. destruct HG as [L2 HG]. pose proof (proj1 (Forall_cons_iff _ _ _) HV) as [L3 _].
  constructor; [apply (rings_between_image k _ n); assumption|]. apply IH; assumption.
Qed.
End Rings.
Lemma rows_image_flat {A B} (k : bool) (P : A -> B -> Prop) R R' : rows_image k P R R' -> exists l, Permutation l (concat R') /\ Forall2 P (concat R) l.
Proof.
  intros F. induction F as [|r r' R R' H F (l & Pl & Fl)]; [exists []; split; constructor|].
  exists ((if k then r' else rev r') ++ l). cbn [concat]. split; [|apply Forall2_app; assumption]. apply Permutation_app; [apply (row_perm k) | exact Pl].
Qed.
Lemma vsum_Forall2_lin m l l' : Forall2 (fun u v => v = mvmul m u) l l' -> vsum l' = mvmul m (vsum l).
Proof. intros F. induction F as [|u v l l' -> F IH]; [symmetry; apply lin_zero|]. rewrite !vsum_cons, IH, lin_add. reflexivity. Qed.
(** The velocity induced by the rings of a wing's wake. *)
Definition rings_velocity (nu : R) (x : vec) (rings : list ring_vortex) : vec :=
  vsum (map (fun r => quad_velocity x (rv_back_right r) (rv_front_right r) (rv_front_left r) (rv_back_left r) (rv_strength r) (rv_age r) nu) rings).
Lemma rings_velocity_image mirror m t (k : bool) nu x R R' : isometric mirror m -> rows_image k (wake_ring_image m t (sense mirror k) k) R R' ->
  rings_velocity nu (moved m t x) (concat R') = mvmul m (rings_velocity nu x (concat R)).
Proof.
  intros HI HR. destruct (rows_image_flat _ _ _ _ HR) as (l & Pl & Fl). unfold rings_velocity. rewrite <- (vsum_perm _ _ (Permutation_map _ Pl)). clear Pl HR.
  apply vsum_Forall2_lin. induction Fl as [|r r' l1 l2 (H1 & H2 & H3) Fl IH]; cbn [map]; constructor; [|exact IH]. rewrite H2, H3. apply (image_quad_strength mirror m t HI k x r r' _ _ _ H1).
Qed.
Lemma rings_velocity_concat nu x Rs : rings_velocity nu x (concat Rs) = vsum (map (rings_velocity nu x) Rs).
Proof.
  unfold rings_velocity. induction Rs as [|R Rs IH]; [reflexivity|]. cbn [concat]. rewrite map_app, vsum_app, IH. cbn [map]. rewrite vsum_cons. reflexivity.
Qed.
