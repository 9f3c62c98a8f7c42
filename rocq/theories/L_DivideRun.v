(** Solving problems whose wings have an extra section. *)
From Coq Require Import List Reals Lra Lia String.
From Verif Require Import M_Geometry M_Loads M_Horseshoe M_SteadyRing S_Wing S_Loads S_Solve S_Mirror S_Solvable S_Size S_Divide L_Base L_Frames L_Mirror L_Geometry L_Snapshots L_SizeSolvers L_Divide.
Import ListNotations.
Local Open Scope R_scope.

Lemma scale_one v : vscale 1 v = v. Proof. vring. Qed.
Lemma resolved_one vs x : resolved 1 vs x.
Proof. intros v s _ _. rewrite !scale_one. destruct s; reflexivity. Qed.
Lemma F2_refl {A} (P : A -> A -> Prop) (l : list A) : (forall x, P x x) -> Forall2 P l l.
Proof. intros H. induction l; constructor; auto. Qed.
Lemma enlarged_one l l' : Forall2 same_airplane l l' -> enlarged_airplanes 1 l l'.
Proof.
  unfold enlarged_airplanes. induction 1 as [|a a' l l' (A1 & A2 & A3 & A4 & A5 & AW) _ IH]; [constructor|]. constructor; [|exact IH].
  unfold enlarged_airplane. rewrite A1, A2, A3, A4, scale_one. repeat (split; [ring || reflexivity|]).
  clear -AW. induction AW as [|w w' ws ws' (S1 & S2) _ IH]; constructor; [|exact IH]. split; [rewrite S1; ring|]. rewrite S2.
  apply F2_refl. intros r. apply F2_refl. intros p. unfold enlarged_panel. rewrite !scale_one. auto.
Qed.
Lemma one_solution strength l l' : Forall2 (enlarged_solution 1 strength) l l' -> Forall2 (same_solution strength) l l'.
Proof.
  assert (S1 : forall n v, vscale (1 ^ n) v = v) by (intros n v; rewrite pow1; apply scale_one).
  induction 1 as [|a a' l l' [(f & n & cf & cn & T1 & T2 & T3 & T4 & T5 & T6 & T7 & T8) (_ & _ & _ & _ & AW)] _ IH]; constructor; [|exact IH].
  unfold same_solution. rewrite T1, T2, T3, T4, T5, T6, T7, T8, !S1. repeat (split; [discriminate || reflexivity|]).
  clear -AW S1. induction AW as [|w w' ws ws' (_ & HP) _ IH]; constructor; [|exact IH].
  induction HP as [|r r' rs rs' HR _ IHr]; constructor; [|exact IHr]. induction HR as [|p p' ps ps' ((P1 & P2 & P3 & P4) & (fg & mg & fw & mw & L1 & L2 & L3 & L4 & L5 & L6 & L7 & L8 & L9 & L10 & L11) & g & G1 & G2) _ IHp]; constructor; [|exact IHp].
  unfold same_results. rewrite !scale_one in P1, P2, P3, P4. rewrite G1, G2, L1, L2, L3, L4, L5, L6, L7, L8, !S1, Rmult_1_l. repeat (split; [assumption || discriminate || reflexivity|]). assumption.
Qed.

Lemma hs_same solve airplanes airplanes' op s : SolveSpec solve -> Forall2 same_airplane airplanes airplanes' ->
  hs_run solve (hs_new airplanes op) = Ok s ->
  exists s', hs_run solve (hs_new airplanes' op) = Ok s' /\ (forall x, hs_solution_velocity s' [x] = hs_solution_velocity s [x]) /\
    Forall2 (same_solution horseshoe_strength) (hso_airplanes s) (hso_airplanes s').
Proof.
  intros HS HA H. destruct (hs_big 1 Rlt_0_1 solve airplanes airplanes' op op s HS) as (s' & H' & HV & HF); [repeat split | apply enlarged_one; exact HA | intros; apply resolved_one | exact H|].
  exists s'. split; [exact H'|]. split; [|apply one_solution; exact HF]. intros x. rewrite <- (HV x (resolved_one _ _)), scale_one. reflexivity.
Qed.
Lemma same_panels a a' : same_airplane a a' -> map w_panels (a_wings a') = map w_panels (a_wings a).
Proof. intros (_ & _ & _ & _ & _ & AW). induction AW as [|w w' ws ws' (_ & S2) _ IH]; [reflexivity|]. cbn [map]. rewrite S2, IH. reflexivity. Qed.
Lemma same_airplane_panels a a' : same_airplane a a' -> airplane_panels a' = airplane_panels a.
Proof.
  intros H. apply same_panels in H. unfold airplane_panels. rewrite <- (map_map w_panels ravel), H, map_map. reflexivity.
Qed.
Lemma same_meshed a a' : same_airplane a a' -> well_meshed_airplane a -> well_meshed_airplane a'.
Proof.
  intros H [HM HN]. split; [|rewrite (same_airplane_panels _ _ H); rewrite <- HN; apply H].
  intros w' Hw'. apply (in_map w_panels) in Hw'. rewrite (same_panels _ _ H) in Hw'. apply in_map_iff in Hw'. destruct Hw' as (w & E & Hw). rewrite <- E. apply HM. exact Hw.
Qed.
Lemma ring_same solve airplanes airplanes' op s : SolveSpec solve -> Forall2 same_airplane airplanes airplanes' ->
  (forall a, In a airplanes -> well_meshed_airplane a) ->
  ring_run solve (ring_new airplanes op) = Ok s ->
  exists s', ring_run solve (ring_new airplanes' op) = Ok s' /\ (forall x, ring_solution_velocity s' [x] = ring_solution_velocity s [x]) /\
    Forall2 (same_solution ring_strength) (rso_airplanes s) (rso_airplanes s').
Proof.
  intros HS HA HM H. destruct (ring_big 1 Rlt_0_1 solve airplanes airplanes' op op s HS) as (s' & H' & HV & HF); [repeat split | apply enlarged_one; exact HA | exact HM | | intros; apply resolved_one | exact H|].
  { intros a' Ha'. apply Forall2_sym in HA. destruct (Forall2_in_l _ _ _ _ HA Ha') as (a & Ha & E). exact (same_meshed _ _ E (HM a Ha)). }
  exists s'. split; [exact H'|]. split; [|apply one_solution; exact HF]. intros x. rewrite <- (HV x (resolved_one _ _)), scale_one. reflexivity.
Qed.

(** ** Airplanes made of such wings *)
Lemma airplane_like wings wings' name name' x y z weight weight' s_ref c_ref b_ref a : Forall2 like_wing wings wings' ->
  new_airplane wings name x y z weight s_ref c_ref b_ref = Ok a ->
  exists a', new_airplane wings' name' x y z weight' s_ref c_ref b_ref = Ok a' /\ same_airplane a a'.
Proof.
  intros HW H. assert (HC : fold_left (fun n w => n + w_num_panels w)%nat wings' 0%nat = fold_left (fun n w => n + w_num_panels w)%nat wings 0%nat).
  { clear H. generalize 0%nat. induction HW as [|w w' ws ws' (_ & H & _) _ IH]; intros n; [reflexivity|]. cbn [fold_left]. rewrite H. apply IH. }
  assert (HF : Forall2 same_surface wings wings') by (clear -HW; induction HW as [|w w' ws ws' (S1 & _ & S3 & _) _ IH]; constructor; [split; assumption | exact IH]).
  destruct HW as [|w w' ws ws' (_ & _ & S3 & S4 & S5) HW]; [discriminate H|]. unfold new_airplane in *. apply Ok_eq in H. eexists. split; [reflexivity|]. subst a.
  unfold same_airplane. cbn [a_s_ref a_c_ref a_b_ref a_num_panels a_wings]. rewrite S3, S4, S5, HC. repeat (split; [reflexivity|]). exact HF.
Qed.
