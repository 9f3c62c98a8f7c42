(** The velocity a panel says its vortices induce. *)
From Coq Require Import List ZArith Lia Lra Bool Reals.
From Verif Require Import M_Horseshoe M_SteadyRing M_Unsteady S_Unsteady S_UnsteadyRun S_Geometry S_Loads S_Solve S_Mirror S_Solvable L_Base L_Loads L_Horseshoe
  L_SteadyRing L_Geometry L_Meshing L_NoLoads L_Solvable L_MirrorHorseshoe L_RingLegs L_Snapshots L_Wake L_UnsteadyRun L_UnsteadyFinal L_Gauss L_Example L_Example5.
From Verif Require Import L_UnsteadyProps2.
Import ListNotations.
Local Open Scope R_scope.
Local Open Scope list_scope.

Definition bare (p : panel) : Prop := p_ring_vortex p = None /\ p_horseshoe_vortex p = None.
Lemma section_bare a b c d : Forall (Forall bare) (section_panels a b c d).
Proof.
  unfold section_panels, mapi. apply Forall_mapi_from. intros i [[[? ?] ?] ?] _. apply Forall_forall. intros p Hp. apply in_map_iff in Hp. destruct Hp as ([[[? ?] ?] ?] & <- & _). repeat split.
Qed.
Lemma hstack_bare a b : Forall (Forall bare) a -> Forall (Forall bare) b -> Forall (Forall bare) (hstack a b).
Proof.
  unfold hstack. intros HA. revert b. induction HA as [|x a Hx HA IH]; intros b HB; cbn [map2]; [constructor|]. destruct HB; constructor; [apply Forall_app; auto | apply IH; assumption].
Qed.
Lemma mesh_sections_bare w l : forall acc m, Forall (Forall bare) acc -> mesh_sections w l acc = Ok m -> Forall (Forall bare) m.
Proof.
  induction l as [|i [|o l] IH]; intros acc m HA E; [cbn in E; apply Ok_eq in E; subst; exact HA | cbn in E; apply Ok_eq in E; subst; exact HA |].
  change (mesh_sections w (i :: o :: l) acc) with
    (let* right_panels := right_section w i o in
     let acc := hstack acc right_panels in
     let* acc := if ms_symmetric w then let* left_panels := left_section w i o in Ok (hstack left_panels acc) else Ok acc in
     mesh_sections w (o :: l) acc) in E.
  apply bind_Ok in E. destruct E as (r & Er & E). cbn zeta in E. apply bind_Ok in E. destruct E as (acc' & Ea & E). eapply IH; [|exact E].
  assert (HR : Forall (Forall bare) r).
  { unfold right_section in Er. cbn zeta in Er. do 3 (apply bind_Ok in Er; destruct Er as (? & _ & Er)). apply Ok_eq in Er. subst r. apply section_bare. }
  destruct (ms_symmetric w); [|apply Ok_eq in Ea; subst; apply hstack_bare; assumption].
  apply bind_Ok in Ea. destruct Ea as (lp & El & Ea). apply Ok_eq in Ea. subst acc'. apply hstack_bare; [|apply hstack_bare; assumption].
  unfold left_section in El. cbn zeta in El. do 3 (apply bind_Ok in El; destruct El as (? & _ & El)). apply Ok_eq in El. subst lp.
  apply Forall_map. eapply Forall_impl; [|apply section_bare]. intros row H. apply Forall_rev. exact H.
Qed.
Lemma new_wing_bare sections name x y z n sym c nc sp w : new_wing sections name x y z n sym c nc sp = Ok w -> Forall (Forall bare) (w_panels w).
Proof.
  unfold new_wing. intros E. cbn zeta in E. repeat (apply bind_Ok in E; destruct E as (? & ? & E)). apply Ok_eq in E. subst w. cbn [w_panels].
  match goal with H : mesh_wing _ _ _ = Ok _ |- _ => unfold mesh_wing in H; apply bind_Ok in H; destruct H as (m & Hm & H); apply Ok_eq in H; subst end.
  apply mesh_sections_bare in Hm; [|apply Forall_forall; intros r Hr; apply repeat_spec in Hr; subst; constructor].
  unfold set_positions, mapi. apply Forall_mapi_from. intros i row Hr. apply Forall_mapi_from. intros j p Hp. rewrite Forall_forall in Hm. specialize (Hm row Hr). rewrite Forall_forall in Hm. exact (Hm p Hp).
Qed.

Lemma new_wing_velocity sections name x y z n sym c nc sp w p point : new_wing sections name x y z n sym c nc sp = Ok w ->
  In p (concat (w_panels w)) -> p_calculate_induced_velocity p point = Ok vzero.
Proof.
  intros E Hp. apply new_wing_bare in E. apply in_concat in Hp. destruct Hp as (row & Hr & Hp). rewrite Forall_forall in E. specialize (E row Hr). rewrite Forall_forall in E.
  destruct (E p Hp) as [E1 E2]. unfold p_calculate_induced_velocity. rewrite E1, E2. reflexivity.
Qed.
Lemma velocity_ok_iff p point v : p_calculate_induced_velocity p point = Ok v <-> p_ring_vortex p = None /\ p_horseshoe_vortex p = None /\ v = vzero.
Proof.
  unfold p_calculate_induced_velocity. destruct (p_ring_vortex p), (p_horseshoe_vortex p); split; intros H; try discriminate; try (destruct H as (H1 & H2 & H3); discriminate).
  - apply Ok_eq in H. auto.
  - destruct H as (_ & _ & ->). reflexivity.
Qed.
Lemma velocity_error p point e : p_calculate_induced_velocity p point = Err e -> e = EAttributeError.
Proof. unfold p_calculate_induced_velocity. destruct (p_ring_vortex p), (p_horseshoe_vortex p); intros H; congruence. Qed.
Lemma velocity_of_ring p point r : p_ring_vortex p = Some r -> p_calculate_induced_velocity p point = Err EAttributeError.
Proof. unfold p_calculate_induced_velocity. intros ->. reflexivity. Qed.
Lemma velocity_of_horseshoe p point h : p_horseshoe_vortex p = Some h -> p_calculate_induced_velocity p point = Err EAttributeError.
Proof. unfold p_calculate_induced_velocity. intros ->. destruct (p_ring_vortex p); reflexivity. Qed.
Lemma some_of {A} (f : A -> option R) l xs x : map f l = map Some xs -> In x l -> exists y, f x = Some y.
Proof. intros E H. apply (in_map f) in H. rewrite E in H. apply in_map_iff in H. destruct H as (y & Hy & _). eauto. Qed.
Lemma horseshoe_velocity_fails solve s s' p point : SolveSpec solve -> hs_run solve s = Ok s' -> In p (panels_of (hso_airplanes s')) ->
  p_calculate_induced_velocity p point = Err EAttributeError.
Proof.
  intros HS E Hp. rewrite panels_of_all in Hp. destruct (some_of _ _ _ _ (hs_final_strengths _ _ _ HS E) Hp) as [y Hy]. unfold horseshoe_strength in Hy.
  destruct (p_horseshoe_vortex p) as [h|] eqn:Eh; [|discriminate]. exact (velocity_of_horseshoe _ _ _ Eh).
Qed.
Lemma ring_velocity_fails solve airplanes op s' p point : SolveSpec solve -> fresh_ring (ring_new airplanes op) -> ring_run solve (ring_new airplanes op) = Ok s' -> In p (panels_of (rso_airplanes s')) ->
  p_calculate_induced_velocity p point = Err EAttributeError.
Proof.
  intros HS HF E Hp. rewrite panels_of_all in Hp. assert (HZ : sized_ring (ring_new airplanes op)) by (destruct HF as [F1 F2]; split; [rewrite F1 | rewrite F2]; apply repeat_length).
  destruct (some_of _ _ _ _ (ring_final_strengths _ _ _ HS HZ E) Hp) as [y Hy]. destruct (p_ring_vortex p) as [r|] eqn:Er; [|discriminate]. exact (velocity_of_ring _ _ _ Er).
Qed.
Lemma unsteady_velocity_fails solve prescribed up n s k i w c j p point : SolveSpec solve ->
  created up -> has_run solve prescribed up n s -> wing_at s k i w -> at_position (w_panels w) c j p ->
  p_calculate_induced_velocity p point = Err EAttributeError.
Proof. intros HS HC HR HW HP. destruct (bound_rings solve HS prescribed up n s k i w c j p HC HR HW HP) as (r & Er & _). exact (velocity_of_ring _ _ _ Er). Qed.
Lemma plate_velocity_fails : exists s p g, hs_run gauss_solve (hs_new [ex_airplane false] (ex_op 1 10)) = Ok s /\ In p (panels_of (hso_airplanes s)) /\
  horseshoe_strength p = Some g /\ g <> 0 /\ forall point, p_calculate_induced_velocity p point = Err EAttributeError.
Proof.
  destruct (ex_horseshoe_run gauss_solve 1 10 gauss_solve_spec) as (A & s & HA & E & Ex). pose proof (hs_final_strengths _ _ _ gauss_solve_spec E) as F. rewrite Ex in F.
  pose proof (panels_of_all (hso_airplanes s)) as EP. destruct (all_panels (hso_airplanes s)) as [|p [|q l]]; try discriminate. cbn [map] in F.
  exists s, p, (- (10 / 2) / A). assert (Hp : In p (panels_of (hso_airplanes s))) by (rewrite EP; left; reflexivity).
  split; [exact E|]. split; [exact Hp|]. split; [injection F; intros F'; exact F'|]. split.
  - unfold Rdiv. apply Rmult_integral_contrapositive_currified; [lra | apply Rinv_neq_0_compat; lra].
  - intros point. exact (horseshoe_velocity_fails _ _ _ _ point gauss_solve_spec E Hp).
Qed.
