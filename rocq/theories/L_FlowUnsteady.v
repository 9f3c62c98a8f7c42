(** The flow of the unsteady solver. *)
From Coq Require Import Reals Lra Lia.
From Verif Require Import M_Base M_Aero M_Unsteady S_Solve S_Vortices S_Loads S_Unsteady S_UnsteadyRun S_Solvable S_Flow
  L_Base L_Aero L_Loads L_UnsteadyFlow L_Flow L_Flow2 L_Flow3 L_FlowSolvers.
Local Open Scope R_scope.

Definition ring_segments (age : R) (r : ring_vortex) : list segment := map (fun s => mkseg (fst s) (snd s) (rv_strength r) age) (ring_legs r).
Lemma ring_segments_velocity nu age y r : vsum (map (segment_velocity nu y) (ring_segments age r)) = ring_velocity nu age y r.
Proof. reflexivity. Qed.
Lemma rings_velocity nu (age : ring_vortex -> R) y rs : vsum (map (segment_velocity nu y) (concat (map (fun r => ring_segments (age r) r) rs))) = vsum (map (fun r => ring_velocity nu (age r) y r) rs).
Proof. induction rs as [|r rs IH]; [reflexivity|]. cbn [map concat]. rewrite map_app, vsum_app, IH, vsum_cons. reflexivity. Qed.
Lemma rings_ends (age : ring_vortex -> R) rs s : In s (concat (map (fun r => ring_segments (age r) r) rs)) -> exists r, In r rs /\ In (ends s) (ring_legs r) /\ sg_age s = age r.
Proof.
  intros H. apply in_concat in H. destruct H as (l & Hl & Hs). apply in_map_iff in Hl. destruct Hl as (r & <- & Hr). exists r. split; [exact Hr|].
  unfold ring_segments in Hs. apply in_map_iff in Hs. destruct Hs as ([a b] & <- & Hs). split; [exact Hs | reflexivity].
Qed.
Section Unsteady.
  Variable solve : list (list R) -> list R -> result (list R).
  Hypothesis HS : SolveSpec solve.
  Variable prescribed : bool.
  Definition step_segments (rs wake : list ring_vortex) : list segment := concat (map (fun r => ring_segments 0 r) rs) ++ concat (map (fun r => ring_segments (rv_age r) r) wake).
  Lemma unsteady_flow up n s : created up -> has_run solve prescribed up (S n) s -> exists sp rs grids, step_at s n sp /\
    Forall2 (fun p r => p_ring_vortex p = Some r) (step_panels sp) rs /\ wake_is s n grids /\ Forall ring_consistent rs /\
    forall y, unsteady_solution_velocity s [y] = Ok [streamed (op_nu (sp_operating_point sp)) (step_segments rs (concat (map (@concat ring_vortex) grids))) (freestream_velocity (sp_operating_point sp)) y].
  Proof.
    intros HC HR. destruct (velocity_field solve HS prescribed up n s HC HR) as (sp & rs & grids & H1 & H2 & H3 & HV). exists sp, rs, grids. repeat (split; [assumption|]). split.
    - destruct (newest_ok solve HS prescribed up n s HC HR) as (sp' & rows & la & xs & grids' & HN). destruct HN as [N1 N2 _ _ _ _ _ _ _].
      assert (sp' = sp) by (unfold step_at in N1, H1; congruence). subst sp'. clear -N2 H2. revert rs H2. induction N2 as [|row p rows ps (_ & r & Hr & HC & _) _ IH]; intros rs H2; inversion H2 as [|? r' ? rs' Hr' HR']; subst; constructor; [|apply IH; assumption].
      assert (r' = r) by congruence. subst r'. exact HC.
    - intros y. cbn zeta in HV. rewrite HV. unfold streamed, step_segments. rewrite map_app, vsum_app. rewrite (rings_velocity _ (fun _ => 0)), (rings_velocity _ rv_age). reflexivity.
  Qed.
  Lemma step_ends rs wake s : In s (step_segments rs wake) -> exists r, In r (rs ++ wake) /\ In (ends s) (ring_legs r).
  Proof.
    intros H. unfold step_segments in H. apply in_app_or in H. destruct H as [H|H].
    - destruct (rings_ends (fun _ => 0) _ _ H) as (r & Hr & K & _). exists r. split; [apply in_or_app; left; exact Hr | exact K].
    - destruct (rings_ends rv_age _ _ H) as (r & Hr & K & _). exists r. split; [apply in_or_app; right; exact Hr | exact K].
  Qed.
  Lemma unsteady_incompressible up n s : created up -> has_run solve prescribed up (S n) s -> exists V sp rs grids, (forall y, unsteady_solution_velocity s [y] = Ok [V y]) /\ step_at s n sp /\
    Forall2 (fun p r => p_ring_vortex p = Some r) (step_panels sp) rs /\ wake_is s n grids /\
    forall x, (forall r g, In r (rs ++ concat (map (@concat ring_vortex) grids)) -> In g (ring_legs r) -> off_threshold x g) -> incompressible V x.
  Proof.
    intros HC HR. destruct (unsteady_flow up n s HC HR) as (sp & rs & grids & H1 & H2 & H3 & _ & HV). eexists _, sp, rs, grids. split; [exact HV|]. repeat (split; [assumption|]).
    intros x Hx. apply streamed_incompressible. intros g Hg. destruct (step_ends _ _ _ Hg) as (r & Hr & K). exact (Hx r _ Hr K).
  Qed.
  Lemma unsteady_settles up n s : created up -> has_run solve prescribed up (S n) s -> exists V sp, (forall y, unsteady_solution_velocity s [y] = Ok [V y]) /\ step_at s n sp /\ settles V (freestream_velocity (sp_operating_point sp)).
  Proof.
    intros HC HR. destruct (unsteady_flow up n s HC HR) as (sp & rs & grids & H1 & H2 & H3 & _ & HV). eexists _, sp. split; [exact HV|]. split; [exact H1|]. apply streamed_settles.
  Qed.
  Lemma legs_joined r : ring_consistent r -> joined (ring_legs r) /\ start (ring_legs r) = finish (ring_legs r).
  Proof.
    intros ((F1 & F2 & _) & (L1 & L2 & _) & (B1 & B2 & _) & (R1 & R2 & _) & _). unfold ring_legs. cbn [map]. rewrite F1, F2, L1, L2, B1, B2, R1, R2. split; [apply closed_joined | reflexivity].
  Qed.
  Lemma no_wake s grids : wake_is s 0 grids -> concat (map (@concat ring_vortex) grids) = [].
  Proof.
    intros (sp & _ & HF & _). induction HF as [|w g ws gs (L & _) _ IH]; [reflexivity|]. cbn [map concat]. rewrite IH. destruct g; [reflexivity | discriminate L].
  Qed.
  Lemma first_irrotational up s : created up -> has_run solve prescribed up 1 s -> exists V sp rs, (forall y, unsteady_solution_velocity s [y] = Ok [V y]) /\ step_at s 0 sp /\
    Forall2 (fun p r => p_ring_vortex p = Some r) (step_panels sp) rs /\
    forall x, (forall r g, In r rs -> In g (ring_legs r) -> well_clear x g) -> irrotational V x.
  Proof.
    intros HC HR. destruct (unsteady_flow up 0 s HC HR) as (sp & rs & grids & H1 & H2 & H3 & H4 & HV). rewrite (no_wake _ _ H3) in HV. eexists _, sp, rs. split; [exact HV|]. repeat (split; [assumption|]).
    intros x Hx. destruct (streamed_curl (op_nu (sp_operating_point sp)) (step_segments rs []) (freestream_velocity (sp_operating_point sp)) x) as (J & A & B).
    - intros g Hg. destruct (step_ends _ _ _ Hg) as (r & Hr & K). rewrite app_nil_r in Hr. exact (Hx r _ Hr K).
    - intros g Hg. unfold step_segments in Hg. cbn [map concat] in Hg. rewrite app_nil_r in Hg. destruct (rings_ends (fun _ => 0) _ _ Hg) as (r & _ & _ & K). exact K.
    - exists J. split; [exact A|]. rewrite B. unfold step_segments. cbn [map concat]. rewrite app_nil_r. clear -H4. induction H4 as [|r rs HCr _ IH]; [reflexivity|].
      cbn [map concat]. rewrite map_app, vsum_app, IH, vadd_0_r. unfold ring_segments. rewrite map_map. cbn [sg_strength sg_origin sg_termination]. destruct (legs_joined r HCr) as (HJ & HE). rewrite (joined_spin x (rv_strength r) _ HJ), HE. generalize (spin x (rv_strength r) (finish (ring_legs r))). intros u. vring.
  Qed.
End Unsteady.

(** One ring vortex, without a core. *)
Lemma quad_irrotational br fr fl bl g nu x : (forall s, In s (closed_path br fr fl bl) -> well_clear x s) ->
  exists V, (forall y, collapsed_ring [y] [br] [fr] [fl] [bl] [g] None nu = [V y]) /\ irrotational V x.
Proof.
  intros H. exists (fun y => vsum (map (fun s => line_velocity y (fst s) (snd s) g 0 nu) (closed_path br fr fl bl))). split.
  - intros y. unfold closed_path. cbn [map fst snd]. pose proof (ring_four_legs y br fr fl bl g 0 nu) as E. exact E.
  - destruct (flow_curl [closed_path br fr fl bl] [g] vzero x) as (J & A & B); [intros v s [<-|[]]; apply H|]. exists J. split.
    + eapply ext_field; [|exact A]. intros y. unfold flow_of. cbn [map2]. rewrite vsum_cons, vsum_nil, !vadd_0_r. f_equal. apply map_ext. intros s. apply line_velocity_nu_age0.
    + rewrite B. cbn [map2]. rewrite vsum_cons, vsum_nil, vadd_0_r, joined_spin by apply closed_joined. unfold start, finish, closed_path. cbn [hd last fst snd]. generalize (spin x g br). intros u. vring.
Qed.
