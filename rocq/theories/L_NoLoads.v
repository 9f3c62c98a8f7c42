(** Time steps whose loads are not computed. *)
From Coq Require Import List ZArith Lia Lra Bool Reals.
From Verif Require Import M_Unsteady S_Unsteady S_UnsteadyRun S_Geometry S_Loads S_Solve L_Base L_Loads L_Frames L_Horseshoe L_SteadyRing
  L_Geometry L_Meshing L_Movement L_Snapshots L_Problems L_Wake L_UnsteadyRun L_UnsteadyFinal.
Import ListNotations.
Local Open Scope R_scope.
Local Open Scope list_scope.

Definition wing_clean (w : wing) : Prop := Forall (Forall panel_without_loads) (w_panels w).
Definition airplane_clean (a : airplane) : Prop :=
  a_force_wind a = None /\ a_force_coefficients a = None /\ a_moment_wind a = None /\ a_moment_coefficients a = None /\ Forall wing_clean (a_wings a).
Lemma airplane_clean_iff a : airplane_clean a <-> airplane_without_loads a.
Proof.
  unfold airplane_clean, airplane_without_loads, wing_clean. split; intros (H1 & H2 & H3 & H4 & H5); repeat (split; [assumption|]).
  - intros w row p Hw Hr Hp. rewrite Forall_forall in H5. specialize (H5 w Hw). rewrite Forall_forall in H5. specialize (H5 row Hr). rewrite Forall_forall in H5. auto.
  - apply Forall_forall. intros w Hw. apply Forall_forall. intros row Hr. apply Forall_forall. intros p Hp. eauto.
Qed.

(** ** Meshing *)
Lemma Forall_mapi_from {A B} (f : nat -> A -> B) (P : B -> Prop) l : (forall i x, In x l -> P (f i x)) -> forall k, Forall P (mapi_from k f l).
Proof. intros H. induction l as [|x l IH]; intros k; cbn [mapi_from]; constructor; [apply H; left; reflexivity | apply IH; intros; apply H; right; assumption]. Qed.
Lemma section_clean a b c d : Forall (Forall panel_without_loads) (section_panels a b c d).
Proof.
  unfold section_panels, mapi. apply Forall_mapi_from. intros i [[[? ?] ?] ?] _. apply Forall_forall. intros p Hp. apply in_map_iff in Hp. destruct Hp as ([[[? ?] ?] ?] & <- & _). repeat split.
Qed.
Lemma hstack_clean a b : Forall (Forall panel_without_loads) a -> Forall (Forall panel_without_loads) b -> Forall (Forall panel_without_loads) (hstack a b).
Proof.
  unfold hstack. intros HA. revert b. induction HA as [|x a Hx HA IH]; intros b HB; cbn [map2]; [constructor|]. destruct HB; constructor; [apply Forall_app; auto | apply IH; assumption].
Qed.
Lemma mesh_sections_clean w l : forall acc m, Forall (Forall panel_without_loads) acc -> mesh_sections w l acc = Ok m -> Forall (Forall panel_without_loads) m.
Proof.
  induction l as [|i [|o l] IH]; intros acc m HA E; [cbn in E; apply Ok_eq in E; subst; exact HA | cbn in E; apply Ok_eq in E; subst; exact HA |].
  change (mesh_sections w (i :: o :: l) acc) with
    (let* right_panels := right_section w i o in
     let acc := hstack acc right_panels in
     let* acc := if ms_symmetric w then let* left_panels := left_section w i o in Ok (hstack left_panels acc) else Ok acc in
     mesh_sections w (o :: l) acc) in E.
  apply bind_Ok in E. destruct E as (r & Er & E). cbn zeta in E. apply bind_Ok in E. destruct E as (acc' & Ea & E). eapply IH; [|exact E].
  assert (HR : Forall (Forall panel_without_loads) r).
  { unfold right_section in Er. cbn zeta in Er. do 3 (apply bind_Ok in Er; destruct Er as (? & _ & Er)). apply Ok_eq in Er. subst r. apply section_clean. }
  destruct (ms_symmetric w); [|apply Ok_eq in Ea; subst; apply hstack_clean; assumption].
  apply bind_Ok in Ea. destruct Ea as (lp & El & Ea). apply Ok_eq in Ea. subst acc'. apply hstack_clean; [|apply hstack_clean; assumption].
  unfold left_section in El. cbn zeta in El. do 3 (apply bind_Ok in El; destruct El as (? & _ & El)). apply Ok_eq in El. subst lp.
  apply Forall_map. eapply Forall_impl; [|apply section_clean]. intros row H. apply Forall_rev. exact H.
Qed.
Lemma new_wing_clean sections name x y z n sym c nc sp w : new_wing sections name x y z n sym c nc sp = Ok w -> wing_clean w.
Proof.
  unfold new_wing. intros E. cbn zeta in E. repeat (apply bind_Ok in E; destruct E as (? & ? & E)). apply Ok_eq in E. subst w. unfold wing_clean. cbn [w_panels].
  match goal with H : mesh_wing _ _ _ = Ok _ |- _ => unfold mesh_wing in H; apply bind_Ok in H; destruct H as (m & Hm & H); apply Ok_eq in H; subst end.
  apply mesh_sections_clean in Hm; [|apply Forall_forall; intros r Hr; apply repeat_spec in Hr; subst; constructor].
  unfold set_positions, mapi. apply Forall_mapi_from. intros i row Hr. apply Forall_mapi_from. intros j p Hp. rewrite Forall_forall in Hm. specialize (Hm row Hr). rewrite Forall_forall in Hm. exact (Hm p Hp).
Qed.
Lemma snapshot_clean m n dt l i a : generate_airplanes m n dt = Ok l -> nth_error l i = Some a -> airplane_clean a.
Proof.
  intros H Ha. destruct (generated_airplanes _ _ _ _ H) as (_ & _ & xs & ys & zs & hs & _ & _ & _ & EH & HN).
  destruct (HN i a Ha) as (x & y & z & wings & _ & _ & _ & EC & EA). apply mapM_Forall2 in EH.
  assert (HF : Forall2 (fun (wm : wing_movement) w => wing_clean w) (am_wings m) wings).
  { eapply column_Forall2; [|exact EH | exact EC]. cbn beta. intros wm ws w HG Hw. destruct (generated_wings _ _ _ _ HG) as (_ & _ & xs' & ys' & zs' & hs' & _ & _ & _ & _ & HN').
    destruct (HN' i w Hw) as (x' & y' & z' & sections & _ & _ & _ & _ & EW). exact (new_wing_clean _ _ _ _ _ _ _ _ _ _ _ EW). }
  unfold new_airplane in EA. destruct wings as [|w0 wings]; [discriminate|]. apply Ok_eq in EA. subst a. unfold airplane_clean. cbn. repeat (split; [reflexivity|]).
  clear -HF. revert HF. generalize (am_wings m). generalize (w0 :: wings). intros ws wms HF. induction HF; constructor; assumption.
Qed.
Definition step_clean (sp : steady_problem) : Prop := Forall airplane_clean (sp_airplanes sp).
Lemma created_clean up : created up -> Forall step_clean (up_steady_problems up).
Proof.
  intros (ams & om & ns & cy & ch & d & m & only & Em & Eup).
  destruct (movement_lengths _ _ _ _ _ _ _ Em) as (Hn & _ & FG). destruct (unsteady_built _ _ _ Eup) as (_ & U1 & _ & _ & _ & _ & _ & _ & _ & _ & U2 & U3).
  apply Forall_forall. intros sp Hsp. apply In_nth_error in Hsp. destruct Hsp as [i Hi]. destruct (U3 _ _ Hi) as [FL _].
  unfold step_clean. revert FL. generalize (sp_airplanes sp). clear -FG. induction FG as [|am l ams ls [E _] FG IH]; intros la FL; inversion FL; subst; constructor; [|auto].
  eapply snapshot_clean; eassumption.
Qed.

(** ** The solver *)
Lemma mapiM_clean {A B} (P : B -> Prop) (f : nat -> A -> result B) l m : mapiM f l = Ok m -> (forall i x y, In x l -> f i x = Ok y -> P y) -> Forall P m.
Proof.
  intros E H. apply Forall_forall. intros y Hy. apply In_nth_error in Hy. destruct Hy as [i Hi]. destruct (mapiM_nth _ _ _ _ _ E Hi) as (x & Hx & Ef). apply nth_error_In in Hx. eauto.
Qed.
Lemma init_step_clean blank dt sp sp' : unsteady_init_step blank dt sp = Ok sp' -> step_clean sp -> step_clean sp'.
Proof.
  unfold unsteady_init_step, step_clean. cbn zeta. intros E H. apply bind_Ok in E. destruct E as (l & El & E). apply Ok_eq in E. subst sp'. cbn [sp_airplanes].
  apply mapM_Forall2 in El. induction El as [|a b l l' Hab El IH]; [constructor|]. apply Forall_cons_iff in H. destruct H as [H HL]. constructor; [|auto].
  unfold unsteady_init_airplane in Hab. apply bind_Ok in Hab. destruct Hab as (ws & Ews & Hab). apply Ok_eq in Hab. subst b.
  destruct H as (H1 & H2 & H3 & H4 & H5). unfold airplane_clean. cbn [a_set_wings a_force_wind a_force_coefficients a_moment_wind a_moment_coefficients a_wings]. repeat (split; [assumption|]).
  apply mapM_Forall2 in Ews. revert H5. induction Ews as [|w v ws' vs Hw Ews IHw]; intros H5; [constructor|]. apply Forall_cons_iff in H5. destruct H5 as [H5 H5']. constructor; [|auto].
  unfold unsteady_init_wing in Hw. cbn zeta in Hw. apply bind_Ok in Hw. destruct Hw as (m & Em & Hw). apply Ok_eq in Hw. subst v. unfold wing_clean. cbn [w_set_panels w_panels].
  apply (mapiM_clean _ _ _ _ Em). intros i row row' Hr Er. apply (mapiM_clean _ _ _ _ Er). intros j p q Hp Eq.
  unfold wing_clean in H5. rewrite Forall_forall in H5. specialize (H5 row Hr). rewrite Forall_forall in H5. specialize (H5 p Hp).
  unfold unsteady_init_panel in Eq. cbn zeta in Eq. destruct (p_is_trailing_edge p); [apply Ok_eq in Eq; subst q; exact H5|]. apply bind_Ok in Eq. destruct Eq as (nx & _ & Eq). apply Ok_eq in Eq. subst q. exact H5.
Qed.
Lemma strengths_clean l xs m : update_panels unsteady_set_strength l xs = Ok m -> Forall airplane_clean l -> Forall airplane_clean m.
Proof.
  intros E H. apply update_panels_sound in E. destruct E as (useds & rest & _ & F3). induction F3 as [|a u b l' us m' Hab F3 IH]; [constructor|]. apply Forall_cons_iff in H. destruct H as [H HL]. constructor; [|auto].
  destruct Hab as (ws & useds & -> & _ & FW). destruct H as (H1 & H2 & H3 & H4 & H5). unfold airplane_clean. cbn [a_set_wings a_force_wind a_force_coefficients a_moment_wind a_moment_coefficients a_wings]. repeat (split; [assumption|]).
  clear -FW H5. induction FW as [|w v w' ws us ws' Hw FW IH]; [constructor|]. apply Forall_cons_iff in H5. destruct H5 as [H5 H5']. constructor; [|auto].
  destruct Hw as (m & useds & -> & _ & FR). unfold wing_clean in *. cbn [w_set_panels w_panels]. clear -FR H5. induction FR as [|r u r' rs us rs' Hr FR IH]; [constructor|]. apply Forall_cons_iff in H5. destruct H5 as [H5 H5']. constructor; [|auto].
  clear -Hr H5. induction Hr as [|p g q ps gs qs Hp Hr IH]; [constructor|]. apply Forall_cons_iff in H5. destruct H5 as [H5 H5']. constructor; [|auto].
  cbn beta in Hp; unfold unsteady_set_strength in Hp. destruct (p_ring_vortex p); [|discriminate]. apply Ok_eq in Hp. subst q. exact H5.
Qed.
Lemma for_wings_clean {S} (f : S -> wing -> wing -> result (S * wing)) st these nexts st' nexts' :
  (forall st t n st' n', f st t n = Ok (st', n') -> wing_clean n -> wing_clean n') -> for_wings f st these nexts = Ok (st', nexts') -> Forall wing_clean nexts -> Forall wing_clean nexts'.
Proof.
  intros Hf E. unfold for_wings in E. apply bind_Ok in E. destruct E as (_ & _ & E). revert st nexts st' nexts' E. induction these as [|t these IH]; intros st nexts st' nexts' E H; [apply Ok_eq in E; congruence|].
  destruct nexts as [|n nexts]; [apply Ok_eq in E; congruence|]. apply bind_Ok in E. destruct E as ([s1 n1] & E1 & E). apply bind_Ok in E. destruct E as ([s2 ns] & E2 & E). apply Ok_eq in E. cbn [fst snd] in E, E2.
  apply Forall_cons_iff in H. destruct H as [H H']. assert (nexts' = n1 :: ns) by congruence. subst nexts'. constructor; [eapply Hf; eassumption | eapply IH; eassumption].
Qed.
Lemma for_airplanes_clean {S} (f : S -> wing -> wing -> result (S * wing)) st these nexts st' nexts' :
  (forall st t n st' n', f st t n = Ok (st', n') -> wing_clean n -> wing_clean n') -> for_airplanes f st these nexts = Ok (st', nexts') -> Forall airplane_clean nexts -> Forall airplane_clean nexts'.
Proof.
  intros Hf E. unfold for_airplanes in E. apply bind_Ok in E. destruct E as (_ & _ & E). revert st nexts st' nexts' E. induction these as [|t these IH]; intros st nexts st' nexts' E H; [apply Ok_eq in E; congruence|].
  destruct nexts as [|n nexts]; [apply Ok_eq in E; congruence|]. apply bind_Ok in E. destruct E as ([s1 n1] & E1 & E). apply bind_Ok in E. destruct E as ([s2 ns] & E2 & E). apply Ok_eq in E. cbn [fst snd] in E, E2.
  apply Forall_cons_iff in H. destruct H as [H H']. assert (nexts' = a_set_wings n1 n :: ns) by congruence. subst nexts'. constructor; [|eapply IH; eassumption].
  destruct H as (H1 & H2 & H3 & H4 & H5). unfold airplane_clean. cbn [a_set_wings a_force_wind a_force_coefficients a_moment_wind a_moment_coefficients a_wings]. repeat (split; [assumption|]). eapply for_wings_clean; eassumption.
Qed.
Lemma populate_clean step dt convect heap these nexts heap' nexts' : populate_wake step dt convect heap these nexts = Ok (heap', nexts') -> Forall airplane_clean nexts -> Forall airplane_clean nexts'.
Proof.
  unfold populate_wake. intros E H. apply bind_Ok in E. destruct E as ([u l] & E1 & E2). cbn [snd] in E2. eapply for_airplanes_clean; [|exact E2|].
  - intros st t n st' n' Ef Hn. unfold next_wake_rings in Ef. cbn zeta in Ef. do 3 (apply bind_Ok in Ef; destruct Ef as (? & _ & Ef)). apply Ok_eq in Ef. assert (X : n' = w_set_wake (w_wake_vertices n) x n) by congruence. rewrite X. exact Hn.
  - eapply for_airplanes_clean; [|exact E1|exact H]. intros st t n st' n' Ef Hn. cbn beta in Ef. apply bind_Ok in Ef. destruct Ef as (w & Ew & Ef). apply Ok_eq in Ef. assert (w = n') by congruence. subst w.
    unfold next_wake_vertices in Ew. do 2 (apply bind_Ok in Ew; destruct Ew as (? & _ & Ew)). apply Ok_eq in Ew. subst n'. exact Hn.
Qed.
Section Clean.
  Variables (solve : list (list R) -> list R -> result (list R)) (prescribed : bool) (first : Z).
  (** Steps at or after [n], and those before the first with loads, have none. *)
  Definition clean_state (n : nat) (s : unsteady_solver) : Prop :=
    up_first_results_step (us_problem s) = first /\
    forall k sp, (n <= k)%nat \/ (Z.of_nat k < first)%Z -> nth_error (up_steady_problems (us_problem s)) k = Some sp -> step_clean sp.
  Lemma step_clean_state n s s' : unsteady_step solve prescribed s n = Ok s' -> clean_state n s -> clean_state (S n) s'.
  Proof.
    intros E [H1 H2]. unfold unsteady_step in E. cbn zeta in E. apply bind_Ok in E. destruct E as (sp & Esp & E). do 4 (apply bind_Ok in E; destruct E as (? & _ & E)).
    apply bind_Ok in E. destruct E as (xs & _ & E). apply bind_Ok in E. destruct E as (a1 & Ea1 & E). apply bind_Ok in E. destruct E as (a2 & Ea2 & E).
    apply bind_Ok in E. destruct E as (steps & Es & E). apply bind_Ok in E. destruct E as (hs & Ehs & E). apply Ok_eq in E. subst s'.
    unfold clean_state. cbn [us_problem up_set_steps up_first_results_step up_steady_problems]. split; [exact H1|].
    apply index_Some in Esp. unfold set_airplanes in Es. rewrite (proj2 (index_Some _ _ _) Esp) in Es. cbn [bind] in Es. apply Ok_eq in Es.
    assert (Ln : (n < length (up_steady_problems (us_problem s)))%nat) by (apply nth_error_Some; congruence).
    assert (HS : forall k q, (S n <= k)%nat \/ (Z.of_nat k < first)%Z -> nth_error steps k = Some q -> step_clean q).
    { intros k q Hk Hq. rewrite <- Es, set_at_nth in Hq by lia. destruct (Nat.eqb_spec k n) as [->|Hne]; [|apply (H2 k q); [destruct Hk; [left; lia | right; assumption] | exact Hq]].
      destruct Hk as [Hk|Hk]; [lia|]. rewrite H1 in Ea2. destruct (Z.leb_spec first (Z.of_nat n)) as [X|X]; [lia|]. apply Ok_eq in Ea2. subst a2. apply Some_eq in Hq. subst q.
      apply (strengths_clean _ _ _ Ea1). exact (H2 n sp (or_introl (le_n _)) Esp). }
    destruct (Z.of_nat n <? up_num_steps (us_problem s) - 1)%Z; [|apply Ok_eq in Ehs; subst hs; exact HS].
    apply bind_Ok in Ehs. destruct Ehs as (next & En & Ehs). apply bind_Ok in Ehs. destruct Ehs as ([hp nx] & Er & Ehs). apply bind_Ok in Ehs. destruct Ehs as (steps' & Es' & Ehs). apply Ok_eq in Ehs. subst hs. cbn [snd] in *.
    unfold set_airplanes in Es'. rewrite En in Es'. cbn [bind] in Es'. apply Ok_eq in Es'. apply index_Some in En.
    assert (Lm : (S n < length steps)%nat) by (apply nth_error_Some; congruence). intros k q Hk Hq. rewrite <- Es', set_at_nth in Hq by lia.
    destruct (Nat.eqb_spec k (S n)) as [->|Hne]; [|exact (HS k q Hk Hq)]. apply Some_eq in Hq. subst q. unfold step_clean. cbn [sp_airplanes]. apply (populate_clean _ _ _ _ _ _ _ _ Er).
    exact (HS (S n) next (or_introl (le_n _)) En).
  Qed.
End Clean.
Lemma after_clean solve prescribed up n s : created up -> after solve prescribed up n s -> clean_state (up_first_results_step up) n s.
Proof.
  intros HC (s0 & s1 & E0 & E1 & En). revert s En. induction n as [|n IH]; intros s En.
  - cbn in En. apply Ok_eq in En. subst s1. unfold unsteady_new in E0. apply bind_Ok in E0. destruct E0 as (? & _ & E0). apply Ok_eq in E0. subst s0.
    unfold unsteady_start in E1. cbn [us_problem] in E1. apply bind_Ok in E1. destruct E1 as (? & _ & E1). apply bind_Ok in E1. destruct E1 as (steps & Es & E1). apply Ok_eq in E1. subst s.
    split; [reflexivity|]. cbn [us_problem up_set_steps up_steady_problems]. intros k sp _ Hk. apply mapM_Forall2 in Es. destruct (Forall2_nth _ _ _ Es _ _ Hk) as (sp0 & H0 & Ei).
    apply (init_step_clean _ _ _ _ Ei). pose proof (created_clean _ HC) as HF. rewrite Forall_forall in HF. apply HF. exact (nth_error_In _ _ H0).
  - rewrite unsteady_steps_S in En. apply bind_Ok in En. destruct En as (t & Et & En). apply (step_clean_state solve prescribed _ n t s En). apply IH. exact Et.
Qed.
Lemma loads_skipped solve prescribed up n s k sp a : created up -> has_run solve prescribed up n s ->
  (n <= k)%nat \/ (Z.of_nat k < up_first_results_step up)%Z -> step_at s k sp -> In a (sp_airplanes sp) -> airplane_without_loads a.
Proof.
  intros HC HR Hk Hsp Ha. apply airplane_clean_iff. assert (X : exists t, after solve prescribed up n t /\ up_steady_problems (us_problem s) = up_steady_problems (us_problem t)).
  { destruct HR as [HA|[[lines HF] ->]]; [exists s; auto|]. destruct (finished_meshed solve prescribed lines _ _ HC HF) as [F HM].
    destruct (finished_inv _ _ _ _ _ F HF HM) as (sf & f & m & r & HA & _ & _ & Est & _). exists sf. auto. }
  destruct X as (t & HA & Est). destruct (after_clean _ _ _ _ _ HC HA) as [_ H]. unfold step_at in Hsp. rewrite Est in Hsp. specialize (H k sp Hk Hsp). unfold step_clean in H. rewrite Forall_forall in H. auto.
Qed.
Lemma first_results_step up : created up -> up_first_results_step up = (if up_only_final_results up then up_first_averaging_step up else 0%Z).
Proof. intros HC. apply (created_fields _ HC). Qed.
