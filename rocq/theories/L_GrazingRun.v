(** Wings that only graze the stream: the unsteady solver. *)
From Coq Require Import List ZArith Lia Lra Bool Reals.
From Verif Require Import M_Unsteady S_Solve S_Loads S_Streamlines S_Unsteady S_UnsteadyRun S_Vortices S_Grazing L_Base L_Loads L_Aero L_Horseshoe L_SteadyRing L_RingLegs L_Frames
  L_Geometry L_Mirror L_Problems L_Wake L_WakeWings L_Unsteady L_UnsteadyStep L_UnsteadyRun L_UnsteadyFinal L_UnsteadyProps L_UnsteadyProps2 L_UnsteadyFlow L_UnsteadyStill L_UnsteadyLoads L_Grazing L_Tighten.
Import ListNotations.
Local Open Scope R_scope.
Local Open Scope list_scope.

Section Grazing.
  Variable solve : list (list R) -> list R -> result (list R).
  Hypothesis HS : SolveSpec solve.
  Variable prescribed : bool.

  Definition still_air_at (s : unsteady_solver) (k : nat) : Prop := forall sp p, step_at s k sp -> In p (step_panels sp) -> strength_of p = 0.
  Definition uncrossed (s : unsteady_solver) (n : nat) : Prop := forall i p v, panel_of_step s n i p -> apparent_velocity p_collocation_point s n i v ->
    vdot (vadd (freestream_at s n) v) (p_unit_normal p) = 0.

  (** The system that was solved. *)
  Lemma newest_solved up n s sp rows la xs grids : created up -> has_run solve prescribed up (S n) s -> newest up n s sp rows la xs grids ->
    solve (step_matrix rows (op_nu (sp_operating_point sp)))
      (map2 Rminus (map Ropp (step_wake n rows (record_of (concat (map (@concat ring_vortex) grids))) (sp_operating_point sp))) (step_freestream n (up_delta_time up) rows la (sp_operating_point sp))) = Ok xs.
  Proof.
    intros HC HR HN. destruct (has_run_history _ HS _ _ _ _ HC HR) as (F & up1 & conv & sa & HH). pose proof (nw_current _ _ _ _ _ _ _ _ HN) as Ec. rewrite (hi_current _ _ _ _ _ _ _ _ _ HH) in Ec.
    destruct (after_stepped solve HS prescribed F up n sa (hi_meshed _ _ _ _ _ _ _ _ _ HH) (hi_after _ _ _ _ _ _ _ _ _ HH) (hi_bound _ _ _ _ _ _ _ _ _ HH)) as (s1 & s' & conv0 & conv1 & _ & _ & R & _ & St & _).
    destruct St as (sp' & rows' & la' & xs' & a1 & a' & _ & _ & _ & _ & _ & _ & St). cbn zeta in St. destruct St as (Esol & _ & _ & _ & _ & _ & Ecur & _). rewrite Ecur in Ec. apply Some_eq in Ec.
    pose proof (f_equal cu_wing_influences Ec) as E1. pose proof (f_equal cu_freestream_influences Ec) as E2. pose proof (f_equal cu_wake_influences Ec) as E3. pose proof (f_equal cu_strengths Ec) as E4.
    cbn [step_current cu_wing_influences cu_freestream_influences cu_wake_influences cu_strengths] in E1, E2, E3, E4. rewrite <- E1, <- E2, <- E3, <- E4. exact Esol.
  Qed.

  (** The wake of still air. *)
  Lemma still_wake s k grids : wake_is s k grids -> (forall j, (j < k)%nat -> still_air_at s j) -> forall r, In r (concat (map (@concat ring_vortex) grids)) -> rv_strength r = 0.
  Proof.
    intros (sp & Hsp & FG & HW) HZ r Hr. apply in_concat in Hr. destruct Hr as (l & Hl & Hr). apply in_map_iff in Hl. destruct Hl as (g & <- & Hg).
    apply in_concat in Hr. destruct Hr as (row & Hrow & Hr). apply In_nth_error in Hg, Hrow, Hr. destruct Hg as [i Hg], Hrow as [a Hrow], Hr as [b Hr].
    assert (He : entry g a b r) by (exists row; auto). destruct (HW i g a b r Hg He) as (_ & _ & _ & w & (spk & Hspk & Hw) & Hs).
    destruct (Forall2_nth _ _ _ FG _ _ Hg) as (w0 & _ & HG). destruct (entry_range _ _ _ _ _ _ HG He) as [Ha _].
    unfold trailing_strengths in Hs. rewrite nth_error_map in Hs. destruct (nth_error (trailing_panels w) b) as [p|] eqn:Ep; [|discriminate]. cbn in Hs. apply Some_eq in Hs. rewrite <- Hs.
    apply (HZ (k - 1 - a)%nat ltac:(lia) spk p Hspk). rewrite panels_of_wings. apply in_concat. exists (concat (w_panels w)). split; [apply in_map_iff; exists w; split; [reflexivity | eapply nth_error_In; exact Hw]|].
    apply nth_error_In in Ep. unfold trailing_panels in Ep. destruct (w_panels w) as [|row0 m] eqn:Ew; [destruct Ep|]. apply in_concat. exists (last (row0 :: m) []). split; [|exact Ep].
    clear. revert row0. induction m as [|x m IH]; intros row0; [left; reflexivity|]. right. apply (IH x).
  Qed.
  Lemma vsum_still {A} (f : A -> vec) l : (forall x, In x l -> f x = vzero) -> vsum (map f l) = vzero.
  Proof. intros H. apply vsum_zeros. intros v Hv. apply in_map_iff in Hv. destruct Hv as (x & <- & Hx). apply H. exact Hx. Qed.
  Lemma ring_velocity_still nu age x r : rv_strength r = 0 -> ring_velocity nu age x r = vzero.
  Proof. intros E. unfold ring_velocity. rewrite E. apply vsum_still. intros l _. apply line_velocity_zero_strength. Qed.
  Lemma freestream_at_step s k sp : step_at s k sp -> freestream_at s k = freestream_velocity (sp_operating_point sp).
  Proof. intros H. unfold freestream_at. unfold step_at in H. rewrite H. reflexivity. Qed.
  Lemma still_velocity_field up n s : created up -> has_run solve prescribed up (S n) s -> (forall j, (j <= n)%nat -> still_air_at s j) ->
    forall x, unsteady_solution_velocity s [x] = Ok [freestream_at s n].
  Proof.
    intros HC HR HZ x. destruct (velocity_field solve HS prescribed up n s HC HR) as (sp & rs & grids & Hsp & Hrs & HW & HV). cbn zeta in HV. rewrite HV, (freestream_at_step _ _ _ Hsp).
    rewrite (vsum_still (ring_velocity _ 0 x)), vsum_still.
    - do 2 f_equal. apply vec_ext; cbn; ring.
    - intros r Hr. apply ring_velocity_still. apply (still_wake _ _ _ HW); [intros j Hj; apply HZ; lia | exact Hr].
    - intros r Hr. apply ring_velocity_still. destruct (Forall2_in_r _ _ _ _ Hrs Hr) as (p & Hp & E). pose proof (HZ n (le_n _) sp p Hsp Hp) as Z. unfold strength_of in Z. rewrite E in Z. exact Z.
  Qed.
  Lemma still_velocity_points up n s : created up -> has_run solve prescribed up (S n) s -> (forall j, (j <= n)%nat -> still_air_at s j) ->
    forall points, unsteady_solution_velocity s points = Ok (map (fun _ => freestream_at s n) points).
  Proof.
    intros HC HR HZ points. pose proof (still_velocity_field up n s HC HR HZ) as HV. unfold unsteady_solution_velocity in *. destruct (us_current s) as [c|]; [|specialize (HV vzero); discriminate].
    f_equal. unfold current_velocity in *. rewrite velocity_pointwise. apply map_ext. intros x. specialize (HV x). rewrite velocity_pointwise in HV. cbn [map] in HV. apply Ok_eq in HV. apply cons_eq' in HV. apply HV.
  Qed.

  (** One step. *)
  Lemma still_step_iff up n s : created up -> has_run solve prescribed up (S n) s -> up_delta_time up <> 0 -> (forall j, (j < n)%nat -> still_air_at s j) -> (uncrossed s n <-> still_air_at s n).
  Proof.
    intros HC HR Hdt HZ. split.
    - intros HU. destruct (newest_ok solve HS prescribed up n s HC HR) as (sp & rows & la & xs & grids & HN). pose proof (newest_solved _ _ _ _ _ _ _ _ HC HR HN) as Esol.
      destruct (has_run_history _ HS _ _ _ _ HC HR) as (F & up1 & conv & sa & HH). pose proof (hi_time _ _ _ _ _ _ _ _ _ HH) as Et.
      destruct (flapping_nth _ _ _ _ _ _ _ _ rr_collocation la_collocations p_collocation_point HN Hdt Et (or_introl eq_refl)) as [L HV].
      destruct HN as [N1 N2 N3 N4 N5 N6 N7 N8 N9]. set (op := sp_operating_point sp) in *. set (rings := concat (map (@concat ring_vortex) grids)) in *.
      pose proof (still_wake _ _ _ N4 HZ) as HWZ. fold rings in HWZ.
      assert (W0 : forall g, In g (step_wake n rows (record_of rings) op) -> g = 0).
      { unfold step_wake, unsteady_wake_influences. destruct n; [apply repeat_spec|]. intros g Hg. apply In_nth_error in Hg. destruct Hg as [i Hi]. unfold row_dots in Hi. rewrite nth_error_map2, wake_velocity, !nth_error_map in Hi.
        destruct (nth_error rows i) as [row|]; [|discriminate]. cbn in Hi. apply Some_eq in Hi. rewrite <- Hi, vsum_still; [apply vdot_0_l|]. intros r Hr. rewrite (HWZ r Hr). apply quad_zero. }
      assert (F0 : forall g, In g (step_freestream n (up_delta_time up) rows la op) -> g = 0).
      { intros g Hg. apply In_nth_error in Hg. destruct Hg as [i Hi]. unfold step_freestream, unsteady_freestream_influences, freestream_influences, row_dots in Hi.
        rewrite nth_error_map2, nth_error_map, nth_error_map2, !nth_error_map in Hi. destruct (nth_error rows i) as [row|] eqn:Erow; [|discriminate]. cbn [option_map] in Hi.
        destruct (nth_error (flapping_velocities n (up_delta_time up) (map rr_collocation rows) (la_collocations la)) i) as [v|] eqn:Ev; [|discriminate]. apply Some_eq in Hi. subst g.
        destruct (Forall2_nth_l _ _ _ N2 _ _ Erow) as (p & Hp & HL). specialize (HU i p v (ex_intro _ sp (conj N1 Hp)) (HV i v Ev)). rewrite (freestream_at_step _ _ _ N1), vdot_add_l in HU.
        pose proof (proj2 (same_panel_collocation _ _ (proj1 HL))) as En. unfold rr_normal in *. rewrite <- En. rewrite (vdot_comm (p_unit_normal p)), (vdot_comm (p_unit_normal p) v). exact HU. }
      assert (Sq := step_matrix_square rows (op_nu op)).
      match type of Esol with solve ?a ?b = _ => assert (Lb : length b = length a) end.
      { rewrite step_matrix_length. rewrite map2_length, map_length, step_wake_length. unfold step_freestream, unsteady_freestream_influences, freestream_influences, row_dots. rewrite !map2_length, !map_length. rewrite L. lia. }
      assert (X0 : forall g, In g xs -> g = 0).
      { apply (proj1 (solve_zero solve _ _ _ HS Sq Lb Esol)). intros g Hg. apply In_nth_error in Hg. destruct Hg as [i Hi]. rewrite nth_error_map2, nth_error_map in Hi.
        destruct (nth_error (step_wake n rows (record_of rings) op) i) as [a|] eqn:Ea; [|discriminate]. cbn [option_map] in Hi. destruct (nth_error (step_freestream n (up_delta_time up) rows la op) i) as [b|] eqn:Eb; [|discriminate].
        apply Some_eq in Hi. subst g. rewrite (W0 a), (F0 b) by (eapply nth_error_In; eassumption). ring. }
      intros sp' p Hsp' Hp. assert (sp' = sp) by (unfold step_at in *; congruence). subst sp'. apply X0. rewrite <- N3. apply in_map. exact Hp.
    - intros HZn i p v Hp Hv. assert (HZ' : forall j, (j <= n)%nat -> still_air_at s j) by (intros j Hj; destruct (Nat.eq_dec j n) as [->|Hne]; [exact HZn | apply HZ; lia]).
      destruct (no_penetration solve HS prescribed up n s i p HC HR Hdt Hp) as (u & v' & Eu & Hv' & HP). rewrite (still_velocity_field up n s HC HR HZ') in Eu. apply Ok_eq in Eu. apply cons_eq' in Eu. destruct Eu as [<- _].
      assert (Ev : v' = v).
      { destruct n as [|m]; cbn in Hv, Hv'; [congruence|]. destruct Hv as (a & b & (spa & Ha & Ia) & (spb & Hb & Ib) & E), Hv' as (a' & b' & (spa' & Ha' & Ia') & (spb' & Hb' & Ib') & E').
        unfold step_at in *. assert (a' = a) by congruence. assert (b' = b) by congruence. subst a' b'. destruct (has_run_history _ HS _ _ _ _ HC HR) as (F & up1 & conv & sa & HH).
        apply (vscale_cancel (up_delta_time (us_problem s))); [rewrite (hi_time _ _ _ _ _ _ _ _ _ HH); exact Hdt | congruence]. }
      rewrite <- Ev. exact HP.
  Qed.

  (** ** In terms of the problem *)
  Lemma still_later up m n s s' k : created up -> has_run solve prescribed up m s -> has_run solve prescribed up n s' -> (k < m)%nat -> (m <= n)%nat -> (still_air_at s k <-> still_air_at s' k).
  Proof.
    intros HC HR HR' Hk Hm. destruct (record_kept solve HS prescribed up m n s s' k HC HR HR' Hk Hm) as [_ E]. unfold still_air_at. split; intros H sp p Hsp Hp; (apply (H sp p); [apply E; exact Hsp | exact Hp]).
  Qed.
  Lemma panel_kept up n s k i : created up -> has_run solve prescribed up n s ->
    (forall p, panel_of_step s k i p -> exists sp q, nth_error (up_steady_problems up) k = Some sp /\ nth_error (step_panels sp) i = Some q /\ same_panel q p /\ freestream_at s k = freestream_velocity (sp_operating_point sp)) /\
    (forall sp q, nth_error (up_steady_problems up) k = Some sp -> nth_error (step_panels sp) i = Some q -> exists p, panel_of_step s k i p /\ same_panel q p /\ freestream_at s k = freestream_velocity (sp_operating_point sp)).
  Proof.
    intros HC HR. pose proof (steps_kept solve HS prescribed up n s HC HR) as FK. split.
    - intros p (sp' & Hsp' & Hp). destruct (Forall2_nth _ _ _ FK _ _ Hsp') as (sp & Hsp & HK). destruct (Forall2_nth _ _ _ (kept_step_panels _ _ HK) _ _ Hp) as (q & Hq & HQ).
      exists sp, q. rewrite (freestream_at_step _ _ _ Hsp'), (proj1 HK). auto.
    - intros sp q Hsp Hq. destruct (Forall2_nth_l _ _ _ FK _ _ Hsp) as (sp' & Hsp' & HK). destruct (Forall2_nth_l _ _ _ (kept_step_panels _ _ HK) _ _ Hq) as (p & Hp & HP).
      exists p. rewrite (freestream_at_step _ _ _ Hsp'), (proj1 HK). split; [exists sp'; auto | auto].
  Qed.
  Definition grazes_step (up : unsteady_problem) (k : nat) : Prop := forall sp i q, nth_error (up_steady_problems up) k = Some sp -> nth_error (step_panels sp) i = Some q ->
    match k with
    | O => grazes (sp_operating_point sp) q
    | S k' => forall sp' p, nth_error (up_steady_problems up) k' = Some sp' -> nth_error (step_panels sp') i = Some p ->
        vdot (vsub (vscale (up_delta_time up) (freestream_velocity (sp_operating_point sp))) (vsub (p_collocation_point q) (p_collocation_point p))) (p_unit_normal q) = 0
    end.
  Lemma uncrossed_grazes up n s k : created up -> has_run solve prescribed up n s -> up_delta_time up <> 0 -> (uncrossed s k <-> grazes_step up k).
  Proof.
    intros HC HR Hdt. destruct (has_run_history _ HS _ _ _ _ HC HR) as (F & up1 & conv & sa & HH). pose proof (hi_time _ _ _ _ _ _ _ _ _ HH) as Et. clear HH. split.
    - intros HU sp i q Hsp Hq. destruct (proj2 (panel_kept up n s k i HC HR) sp q Hsp Hq) as (p' & Hp' & HP & Ef). destruct (same_panel_collocation _ _ HP) as [Ec En]. destruct k as [|k].
      + specialize (HU i p' vzero Hp' eq_refl). rewrite Ef, En, vadd_0_r in HU. exact HU.
      + intros sp' p Hsp' Hp. destruct (proj2 (panel_kept up n s k i HC HR) sp' p Hsp' Hp) as (r & Hr & HRr & _). destruct (same_panel_collocation _ _ HRr) as [Ec' _].
        specialize (HU i p' (vscale (/ up_delta_time up) (vsub (p_collocation_point r) (p_collocation_point p'))) Hp'). rewrite Ef, En in HU.
        assert (HA : apparent_velocity p_collocation_point s (S k) i (vscale (/ up_delta_time up) (vsub (p_collocation_point r) (p_collocation_point p')))).
        { exists r, p'. split; [exact Hr|]. split; [exact Hp'|]. rewrite Et. apply vec_ext; cbn; field; exact Hdt. }
        specialize (HU HA). rewrite Ec, Ec' in HU. apply (Rmult_eq_reg_l (/ up_delta_time up)); [|apply Rinv_neq_0_compat; exact Hdt]. rewrite Rmult_0_r, <- HU.
        rewrite vdot_add_l. unfold vdot, vsub, vscale. cbn [vx vy vz]. field. exact Hdt.
    - intros HG i p v Hp Hv. destruct (proj1 (panel_kept up n s k i HC HR) p Hp) as (sp & q & Hsp & Hq & HP & Ef). destruct (same_panel_collocation _ _ HP) as [Ec En]. rewrite Ef, En. specialize (HG sp i q Hsp Hq). destruct k as [|k].
      + cbn in Hv. subst v. rewrite vadd_0_r. exact HG.
      + destruct Hv as (r & p1 & Hr & Hp1 & Ev). assert (p1 = p) by (destruct Hp1 as (x & Hx & Hx'), Hp as (y & Hy & Hy'); unfold step_at in *; congruence). subst p1.
        destruct (proj1 (panel_kept up n s k i HC HR) r Hr) as (sp' & q' & Hsp' & Hq' & HP' & _). destruct (same_panel_collocation _ _ HP') as [Ec' _]. specialize (HG sp' q' Hsp' Hq'). rewrite Et, Ec, Ec' in Ev.
        apply (Rmult_eq_reg_l (up_delta_time up)); [|exact Hdt]. rewrite Rmult_0_r, <- HG.
        assert (EQ : vsub (vscale (up_delta_time up) (freestream_velocity (sp_operating_point sp))) (vsub (p_collocation_point q) (p_collocation_point q')) = vscale (up_delta_time up) (vadd (freestream_velocity (sp_operating_point sp)) v)).
        { transitivity (vadd (vscale (up_delta_time up) (freestream_velocity (sp_operating_point sp))) (vscale (up_delta_time up) v)); [rewrite Ev|]; apply vec_ext; cbn; ring. }
        rewrite EQ. unfold vdot, vscale. cbn [vx vy vz]. ring.
  Qed.
  Lemma along_step up n : grazes_all_along up n <-> forall k, (k < n)%nat -> grazes_step up k.
  Proof. unfold grazes_all_along, grazes_step. split; intros H; [intros k Hk sp i q; apply (H k sp i q Hk) | intros k sp i q Hk; apply (H k Hk sp i q)]. Qed.
  Lemma unsteady_still up n s : created up -> has_run solve prescribed up n s -> up_delta_time up <> 0 -> (grazes_all_along up n <-> forall k, (k < n)%nat -> still_air_at s k).
  Proof.
    intros HC HR Hdt. rewrite along_step. split.
    - intros HG k. induction k as [k IH] using lt_wf_ind. intros Hk. destruct (has_run_earlier solve HS prescribed up n s (S k) HC HR Hk) as (sk & HRk).
      apply (still_later up (S k) n sk s k HC HRk HR (Nat.lt_succ_diag_r _) Hk). apply (still_step_iff up k sk HC HRk Hdt).
      + intros j Hj. apply (still_later up (S k) n sk s j HC HRk HR ltac:(lia) Hk). apply IH; lia.
      + apply (uncrossed_grazes up (S k) sk k HC HRk Hdt). apply HG. exact Hk.
    - intros HZ k Hk. destruct (has_run_earlier solve HS prescribed up n s (S k) HC HR Hk) as (sk & HRk). apply (uncrossed_grazes up (S k) sk k HC HRk Hdt).
      assert (HZk : forall j, (j <= k)%nat -> still_air_at sk j) by (intros j Hj; apply (still_later up (S k) n sk s j HC HRk HR ltac:(lia) Hk); apply HZ; lia).
      apply (still_step_iff up k sk HC HRk Hdt); [intros j Hj; apply HZk; lia | apply HZk; lia].
  Qed.
End Grazing.
