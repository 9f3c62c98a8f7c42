(** Wings that only graze the stream: the loads, the wake and the streamlines of the unsteady solver. *)
From Coq Require Import List ZArith Lia Lra Bool Reals.
From Verif Require Import M_Unsteady S_Solve S_Loads S_Streamlines S_Unsteady S_UnsteadyRun S_Grazing L_Base L_Loads L_Aero L_Horseshoe L_SteadyRing L_RingLegs L_Frames L_RigidShift
  L_Geometry L_Mirror L_Problems L_Wake L_WakeWings L_Unsteady L_UnsteadyStep L_UnsteadyRun L_UnsteadyFinal L_UnsteadyProps L_UnsteadyProps2 L_UnsteadyFlow L_UnsteadyStill L_UnsteadyLoads L_Grazing L_GrazingRun L_Tighten.
Import ListNotations.
Local Open Scope R_scope.
Local Open Scope list_scope.

(** ** How the wake moves *)
Lemma for_wings_ext {S} (f g : S -> wing -> wing -> result (S * wing)) : (forall st t n, f st t n = g st t n) -> forall st ts ns, for_wings f st ts ns = for_wings g st ts ns.
Proof.
  intros H st ts ns. unfold for_wings. apply bind_ext. intros _. revert st ns. induction ts as [|t ts IH]; intros st ns; [reflexivity|]. destruct ns as [|n ns]; [reflexivity|].
  rewrite H. apply bind_ext. intros r. rewrite IH. reflexivity.
Qed.
Lemma for_airplanes_ext {S} (f g : S -> wing -> wing -> result (S * wing)) : (forall st t n, f st t n = g st t n) -> forall st ts ns, for_airplanes f st ts ns = for_airplanes g st ts ns.
Proof.
  intros H st ts ns. unfold for_airplanes. apply bind_ext. intros _. revert st ns. induction ts as [|t ts IH]; intros st ns; [reflexivity|]. destruct ns as [|n ns]; [reflexivity|].
  rewrite (for_wings_ext f g H). apply bind_ext. intros r. rewrite IH. reflexivity.
Qed.
Lemma populate_ext step dt f g heap these nexts : (forall v, f v = g v) -> populate_wake step dt f heap these nexts = populate_wake step dt g heap these nexts.
Proof.
  intros H. unfold populate_wake. rewrite (for_airplanes_ext _ (fun st t n => let* w := next_wake_vertices step g t n in Ok (st, w))); [reflexivity|].
  intros st t n. unfold next_wake_vertices. f_equal. apply bind_ext. intros first. destruct step.
  - rewrite (map_ext _ _ H). reflexivity.
  - rewrite (map_ext (map f) (map g)); [reflexivity|]. intros l. apply map_ext, H.
Qed.
Lemma step_switch solve b b' s k s' sp : nth_error (up_steady_problems (us_problem s)) k = Some sp ->
  unsteady_step solve b s k = Ok s' -> (forall points, unsteady_solution_velocity s' points = Ok (map (fun _ => freestream_velocity (sp_operating_point sp)) points)) ->
  unsteady_step solve b' s k = Ok s'.
Proof.
  intros Hsp E HV. unfold unsteady_step in *. cbn zeta in *. unfold index in E at 1. unfold index at 1. rewrite Hsp in *. cbn [bind] in *.
  apply bind_Ok in E. destruct E as (al & E1 & E). apply bind_Ok in E. destruct E as (rows & E2 & E). apply bind_Ok in E. destruct E as (wake & E3 & E).
  apply bind_Ok in E. destruct E as (la & E4 & E). apply bind_Ok in E. destruct E as (xs & E5 & E). apply bind_Ok in E. destruct E as (a1 & E6 & E).
  apply bind_Ok in E. destruct E as (a2 & E7 & E). apply bind_Ok in E. destruct E as (steps & E8 & E). apply bind_Ok in E. destruct E as (hs & E9 & E).
  rewrite E1; cbn [bind]. rewrite E2; cbn [bind]. rewrite E3; cbn [bind]. rewrite E4; cbn [bind]. rewrite E5; cbn [bind]. rewrite E6; cbn [bind]. rewrite E7; cbn [bind]. rewrite E8; cbn [bind].
  apply Ok_eq in E. subst s'. cbn [unsteady_solution_velocity us_current] in HV.
  match goal with |- bind ?X _ = _ => assert (EX : X = Ok hs) end; [|rewrite EX; reflexivity].
  rewrite <- E9. destruct (Z.of_nat k <? up_num_steps (us_problem s) - 1)%Z; [|reflexivity]. apply bind_ext. intros next. erewrite populate_ext; [reflexivity|].
  intros v. unfold convect_vertex. specialize (HV [v]). unfold unsteady_solution_velocity in HV. cbn [us_current] in HV. apply Ok_eq in HV. rewrite HV. cbn [map nth]. destruct b, b'; reflexivity.
Qed.

Section Loads.
  Variable solve : list (list R) -> list R -> result (list R).
  Hypothesis HS : SolveSpec solve.

  Lemma any_wake b b' up n s : created up -> up_delta_time up <> 0 -> (n <= length (up_steady_problems up))%nat -> grazes_all_along up n -> after solve b up n s -> after solve b' up n s.
  Proof.
    intros HC Hdt. revert s. induction n as [|n IH]; intros s Hn HG HA; [exact HA|]. pose proof HA as HA'. apply after_S in HA. destruct HA as (s1 & HA & E). apply after_S. exists s1.
    assert (HA1 : after solve b' up n s1). { apply IH; [lia| |exact HA]. intros k sp i q Hk. apply (HG k sp i q). lia. }
    split; [exact HA1|].
    destruct (nth_in_range (up_steady_problems up) n ltac:(lia)) as [sp0 H0].
    pose proof (steps_kept solve HS b up n s1 HC (or_introl HA)) as FK. destruct (Forall2_nth_l _ _ _ FK _ _ H0) as (sp & Hsp & HK).
    apply (step_switch solve b b' s1 n s sp Hsp E). intros points.
    pose proof (proj1 (unsteady_still solve HS b up (S n) s HC (or_introl HA') Hdt) HG) as HZ.
    rewrite (still_velocity_points solve HS b up n s HC (or_introl HA')) by (intros j Hj; apply HZ; lia).
    rewrite (freestream_kept solve HS b up (S n) s n sp0 HC (or_introl HA') H0), (proj1 HK). reflexivity.
  Qed.
  Lemma any_wake_run b b' lines up s : created up -> up_delta_time up <> 0 -> grazes_all_along up (length (up_steady_problems up)) -> finished solve b lines up s -> finished solve b' lines up s.
  Proof.
    intros HC Hdt HG (s0 & E0 & E). exists s0. split; [exact E0|]. unfold unsteady_run, unsteady_run_with in *. apply bind_Ok in E. destruct E as (s1 & E1 & E). apply bind_Ok in E. destruct E as (s2 & E2 & E).
    rewrite E1. cbn [bind].
    assert (EN : Z.to_nat (up_num_steps (us_problem s1)) = length (up_steady_problems up)).
    { destruct (created_meshed _ _ HC E0) as [F HM]. pose proof (mp_size _ _ HM) as HN. unfold unsteady_new in E0. apply bind_Ok in E0. destruct E0 as (sp0 & _ & E0). apply Ok_eq in E0. subst s0.
      unfold unsteady_start in E1. apply bind_Ok in E1. destruct E1 as (cs & _ & E1). apply bind_Ok in E1. destruct E1 as (st & _ & E1). apply Ok_eq in E1. subst s1. cbn. lia. }
    rewrite EN in *. assert (HA : after solve b up (length (up_steady_problems up)) s2) by (exists s0, s1; auto).
    apply (any_wake b b' up _ s2 HC Hdt (le_n _) HG) in HA. destruct HA as (s0' & s1' & E0' & E1' & E2'). rewrite E0 in E0'. apply Ok_eq in E0'. subst s0'. rewrite E1 in E1'. apply Ok_eq in E1'. subst s1'.
    rewrite E2'. exact E.
  Qed.

  Variable prescribed : bool.

  (** ** The flow *)
  Lemma grazing_flow up n s : created up -> has_run solve prescribed up (S n) s -> up_delta_time up <> 0 -> grazes_all_along up (S n) ->
    forall points, unsteady_solution_velocity s points = Ok (map (fun _ => freestream_at s n) points).
  Proof.
    intros HC HR Hdt HG. pose proof (proj1 (unsteady_still solve HS prescribed up (S n) s HC HR Hdt) HG) as HZ. apply (still_velocity_points solve HS prescribed up n s HC HR). intros j Hj. apply HZ. lia.
  Qed.
  Lemma grazing_wake up n s grids : created up -> has_run solve prescribed up n s -> up_delta_time up <> 0 -> grazes_all_along up n -> forall k, (k <= n)%nat -> wake_is s k grids ->
    forall r, In r (concat (map (@concat ring_vortex) grids)) -> rv_strength r = 0.
  Proof.
    intros HC HR Hdt HG k Hk HW. pose proof (proj1 (unsteady_still solve HS prescribed up n s HC HR Hdt) HG) as HZ. apply (still_wake _ _ _ HW). intros j Hj. apply HZ. lia.
  Qed.

  (** ** The loads *)
  Lemma panel_places s k sp a w c j p : step_at s k sp -> In a (sp_airplanes sp) -> In w (a_wings a) -> at_position (w_panels w) c j p -> exists i, panel_place s k i a w c j p.
  Proof.
    intros Hsp Ha Hw Hp. assert (Hin : In (a, w, p) (flat_panels (sp_airplanes sp))).
    { apply in_flat. split; [exact Ha|]. split; [exact Hw|]. apply in_ravel_position. exists c, j. exact Hp. }
    apply In_nth_error in Hin. destruct Hin as [i Hi]. exists i, sp. auto.
  Qed.
  Lemma newest_unloaded up n s sp a : created up -> has_run solve prescribed up (S n) s -> up_delta_time up <> 0 -> grazes_all_along up (S n) -> (up_first_results_step up <= Z.of_nat n)%Z ->
    step_at s n sp -> In a (sp_airplanes sp) -> unloaded (sp_operating_point sp) a.
  Proof.
    intros HC HR Hdt HG Hf Hsp Ha. pose proof (proj1 (unsteady_still solve HS prescribed up (S n) s HC HR Hdt) HG) as HZ.
    destruct (newest_ok solve HS prescribed up n s HC HR) as (sp' & rows & la & xs & grids & HN). assert (sp' = sp) by (pose proof (nw_step _ _ _ _ _ _ _ _ HN); unfold step_at in *; congruence). subst sp'.
    pose proof (nw_loads _ _ _ _ _ _ _ _ HN) as HL. destruct (Z.leb_spec (up_first_results_step up) (Z.of_nat n)) as [_|X]; [|lia]. destruct HL as (a1 & loads & _ & Ep).
    apply process_forces_sound in Ep. destruct Ep as (us & rest & _ & F). pose proof Ha as Ha'. apply In_nth_error in Ha'. destruct Ha' as [i Hi].
    assert (X : exists b fms, totalled (sp_operating_point sp) b fms a).
    { revert i Hi. clear -F. induction F as [|b fms a' bs fs as' H F IH]; intros [|i] Hi; try discriminate; [cbn in Hi; apply Some_eq in Hi; subst; eauto | exact (IH i Hi)]. }
    destruct X as (b & fms & HT). apply (unloaded_from _ b fms a HT). intros p Hp. apply in_airplane_panels in Hp. destruct Hp as (w & Hw & Hp). apply in_ravel_position in Hp. destruct Hp as (c & j & Hp).
    destruct (panel_places s n sp a w c j p Hsp Ha Hw Hp) as [i' HP].
    destruct (unsteady_kutta_joukowski solve HS prescribed up n s i' a w c j p HC HR Hdt Hf HP) as (op & r & ur & uf & ul & vr & vf & vl & g & _ & Er & _ & _ & _ & _ & _ & _ & _ & Hg & HF).
    assert (HC0 : forall c' j', circulation (w_panels w) c' j' = 0).
    { intros c' j'. unfold circulation. destruct (nth_error (w_panels w) c') as [row|] eqn:Erow; [|reflexivity]. destruct (nth_error row j') as [q|] eqn:Eq; [|reflexivity].
      assert (Hq : In q (step_panels sp)).
      { apply in_all_panels. exists a. split; [exact Ha|]. apply in_airplane_panels. exists w. split; [exact Hw|]. apply in_ravel_position. exists c', j', row. auto. }
      pose proof (HZ n (Nat.lt_succ_diag_r _) sp q Hsp Hq) as Z. unfold strength_of in Z. exact Z. }
    assert (R0 : rv_strength r = 0).
    { assert (Hq : In p (step_panels sp)).
      { apply in_all_panels. exists a. split; [exact Ha|]. apply in_airplane_panels. exists w. split; [exact Hw|]. apply in_ravel_position. exists c, j. exact Hp. }
      pose proof (HZ n (Nat.lt_succ_diag_r _) sp p Hsp Hq) as Z. unfold strength_of in Z. rewrite Er in Z. exact Z. }
    assert (G0 : g = 0).
    { destruct n as [|m]; cbn in Hg; [exact Hg|]. destruct Hg as (q & (sq & Hsq & Hq) & ->). apply (HZ m ltac:(lia) sq q Hsq). eapply nth_error_In. exact Hq. }
    assert (NR : net_right (w_panels w) c j = 0) by (unfold net_right; rewrite !HC0; ring).
    assert (NF : net_front (w_panels w) c j = 0) by (unfold net_front; destruct c; rewrite !HC0; ring).
    assert (NL : net_left (w_panels w) c j = 0) by (unfold net_left; destruct j; rewrite !HC0; ring).
    cbn zeta in HF. rewrite NR, NF, NL, R0, G0 in HF. destruct HF as [-> ->].
    assert (Z0 : forall d v, vscale (d * 0) v = vzero) by (intros; apply vec_ext; cbn; ring).
    assert (Z1 : forall d e v, vscale (d * ((0 - 0) / up_delta_time up) * e) v = vzero) by (intros; apply vec_ext; cbn; field; exact Hdt).
    rewrite !Z0, !Z1. split; f_equal; apply vec_ext; cbn; ring.
  Qed.
  Lemma grazing_unloaded up n s k sp a : created up -> has_run solve prescribed up n s -> up_delta_time up <> 0 -> grazes_all_along up n -> (k < n)%nat -> (up_first_results_step up <= Z.of_nat k)%Z ->
    step_at s k sp -> In a (sp_airplanes sp) -> unloaded (sp_operating_point sp) a.
  Proof.
    intros HC HR Hdt HG Hk Hf Hsp Ha. destruct (has_run_earlier solve HS prescribed up n s (S k) HC HR Hk) as (sk & HRk).
    apply (proj2 (record_kept _ HS _ _ _ _ _ _ k HC HRk HR (le_n _) Hk)) in Hsp. apply (newest_unloaded up k sk sp a HC HRk Hdt); try assumption.
    intros j sp' i q Hj. apply (HG j sp' i q). lia.
  Qed.

  (** ** The final loads *)
  Lemma zero_mean vs m : vs <> [] -> (forall v, In v vs -> v = vzero) -> mean_is vs m -> m = vzero.
  Proof.
    intros Hne HZ H. unfold mean_is in H. rewrite (vsum_zeros vs HZ) in H. assert (L : INR (length vs) <> 0) by (destruct vs; [congruence | apply not_0_INR; discriminate]).
    apply (vscale_cancel (INR (length vs)) m vzero L). rewrite H. apply vec_ext; cbn; ring.
  Qed.
  Lemma zero_rms vs r : vs <> [] -> (forall v, In v vs -> v = vzero) -> rms_is vs r -> r = vzero.
  Proof.
    intros Hne HZ H. assert (L : INR (length vs) <> 0) by (destruct vs; [congruence | apply not_0_INR; discriminate]).
    assert (HC : forall coordinate, In coordinate [vx; vy; vz] -> coordinate vzero = 0 -> coordinate r = 0).
    { intros co Hco E0. destruct (H co Hco) as [_ E]. assert (Z : rsum (map (fun v => co v ^ 2) vs) = 0).
      { clear -HZ E0. induction vs as [|v vs IH]; [reflexivity|]. cbn [map]. rewrite rsum_cons, IH, (HZ v (or_introl eq_refl)), E0 by (intros; apply HZ; right; assumption). ring. }
      rewrite Z in E. apply Rmult_integral in E. destruct E as [E|E]; [contradiction|]. apply Rsqr_0_uniq. rewrite Rsqr_pow2. exact E. }
    apply vec_ext; cbn; apply HC; cbn; auto.
  Qed.
  Lemma unloaded_load op a get fl : unloaded op a -> In (get, fl) load_lists -> (dynamic_pressure op <> 0 /\ a_s_ref a <> 0 /\ a_b_ref a <> 0 /\ a_c_ref a <> 0) \/ fl = fl_forces \/ fl = fl_moments -> get a = Some vzero.
  Proof.
    intros (_ & U1 & U2 & U3 & U4) Hin HG. assert (D1 : fl_force_coefficients <> fl_forces /\ fl_force_coefficients <> fl_moments /\ fl_moment_coefficients <> fl_forces /\ fl_moment_coefficients <> fl_moments).
    { set (x := mkfinal [vzero] [vzero; vzero] [vzero; vzero; vzero] []). repeat split; intros E; apply (f_equal (fun f => length (f x))) in E; discriminate. }
    destruct D1 as (D1 & D2 & D3 & D4).
    destruct Hin as [E|[E|[E|[E|[]]]]]; injection E as <- <-; [exact U1 | | exact U2 |]; destruct HG as [(G1 & G2 & G3 & G4)|[G|G]]; try contradiction; auto.
  Qed.
  Lemma grazing_final lines up s get fl : created up -> finished solve prescribed lines up s -> 0 < up_delta_time up -> 0 <= up_max_period up -> grazes_all_along up (length (up_steady_problems up)) ->
    In (get, fl) load_lists -> measured up \/ fl = fl_forces \/ fl = fl_moments ->
    forall v, In v (fl (up_final (us_problem s)) ++ fl (up_final_mean (us_problem s)) ++ fl (up_final_rms (us_problem s))) -> v = vzero.
  Proof.
    intros HC HF Hpos Hper HG Hin HM v Hv. assert (Hdt : up_delta_time up <> 0) by lra. set (N := length (up_steady_problems up)) in *. assert (HR : has_run solve prescribed up N s) by (right; split; [exists lines; exact HF | reflexivity]).
    destruct (finished_meshed _ _ _ _ _ HC HF) as [F HMP]. destruct (created_fields _ HC) as (_ & _ & _ & C4 & C5 & _). pose proof (mp_size _ _ HMP) as HN. pose proof (mp_some _ _ HMP) as HN0. fold N in HN, HN0.
    pose proof (window_bounds (up_num_steps up) (up_delta_time up) (up_max_period up) ltac:(lia) Hper Hpos) as HB. rewrite <- C4 in HB.
    assert (HL : forall k sp a, (k < N)%nat -> (up_first_averaging_step up <= Z.of_nat k)%Z -> step_at s k sp -> In a (sp_airplanes sp) -> get a = Some vzero).
    { intros k sp a Hk Hf Hsp Ha. assert (Hf' : (up_first_results_step up <= Z.of_nat k)%Z) by (rewrite C5; destruct (up_only_final_results up); lia).
      pose proof (grazing_unloaded up N s k sp a HC HR Hdt HG Hk Hf' Hsp Ha) as HU. apply (unloaded_load _ _ _ _ HU Hin). destruct HM as [HM|HM]; [left | right; exact HM].
      destruct (Forall2_nth _ _ _ (steps_kept solve HS prescribed up N s HC HR) _ _ Hsp) as (sp0 & H0 & HK). apply In_nth_error in Ha. destruct Ha as [i Ha].
      destruct (Forall2_nth _ _ _ (proj2 HK) _ _ Ha) as (a0 & Ha0 & HA0). pose proof (HM sp0 a0 (nth_error_In _ _ H0) (nth_error_In _ _ Ha0)) as HQ. rewrite (proj1 HK).
      destruct HA0 as (_ & _ & _ & _ & -> & -> & -> & _). exact HQ. }
    destruct (Req_dec (up_max_period up) 0) as [Hp|Hp].
    - destruct (final_loads_static solve HS prescribed lines up s HC HF Hp get fl Hin) as (sp & Hsp & FF & E1 & E2). fold N in Hsp. rewrite E1, E2, !app_nil_r in Hv.
      destruct (Forall2_in_r _ _ _ _ FF Hv) as (a & Ha & Eg). rewrite (HL (N - 1)%nat sp a ltac:(lia)) in Eg; [apply Some_eq in Eg; auto | | exact Hsp | exact Ha]. rewrite C4, Hp, window_static. lia.
    - destruct (final_loads_periodic solve HS prescribed lines up s HC HF Hp get fl Hin) as (E0 & EL & HW). fold N in HW. set (first := Z.to_nat (up_first_averaging_step up)) in *. rewrite E0 in Hv. cbn [app] in Hv.
      assert (Hstep : exists sp, step_at s 0 sp). { destruct (nth_in_range (up_steady_problems up) 0 ltac:(fold N; lia)) as [sp0 H0]. destruct (Forall2_nth_l _ _ _ (steps_kept solve HS prescribed up N s HC HR) _ _ H0) as (sp & Hsp & _). exists sp. exact Hsp. }
      destruct Hstep as [sp0 Hsp0]. destruct (EL 0%nat sp0 Hsp0) as [EL1 EL2].
      assert (HZ : forall i m r, nth_error (fl (up_final_mean (us_problem s))) i = Some m -> nth_error (fl (up_final_rms (us_problem s))) i = Some r -> m = vzero /\ r = vzero).
      { intros i m r Hm Hr. destruct (HW i m r Hm Hr) as (vs & HWin & Hmean & Hrms & _). assert (Hne : vs <> []).
        { intros ->. inversion HWin as [E|]; destruct (N - first)%nat eqn:EN; [|discriminate]. unfold first in EN. lia. }
        assert (HV : forall u, In u vs -> u = vzero).
        { intros u Hu. destruct (Forall2_in_r _ _ _ _ HWin Hu) as (k & Hk & sp & a & Hsp & Ha & Eg). apply in_seq in Hk. rewrite (HL k sp a ltac:(lia) ltac:(unfold first in Hk; lia) Hsp (nth_error_In _ _ Ha)) in Eg. apply Some_eq in Eg. auto. }
        split; [apply (zero_mean vs m Hne HV Hmean) | apply (zero_rms vs r Hne HV Hrms)]. }
      apply in_app_or in Hv. destruct Hv as [Hv|Hv]; apply In_nth_error in Hv; destruct Hv as [i Hi].
      + destruct (nth_in_range (fl (up_final_rms (us_problem s))) i) as [r Hr]; [rewrite EL2, <- EL1; apply nth_error_Some; congruence|]. apply (HZ i v r Hi Hr).
      + destruct (nth_in_range (fl (up_final_mean (us_problem s))) i) as [m Hm]; [rewrite EL1, <- EL2; apply nth_error_Some; congruence|]. apply (HZ i m v Hm Hi).
  Qed.

  (** ** The streamlines *)
  Lemma grazing_streamlines up s : created up -> finished solve prescribed true up s -> up_delta_time up <> 0 -> grazes_all_along up (length (up_steady_problems up)) ->
    exists sp lines, step_at s (length (up_steady_problems up) - 1) sp /\ us_streamline_points s = Some lines /\
      straight_on (freestream_velocity (sp_operating_point sp)) (trailing_midpoints (step_panels sp)) lines.
  Proof.
    intros HC HF Hdt HG. destruct (unsteady_streamlines solve HS prescribed up s HC HF) as (sp & V & lines & Hsp & El & HV & HT). exists sp, lines. split; [exact Hsp|]. split; [exact El|].
    apply (traced_straight V); [|exact HT]. intros points. destruct (finished_meshed _ _ _ _ _ HC HF) as [F HMP]. pose proof (mp_some _ _ HMP) as HN0.
    set (N := length (up_steady_problems up)) in *. assert (EN : N = S (N - 1)) by lia. assert (HR : has_run solve prescribed up (S (N - 1)) s) by (rewrite <- EN; right; split; [exists true; exact HF | reflexivity]).
    rewrite EN in HG. pose proof (grazing_flow up (N - 1) s HC HR Hdt HG points) as E. rewrite HV, (freestream_at_step _ _ _ Hsp) in E. apply Ok_eq in E. exact E.
  Qed.
End Loads.
