(** What happens in the example runs of the unsteady solver. *)
From Coq Require Import List ZArith Lia Lra Bool Reals String.
From Verif Require Import M_Unsteady S_Unsteady S_UnsteadyRun S_Geometry S_Vortices S_Loads S_Solve S_Movement L_Base L_Loads L_Horseshoe L_SteadyRing L_RingLegs L_Aero L_Frames
  L_Geometry L_Movement L_Snapshots L_Problems L_Example L_Example3 L_Gauss L_Wake L_WakeWings L_Unsteady L_UnsteadyStep L_UnsteadyRun L_UnsteadyFinal L_UnsteadyProps L_UnsteadyProps2 L_UnsteadyFlow L_UnsteadyStill L_Example4.
Import ListNotations.
Local Open Scope R_scope.
Local Open Scope list_scope.

(** The problem of the example and its run. *)
Definition windy_case (o : oscillation) (prescribed lines only : bool) (up : unsteady_problem) (s : unsteady_solver) : Prop :=
  (exists m, new_movement [ex_airplane_movement 0 resting] (windy o) (Some 3%Z) None None (Some 1) = Ok m /\ new_unsteady_problem m only = Ok up) /\
  finished gauss_solve prescribed lines up s.
Lemma windy_runs o prescribed lines only : In o [resting; gust] -> exists up s, windy_case o prescribed lines only up s.
Proof.
  intros Ho. destruct (windy_problem o only Ho) as (m & up & a & Hm & Hup & Edt & Hlen & Ea & Hst).
  destruct (windy_run gauss_solve gauss_solve_spec prescribed o up a (windy_created _ _ _ _ Hm Hup) Edt ltac:(rewrite Hlen; lia) Ea Hst lines) as [s Hs]. exists up, s. split; [eauto | exact Hs].
Qed.
Lemma windy_facts o prescribed lines only up s : In o [resting; gust] -> windy_case o prescribed lines only up s ->
  created up /\ up_delta_time up = 1 /\ List.length (up_steady_problems up) = 3%nat /\ has_run gauss_solve prescribed up 3 s /\
  (forall k, (k <= 3)%nat -> exists sk, after gauss_solve prescribed up k sk) /\
  exists m a, new_movement [ex_airplane_movement 0 resting] (windy o) (Some 3%Z) None None (Some 1) = Ok m /\ new_unsteady_problem m only = Ok up /\ a_wings a = [ex_wing false] /\
    forall k sp, nth_error (up_steady_problems up) k = Some sp -> sp_airplanes sp = [a] /\
    exists v, 3 <= v /\ sp_operating_point sp = mkop 1 v 30 0 0 (1506 / 100000000) /\ (k = 0%nat -> v = 4) /\ (o = gust -> k = 1%nat -> v = 5) /\ (o = resting -> v = 4).
Proof.
  intros Ho [(m & Hm & Hup) HF]. destruct (windy_problem o only Ho) as (m' & up' & a & Hm' & Hup' & Edt & Hlen & Ea & Hst).
  assert (m' = m) by congruence. subst m'. assert (up' = up) by congruence. subst up'. pose proof (windy_created _ _ _ _ Hm Hup) as HC.
  split; [exact HC|]. split; [exact Edt|]. split; [exact Hlen|]. split; [right; rewrite Hlen; eauto|]. split; [|eauto 8].
  intros k Hk. destruct (finished_meshed _ _ _ _ _ HC HF) as [F HM]. destruct (finished_inv _ _ _ _ _ _ HF HM) as (sf & _ & _ & _ & HA & _).
  apply (after_prefix _ _ _ _ _ k HA). rewrite Hlen. exact Hk.
Qed.

(** The only panel of a step. *)
Lemma windy_case_panel o prescribed lines only up s n t k sp : In o [resting; gust] -> windy_case o prescribed lines only up s -> has_run gauss_solve prescribed up n t -> step_at t k sp ->
  exists p r v d, step_panels sp = [p] /\ same_panel ex_panel p /\ p_ring_vortex p = Some r /\ ring_consistent r /\
      3 <= v /\ sp_operating_point sp = mkop 1 v 30 0 0 (1506 / 100000000) /\ 0 < d /\
      rv_front_left r = mkvec 1 0 0 /\ rv_front_right r = mkvec 1 1 0 /\ rv_back_left r = mkvec (5 + (v / 4) * d) 0 (v / 4 / 2) /\ rv_back_right r = mkvec (5 + (v / 4) * d) 1 (v / 4 / 2).
Proof.
  intros Ho HW HR Hsp. destruct (windy_facts _ _ _ _ _ _ Ho HW) as (HC & Edt & Hlen & _ & _ & m & a & Hm & Hup & Ea & Hst).
  exact (windy_panel gauss_solve gauss_solve_spec prescribed o up a (windy_created _ _ _ _ Hm Hup) Edt Ea Hst n t k sp HR Hsp).
Qed.
(** The steps of the example exist in every state. *)
Lemma windy_step o prescribed lines only up s n t k : In o [resting; gust] -> windy_case o prescribed lines only up s -> has_run gauss_solve prescribed up n t -> (k < 3)%nat ->
  exists sp p w, step_at t k sp /\ step_panels sp = [p] /\ panel_of_step t k 0 p /\ wing_at t k 0 w /\ step_wings sp = [w] /\ w_num_spanwise_panels w = 1%nat /\ trailing_panels w = [p].
Proof.
  intros Ho HW HR Hk. destruct (windy_facts _ _ _ _ _ _ Ho HW) as (HC & Edt & Hlen & _ & _ & m & a & Hm & Hup & Ea & Hst).
  pose proof (steps_kept _ gauss_solve_spec _ _ _ _ HC HR) as FK. rewrite <- Hlen in Hk. destruct (nth_in_range _ _ Hk) as [sp0 H0].
  destruct (Forall2_nth_l _ _ _ FK _ _ H0) as (sp & Hsp & K). destruct (windy_case_panel _ _ _ _ _ _ _ _ _ _ Ho HW HR Hsp) as (p & r & v & d & EP & _).
  pose proof (kept_step_wings _ _ K) as FW. destruct (Hst _ _ H0) as [EA _]. unfold step_wings at 1 in FW. rewrite EA in FW. cbn [map concat] in FW. rewrite Ea in FW. cbn [app] in FW.
  inversion FW as [|? w ? ws [Ew Fw] Fr X1 X2]; subst. inversion Fr; subst. symmetry in X2.
  cbn [ex_wing w_panels ex_panels] in Fw. change (set_positions 1 [[plain_panel 0 1]]) with [[ex_panel]] in Fw.
  inversion Fw as [|? row ? rows Frow Frows Y1 Y2]; subst. inversion Frows; subst. inversion Frow as [|? p' ? ps HP Fps Z1 Z2]; subst. inversion Fps; subst. symmetry in Y2.
  assert (EP' : step_panels sp = [p']) by (rewrite panels_of_wings, X2; cbn [map concat app]; rewrite Y2; reflexivity). rewrite EP' in EP. apply (f_equal (fun l => nth 0 l ex_panel)) in EP. cbn [nth] in EP. subst p'.
  exists sp, p, w. split; [exact Hsp|]. split; [exact EP'|]. split; [exists sp; rewrite EP'; auto|]. split; [exists sp; rewrite X2; auto|]. split; [exact X2|].
  split; [rewrite Ew; reflexivity | unfold trailing_panels; rewrite Y2; reflexivity].
Qed.

(** The plate sheds: its ring vortex has a strength in the first step. *)
Lemma windy_strength o prescribed lines only up s t sp : In o [resting; gust] -> windy_case o prescribed lines only up s -> has_run gauss_solve prescribed up 1 t -> step_at t 0 sp ->
  exists p r, step_panels sp = [p] /\ p_ring_vortex p = Some r /\ rv_strength r <> 0.
Proof.
  intros Ho HW HR Hsp. destruct (windy_facts _ _ _ _ _ _ Ho HW) as (HC & Edt & _).
  destruct (windy_case_panel _ _ _ _ _ _ _ _ _ _ Ho HW HR Hsp) as (p & r & v & d & EP & HP & Hr & HCr & Hv & EO & _). exists p, r. split; [exact EP|]. split; [exact Hr|].
  intros E0. assert (Hp : panel_of_step t 0 0 p) by (exists sp; rewrite EP; auto).
  destruct (no_penetration _ gauss_solve_spec _ _ _ _ _ _ HC HR ltac:(rewrite Edt; lra) Hp) as (u & w & Hu & Hw & HN). cbn [apparent_velocity] in Hw. subst w.
  destruct (velocity_field _ gauss_solve_spec _ _ _ _ HC HR) as (sp' & rs & grids & Hsp' & Frs & Hg & HV). assert (sp' = sp) by (unfold step_at in *; congruence). subst sp'.
  rewrite HV in Hu. apply Ok_eq in Hu. apply (f_equal (fun l => nth 0 l vzero)) in Hu. cbn [nth] in Hu.
  rewrite EP in Frs. inversion Frs as [|? r' ? rs' Hr' Frs' X1 X2]; subst. inversion Frs'; subst. assert (r' = r) by congruence. subst r'.
  assert (EG : concat (map (@concat ring_vortex) grids) = []).
  { destruct Hg as (sp' & _ & FG & _). clear - FG. induction FG as [|w g ws gs [Hl _] FG IH]; [reflexivity|]. cbn [map concat]. rewrite IH. destruct g; [reflexivity | discriminate Hl]. }
  rewrite EG in HN. cbn [map] in HN.
  rewrite (ring_velocity_quad _ _ _ r HCr), E0 in HN.
  rewrite EO in HN. destruct (ex_direction 1 v) as (d' & Hd' & ED1 & ED2). 
  assert (EF : freestream_velocity (mkop 1 v 30 0 0 (1506 / 100000000)) = vscale v (mkvec d' 0 (1 / 2))) by (unfold freestream_velocity; rewrite <- ED2; reflexivity).
  rewrite EF in HN.
  destruct (same_panel_collocation _ _ HP) as [EQ1 EQ2]. destruct ex_panel_points as (Q1 & Q2 & _). rewrite EQ2, Q2 in HN.
  assert (EZ : forall x y z q c nu, quad_velocity x y z q c 0 0 nu = vzero).
  { intros. unfold quad_velocity. rewrite !line_velocity_zero_strength. vunfold. apply vec_ext; cbn; lra. }
  rewrite EZ in HN. revert HN. vunfold. cbn. intros HN. nra.
Qed.

(** After the run the wake ring of step 1 is older than its record. *)
Lemma windy_aliased o prescribed lines only up s : In o [resting; gust] -> windy_case o prescribed lines only up s ->
  exists w id ring wk, wing_at s 1 0 w /\ w_wake_rings w = [[id]] /\ nth_error (us_heap s) id = Some ring /\ rv_age ring = 1 /\
    nth_error (us_wakes s) 1 = Some wk /\ wk_ages wk = [0].
Proof.
  intros Ho HW. destruct (windy_facts _ _ _ _ _ _ Ho HW) as (HC & Edt & Hlen & HR & _).
  destruct (windy_step _ _ _ _ _ _ _ _ 1 Ho HW HR ltac:(lia)) as (sp & p & w & Hsp & _ & _ & Hw & EW & Hspan & _).
  destruct (wake_sizes _ gauss_solve_spec _ _ _ _ _ _ _ HC HR Hw) as [HG _]. destruct (HG ltac:(lia)) as [[L1 L2] _]. rewrite Hspan in L2.
  destruct (w_wake_rings w) as [|row [|]] eqn:ER; try discriminate L1. inversion L2 as [|? ? L3 _]; subst. destruct row as [|id [|]]; try discriminate L3.
  destruct (objects_shared _ gauss_solve_spec _ _ _ _ 1 0 w 0 0 id HC HR) as (ring & Hring & _ & Hage & _); [rewrite Hlen; cbn; lia | exact Hw | rewrite ER; exists [id]; auto |].
  destruct (wake_recorded _ gauss_solve_spec _ _ _ _ 1 HC HR ltac:(lia)) as (grids & (sp' & Hsp' & FG & HK) & Hwk). assert (sp' = sp) by (unfold step_at in *; congruence). subst sp'.
  assert (EU : up_delta_time (us_problem s) = 1). { destruct (has_run_history _ gauss_solve_spec _ _ _ _ HC HR) as (F & up1 & conv & sa & HH). rewrite (hi_time _ _ _ _ _ _ _ _ _ HH). exact Edt. }
  exists w, id, ring. eexists. split; [exact Hw|]. split; [exact ER|]. split; [exact Hring|]. split; [|split; [exact Hwk|]].
  - rewrite Hage, Hlen, EU. cbn. lra.
  - rewrite EW in FG. inversion FG as [|? g ? gs [G1 G2] FG' X1 X2]; subst. inversion FG'; subst. rewrite Hspan in G2.
    destruct g as [|grow [|]]; try discriminate G1. inversion G2 as [|? ? G3 _]; subst. destruct grow as [|x [|]]; try discriminate G3.
    destruct (HK 0%nat [[x]] 0%nat 0%nat x eq_refl ltac:(exists [x]; auto)) as (_ & HA & _). cbn [map concat app record_of wk_ages]. rewrite HA. cbn [INR]. f_equal. ring.
Qed.

(** In a gust the still plate appears to move. *)
Lemma windy_legs prescribed lines only up s t : windy_case gust prescribed lines only up s -> has_run gauss_solve prescribed up 2 t ->
  exists v, flapping_at_right_leg_centers t = Ok [v] /\ flapping_at_left_leg_centers t = Ok [v] /\ v <> vzero.
Proof.
  intros HW HR. assert (Ho : In gust [resting; gust]) by (right; left; reflexivity). destruct (windy_facts _ _ _ _ _ _ Ho HW) as (HC & Edt & Hlen & _ & _ & m & a & Hm & Hup & Ea & Hst).
  destruct (nth_in_range (up_steady_problems up) 0 ltac:(rewrite Hlen; lia)) as [s0 H0]. destruct (nth_in_range (up_steady_problems up) 1 ltac:(rewrite Hlen; lia)) as [s1 H1].
  destruct (Hst _ _ H0) as (A0 & v0 & _ & O0 & V0 & _). destruct (Hst _ _ H1) as (A1 & v1 & _ & O1 & _ & V1 & _). specialize (V0 eq_refl). specialize (V1 eq_refl eq_refl). subst v0 v1.
  assert (HH : forall method point, In (method, point) [(flapping_at_right_leg_centers, right_center); (flapping_at_left_leg_centers, left_center)] ->
     method t = Ok [vscale (/ 8) (vsub (freestream_velocity (sp_operating_point s0)) (freestream_velocity (sp_operating_point s1)))]).
  { intros method point Hin. destruct (still_legs _ gauss_solve_spec _ _ _ _ _ _ _ _ HC HR ltac:(rewrite Edt; lra) H0 H1 ltac:(congruence) Hin) as (vs & sp & Hvs & Hsp & FV).
    destruct (windy_case_panel _ _ _ _ _ _ _ _ _ _ Ho HW HR Hsp) as (p & r & v & d & EP & HP & _). rewrite EP in FV. inversion FV as [|? x ? xs Hx FV' X1 X2]; subst. inversion FV'; subst.
    rewrite Hvs. f_equal. f_equal. assert (ET : p_is_trailing_edge p = true) by (unfold same_panel in HP; decompose [and] HP; assumption || congruence). rewrite ET. reflexivity. }
  eexists. split; [apply (HH _ right_center); left; reflexivity|]. split; [apply (HH _ left_center); right; left; reflexivity|].
  rewrite O0, O1. destruct (ex_direction 1 4) as (d' & Hd' & _ & ED). 
  assert (EF : forall v, freestream_velocity (mkop 1 v 30 0 0 (1506 / 100000000)) = vscale v (mkvec d' 0 (1 / 2))) by (intros v; unfold freestream_velocity; rewrite <- ED; reflexivity).
  rewrite !EF. intros H. apply (f_equal vz) in H. revert H. vunfold. cbn. lra.
Qed.
