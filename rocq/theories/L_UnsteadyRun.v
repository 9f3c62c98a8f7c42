(** A whole run of the unsteady solver: the start, the loop over the steps, and the
    problems it is given. *)
From Coq Require Import List ZArith Lia Lra Bool Reals String.
From Verif Require Import M_Unsteady S_Unsteady S_UnsteadyRun S_Loads S_Solve S_Vortices S_Movement S_Wing S_Geometry L_Base L_Panel L_Aero L_Loads L_Horseshoe L_SteadyRing L_Frames
  L_Geometry L_Movement L_Snapshots L_Problems L_Wake L_WakeWings L_Unsteady L_UnsteadyStep.
Import ListNotations.
Local Open Scope R_scope.
Local Open Scope list_scope.

(** ** The start *)
Definition meshed_wing (w : wing) : Prop :=
  well_meshed (w_panels w) /\ (1 <= w_num_chordwise_panels w)%nat /\
  grid (w_num_chordwise_panels w) (w_num_spanwise_panels w) (w_panels w) /\ w_wake_vertices w = [] /\ w_wake_rings w = [].
Definition meshed_step (F : list (list (nat * nat))) (sp : steady_problem) : Prop :=
  layout (sp_airplanes sp) = F /\ Forall meshed_wing (step_wings sp) /\
  forall a, In a (sp_airplanes sp) -> a_num_panels a = length (airplane_panels a).
Record meshed_problem (F : list (list (nat * nat))) (up : unsteady_problem) : Prop := {
  mp_size : Z.of_nat (length (up_steady_problems up)) = up_num_steps up;
  mp_some : (0 < length (up_steady_problems up))%nat;
  mp_steps : forall sp, In sp (up_steady_problems up) -> meshed_step F sp }.

(** The wing [w] with ring vortices in its panels. *)
Definition started_wing (drift : vec) (w v : wing) : Prop :=
  v = w_set_panels (w_panels v) w /\
  Forall2 (Forall2 same_panel) (w_panels w) (w_panels v) /\
  forall c s p, at_position (w_panels v) c s p -> exists r, p_ring_vortex p = Some r /\ bound_ring drift (w_panels v) c s p r.
Definition started_airplane (drift : vec) (a b : airplane) : Prop :=
  Forall2 (started_wing drift) (a_wings a) (a_wings b) /\ b = a_set_wings (a_wings b) a.
Definition step_drift (dt : R) (sp : steady_problem) : vec := vscale (25 / 100) (vscale dt (freestream_velocity (sp_operating_point sp))).
Definition started_step (dt : R) (sp sp' : steady_problem) : Prop :=
  sp_operating_point sp' = sp_operating_point sp /\
  Forall2 (started_airplane (step_drift dt sp)) (sp_airplanes sp) (sp_airplanes sp').

Lemma mapiM_nth {A B} (f : nat -> A -> result B) l m i y : mapiM f l = Ok m -> nth_error m i = Some y ->
  exists x, nth_error l i = Some x /\ f i x = Ok y.
Proof.
  intros E Hy. apply mapiM_Forall2 in E. destruct (Forall2_nth _ _ _ E _ _ Hy) as ([j x] & Hx & Ef).
  rewrite nth_error_combine, nth_error_seq0 in Hx. destruct (Nat.ltb i (length l)); [|discriminate].
  destruct (nth_error l i) as [x'|] eqn:El; [|discriminate]. apply Some_eq in Hx. assert (i = j /\ x' = x) as [<- <-] by (split; congruence). eauto.
Qed.
Lemma same_panel_vertices p q : same_panel p q ->
  p_front_left_vortex_vertex q = p_front_left_vortex_vertex p /\ p_front_right_vortex_vertex q = p_front_right_vortex_vertex p.
Proof.
  intros (H1 & H2 & H3 & H4 & _). unfold p_front_left_vortex_vertex, p_front_right_vortex_vertex, p_left_leg, p_right_leg.
  rewrite H1, H2, H3, H4. auto.
Qed.

Lemma unsteady_init_wing_ok blank drift w : well_meshed (w_panels w) -> exists v, unsteady_init_wing blank drift w = Ok v /\ started_wing drift w v.
Proof.
  intros HM. unfold unsteady_init_wing.
  match goal with |- context [mapiM ?f ?l] => destruct (mapM_nth_ok f l) as [m' E] end.
  { intros c row Hc. apply mapM_nth_ok. intros s p Hs. unfold unsteady_init_panel.
    destruct (p_is_trailing_edge p) eqn:Ht; [eauto|]. destruct (well_meshed_next _ _ _ _ _ HM Hc Hs Ht) as [q ->]. cbn [bind]. eauto. }
  rewrite E. cbn [bind]. eexists. split; [reflexivity|]. unfold started_wing. cbn [w_set_panels w_panels].
  assert (HS : Forall2 (Forall2 same_panel) (w_panels w) m').
  { eapply mapiM_Forall2'; [|exact E]. cbn beta. intros c row row' Er. eapply mapiM_Forall2'; [|exact Er]. cbn beta. intros s p q.
    unfold unsteady_init_panel. destruct (p_is_trailing_edge p); intros Eq.
    - apply Ok_eq in Eq. subst q. unfold same_panel; cbn; auto 12.
    - apply bind_Ok in Eq. destruct Eq as (nx & _ & Eq). apply Ok_eq in Eq. subst q. unfold same_panel; cbn; auto 12. }
  split; [reflexivity|]. split; [exact HS|].
  intros c s q (row' & Hr' & Hq). destruct (mapiM_nth _ _ _ _ _ E Hr') as (row & Hr & Er). cbn beta in Er.
  destruct (mapiM_nth _ _ _ _ _ Er Hq) as (p & Hp & Ep). cbn beta in Ep. unfold unsteady_init_panel in Ep.
  destruct HM as [HR HM]. destruct (HM _ _ _ _ Hr Hp) as (_ & Ht & _).
  assert (Lm : length m' = length (w_panels w)) by (symmetry; apply (Forall2_length _ _ _ HS)).
  destruct (p_is_trailing_edge p); symmetry in Ht.
  - apply Nat.eqb_eq in Ht. apply Ok_eq in Ep. subst q. cbn [p_set_ring p_ring_vortex]. eexists; split; [reflexivity|].
    split; [apply new_ring_consistent|]. split; [reflexivity|]. split; [reflexivity|]. split; [intros _; split; reflexivity|]. intros X; lia.
  - apply Nat.eqb_neq in Ht. apply bind_Ok in Ep. destruct Ep as (nx & En & Ep). apply Ok_eq in Ep. subst q. cbn [p_set_ring p_ring_vortex]. eexists; split; [reflexivity|].
    split; [apply new_ring_consistent|]. split; [reflexivity|]. split; [reflexivity|]. split; [intros X; lia|]. intros _.
    apply panel_at_spec in En. destruct En as (row2 & Hr2 & Hn). destruct (Forall2_nth_l _ _ _ HS _ _ Hr2) as (row2' & Hr2' & F2).
    destruct (Forall2_nth_l _ _ _ F2 _ _ Hn) as (nx' & Hn' & Hsame). exists nx'. split; [exists row2'; auto|].
    destruct (same_panel_vertices _ _ Hsame) as [-> ->]. split; reflexivity.
Qed.
Lemma mapM_relates {A B} (f : A -> result B) (P : A -> B -> Prop) l : (forall x, In x l -> exists y, f x = Ok y /\ P x y) ->
  exists m, mapM f l = Ok m /\ Forall2 P l m.
Proof.
  induction l as [|x l IH]; intros H; cbn [mapM]; [exists []; split; [reflexivity | constructor]|].
  destruct (H x (or_introl eq_refl)) as (y & -> & Hy). destruct IH as (m & -> & F); [intros; apply H; right; assumption|].
  cbn [bind]. exists (y :: m). split; [reflexivity | constructor; assumption].
Qed.
Lemma unsteady_init_step_ok blank dt sp : (forall w, In w (step_wings sp) -> well_meshed (w_panels w)) ->
  exists sp', unsteady_init_step blank dt sp = Ok sp' /\ started_step dt sp sp'.
Proof.
  intros H. unfold unsteady_init_step. fold (step_drift dt sp).
  destruct (mapM_relates (unsteady_init_airplane blank (step_drift dt sp)) (started_airplane (step_drift dt sp)) (sp_airplanes sp)) as (l & E & F).
  - intros a Ha. unfold unsteady_init_airplane.
    destruct (mapM_relates (unsteady_init_wing blank (step_drift dt sp)) (started_wing (step_drift dt sp)) (a_wings a)) as (ws & -> & F).
    + intros w Hw. apply unsteady_init_wing_ok, H. unfold step_wings. apply in_concat. exists (a_wings a). split; [apply in_map; exact Ha | exact Hw].
    + cbn [bind]. eexists. split; [reflexivity|]. split; [exact F | reflexivity].
  - rewrite E. cbn [bind]. eexists. split; [reflexivity|]. split; [reflexivity | exact F].
Qed.

Lemma started_wing_ringed drift w v : started_wing drift w v -> meshed_wing w ->
  ringed_wing v /\ w_num_chordwise_panels v = w_num_chordwise_panels w /\ w_num_spanwise_panels v = w_num_spanwise_panels w /\
  w_wake_vertices v = [] /\ w_wake_rings v = [] /\ length (concat (w_panels v)) = length (concat (w_panels w)).
Proof.
  intros (E & F & HR) (M1 & M2 & M3 & M4 & M5).
  assert (A1 : w_num_chordwise_panels v = w_num_chordwise_panels w) by (rewrite E; reflexivity).
  assert (A2 : w_num_spanwise_panels v = w_num_spanwise_panels w) by (rewrite E; reflexivity).
  assert (A3 : w_wake_vertices v = w_wake_vertices w) by (rewrite E; reflexivity).
  assert (A4 : w_wake_rings v = w_wake_rings w) by (rewrite E; reflexivity).
  split; [|rewrite A1, A2, A3, A4; repeat split; auto; symmetry; apply (Forall2_length _ _ _ (Forall2_concat _ _ _ F))].
  split; [apply (well_meshed_same w v); [split; assumption | exact M1]|]. rewrite A1, A2. split; [exact M2|]. split.
  - destruct M3 as [L G]. split; [rewrite <- (Forall2_length _ _ _ F); exact L|]. rewrite Forall_forall in G |- *. intros row Hrow.
    destruct (Forall2_in_r _ _ _ _ F Hrow) as (row0 & H0 & Fr). rewrite <- (Forall2_length _ _ _ Fr). auto.
  - intros p Hp. apply in_concat in Hp. destruct Hp as (row & Hr & Hp). apply In_nth_error in Hr. destruct Hr as [c Hc]. apply In_nth_error in Hp. destruct Hp as [s Hs]. destruct (HR c s p) as (r & Er & _); [exists row; auto|]. eauto.
Qed.
Lemma started_wings dt sp sp' : started_step dt sp sp' -> Forall2 (started_wing (step_drift dt sp)) (step_wings sp) (step_wings sp').
Proof.
  intros [_ F]. unfold step_wings. apply Forall2_concat. apply (Forall2_map_both (Forall2 (started_wing (step_drift dt sp))) a_wings a_wings (sp_airplanes sp) (sp_airplanes sp')).
  eapply Forall2_impl; [|exact F]. intros a b [H _]. exact H.
Qed.
Lemma started_ready F dt sp sp' : started_step dt sp sp' -> meshed_step F sp -> ready_step F sp'.
Proof.
  intros HS (M1 & M2 & M3). pose proof (started_wings _ _ _ HS) as FW. destruct HS as [_ FA].
  split; [|split].
  - rewrite <- M1. unfold layout. clear M1 M3 FW. unfold step_wings in M2. revert M2.
    induction FA as [|a b l l' [Fw _] FA IH]; cbn [map concat]; intros M2; [reflexivity|]. apply Forall_app in M2. destruct M2 as [Ma Ml].
    rewrite (IH Ml). f_equal. clear IH FA Ml. induction Fw as [|w v ws vs Hw Fw IH]; [reflexivity|]. apply Forall_cons_iff in Ma. destruct Ma as [Mw Ma]. cbn [map].
    rewrite (IH Ma). destruct (started_wing_ringed _ _ _ Hw Mw) as (_ & -> & -> & _). reflexivity.
  - apply Forall_forall. intros v Hv. destruct (Forall2_in_r _ _ _ _ FW Hv) as (w & Hw & HS). rewrite Forall_forall in M2. apply (started_wing_ringed _ _ _ HS (M2 w Hw)).
  - intros b Hb. destruct (Forall2_in_r _ _ _ _ FA Hb) as (a & Ha & [Fw E]).
    assert (En : a_num_panels b = a_num_panels a) by (rewrite E; reflexivity). rewrite En, (M3 a Ha). unfold airplane_panels.
    apply (f_equal (@length _)) in M1. clear E En. 
    induction Fw as [|w v ws vs (_ & Fp & _) Fw IH]; [reflexivity|]. cbn [map concat]. rewrite !app_length. unfold ravel at 1 3. rewrite (Forall2_length _ _ _ (Forall2_concat _ _ _ Fp)).
    f_equal. exact IH.
Qed.

Lemma mapM_index_seq {A B} (f : nat -> A -> B) (l : list A) :
  mapM (fun k => let* x := index l k in Ok (f k x)) (seq 0 (length l)) = Ok (map2 f (seq 0 (length l)) l).
Proof.
  assert (G : forall pre post, mapM (fun k => let* x := index (pre ++ post) k in Ok (f k x)) (seq (length pre) (length post)) = Ok (map2 f (seq (length pre) (length post)) post)).
  { intros pre post. revert pre. induction post as [|x post IH]; intros pre; [reflexivity|]. cbn [length seq mapM map2].
    assert (E : index (pre ++ x :: post) (length pre) = Ok x). { apply index_Some. rewrite nth_error_app2, Nat.sub_diag by lia. reflexivity. }
    rewrite E. cbn [bind]. specialize (IH (pre ++ [x])). rewrite <- app_assoc, app_length, Nat.add_1_r in IH. cbn [app] in IH. rewrite IH. reflexivity. }
  exact (G [] l).
Qed.
Lemma unsteady_start_ok blank F up : meshed_problem F up -> exists s0 s1,
  unsteady_new up = Ok s0 /\ unsteady_start blank s0 = Ok s1 /\
  us_problem s1 = up_set_steps (up_steady_problems (us_problem s1)) up /\
  Forall2 (started_step (up_delta_time up)) (up_steady_problems up) (up_steady_problems (us_problem s1)) /\
  us_num_wake s1 = map2 (fun k sp => k * total_spanwise (sp_airplanes sp))%nat (seq 0 (length (up_steady_problems up))) (up_steady_problems up) /\
  us_current s1 = None /\ us_streamline_points s1 = None /\
  ready_problem F (us_problem s1) /\ forall conv, run_inv (us_problem s1) conv 0 s1.
Proof.
  intros [Hsize Hsome Hsteps]. set (ST := up_steady_problems up) in *. set (dt := up_delta_time up).
  destruct (mapM_relates (unsteady_init_step blank dt) (started_step dt) ST) as (ST1 & E1 & F1).
  { intros sp Hsp. apply unsteady_init_step_ok. intros w Hw. destruct (Hsteps sp Hsp) as (_ & M & _). rewrite Forall_forall in M. apply (M w Hw). }
  assert (L1 : length ST1 = length ST) by (symmetry; apply (Forall2_length _ _ _ F1)).
  unfold unsteady_new. fold ST. destruct ST as [|sp0 rest] eqn:EST; [cbn in Hsome; lia|]. rewrite <- EST in *. clear Hsome.
  assert (I0 : index ST 0 = Ok sp0) by (rewrite EST; reflexivity). rewrite I0. cbn [bind].
  eexists. exists (mkus (up_set_steps ST1 up) [] (map2 (fun k sp => k * total_spanwise (sp_airplanes sp))%nat (seq 0 (length ST)) ST)
     (map zero_wake (map2 (fun k sp => k * total_spanwise (sp_airplanes sp))%nat (seq 0 (length ST)) ST)) None None).
  split; [reflexivity|]. split.
  { unfold unsteady_start. cbn [us_problem us_heap us_num_wake us_wakes us_current us_streamline_points]. fold ST.
    change (up_steady_problems up) with ST. rewrite <- Hsize, Nat2Z.id. rewrite (mapM_index_seq (fun k sp => k * total_spanwise (sp_airplanes sp))%nat ST). cbn [bind]. fold dt. rewrite E1. cbn [bind app]. reflexivity. }
  cbn [us_problem us_heap us_num_wake us_wakes us_current us_streamline_points up_set_steps up_steady_problems up_delta_time].
  split; [reflexivity|]. split; [exact F1|]. split; [reflexivity|]. split; [reflexivity|]. split; [reflexivity|].
  assert (RP : forall sp', In sp' ST1 -> ready_step F sp').
  { intros sp' Hsp'. destruct (Forall2_in_r _ _ _ _ F1 Hsp') as (sp & Hsp & HS). eapply started_ready; [exact HS | auto]. }
  assert (W0 : forall sp', nth_error ST1 0 = Some sp' -> forall heap, Forall2 (wing_wake dt 0 heap) (wings_at ST1 0) (shed ST1 0) /\ NoDup (concat (map wing_ids (wings_at ST1 0)))).
  { intros sp' H0 heap. rewrite (wings_at_some _ _ _ H0). cbn [shed]. rewrite (wings_at_some _ _ _ H0).
    destruct (Forall2_nth _ _ _ F1 _ _ H0) as (sp & Hsp & HS). destruct (Hsteps sp (nth_error_In _ _ Hsp)) as (_ & M & _).
    pose proof (started_wings _ _ _ HS) as FW. revert M. induction FW as [|w v ws vs Hw FW IH]; intros M; [split; constructor|].
    apply Forall_cons_iff in M. destruct M as [Mw M]. destruct (IH M) as [I1 I2]. destruct (started_wing_ringed _ _ _ Hw Mw) as (R1 & _ & _ & R2 & R3 & _). split.
    - cbn [map]. constructor; [|exact I1]. constructor; [exact R1 | exact R2 | rewrite R3; split; [reflexivity | constructor] | split; [reflexivity | constructor] | rewrite R2, R3; constructor].
    - cbn [map concat]. unfold wing_ids at 1. rewrite R3. exact I2. }
  split.
  - constructor; cbn [up_set_steps up_steady_problems up_num_steps]; [rewrite L1; exact Hsize | exact RP].
  - intros conv. constructor; cbn [us_problem us_heap us_num_wake us_wakes us_current us_streamline_points up_set_steps up_steady_problems up_delta_time].
    + reflexivity.
    + clear. induction ST1; constructor; [apply solved_step_refl | assumption].
    + reflexivity.
    + rewrite map_length, map2_length, seq_length, L1, Nat.min_id. reflexivity.
    + intros k sp' _ Hk. rewrite nth_error_map. destruct (Forall2_nth _ _ _ F1 _ _ Hk) as (sp & Hsp & HS).
      assert (Hlt : (k < length ST)%nat) by (apply nth_error_Some; congruence).
      rewrite (nth_error_map2 (fun k sp => k * total_spanwise (sp_airplanes sp))%nat), nth_error_seq0, Hsp. destruct (Nat.ltb_spec k (length ST)); [|lia]. cbn [option_map].
      assert (ET : total_spanwise (sp_airplanes sp) = total_spanwise (sp_airplanes sp')); [|rewrite ET; reflexivity].
      rewrite !total_spanwise_flat. f_equal. pose proof (started_wings _ _ _ HS) as FW. unfold step_wings in FW. clear -FW.
      induction FW as [|w v ws vs (E & _) FW IH]; [reflexivity|]. cbn [map]. rewrite IH. f_equal. rewrite E. reflexivity.
    + intros Hlt. destruct (nth_in_range ST1 0 Hlt) as [sp' H0]. apply (W0 sp' H0).
    + intros k Hk Hlt. assert (k = 0)%nat by lia. subst k. destruct (nth_in_range ST1 0 Hlt) as [sp' H0]. destruct (W0 sp' H0 []) as [FW _].
      exact (wing_wake_grids _ _ _ _ _ FW).
    + intros k Hk; lia.
    + intros k Hk; lia.
    + intros m Hm; discriminate.
Qed.

(** ** The problems made from movements *)
Definition wing_layout (m : wing_movement) : nat * nat :=
  (w_num_chordwise_panels (wm_base m),
   ((if w_symmetric (wm_base m) then 2 else 1) * list_sum (map (fun sm => cs_num_spanwise_panels (sm_base sm)) (removelast (wm_sections m))))%nat).
Definition problem_layout (ams : list airplane_movement) : list (list (nat * nat)) := map (fun am => map wing_layout (am_wings am)) ams.
Lemma removelast_Forall2 {A B} (P : A -> B -> Prop) l m : Forall2 P l m -> Forall2 P (removelast l) (removelast m).
Proof.
  intros F. induction F as [|x y l m H F IH]; [constructor|]. destruct F as [|x' y' l m H' F]; [constructor|].
  change (removelast (x :: x' :: l)) with (x :: removelast (x' :: l)). change (removelast (y :: y' :: m)) with (y :: removelast (y' :: m)). constructor; assumption.
Qed.
Lemma snapshot_wing m n dt ws i w : generate_wings m n dt = Ok ws -> nth_error ws i = Some w ->
  meshed_wing w /\ (w_num_chordwise_panels w, w_num_spanwise_panels w) = wing_layout m /\ built_wing w.
Proof.
  intros H Hw. destruct (generated_wing_kept _ _ _ _ _ _ H Hw) as [K _]. destruct (generated_wings _ _ _ _ H) as (_ & _ & xs & ys & zs & hs & _ & _ & _ & _ & HN).
  destruct (HN i w Hw) as (x & y & z & sections & _ & _ & _ & _ & EW).
  destruct (wing_shape _ _ _ _ _ _ _ _ _ _ _ EW) as (S1 & S2 & S3 & S4 & S5). pose proof (wing_attributes _ _ _ _ _ _ _ _ _ _ _ EW) as (_ & _ & _ & _ & _ & A6 & _ & A8 & _).
  assert (HC : (1 <= w_num_chordwise_panels (wm_base m))%nat).
  { assert (HM : meshable sections (w_symmetric (wm_base m)) (w_num_chordwise_panels (wm_base m))).
    { refine (proj2 (proj1 (wing_created_iff _ _ _ _ _ _ _ _ _ _ _) (ex_intro _ w EW))). unfold default_unit_normal. intros X. apply (f_equal vy) in X. cbn in X. lra. }
    apply HM. }
  split; [|split].
  - split; [exact S1|]. rewrite A6. split; [exact HC|]. split; [split; [exact S2 | apply Forall_forall; exact S3]|].
    apply wing_mesh in EW. destruct EW as (m0 & _ & ->). split; reflexivity.
  - unfold wing_layout. rewrite A6, S4. do 3 f_equal. destruct K as (_ & _ & _ & _ & KF). rewrite A8 in KF. clear -KF.
    assert (G : Forall2 (fun sm s => cs_num_spanwise_panels s = cs_num_spanwise_panels (sm_base sm)) (wm_sections m) sections).
    { revert KF. generalize (wm_sections m). clear. induction sections as [|s l IH]; intros sms KF; inversion KF as [|sm s' sms' l' HK KF']; subst; constructor; [|auto].
      destruct HK as (_ & _ & _ & _ & _ & HK & _). exact HK. }
    apply removelast_Forall2 in G. induction G as [|sm s a b E G IH]; [reflexivity|]. cbn [map]. rewrite E, IH. reflexivity.
  - red. do 10 eexists. exact EW.
Qed.
Lemma snapshot_airplane m n dt l i a : generate_airplanes m n dt = Ok l -> nth_error l i = Some a ->
  Forall meshed_wing (a_wings a) /\ map (fun w => (w_num_chordwise_panels w, w_num_spanwise_panels w)) (a_wings a) = map wing_layout (am_wings m) /\
  a_num_panels a = length (airplane_panels a).
Proof.
  intros H Ha. destruct (generated_airplanes _ _ _ _ H) as (_ & _ & xs & ys & zs & hs & _ & _ & _ & EH & HN).
  destruct (HN i a Ha) as (x & y & z & wings & _ & _ & _ & EC & EA). apply mapM_Forall2 in EH.
  assert (HF : Forall2 (fun wm w => meshed_wing w /\ (w_num_chordwise_panels w, w_num_spanwise_panels w) = wing_layout wm /\ built_wing w) (am_wings m) wings).
  { eapply column_Forall2; [|exact EH | exact EC]. cbn beta. intros; eapply snapshot_wing; eassumption. }
  assert (EW : a_wings a = wings). { unfold new_airplane in EA. destruct wings; [discriminate|]. apply Ok_eq in EA. rewrite <- EA. reflexivity. }
  assert (HB : forall w, In w wings -> built_wing w). { intros w Hw. destruct (Forall2_in_r _ _ _ _ HF Hw) as (wm & _ & _ & _ & HB). exact HB. }
  pose proof (airplane_meshed _ _ _ _ _ _ _ _ _ _ HB EA) as [_ HP]. rewrite EW. split; [|split; [|exact HP]].
  - apply Forall_forall. intros w Hw. destruct (Forall2_in_r _ _ _ _ HF Hw) as (wm & _ & HM & _). exact HM.
  - clear -HF. induction HF as [|wm w l l' (_ & E & _) HF IH]; [reflexivity|]. cbn [map]. rewrite E, IH. reflexivity.
Qed.
Lemma created_meshed up s0 : created up -> unsteady_new up = Ok s0 -> exists F, meshed_problem F up.
Proof.
  intros (ams & om & ns & cy & ch & d & m & only & Em & Eup) E0. exists (problem_layout ams).
  destruct (movement_lengths _ _ _ _ _ _ _ Em) as (Hn & _ & FG). destruct (unsteady_built _ _ _ Eup) as (_ & U1 & _ & _ & _ & _ & _ & _ & _ & _ & U2 & U3).
  constructor.
  - rewrite U1, U2. apply Z2Nat.id. exact Hn.
  - unfold unsteady_new in E0. apply bind_Ok in E0. destruct E0 as (sp & E & _). apply index_Some in E. apply nth_error_Some. congruence.
  - intros sp Hsp. apply In_nth_error in Hsp. destruct Hsp as [i Hi]. destruct (U3 _ _ Hi) as [FL _].
    assert (FA : Forall2 (fun am a => exists l, generate_airplanes am (mv_num_steps m) (mv_delta_time m) = Ok l /\ nth_error l i = Some a) ams (sp_airplanes sp)).
    { revert FL. generalize (sp_airplanes sp). clear -FG. induction FG as [|am l ams ls [E _] FG IH]; intros la FL; inversion FL; subst; constructor; eauto. }
    clear -FA. split; [|split].
    + unfold layout, problem_layout. induction FA as [|am a ams l (h & E & Ea) FA IH]; [reflexivity|]. cbn [map]. rewrite IH.
      destruct (snapshot_airplane _ _ _ _ _ _ E Ea) as (_ & -> & _). reflexivity.
    + unfold step_wings. induction FA as [|am a ams l (h & E & Ea) FA IH]; [constructor|]. cbn [map concat]. apply Forall_app. split; [|exact IH].
      apply (snapshot_airplane _ _ _ _ _ _ E Ea).
    + intros a Ha. destruct (Forall2_in_r _ _ _ _ FA Ha) as (am & _ & h & E & Ea). apply (snapshot_airplane _ _ _ _ _ _ E Ea).
Qed.

(** ** The loop over the steps *)
Lemma step_matrix_explicit rows nu : step_matrix rows nu =
  map (fun r => map (fun q => vdot (quad_velocity (rr_collocation r) (rr_back_right q) (rr_front_right q) (rr_front_left q) (rr_back_left q) 1 0 nu) (rr_normal r)) rows) rows.
Proof.
  unfold step_matrix, unsteady_wing_influences, normal_components.
  assert (ER : repeat 1 (length rows) = map (fun _ => 1) rows). { clear. induction rows as [|r rows IH]; [reflexivity|]. cbn [length repeat map]. rewrite IH. reflexivity. }
  rewrite ER, expanded_ring_map_None, map_map, map2_map_map. apply map_ext. intros r. rewrite map_map. reflexivity.
Qed.
Lemma step_matrix_square rows nu : square (step_matrix rows nu).
Proof. rewrite step_matrix_explicit. apply (square_map_map (fun r q => vdot (quad_velocity (rr_collocation r) (rr_back_right q) (rr_front_right q) (rr_front_left q) (rr_back_left q) 1 0 nu) (rr_normal r))). Qed.
Lemma step_matrix_length rows nu : length (step_matrix rows nu) = length rows.
Proof. rewrite step_matrix_explicit. apply map_length. Qed.
Lemma collapsed_ring_length points br fr fl bl gs ages nu : length (collapsed_ring points br fr fl bl gs ages nu) = length points.
Proof. rewrite collapsed_ring_pointwise. apply map_length. Qed.
Lemma step_wake_length n rows wake op : length (step_wake n rows wake op) = length rows.
Proof.
  unfold step_wake, unsteady_wake_influences. destruct n; [apply repeat_length|]. unfold row_dots, wake_velocities. rewrite map2_length, collapsed_ring_length, !map_length. apply Nat.min_id.
Qed.
Lemma step_freestream_length n dt rows la op : length (la_collocations la) = length rows -> length (step_freestream n dt rows la op) = length rows.
Proof.
  intros L. unfold step_freestream, unsteady_freestream_influences, row_dots, freestream_influences.
  rewrite !map2_length, !map_length, flapping_length by (rewrite map_length; exact L). rewrite map_length, !Nat.min_id. reflexivity.
Qed.
Lemma step_rhs_length n dt rows la wake op : length (la_collocations la) = length rows ->
  length (map2 Rminus (map Ropp (step_wake n rows wake op)) (step_freestream n dt rows la op)) = length rows.
Proof. intros L. rewrite map2_length, map_length, step_wake_length, step_freestream_length by exact L. apply Nat.min_id. Qed.

Section Run.
  Variable solve : list (list R) -> list R -> result (list R).
  Hypothesis HS : SolveSpec solve.
  Variable prescribed : bool.

  (** How the vertices of the wake move at the end of step [k]. *)
  Definition moves_with (up : unsteady_problem) (conv : nat -> vec -> vec) (n : nat) (ST : list steady_problem) : Prop :=
    forall k sp, (k < n)%nat -> nth_error ST k = Some sp -> exists sk, after solve prescribed up (S k) sk /\
      forall v, exists u, unsteady_solution_velocity sk [v] = Ok [u] /\
        conv k v = vadd v (vscale (up_delta_time up) (if prescribed then freestream_velocity (sp_operating_point sp) else u)).

  Lemma unsteady_steps_S n s : unsteady_steps solve prescribed (S n) s = (let* s' := unsteady_steps solve prescribed n s in unsteady_step solve prescribed s' n).
  Proof.
    unfold unsteady_steps. rewrite seq_S, foldM_app. cbn [plus foldM]. destruct (foldM (unsteady_step solve prescribed) s (seq 0 n)) as [s'|e]; [|reflexivity].
    cbn [bind]. destruct (unsteady_step solve prescribed s' n); reflexivity.
  Qed.
  Lemma after_S up n s : after solve prescribed up (S n) s <-> exists s', after solve prescribed up n s' /\ unsteady_step solve prescribed s' n = Ok s.
  Proof.
    unfold after. split.
    - intros (s0 & s1 & E0 & E1 & E). rewrite unsteady_steps_S in E. apply bind_Ok in E. destruct E as (s' & E & Es). exists s'. split; [|exact Es]. eauto.
    - intros (s' & (s0 & s1 & E0 & E1 & E) & Es). exists s0, s1. rewrite unsteady_steps_S, E. auto.
  Qed.
  Lemma after_unique up n s s' : after solve prescribed up n s -> after solve prescribed up n s' -> s = s'.
  Proof. intros (s0 & s1 & E0 & E1 & E) (s0' & s1' & E0' & E1' & E'). congruence. Qed.

  (** The facts about the state after [n] steps; [up1] is the problem at the start of the loop. *)
  Record ran (F : list (list (nat * nat))) (up up1 : unsteady_problem) (conv : nat -> vec -> vec) (n : nat) (s : unsteady_solver) : Prop := {
    rn_ready : ready_problem F up1;
    rn_start : up1 = up_set_steps (up_steady_problems up1) up;
    rn_started : Forall2 (started_step (up_delta_time up)) (up_steady_problems up) (up_steady_problems up1);
    rn_inv : run_inv up1 conv n s;
    rn_moves : moves_with up conv n (up_steady_problems (us_problem s));
    rn_counts : us_num_wake s = map2 (fun k sp => k * total_spanwise (sp_airplanes sp))%nat (seq 0 (length (up_steady_problems up))) (up_steady_problems up);
    rn_lines : us_streamline_points s = None }.
  (** One step: what is solved and what comes of it. *)
  Definition stepped (up1 : unsteady_problem) (n : nat) (s s' : unsteady_solver) : Prop :=
    let ST := up_steady_problems (us_problem s) in
    let dt := up_delta_time up1 in
    exists sp rows la xs airplanes1 airplanes', nth_error ST n = Some sp /\ unsteady_collapse (sp_airplanes sp) = Ok rows /\
      Forall2 row_matches (flat_panels (sp_airplanes sp)) rows /\ map rr_panel rows = all_panels (sp_airplanes sp) /\
      last_step_arrays (length rows) n ST = Ok la /\ sized_last (length rows) la /\
      let op := sp_operating_point sp in
      let wake := wake_record dt ST n in
      solve (step_matrix rows (op_nu op)) (map2 Rminus (map Ropp (step_wake n rows wake op)) (step_freestream n dt rows la op)) = Ok xs /\ length xs = length rows /\
      let c := step_current n dt op rows la wake xs in
      update_panels unsteady_set_strength (sp_airplanes sp) xs = Ok airplanes1 /\
      (if (up_first_results_step up1 <=? Z.of_nat n)%Z then
         exists loads, unsteady_loads (op_density op) dt n (current_velocity c) airplanes1 rows la xs = Ok loads /\
                       process_forces op (map fst loads) (map snd loads) airplanes1 = Ok airplanes'
       else airplanes' = airplanes1) /\
      map strength_of (all_panels airplanes') = xs /\ Forall2 solved_airplane (sp_airplanes sp) airplanes' /\
      us_current s' = Some c /\
      nth_error (up_steady_problems (us_problem s')) n = Some (mksteady airplanes' op) /\
      (forall k, (k < n)%nat -> nth_error (up_steady_problems (us_problem s')) k = nth_error ST k) /\
      (forall k, (k < n)%nat -> nth_error (us_wakes s') k = nth_error (us_wakes s) k).

  (** The linear system of step [n] has no unique solution. *)
  Definition unsolved (n : nat) (s : unsteady_solver) (e : err) : Prop :=
    exists sp rows b, nth_error (up_steady_problems (us_problem s)) n = Some sp /\ Forall2 row_matches (flat_panels (sp_airplanes sp)) rows /\
      map rr_panel rows = all_panels (sp_airplanes sp) /\ length b = length rows /\ solve (step_matrix rows (op_nu (sp_operating_point sp))) b = Err e.
  Lemma ran_step F up up1 conv n s : ran F up up1 conv n s -> (n < length (up_steady_problems up))%nat -> after solve prescribed up n s ->
    (exists e, unsolved n s e /\ unsteady_step solve prescribed s n = Err e) \/
    exists s' conv', unsteady_step solve prescribed s n = Ok s' /\ ran F up up1 conv' (S n) s' /\ stepped up1 n s s' /\
      (forall k, (k < n)%nat -> conv' k = conv k).
  Proof.
    intros [R1 R2 R3 R4 R5 R6 R7] Hn HA. assert (L1 := Forall2_length _ _ _ R3). assert (Hn1 : (n < length (up_steady_problems up1))%nat) by lia.
    destruct (unsteady_step_ok solve prescribed F up1 conv n s R1 R4 Hn1) as (sp & rows & la & Hsp & Erows & Frows & Prows & Ela & Sla & Herr & Hok).
    set (op := sp_operating_point sp) in *. set (wake := wake_record (up_delta_time up1) (up_steady_problems (us_problem s)) n) in *.
    set (b := map2 Rminus (map Ropp (step_wake n rows wake op)) (step_freestream n (up_delta_time up1) rows la op)) in *.
    assert (Lb : length b = length (step_matrix rows (op_nu op))) by (rewrite step_matrix_length; apply step_rhs_length; apply Sla).
    destruct (solve (step_matrix rows (op_nu op)) b) as [xs|e] eqn:Es.
    - right. pose proof Es as Es'. apply HS in Es'; [|apply step_matrix_square | exact Lb]. destruct Es' as [[Lx _] _]. rewrite step_matrix_length in Lx.
      destruct (Hok xs eq_refl Lx) as (airplanes1 & airplanes' & s' & Eu & El & Ex & FA & Estep & Ec & Enw & Esl & Hn' & Hk & Hw & RI).
      match type of RI with run_inv _ ?f _ _ => set (conv' := f) in * end.
      exists s', conv'. split; [exact Estep|]. split; [|split].
      + constructor; try assumption.
        * intros k spk Hlt Hspk. destruct (Nat.eq_dec k n) as [->|Hne].
          -- exists s'. split; [apply after_S; eauto|]. intros v. rewrite Hn' in Hspk. apply Some_eq in Hspk. subst spk. cbn [sp_operating_point].
             unfold unsteady_solution_velocity. rewrite Ec. unfold current_velocity. rewrite velocity_pointwise. cbn [map]. eexists. split; [reflexivity|].
             unfold conv'. rewrite Nat.eqb_refl. unfold convect_vertex, current_velocity. rewrite velocity_pointwise. cbn [map nth].
             assert (Edt : up_delta_time up1 = up_delta_time up) by (rewrite R2; reflexivity). rewrite Edt. reflexivity.
          -- assert (Hlt' : (k < n)%nat) by lia. rewrite Hk in Hspk by exact Hlt'. destruct (R5 k spk Hlt' Hspk) as (sk & Ak & Vk). exists sk. split; [exact Ak|].
             intros v. destruct (Vk v) as (u & Eu' & Ev). exists u. split; [exact Eu'|]. unfold conv'. destruct (Nat.eqb_spec k n) as [X|_]; [lia|]. exact Ev.
        * rewrite Enw. exact R6.
        * rewrite Esl. exact R7.
      + exists sp, rows, la, xs, airplanes1, airplanes'. repeat (split; [assumption|]). fold op. cbn zeta. fold wake. fold b. repeat (split; [assumption|]). exact Hw.
      + intros k Hlt. unfold conv'. destruct (Nat.eqb_spec k n) as [X|_]; [lia|]. reflexivity.
    - left. exists e. split; [|apply Herr; reflexivity]. exists sp, rows, b. rewrite step_matrix_length in Lb. auto 6.
  Qed.
  Lemma ran_start F up : meshed_problem F up -> exists s1 , after solve prescribed up 0 s1 /\ forall conv, ran F up (us_problem s1) conv 0 s1.
  Proof.
    intros HM. destruct (unsteady_start_ok 0 F up HM) as (s0 & s1 & E0 & E1 & Ep & Fs & Ec & _ & El & Rp & RI). exists s1. split.
    - exists s0, s1. auto.
    - intros conv. constructor; auto. intros k sp Hk; lia.
  Qed.
  Lemma after_ran F up n s : meshed_problem F up -> after solve prescribed up n s -> (n <= length (up_steady_problems up))%nat ->
    exists s1 conv, after solve prescribed up 0 s1 /\ ran F up (us_problem s1) conv n s.
  Proof.
    intros HM. destruct (ran_start F up HM) as (s1 & A1 & R1). revert s. induction n as [|n IH]; intros s HA Hn.
    - exists s1, (fun _ v => v). split; [exact A1|]. rewrite (after_unique _ _ _ _ HA A1). apply R1.
    - apply after_S in HA. destruct HA as (s' & HA & Es). destruct (IH s' HA ltac:(lia)) as (s1' & conv & A1' & R).
      rewrite (after_unique _ _ _ _ A1' A1) in R. clear s1' A1'. exists s1.
      destruct (ran_step _ _ _ _ _ _ R ltac:(lia) HA) as [(e & _ & X)|(s'' & conv' & Es' & R' & _)]; [congruence|].
      exists conv'. split; [exact A1|]. assert (s'' = s) by congruence. subst s''. exact R'.
  Qed.
  Lemma after_stepped F up n s : meshed_problem F up -> after solve prescribed up (S n) s -> (n < length (up_steady_problems up))%nat ->
    exists s1 s' conv conv', after solve prescribed up 0 s1 /\ after solve prescribed up n s' /\ ran F up (us_problem s1) conv n s' /\ ran F up (us_problem s1) conv' (S n) s /\
      stepped (us_problem s1) n s' s /\ (forall k, (k < n)%nat -> conv' k = conv k).
  Proof.
    intros HM HA Hn. apply after_S in HA. destruct HA as (s' & HA & Es). destruct (after_ran F up n s' HM HA ltac:(lia)) as (s1 & conv & A1 & R).
    destruct (ran_step _ _ _ _ _ _ R Hn HA) as [(e & _ & X)|(s'' & conv' & Es' & R' & St & Hc)]; [congruence|].
    assert (s'' = s) by congruence. subst s''. exists s1, s', conv, conv'. auto 8.
  Qed.
  (** The loop stops early only when a linear system has no solution. *)
  Lemma run_progress F up s1 n : meshed_problem F up -> after solve prescribed up 0 s1 -> (n <= length (up_steady_problems up))%nat ->
    (exists s, unsteady_steps solve prescribed n s1 = Ok s) \/
    exists k s e, (k < n)%nat /\ after solve prescribed up k s /\ unsolved k s e /\ unsteady_steps solve prescribed n s1 = Err e.
  Proof.
    intros HM A1. induction n as [|n IH]; intros Hn; [left; exists s1; reflexivity|]. rewrite unsteady_steps_S.
    destruct IH as [[s E]|(k & s & e & Hk & HA & Hu & E)]; [lia| |].
    - rewrite E. cbn [bind]. assert (HA : after solve prescribed up n s). { destruct A1 as (s0 & s1' & E0 & E1 & E'). cbn in E'. apply Ok_eq in E'. subst s1'. exists s0, s1. auto. }
      destruct (after_ran F up n s HM HA ltac:(lia)) as (s1' & conv & _ & R).
      destruct (ran_step _ _ _ _ _ _ R Hn HA) as [(e & Hu & X)|(s'' & conv' & Es' & _)]; [right; exists n, s, e; auto 6 | left; eauto].
    - right. exists k, s, e. rewrite E. auto 6.
  Qed.
  (** Later steps leave earlier ones alone. *)
  Lemma after_later up m n s s' F : meshed_problem F up -> after solve prescribed up m s -> after solve prescribed up n s' -> (m <= n)%nat -> (n <= length (up_steady_problems up))%nat ->
    forall k, (k < m)%nat -> nth_error (up_steady_problems (us_problem s')) k = nth_error (up_steady_problems (us_problem s)) k /\ nth_error (us_wakes s') k = nth_error (us_wakes s) k.
  Proof.
    intros HM Hm. revert s'. induction n as [|n IH]; intros s' Hn Hle Hlen k Hk; [lia|]. destruct (Nat.eq_dec m (S n)) as [->|Hne].
    - rewrite (after_unique _ _ _ _ Hm Hn). auto.
    - destruct (after_stepped F up n s' HM Hn ltac:(lia)) as (s1 & s'' & conv & conv' & _ & A'' & _ & _ & St & _).
      destruct (IH s'' A'' ltac:(lia) ltac:(lia) k Hk) as [I1 I2].
      destruct St as (sp & rows & la & xs & a1 & a' & _ & _ & _ & _ & _ & _ & St). cbn zeta in St. destruct St as (_ & _ & _ & _ & _ & _ & _ & _ & S1 & S2).
      rewrite S1, S2, I1, I2 by lia. auto.
  Qed.
End Run.
