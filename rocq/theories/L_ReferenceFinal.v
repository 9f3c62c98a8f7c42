(** Moving the reference points: the loads kept at the end of unsteady runs. *)
From Coq Require Import String List ZArith Lia Lra Reals Bool.
From Verif Require Import M_Unsteady S_Solve S_Vortices S_Loads S_Movement S_Unsteady S_UnsteadyRun S_Reference
  L_Base L_Loads L_Frames L_Geometry L_Movement L_Problems L_Statements3 L_UnsteadyRun L_UnsteadyProps L_UnsteadyFinal L_UnsteadyStill L_Wake L_ImageFinal L_ReferenceMovement.
Import ListNotations.
Local Open Scope R_scope.
Local Open Scope list_scope.

Lemma same_wind_axes op op' v : op_alpha op = op_alpha op' -> op_beta op = op_beta op' -> in_wind_axes op v = in_wind_axes op' v.
Proof. intros E1 E2. unfold in_wind_axes, rotation_wind_to_geometry. rewrite E1, E2. reflexivity. Qed.
Lemma back_to u d : vsub (vadd u d) u = d.
Proof. destruct u, d. vunfold. apply vec_ext; cbn; ring. Qed.
Lemma moved_sum d fs ms : length fs = length ms -> vsum (map2 (moved_moment d) fs ms) = moved_moment d (vsum fs) (vsum ms).
Proof.
  revert ms. induction fs as [|f fs IH]; intros [|m ms] L; try discriminate L.
  - cbn [map2]. unfold moved_moment, vsum. cbn [fold_left]. destruct d. vunfold. apply vec_ext; cbn; ring.
  - cbn [map2]. rewrite !vsum_cons, IH by (injection L; auto). unfold moved_moment. generalize (vsum fs) (vsum ms). intros a b. destruct d, f, m, a, b. vunfold. apply vec_ext; cbn; ring.
Qed.
Lemma moved_scale c d f m : moved_moment d (vscale c f) (vscale c m) = vscale c (moved_moment d f m).
Proof. unfold moved_moment. destruct d, f, m. vunfold. apply vec_ext; cbn; ring. Qed.
Lemma mean_moved d fs ms mf mm mm' : length fs = length ms -> fs <> [] -> mean_is fs mf -> mean_is ms mm -> mean_is (map2 (moved_moment d) fs ms) mm' -> mm' = moved_moment d mf mm.
Proof.
  intros L NE F M M'. unfold mean_is in *. rewrite map2_length, <- L, Nat.min_id in M'. rewrite moved_sum, <- F, <- M, <- L, moved_scale in M' by exact L.
  apply (scale_cancel (INR (length fs))); [|exact M']. apply not_0_INR. destruct fs; [congruence | discriminate].
Qed.

Section Final.
Context (solve : list (list R) -> list R -> result (list R)) (HS : SolveSpec solve) (prescribed lines : bool)
  (ds : list vec) (ams : list airplane_movement) (om : op_movement) (n : option Z) (cy ch dt : option R)
  (m : movement) (only : bool) (up : unsteady_problem) (s s' : unsteady_solver)
  (Em : new_movement ams om n cy ch dt = Ok m) (Eup : new_unsteady_problem m only = Ok up)
  (HF : finished solve prescribed lines up s) (HA : unsteady_about (moved_points ds up) s s').
Lemma reference_created : created up.
Proof. exists ams, om, n, cy, ch, dt, m, only. auto. Qed.
Lemma step_pair k sp i a d F M : step_at s k sp -> nth_error (sp_airplanes sp) i = Some a -> nth_error ds i = Some d -> a_force_wind a = Some F -> a_moment_wind a = Some M ->
  exists sp' a', step_at s' k sp' /\ nth_error (sp_airplanes sp') i = Some a' /\ a_moment_wind a' = Some (moved_moment (in_wind_axes (om_base om) d) F M).
Proof.
  intros Hsp Ha Hd HFo HMo. pose proof reference_created as HC. destruct (finished_meshed _ _ _ up s HC HF) as [Fm HM].
  destruct (finished_inv _ _ _ _ _ Fm HF HM) as (sf & _ & _ & _ & A & _ & _ & ES & _). pose proof (steps_kept _ HS _ _ _ _ HC (or_introl A)) as FK. rewrite <- ES in FK.
  destruct (Forall2_nth _ _ _ FK _ _ Hsp) as (sp0 & H0 & KO & KA). destruct (Forall2_nth _ _ _ KA _ _ Ha) as (a0 & Ha0 & _ & _ & KR & _).
  destruct HA as (EU & _). assert (E' : up_steady_problems (us_problem s') = map2 step_about (moved_points ds up) (up_steady_problems (us_problem s))) by (rewrite EU; reflexivity).
  eexists. eexists. split; [unfold step_at; rewrite E', nth_error_map2; unfold moved_points; rewrite nth_error_map, H0; cbn [option_map]; unfold step_at in Hsp; rewrite Hsp; reflexivity|].
  unfold step_about. cbn [sp_airplanes]. rewrite !nth_error_map2, Hd, Ha0, Ha. split; [reflexivity|]. unfold airplane_about. cbn [a_moment_wind]. rewrite HFo, HMo, KR, back_to. cbn [moved_moment_opt]. do 2 f_equal.
  destruct (unsteady_built _ _ _ Eup) as (_ & _ & _ & _ & _ & _ & _ & _ & _ & _ & _ & HL). destruct (HL k sp0 H0) as (_ & LO).
  destruct (movement_built _ _ _ _ _ _ _ Em) as (_ & _ & _ & _ & _ & EG). destruct (operating_point_kept _ _ _ _ _ _ EG LO) as (_ & Ea & Eb & _). rewrite KO. apply same_wind_axes; assumption.
Qed.
Lemma window_moved first last i d fs ms ms' : nth_error ds i = Some d -> window s first last i a_force_wind fs -> window s first last i a_moment_wind ms ->
  window s' first last i a_moment_wind ms' -> ms' = map2 (moved_moment (in_wind_axes (om_base om) d)) fs ms.
Proof.
  intros Hd W1 W2 W3. unfold window in *. apply L_Base.nth_error_ext. intros j. rewrite nth_error_map2. pose proof (Forall2_length _ _ _ W1) as L1. pose proof (Forall2_length _ _ _ W2) as L2. pose proof (Forall2_length _ _ _ W3) as L3.
  destruct (nth_error fs j) as [f|] eqn:Ef; [|apply nth_error_None; apply nth_error_None in Ef; lia].
  destruct (Forall2_nth _ _ _ W1 _ _ Ef) as (k & Hk & sp & a & Hsp & Ha & Hg). destruct (Forall2_nth_l _ _ _ W2 _ _ Hk) as (mo & Hmo & sp2 & a2 & Hsp2 & Ha2 & Hg2). destruct (Forall2_nth_l _ _ _ W3 _ _ Hk) as (mo' & Hmo' & sp3 & a3 & Hsp3 & Ha3 & Hg3).
  assert (sp2 = sp) by (unfold step_at in *; congruence). subst sp2. assert (a2 = a) by congruence. subst a2. rewrite Hmo, Hmo'.
  destruct (step_pair _ _ _ _ _ _ _ Hsp Ha Hd Hg Hg2) as (sp4 & a4 & Hsp4 & Ha4 & Hg4). assert (sp4 = sp3) by (unfold step_at in *; congruence). subst sp4. congruence.
Qed.
Context (up' : unsteady_problem) (HC' : created up') (HO : other_references (moved_points ds up) up up') (HF' : finished solve prescribed lines up' s')
  (HP : points_for (moved_points ds up) up) (Hwin : (up_first_averaging_step up < up_num_steps up)%Z).
Lemma finals_moved : final_about (om_base om) ds (up_final (us_problem s)) (up_final (us_problem s')) /\
  final_about (om_base om) ds (up_final_mean (us_problem s)) (up_final_mean (us_problem s')).
Proof.
  pose proof reference_created as HC. destruct HA as (_ & S1 & S2 & _).
  assert (Hper : up_max_period up' = up_max_period up) by (rewrite HO; reflexivity). assert (EA : up_first_averaging_step up' = up_first_averaging_step up) by (rewrite HO; reflexivity).
  assert (EL : length (up_steady_problems up') = length (up_steady_problems up)). { rewrite HO. cbn [up_steady_problems]. rewrite map2_length, (Forall2_length _ _ _ HP), Nat.min_id. reflexivity. }
  unfold final_about. destruct (Req_dec (up_max_period up) 0) as [Hz|Hz].
  - destruct (final_loads_static solve HS prescribed lines up s HC HF Hz a_force_wind fl_forces ltac:(cbn; auto)) as (sp & Hsp & F1 & E1 & _).
    destruct (final_loads_static solve HS prescribed lines up s HC HF Hz a_moment_wind fl_moments ltac:(cbn; auto)) as (sp2 & Hsp2 & F2 & _).
    destruct (final_loads_static solve HS prescribed lines up' s' HC' HF' ltac:(rewrite Hper; exact Hz) a_moment_wind fl_moments ltac:(cbn; auto)) as (sp3 & Hsp3 & F3 & _). rewrite EL in Hsp3.
    assert (sp2 = sp) by (unfold step_at in *; congruence). subst sp2.
    split; (split; [assumption|]); intros i d f mo Hd Hf Hmo; [|rewrite E1 in Hf; destruct i; discriminate].
    destruct (Forall2_nth _ _ _ F1 _ _ Hf) as (a & Ha & Hg). destruct (Forall2_nth _ _ _ F2 _ _ Hmo) as (a2 & Ha2 & Hg2). assert (a2 = a) by congruence. subst a2.
    destruct (step_pair _ _ _ _ _ _ _ Hsp Ha Hd Hg Hg2) as (sp4 & a4 & Hsp4 & Ha4 & Hg4). assert (sp4 = sp3) by (unfold step_at in *; congruence). subst sp4.
    destruct (Forall2_nth_l _ _ _ F3 _ _ Ha4) as (v & Hv & Hg5). congruence.
  - destruct (final_loads_periodic solve HS prescribed lines up s HC HF Hz a_force_wind fl_forces ltac:(cbn; auto)) as (E1 & LN1 & V1).
    destruct (final_loads_periodic solve HS prescribed lines up s HC HF Hz a_moment_wind fl_moments ltac:(cbn; auto)) as (_ & LN2 & V2).
    destruct (final_loads_periodic solve HS prescribed lines up' s' HC' HF' ltac:(rewrite Hper; exact Hz) a_moment_wind fl_moments ltac:(cbn; auto)) as (_ & LN3 & V3). rewrite EA, EL in V3.
    split; (split; [assumption|]); intros i d f mo Hd Hf Hmo; [rewrite E1 in Hf; destruct i; discriminate|].
    destruct (finished_meshed _ _ _ up s HC HF) as [Fm HM]. pose proof (mp_some _ _ HM) as HN0. pose proof (mp_size _ _ HM) as HN.
    destruct (finished_inv _ _ _ _ _ Fm HF HM) as (sf & _ & _ & _ & A & _ & _ & ES & _). pose proof (steps_kept _ HS _ _ _ _ HC (or_introl A)) as FK. rewrite <- ES in FK.
    destruct (nth_in_range (up_steady_problems (us_problem s)) 0 ltac:(rewrite <- (Forall2_length _ _ _ FK); exact HN0)) as [sp Hsp].
    destruct (finished_meshed _ _ _ up' s' HC' HF') as [Fm' HM'].
    destruct (finished_inv _ _ _ _ _ Fm' HF' HM') as (sf' & _ & _ & _ & A' & _ & _ & ES' & _). pose proof (steps_kept _ HS _ _ _ _ HC' (or_introl A')) as FK'. rewrite <- ES' in FK'.
    destruct (nth_in_range (up_steady_problems (us_problem s')) 0 ltac:(rewrite <- (Forall2_length _ _ _ FK'); exact (mp_some _ _ HM'))) as [sp' Hsp'].
    destruct (LN1 0%nat sp Hsp) as [L1 R1]. destruct (LN2 0%nat sp Hsp) as [L2 R2]. destruct (LN3 0%nat sp' Hsp') as [L3 R3].
    destruct S2 as (_ & _ & LM & _).
    assert (Hi : (i < length (sp_airplanes sp))%nat) by (rewrite <- L1; apply nth_error_Some; congruence).
    destruct (nth_in_range (fl_forces (up_final_rms (us_problem s))) i ltac:(lia)) as [r1 Hr1]. destruct (nth_in_range (fl_moments (up_final_rms (us_problem s))) i ltac:(lia)) as [r2 Hr2].
    destruct (nth_in_range (fl_moments (up_final_mean (us_problem s'))) i ltac:(lia)) as [mo' Hmo']. destruct (nth_in_range (fl_moments (up_final_rms (us_problem s'))) i ltac:(lia)) as [r3 Hr3].
    destruct (V1 i f r1 Hf Hr1) as (fs & W1 & M1 & _). destruct (V2 i mo r2 Hmo Hr2) as (ms & W2 & M2 & _). destruct (V3 i mo' r3 Hmo' Hr3) as (ms' & W3 & M3 & _).
    rewrite (window_moved _ _ _ _ _ _ _ Hd W1 W2 W3) in M3. rewrite Hmo'. f_equal. apply (mean_moved _ fs ms); try assumption.
    + pose proof (Forall2_length _ _ _ W1) as X1. pose proof (Forall2_length _ _ _ W2) as X2. rewrite <- X1, <- X2. reflexivity.
    + intros ->. apply Forall2_length in W1. rewrite seq_length in W1. cbn [length] in W1. lia.
Qed.
End Final.
Lemma movement_finals_moved solve : SolveSpec solve -> forall prescribed lines ds ams om n cy ch dt m only up s, List.length ds = List.length ams ->
  new_movement ams om n cy ch dt = Ok m -> new_unsteady_problem m only = Ok up -> finished solve prescribed lines up s -> (up_first_averaging_step up < up_num_steps up)%Z ->
  exists m' up' s', new_movement (map2 moved_base ds ams) om n cy ch dt = Ok m' /\ new_unsteady_problem m' only = Ok up' /\ finished solve prescribed lines up' s' /\
    unsteady_about (moved_points ds up) s s' /\
    final_about (om_base om) ds (up_final (us_problem s)) (up_final (us_problem s')) /\
    final_about (om_base om) ds (up_final_mean (us_problem s)) (up_final_mean (us_problem s')).
Proof.
  intros HS prescribed lines ds ams om n cy ch dt m only up s L Em Eup HF Hwin. destruct (problem_moved _ _ _ _ _ _ _ _ _ _ L Em Eup) as (m' & up' & Em' & Eup' & HP & HO).
  destruct (unsteady_reference _ _ _ _ _ _ _ (ex_intro _ ams (ex_intro _ om (ex_intro _ n (ex_intro _ cy (ex_intro _ ch (ex_intro _ dt (ex_intro _ m (ex_intro _ only (conj Em Eup))))))))) HP HO HF) as (s' & HF' & HA).
  exists m', up', s'. do 4 (split; [assumption|]). assert (HC' : created up') by (exists (map2 moved_base ds ams), om, n, cy, ch, dt, m', only; auto).
  exact (finals_moved solve HS prescribed lines ds ams om n cy ch dt m only up s s' Em Eup HF HA up' HC' HO HF' HP Hwin).
Qed.
