(** Example runs of the unsteady solver: a plate at 30 degrees of incidence for three
    steps of one second, in a steady wind or in gusts. *)
From Coq Require Import List ZArith Lia Lra Bool Reals String.
From Verif Require Import M_Unsteady S_Unsteady S_UnsteadyRun S_Geometry S_Vortices S_Loads S_Solve S_Movement L_Base L_Loads L_Horseshoe L_SteadyRing L_RingLegs L_Aero L_Frames
  L_Geometry L_Movement L_Snapshots L_Problems L_Example L_Example3 L_Gauss L_Wake L_WakeWings L_Unsteady L_UnsteadyStep L_UnsteadyRun L_UnsteadyFinal L_UnsteadyProps L_UnsteadyProps2 L_UnsteadyFlow L_UnsteadyStill.
Import ListNotations.
Local Open Scope R_scope.
Local Open Scope list_scope.

Definition gust : oscillation := mkosc 1 4 "sine".
Definition windy (o : oscillation) : op_movement := mkopmove (mkop 1 4 30 0 0 0) o.
Lemma gust_resting : gust <> resting. Proof. intros H. apply (f_equal osc_period) in H. cbn in H. lra. Qed.
Lemma resting_wing : wing_unmoving (ex_wing_movement resting).
Proof. split; [repeat constructor; left; reflexivity | repeat split; left; reflexivity]. Qed.
Lemma windy_speed o n dt l i op : In o [resting; gust] -> generate_operating_points (windy o) n dt = Ok l -> nth_error l i = Some op ->
  exists v, 3 <= v /\ op = mkop 1 v 30 0 0 (1506 / 100000000) /\ (i = 0%nat -> v = 4) /\ (o = gust -> dt = 1 -> i = 1%nat -> v = 5) /\ (o = resting -> v = 4).
Proof.
  intros Ho Hl Hi. destruct (generated_operating_points _ _ _ _ Hl) as (_ & _ & vs & Evs & HN). destruct (HN _ _ Hi) as (v & Hv & ->).
  exists v. destruct (oscillate_wave _ _ _ _ _ Evs) as [[_ (_ & _ & HW)]|[E _]]; [|destruct Ho as [<-|[<-|[]]]; discriminate].
  destruct (HW _ _ Hv) as [W1 W2]. cbn [windy om_velocity om_base op_velocity] in W1, W2. destruct Ho as [<-|[<-|[]]].
  - specialize (W1 (or_introl eq_refl)). subst v. split; [lra|]. split; [reflexivity|]. split; [reflexivity|]. split; [|reflexivity]. intros H. destruct (gust_resting (eq_sym H)).
  - cbn [gust osc_amplitude osc_period] in W2. assert (Ev : v = 4 + 1 * sine_wave (INR i * dt / 4)) by (apply W2; lra). clear W1 W2.
    pose proof (sine_bounded (INR i * dt / 4)) as HB. assert (-1 <= sine_wave (INR i * dt / 4)) by (unfold Rabs in HB; destruct (Rcase_abs _); lra). split; [lra|]. split; [reflexivity|]. split; [|split].
    + intros ->. rewrite Ev. cbn [INR]. replace (0 * dt / 4) with 0 by field. rewrite sine_0. ring.
    + intros _ -> ->. rewrite Ev. unfold sine_wave. cbn [INR]. replace (2 * PI * (1 * 1 / 4)) with (PI / 2) by field. rewrite sin_PI2. ring.
    + intros X. destruct (gust_resting X).
Qed.
Lemma windy_problem_at T o only ns cy ch dt0 m (n : nat) : In o [resting; gust] -> (0 < n)%nat ->
  new_movement [ex_airplane_movement 0 resting] (windy o) ns cy ch dt0 = Ok m -> mv_num_steps m = Z.of_nat n -> mv_delta_time m = T ->
  exists up a, new_unsteady_problem m only = Ok up /\
  up_delta_time up = T /\ List.length (up_steady_problems up) = n /\ a_wings a = [ex_wing false] /\
  forall k sp, nth_error (up_steady_problems up) k = Some sp -> sp_airplanes sp = [a] /\
    exists v, 3 <= v /\ sp_operating_point sp = mkop 1 v 30 0 0 (1506 / 100000000) /\ (k = 0%nat -> v = 4) /\ (o = gust -> T = 1 -> k = 1%nat -> v = 5) /\ (o = resting -> v = 4).
Proof.
  intros Ho Hn Hm HN HD. assert (Hg : good_spacing o) by (destruct Ho as [<-|[<-|[]]]; left; reflexivity).
  assert (HA : Forall airplane_movable [ex_airplane_movement 0 resting]) by (constructor; [apply ex_movable; left; reflexivity | constructor]).
  assert (HP : populated [ex_airplane_movement 0 resting]) by (apply movable_populated; [discriminate | exact HA]).
  destruct (unsteady_succeeds _ _ _ _ _ _ _ only Hm HP) as [up Hup].
  destruct (movement_built _ _ _ _ _ _ _ Hm) as (_ & _ & _ & _ & EA & EO).
  destruct (unsteady_built _ _ _ Hup) as (_ & _ & Edt & _ & _ & _ & _ & _ & _ & _ & HL & HS). rewrite HN, HD in *.
  cbn [mapM] in EA. apply bind_Ok in EA. destruct EA as (l & El & EA). apply bind_Ok in EA. destruct EA as (nil' & E0 & EA). apply Ok_eq in E0. subst nil'. apply Ok_eq in EA.
  destruct (generated_airplanes _ _ _ _ El) as (Ll & _ & xs & ys & zs & hs & Ex & Ey & Ez & EH & HNa).
  cbn [am_wings ex_airplane_movement mapM] in EH. apply bind_Ok in EH. destruct EH as (ws & EW & EH). apply bind_Ok in EH. destruct EH as (nil' & E0 & EH). apply Ok_eq in E0. subst nil'. apply Ok_eq in EH. subst hs.
  pose proof (static_wings _ _ _ _ EW resting_wing (ex_plain resting)) as ->. cbn [ex_wing_movement plate_movement wm_base] in *.
  assert (HC : forall vs i v, oscillate resting 0 (Z.of_nat n) T = Ok vs -> nth_error vs i = Some v -> v = 0).
  { intros vs i v E Hi. destruct (oscillate_wave _ _ _ _ _ E) as [[_ (_ & _ & HW)]|[E' _]]; [|discriminate]. apply (proj1 (HW _ _ Hi)). left; reflexivity. }
  assert (HA1 : forall i a, nth_error l i = Some a -> new_airplane [ex_wing false] "plane" 0 0 0 0 None None None = Ok a).
  { intros i a Hi. destruct (HNa i a Hi) as (x & y & z & wings & Hx & Hy & Hz & EC & Ea). apply (HC _ _ _ Ex) in Hx. apply (HC _ _ _ Ey) in Hy. apply (HC _ _ _ Ez) in Hz. subst x y z.
    apply column_spec in EC. inversion EC as [|? w ? rest Hw Hr X1 X2]; subst. inversion Hr; subst. apply nth_error_In, repeat_spec in Hw. subst w. exact Ea. }
  destruct l as [|a l]; [cbn in Ll; lia|]. pose proof (HA1 0%nat a eq_refl) as Ea0.
  exists up, a. split; [exact Hup|]. split; [exact Edt|]. split; [rewrite HL; apply Nat2Z.id|]. split.
  - unfold new_airplane in Ea0. cbn in Ea0. apply Ok_eq in Ea0. subst a. reflexivity.
  - intros k sp Hk. destruct (HS k sp Hk) as [FA FO]. rewrite <- EA in FA. inversion FA as [|? b ? rest Hb Hr X1 X2]; subst. inversion Hr; subst.
    split; [f_equal; pose proof (HA1 k b Hb); congruence|]. destruct (windy_speed _ _ _ _ _ _ Ho EO FO) as (v & V1 & V2 & V3 & V4 & V5). exists v. auto 8.
Qed.
Lemma windy_problem_of o only ns cy ch dt0 m (n : nat) : In o [resting; gust] -> (0 < n)%nat ->
  new_movement [ex_airplane_movement 0 resting] (windy o) ns cy ch dt0 = Ok m -> mv_num_steps m = Z.of_nat n -> mv_delta_time m = 1 ->
  exists up a, new_unsteady_problem m only = Ok up /\
  up_delta_time up = 1 /\ List.length (up_steady_problems up) = n /\ a_wings a = [ex_wing false] /\
  forall k sp, nth_error (up_steady_problems up) k = Some sp -> sp_airplanes sp = [a] /\
    exists v, 3 <= v /\ sp_operating_point sp = mkop 1 v 30 0 0 (1506 / 100000000) /\ (k = 0%nat -> v = 4) /\ (o = gust -> k = 1%nat -> v = 5) /\ (o = resting -> v = 4).
Proof.
  intros Ho Hn Hm HN HD. destruct (windy_problem_at 1 o only _ _ _ _ _ n Ho Hn Hm HN HD) as (up & a & E & E1 & E2 & E3 & H). exists up, a. repeat (split; [assumption|]).
  intros k sp Hk. destruct (H k sp Hk) as (H1 & v & V1 & V2 & V3 & V4 & V5). split; [exact H1|]. exists v. auto 8.
Qed.
Lemma windy_problem o only : In o [resting; gust] -> exists m up a,
  new_movement [ex_airplane_movement 0 resting] (windy o) (Some 3%Z) None None (Some 1) = Ok m /\ new_unsteady_problem m only = Ok up /\
  up_delta_time up = 1 /\ List.length (up_steady_problems up) = 3%nat /\ a_wings a = [ex_wing false] /\
  forall k sp, nth_error (up_steady_problems up) k = Some sp -> sp_airplanes sp = [a] /\
    exists v, 3 <= v /\ sp_operating_point sp = mkop 1 v 30 0 0 (1506 / 100000000) /\ (k = 0%nat -> v = 4) /\ (o = gust -> k = 1%nat -> v = 5) /\ (o = resting -> v = 4).
Proof.
  intros Ho. assert (Hg : good_spacing o) by (destruct Ho as [<-|[<-|[]]]; left; reflexivity).
  assert (HA : Forall airplane_movable [ex_airplane_movement 0 resting]) by (constructor; [apply ex_movable; left; reflexivity | constructor]).
  destruct (proj2 (movement_succeeds [ex_airplane_movement 0 resting] (windy o) (Some 3%Z) None None 1 3 eq_refl ltac:(lia))) as [m Hm]; [auto|].
  destruct (movement_built _ _ _ _ _ _ _ Hm) as (_ & _ & HD & (HN & _) & _). 
  destruct (windy_problem_of o only _ _ _ _ _ 3 Ho ltac:(lia) Hm HN HD) as (up & a & H). exists m, up, a. auto.
Qed.
Lemma windy_created o only m up : new_movement [ex_airplane_movement 0 resting] (windy o) (Some 3%Z) None None (Some 1) = Ok m -> new_unsteady_problem m only = Ok up -> created up.
Proof. intros H1 H2. do 7 eexists. exists only. split; eassumption. Qed.

(** The influence of the plate's ring vortex on itself. *)
Lemma plate_influence nu a d : 0 <= d -> 0 < a ->
  0 < vdot (quad_velocity (mkvec 3 (1 / 2) 0) (mkvec (5 + d * a) 1 (d / 2)) (mkvec 1 1 0) (mkvec 1 0 0) (mkvec (5 + d * a) 0 (d / 2)) 1 0 nu) (mkvec 0 0 1).
Proof.
  intros Hd Ha. assert (Hx : 0 <= d * a) by (apply Rmult_le_pos; lra). set (x := d * a) in *. set (z := d / 2). unfold quad_velocity. rewrite !vdot_add_l.
  assert (P1 : 0 < vdot (line_velocity (mkvec 3 (1 / 2) 0) (mkvec (5 + x) 1 z) (mkvec 1 1 0) 1 0 nu) (mkvec 0 0 1)).
  { apply line_velocity_positive; [apply regular_if|]; try (unfold vdot, vsub, vcross; cbn [vx vy vz]; nra). }
  assert (P2 : 0 < vdot (line_velocity (mkvec 3 (1 / 2) 0) (mkvec 1 1 0) (mkvec 1 0 0) 1 0 nu) (mkvec 0 0 1)).
  { apply line_velocity_positive; [apply regular_if; vunfold; lra | vunfold; lra]. }
  assert (P3 : 0 < vdot (line_velocity (mkvec 3 (1 / 2) 0) (mkvec 1 0 0) (mkvec (5 + x) 0 z) 1 0 nu) (mkvec 0 0 1)).
  { apply line_velocity_positive; [apply regular_if|]; try (unfold vdot, vsub, vcross; cbn [vx vy vz]; nra). }
  assert (P4 : 0 < vdot (line_velocity (mkvec 3 (1 / 2) 0) (mkvec (5 + x) 0 z) (mkvec (5 + x) 1 z) 1 0 nu) (mkvec 0 0 1)).
  { apply line_velocity_positive; [apply regular_if|]; try (unfold vdot, vsub, vcross; cbn [vx vy vz]; nra). }
  lra.
Qed.
Section Windy.
  Variable solve : list (list R) -> list R -> result (list R).
  Hypothesis HS : SolveSpec solve.
  Variable prescribed : bool.
  Variables (o : oscillation) (up : unsteady_problem) (a : airplane).
  Hypothesis HC : created up.
  Notation T := (up_delta_time up).
  Hypothesis HT : 0 < T.
  Hypothesis Hlen : (0 < List.length (up_steady_problems up))%nat.
  Hypothesis Ea : a_wings a = [ex_wing false].
  Hypothesis Hsteps : forall k sp, nth_error (up_steady_problems up) k = Some sp -> sp_airplanes sp = [a] /\
    exists v, 3 <= v /\ sp_operating_point sp = mkop 1 v 30 0 0 (1506 / 100000000) /\ (k = 0%nat -> v = 4) /\ (o = gust -> k = 1%nat -> v = 5) /\ (o = resting -> v = 4).
  (** The only panel of a step. *)
  Lemma windy_panel_at n s k sp : has_run solve prescribed up n s -> step_at s k sp ->
    exists p r v d, step_panels sp = [p] /\ same_panel ex_panel p /\ p_ring_vortex p = Some r /\ ring_consistent r /\
      3 <= v /\ sp_operating_point sp = mkop 1 v 30 0 0 (1506 / 100000000) /\ 0 < d /\
      rv_front_left r = mkvec 1 0 0 /\ rv_front_right r = mkvec 1 1 0 /\ rv_back_left r = mkvec (5 + (v * T / 4) * d) 0 (v * T / 4 / 2) /\ rv_back_right r = mkvec (5 + (v * T / 4) * d) 1 (v * T / 4 / 2).
  Proof.
    clear Hlen HT. intros HR Hsp. pose proof (steps_kept _ HS _ _ _ _ HC HR) as FK.
    destruct (Forall2_nth _ _ _ FK _ _ Hsp) as (sp0 & H0 & K). destruct (Hsteps _ _ H0) as (EA & v & Hv & EO & _).
    pose proof (kept_step_wings _ _ K) as FW. unfold step_wings at 1 in FW. rewrite EA in FW. cbn [map concat] in FW. rewrite Ea in FW. cbn [app] in FW.
    inversion FW as [|? w ? ws [Ew Fw] Fr X1 X2]; subst. inversion Fr; subst. symmetry in X2.
    cbn [ex_wing w_panels ex_panels] in Fw. change (set_positions 1 [[plain_panel 0 1]]) with [[ex_panel]] in Fw.
    inversion Fw as [|? row ? rows Frow Frows Y1 Y2]; subst. inversion Frows; subst. inversion Frow as [|? p ? ps HP Fps Z1 Z2]; subst. inversion Fps; subst. symmetry in Y2.
    assert (EP : step_panels sp = [p]) by (rewrite panels_of_wings, X2; cbn [map concat app]; rewrite Y2; reflexivity).
    assert (Hw : wing_at s k 0 w) by (exists sp; split; [exact Hsp | rewrite X2; reflexivity]).
    assert (Hp : at_position (w_panels w) 0 0 p) by (rewrite Y2; exists [p]; auto).
    destruct (bound_rings _ HS _ _ _ _ _ _ _ _ _ _ HC HR Hw Hp) as (r & Hr & (HCr & B1 & B2 & B3 & _)). rewrite Y2 in B3. destruct (B3 eq_refl) as [B4 B5].
    change (same_panel ex_panel p) in HP. destruct (same_panel_vertices _ _ HP) as [V1 V2]. destruct ex_panel_points as (_ & _ & Q1 & Q2). rewrite V1, Q2 in B1. rewrite V2, Q1 in B2.
    destruct (ex_direction 1 v) as (d & Hd & _ & ED).
    assert (EOs : sp_operating_point sp = mkop 1 v 30 0 0 (1506 / 100000000)) by (rewrite (proj1 K); exact EO).
    assert (EV : drift_at s k = vscale (25 / 100) (vscale T (vscale v (mkvec d 0 (1 / 2))))).
    { unfold drift_at, freestream_at. unfold step_at in Hsp. rewrite Hsp, EOs. destruct (has_run_history _ HS _ _ _ _ HC HR) as (F & up1 & conv & sa & HH). rewrite (hi_time _ _ _ _ _ _ _ _ _ HH).
      do 2 f_equal. unfold freestream_velocity. rewrite <- ED. reflexivity. }
    destruct HP as (E1 & E2 & E3 & E4 & HP).
    rewrite EV, B1, E2, E3 in B4. rewrite EV, B2, E1, E4 in B5.
    exists p, r, v, d. split; [exact EP|]. split; [unfold same_panel; auto|]. split; [exact Hr|]. split; [exact HCr|]. split; [exact Hv|]. split; [exact EOs|]. split; [exact Hd|].
    split; [exact B1|]. split; [exact B2|].
    rewrite B4, B5. clear. split; unfold ex_panel, plain_panel, p_set_position, new_panel; cbn [p_front_right p_front_left p_back_left p_back_right]; vunfold; apply vec_ext; cbn; field.
  Qed.
  Lemma windy_solvable_at k s sp A b : has_run solve prescribed up k s -> step_at s k sp -> influence_matrix sp A -> List.length b = List.length A ->
    exists x y, A = [[x]] /\ b = [y] /\ 0 < x /\ solve A b = Ok [y / x].
  Proof.
    clear Hlen. intros HR Hsp (rs & Frs & EA) Lb. destruct (windy_panel_at _ _ _ _ HR Hsp) as (p & r & v & d & EP & HP & Hr & HCr & Hv & EO & Hd & R1 & R2 & R3 & R4).
    rewrite EP in *. inversion Frs as [|? r' ? rs' Hr' Frs' X1 X2]; subst. inversion Frs'; subst. assert (r' = r) by congruence. subst r'. cbn [map] in *.
    destruct b as [|y [|]]; try discriminate. eexists _, y. split; [reflexivity|]. split; [reflexivity|].
    match goal with |- 0 < ?x /\ _ => assert (Hx : 0 < x) end.
    { rewrite (ring_velocity_quad _ _ _ (ring_update_strength 1 r) (update_strength_consistent 1 r HCr)). cbn [ring_update_strength rv_back_right rv_front_right rv_front_left rv_back_left rv_strength].
      rewrite R1, R2, R3, R4. destruct (same_panel_collocation _ _ HP) as [-> ->]. destruct ex_panel_points as (-> & -> & _). apply plate_influence; [|lra]. assert (0 <= v * T) by (apply Rmult_le_pos; lra). lra. }
    split; [exact Hx|]. apply solve_1x1; [exact HS | lra].
  Qed.
  Lemma windy_run_at lines : exists s, finished solve prescribed lines up s.
  Proof.
    destruct (nth_in_range _ _ Hlen) as [sp0 H0]. assert (exists s0, unsteady_new up = Ok s0) as [s0 E0] by (unfold unsteady_new, index; rewrite H0; cbn; eauto).
    destruct (run_outcome _ HS prescribed up lines s0 HC E0) as [[s Es]|(k & s & sp & A & b & e & HA & Hsp & HI & Lb & Hs & _)].
    - exists s, s0. auto.
    - exfalso. destruct (windy_solvable_at k s sp A b (or_introl HA) Hsp HI Lb) as (x & y & _ & _ & _ & X). congruence.
  Qed.
End Windy.
Lemma windy_panel solve (HS : SolveSpec solve) prescribed o up a : created up -> up_delta_time up = 1 -> a_wings a = [ex_wing false] ->
  (forall k sp, nth_error (up_steady_problems up) k = Some sp -> sp_airplanes sp = [a] /\
    exists v, 3 <= v /\ sp_operating_point sp = mkop 1 v 30 0 0 (1506 / 100000000) /\ (k = 0%nat -> v = 4) /\ (o = gust -> k = 1%nat -> v = 5) /\ (o = resting -> v = 4)) ->
  forall n s k sp, has_run solve prescribed up n s -> step_at s k sp ->
    exists p r v d, step_panels sp = [p] /\ same_panel ex_panel p /\ p_ring_vortex p = Some r /\ ring_consistent r /\
      3 <= v /\ sp_operating_point sp = mkop 1 v 30 0 0 (1506 / 100000000) /\ 0 < d /\
      rv_front_left r = mkvec 1 0 0 /\ rv_front_right r = mkvec 1 1 0 /\ rv_back_left r = mkvec (5 + (v / 4) * d) 0 (v / 4 / 2) /\ rv_back_right r = mkvec (5 + (v / 4) * d) 1 (v / 4 / 2).
Proof.
  intros HC Edt Ea Hst n s k sp HR Hsp. destruct (windy_panel_at solve HS prescribed o up a HC Ea Hst n s k sp HR Hsp) as (p & r & v & d & H). exists p, r, v, d. rewrite Edt, Rmult_1_r in H. exact H.
Qed.
Lemma windy_run solve (HS : SolveSpec solve) prescribed o up a : created up -> up_delta_time up = 1 -> (0 < List.length (up_steady_problems up))%nat -> a_wings a = [ex_wing false] ->
  (forall k sp, nth_error (up_steady_problems up) k = Some sp -> sp_airplanes sp = [a] /\
    exists v, 3 <= v /\ sp_operating_point sp = mkop 1 v 30 0 0 (1506 / 100000000) /\ (k = 0%nat -> v = 4) /\ (o = gust -> k = 1%nat -> v = 5) /\ (o = resting -> v = 4)) ->
  forall lines, exists s, finished solve prescribed lines up s.
Proof. intros HC Edt Hlen Ea Hst lines. apply (windy_run_at solve HS prescribed o up a HC); [rewrite Edt; lra | assumption..]. Qed.
