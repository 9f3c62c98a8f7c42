(** The snapshots of movements whose arguments come closer and closer to given ones. *)
From Coq Require Import List Lia Lra Bool ZArith Reals String.
From Verif Require Import M_Movement S_Continuous S_ContinuousShape S_ContinuousUnsteady S_ContinuousMovement L_Base L_Geometry L_Limits L_Loads L_Camber L_Movement L_Continuous L_ContinuousShape L_ContinuousWalk L_Problems.
Import ListNotations.
Local Open Scope R_scope.
Local Open Scope list_scope.

(** ** Oscillations *)
Definition wave (g : R -> R -> R) (a p b : R) (ns : Z) (dt : R) : result (list R) :=
  let* n := count ns in
  if Reqb a 0 || Reqb p 0 then Ok (repeat b n) else Ok (map (fun t => a * g p t + b) (linspace_open 0 (IZR ns * dt) n)).
Lemma repeat_each {A} (T : (nat -> A) -> A -> Prop) B b k : T B b -> each T (fun n => repeat (B n) k) (repeat b k).
Proof. intros H. induction k as [|k IH]; cbn [repeat]; [constructor; reflexivity | eapply each_cons; [intros n; reflexivity | exact H | exact IH]]. Qed.
Lemma map_repeat {A B} (f : A -> B) b l : (forall x, f x = b) -> map f l = repeat b (List.length l).
Proof. intros H. induction l as [|x l IH]; [reflexivity|]. cbn [map List.length repeat]. rewrite H, IH. reflexivity. Qed.
Lemma tends_apart U x V y : tends U x -> tends V y -> x <> y -> exists N, forall n, (N <= n)%nat -> U n <> V n.
Proof.
  intros HU HV Hn. pose proof (tends_abs _ _ (tends_minus _ _ _ _ HU HV)) as H. cbn beta in H.
  assert (Hp : 0 < Rabs (x - y)) by (apply Rabs_pos_lt; lra).
  destruct (tends_above _ _ 0 H Hp) as [N HN]. exists N. intros n Hk E. specialize (HN n Hk). cbn beta in HN. rewrite E, Rminus_diag_eq, Rabs_R0 in HN by reflexivity. lra.
Qed.
Lemma seq_tends {A} (T : (nat -> A) -> A -> Prop) (f : nat -> nat -> A) g (l : list nat) : (forall i, T (fun n => f n i) (g i)) -> each T (fun n => map (f n) l) (map g l).
Proof. intros H. induction l as [|i l IH]; cbn [map]; [constructor; reflexivity | eapply each_cons; [intros n; reflexivity | apply H | exact IH]]. Qed.
Lemma wave_settles g A a P p B b ns DT dt : tends A a -> tends P p -> (p = 0 -> forall n, P n = 0) -> tends B b -> tends DT dt ->
  (p <> 0 -> forall (c : R), tends (fun n => g (P n) (c * DT n)) (g p (c * dt))) ->
  settles (each tends) (fun n => wave g (A n) (P n) (B n) ns (DT n)) (wave g a p b ns dt).
Proof.
  intros HA HP H0 HB HD HG. unfold wave. destruct (count ns) as [k|e] eqn:Ek; cbn [bind]; [|apply settles_Err].
  destruct (Reqb p 0) eqn:Ep.
  - apply Reqb_true in Ep. eapply settles_ext; [intros n; rewrite (H0 Ep n); replace (Reqb 0 0) with true by (symmetry; apply Reqb_true; reflexivity); rewrite orb_true_r; reflexivity|]. rewrite orb_true_r.
    apply (settles_Ok (each tends) (fun n => repeat (B n) k)). apply repeat_each, HB.
  - apply Reqb_false in Ep. rewrite orb_false_r.
    assert (E : forall x q y t : R, q <> 0 -> (if Reqb x 0 || Reqb q 0 then Ok (repeat y k) else Ok (map (fun t => x * g q t + y) (linspace_open 0 (IZR ns * t) k))) = Ok (map (fun i => x * g q (INR i * (IZR ns / INR k) * t) + y) (seq 0 k))).
    { intros x q y t Hq. apply Reqb_false in Hq. rewrite Hq, orb_false_r. unfold linspace_open. rewrite map_map. destruct (Reqb x 0) eqn:Ex.
      - apply Reqb_true in Ex. subst x. f_equal. rewrite (map_repeat _ y) by (intros i; ring). rewrite seq_length. reflexivity.
      - f_equal. apply map_ext. intros i. do 3 f_equal. unfold Rdiv. ring. }
    destruct (tends_apart _ _ _ _ HP (tends_const 0) Ep) as [N HN].
    intros l El. pose proof (E a p b dt Ep) as E'. replace (Reqb p 0) with false in E' by (symmetry; apply Reqb_false; exact Ep). rewrite orb_false_r in E'. rewrite E' in El. apply Ok_eq in El. subst l.
    exists (fun n => map (fun i => A n * g (P n) (INR i * (IZR ns / INR k) * DT n) + B n) (seq 0 k)), N. split; [intros n Hn; apply E, HN, Hn|].
    apply (seq_tends tends (fun n i => A n * g (P n) (INR i * (IZR ns / INR k) * DT n) + B n) (fun i => a * g p (INR i * (IZR ns / INR k) * dt) + b)).
    intros i. apply tends_plus; [apply tends_mult; [exact HA | apply HG, Ep] | exact HB].
Qed.
(** The triangle wave is continuous: it measures the distance to the nearest odd multiple of pi. *)
Definition peak (x : R) : R := Rabs (x - 2 * PI * IZR (py_floor (x / (2 * PI))) - PI).
Lemma sawtooth_peak x : sawtooth x = 1 - 2 * peak x / PI.
Proof.
  unfold sawtooth, peak. cbv zeta. pose proof PI_RGT_0 as HP. set (t := x - 2 * PI * IZR (py_floor (x / (2 * PI)))). replace (2 * PI * (5 / 10)) with PI by field.
  destruct (Rltb t PI) eqn:E.
  - apply Rltb_true in E. rewrite Rabs_left by lra. field. lra.
  - apply Rltb_false in E. rewrite Rabs_right by lra. field. lra.
Qed.
Lemma peak_nearest x (k : Z) : peak x <= Rabs (x - 2 * PI * IZR k - PI).
Proof.
  unfold peak. pose proof PI_RGT_0 as HP. destruct (floor_spec (x / (2 * PI))) as [H1 H2]. set (f := py_floor (x / (2 * PI))) in *.
  assert (L : 2 * PI * IZR f <= x) by (apply (Rmult_le_compat_l (2 * PI)) in H1; [|lra]; replace (2 * PI * (x / (2 * PI))) with x in H1 by (field; lra); exact H1).
  assert (U : x < 2 * PI * IZR f + 2 * PI) by (apply (Rmult_lt_compat_l (2 * PI)) in H2; [|lra]; replace (2 * PI * (x / (2 * PI))) with x in H2 by (field; lra); lra).
  destruct (Z.lt_trichotomy k f) as [H|[<-|H]]; [|lra|].
  - assert (Hk : IZR k <= IZR f - 1) by (rewrite <- minus_IZR; apply IZR_le; lia). assert (2 * PI * IZR k <= 2 * PI * IZR f - 2 * PI) by nra. rewrite (Rabs_right (x - 2 * PI * IZR k - PI)) by lra. apply Rabs_le. lra.
  - assert (Hk : IZR f + 1 <= IZR k) by (rewrite <- plus_IZR; apply IZR_le; lia). assert (2 * PI * IZR f + 2 * PI <= 2 * PI * IZR k) by nra. rewrite (Rabs_left (x - 2 * PI * IZR k - PI)) by lra. apply Rabs_le. lra.
Qed.
Lemma peak_gap x y : Rabs (peak x - peak y) <= Rabs (x - y).
Proof.
  assert (H : forall a b, peak a <= peak b + Rabs (a - b)).
  { intros a b. eapply Rle_trans; [apply (peak_nearest a (py_floor (b / (2 * PI))))|]. unfold peak at 1. rewrite Rplus_comm.
    replace (a - 2 * PI * IZR (py_floor (b / (2 * PI))) - PI) with ((a - b) + (b - 2 * PI * IZR (py_floor (b / (2 * PI))) - PI)) by ring. apply Rabs_triang. }
  pose proof (H x y) as H1. pose proof (H y x) as H2. rewrite (Rabs_minus_sym y x) in H2. apply Rabs_le. lra.
Qed.
Lemma tends_gap_le U x V y : tends U x -> (forall n, Rabs (V n - y) <= Rabs (U n - x)) -> tends V y.
Proof.
  intros HU HV. assert (H : tends (fun n => Rabs (V n - y)) 0).
  { apply (tends_squeeze _ (fun n => Rabs (U n - x))); [intros n; split; [apply Rabs_pos | apply HV]|]. pose proof (tends_abs _ _ (tends_minus _ _ _ _ HU (tends_const x))) as H. cbn beta in H. rewrite Rminus_diag_eq, Rabs_R0 in H by reflexivity. exact H. }
  intros e He. destruct (H e He) as [N HN]. exists N. intros n Hn. specialize (HN n Hn). unfold R_dist in *. rewrite Rminus_0_r, Rabs_Rabsolu in HN. exact HN.
Qed.
Lemma tends_sawtooth U x : tends U x -> tends (fun n => sawtooth (U n)) (sawtooth x).
Proof.
  intros H. assert (HP : tends (fun n => peak (U n)) (peak x)) by (apply (tends_gap_le U x); [exact H | intros n; apply peak_gap]).
  rewrite sawtooth_peak. eapply tends_ext; [intros n; apply sawtooth_peak|]. apply tends_minus; [apply tends_const|]. unfold Rdiv. apply tends_mult; [|apply tends_const]. apply tends_mult; [apply tends_const | exact HP].
Qed.
Section Times.
Variable DT : nat -> R.
Variable dt : R.
Hypothesis HDT : tends DT dt.
Lemma phase_tends P p c : tends P p -> p <> 0 -> tends (fun n => 2 * PI / P n * (c * DT n)) (2 * PI / p * (c * dt)).
Proof. intros HP H0. apply tends_mult; [apply tends_div; [exact H0 | apply tends_const | exact HP] | apply tends_mult; [apply tends_const | exact HDT]]. Qed.
Lemma sine_settles A a P p B b ns : tends A a -> tends P p -> (p = 0 -> forall n, P n = 0) -> tends B b ->
  settles (each tends) (fun n => oscillating_sinspace (A n) (P n) (B n) ns (DT n)) (oscillating_sinspace a p b ns dt).
Proof.
  intros HA HP H0 HB. refine (wave_settles (fun p t => sin (2 * PI / p * (t - 0))) _ _ _ _ _ _ ns _ _ HA HP H0 HB HDT _). intros Hp c. apply tends_sin.
  rewrite Rminus_0_r. eapply tends_ext; [intros n; rewrite Rminus_0_r; reflexivity|]. apply phase_tends; assumption.
Qed.
Lemma uniform_settles A a P p B b ns : tends A a -> tends P p -> (p = 0 -> forall n, P n = 0) -> tends B b ->
  settles (each tends) (fun n => oscillating_linspace (A n) (P n) (B n) ns (DT n)) (oscillating_linspace a p b ns dt).
Proof.
  intros HA HP H0 HB. refine (wave_settles (fun p t => sawtooth (2 * PI / p * t + PI / 2)) _ _ _ _ _ _ ns _ _ HA HP H0 HB HDT _). intros Hp c. apply tends_sawtooth.
  apply tends_plus; [apply phase_tends; assumption | apply tends_const].
Qed.
Lemma custom_settles U o f B b ns : approaching_oscillation U o -> custom_fine DT dt U o f -> tends B b ->
  settles (each tends) (fun n => oscillate_custom (U n) f (B n) ns (DT n)) (oscillate_custom o f b ns dt).
Proof.
  intros (HA & HP & HE) HF HB. unfold oscillate_custom. eapply settles_ext; [intros n; rewrite (proj2 (HE n)); reflexivity|].
  assert (H0 : osc_period o = 0 -> forall n, osc_period (U n) = 0) by (intros H n; apply HE, H).
  destruct (String.eqb (osc_spacing o) "sine"); [apply sine_settles; assumption|].
  destruct (String.eqb (osc_spacing o) "uniform"); [apply uniform_settles; assumption|].
  destruct (String.eqb (osc_spacing o) "custom"); [|apply settles_Err]. destruct f as [f|]; [|apply settles_Err].
  refine (wave_settles (fun p t => f (2 * PI / p * (t - 0))) _ _ _ _ _ _ ns _ _ HA HP H0 HB HDT _). intros Hp c. destruct (HF f eq_refl) as [Hf|Hf].
  - apply tends_cont; [apply Hf|]. rewrite Rminus_0_r. eapply tends_ext; [intros n; rewrite Rminus_0_r; reflexivity|]. apply phase_tends; assumption.
  - eapply tends_ext; [intros n; destruct (Hf n) as [-> ->]; reflexivity | apply tends_const].
Qed.
Lemma oscillate_settles U o B b ns : approaching_oscillation U o -> tends B b ->
  settles (each tends) (fun n => oscillate (U n) (B n) ns (DT n)) (oscillate o b ns dt).
Proof.
  intros (HA & HP & HE) HB. unfold oscillate. eapply settles_ext; [intros n; rewrite (proj2 (HE n)); reflexivity|].
  assert (H0 : osc_period o = 0 -> forall n, osc_period (U n) = 0) by (intros H n; apply HE, H).
  destruct (String.eqb (osc_spacing o) "sine"); [apply sine_settles; assumption|].
  destruct (String.eqb (osc_spacing o) "uniform"); [apply uniform_settles; assumption | apply settles_Err].
Qed.

(** ** Sections *)
(** [root]: exactly at the origin. *)
Definition pinned (root : bool) (U : nat -> R) (x : R) : Prop := tends U x /\ (root = true -> forall n, U n = 0).
Definition edge (root : bool) (U : nat -> vec) (x : vec) : Prop := vtends U x /\ (root = true -> forall n, U n = vzero).
Definition snapshot (root : bool) (U : nat -> section) (s : section) : Prop :=
  section_tends U s /\ (root = true -> forall n, cs_leading_edge (U n) = vzero).
Lemma section_at_settles root B b X x Y y Z z T t : approaching_section B b -> pinned root X x -> pinned root Y y -> pinned root Z z -> tends T t ->
  settles (snapshot root) (fun n => section_at (B n) (X n) (Y n) (Z n) (T n)) (section_at b x y z t).
Proof.
  intros (_ & HC & _ & HB) [HX X0] [HY Y0] [HZ Z0] HT s E. unfold section_at, new_section in E. cbv zeta in E. apply bind_Ok in E. destruct E as (u & E1 & E).
  assert (Hc : 0 < cs_chord b) by (unfold check in E1; destruct (Rleb (cs_chord b) 0) eqn:EB; [discriminate E1 | apply Rleb_false in EB; exact EB]).
  destruct (tends_above _ _ 0 HC Hc) as [N HN].
  exists (fun n => mksection (cs_airfoil b) (X n) (Y n) (Z n) (cs_chord (B n)) default_unit_normal (T n) (cs_control_surface_type b) (cs_control_surface_hinge_point b) (cs_control_surface_deflection b) (cs_num_spanwise_panels b) (cs_spanwise_spacing b) None), N. split.
  - intros n Hn. unfold section_at, new_section. cbv zeta. replace (Rleb (cs_chord (B n)) 0) with false by (symmetry; apply Rleb_false; exact (HN n Hn)). cbn [negb check bind].
    destruct (HB n) as (-> & _ & -> & -> & -> & -> & ->).
    apply bind_Ok in E. destruct E as (u2 & E2 & E). rewrite E2. cbn [bind]. apply bind_Ok in E. destruct E as (u3 & E3 & E). rewrite E3. reflexivity.
  - apply bind_Ok in E. destruct E as (u2 & E2 & E). apply bind_Ok in E. destruct E as (u3 & E3 & E). apply Ok_eq in E. subst s.
    split; [split; [|intros n; reflexivity]|].
    + unfold approaching_section, cs_leading_edge, vtends. cbn. repeat split; assumption.
    + intros Hr n. unfold cs_leading_edge. cbn. rewrite X0, Y0, Z0 by exact Hr. reflexivity.
Qed.
Lemma map4_settles root B b X x Y y Z z T t : approaching_section B b -> each (pinned root) X x -> each (pinned root) Y y -> each (pinned root) Z z -> each tends T t ->
  settles (each (snapshot root)) (fun n => map4M (section_at (B n)) (X n) (Y n) (Z n) (T n)) (map4M (section_at b) x y z t).
Proof.
  intros HB HX HY HZ HT. unfold map4M. pose proof (each_both _ _ _ _ _ _ (each_both _ _ _ _ _ _ HX HY) (each_both _ _ _ _ _ _ HZ HT)) as HQ.
  refine (settles_mapM _ _ (fun n q => section_at (B n) (fst (fst q)) (snd (fst q)) (fst (snd q)) (snd (snd q))) _ _ _ _ HQ).
  intros Q q _ (V & W & EQ & (V1 & V2 & EV & H1 & H2) & (W1 & W2 & EW & H3 & H4)).
  eapply settles_ext; [intros n; rewrite EQ; cbn [fst snd]; rewrite EV, EW; cbn [fst snd]; reflexivity|]. apply section_at_settles; assumption.
Qed.
Lemma generate_settles root U m L l vertical SP sp SW sw HV hv ns : (approaching_section_movement DT dt) U m -> each (edge root) L l ->
  tends SP sp -> tends SW sw -> tends HV hv -> (root = true -> vertical = false /\ forall n, SP n = 0) ->
  settles (each (snapshot root)) (fun n => generate_sections (U n) ns (DT n) (L n) vertical (SP n) (SW n) (HV n)) (generate_sections m ns dt l vertical sp sw hv).
Proof.
  intros (HB & HS & HP & HH & FS & FP & FH & HC) HL HSP HSW HHV HR. unfold generate_sections. cbv zeta.
  eapply settles_ext; [intros n; destruct (HC n) as (-> & -> & ->); reflexivity|].
  apply (settles_bind (each tends) _ _ _ _ _ (custom_settles _ _ _ _ _ ns HS FS HSW)). intros S s _ Hs.
  assert (HT : tends (fun n => cs_twist (sm_base (U n))) (cs_twist (sm_base m))) by apply HB.
  apply (settles_bind (each tends) _ _ _ _ _ (custom_settles _ _ _ _ _ ns HP FP HT)). intros P p _ Hp.
  apply (settles_bind (each tends) _ _ _ _ _ (custom_settles _ _ _ _ _ ns HH FH HHV)). intros H h _ Hh.
  apply settles_same. intros k _.
  assert (HA : forall V v, tends V v -> tends (fun n => V n * PI / 180) (v * PI / 180)) by (intros V v HV0; unfold Rdiv; apply tends_mult; [apply tends_mult; [exact HV0 | apply tends_const] | apply tends_const]).
  pose proof (each_both _ _ _ _ _ _ Hs Hh) as Hsh.
  assert (HM : forall (f : R -> vec -> R * R -> R),
    (forall X x V v W w, vtends X x -> tends V v -> tends W w -> tends (fun n => f (SP n) (X n) (V n, W n)) (f sp x (v, w))) -> (forall q, f 0 vzero q = 0) ->
    each (pinned root) (fun n => map2 (f (SP n)) (L n) (combine (S n) (H n))) (map2 (f sp) l (combine s h))).
  { intros f Hf Hf0. refine (each_map2 _ _ _ (fun n => f (SP n)) _ _ _ _ _ _ HL Hsh).
    intros X x Q [v w] _ _ [HX X0] (V & W & EQ & HVv & HWw). split.
    - eapply tends_ext; [intros n; rewrite EQ; reflexivity|]. apply Hf; assumption.
    - intros Hr n. rewrite X0 by exact Hr. destruct (HR Hr) as [_ ->]. apply Hf0. }
  destruct vertical.
  - assert (Hr : root = true -> False) by (intros Hr; destruct (HR Hr); discriminate). pose proof HB as ((HBX & HBY & HBZ) & _).
    apply map4_settles; [exact HB| | | |apply (repeat_each tends); exact HT]; apply (repeat_each (pinned root)); (split; [assumption | intros E; destruct (Hr E)]).
  - apply map4_settles; [exact HB| | | |exact Hp].
    + apply (HM (fun span l sh => vx l + span * cos (fst sh * PI / 180) * sin (snd sh * PI / 180))).
      * intros X x V v W w HX HV0 HW0. cbn [fst snd]. apply tends_plus; [apply HX|]. apply tends_mult; [apply tends_mult; [exact HSP | apply tends_cos, HA, HV0] | apply tends_sin, HA, HW0].
      * intros q. unfold vzero. cbn [vx]. ring.
    + apply (HM (fun span l sh => vy l + span * cos (fst sh * PI / 180) * cos (snd sh * PI / 180))).
      * intros X x V v W w HX HV0 HW0. cbn [fst snd]. apply tends_plus; [apply HX|]. apply tends_mult; [apply tends_mult; [exact HSP | apply tends_cos, HA, HV0] | apply tends_cos, HA, HW0].
      * intros q. unfold vzero. cbn [vy]. ring.
    + apply (HM (fun span l sh => vz l + span * sin (fst sh * PI / 180))).
      * intros X x V v W w HX HV0 HW0. cbn [fst snd]. apply tends_plus; [apply HX|]. apply tends_mult; [exact HSP | apply tends_sin, HA, HV0].
      * intros q. unfold vzero. cbn [vz]. ring.
Qed.
Lemma tends_atan U x : tends U x -> tends (fun n => atan (U n)) (atan x).
Proof. apply tends_cont. apply derivable_continuous_pt, derivable_pt_atan. Qed.
Lemma angles_near T t L l : vtends T t -> vtends L l -> vy t <> vy l ->
  exists SP sp SW sw HV hv N, (forall n, (N <= n)%nat -> base_angles (T n) (L n) = (SP n, SW n, HV n, false)) /\ base_angles t l = (sp, sw, hv, false) /\ tends SP sp /\ tends SW sw /\ tends HV hv.
Proof.
  intros (TX & TY & TZ) (LX & LY & LZ) Hn. destruct (tends_apart _ _ _ _ TY LY Hn) as [N HN].
  do 6 eexists. exists N. split; [|split].
  - intros n Hk. unfold base_angles. cbv zeta. replace (Reqb (vy (T n)) (vy (L n))) with false by (symmetry; apply Reqb_false, HN, Hk). cbn [negb]. reflexivity.
  - unfold base_angles. cbv zeta. replace (Reqb (vy t) (vy l)) with false by (symmetry; apply Reqb_false, Hn). cbn [negb]. reflexivity.
  - assert (HQ : forall V v, tends V v -> tends (fun n => atan (V n / (vy (T n) - vy (L n))) * 180 / PI) (atan (v / (vy t - vy l)) * 180 / PI)).
    { intros V v HV. unfold Rdiv at 1 3. apply tends_mult; [|apply tends_const]. apply tends_mult; [|apply tends_const]. apply tends_atan. apply tends_div; [lra | exact HV | apply tends_minus; assumption]. }
    split; [|split; apply HQ; apply tends_minus; assumption].
    apply tends_sqrt; [pose proof (pow2_ge_0 (vx t - vx l)); pose proof (pow2_ge_0 (vy t - vy l)); pose proof (pow2_ge_0 (vz t - vz l)); lra|]. apply tends_plus; [apply tends_plus|]; apply tends_pow, tends_minus; assumption.
Qed.
Lemma edges_of U l : each section_tends U l -> each vtends (fun n => map cs_leading_edge (U n)) (map cs_leading_edge l).
Proof. intros H. refine (each_map _ _ (fun _ => cs_leading_edge) _ _ _ _ H). intros X x _ HX. apply HX. Qed.
Definition upright (ns : Z) (h : list section) (ms : list section_movement) : Prop :=
  forall hs, section_histories ns dt (Some h) ms = Ok hs -> forall i r s sm, nth_error (h :: hs) i = Some r -> nth_error r 0 = Some s -> nth_error ms i = Some sm ->
    cs_y_le (sm_base sm) <> cs_y_le s.
Lemma outer_settle ns MS ms : each (approaching_section_movement DT dt) MS ms -> forall H h, each section_tends H h -> upright ns h ms ->
  settles (each (each section_tends)) (fun n => section_histories ns (DT n) (Some (H n)) (MS n)) (section_histories ns dt (Some h) ms).
Proof.
  intros HM. induction HM as [MS E|MS M MS' m ms E HMm HM IH]; intros H h HH HU.
  - eapply settles_ext; [intros n; rewrite E; reflexivity|]. cbn [section_histories]. apply (settles_Ok (each (each section_tends)) (fun _ => [])). constructor. reflexivity.
  - intros hs Ehs. pose proof Ehs as Ehs0. cbn [section_histories] in Ehs. apply bind_Ok in Ehs. destruct Ehs as (g & Eg & Ehs). apply bind_Ok in Ehs. destruct Ehs as (rest & Er & Ehs). apply Ok_eq in Ehs. subst hs.
    cbv zeta in Eg. apply bind_Ok in Eg. destruct Eg as (first & Ef & Eg).
    pose proof (edges_of _ _ HH) as HL. pose proof (settles_index _ _ _ 0 HL first Ef) as (F & N1 & EF & HF).
    assert (Hs : exists s, nth_error h 0 = Some s /\ first = cs_leading_edge s).
    { unfold index in Ef. rewrite nth_error_map in Ef. destruct (nth_error h 0) as [s|]; [|discriminate Ef]. exists s. split; [reflexivity|]. cbn in Ef. congruence. }
    destruct Hs as (s & Hs & Es).
    assert (Hy : vy (cs_leading_edge (sm_base m)) <> vy first) by (subst first; exact (HU _ Ehs0 0%nat h s m eq_refl Hs eq_refl)).
    destruct (angles_near _ _ _ _ (proj1 (proj1 HMm)) HF Hy) as (SP & sp & SW & sw & HV & hv & N2 & EA & Ea & HSP & HSW & HHV).
    rewrite Ea in Eg.
    assert (HLe : each (edge false) (fun n => map cs_leading_edge (H n)) (map cs_leading_edge h)) by (eapply each_weaken; [|exact HL]; intros X x _ HX; split; [exact HX | discriminate]).
    destruct (generate_settles false _ _ _ _ false _ _ _ _ _ _ ns HMm HLe HSP HSW HHV ltac:(discriminate) g Eg) as (G & N3 & EG & HG).
    assert (HG' : each section_tends G g) by (eapply each_weaken; [|exact HG]; intros X x _ HX; apply HX).
    assert (HU' : upright ns g ms).
    { intros hs Ehs i r s' sm Hi Hr Hm. apply (HU _ Ehs0 (S i) r s' sm); [|exact Hr | exact Hm]. cbn [nth_error]. rewrite Er in Ehs. apply Ok_eq in Ehs. subst hs. exact Hi. }
    destruct (IH G g HG' HU' rest Er) as (R & N4 & ER & HRr).
    exists (fun n => G n :: R n), (Nat.max (Nat.max N1 N2) (Nat.max N3 N4)). split; [|eapply each_cons; [intros n; reflexivity | exact HG' | exact HRr]].
    intros n Hn. rewrite E. cbn [section_histories]. cbv zeta. rewrite EF by lia. cbn [bind]. rewrite EA by lia. rewrite EG by lia. cbn [bind]. rewrite ER by lia. reflexivity.
Qed.
(** The root's history is at the origin. *)
Definition history (U : nat -> list (list section)) (hs : list (list section)) : Prop :=
  each (each section_tends) U hs /\ forall n r, nth_error (U n) 0 = Some r -> forall i s, nth_error r i = Some s -> cs_leading_edge s = vzero.
Lemma histories_settle ns MS ms : each (approaching_section_movement DT dt) MS ms ->
  (forall n root, nth_error (MS n) 0 = Some root -> osc_amplitude (sm_sweeping root) = 0 /\ osc_amplitude (sm_heaving root) = 0) ->
  (forall hs, section_histories ns dt None ms = Ok hs -> forall i r s sm, nth_error hs i = Some r -> nth_error r 0 = Some s -> nth_error ms (S i) = Some sm -> cs_y_le (sm_base sm) <> cs_y_le s) ->
  settles history (fun n => section_histories ns (DT n) None (MS n)) (section_histories ns dt None ms).
Proof.
  intros HM HR HU. destruct HM as [MS E|MS M MS' m ms E HMm HM].
  - eapply settles_ext; [intros n; rewrite E; reflexivity|]. cbn [section_histories]. apply (settles_Ok history (fun _ => [])). split; [constructor; reflexivity | intros n r Hr; discriminate].
  - intros hs Ehs. pose proof Ehs as Ehs0. cbn [section_histories] in Ehs. apply bind_Ok in Ehs. destruct Ehs as (g & Eg & Ehs). apply bind_Ok in Ehs. destruct Ehs as (rest & Er & Ehs). apply Ok_eq in Ehs. subst hs.
    apply bind_Ok in Eg. destruct Eg as (u & Ec & Eg). apply bind_Ok in Eg. destruct Eg as (k & Ek & Eg).
    assert (HL : each (edge true) (fun _ => repeat vzero k) (repeat vzero k)) by (apply (repeat_each (edge true) (fun _ => vzero)); split; [apply vtends_const | reflexivity]).
    destruct (generate_settles true M m _ _ false (fun _ => 0) 0 (fun _ => 0) 0 (fun _ => 0) 0 ns HMm HL (tends_const 0) (tends_const 0) (tends_const 0) (fun _ => conj eq_refl (fun _ => eq_refl)) g Eg) as (G & N1 & EG & HG).
    assert (HG' : each section_tends G g) by (eapply each_weaken; [|exact HG]; intros X x _ HX; apply HX).
    assert (HU' : upright ns g ms) by (intros hs Ehs i r s' sm Hi Hr Hm; rewrite Er in Ehs; apply Ok_eq in Ehs; subst hs; exact (HU _ Ehs0 i r s' sm Hi Hr Hm)).
    destruct (outer_settle ns _ _ HM G g HG' HU' rest Er) as (R & N2 & ER & HRr).
    assert (HF : forall n, root_fixed (M n) = true).
    { intros n. destruct (HR n (M n)) as [HR1 HR2]; [rewrite E; reflexivity|]. destruct HMm as (_ & (_ & _ & H1) & _ & (_ & _ & H2) & _).
      unfold check in Ec. destruct (root_fixed m) eqn:EF; [|discriminate Ec]. unfold root_fixed in *. rewrite HR1, HR2.
      rewrite !andb_true_iff in EF. destruct EF as (((_ & E2) & _) & E4). apply Reqb_true in E2, E4. rewrite (proj1 (H1 n) E2), (proj1 (H2 n) E4). replace (Reqb 0 0) with true by (symmetry; apply Reqb_true; reflexivity). reflexivity. }
    exists (fun n => G n :: R n), (Nat.max N1 N2). split.
    + intros n Hn. rewrite E. cbn [section_histories]. rewrite HF. cbn [check bind]. rewrite Ek. cbn [bind]. rewrite EG by lia. cbn [bind]. rewrite ER by lia. reflexivity.
    + split; [eapply each_cons; [intros n; reflexivity | exact HG' | exact HRr]|]. intros n r Hr i s Hs. cbn in Hr. injection Hr as <-.
      assert (Hi : (i < List.length g)%nat) by (rewrite <- (each_length _ _ _ HG n); apply nth_error_Some; congruence).
      destruct (nth_error g i) as [s0|] eqn:Es0; [|apply nth_error_None in Es0; lia]. destruct (each_nth _ _ _ _ _ HG Es0) as (X & EX & _ & H0). rewrite EX in Hs. injection Hs as <-. exact (H0 eq_refl n).
Qed.

(** ** Wings *)
Lemma column_all {A} (T : (nat -> A) -> A -> Prop) U l i : each (each T) U l -> forall s, column l i = Ok s -> exists V, (forall n, column (U n) i = Ok (V n)) /\ each T V s.
Proof.
  intros H. unfold column. induction H as [U E|U X U' x l E HX H IH]; intros s Es.
  - apply Ok_eq in Es. subst s. exists (fun _ => []). split; [intros n; rewrite E; reflexivity | constructor; reflexivity].
  - cbn [mapM] in Es. apply bind_Ok in Es. destruct Es as (a & Ea & Es). apply bind_Ok in Es. destruct Es as (b & Eb & Es). apply Ok_eq in Es. subst s.
    unfold index in Ea. destruct (nth_error x i) as [a'|] eqn:En; [|discriminate Ea]. apply Ok_eq in Ea. subst a'. destruct (each_nth _ _ _ _ _ HX En) as (A0 & EA & HA).
    destruct (IH _ Eb) as (V & EV & HV). exists (fun n => A0 n :: V n). split; [|eapply each_cons; [intros n; reflexivity | exact HA | exact HV]].
    intros n. rewrite E. cbn [mapM]. unfold index at 1. rewrite EA. cbn [bind]. rewrite EV. reflexivity.
Qed.
Lemma column_settles {A} (T : (nat -> A) -> A -> Prop) U l i : each (each T) U l -> settles (each T) (fun n => column (U n) i) (column l i).
Proof. intros H s E. destruct (column_all _ _ _ _ H _ E) as (V & EV & HV). exists V, 0%nat. split; [intros n _; apply EV | exact HV]. Qed.
Lemma Forall2_nth_r {A B} (P : A -> B -> Prop) xs ys : Forall2 P xs ys -> forall i y, nth_error ys i = Some y -> exists x, nth_error xs i = Some x /\ P x y.
Proof.
  intros H. induction H as [|a b xs ys Hab H IH]; intros [|i] y Hy; try discriminate; [injection Hy as <-; exists a; auto | exact (IH i y Hy)].
Qed.
Lemma column_rooted H h i : history H h -> settles (fun V s => each approaching_section V s /\ root_at_zero V) (fun n => column (H n) i) (column h i).
Proof.
  intros [HH H0] s E. destruct (column_all _ _ _ _ HH _ E) as (V & EV & HV). exists V, 0%nat. split; [intros n _; apply EV|]. split.
  - eapply each_weaken; [|exact HV]. intros X x _ HX. apply HX.
  - intros n root Hr. specialize (EV n). apply column_spec in EV. destruct (Forall2_nth_r _ _ _ EV _ _ Hr) as (r & Hrow & Hi). exact (H0 n r Hrow i root Hi).
Qed.
Lemma steps_settle {B} (T : (nat -> B) -> B -> Prop) (f : nat -> nat -> result B) g k : (forall i, (i < k)%nat -> settles T (fun n => f n i) (g i)) ->
  settles (each T) (fun n => mapM (f n) (seq 0 k)) (mapM g (seq 0 k)).
Proof.
  intros H. refine (settles_mapM (fun U x => forall n, U n = x) _ f g (fun _ => seq 0 k) _ _ (each_const _ _ (fun _ _ _ => eq_refl))).
  intros U i Hi HU. eapply settles_ext; [intros n; rewrite HU; reflexivity|]. apply H. apply in_seq in Hi. lia.
Qed.
Definition flying_shape (W : nat -> wing) (w : wing) : Prop := approaching_shape W w /\ flying_wing approaching_panel W w.
Lemma wing_flying W w : wing_tends W w -> flying_shape W w.
Proof.
  intros H. pose proof (wing_shape _ _ H) as HS. split; [exact HS|]. split; [apply HS|]. destruct H as (_ & _ & HE). split.
  - eapply each_ext; [intros n; destruct (HE n) as (_ & _ & _ & _ & _ & _ & -> & _); reflexivity|]. apply each_const. intros a _. apply each_const. intros b _. apply vtends_const.
  - intros n. destruct (HE n) as (_ & _ & _ & _ & -> & -> & _ & ->). repeat split.
Qed.
Lemma settles_weaken {A} (T T' : (nat -> A) -> A -> Prop) r r0 : (forall U a, T U a -> T' U a) -> settles T r r0 -> settles T' r r0.
Proof. intros HT H a E. destruct (H a E) as (U & N & EU & HU). exists U, N. split; [exact EU | apply HT, HU]. Qed.
Lemma wings_settle U m ns : (approaching_wing_movement DT dt) U m -> (0 < ns)%Z ->
  (forall ws w, generate_wings m ns dt = Ok ws -> nth_error ws 0 = Some w -> nowhere_vertical m w) ->
  settles (each flying_shape) (fun n => generate_wings (U n) ns (DT n)) (generate_wings m ns dt).
Proof.
  intros ((HX & HY & HZ) & HM & HR & HOX & HOY & HOZ & HE) Hns HV ws E.
  assert (HU : forall hs, section_histories ns dt None (wm_sections m) = Ok hs -> forall i r s sm, nth_error hs i = Some r -> nth_error r 0 = Some s -> nth_error (wm_sections m) (S i) = Some sm -> cs_y_le (sm_base sm) <> cs_y_le s).
  { intros hs Eh i r s sm Hr Hs Hm. destruct (generated_wings _ _ _ _ E) as (HL & _ & xs & ys & zs & hs' & _ & _ & _ & Eh' & HW). rewrite Eh in Eh'. apply Ok_eq in Eh'. subst hs'.
    destruct (nth_error ws 0) as [w|] eqn:Ew; [|apply nth_error_None in Ew; lia]. destruct (HW 0%nat w Ew) as (x & y & z & sections & _ & _ & _ & Ec & EW).
    apply column_spec in Ec. destruct (Forall2_nth_l _ _ _ Ec _ _ Hr) as (s' & Hs' & E'). rewrite Hs in E'. injection E' as <-.
    apply wing_attributes in EW. destruct EW as (_ & _ & _ & _ & _ & _ & _ & EW & _). refine (HV ws w E Ew i (cs_set_wing_chordwise default_unit_chordwise s) sm _ Hm). rewrite EW, nth_error_map, Hs'. reflexivity. }
  revert ws E. change (settles (each flying_shape) (fun n => generate_wings (U n) ns (DT n)) (generate_wings m ns dt)). unfold generate_wings. cbv zeta.
  eapply settles_ext; [intros n; destruct (HE n) as (-> & -> & -> & ->); reflexivity|].
  apply (settles_bind (each tends) _ _ _ _ _ (oscillate_settles _ _ _ _ ns HOX HX)). intros X x _ HXx.
  apply (settles_bind (each tends) _ _ _ _ _ (oscillate_settles _ _ _ _ ns HOY HY)). intros Y y _ HYy.
  apply (settles_bind (each tends) _ _ _ _ _ (oscillate_settles _ _ _ _ ns HOZ HZ)). intros Z z _ HZz.
  apply (settles_bind history _ _ _ _ _ (histories_settle ns _ _ HM HR HU)). intros H h _ (HH & H0).
  refine (steps_settle flying_shape (fun n step => bind (index (X n) step) (fun x => bind (index (Y n) step) (fun y => bind (index (Z n) step) (fun z => bind (column (H n) step) (fun sections => new_wing sections (w_name (wm_base m)) x y z default_unit_normal (w_symmetric (wm_base m)) default_unit_chordwise
                   (w_num_chordwise_panels (wm_base m)) (w_chordwise_spacing (wm_base m))))))) _ _ _).
  intros i _.
  apply (settles_bind tends _ _ _ _ _ (settles_index _ _ _ i HXx)). intros A a _ HA.
  apply (settles_bind tends _ _ _ _ _ (settles_index _ _ _ i HYy)). intros B b _ HB.
  apply (settles_bind tends _ _ _ _ _ (settles_index _ _ _ i HZz)). intros C c _ HC.
  apply (settles_bind _ _ _ _ _ _ (column_rooted _ _ i (conj HH H0))). intros V v _ [HVv HV0].
  apply (settles_weaken wing_tends); [exact wing_flying|]. apply wing_settles; assumption.
Qed.

(** ** Airplanes *)
Lemma flying_settles Ws wings name X x Y y Z z weight : each flying_shape Ws wings -> tends X x -> tends Y y -> tends Z z ->
  (forall main, nth_error wings 0 = Some main -> w_projected_area main <> 0) ->
  settles (flying_airplane approaching_panel) (fun n => new_airplane (Ws n) name (X n) (Y n) (Z n) weight None None None) (new_airplane wings name x y z weight None None None).
Proof.
  intros HW HX HY HZ HM. destruct wings as [|main wings]; [apply settles_Err|].
  destruct (each_tl _ _ _ _ HW) as (M & Ws' & E & ((HMw & _ & HMa & _ & HMc) & HMf) & HR).
  eapply settles_ext; [intros n; rewrite E; cbn [new_airplane override]; reflexivity|]. cbn [new_airplane override].
  assert (HN : forall n, fold_left (fun k w => (k + w_num_panels w)%nat) (M n :: Ws' n) 0%nat = fold_left (fun k w => (k + w_num_panels w)%nat) (main :: wings) 0%nat).
  { intros n. rewrite <- E. revert HW. generalize (main :: wings) as l. generalize Ws as V. clear. intros V l H. generalize 0%nat. induction H as [V E|V x v a m E Hx H IH]; intros k; rewrite E; [reflexivity|]. cbn [fold_left]. rewrite IH. destruct Hx as [(_ & -> & _) _]. reflexivity. }
  eapply (settles_Ok (flying_airplane approaching_panel) (fun n => mkairplane (M n :: Ws' n) name (X n) (Y n) (Z n) weight (w_projected_area (M n)) (w_mean_aerodynamic_chord (M n)) (w_span (M n)) (fold_left (fun k w => (k + w_num_panels w)%nat) (M n :: Ws' n) 0%nat) None None None None)).
  unfold flying_airplane. cbn [a_s_ref a_c_ref a_b_ref a_xyz_ref a_x_ref a_y_ref a_z_ref a_num_panels a_wings].
  split; [exact HMa|]. split; [apply HMc; exact (HM main eq_refl)|]. split; [apply HMw|].
  split; [split; [exact HX | split; [exact HY | exact HZ]]|]. split; [exact HN|].
  refine (each_cons _ _ M Ws' _ _ (fun n => eq_refl) HMf _). eapply each_weaken; [|exact HR]. intros V v _ Hv. apply Hv.
Qed.
Lemma airplanes_settle U m ns : (approaching_airplane_movement DT dt) U m -> (0 < ns)%Z ->
  (forall l a j wm w, generate_airplanes m ns dt = Ok l -> nth_error l 0 = Some a -> nth_error (am_wings m) j = Some wm -> nth_error (a_wings a) j = Some w -> nowhere_vertical wm w) ->
  (forall l a main, generate_airplanes m ns dt = Ok l -> In a l -> nth_error (a_wings a) 0 = Some main -> w_projected_area main <> 0) ->
  settles (each (flying_airplane approaching_panel)) (fun n => generate_airplanes (U n) ns (DT n)) (generate_airplanes m ns dt).
Proof.
  intros ((HX & HY & HZ) & HN & HM & HOX & HOY & HOZ) Hns HV HA l E.
  pose proof E as E0. unfold generate_airplanes in E. cbv zeta in E. apply bind_Ok in E. destruct E as (x & Ex & E). apply bind_Ok in E. destruct E as (y & Ey & E).
  apply bind_Ok in E. destruct E as (z & Ez & E). apply bind_Ok in E. destruct E as (hs & Eh & E).
  assert (HL : forall i a, nth_error l i = Some a -> exists wings, column hs i = Ok wings /\ a_wings a = wings).
  { intros i a Ha. destruct (mapM_seq _ _ _ E) as [_ H]. specialize (H i a Ha). cbn beta in H. apply bind_Ok in H. destruct H as (? & _ & H). apply bind_Ok in H. destruct H as (? & _ & H).
    apply bind_Ok in H. destruct H as (? & _ & H). apply bind_Ok in H. destruct H as (wings & Ew & H). exists wings. split; [exact Ew|]. unfold new_airplane in H. destruct wings; [discriminate H|]. apply Ok_eq in H. subst a. reflexivity. }
  destruct (mapM_seq _ _ _ E) as [Hlen _].
  assert (HS : settles (each (each flying_shape)) (fun n => mapM (fun w => generate_wings w ns (DT n)) (am_wings (U n))) (mapM (fun w => generate_wings w ns dt) (am_wings m))).
  { assert (HM' : each (fun W wm => (approaching_wing_movement DT dt) W wm /\ forall ws w, generate_wings wm ns dt = Ok ws -> nth_error ws 0 = Some w -> nowhere_vertical wm w) (fun n => am_wings (U n)) (am_wings m)).
    { eapply each_weaken; [|exact HM]. intros W wm Hin HW. split; [exact HW|]. intros ws w Ews Hw. apply In_nth_error in Hin. destruct Hin as [j Hj].
      destruct (nth_error l 0) as [a|] eqn:Ea; [|apply nth_error_None in Ea; lia]. destruct (HL 0%nat a Ea) as (wings & Ew & Hw0).
      destruct (mapM_nth _ _ _ _ _ Eh Hj) as (ws' & Hws & Ews'). cbn beta in Ews'. rewrite Ews in Ews'. apply Ok_eq in Ews'. subst ws'.
      apply column_spec in Ew. destruct (Forall2_nth_l _ _ _ Ew _ _ Hws) as (w' & Hw' & E'). rewrite Hw in E'. injection E' as <-. refine (HV l a j wm w E0 Ea Hj _). rewrite Hw0. exact Hw'. }
    refine (settles_mapM _ _ (fun n w => generate_wings w ns (DT n)) _ _ _ _ HM'). intros W wm _ [HW HWv]. apply wings_settle; assumption. }
  assert (HMain : forall i wings main, (i < Z.to_nat ns)%nat -> column hs i = Ok wings -> nth_error wings 0 = Some main -> w_projected_area main <> 0).
  { intros i wings main Hi Ew Hm. destruct (nth_error l i) as [a|] eqn:Ea; [|apply nth_error_None in Ea; lia]. destruct (HL i a Ea) as (wings' & Ew' & Hw). rewrite Ew in Ew'. apply Ok_eq in Ew'. subst wings'.
    apply (HA l a main E0 (nth_error_In _ _ Ea)). rewrite Hw. exact Hm. }
  clear HV HA HL E. revert l E0 Hlen. 
  assert (H : settles (each (flying_airplane approaching_panel)) (fun n => generate_airplanes (U n) ns (DT n)) (generate_airplanes m ns dt)); [|intros l E _; exact (H l E)].
  unfold generate_airplanes. cbv zeta. eapply settles_ext; [intros n; rewrite HN; reflexivity|].
  apply (settles_bind (each tends) _ _ _ _ _ (oscillate_settles _ _ _ _ ns HOX HX)). intros X x' _ HXx.
  apply (settles_bind (each tends) _ _ _ _ _ (oscillate_settles _ _ _ _ ns HOY HY)). intros Y y' _ HYy.
  apply (settles_bind (each tends) _ _ _ _ _ (oscillate_settles _ _ _ _ ns HOZ HZ)). intros Z z' _ HZz.
  apply (settles_bind _ _ _ _ _ _ HS). intros H h Eh' HH. rewrite Eh in Eh'. apply Ok_eq in Eh'. subst h.
  refine (steps_settle (flying_airplane approaching_panel) (fun n step => bind (index (X n) step) (fun x => bind (index (Y n) step) (fun y => bind (index (Z n) step) (fun z => bind (column (H n) step) (fun wings => new_airplane wings (a_name (am_base m)) x y z 0 None None None))))) _ _ _).
  intros i Hi.
  apply (settles_bind tends _ _ _ _ _ (settles_index _ _ _ i HXx)). intros A a _ HA.
  apply (settles_bind tends _ _ _ _ _ (settles_index _ _ _ i HYy)). intros B b _ HB.
  apply (settles_bind tends _ _ _ _ _ (settles_index _ _ _ i HZz)). intros C c _ HC.
  apply (settles_bind _ _ _ _ _ _ (column_settles _ _ _ i HH)). intros V v Ev HVv.
  apply flying_settles; try assumption. intros main Hm. exact (HMain i v main Hi Ev Hm).
Qed.

(** ** Operating points *)
Lemma ops_settle U m ns : approaching_op_movement U m -> settles (each approaching_flow) (fun n => generate_operating_points (U n) ns (DT n)) (generate_operating_points m ns dt).
Proof.
  intros [(HD & HV & HA & HB) HO]. unfold generate_operating_points. cbv zeta.
  apply (settles_bind (each tends) _ _ _ _ _ (oscillate_settles _ _ _ _ ns HO HV)). intros X x _ HX.
  refine (steps_settle approaching_flow (fun n step => bind (index (X n) step) (fun v => Ok (mkop (op_density (om_base (U n))) v (op_alpha (om_base (U n))) (op_beta (om_base (U n))) (op_external_thrust default_operating_point) (op_nu default_operating_point)))) _ _ _).
  intros i _. apply (settles_bind tends _ _ _ _ _ (settles_index _ _ _ i HX)). intros V v _ HVv.
  apply (settles_Ok approaching_flow (fun n => mkop (op_density (om_base (U n))) (V n) (op_alpha (om_base (U n))) (op_beta (om_base (U n))) (op_external_thrust default_operating_point) (op_nu default_operating_point))).
  unfold approaching_flow, approaching_op. cbn. repeat split; try assumption. apply tends_const.
Qed.

(** ** Movements *)
Lemma each_mapM_same {A B} (T : (nat -> A) -> A -> Prop) (f : A -> result B) U l : (forall X x, In x l -> T X x -> forall n, f (X n) = f x) -> each T U l -> forall n, mapM f (U n) = mapM f l.
Proof.
  intros HF H n. induction H as [U E|U X U' x l E HX H IH]; rewrite E; [reflexivity|]. cbn [mapM]. rewrite (HF X x (or_introl eq_refl) HX n). rewrite IH; [reflexivity|]. intros Y y Hy. apply HF. right. exact Hy.
Qed.
Lemma each_map_same {A B} (T : (nat -> A) -> A -> Prop) (f : A -> B) U l : (forall X x, T X x -> forall n, f (X n) = f x) -> each T U l -> forall n, map f (U n) = map f l.
Proof. intros HF H n. induction H as [U E|U X U' x l E HX H IH]; rewrite E; [reflexivity|]. cbn [map]. rewrite (HF X x HX n), IH. reflexivity. Qed.
Definition movement_near (MS : nat -> movement) (m : movement) : Prop :=
  each (each (flying_airplane approaching_panel)) (fun n => mv_airplanes (MS n)) (mv_airplanes m) /\
  each approaching_flow (fun n => mv_operating_points (MS n)) (mv_operating_points m) /\
  tends (fun n => mv_delta_time (MS n)) (mv_delta_time m) /\
  forall n, mv_num_steps (MS n) = mv_num_steps m /\
    forall p, mv_max_period m = Ok p -> exists q, mv_max_period (MS n) = Ok q /\ (q = 0 <-> p = 0) /\ first_averaging_step (mv_num_steps m) (mv_delta_time (MS n)) q = first_averaging_step (mv_num_steps m) (mv_delta_time m) p.
Lemma movement_settles AMS ams OM om s cy ch m p : each (approaching_airplane_movement DT dt) AMS ams -> approaching_op_movement OM om -> same_clock AMS ams OM om s cy DT dt (mv_num_steps m) -> max_period ams om = Ok p ->
  new_movement ams om s cy ch (Some dt) = Ok m -> (0 < mv_num_steps m)%Z -> no_vertical_wings ams (mv_airplanes m) -> main_wings_wide (mv_airplanes m) ->
  exists MS N, (forall n, (N <= n)%nat -> new_movement (AMS n) (OM n) s cy ch (Some (DT n)) = Ok (MS n)) /\ movement_near MS m.
Proof.
  intros HA HO HS HP E Hpos HV HW.
  unfold new_movement in E. cbv zeta in E. apply bind_Ok in E. destruct E as (u1 & E1 & E). apply bind_Ok in E. destruct E as (u2 & E2 & E). cbn [bind] in E.
  apply bind_Ok in E. destruct E as (((k & cycles) & chords) & Er & E). apply bind_Ok in E. destruct E as (airplanes & Ea & E). apply bind_Ok in E. destruct E as (ops & Eo & E). apply Ok_eq in E. subst m.
  cbn [mv_num_steps mv_airplanes] in *.
  assert (HM : each (fun W am => approaching_airplane_movement DT dt W am /\
      (forall l a j wm w, generate_airplanes am k dt = Ok l -> nth_error l 0 = Some a -> nth_error (am_wings am) j = Some wm -> nth_error (a_wings a) j = Some w -> nowhere_vertical wm w) /\
      (forall l a main, generate_airplanes am k dt = Ok l -> In a l -> nth_error (a_wings a) 0 = Some main -> w_projected_area main <> 0)) AMS ams).
  { eapply each_weaken; [|exact HA]. intros W am Hin HWm. split; [exact HWm|]. apply In_nth_error in Hin. destruct Hin as [i Hi]. destruct (mapM_nth _ _ _ _ _ Ea Hi) as (l & Hl & El). cbn beta in El. split.
    - intros l' a j wm w El' H1 H2 H3. rewrite El in El'. apply Ok_eq in El'. subst l'. exact (HV i j am l a wm w Hi Hl H1 H2 H3).
    - intros l' a main El' H1 H2. rewrite El in El'. apply Ok_eq in El'. subst l'. exact (HW l a main (nth_error_In _ _ Hl) H1 H2). }
  assert (HG : settles (each (each (flying_airplane approaching_panel))) (fun n => mapM (fun m => generate_airplanes m k (DT n)) (AMS n)) (mapM (fun m => generate_airplanes m k dt) ams)).
  { refine (settles_mapM _ _ (fun n m => generate_airplanes m k (DT n)) _ _ _ _ HM). intros W am _ (H1 & H2 & H3). apply airplanes_settle; assumption. }
  destruct (HG airplanes Ea) as (AS & N1 & EAS & HAS). destruct (ops_settle _ _ k HO ops Eo) as (OS & N2 & EOS & HOS).
  destruct HS as [N0 HS]. set (late := fun n => (N0 <=? n)%nat).
  exists (fun n => mkmovement (if late n then AMS n else ams) (if late n then OM n else om) k cycles chords (if late n then DT n else dt) (AS n) (OS n)), (Nat.max N0 (Nat.max N1 N2)). split.
  - intros n Hn. assert (EL : late n = true) by (apply Nat.leb_le; lia). rewrite EL. destruct (HS n p ltac:(lia) HP) as (q & HQ & H0 & _ & HK). unfold new_movement. cbv zeta. rewrite HP in E1, E2, Er. rewrite HQ. cbn [bind] in *.
    assert (HB : Reqb q 0 = Reqb p 0) by (destruct (Reqb p 0) eqn:Ep; [apply Reqb_true; apply Reqb_true in Ep; tauto | apply Reqb_false; apply Reqb_false in Ep; tauto]).
    rewrite HB, E1. cbn [bind]. rewrite E2. cbn [bind].
    assert (Er' : match s with
      | Some n0 => Ok (n0, cy, ch)
      | None => if Reqb p 0 then let* c := py_max (map (fun m => a_c_ref (am_base m)) (AMS n)) in
            Ok (py_ceil (match ch with Some k => k | None => 10 end * c / (DT n * op_velocity (om_base (OM n)))), cy, Some (match ch with Some k => k | None => 10 end))
          else Ok (py_ceil (match cy with Some k => k | None => 3 end * q / DT n), Some (match cy with Some k => k | None => 3 end), ch)
      end = Ok (k, cycles, chords)).
    { destruct s as [s|]; [exact Er|]. destruct (HK eq_refl) as (Hp & Hk). apply Reqb_false in Hp. rewrite Hp in Er |- *. rewrite Hk. apply Ok_eq in Er. injection Er as Er1 Er2 Er3. rewrite Er2, Er3. reflexivity. }
    rewrite Er'. cbn [bind]. rewrite EAS by lia. cbn [bind]. rewrite EOS by lia. reflexivity.
  - split; [exact HAS|]. split; [exact HOS|]. split; [apply (tends_eventually DT _ _ N0); [intros n Hn; cbn; unfold late; apply Nat.leb_le in Hn; rewrite Hn; reflexivity | exact HDT]|].
    intros n. split; [reflexivity|]. unfold mv_max_period. cbn. intros p' Hp'. destruct (late n) eqn:EL; [|exists p'; split; [exact Hp' | split; [tauto | reflexivity]]].
    apply Nat.leb_le in EL. destruct (HS n p' EL Hp') as (q & H1 & H2 & H3 & _). eauto.
Qed.
Lemma problem_settles MS m only up : movement_near MS m -> new_unsteady_problem m only = Ok up ->
  exists UPS, (forall n, new_unsteady_problem (MS n) only = Ok (UPS n)) /\ approaching_problem UPS up.
Proof.
  intros (HA & HO & HT & HE) E. unfold new_unsteady_problem in E. apply bind_Ok in E. destruct E as (p & Ep & E). cbv zeta in E. apply bind_Ok in E. destruct E as (ps & Eps & E). apply Ok_eq in E. subst up.
  assert (HS : forall steps l, mapM (fun step => let* airplanes := column (mv_airplanes m) step in let* op := index (mv_operating_points m) step in Ok (mksteady airplanes op)) steps = Ok l ->
    exists L, (forall n, mapM (fun step => let* airplanes := column (mv_airplanes (MS n)) step in let* op := index (mv_operating_points (MS n)) step in Ok (mksteady airplanes op)) steps = Ok (L n)) /\
      each (approaching_step approaching_panel) L l).
  { induction steps as [|i steps IH]; intros l El.
    - cbn in El. apply Ok_eq in El. subst l. exists (fun _ => []). split; [reflexivity | constructor; reflexivity].
    - cbn [mapM] in El. apply bind_Ok in El. destruct El as (sp & Es & El). apply bind_Ok in El. destruct El as (l' & El' & El). apply Ok_eq in El. subst l.
      apply bind_Ok in Es. destruct Es as (as_ & Ec & Es). apply bind_Ok in Es. destruct Es as (op & Eo & Es). apply Ok_eq in Es. subst sp.
      destruct (column_all _ _ _ _ HA _ Ec) as (V & EV & HV). unfold index in Eo. destruct (nth_error (mv_operating_points m) i) as [op'|] eqn:En; [|discriminate Eo]. apply Ok_eq in Eo. subst op'.
      destruct (each_nth _ _ _ _ _ HO En) as (O & EO & HOo). destruct (IH _ El') as (L & EL & HL).
      exists (fun n => mksteady (V n) (O n) :: L n). split.
      + intros n. cbn [mapM]. rewrite EV. cbn [bind]. unfold index at 1. rewrite EO. cbn [bind]. rewrite EL. reflexivity.
      + eapply each_cons; [intros n; reflexivity | split; [exact HOo | exact HV] | exact HL]. }
  destruct (HS _ _ Eps) as (L & EL & HL).
  set (Q := fun n => match mv_max_period (MS n) with Ok q => q | Err _ => 0 end).
  assert (HQ : forall n, mv_max_period (MS n) = Ok (Q n) /\ (Q n = 0 <-> p = 0) /\ first_averaging_step (mv_num_steps m) (mv_delta_time (MS n)) (Q n) = first_averaging_step (mv_num_steps m) (mv_delta_time m) p).
  { intros n. destruct (proj2 (HE n) p Ep) as (q & H1 & H2 & H3). unfold Q. rewrite H1. auto. }
  exists (fun n => mkunsteady (MS n) (mv_num_steps m) (mv_delta_time (MS n)) only (Q n) (first_averaging_step (mv_num_steps m) (mv_delta_time m) p)
    (if only then first_averaging_step (mv_num_steps m) (mv_delta_time m) p else 0%Z) no_final_loads no_final_loads no_final_loads (L n)). split.
  - intros n. destruct (HQ n) as (H1 & H2 & H3). unfold new_unsteady_problem. rewrite H1, (proj1 (HE n)). cbn [bind]. cbv zeta. rewrite EL, H3. reflexivity.
  - split; [|exact HL]. split; [exact HT|]. intros n. destruct (HQ n) as (H1 & H2 & H3). repeat split; cbn; tauto.
Qed.
Lemma movement_continuous AMS ams OM om s cy ch m only up : each (approaching_airplane_movement DT dt) AMS ams -> approaching_op_movement OM om -> same_clock AMS ams OM om s cy DT dt (mv_num_steps m) ->
  new_movement ams om s cy ch (Some dt) = Ok m -> new_unsteady_problem m only = Ok up -> (0 < mv_num_steps m)%Z -> no_vertical_wings ams (mv_airplanes m) -> main_wings_wide (mv_airplanes m) ->
  exists MS UPS N, (forall n, (N <= n)%nat -> new_movement (AMS n) (OM n) s cy ch (Some (DT n)) = Ok (MS n) /\ new_unsteady_problem (MS n) only = Ok (UPS n)) /\ approaching_problem UPS up.
Proof.
  intros HA HO HS Em Eu Hpos HV HW. assert (HP : exists p, max_period ams om = Ok p).
  { destruct (movement_built _ _ _ _ _ _ _ Em) as (E1 & E2 & _). pose proof Eu as E. unfold new_unsteady_problem in E. apply bind_Ok in E. destruct E as (p & Ep & _). exists p. unfold mv_max_period in Ep. rewrite E1, E2 in Ep. exact Ep. }
  destruct HP as [p HP]. destruct (movement_settles _ _ _ _ _ _ _ _ _ HA HO HS HP Em Hpos HV HW) as (MS & N & EM & HM). destruct (problem_settles _ _ _ _ HM Eu) as (UPS & EU & HU).
  exists MS, UPS, N. split; [|exact HU]. intros n Hn. split; [exact (EM n Hn) | exact (EU n)].
Qed.

(** ** Where the schedule is the same *)
Lemma tends_max U V x y : tends U x -> tends V y -> tends (fun n => Rmax (U n) (V n)) (Rmax x y).
Proof.
  assert (E : forall a b, Rmax a b = (a + b + Rabs (a - b)) / 2) by (intros a b; unfold Rmax, Rabs; destruct (Rle_dec a b), (Rcase_abs (a - b)); lra).
  intros HU HV. rewrite E. eapply tends_ext; [intros n; apply E|]. apply tends_div; [lra| |apply tends_const]. apply tends_plus; [apply tends_plus; assumption | apply tends_abs, tends_minus; assumption].
Qed.
Lemma max_settles U l : each tends U l -> settles tends (fun n => py_max (U n)) (py_max l).
Proof.
  intros H. destruct H as [U E|U X U' x l E HX H]; [apply settles_Err|]. eapply settles_ext; [intros n; rewrite E; reflexivity|]. cbn [py_max].
  apply (settles_Ok tends (fun n => fold_left Rmax (U' n) (X n))). clear E. revert X x HX. induction H as [U' E'|U' Y U'' y l E' HY H IH]; intros X x HX.
  - eapply tends_ext; [intros n; rewrite E'; reflexivity | exact HX].
  - eapply tends_ext; [intros n; rewrite E'; reflexivity|]. cbn [fold_left]. apply (IH (fun n => Rmax (X n) (Y n)) (Rmax x y)). apply tends_max; assumption.
Qed.
Lemma section_period U m : approaching_section_movement DT dt U m -> tends (fun n => sm_max_period (U n)) (sm_max_period m).
Proof. intros (_ & (_ & K1 & _) & (_ & K2 & _) & (_ & K3 & _) & _). unfold sm_max_period. repeat apply tends_max; assumption. Qed.
Lemma wing_period U m : approaching_wing_movement DT dt U m -> settles tends (fun n => wm_max_period (U n)) (wm_max_period m).
Proof.
  intros (_ & HS & _ & (_ & G1 & _) & (_ & G2 & _) & (_ & G3 & _) & _). unfold wm_max_period. apply (settles_bind tends).
  - apply max_settles. refine (each_map _ _ (fun _ => sm_max_period) _ _ _ _ HS). intros X x _ HX. apply section_period, HX.
  - intros P p _ HP. apply (settles_Ok tends (fun n => Rmax (Rmax (Rmax (P n) (osc_period (wm_x_le (U n)))) (osc_period (wm_y_le (U n)))) (osc_period (wm_z_le (U n))))). repeat apply tends_max; assumption.
Qed.
Lemma airplane_period U m : approaching_airplane_movement DT dt U m -> settles tends (fun n => am_max_period (U n)) (am_max_period m).
Proof.
  intros (_ & _ & HW & (_ & H1 & _) & (_ & H2 & _) & (_ & H3 & _)). unfold am_max_period. apply (settles_bind (each tends)).
  - refine (settles_mapM _ _ (fun _ => wm_max_period) _ _ _ _ HW). intros X x _ HX. apply wing_period, HX.
  - intros PS ps _ HPS. apply (settles_bind tends); [apply max_settles, HPS|]. intros P p _ HP.
    apply (settles_Ok tends (fun n => Rmax (Rmax (Rmax (P n) (osc_period (am_x_ref (U n)))) (osc_period (am_y_ref (U n)))) (osc_period (am_z_ref (U n))))). repeat apply tends_max; assumption.
Qed.
Lemma longest_settles AMS ams OM om : each (approaching_airplane_movement DT dt) AMS ams -> approaching_op_movement OM om -> settles tends (fun n => max_period (AMS n) (OM n)) (max_period ams om).
Proof.
  intros HA [_ (_ & HO & _)]. unfold max_period. apply (settles_bind (each tends)).
  - refine (settles_mapM _ _ (fun _ => am_max_period) _ _ _ _ HA). intros X x _ HX. apply airplane_period, HX.
  - intros PS ps _ HPS. apply (settles_bind tends); [apply max_settles, HPS|]. intros P p _ HP.
    apply (settles_Ok tends (fun n => Rmax (P n) (om_max_period (OM n)))). apply tends_max; [exact HP | exact HO].
Qed.
Lemma ceil_settles U x : tends U x -> ~ whole x -> exists N, forall n, (N <= n)%nat -> py_ceil (U n) = py_ceil x.
Proof.
  intros HU Hx. destruct (ceil_spec x) as [H1 H2]. assert (H3 : x < IZR (py_ceil x)) by (destruct H2 as [H2|H2]; [exact H2 | exfalso; apply Hx; exists (py_ceil x); exact H2]).
  destruct (tends_above _ _ _ HU H1) as [N1 HN1]. destruct (tends_below _ _ _ HU H3) as [N2 HN2]. exists (Nat.max N1 N2). intros n Hn. specialize (HN1 n ltac:(lia)). specialize (HN2 n ltac:(lia)).
  destruct (ceil_spec (U n)) as [H4 H5]. assert (py_ceil (U n) < py_ceil x + 1)%Z by (apply lt_IZR; rewrite plus_IZR; lra). assert (py_ceil x < py_ceil (U n) + 1)%Z by (apply lt_IZR; rewrite plus_IZR; lra). lia.
Qed.
Lemma clock_settles AMS ams OM om s cy ch m : each (approaching_airplane_movement DT dt) AMS ams -> approaching_op_movement OM om -> dt <> 0 -> between_steps ams om s cy dt ->
  new_movement ams om s cy ch (Some dt) = Ok m -> same_clock AMS ams OM om s cy DT dt (mv_num_steps m).
Proof.
  intros HA HO Hd (p & Hp & Hp0 & Hw & Hc) E. destruct (longest_settles _ _ _ _ HA HO p Hp) as (Q & N1 & HQ & HT).
  destruct (tends_apart _ _ _ _ HT (tends_const 0) Hp0) as [N2 HN2].
  destruct (ceil_settles (fun n => Q n / DT n) (p / dt) ltac:(apply tends_div; assumption) Hw) as [N3 HN3].
  assert (HK : exists N4, forall n, (N4 <= n)%nat -> s = None -> py_ceil (match cy with Some k => k | None => 3 end * Q n / DT n) = mv_num_steps m).
  { destruct s as [s|]; [exists 0%nat; discriminate|].
    destruct (ceil_settles (fun n => match cy with Some k => k | None => 3 end * Q n / DT n) (match cy with Some k => k | None => 3 end * p / dt)) as [N4 HN4].
    - apply tends_div; [exact Hd | apply tends_mult; [apply tends_const | exact HT] | exact HDT].
    - apply Hc. reflexivity.
    - exists N4. intros n Hn _. rewrite (HN4 n Hn). unfold new_movement in E. cbv zeta in E. apply bind_Ok in E. destruct E as (u1 & _ & E). apply bind_Ok in E. destruct E as (u2 & _ & E). cbn [bind] in E.
      rewrite Hp in E. cbn [bind] in E. apply Reqb_false in Hp0. rewrite Hp0 in E. cbn [bind] in E. apply bind_Ok in E. destruct E as (airplanes & _ & E). apply bind_Ok in E. destruct E as (ops & _ & E). apply Ok_eq in E. subst m. reflexivity. }
  destruct HK as [N4 HN4]. exists (Nat.max (Nat.max N1 N2) (Nat.max N3 N4)). intros n p' Hn Hp'. rewrite Hp in Hp'. apply Ok_eq in Hp'. subst p'. exists (Q n). split; [apply HQ; lia|].
  specialize (HN2 n ltac:(lia)). split; [tauto|]. split.
  - unfold first_averaging_step. apply Reqb_false in HN2, Hp0. rewrite HN2, Hp0, !floor_shift, (HN3 n) by lia. reflexivity.
  - intros Hs. split; [exact Hp0 | apply HN4; [lia | exact Hs]].
Qed.
End Times.
(** The same time step, and the same longest period. *)
Lemma clock_kept AMS ams OM om s cy ch dt m : (forall n, max_period (AMS n) (OM n) = max_period ams om) -> (s = None -> max_period ams om <> Ok 0) ->
  new_movement ams om s cy ch (Some dt) = Ok m -> same_clock AMS ams OM om s cy (fun _ => dt) dt (mv_num_steps m).
Proof.
  intros HP Hs E. exists 0%nat. intros n p _ Hp. exists p. rewrite HP. split; [exact Hp|]. split; [tauto|]. split; [reflexivity|]. intros ->. assert (Hp0 : p <> 0) by (intros ->; exact (Hs eq_refl Hp)). split; [exact Hp0|].
  unfold new_movement in E. cbv zeta in E. apply bind_Ok in E. destruct E as (u1 & _ & E). apply bind_Ok in E. destruct E as (u2 & _ & E). cbn [bind] in E.
  rewrite Hp in E. cbn [bind] in E. apply Reqb_false in Hp0. rewrite Hp0 in E. cbn [bind] in E. apply bind_Ok in E. destruct E as (airplanes & _ & E). apply bind_Ok in E. destruct E as (ops & _ & E). apply Ok_eq in E. subst m. reflexivity.
Qed.
