(** Points off the cut-offs are found everywhere; a plate's flow. *)
From Coq Require Import List Reals Lra Lia Classical String.
From Verif Require Import M_Geometry M_Loads M_Horseshoe M_SteadyRing M_Movement M_Unsteady S_Geometry S_Vortices S_Solve S_Loads S_Mirror S_Unsteady S_UnsteadyRun S_Solvable S_Size S_Flow
  L_Base L_Rotations L_Loads L_Aero L_Gauss L_Horseshoe L_SteadyRing L_Geometry L_Frames L_Mirror L_MirrorHorseshoe L_RingLegs L_UnsteadyFlow L_Solvable L_Example L_Example3 L_Example4 L_Example5 L_SolvableExample L_Size L_SizeExample L_Flow L_Flow2 L_Flow3 L_FlowSolvers L_FlowUnsteady.
Import ListNotations.
Local Open Scope R_scope.

Definition few (P : R -> Prop) : Prop := exists l, forall t, P t -> In t l.
Lemma few_or P Q : few P -> few Q -> few (fun t => P t \/ Q t).
Proof. intros [l Hl] [m Hm]. exists (l ++ m). intros t [H|H]; apply in_or_app; auto. Qed.
Lemma few_list {A} (P : A -> R -> Prop) l : (forall a, In a l -> few (P a)) -> few (fun t => exists a, In a l /\ P a t).
Proof.
  induction l as [|a l IH]; intros H; [exists []; intros t (a & [] & _)|].
  destruct (few_or _ _ (H a (or_introl eq_refl)) (IH (fun b Hb => H b (or_intror Hb)))) as [m Hm]. exists m. intros t (b & [<-|Hb] & Ht); apply Hm; [left; exact Ht | right; exists b; auto].
Qed.
Lemma few_quadratic A B C : A <> 0 -> few (fun t => A * (t * t) + B * t + C = 0).
Proof.
  intros HA. destruct (classic (exists t, A * (t * t) + B * t + C = 0)) as [[t0 H0]|N].
  - exists [t0; - B / A - t0]. intros t Ht. destruct (Req_dec t t0) as [->|Hd]; [left; reflexivity|]. right; left.
    assert (X : (t - t0) * (A * (t + t0) + B) = 0) by (ring_simplify; lra). apply Rmult_integral in X. destruct X as [X|X]; [lra|]. apply (Rmult_eq_reg_l A); [|exact HA]. field_simplify; [lra | exact HA].
  - exists []. intros t Ht. apply N. exists t. exact Ht.
Qed.
Lemma few_misses P e : few P -> 0 < e -> exists t, 0 < t < e /\ ~ P t.
Proof.
  intros [l Hl] He. assert (X : exists d, 0 < d <= e /\ forall t, 0 < t < d -> ~ In t l).
  { clear P Hl. induction l as [|a l (d & Hd & IH)]; [exists e; split; [lra | intros t _ []]|].
    destruct (Rlt_dec 0 a) as [Ha|Ha].
    - exists (Rmin d a). split; [split; [apply Rmin_glb_lt; lra | pose proof (Rmin_l d a); lra]|]. intros t Ht [E|Hi]; [pose proof (Rmin_r d a); lra | pose proof (Rmin_l d a); apply (IH t); [lra | exact Hi]].
    - exists d. split; [exact Hd|]. intros t Ht [E|Hi]; [lra | exact (IH t Ht Hi)]. }
  destruct X as (d & Hd & HX). exists (d / 2). split; [lra|]. intros HP. apply (HX (d / 2)); [lra | apply Hl, HP].
Qed.
Lemma skew d : d <> vzero -> few (fun s => vcross (mkvec 1 s (s * s)) d = vzero).
Proof.
  destruct d as [d1 d2 d3]. intros Hd. exists [d2 / d1]. intros s Hs. unfold vcross, vzero in Hs. cbn [vx vy vz] in Hs. injection Hs as H1 H2 H3.
  destruct (Req_dec d1 0) as [E|N]; [exfalso; apply Hd; subst d1; unfold vzero; f_equal; nra|]. left. apply (Rmult_eq_reg_r d1); [|exact N]. unfold Rdiv. rewrite Rmult_assoc, Rinv_l by exact N. lra.
Qed.
Lemma line_norm A t u : vnorm (vsub A (vscale t u)) ^ 2 = vdot u u * (t * t) + - 2 * vdot A u * t + vdot A A.
Proof. rewrite vnorm_sqr. destruct A, u. vunfold. ring. Qed.
Lemma line_cross A B t u : vcross (vsub A (vscale t u)) (vsub B (vscale t u)) = vsub (vcross A B) (vscale t (vcross u (vsub B A))).
Proof. destruct A, B, u. vunfold. apply vec_ext; cbn; ring. Qed.
Lemma dot_zero u : vdot u u = 0 -> u = vzero.
Proof. intros H. destruct u as [a b c]. unfold vdot in H. cbn in H. unfold vzero. f_equal; nra. Qed.
Lemma few_norm A u c : u <> vzero -> few (fun t => vnorm (vsub A (vscale t u)) = c).
Proof.
  intros Hu. destruct (few_quadratic (vdot u u) (- 2 * vdot A u) (vdot A A - c ^ 2)) as [l Hl]; [intros X; apply Hu, dot_zero, X|].
  exists l. intros t Ht. apply Hl. pose proof (line_norm A t u) as E. rewrite Ht in E. lra.
Qed.
Lemma few_norm2 A u c : u <> vzero -> few (fun t => vnorm (vsub A (vscale t u)) ^ 2 = c).
Proof.
  intros Hu. destruct (few_quadratic (vdot u u) (- 2 * vdot A u) (vdot A A - c)) as [l Hl]; [intros X; apply Hu, dot_zero, X|].
  exists l. intros t Ht. apply Hl. rewrite line_norm in Ht. lra.
Qed.
Lemma off_nearby (segs : path) x e : 0 < e -> exists y, vnorm (vsub y x) < e /\ forall s, In s segs -> off_threshold y s.
Proof.
  intros He. destruct (few_misses (fun w => exists s, In s segs /\ (vsub (snd s) (fst s) <> vzero /\ vcross (mkvec 1 w (w * w)) (vsub (snd s) (fst s)) = vzero)) 1) as (w & _ & Hw); [|lra|].
  { apply few_list. intros s _. destruct (classic (vsub (snd s) (fst s) = vzero)) as [E|N]; [exists []; intros t [H _]; contradiction|].
    destruct (skew _ N) as [l Hl]. exists l. intros t [_ Ht]. apply Hl, Ht. }
  set (u := mkvec 1 w (w * w)) in *. assert (Hu : u <> vzero) by (unfold u, vzero; intros X; injection X as X _; lra).
  assert (Nu : 0 < vnorm u) by (apply vnorm_pos; exact Hu).
  destruct (few_misses (fun t => exists s, In s segs /\ ~ off_threshold (vadd x (vscale t u)) s) (e / vnorm u)) as (t & Ht & N).
  - apply few_list. intros [a b] Hs. unfold off_threshold. cbn [fst snd].
    assert (EA : forall c t, vsub c (vadd x (vscale t u)) = vsub (vsub c x) (vscale t u)) by (intros; vring).
    pose proof (few_norm (vsub a x) u (/ 2 ^ 52) Hu) as F1. pose proof (few_norm (vsub b x) u (/ 2 ^ 52) Hu) as F2.
    assert (F3 : few (fun t => vnorm (vcross (vsub (vsub a x) (vscale t u)) (vsub (vsub b x) (vscale t u))) ^ 2 = / 2 ^ 52)).
    { destruct (classic (vsub b a = vzero)) as [E|Nz].
      - exists []. intros t Ht. exfalso. assert (E2 : b = a) by (clear -E; destruct a, b; unfold vsub, vzero in E; cbn in E; injection E as E1 E2 E3; f_equal; lra). subst b.
        rewrite vcross_self, vnorm_zero in Ht. assert (0 < / 2 ^ 52) by (apply Rinv_0_lt_compat, pow_lt; lra). rewrite pow_i in Ht by lia. lra.
      - destruct (few_norm2 (vcross (vsub a x) (vsub b x)) (vcross u (vsub b a)) (/ 2 ^ 52)) as [l Hl]; [intros X; apply Hw; exists (a, b); auto|].
        exists l. intros t Ht. apply Hl. rewrite line_cross in Ht. replace (vsub (vsub b x) (vsub a x)) with (vsub b a) in Ht by vring. exact Ht. }
    destruct (few_or _ _ F1 (few_or _ _ F2 F3)) as [l Hl]. exists l. intros t Ht. apply Hl. rewrite !EA in Ht. tauto.
  - apply Rdiv_lt_0_compat; assumption.
  - exists (vadd x (vscale t u)). split.
    + replace (vsub (vadd x (vscale t u)) x) with (vscale t u) by vring. rewrite vnorm_scale, Rabs_pos_eq by lra. apply (Rmult_lt_reg_r (/ vnorm u)); [apply Rinv_0_lt_compat, Nu|]. rewrite Rmult_assoc, Rinv_r, Rmult_1_r by lra. apply Ht.
    + intros s Hs. apply NNPP. intros X. apply N. exists s. auto.
Qed.

(** The derivative of a field is unique. *)
Lemma derivative_unique V x J K : field_derivative V x J -> field_derivative V x K -> J = K.
Proof.
  intros HJ HK. assert (E : forall h, mvmul J h = mvmul K h).
  { intros h. destruct (HJ h) as (A1 & A2 & A3), (HK h) as (B1 & B2 & B3). apply vec_ext; eapply uniqueness_limite; eassumption. }
  pose proof (E (mkvec 1 0 0)) as E1. pose proof (E (mkvec 0 1 0)) as E2. pose proof (E (mkvec 0 0 1)) as E3. clear -E1 E2 E3.
  destruct J as [[? ? ?] [? ? ?] [? ? ?]], K as [[? ? ?] [? ? ?] [? ? ?]]. unfold mvmul, vdot in *. cbn in *. injection E1 as ? ? ?. injection E2 as ? ? ?. injection E3 as ? ? ?. f_equal; f_equal; lra.
Qed.
Lemma clear_of_more x a b : / 4 <= vdot (vsub a x) (vsub a x) -> / 4 <= vdot (vsub b x) (vsub b x) ->
  / 4 <= vdot (vcross (vsub a x) (vsub b x)) (vcross (vsub a x) (vsub b x)) -> well_clear x (a, b).
Proof.
  assert (H : forall u, / 4 <= vdot u u -> / 2 ^ 52 < vnorm u).
  { intros u Hu. assert (/ 2 <= vnorm u) by (unfold vnorm; rewrite <- (sqrt_square (/ 2)) by lra; apply sqrt_le_1; lra). assert (/ 2 ^ 52 < / 2) by (apply Rinv_lt_contravar; lra). lra. }
  intros H1 H2 H3. unfold well_clear. cbn [fst snd]. split; [auto|]. split; [auto|]. rewrite vnorm_sqr. assert (/ 2 ^ 52 < / 4) by (apply Rinv_lt_contravar; lra). lra.
Qed.
Lemma well_clear_off x s : well_clear x s -> off_threshold x s.
Proof. intros (H1 & H2 & H3). unfold off_threshold. repeat split; lra. Qed.
Definition half_way : vec := mkvec 1 (1 / 2) 5.
Lemma plate_clear v g : In v (horseshoe_paths (ex_op 1 10) [ex_airplane false]) -> In g v -> well_clear half_way g.
Proof.
  destruct (ex_direction 1 10) as (c & Hc & Hcc & Hd). destruct (plate_paths c Hc Hcc Hd) as (_ & -> & _). intros [<-|[]]. unfold open_path, half_way.
  intros [<-|[<-|[<-|[]]]]; apply clear_of_more; vunfold; cbn; nra.
Qed.
Lemma plate_ring_clear v g : In v (steady_ring_paths (ex_op 1 10) [ex_airplane false]) -> In g v -> well_clear half_way g.
Proof.
  destruct (ex_direction 1 10) as (c & Hc & Hcc & Hd). destruct (plate_paths c Hc Hcc Hd) as (_ & _ & ->). intros [<-|[]]. unfold open_path, closed_path, half_way. cbn [app].
  intros [<-|[<-|[<-|[<-|[<-|[<-|[<-|[]]]]]]]]; apply clear_of_more; vunfold; cbn; nra.
Qed.
(** The plate's flow spins between the trailing legs of its horseshoe vortex. *)
Lemma plate_spins solve : SolveSpec solve -> exists s V x, hs_run solve (hs_new [ex_airplane false] (ex_op 1 10)) = Ok s /\ (forall y, hs_solution_velocity s [y] = [V y]) /\
  (forall v g, In v (horseshoe_paths (ex_op 1 10) [ex_airplane false]) -> In g v -> well_clear x g) /\ ~ irrotational V x.
Proof.
  intros HS. destruct (ex_horseshoe_run solve 1 10 HS) as (A & s & HA & E & Eg). destruct (hs_curl _ _ _ _ HS E) as (V & gs & HV & Hgs & HJ). exists s, V, half_way. split; [exact E|]. split; [exact HV|]. split; [exact plate_clear|].
  destruct (HJ half_way plate_clear) as (J & HD & HE). intros (K & KD & KE). rewrite (derivative_unique _ _ _ _ KD HD), HE in KE.
  pose proof (hs_final_strengths _ _ _ HS E) as X. rewrite <- panels_of_all, Hgs, Eg in X. destruct gs as [|g [|]]; try discriminate X. apply cons_eq' in X. destruct X as [X _]. apply Some_eq in X.
  destruct (ex_direction 1 10) as (c & Hc & Hcc & Hd). destruct (plate_paths c Hc Hcc Hd) as (_ & EP & _). rewrite EP in KE. cbn [map2] in KE. rewrite vsum_cons, vsum_nil, vadd_0_r in KE.
  unfold start, finish, open_path in KE. cbn [hd last fst snd] in KE. unfold spin in KE.
  assert (EN : vnorm (vsub (mkvec (1 + 20 * c) 0 10) half_way) = vnorm (vsub (mkvec (1 + 20 * c) 1 10) half_way)) by (unfold vnorm, half_way; f_equal; vunfold; cbn; field).
  rewrite EN in KE. set (N := vnorm (vsub (mkvec (1 + 20 * c) 1 10) half_way)) in *.
  assert (HN : 0 < N) by (apply vnorm_pos; unfold half_way; intros Z; apply (f_equal vz) in Z; cbn in Z; lra).
  apply (f_equal vy) in KE. unfold vsub, vscale, half_way, vzero in KE. cbn [vx vy vz] in KE.
  assert (HK : g / (4 * PI) / N ^ 3 = 0) by lra. pose proof PI_RGT_0. assert (0 < N ^ 3) by (apply pow_lt, HN).
  assert (Hg : g = 0) by (apply (Rmult_eq_reg_r (/ (4 * PI) * / N ^ 3)); [unfold Rdiv in HK; lra | apply Rmult_integral_contrapositive; split; apply Rinv_neq_0_compat; lra]).
  rewrite Hg in X. assert (0 < 10 / 2 / A) by (apply Rdiv_lt_0_compat; lra). unfold Rdiv in *. lra.
Qed.
Lemma plate_ring_spins solve : SolveSpec solve -> exists s V x, ring_run solve (ring_new [ex_airplane false] (ex_op 1 10)) = Ok s /\ (forall y, ring_solution_velocity s [y] = [V y]) /\
  (forall v g, In v (steady_ring_paths (ex_op 1 10) [ex_airplane false]) -> In g v -> well_clear x g) /\ ~ irrotational V x.
Proof.
  intros HS. destruct (ex_ring_first solve 1 10 HS) as (A & s & HA & _ & E & Eg).
  assert (W : forall a, In a [ex_airplane false] -> well_meshed_airplane a) by (intros a [<-|[]]; exact (ex_well_meshed false)).
  destruct (ring_curl _ _ _ _ HS W E) as (V & gs & HV & Hgs & HJ). exists s, V, half_way. split; [exact E|]. split; [exact HV|]. split; [exact plate_ring_clear|].
  destruct (HJ half_way plate_ring_clear) as (J & HD & HE). intros (K & KD & KE). rewrite (derivative_unique _ _ _ _ KD HD), HE in KE.
  assert (Fr : fresh_ring (ring_new [ex_airplane false] (ex_op 1 10))) by (apply ring_new_fresh; intros a Ha; apply W, Ha).
  assert (X : map Some gs = map Some (rso_strengths s)) by (rewrite <- Hgs, panels_of_all; exact (ring_final_strengths _ _ _ HS (fresh_sized _ Fr) E)). rewrite Eg in X. destruct gs as [|g [|]]; try discriminate X. apply cons_eq' in X. destruct X as [X _]. apply Some_eq in X.
  destruct (ex_direction 1 10) as (c & Hc & Hcc & Hd). destruct (plate_paths c Hc Hcc Hd) as (_ & _ & EP). rewrite EP in KE. cbn [map2] in KE. rewrite vsum_cons, vsum_nil, vadd_0_r in KE.
  unfold start, finish, open_path, closed_path in KE. cbn [app skipn hd last fst snd] in KE. unfold spin in KE.
  assert (EN : vnorm (vsub (mkvec (5 + 20 * c) 0 10) half_way) = vnorm (vsub (mkvec (5 + 20 * c) 1 10) half_way)) by (unfold vnorm, half_way; f_equal; vunfold; cbn; field).
  rewrite EN in KE. set (N := vnorm (vsub (mkvec (5 + 20 * c) 1 10) half_way)) in *.
  assert (HN : 0 < N) by (apply vnorm_pos; unfold half_way; intros Z; apply (f_equal vz) in Z; cbn in Z; lra).
  apply (f_equal vy) in KE. unfold vsub, vscale, half_way, vzero in KE. cbn [vx vy vz] in KE.
  assert (HK : g / (4 * PI) / N ^ 3 = 0) by lra. pose proof PI_RGT_0. assert (0 < N ^ 3) by (apply pow_lt, HN).
  assert (Hg : g = 0) by (apply (Rmult_eq_reg_r (/ (4 * PI) * / N ^ 3)); [unfold Rdiv in HK; lra | apply Rmult_integral_contrapositive; split; apply Rinv_neq_0_compat; lra]).
  rewrite Hg in X. assert (0 < 10 / 2 / A) by (apply Rdiv_lt_0_compat; lra). unfold Rdiv in *. lra.
Qed.
(** The plate's first unsteady step. *)
Lemma plate_first_step prescribed : exists up s sp rs x, created up /\ has_run gauss_solve prescribed up 1 s /\ step_at s 0 sp /\
  Forall2 (fun p r => p_ring_vortex p = Some r) (step_panels sp) rs /\ length rs = 1%nat /\ forall r g, In r rs -> In g (ring_legs r) -> well_clear x g.
Proof.
  destruct (windy_runs gust prescribed false false ltac:(right; left; reflexivity)) as (up & s0 & HW).
  destruct (windy_facts gust prescribed false false up s0 ltac:(right; left; reflexivity) HW) as (HC & HT & _ & _ & HA & m & a & _ & _ & Ea & Hst). destruct (HA 1%nat ltac:(lia)) as [s Hs].
  assert (HR : has_run gauss_solve prescribed up 1 s) by (left; exact Hs). destruct (unsteady_flow _ gauss_solve_spec prescribed up 0 s HC HR) as (sp & rs & _ & Hsp & HF & _ & HCs & _).
  destruct (windy_panel _ gauss_solve_spec prescribed gust up a HC HT Ea Hst 1 s 0 sp HR Hsp) as (p & r & v & d & EP & _ & Hr & HCr & Hv & _ & Hd & R1 & R2 & R3 & R4).
  exists up, s, sp, rs, (mkvec 0 2 (- (3))). repeat (split; [assumption|]). rewrite EP in HF. inversion HF as [|? r' ? rs' Hr' HF']; subst. inversion HF'; subst. assert (r' = r) by congruence. subst r'. split; [reflexivity|].
  intros r' g [<-|[]] Hg. destruct HCr as ((F1 & F2 & _) & (L1 & L2 & _) & (B1 & B2 & _) & (T1 & T2 & _) & _). unfold ring_legs in Hg. cbn [map] in Hg. rewrite F1, F2, L1, L2, B1, B2, T1, T2, R1, R2, R3, R4 in Hg.
  assert (0 < v / 4 * d) by (apply Rmult_lt_0_compat; lra). set (e := v / 4 * d) in *. assert (3 / 8 <= v / 4 / 2) by lra. set (z := v / 4 / 2) in *. clearbody e z.
  destruct Hg as [<-|[<-|[<-|[<-|[]]]]]; apply clear_of_more; unfold vdot, vcross, vsub; cbn [vx vy vz]; nra.
Qed.
Lemma flow_spins solve : SolveSpec solve -> exists airplanes op s V x,
  hs_run solve (hs_new airplanes op) = Ok s /\ (forall y, hs_solution_velocity s [y] = [V y]) /\
  (forall v g, In v (horseshoe_paths op airplanes) -> In g v -> well_clear x g) /\ ~ irrotational V x.
Proof. intros HS. exists [ex_airplane false], (ex_op 1 10). exact (plate_spins solve HS). Qed.
Lemma ring_flow_spins solve : SolveSpec solve -> exists airplanes op s V x,
  ring_run solve (ring_new airplanes op) = Ok s /\ (forall y, ring_solution_velocity s [y] = [V y]) /\
  (forall v g, In v (steady_ring_paths op airplanes) -> In g v -> well_clear x g) /\ ~ irrotational V x.
Proof. intros HS. exists [ex_airplane false], (ex_op 1 10). exact (plate_ring_spins solve HS). Qed.
