(** Plates that come closer to a plate. *)
From Coq Require Import List Reals Lra Lia Bool String.
From Verif Require Import M_Geometry M_Loads M_Horseshoe M_SteadyRing S_Geometry S_Vortices S_Solve S_Loads S_Mirror S_Solvable S_Size S_Continuous
  L_Base L_Rotations L_Loads L_Aero L_Gauss L_Horseshoe L_SteadyRing L_Geometry L_Example L_Solvable L_SolvableExample L_Size L_SizeSolvers L_SizeWing L_SizeSmall L_SizeExample L_Limits L_Continuous.
Import ListNotations.
Local Open Scope R_scope.

(** The plate of the size [k], as the constructors build it. *)
Definition plate_of (k : R) : list airplane :=
  match new_wing (map (enlarged_section k) [ex_section 0; ex_section 1]) "wing" 0 0 0 (mkvec 0 1 0) false (mkvec 1 0 0) 1 "uniform" with
  | Ok w => match new_airplane [w] "plane" 0 0 0 0 (Some (k ^ 2 * 8)) (Some (k * 4)) (Some (k * 1)) with Ok a => [a] | Err _ => [] end
  | Err _ => []
  end.
Definition flagged (p : panel) : Prop :=
  p_is_leading_edge p = true /\ p_is_trailing_edge p = true /\ p_is_right_edge p = Some true /\ p_is_left_edge p = Some true /\ p_local_chordwise p = Some 0%nat /\ p_local_spanwise p = Some 0%nat.
Lemma plate_of_facts k : 0 < k -> exists a w p, plate_of k = [a] /\ a_wings a = [w] /\ w_panels w = [[p]] /\ enlarged_panel k ex_panel p /\ flagged p /\
  a_s_ref a = k ^ 2 * 8 /\ a_c_ref a = k * 4 /\ a_b_ref a = k * 1 /\ a_xyz_ref a = vscale k (a_xyz_ref (ex_airplane false)) /\ a_num_panels a = 1%nat /\ w_span w = k * 1 /\
  well_meshed_airplane a /\ enlarged_airplanes k [ex_airplane false] (plate_of k).
Proof.
  intros Hk. destruct (plate_sized k Hk) as (w & a & Ew & Ea & WM & _ & G). unfold plate_of. rewrite Ew, Ea. exists a. inversion G as [|? ? ? ? (G1 & G2 & G3 & G4 & GW) _]; subst.
  change (a_wings (ex_airplane false)) with [ex_wing false] in GW. inversion GW as [|? w' ? ? (GS & GM) GN E1 E2]; subst. inversion GN; subst.
  change (w_panels (ex_wing false)) with [[ex_panel]] in GM. inversion GM as [|? row ? ? GR GN' E3 E4]; subst. inversion GN'; subst. inversion GR as [|? p ? ? GP GN'' E5 E6]; subst. inversion GN''; subst.
  exists w', p. symmetry in E2, E4. split; [reflexivity|]. split; [first [exact E2 | reflexivity]|]. split; [first [exact E4 | reflexivity]|]. split; [exact GP|].
  destruct WM as (W1 & W2). pose proof (W1 w') as W3. rewrite E2 in W3. specialize (W3 (or_introl eq_refl)). destruct W3 as (_ & W3). rewrite E4 in W3. destruct (W3 0%nat [p] 0%nat p eq_refl eq_refl) as (F1 & F2 & F3 & F4 & F5 & F6).
  split; [repeat split; assumption|]. split; [exact G1|]. split; [exact G2|]. split; [exact G3|]. split; [exact G4|]. split; [rewrite W2; unfold airplane_panels; rewrite E2; cbn [map concat app]; rewrite E4; reflexivity|].
  split; [rewrite GS, ex_span; reflexivity|]. split; [split; assumption | exact G].
Qed.
Lemma plate_of_panels k : 0 < k -> exists p, panels_of (plate_of k) = [p] /\ enlarged_panel k ex_panel p /\ p_cross p <> vzero.
Proof.
  intros Hk. destruct (plate_of_facts k Hk) as (a & w & p & E & Ew & Ep & HP & _). exists p. split; [unfold panels_of, wings_of; rewrite E; cbn [map concat app]; rewrite Ew; cbn [app map concat]; rewrite Ep; reflexivity|]. split; [exact HP|].
  destruct HP as (H1 & H2 & H3 & H4). unfold p_cross, p_first_diagonal, p_second_diagonal. rewrite H1, H2, H3, H4. intros X. apply (f_equal vz) in X. vm_compute in X. nra.
Qed.
Lemma plate_approaches K k : (forall n, 0 < K n) -> 0 < k -> tends K k -> approaching (fun n => plate_of (K n)) (plate_of k).
Proof.
  intros HK Hk T. destruct (plate_of_facts k Hk) as (a & w & p & E & Ew & Ep & HP & HF & H1 & H2 & H3 & H4 & H5 & H6 & _).
  assert (SC : forall v, vtends (fun n => vscale (K n) v) (vscale k v)) by (intros v; apply vtends_scale; [exact T | apply vtends_const]).
  set (A := fun n => match plate_of (K n) with [x] => x | _ => a end). set (W := fun n => match a_wings (A n) with [x] => x | _ => w end). set (P := fun n => match w_panels (W n) with [[x]] => x | _ => p end).
  assert (Z : forall n, plate_of (K n) = [A n] /\ a_wings (A n) = [W n] /\ w_panels (W n) = [[P n]] /\ enlarged_panel (K n) ex_panel (P n) /\ flagged (P n) /\
    a_s_ref (A n) = K n ^ 2 * 8 /\ a_c_ref (A n) = K n * 4 /\ a_b_ref (A n) = K n * 1 /\ a_xyz_ref (A n) = vscale (K n) (a_xyz_ref (ex_airplane false)) /\ a_num_panels (A n) = 1%nat /\ w_span (W n) = K n * 1).
  { intros n. destruct (plate_of_facts (K n) (HK n)) as (a' & w' & p' & E' & Ew' & Ep' & HP' & HF' & H1' & H2' & H3' & H4' & H5' & H6' & _).
    assert (EA : A n = a') by (unfold A; rewrite E'; reflexivity). assert (EW : W n = w') by (unfold W; rewrite EA, Ew'; reflexivity). assert (EP : P n = p') by (unfold P; rewrite EW, Ep'; reflexivity).
    rewrite EP, EW, EA. repeat (split; [assumption|]). assumption. }
  rewrite E. unfold approaching. eapply each_cons; [intros n; exact (proj1 (Z n)) | | constructor; reflexivity].
  split; [rewrite H1; eapply tends_ext; [intros n; apply Z|]; apply tends_mult; [|apply tends_const]; cbn [pow]; lim|].
  split; [rewrite H2; eapply tends_ext; [intros n; apply Z|]; lim|]. split; [rewrite H3; eapply tends_ext; [intros n; apply Z|]; lim|].
  split; [rewrite H4; eapply vtends_ext; [intros n; apply Z|]; apply SC|]. split; [intros n; rewrite H5; apply Z|].
  rewrite Ew. eapply each_cons; [intros n; exact (proj1 (proj2 (Z n))) | | constructor; reflexivity]. split; [rewrite H6; eapply tends_ext; [intros n; apply Z|]; lim|].
  rewrite Ep. eapply each_cons; [intros n; exact (proj1 (proj2 (proj2 (Z n)))) | | constructor; reflexivity]. eapply each_cons; [intros n; reflexivity | | constructor; reflexivity].
  assert (Q : forall n, enlarged_panel (K n) ex_panel (P n) /\ flagged (P n)) by (intros n; split; apply Z). destruct HP as (V1 & V2 & V3 & V4).
  split; [rewrite V1; eapply vtends_ext; [intros n; apply (Q n)|]; apply SC|]. split; [rewrite V2; eapply vtends_ext; [intros n; apply (Q n)|]; apply SC|].
  split; [rewrite V3; eapply vtends_ext; [intros n; apply (Q n)|]; apply SC|]. split; [rewrite V4; eapply vtends_ext; [intros n; apply (Q n)|]; apply SC|].
  intros n. destruct HF as (-> & -> & -> & -> & -> & ->). destruct (proj2 (Q n)) as (-> & -> & -> & -> & -> & ->). repeat split.
Qed.

(** ** Where everything goes well *)
Lemma on_edge_clear x a b : / 4 <= vdot (vsub a x) (vsub a x) -> / 4 <= vdot (vsub b x) (vsub b x) ->
  / 4 <= vdot (vcross (vsub a x) (vsub b x)) (vcross (vsub a x) (vsub b x)) -> ~ on_edge x (a, b).
Proof.
  assert (H : forall u, / 4 <= vdot u u -> / 2 ^ 52 < vnorm u).
  { intros u Hu. assert (/ 2 <= vnorm u) by (unfold vnorm; rewrite <- (sqrt_square (/ 2)) by lra; apply sqrt_le_1; lra). assert (/ 2 ^ 52 < / 2) by (apply Rinv_lt_contravar; lra). lra. }
  intros H1 H2 H3 X. unfold on_edge in X. cbn [fst snd] in X. cbv zeta in X. rewrite vnorm_sqr in X. pose proof (H _ H1). pose proof (H _ H2). assert (/ 2 ^ 52 < / 4) by (apply Rinv_lt_contravar; lra). lra.
Qed.
Lemma on_edge_line x a b : / 4 <= vdot (vsub a x) (vsub a x) -> / 4 <= vdot (vsub b x) (vsub b x) -> vcross (vsub a x) (vsub b x) = vzero -> ~ on_edge x (a, b).
Proof.
  assert (H : forall u, / 4 <= vdot u u -> / 2 ^ 52 < vnorm u).
  { intros u Hu. assert (/ 2 <= vnorm u) by (unfold vnorm; rewrite <- (sqrt_square (/ 2)) by lra; apply sqrt_le_1; lra). assert (/ 2 ^ 52 < / 2) by (apply Rinv_lt_contravar; lra). lra. }
  intros H1 H2 H3 X. unfold on_edge in X. cbn [fst snd] in X. cbv zeta in X. rewrite H3, vnorm_zero in X. pose proof (H _ H1). pose proof (H _ H2). assert (0 < / 2 ^ 52) by (apply Rinv_0_lt_compat; lra). rewrite pow_i in X by lia. lra.
Qed.
Ltac off_or_on :=
  cbn [fst snd]; first [ apply on_edge_line; [vunfold; cbn; nra | vunfold; cbn; nra | vunfold; apply vec_ext; cbn; lra]
        | apply on_edge_clear; vunfold; cbn; nra ].
Lemma plate_off_edges :
  (forall p x, In p (panels_of [ex_airplane false]) -> In x (horseshoe_points p) -> off_edges (horseshoe_paths (ex_op 1 10) [ex_airplane false]) x) /\
  (forall x, In x (ring_points (panels_of [ex_airplane false]) (steady_ring_paths (ex_op 1 10) [ex_airplane false])) -> off_edges (steady_ring_paths (ex_op 1 10) [ex_airplane false]) x).
Proof.
  destruct (ex_direction 1 10) as (c & Hc & Hcc & Hd). destruct (plate_paths c Hc Hcc Hd) as (-> & -> & ->). destruct ex_panel_points as (Co & _ & Fr & Fl).
  assert (0 < c < 1) by nra. clear Hd. split.
  - intros p x [<-|[]] Hx v s [<-|[]] Hs. unfold horseshoe_points in Hx. rewrite Co, Fr, Fl in Hx.
    destruct Hx as [<-|[<-|[]]]; destruct Hs as [<-|[<-|[<-|[]]]]; unfold midpoint; off_or_on.
  - intros x Hx v s [<-|[]] Hs. unfold ring_points in Hx. cbn [map app closed_path open_path firstn concat fst snd] in Hx. rewrite Co in Hx.
    destruct Hx as [<-|[<-|[<-|[<-|[]]]]]; destruct Hs as [<-|[<-|[<-|[<-|[<-|[<-|[<-|[]]]]]]]]; unfold midpoint; off_or_on.
Qed.
Lemma inverse_tends : tends (fun n => / INR (S n)) 0.
Proof.
  intros e He. destruct (archimed_cor1 e He) as (N & HN & HN'). exists N. intros n Hn. unfold R_dist. rewrite Rminus_0_r, Rabs_pos_eq by (apply Rlt_le, Rinv_0_lt_compat, lt_0_INR; lia).
  apply Rle_lt_trans with (2 := HN). apply Rinv_le_contravar; [apply lt_0_INR; exact HN' | apply le_INR; lia].
Qed.
Lemma small_pos n : 0 < / INR (S n). Proof. apply Rinv_0_lt_compat, lt_0_INR. lia. Qed.
Lemma inverse_plus x : tends (fun n => x + / INR (S n)) x.
Proof. pose proof (tends_plus (fun _ => x) _ x 0 (tends_const x) inverse_tends) as P. rewrite Rplus_0_r in P. exact P. Qed.
(** A little more of everything. *)
Definition near_op (n : nat) : operating_point := let e := / INR (S n) in mkop (1 + e) (10 + e) (30 + e) e 0 0.
Definition near_plate (n : nat) : list airplane := plate_of (1 + / INR (S n)).
Lemma near_op_tends : approaching_op near_op (ex_op 1 10).
Proof.
  unfold approaching_op, near_op, ex_op. cbn [op_density op_velocity op_alpha op_beta]. split; [apply inverse_plus|]. split; [apply inverse_plus|]. split; [apply inverse_plus | exact inverse_tends].
Qed.
Lemma big_one vs : map (map (big_segment 1)) vs = vs.
Proof. rewrite <- (map_id vs) at 2. apply map_ext. intros v. rewrite <- (map_id v) at 2. apply map_ext. intros [a b]. unfold big_segment. cbn [fst snd]. f_equal; vring. Qed.
Lemma plate_near : approaching_op near_op (ex_op 1 10) /\ approaching near_plate (plate_of 1) /\
  (forall p, In p (panels_of (plate_of 1)) -> p_cross p <> vzero) /\ (forall a, In a (plate_of 1) -> well_meshed_airplane a) /\
  (forall p x, In p (panels_of (plate_of 1)) -> In x (horseshoe_points p) -> off_edges (horseshoe_paths (ex_op 1 10) (plate_of 1)) x) /\
  (forall x, In x (ring_points (panels_of (plate_of 1)) (steady_ring_paths (ex_op 1 10) (plate_of 1))) -> off_edges (steady_ring_paths (ex_op 1 10) (plate_of 1)) x) /\
  (exists s, hs_run gauss_solve (hs_new (plate_of 1) (ex_op 1 10)) = Ok s) /\ (exists s, ring_run gauss_solve (ring_new (plate_of 1) (ex_op 1 10)) = Ok s).
Proof.
  split; [exact near_op_tends|].
  split; [apply plate_approaches; [intros n; pose proof (small_pos n); lra | lra | apply inverse_plus]|].
  destruct (plate_of_panels 1 ltac:(lra)) as (p & Ep & HP & HC). destruct (plate_of_facts 1 ltac:(lra)) as (a & w & p' & Ea & _ & _ & _ & _ & _ & _ & _ & _ & _ & _ & WM & G).
  assert (SS : same_stream (ex_op 1 10) (ex_op 1 10)) by (repeat split).
  assert (WE : forall a, In a [ex_airplane false] -> well_meshed_airplane a) by (intros b [<-|[]]; apply ex_well_meshed).
  assert (WP : forall a, In a (plate_of 1) -> well_meshed_airplane a) by (rewrite Ea; intros b [<-|[]]; exact WM).
  split; [rewrite Ep; intros q [<-|[]]; exact HC|]. split; [exact WP|].
  rewrite (horseshoe_paths_big 1 _ _ (ex_op 1 10) (ex_op 1 10) ltac:(lra) SS G), (steady_ring_paths_big 1 _ _ (ex_op 1 10) (ex_op 1 10) ltac:(lra) SS G), !big_one, Ep.
  destruct (big_points 1 ex_panel p ltac:(lra) HP) as (B1 & B2 & B3 & _). destruct plate_off_edges as (O1 & O2). assert (V1 : forall v, vscale 1 v = v) by (intros v; vring). rewrite V1 in B1, B2, B3.
  split.
  { intros q x [<-|[]] Hx. apply (O1 ex_panel x (or_introl eq_refl)). unfold horseshoe_points in *. rewrite B1, B2, B3 in Hx. exact Hx. }
  split; [intros x Hx; apply O2; unfold ring_points in *; cbn [map] in *; rewrite B3 in Hx; exact Hx|].
  destruct (plate_example 1 ltac:(lra)) as (_ & _ & _ & _ & _ & _ & R1 & R2 & (s1 & E1) & (s2 & E2)). split.
  - destruct (hs_big 1 ltac:(lra) gauss_solve _ _ _ _ _ gauss_solve_spec SS G R1 E1) as (s & E & _). eauto.
  - destruct (ring_big 1 ltac:(lra) gauss_solve _ _ _ _ _ gauss_solve_spec SS G WE WP R2 E2) as (s & E & _). eauto.
Qed.

(** ** Where it does not: the size at which the trailing legs are just felt *)
Definition edge_square : R := sqrt (/ 2 ^ 52 / 500).
Definition edge_size : R := sqrt edge_square.
Lemma edge_facts : 0 < edge_size /\ (edge_size ^ 2) ^ 2 * 500 = / 2 ^ 52 /\ / 2 ^ 52 < edge_size.
Proof.
  assert (P : 0 < / 2 ^ 52 / 500) by lra. assert (Q : 0 < edge_square) by (apply sqrt_lt_R0, P). assert (Z : 0 < edge_size) by (apply sqrt_lt_R0, Q).
  assert (E : edge_size ^ 2 = edge_square) by (cbn; rewrite Rmult_1_r; apply sqrt_sqrt; lra). assert (E2 : edge_square ^ 2 = / 2 ^ 52 / 500) by (cbn [pow]; rewrite Rmult_1_r; apply sqrt_sqrt; lra).
  split; [exact Z|]. split; [rewrite E, E2; lra|]. apply Rnot_le_lt. intros X.
  assert (Y : edge_size ^ 2 <= / 2 ^ 52) by nra. rewrite E in Y. assert (Y2 : edge_square ^ 2 <= / 2 ^ 52 * / 2 ^ 52) by nra. rewrite E2 in Y2. lra.
Qed.
Lemma cut_below k x a b : 0 < k < edge_size -> vdot (vcross (vsub a x) (vsub b x)) (vcross (vsub a x) (vsub b x)) <= 500 -> cut_off (vscale k x) (big_segment k (a, b)).
Proof.
  intros [Hk Hk'] H. destruct edge_facts as (H0 & H1 & _). unfold cut_off, big_segment. cbn [fst snd]. cbv zeta. right; right. rewrite !big_sub, big_cross, big_norm by nra. rewrite Rpow_mult_distr, vnorm_sqr.
  assert (K2 : 0 < k ^ 2 < edge_size ^ 2) by nra. assert (K4 : 0 < (k ^ 2) ^ 2 < (edge_size ^ 2) ^ 2) by nra. rewrite <- H1.
  apply Rle_lt_trans with ((k ^ 2) ^ 2 * 500); [apply Rmult_le_compat_l; lra | apply Rmult_lt_compat_r; lra].
Qed.
Lemma cut_at_edge x a b : vdot (vcross (vsub a x) (vsub b x)) (vcross (vsub a x) (vsub b x)) < 500 -> cut_off (vscale edge_size x) (big_segment edge_size (a, b)).
Proof.
  intros H. destruct edge_facts as (H0 & H1 & _). unfold cut_off, big_segment. cbn [fst snd]. cbv zeta. right; right. rewrite !big_sub, big_cross, big_norm by nra. rewrite Rpow_mult_distr, vnorm_sqr.
  rewrite <- H1. apply Rmult_lt_compat_l; [|exact H]. apply pow_lt. nra.
Qed.
Lemma felt_at_edge x a b n : 1 <= vdot (vsub a x) (vsub a x) -> 1 <= vdot (vsub b x) (vsub b x) -> vdot (vcross (vsub a x) (vsub b x)) (vcross (vsub a x) (vsub b x)) = 500 ->
  0 < vdot (vcross (vsub a x) (vsub b x)) n -> 0 < vdot (line_velocity (vscale edge_size x) (vscale edge_size a) (vscale edge_size b) 1 0 0) n.
Proof.
  intros H1 H2 H3 H4. destruct edge_facts as (K0 & K1 & K2).
  assert (N : forall u, 1 <= vdot u u -> 1 <= vnorm u) by (intros u Hu; unfold vnorm; rewrite <- sqrt_1; apply sqrt_le_1; lra).
  apply line_velocity_positive.
  - apply not_true_iff_false. rewrite <- cut_off_singular. unfold cut_off. cbn [fst snd]. cbv zeta. rewrite !big_sub, big_cross, !big_norm by nra. rewrite Rpow_mult_distr, vnorm_sqr, H3, K1.
    pose proof (N _ H1). pose proof (N _ H2). intros [X|[X|X]]; [nra | nra | lra].
  - rewrite !big_sub, big_cross. assert (0 < edge_size ^ 2) by nra. replace (vdot _ n) with (edge_size ^ 2 * vdot (vcross (vsub a x) (vsub b x)) n) by (unfold vdot, vscale; cbn [vx vy vz]; ring). apply Rmult_lt_0_compat; assumption.
Qed.
Definition below_edge (n : nat) : R := edge_size * (1 - / INR (S (S n))).
Lemma below_edge_facts : (forall n, 0 < below_edge n < edge_size) /\ tends below_edge edge_size.
Proof.
  destruct edge_facts as (H0 & _). split.
  - intros n. unfold below_edge. pose proof (small_pos (S n)). assert (/ INR (S (S n)) < 1) by (rewrite <- Rinv_1; apply Rinv_lt_contravar; [rewrite Rmult_1_l; apply lt_0_INR; lia | change 1 with (INR 1); apply lt_INR; lia]). nra.
  - assert (T : tends (fun n => / INR (S (S n))) 0) by (intros e He; destruct (inverse_tends e He) as (N & HN); exists N; intros n Hn; apply (HN (S n)); lia).
    pose proof (tends_mult (fun _ => edge_size) (fun n => 1 - / INR (S (S n))) edge_size (1 - 0) (tends_const _) (tends_minus (fun _ => 1) _ 1 0 (tends_const 1) T)) as P. rewrite Rminus_0_r, Rmult_1_r in P. exact P.
Qed.
Lemma path_cons x s v : path_velocity x (s :: v) = vadd (line_velocity x (fst s) (snd s) 1 0 0) (path_velocity x v).
Proof. unfold path_velocity. cbn [map]. apply vsum_cons. Qed.
Lemma cut_zero x s : cut_off x s -> line_velocity x (fst s) (snd s) 1 0 0 = vzero.
Proof. destruct s as [a b]. intros H. apply line_velocity_singular, cut_off_singular, H. Qed.
Ltac dim := unfold vdot, vcross, vsub; cbn [vx vy vz]; nra.
Lemma plate_jump : exists O op L l s s0, approaching_op O op /\ approaching L l /\ (forall p, In p (panels_of l) -> p_cross p <> vzero) /\ (forall a, In a l -> well_meshed_airplane a) /\
  hs_run gauss_solve (hs_new l op) = Ok s /\ ring_run gauss_solve (ring_new l op) = Ok s0 /\
  forall solve n, SolveSpec solve -> (~ exists s', hs_run solve (hs_new (L n) (O n)) = Ok s') /\ (~ exists s', ring_run solve (ring_new (L n) (O n)) = Ok s').
Proof.
  destruct edge_facts as (K0 & K1 & K2). destruct below_edge_facts as (B1 & B2). destruct (ex_direction 1 10) as (c & Hc & Hcc & Hd). destruct (plate_paths c Hc Hcc Hd) as (EP & EH & ER).
  assert (SS : same_stream (ex_op 1 10) (ex_op 1 10)) by (repeat split). assert (Hc1 : c < 1) by nra.
  destruct ex_panel_points as (Co & No & _).
  assert (PT : forall k, 0 < k -> exists p, panels_of (plate_of k) = [p] /\ p_collocation_point p = vscale k (mkvec 3 (1 / 2) 0) /\ p_unit_normal p = mkvec 0 0 1 /\ p_cross p <> vzero /\
    horseshoe_paths (ex_op 1 10) (plate_of k) = [map (big_segment k) (open_path (mkvec (1 + 20 * c) 1 10) (mkvec 1 1 0) (mkvec 1 0 0) (mkvec (1 + 20 * c) 0 10))] /\
    steady_ring_paths (ex_op 1 10) (plate_of k) = [map (big_segment k) (closed_path (mkvec 5 1 0) (mkvec 1 1 0) (mkvec 1 0 0) (mkvec 5 0 0) ++ open_path (mkvec (5 + 20 * c) 1 10) (mkvec 5 1 0) (mkvec 5 0 0) (mkvec (5 + 20 * c) 0 10))] /\
    fresh_ring (ring_new (plate_of k) (ex_op 1 10)) /\ (forall a, In a (plate_of k) -> well_meshed_airplane a)).
  { intros k Hk. destruct (plate_of_panels k Hk) as (p & E & HP & HC). destruct (plate_of_facts k Hk) as (a & w & p' & Ea & _ & _ & _ & _ & _ & _ & _ & _ & _ & _ & WM & G). exists p. split; [exact E|].
    destruct (big_points k ex_panel p Hk HP) as (_ & _ & V1 & V2 & _). rewrite Co in V1. rewrite No in V2. split; [exact V1|]. split; [exact V2|]. split; [exact HC|].
    rewrite (horseshoe_paths_big k _ _ (ex_op 1 10) (ex_op 1 10) Hk SS G), (steady_ring_paths_big k _ _ (ex_op 1 10) (ex_op 1 10) Hk SS G), EH, ER. split; [reflexivity|]. split; [reflexivity|].
    assert (WP : forall a, In a (plate_of k) -> well_meshed_airplane a) by (rewrite Ea; intros b [<-|[]]; exact WM). split; [apply ring_new_fresh; intros b Hb; apply (WP b Hb) | exact WP]. }
  assert (ONE : forall p v, felt p v <> 0 -> distinguishable [p] [v]).
  { intros p v H [|g [|]] Lg Hg x Hx; try discriminate Lg. destruct Hx as [<-|[]]. specialize (Hg p (or_introl eq_refl)). cbn [map2] in Hg. rewrite rsum_cons in Hg. change (rsum []) with 0 in Hg. rewrite Rplus_0_r in Hg. apply Rmult_integral in Hg. tauto. }
  assert (RUN : exists s s0, hs_run gauss_solve (hs_new (plate_of edge_size) (ex_op 1 10)) = Ok s /\ ring_run gauss_solve (ring_new (plate_of edge_size) (ex_op 1 10)) = Ok s0).
  { destruct (PT edge_size K0) as (p & E & V1 & V2 & _ & P1 & P2 & FR & WP).
    assert (H1 : exists s, hs_run gauss_solve (hs_new (plate_of edge_size) (ex_op 1 10)) = Ok s).
    { apply (horseshoe_solvable gauss_solve _ _ gauss_solve_spec). rewrite E, P1. apply ONE. rewrite felt_path, V1, V2. unfold open_path. cbn [map]. rewrite !path_cons.
      rewrite (cut_zero _ (big_segment edge_size (mkvec 1 1 0, mkvec 1 0 0))) by (apply cut_at_edge; dim). unfold big_segment. cbn [fst snd].
      rewrite vadd_0_l, !vdot_add_l. unfold path_velocity. cbn [map]. change (vsum []) with vzero. rewrite vdot_0_l, Rplus_0_r. apply Rgt_not_eq, Rplus_lt_0_compat; apply felt_at_edge; dim. }
    assert (H2 : exists s, ring_run gauss_solve (ring_new (plate_of edge_size) (ex_op 1 10)) = Ok s).
    { apply (ring_solvable gauss_solve _ _ gauss_solve_spec FR (fun a w Ha Hw => proj1 (WP a Ha) w Hw)). rewrite E, P2. apply ONE. rewrite felt_path, V1, V2. unfold open_path, closed_path. cbn [map app]. rewrite !path_cons.
      rewrite (cut_zero _ (big_segment edge_size (mkvec 1 1 0, mkvec 1 0 0))) by (apply cut_at_edge; dim). rewrite (cut_zero _ (big_segment edge_size (mkvec 5 1 0, mkvec 1 1 0))) by (apply cut_at_edge; dim).
      rewrite (cut_zero _ (big_segment edge_size (mkvec 1 0 0, mkvec 5 0 0))) by (apply cut_at_edge; dim). rewrite (cut_zero _ (big_segment edge_size (mkvec 5 0 0, mkvec 5 1 0))) by (apply cut_at_edge; dim).
      rewrite (cut_zero _ (big_segment edge_size (mkvec 5 1 0, mkvec 5 0 0))) by (apply cut_at_edge; dim). unfold big_segment. cbn [fst snd].
      rewrite !vadd_0_l, !vdot_add_l. unfold path_velocity. cbn [map]. change (vsum []) with vzero. rewrite vdot_0_l, Rplus_0_r. apply Rgt_not_eq, Rplus_lt_0_compat; apply felt_at_edge; dim. }
    destruct H1 as [s H1], H2 as [s0 H2]. eauto. }
  destruct RUN as (s & s0 & E1 & E2). exists (fun _ => ex_op 1 10), (ex_op 1 10), (fun n => plate_of (below_edge n)), (plate_of edge_size), s, s0.
  split; [repeat split; apply tends_const|]. split; [apply plate_approaches; [intros n; apply B1 | exact K0 | exact B2]|].
  destruct (PT edge_size K0) as (p & E & _ & _ & HC & _ & _ & _ & WP). split; [rewrite E; intros q [<-|[]]; exact HC|]. split; [exact WP|]. split; [exact E1|]. split; [exact E2|].
  intros solve n HS. destruct (PT (below_edge n) (proj1 (B1 n))) as (q & E' & V1 & _ & _ & P1 & P2 & FR & WP'). split; intros X.
  - apply horseshoe_solvable in X; [|exact HS]. rewrite E', P1 in X. revert X. apply nothing_felt; [discriminate|]. intros ? ? [<-|[]] [<-|[]]. apply felt_nothing. rewrite V1.
    unfold open_path. cbn [map]. intros g [<-|[<-|[<-|[]]]]; apply cut_below; try apply B1; dim.
  - apply ring_solvable in X; [|assumption | exact FR | exact (fun a w Ha Hw => proj1 (WP' a Ha) w Hw)]. rewrite E', P2 in X. revert X. apply nothing_felt; [discriminate|]. intros ? ? [<-|[]] [<-|[]]. apply felt_nothing. rewrite V1.
    unfold open_path, closed_path. cbn [map app]. intros g [<-|[<-|[<-|[<-|[<-|[<-|[<-|[]]]]]]]]; apply cut_below; try apply B1; dim.
Qed.

(** ** In other words *)
From Verif Require Import L_ContinuousRun L_ContinuousRing.
Lemma area_cross p : p_area p <> 0 -> p_cross p <> vzero.
Proof. intros H E. apply H. unfold p_area. rewrite E, vnorm_zero. lra. Qed.
Lemma cross_area p : p_cross p <> vzero -> p_area p <> 0.
Proof. intros H E. pose proof (norm_positive _ H). unfold p_area in E. lra. Qed.
Lemma hs_near solve O op L l s : SolveSpec solve -> approaching_op O op -> approaching L l -> (forall p, In p (panels_of l) -> p_area p <> 0) ->
  (forall p x, In p (panels_of l) -> In x (horseshoe_points p) -> off_edges (horseshoe_paths op l) x) -> hs_run solve (hs_new l op) = Ok s ->
  exists S N, (forall n, (N <= n)%nat -> hs_run solve (hs_new (L n) (O n)) = Ok (S n)) /\
    each (approaching_solution (dynamic_pressure op) horseshoe_strength) (fun n => hso_airplanes (S n)) (hso_airplanes s) /\
    forall X x, vtends X x -> off_edges (horseshoe_paths op l) x -> each vtends (fun n => hs_solution_velocity (S n) [X n]) (hs_solution_velocity s [x]).
Proof. intros HS HO HL HA HG E. destruct (hs_continuous solve O op L l HS HO HL (fun p Hp => area_cross p (HA p Hp)) HG s E) as (S & N & H1 & H2 & H3). exists S, N. auto. Qed.
Lemma ring_near solve O op L l s : SolveSpec solve -> approaching_op O op -> approaching L l -> (forall p, In p (panels_of l) -> p_area p <> 0) ->
  (forall a, In a l -> well_meshed_airplane a) ->
  (forall x, In x (ring_points (panels_of l) (steady_ring_paths op l)) -> off_edges (steady_ring_paths op l) x) -> ring_run solve (ring_new l op) = Ok s ->
  exists S N, (forall n, (N <= n)%nat -> ring_run solve (ring_new (L n) (O n)) = Ok (S n)) /\
    each (approaching_solution (dynamic_pressure op) ring_strength) (fun n => rso_airplanes (S n)) (rso_airplanes s) /\
    forall X x, vtends X x -> off_edges (steady_ring_paths op l) x -> each vtends (fun n => ring_solution_velocity (S n) [X n]) (ring_solution_velocity s [x]).
Proof. intros HS HO HL HA HW HG E. destruct (ring_continuous solve O op L l HS HO HL (fun p Hp => area_cross p (HA p Hp)) HW HG s E) as (S & N & H1 & H2 & H3). exists S, N. auto. Qed.
Lemma near_example : exists O op L l, approaching_op O op /\ approaching L l /\ (forall n, op_alpha (O n) <> op_alpha op) /\ length (panels_of l) = 1%nat /\
  (forall p, In p (panels_of l) -> p_area p <> 0) /\ (forall a, In a l -> well_meshed_airplane a) /\
  (forall p x, In p (panels_of l) -> In x (horseshoe_points p) -> off_edges (horseshoe_paths op l) x) /\
  (forall x, In x (ring_points (panels_of l) (steady_ring_paths op l)) -> off_edges (steady_ring_paths op l) x) /\
  (exists s, hs_run gauss_solve (hs_new l op) = Ok s) /\ (exists s, ring_run gauss_solve (ring_new l op) = Ok s).
Proof.
  destruct plate_near as (H1 & H2 & H3 & H4 & H5 & H6 & H7 & H8). exists near_op, (ex_op 1 10), near_plate, (plate_of 1). split; [exact H1|]. split; [exact H2|].
  split; [intros n; unfold near_op, ex_op; cbn [op_alpha]; pose proof (small_pos n); lra|]. split; [destruct (plate_of_panels 1 ltac:(lra)) as (p & -> & _); reflexivity|].
  split; [intros p Hp; apply cross_area, H3, Hp|]. repeat (split; [assumption|]). assumption.
Qed.
Lemma jump_example : exists O op L l s s0, approaching_op O op /\ approaching L l /\ (forall p, In p (panels_of l) -> p_area p <> 0) /\ (forall a, In a l -> well_meshed_airplane a) /\
  hs_run gauss_solve (hs_new l op) = Ok s /\ ring_run gauss_solve (ring_new l op) = Ok s0 /\
  forall solve n, SolveSpec solve -> (~ exists s', hs_run solve (hs_new (L n) (O n)) = Ok s') /\ (~ exists s', ring_run solve (ring_new (L n) (O n)) = Ok s').
Proof.
  destruct plate_jump as (O & op & L & l & s & s0 & H1 & H2 & H3 & H). exists O, op, L, l, s, s0. split; [exact H1|]. split; [exact H2|]. split; [intros p Hp; apply cross_area, H3, Hp | exact H].
Qed.
