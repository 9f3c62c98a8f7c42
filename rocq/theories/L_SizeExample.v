(** A plate at several sizes. *)
From Coq Require Import List Reals Lra Lia String.
From Verif Require Import M_Geometry M_Loads M_Horseshoe M_SteadyRing S_Geometry S_Vortices S_Solve S_Loads S_Mirror S_Solvable S_Size
  L_Base L_Rotations L_Loads L_Aero L_Gauss L_Horseshoe L_SteadyRing L_Geometry L_Example L_Solvable L_SolvableExample L_Size L_SizeSolvers L_SizeWing L_SizeSmall.
Import ListNotations.
Local Open Scope R_scope.

Lemma norm_ge_half u : / 4 <= vdot u u -> eps <= vnorm u.
Proof.
  intros H. assert (/ 2 <= vnorm u).
  { unfold vnorm. rewrite <- (sqrt_square (/ 2)) by lra. apply sqrt_le_1; lra. }
  unfold eps; lra.
Qed.
Lemma clear_of x a b : / 4 <= vdot (vsub a x) (vsub a x) -> / 4 <= vdot (vsub b x) (vsub b x) ->
  / 4 <= vdot (vcross (vsub a x) (vsub b x)) (vcross (vsub a x) (vsub b x)) -> ~ cut_off x (a, b).
Proof.
  intros H1 H2 H3. rewrite cut_off_singular. unfold singular. apply Bool.not_true_iff_false. repeat (apply orb_false_iff; split); apply Rltb_false.
  - apply norm_ge_half; exact H1.
  - apply norm_ge_half; exact H2.
  - rewrite vnorm_sqr. unfold eps; lra.
Qed.
(** The plate [k] times as large. *)
Lemma plate_sized k : 0 < k -> exists w a, new_wing (map (enlarged_section k) [ex_section 0; ex_section 1]) "wing" 0 0 0 (mkvec 0 1 0) false (mkvec 1 0 0) 1 "uniform" = Ok w /\
  new_airplane [w] "plane" 0 0 0 0 (Some (k ^ 2 * 8)) (Some (k * 4)) (Some (k * 1)) = Ok a /\ well_meshed_airplane a /\ fresh_ring (ring_new [a] (ex_op 1 10)) /\
  enlarged_airplanes k [ex_airplane false] [a].
Proof.
  intros Hk. destruct (wing_enlarged k _ _ _ _ _ _ _ _ _ _ _ Hk (ex_wing_ok false)) as (w & E & HW & HA & HC & _ & HM). rewrite Rmult_0_r in E.
  exists w. destruct (new_airplane [w] "plane" 0 0 0 0 (Some (k ^ 2 * 8)) (Some (k * 4)) (Some (k * 1))) as [a|e] eqn:Ea; [|discriminate Ea].
  pose proof (airplane_enlarged k [ex_wing false] [w] "plane" "plane" 0 0 0 0 0 (Some 8) (Some 4) (Some 1) _ a (ex_airplane_ok false)) as X. cbn [option_map] in X. rewrite Rmult_0_r in X.
  specialize (X Ea ltac:(constructor; [repeat split; (apply HW || assumption) | constructor])).
  assert (WM : well_meshed_airplane a).
  { refine (airplane_meshed _ _ _ _ _ _ _ _ _ _ _ Ea). intros v [<-|[]]. do 10 eexists. exact E. }
  exists a. split; [exact E|]. split; [reflexivity|]. split; [exact WM|]. split; [|constructor; [exact X | constructor]].
  apply ring_new_fresh. intros b [<-|[]]. exact (proj2 WM).
Qed.

(** Its vortices. *)
Lemma plate_paths c : 0 < c -> c * c = 3 / 4 -> freestream_direction (ex_op 1 10) = mkvec c 0 (1 / 2) ->
  panels_of [ex_airplane false] = [ex_panel] /\
  horseshoe_paths (ex_op 1 10) [ex_airplane false] = [open_path (mkvec (1 + 20 * c) 1 10) (mkvec 1 1 0) (mkvec 1 0 0) (mkvec (1 + 20 * c) 0 10)] /\
  steady_ring_paths (ex_op 1 10) [ex_airplane false] =
    [closed_path (mkvec 5 1 0) (mkvec 1 1 0) (mkvec 1 0 0) (mkvec 5 0 0) ++ open_path (mkvec (5 + 20 * c) 1 10) (mkvec 5 1 0) (mkvec 5 0 0) (mkvec (5 + 20 * c) 0 10)].
Proof.
  intros Hc Hcc Hd. destruct ex_panel_points as (_ & _ & Fr & Fl). split; [reflexivity|].
  unfold horseshoe_paths, steady_ring_paths. rewrite Hd.
  change (wings_of [ex_airplane false]) with [ex_wing false]. cbn [map concat app].
  change (w_panels (ex_wing false)) with [[ex_panel]]. cbn [map concat app]. unfold horseshoe_path. rewrite ex_span, Fr, Fl. split.
  - unfold open_path. repeat f_equal; vunfold; apply vec_ext; cbn; lra.
  - unfold on_mesh, numbered. cbn [length seq combine map concat app fst snd]. unfold steady_ring_path, ring_path, back_ends, behind. change (w_panels (ex_wing false)) with [[ex_panel]].
    cbn [nth_error]. rewrite ex_span, Fr, Fl. cbn [app closed_path open_path].
    change (p_back_left ex_panel) with (mkvec 4 0 0). change (p_front_left ex_panel) with (mkvec 0 0 0). change (p_back_right ex_panel) with (mkvec 4 1 0). change (p_front_right ex_panel) with (mkvec 0 1 0).
    repeat f_equal; vunfold; apply vec_ext; cbn; lra.
Qed.
Ltac clear_or_on c :=
  cbn [fst snd]; first [ left; vunfold; apply vec_ext; cbn; lra
        | right; apply clear_of; vunfold; cbn; nra ].
Lemma plate_resolved k : 1 <= k ->
  (forall p x, In p (panels_of [ex_airplane false]) -> In x (horseshoe_points p) -> resolved k (horseshoe_paths (ex_op 1 10) [ex_airplane false]) x) /\
  (forall x, In x (ring_points (panels_of [ex_airplane false]) (steady_ring_paths (ex_op 1 10) [ex_airplane false])) -> resolved k (steady_ring_paths (ex_op 1 10) [ex_airplane false]) x).
Proof.
  intros Hk. destruct (ex_direction 1 10) as (c & Hc & Hcc & Hd). destruct (plate_paths c Hc Hcc Hd) as (-> & -> & ->). destruct ex_panel_points as (Co & _ & Fr & Fl).
  assert (0 < c < 1) by nra. clear Hd. split.
  - intros p x [<-|[]] Hx. apply larger_resolved; [exact Hk|]. intros v s [<-|[]] Hs. unfold horseshoe_points in Hx. rewrite Co, Fr, Fl in Hx.
    destruct Hx as [<-|[<-|[]]]; destruct Hs as [<-|[<-|[<-|[]]]]; unfold midpoint; clear_or_on c.
  - intros x Hx. apply larger_resolved; [exact Hk|]. intros v s [<-|[]] Hs. unfold ring_points in Hx. cbn [map app closed_path open_path firstn concat fst snd] in Hx. rewrite Co in Hx.
    destruct Hx as [<-|[<-|[<-|[<-|[]]]]]; destruct Hs as [<-|[<-|[<-|[<-|[<-|[<-|[<-|[]]]]]]]]; unfold midpoint; clear_or_on c.
Qed.
Lemma plate_example k : 1 <= k -> exists w a,
  new_wing (map (enlarged_section k) [ex_section 0; ex_section 1]) "wing" 0 0 0 (mkvec 0 1 0) false (mkvec 1 0 0) 1 "uniform" = Ok w /\
  new_airplane [w] "plane" 0 0 0 0 (Some (k ^ 2 * 8)) (Some (k * 4)) (Some (k * 1)) = Ok a /\
  well_meshed_airplane a /\ enlarged_airplanes k [ex_airplane false] [a] /\
  (forall p x, In p (panels_of [ex_airplane false]) -> In x (horseshoe_points p) -> resolved k (horseshoe_paths (ex_op 1 10) [ex_airplane false]) x) /\
  (forall x, In x (ring_points (panels_of [ex_airplane false]) (steady_ring_paths (ex_op 1 10) [ex_airplane false])) ->
    resolved k (steady_ring_paths (ex_op 1 10) [ex_airplane false]) x) /\
  (exists s, hs_run gauss_solve (hs_new [ex_airplane false] (ex_op 1 10)) = Ok s) /\
  (exists s, ring_run gauss_solve (ring_new [ex_airplane false] (ex_op 1 10)) = Ok s).
Proof.
  intros Hk. destruct (plate_sized k ltac:(lra)) as (w & a & Hw & Ha & WM & _ & G). exists w, a. destruct (plate_resolved k Hk) as [R1 R2].
  destruct (ex_horseshoe_run gauss_solve 1 10 gauss_solve_spec) as (A & s & _ & E & _). destruct (ex_ring_first gauss_solve 1 10 gauss_solve_spec) as (A0 & s0 & _ & _ & E0 & _).
  repeat (split; [assumption|]). split; [exists s; exact E | exists s0; exact E0].
Qed.
Lemma tiny_panel : exists p, behind [[p]] 0 0 = None /\ vsub (p_back_left p) (p_front_left p) = vsub (p_back_right p) (p_front_right p) /\
  0 < p_area p < / 2 ^ 25.
Proof.
  exists (new_panel (mkvec 0 (/ 10 ^ 4) 0) (mkvec 0 0 0) (mkvec (/ 10 ^ 4) 0 0) (mkvec (/ 10 ^ 4) (/ 10 ^ 4) 0) true true).
  split; [reflexivity|]. split; [vunfold; apply vec_ext; cbn; lra|].
  unfold p_area, p_cross, p_first_diagonal, p_second_diagonal. cbn [new_panel p_front_right p_front_left p_back_left p_back_right].
  replace (vnorm _) with (2 * / 10 ^ 8); [lra|]. unfold vnorm. replace (vdot _ _) with ((2 * / 10 ^ 8) * (2 * / 10 ^ 8)) by (vunfold; cbn; lra).
  rewrite sqrt_square; lra.
Qed.
(** Small enough, it cannot be solved any more. *)
Lemma size_matters : exists k l l' op s s0, 0 < k /\ enlarged_airplanes k l l' /\
  (forall a, In a l -> well_meshed_airplane a) /\ (forall a, In a l' -> well_meshed_airplane a) /\
  hs_run gauss_solve (hs_new l op) = Ok s /\ ring_run gauss_solve (ring_new l op) = Ok s0 /\
  forall solve, SolveSpec solve -> (~ exists s', hs_run solve (hs_new l' op) = Ok s') /\ (~ exists s', ring_run solve (ring_new l' op) = Ok s').
Proof.
  destruct (too_small gauss_solve [ex_airplane false] (ex_op 1 10) gauss_solve_spec ltac:(discriminate)) as (k0 & H0 & HK).
  destruct (plate_sized (k0 / 2) ltac:(lra)) as (w & a & _ & _ & WM & HF & G).
  destruct (ex_horseshoe_run gauss_solve 1 10 gauss_solve_spec) as (A & s & _ & E & _). destruct (ex_ring_first gauss_solve 1 10 gauss_solve_spec) as (A0 & s0 & _ & _ & E0 & _).
  exists (k0 / 2), [ex_airplane false], [a], (ex_op 1 10), s, s0. split; [lra|]. split; [exact G|].
  split; [intros b [<-|[]]; apply ex_well_meshed|]. split; [intros b [<-|[]]; exact WM|]. split; [exact E|]. split; [exact E0|].
  intros solve HS. destruct (HK (k0 / 2) [a] (ex_op 1 10) ltac:(lra) (conj eq_refl (conj eq_refl (conj eq_refl eq_refl))) G) as [N1 N2].
  assert (HM : forall b v, In b [a] -> In v (a_wings b) -> well_meshed (w_panels v)) by (intros b v [<-|[]]; apply (proj1 WM)). specialize (N2 HF HM). split.
  - rewrite (horseshoe_solvable solve [a] (ex_op 1 10) HS). rewrite (horseshoe_solvable gauss_solve _ _ gauss_solve_spec) in N1. exact N1.
  - rewrite (ring_solvable solve [a] (ex_op 1 10) HS HF HM). rewrite (ring_solvable gauss_solve _ _ gauss_solve_spec HF HM) in N2. exact N2.
Qed.
