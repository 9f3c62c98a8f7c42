(** Statements added after the theorems had been tried against wrong programs. *)
From Coq Require Import Lra Lia.
From Verif Require Import M_Airfoil M_Horseshoe M_SteadyRing M_Unsteady S_Geometry S_Airfoil S_Solve S_Vortices S_Loads S_Movement S_Unsteady S_UnsteadyRun S_Streamlines.
From Verif Require Import L_Base L_Functions L_Aero L_Loads L_Meshing L_Geometry L_Airfoil L_Camber L_Surface.
From Verif Require Import L_Horseshoe L_SteadyRing L_RingLegs L_UnsteadyFinal L_UnsteadyFlow.

(** ** Airfoils *)
Lemma camber_line_of_contour pchip database name coordinates repanelled np a n :
  new_airfoil pchip database name coordinates repanelled np = Ok a -> balanced n (af_coordinates a) ->
  length (af_mcl_coordinates a) = n /\ length (af_thickness a) = n /\
  forall k u l, (k < n)%nat -> sides n (af_coordinates a) k u l ->
    nth_error (af_mcl_coordinates a) k = Some (mid2 u l) /\
    nth_error (af_thickness a) k = Some (fst (mid2 u l), dist2 u l).
Proof.
  intros H HB. apply new_airfoil_mcl in H.
  destruct (mcl_points _ _ _ _ _ _ HB H) as (_ & L1 & L2 & HP). split; [exact L1|].
  pose proof H as H1. rewrite (with_mcl_balanced n _ HB) in H1. apply Ok_eq in H1.
  assert (HT : af_thickness a = combine (map fst (af_mcl_coordinates a)) (map (fun d => sqrt (fst d ^ 2 + snd d ^ 2) * 2) (af_upper_minus_mcl a)))
    by (rewrite <- H1; reflexivity).
  rewrite HT. split; [rewrite combine_length, !map_length; lia|].
  intros k u l Hk Hs. destruct (HP k u l Hs Hk) as [E1 E2]. split; [exact E1|].
  rewrite L_Meshing.nth_error_combine, !nth_error_map, E1, E2. cbn [option_map]. do 2 f_equal.
  unfold dist2, pair_sub, mid2; cbn [fst snd].
  replace ((fst u - fst l) ^ 2 + (snd u - snd l) ^ 2) with (2 ^ 2 * ((fst u - (fst u + fst l) / 2) ^ 2 + (snd u - (snd u + snd l) / 2) ^ 2)) by field.
  rewrite sqrt_mult by (try lra; pose proof (pow2_ge_0 (fst u - (fst u + fst l) / 2)); pose proof (pow2_ge_0 (snd u - (snd u + snd l) / 2)); lra).
  rewrite sqrt_pow2 by lra. ring.
Qed.
Lemma contour_given pchip database name c np a : new_airfoil pchip database name (Some c) false np = Ok a -> af_coordinates a = c.
Proof. unfold new_airfoil. cbn [bind]. intros H. apply with_mcl_coordinates in H. apply H. Qed.
Lemma leading_edge_first c i : leading_edge_index c = Ok i -> exists le, nth_error c i = Some le /\
  (forall p, In p c -> fst le <= fst p) /\ (forall j p, nth_error c j = Some p -> (j < i)%nat -> fst le < fst p).
Proof.
  intros Ei. assert (Hi := argmin_lt _ _ Ei). rewrite map_length in Hi.
  destruct (first_minimum (map fst c)) as (k & m & Hk & Hb & Hall); [destruct c; [cbn in Hi; lia | discriminate]|].
  pose proof (argmin_first _ _ _ Hk Hb Hall) as Ek. unfold leading_edge_index in Ei. assert (k = i) by congruence. subst k.
  rewrite nth_error_map in Hk. destruct (nth_error c i) as [le|]; [|discriminate]. injection Hk as <-. exists le. split; [reflexivity|].
  split; [intros p Hp; apply Hall, in_map, Hp|]. intros j p Hj Hlt. apply (Hb j); [|exact Hlt]. rewrite nth_error_map, Hj. reflexivity.
Qed.
Lemma contour_repanelled pchip database name c np a : (1 <= np)%nat -> new_airfoil pchip database name (Some c) true np = Ok a ->
  exists i le upper lower, nth_error c i = Some le /\
    (forall p, In p c -> fst le <= fst p) /\ (forall j p, nth_error c j = Some p -> (j < i)%nat -> fst le < fst p) /\
    pchip (rev (firstn (S i) c)) = Ok upper /\ pchip (skipn i c) = Ok lower /\
    length (af_coordinates a) = (2 * np - 1)%nat /\
    forall k x, nth_error (cosspace 0 1 np true) k = Some x ->
      sides np (af_coordinates a) k (x, upper x) (x, if Nat.eqb k 0 then upper x else lower x).
Proof.
  intros Hn H. unfold new_airfoil in H. cbn [bind] in H. apply bind_Ok in H. destruct H as (c' & E & H).
  apply with_mcl_coordinates in H. destruct H as [-> _]. unfold repanel, upper_coordinates, lower_coordinates in E.
  destruct (leading_edge_index c) as [i|] eqn:Ei; [|discriminate]. cbn [bind] in E.
  apply bind_Ok in E. destruct E as (f & Ef & E). apply bind_Ok in E. destruct E as (g & Eg & E). apply Ok_eq in E. subst c'.
  destruct (leading_edge_first _ _ Ei) as (le & H1 & H2 & H3). exists i, le, f, g. do 5 (split; [assumption|]).
  set (xs := cosspace 0 1 np true). assert (Lx : length xs = np) by (unfold xs; apply cosspace_length).
  assert (Lt : length (tl xs) = (np - 1)%nat) by (destruct xs; cbn in *; lia).
  rewrite combine_length, !app_length, !map_length, rev_length, Lt, Lx. split; [lia|].
  intros k x Hk. assert (Lk : (k < np)%nat) by (rewrite <- Lx; apply nth_error_Some; congruence).
  assert (Hr : forall h : R -> R, nth_error (map h (rev xs)) (np - 1 - k) = Some (h x)).
  { intros h. rewrite nth_error_map, nth_error_rev by (rewrite Lx; lia). rewrite Lx. replace (np - 1 - (np - 1 - k))%nat with k by lia. rewrite Hk. reflexivity. }
  split.
  - rewrite L_Meshing.nth_error_combine, !nth_error_app1 by (rewrite ?map_length, rev_length, Lx; lia).
    rewrite Hr. rewrite <- (map_id (rev xs)), (Hr (fun y => y)). reflexivity.
  - destruct k as [|k].
    + cbn [Nat.eqb]. rewrite Nat.add_0_r. rewrite Nat.sub_0_r in Hr. rewrite L_Meshing.nth_error_combine, !nth_error_app1 by (rewrite ?map_length, rev_length, Lx; lia).
      rewrite Hr. rewrite <- (map_id (rev xs)), (Hr (fun y => y)). reflexivity.
    + cbn [Nat.eqb]. rewrite L_Meshing.nth_error_combine, !nth_error_app2 by (rewrite ?map_length, rev_length, Lx; lia).
      rewrite !map_length, rev_length, Lx. replace (np - 1 + S k - np)%nat with k by lia. rewrite nth_error_map.
      assert (Ht : nth_error (tl xs) k = Some x) by (destruct xs; [destruct k; discriminate | exact Hk]). rewrite Ht. reflexivity.
Qed.

(** ** Streamlines *)
Lemma trailing_seeds l m : Forall2 same_panel l m -> seeds_of l = trailing_midpoints m.
Proof.
  intros F. unfold seeds_of, trailing_midpoints. induction F as [|p q l m H _ IH]; [reflexivity|]. cbn [filter].
  destruct H as (_ & _ & Hl & Hr & _ & -> & _). destruct (p_is_trailing_edge p); cbn [map]; [|exact IH]. rewrite IH, Hl, Hr. f_equal. clear. vunfold. apply vec_ext; cbn; lra.
Qed.
Lemma seeds_same l m : Forall2 same_panel l m -> seeds_of m = seeds_of l.
Proof.
  intros F. unfold seeds_of. induction F as [|p q l m H _ IH]; [reflexivity|]. cbn [filter].
  destruct H as (_ & _ & Hl & Hr & _ & -> & _). destruct (p_is_trailing_edge p); cbn [map]; [|exact IH]. rewrite IH, Hl, Hr. reflexivity.
Qed.
Lemma traced_calculated V seeds : traced V seeds (calculate_streamlines V seeds 25 (2 / 100)).
Proof.
  destruct (streamlines_rows V seeds 25 (2 / 100)) as (H1 & H2 & _). split; [exact H1|]. split; [exact H2|]. intros i row next. apply streamlines_step.
Qed.
Lemma hs_streamlines solve l op s : hs_run solve (hs_new l op) = Ok s ->
  exists lines, hso_streamline_points s = Some lines /\
    traced (hs_solution_velocity s) (trailing_midpoints (all_panels (hso_airplanes s))) lines.
Proof.
  intros E. pose proof (hs_run_same _ _ _ E) as HS. apply hs_run_inv in E. cbv zeta in E. destruct E as (_ & Ef & Er & _ & E5 & E6 & _).
  cbn [hs_new hso_seed_points app] in E5. eexists. split; [exact E6|].
  replace (trailing_midpoints (all_panels (hso_airplanes s))) with (hso_seed_points s).
  - unfold hs_solution_velocity. rewrite Er, Ef. apply traced_calculated.
  - rewrite E5. rewrite <- (trailing_seeds _ _ (same_all_panels _ _ HS)). apply seeds_same. cbn [hs_new hso_airplanes hso_op].
    rewrite <- flat_panels_snd. unfold hs_rows_of. rewrite map_map. clear. induction (flat_panels l) as [|[[a w] p] r IH]; constructor; auto.
    unfold same_panel; cbn; auto 12.
Qed.
Lemma ring_streamlines solve l op s : ring_run solve (ring_new l op) = Ok s ->
  exists lines, rso_streamline_points s = Some lines /\
    traced (ring_solution_velocity s) (trailing_midpoints (all_panels (rso_airplanes s))) lines.
Proof.
  intros E. pose proof (ring_run_same _ _ _ E) as HS.
  assert (HL : rso_streamline_points s = Some (calculate_streamlines (ring_solution_velocity s) (rso_seed_points s) 25 (2 / 100))).
  { clear HS. unfold ring_run in E. do 6 (apply bind_Ok in E; destruct E as (? & _ & E)). apply Ok_eq in E. subst s. reflexivity. }
  apply ring_run_inv in E. cbv zeta in E. destruct E as (l0 & l1 & loads & Ei & Ec & _ & _ & E5 & _).
  cbn [ring_new rso_seed_points app rso_airplanes rso_op] in *. eexists. split; [exact HL|].
  replace (trailing_midpoints (all_panels (rso_airplanes s))) with (rso_seed_points s); [apply traced_calculated|].
  rewrite E5, (ring_collapse_panels _ _ Ec), <- (trailing_seeds _ _ (same_all_panels _ _ HS)). apply seeds_same, same_all_panels, (ring_init_same _ _ _ Ei).
Qed.

Lemma unsteady_streamlines solve (HS : SolveSpec solve) prescribed up s : created up -> finished solve prescribed true up s ->
  exists sp V lines, step_at s (length (up_steady_problems up) - 1) sp /\ us_streamline_points s = Some lines /\
    (forall points, unsteady_solution_velocity s points = Ok (V points)) /\ traced V (trailing_midpoints (step_panels sp)) lines.
Proof.
  intros HC HF. assert (HR : has_run solve prescribed up (length (up_steady_problems up)) s) by (right; split; [exists true; exact HF | reflexivity]).
  assert (HL : exists n, length (up_steady_problems up) = S n).
  { destruct HF as (s0 & E0 & _). unfold unsteady_new in E0. destruct (up_steady_problems up); [discriminate | eexists; reflexivity]. }
  destruct HL as [n Hn]. rewrite Hn in *. replace (S n - 1)%nat with n by lia.
  destruct (newest_ok solve HS prescribed up n s HC HR) as (sp & rows & la & xs & grids & HN). destruct HN as [N1 N2 N3 N4 N5 _ _ _ _].
  destruct (finished_meshed _ _ _ up s HC HF) as [F HM].
  destruct (finished_inv _ _ _ _ _ F HF HM) as (sf & f & m & r & _ & _ & _ & _ & _ & _ & _ & Ec & El).
  rewrite <- Ec, N5 in El. exists sp. eexists (current_velocity _). eexists. split; [exact N1|]. split; [exact El|].
  split; [intros points; unfold unsteady_solution_velocity; rewrite N5; reflexivity|].
  replace (trailing_midpoints (step_panels sp)) with (seeds_of (map rr_panel rows)); [apply traced_calculated|].
  apply trailing_seeds. clear -N2. induction N2 as [|row p rows ps [H _] _ IH]; constructor; assumption.
Qed.

(** ** Trailing horseshoe vortices of the ring solver *)
Definition tailed (direction : vec) (len : R) (p : panel) : Prop :=
  p_is_trailing_edge p = true -> exists r h, p_ring_vortex p = Some r /\ p_horseshoe_vortex p = Some h /\
    hs_strength h = rv_strength r /\ horseshoe_consistent h /\
    hs_finite_leg_origin h = rv_back_right r /\ hs_finite_leg_termination h = rv_back_left r /\
    hs_infinite_leg_direction h = direction /\ hs_infinite_leg_length h = len.
Definition keeps_tail (p q : panel) : Prop := same_panel p q /\ forall d len, tailed d len p -> tailed d len q.
Definition keeps_tail_wing (w v : wing) : Prop := same_wing w v /\ Forall2 (Forall2 keeps_tail) (w_panels w) (w_panels v).

Lemma tailed_init d len m c j p q : ring_init_panel d len m c j p = Ok q -> tailed d len q.
Proof.
  unfold ring_init_panel. destruct (p_is_trailing_edge p) eqn:T.
  - intros E. apply Ok_eq in E. subst q. intros _. eexists; eexists. split; [reflexivity|]. split; [reflexivity|].
    split; [reflexivity|]. split; [apply new_horseshoe_consistent|]. repeat split; reflexivity.
  - intros E. apply bind_Ok in E. destruct E as (x & _ & E). apply Ok_eq in E. subst q. intros H. cbn in H. rewrite T in H. discriminate.
Qed.
Lemma set_strength_tail p g q : ring_set_strength p g = Ok q -> keeps_tail p q.
Proof.
  intros E. split; [eapply ring_set_strength_same; exact E|]. intros d len HT H.
  destruct (ring_set_strength_same _ _ _ E) as (_ & _ & _ & _ & _ & HE & _). rewrite HE in H.
  destruct (HT H) as (r & h & Hr & Hh & _ & Hc & Ho & Ht & Hd & Hl).
  unfold ring_set_strength in E. rewrite Hr in E. cbn in E. rewrite Hh in E. apply Ok_eq in E. subst q.
  eexists; eexists. split; [reflexivity|]. split; [reflexivity|].
  destruct (hs_update_consistent h g Hc) as (C1 & C2 & C3 & C4). split; [exact C2|]. split; [exact C1|].
  repeat split; assumption.
Qed.
Lemma updated_tail l xs l' : update_panels ring_set_strength l xs = Ok l' ->
  Forall2 (fun a b => Forall2 keeps_tail_wing (a_wings a) (a_wings b)) l l'.
Proof.
  intros E. apply update_panels_sound in E. destruct E as (us & rest & _ & F). revert F. apply Forall3_13'.
  intros a u b (ws & useds & -> & _ & F). cbn. revert F. apply Forall3_13'.
  intros w u' v (m & used' & -> & _ & F).
  assert (F2 : Forall2 (Forall2 keeps_tail) (w_panels w) m).
  { revert F. apply Forall3_13'. intros row ur row' Fr. revert Fr. apply Forall3_13'.
    intros p g q. apply set_strength_tail. }
  split; [split; [reflexivity|]|exact F2]. cbn. eapply Forall2_impl; [|exact F2]. intros r r' Fr.
  eapply Forall2_impl; [|exact Fr]. intros p q [H _]; exact H.
Qed.
Lemma kept_tail l l' op fs ms : process_forces op fs ms l = Ok l' ->
  Forall2 (fun a b => Forall2 keeps_tail_wing (a_wings a) (a_wings b)) l l'.
Proof.
  intros E. apply process_forces_sound in E. destruct E as (us & rest & _ & F). revert F. apply Forall3_13'.
  intros a u b H. apply totalled_kept in H. destruct H as [_ F]. eapply Forall2_impl; [|exact F].
  intros w v [Hs Fk]. split; [exact Hs|]. eapply Forall2_impl; [|exact Fk]. intros r r' Fr.
  eapply Forall2_impl; [|exact Fr]. intros p q (H & Hr & Hh). split; [exact H|].
  intros d len HT. unfold tailed. rewrite Hr, Hh. destruct H as (_ & _ & _ & _ & _ & -> & _). exact HT.
Qed.
Lemma ring_tails solve s s' a w p : ring_run solve s = Ok s' -> In a (rso_airplanes s') -> In w (a_wings a) ->
  In p (concat (w_panels w)) -> tailed (freestream_direction (rso_op s)) (w_span w * 20) p.
Proof.
  intros E Ha Hw Hp. apply ring_run_inv in E.
  destruct E as (l0 & l1 & loads & Ei & Ec & Eo & Ev & _ & Ex & Eh & Eu & El & Ep).
  apply updated_tail in Eu. apply kept_tail in Ep.
  destruct (Forall2_In_r _ _ _ _ Ep Ha) as (a1 & Ha1 & F1). destruct (Forall2_In_r _ _ _ _ F1 Hw) as (w1 & Hw1 & Hs1 & G1).
  destruct (Forall2_In_r _ _ _ _ Eu Ha1) as (a2 & Ha2 & F2). destruct (Forall2_In_r _ _ _ _ F2 Hw1) as (w2 & Hw2 & Hs2 & G2).
  unfold ring_init in Ei. apply mapM_Forall2 in Ei. destruct (Forall2_In_r _ _ _ _ Ei Ha2) as (a3 & Ha3 & F3).
  unfold ring_init_airplane in F3. apply bind_Ok in F3. destruct F3 as (ws & E & F3). apply Ok_eq in F3. subst a2. cbn in Hw2. apply mapM_Forall2 in E.
  destruct (Forall2_In_r _ _ _ _ E Hw2) as (w3 & Hw3 & F3).
  assert (HS : w_span w = w_span w3).
  { apply same_wing_span. eapply same_wing_trans; [eapply ring_init_wing_same; exact F3 | eapply same_wing_trans; eauto]. }
  rewrite HS. apply in_concat in Hp. destruct Hp as (row & Hrow & Hp).
  destruct (Forall2_In_r _ _ _ _ G1 Hrow) as (row1 & Hrow1 & R1). destruct (Forall2_In_r _ _ _ _ R1 Hp) as (p1 & Hp1 & _ & K1).
  destruct (Forall2_In_r _ _ _ _ G2 Hrow1) as (row2 & Hrow2 & R2). destruct (Forall2_In_r _ _ _ _ R2 Hp1) as (p2 & Hp2 & _ & K2).
  apply K1, K2. unfold ring_init_wing in F3. apply bind_Ok in F3. destruct F3 as (m & Em & F3). apply Ok_eq in F3. subst w2. cbn in Hrow2.
  apply In_nth_error in Hrow2. destruct Hrow2 as [c Hc]. apply In_nth_error in Hp2. destruct Hp2 as [j Hj].
  destruct (mapiM_nth _ _ _ _ _ Em Hc) as (row3 & _ & Er). destruct (mapiM_nth _ _ _ _ _ Er Hj) as (p3 & _ & Eq).
  exact (tailed_init _ _ _ _ _ _ _ Eq).
Qed.
Lemma ring_trailing_horseshoes solve s s' a w p : ring_run solve s = Ok s' -> In a (rso_airplanes s') -> In w (a_wings a) ->
  In p (concat (w_panels w)) -> p_is_trailing_edge p = true ->
  exists r h, p_ring_vortex p = Some r /\ p_horseshoe_vortex p = Some h /\
    hs_strength h = rv_strength r /\ horseshoe_consistent h /\
    hs_finite_leg_origin h = rv_back_right r /\ hs_finite_leg_termination h = rv_back_left r /\
    hs_infinite_leg_direction h = freestream_direction (rso_op s) /\ hs_infinite_leg_length h = w_span w * 20.
Proof. exact (ring_tails solve s s' a w p). Qed.

(** ** A wedge, repanelled: thick at the trailing edge, so the two sides differ. *)
Definition wedge : list (R * R) := [(1, 1 / 10); (0, 0); (1, - (1 / 10))].
Definition straight (l : list (R * R)) : result (R -> R) :=
  match l with (x0, y0) :: (x1, y1) :: _ => Ok (fun x => y0 + (x - x0) / (x1 - x0) * (y1 - y0)) | _ => Err EValueError end.
Lemma wedge_balanced : balanced 2 wedge.
Proof.
  split; [lia|]. split; [reflexivity|]. exists (0, 0). split; [reflexivity|]. split.
  - intros p Hp. destruct Hp as [<-|[<-|[<-|[]]]]; cbn; lra.
  - intros [|i] p Hp Hi; [injection Hp as <-; cbn; lra | cbn in Hi; lia].
Qed.
Lemma wedge_repanelled database : exists a, new_airfoil straight database "wedge" (Some wedge) true 2 = Ok a /\ balanced 2 (af_coordinates a) /\
  exists k u l, sides 2 (af_coordinates a) k u l /\ snd u <> snd l.
Proof.
  assert (HC : cosspace 0 1 2 true = [0; 1]).
  { pose proof (cosspace_first 0 1 2 true ltac:(lia)) as H0. pose proof (cosspace_last 0 1 2 ltac:(lia)) as H1.
    pose proof (cosspace_length 0 1 2 true) as HL. destruct (cosspace 0 1 2 true) as [|x [|y [|z r]]]; try discriminate.
    cbn [nth_error Nat.sub] in H0, H1. congruence. }
  assert (HR : repanel straight 2 wedge = Ok [(1, 1 / 10); (0, 0); (1, - (1 / 10))]).
  { unfold repanel, upper_coordinates, lower_coordinates. rewrite (balanced_index 2 _ wedge_balanced). cbn [bind Nat.sub firstn skipn wedge rev app straight].
    rewrite HC. cbn [rev app tl map combine]. do 2 f_equal; [f_equal; field|]. f_equal; [f_equal; field|]. do 2 f_equal; field. }
  eexists. split; [|split].
  - unfold new_airfoil. cbn [bind]. rewrite HR. cbn [bind]. apply (with_mcl_balanced 2 _ wedge_balanced).
  - exact wedge_balanced.
  - exists 1%nat, (1, 1 / 10), (1, - (1 / 10)). split; [split; reflexivity | cbn; lra].
Qed.
