(** The plate in the wind for three steps, at several sizes. *)
From Coq Require Import List ZArith Lia Lra Bool Reals String.
From Verif Require Import M_Unsteady S_Unsteady S_UnsteadyRun S_Geometry S_Vortices S_Loads S_Solve S_Movement S_Solvable S_Similar S_Size S_SizeUnsteady
  L_Base L_Loads L_Horseshoe L_Frames L_Geometry L_Movement L_Problems L_Example L_Example3 L_Example4 L_Example5 L_Gauss L_Wake L_WakeWings L_Unsteady L_UnsteadyStep L_UnsteadyRun L_UnsteadyFinal L_UnsteadyProps L_UnsteadyProps2 L_UnsteadyFlow L_UnsteadyStill
  L_Size L_SizeSolvers L_SizeSmall L_SizeExample L_SizeMovement L_SizeRun.
Import ListNotations.
Local Open Scope R_scope.
Local Open Scope list_scope.

(** Larger problems are no worse. *)
Lemma larger_steps k solve (prescribed : bool) up n : 1 <= k -> clear_steps solve prescribed up n -> resolved_steps k solve prescribed up n.
Proof.
  intros Hk HC i s Hi HA sp w x Hsp Hw Hx. apply larger_resolved; [exact Hk|]. intros v sg Hv Hs. exact (HC i s Hi HA sp w x Hsp Hw Hx v sg Hv Hs).
Qed.

Lemma long u : vx u <= - / 2 \/ / 2 <= vx u \/ vy u <= - / 2 \/ / 2 <= vy u \/ vz u <= - / 2 \/ / 2 <= vz u -> / 4 <= vdot u u.
Proof. unfold vdot. intros [H|[H|[H|[H|[H|H]]]]]; nra. Qed.
Ltac lengthy := apply long; vunfold; cbn [vx vy vz];
  first [left; lra | right; left; lra | right; right; left; lra | right; right; right; left; lra | right; right; right; right; left; lra | right; right; right; right; right; lra].
Ltac clear_node := first [left; vunfold; apply vec_ext; cbn; lra | right; apply clear_of; lengthy].
(** The corners of the plate's ring vortex and of the wake's, and the points where velocities are needed. *)
Definition corner (y : R) : Prop := y = 0 \/ y = 1.
Definition node (c d : R) (p : vec) : Prop := exists y, corner y /\
  (p = mkvec 1 y 0 \/ p = mkvec (5 + d) y (1 / 2) \/ p = mkvec (5 + d + 4 * c) y (5 / 2) \/ p = mkvec (5 + d + 8 * c) y (9 / 2)).
Definition spot (d : R) (x : vec) : Prop := In x [mkvec 3 (1 / 2) 0; mkvec ((6 + d) / 2) 1 (1 / 4); mkvec 1 (1 / 2) 0; mkvec ((6 + d) / 2) 0 (1 / 4)].
Lemma nodes_clear c d x a b : 0 < d -> 0 < c < 1 -> spot d x -> node c d a -> node c d b -> vcross (vsub a x) (vsub b x) = vzero \/ ~ cut_off x (a, b).
Proof.
  intros Hd Hc Hx (y & Hy & Ha) (z & Hz & Hb).
  destruct Hx as [<-|[<-|[<-|[<-|[]]]]]; destruct Hy as [->| ->]; destruct Ha as [->|[->|[->| ->]]]; destruct Hz as [->| ->]; destruct Hb as [->|[->|[->| ->]]]; clear_node.
Qed.
(** ** The plate in a steady wind *)
Lemma calm_ring prescribed lines only up s n t k sp c : windy_case resting prescribed lines only up s -> has_run gauss_solve prescribed up n t -> step_at t k sp ->
  freestream_direction (ex_op 1 4) = mkvec c 0 (1 / 2) ->
  exists p r w, step_panels sp = [p] /\ step_wings sp = [w] /\ trailing_panels w = [p] /\ p_collocation_point p = mkvec 3 (1 / 2) 0 /\ p_ring_vortex p = Some r /\ ring_consistent r /\
    rv_front_left r = mkvec 1 0 0 /\ rv_front_right r = mkvec 1 1 0 /\ rv_back_left r = mkvec (5 + c) 0 (1 / 2) /\ rv_back_right r = mkvec (5 + c) 1 (1 / 2) /\
    freestream_velocity (sp_operating_point sp) = mkvec (4 * c) 0 2.
Proof.
  intros HW HR Hsp Hc. assert (Ho : In resting [resting; gust]) by (left; reflexivity). destruct (windy_facts _ _ _ _ _ _ Ho HW) as (HC & Edt & Hlen & _ & _ & m & a & Hm & Hup & Ea & Hst).
  pose proof (steps_kept _ gauss_solve_spec _ _ _ _ HC HR) as FK. destruct (Forall2_nth _ _ _ FK _ _ Hsp) as (sp0 & H0 & K). destruct (Hst _ _ H0) as (EA & v & _ & EO & _ & _ & Hv). specialize (Hv eq_refl). subst v.
  pose proof (kept_step_wings _ _ K) as FW. unfold step_wings at 1 in FW. rewrite EA in FW. cbn [map concat] in FW. rewrite Ea in FW. cbn [app] in FW.
  inversion FW as [|? w ? ws [Ew Fw] Fr X1 X2]; subst. inversion Fr; subst. symmetry in X2.
  cbn [ex_wing w_panels ex_panels] in Fw. change (set_positions 1 [[plain_panel 0 1]]) with [[ex_panel]] in Fw.
  inversion Fw as [|? row ? rows Frow Frows Y1 Y2]; subst. inversion Frows; subst. inversion Frow as [|? p ? ps HP Fps Z1 Z2]; subst. inversion Fps; subst. symmetry in Y2.
  assert (EP : step_panels sp = [p]) by (rewrite panels_of_wings, X2; cbn [map concat app]; rewrite Y2; reflexivity).
  assert (Hw : wing_at t k 0 w) by (exists sp; split; [exact Hsp | rewrite X2; reflexivity]).
  assert (Hp : at_position (w_panels w) 0 0 p) by (rewrite Y2; exists [p]; auto).
  destruct (bound_rings _ gauss_solve_spec _ _ _ _ _ _ _ _ _ _ HC HR Hw Hp) as (r & Hr & (HCr & B1 & B2 & B3 & _)). rewrite Y2 in B3. destruct (B3 eq_refl) as [B4 B5].
  change (same_panel ex_panel p) in HP. destruct (same_panel_vertices _ _ HP) as [V1 V2]. destruct ex_panel_points as (Co & _ & Q1 & Q2). rewrite V1, Q2 in B1. rewrite V2, Q1 in B2.
  assert (EOs : sp_operating_point sp = mkop 1 4 30 0 0 (1506 / 100000000)) by (rewrite (proj1 K); exact EO).
  assert (EF : freestream_velocity (sp_operating_point sp) = mkvec (4 * c) 0 2).
  { rewrite EOs. unfold freestream_velocity. change (freestream_direction (mkop 1 4 30 0 0 (1506 / 100000000))) with (freestream_direction (ex_op 1 4)). rewrite Hc. cbn [op_velocity]. vunfold. apply vec_ext; cbn; lra. }
  assert (EV : drift_at t k = vscale (25 / 100) (vscale 1 (mkvec (4 * c) 0 2))).
  { unfold drift_at, freestream_at. unfold step_at in Hsp. rewrite Hsp, EF. destruct (has_run_history _ gauss_solve_spec _ _ _ _ HC HR) as (F & up1 & conv & sa & HH). rewrite (hi_time _ _ _ _ _ _ _ _ _ HH), Edt. reflexivity. }
  assert (HCo : p_collocation_point p = mkvec 3 (1 / 2) 0).
  { destruct HP as (E1 & E2 & E3 & E4 & _). rewrite <- Co. unfold p_collocation_point, p_right_leg, p_left_leg. rewrite E1, E2, E3, E4. reflexivity. }
  destruct HP as (E1 & E2 & E3 & E4 & HP).
  rewrite EV, B1, E2, E3 in B4. rewrite EV, B2, E1, E4 in B5.
  exists p, r, w. split; [exact EP|]. split; [exact X2 || reflexivity|]. split; [unfold trailing_panels; rewrite Y2; reflexivity|]. split; [exact HCo|]. split; [exact Hr|]. split; [exact HCr|].
  split; [exact B1|]. split; [exact B2|]. split; [|split; [|exact EF]].
  - rewrite B4. unfold ex_panel, plain_panel, p_set_position, new_panel; cbn [p_front_right p_front_left p_back_left p_back_right]; vunfold; apply vec_ext; cbn; field.
  - rewrite B5. unfold ex_panel, plain_panel, p_set_position, new_panel; cbn [p_front_right p_front_left p_back_left p_back_right]; vunfold; apply vec_ext; cbn; field.
Qed.
Lemma in_combine_map {A} (f g : A -> vec) (l : list A) sg : In sg (combine (map f l) (map g l)) -> exists x, In x l /\ sg = (f x, g x).
Proof. rewrite L_Base.combine_map. intros H. apply in_map_iff in H. destruct H as (x & <- & H). exists x. auto. Qed.
Lemma calm_wake_node lines only up s n t k i w r j v c : windy_case resting true lines only up s -> has_run gauss_solve true up n t -> (0 < k <= n)%nat -> (k < 3)%nat -> wing_at t k i w ->
  freestream_direction (ex_op 1 4) = mkvec c 0 (1 / 2) -> entry (w_wake_vertices w) r j v -> node c c v.
Proof.
  intros HW HR Hk Hk3 Hw Hc HE. assert (Ho : In resting [resting; gust]) by (left; reflexivity). destruct (windy_facts _ _ _ _ _ _ Ho HW) as (HC & Edt & Hlen & _).
  destruct (prescribed_vertices _ gauss_solve_spec up n t HC HR k i w r j v Hk Hw HE) as (Hr & w' & v0 & (sp' & Hsp' & Hw') & Hv0 & ->). rewrite Edt.
  destruct (calm_ring _ _ _ _ _ _ _ _ _ c HW HR Hsp' Hc) as (p & ring & w1 & EP & EW & ET & _ & Hring & _ & _ & _ & BL & BR & _).
  rewrite EW in Hw'. destruct i as [|i]; [|destruct i; discriminate]. cbn [nth_error] in Hw'. apply Some_eq in Hw'. subst w1.
  assert (Hsw : forall a, (a < 3)%nat -> freestream_at t a = mkvec (4 * c) 0 2).
  { intros a Ha. destruct (windy_step _ _ _ _ _ _ _ _ a Ho HW HR Ha) as (spa & _ & _ & Hspa & _). destruct (calm_ring _ _ _ _ _ _ _ _ _ c HW HR Hspa Hc) as (_ & _ & _ & _ & _ & _ & _ & _ & _ & _ & _ & _ & _ & EF).
    unfold freestream_at. unfold step_at in Hspa. rewrite Hspa. exact EF. }
  assert (HV : exists y, corner y /\ v0 = mkvec (5 + c) y (1 / 2)).
  { unfold trailing_vertices in Hv0. rewrite ET in Hv0. cbn [map last app] in Hv0. unfold back_left_of, back_right_of in Hv0. rewrite Hring, BL, BR in Hv0.
    destruct j as [|[|j]]; [| |destruct j; discriminate]; cbn [nth_error] in Hv0; apply Some_eq in Hv0; subst v0; eexists; (split; [|reflexivity]); [left | right]; reflexivity. }
  destruct HV as (y & Hy & ->). exists y. split; [exact Hy|]. right.
  assert (Hd : (k - (k - r) = r)%nat) by lia. unfold swept. rewrite Hd.
  destruct r as [|[|[|r]]]; [left | right; left | right; right | exfalso; lia]; cbn [seq map]; rewrite ?Hsw by lia; vunfold; apply vec_ext; cbn; lra.
Qed.
Lemma calm_nodes lines only up s : windy_case resting true lines only up s -> forall i t, (i < 3)%nat -> after gauss_solve true up (S i) t ->
  forall sp w x, nth_error (up_steady_problems (us_problem t)) i = Some sp -> nth_error (us_wakes t) i = Some w -> step_points true (us_problem t) i x ->
  forall v sg, In v (vortices_of sp w) -> In sg v -> exists c, 0 < c < 1 /\ spot c x /\ node c c (fst sg) /\ node c c (snd sg).
Proof.
  intros HW i t Hi HA sp w x Hsp Hwk Hx v sg Hv Hsg. assert (Ho : In resting [resting; gust]) by (left; reflexivity). destruct (windy_facts _ _ _ _ _ _ Ho HW) as (HC & Edt & Hlen & _).
  assert (HR : has_run gauss_solve true up (S i) t) by (left; exact HA).
  destruct (ex_direction 1 4) as (c & Hc & Hcc & Hd). assert (Hc1 : 0 < c < 1) by nra.
  destruct (calm_ring _ _ _ _ _ _ _ _ _ c HW HR Hsp Hd) as (p & r & w0 & EP & EW & ET & Co & Hr & (L1 & L2 & L3 & L4 & _) & FL & FR & BL & BR & _).
  assert (HN : node c c (fst sg) /\ node c c (snd sg)).
  { unfold vortices_of in Hv. apply in_app_iff in Hv. destruct Hv as [Hv|Hv].
    - change (all_panels (sp_airplanes sp)) with (step_panels sp) in Hv. rewrite EP in Hv. destruct Hv as [<-|[]]. unfold panel_legs in Hsg. rewrite Hr in Hsg.
      destruct L2 as (O2 & T2 & _). destruct L4 as (O4 & T4 & _). rewrite O2, T2, O4, T4, FL, FR, BL, BR in Hsg.
      assert (M1 : node c c (mkvec 1 0 0)) by (exists 0; split; [left; reflexivity | left; reflexivity]). assert (M2 : node c c (mkvec 1 1 0)) by (exists 1; split; [right; reflexivity | left; reflexivity]).
      assert (M3 : node c c (mkvec (5 + c) 0 (1 / 2))) by (exists 0; split; [left; reflexivity | right; left; reflexivity]). assert (M4 : node c c (mkvec (5 + c) 1 (1 / 2))) by (exists 1; split; [right; reflexivity | right; left; reflexivity]).
      destruct Hsg as [<-|[<-|[<-|[<-|[]]]]]; cbn [fst snd]; auto.
    - destruct (wake_recorded _ gauss_solve_spec _ _ _ _ i HC HR ltac:(lia)) as (grids & (sp' & Hsp' & FG & HG) & Hrec). rewrite Hwk in Hrec. apply Some_eq in Hrec. subst w.
      assert (HL : forall q, In q (concat (map (@concat ring_vortex) grids)) -> node c c (rv_front_left q) /\ node c c (rv_front_right q) /\ node c c (rv_back_left q) /\ node c c (rv_back_right q)).
      { intros q Hq. apply in_concat in Hq. destruct Hq as (l & Hl & Hq). apply in_map_iff in Hl. destruct Hl as (g & <- & Hg). apply in_concat in Hq. destruct Hq as (row & Hrow & Hq).
        apply In_nth_error in Hg. destruct Hg as [gi Hg]. apply In_nth_error in Hrow. destruct Hrow as [ri Hrow]. apply In_nth_error in Hq. destruct Hq as [ci Hq].
        destruct (HG gi g ri ci q Hg ltac:(exists row; auto)) as (_ & _ & (wv & Hwv & N1 & N2 & N3 & N4) & _).
        assert (Hi0 : (0 < i)%nat).
        { destruct (Forall2_nth _ _ _ FG _ _ Hg) as (ww & _ & (G1 & _)). destruct i; [|lia]. destruct g; [destruct ri; discriminate Hrow | discriminate G1]. }
        repeat split; (eapply (calm_wake_node _ _ _ _ (S i) t i); [exact HW | exact HR | lia | lia | exact Hwv | exact Hd | eassumption]). }
      unfold wake_legs, record_of in Hv. cbn [wk_back_right wk_front_right wk_front_left wk_back_left] in Hv.
      destruct Hv as [<-|[<-|[<-|[<-|[]]]]]; apply in_combine_map in Hsg; destruct Hsg as (q & Hq & ->); destruct (HL q Hq) as (N1 & N2 & N3 & N4); cbn [fst snd]; auto. }
  assert (HX : spot c x).
  { destruct Hx as [(sp' & q & Hsp' & Hq & Hx)|(E & _)]; [|discriminate]. assert (sp' = sp) by congruence. subst sp'. change (all_panels (sp_airplanes sp)) with (step_panels sp) in Hq. rewrite EP in Hq. destruct Hq as [<-|[]].
    unfold spot. destruct Hx as [->|[_ Hx]]; [left; symmetry; exact Co|]. unfold leg_centers in Hx. rewrite Hr in Hx.
    destruct L1 as (_ & _ & _ & _ & C1). destruct L2 as (_ & _ & _ & _ & C2). destruct L4 as (_ & _ & _ & _ & C4). rewrite C1, C2, C4, FL, FR, BL, BR in Hx. unfold midpoint in Hx.
    destruct Hx as [<-|[<-|[<-|[]]]]; [right; left | right; right; left | right; right; right; left]; vunfold; apply vec_ext; cbn; lra. }
  exists c. split; [exact Hc1|]. split; [exact HX | exact HN].
Qed.
Lemma calm_clear lines only up s : windy_case resting true lines only up s -> clear_steps gauss_solve true up 3.
Proof.
  intros HW i t Hi HA sp w x Hsp Hwk Hx v [a b] Hv Hsg. destruct (calm_nodes _ _ _ _ HW i t Hi HA sp w x Hsp Hwk Hx v (a, b) Hv Hsg) as (c & Hc & HX & HN). exact (nodes_clear c c x a b (proj1 Hc) Hc HX (proj1 HN) (proj2 HN)).
Qed.
Lemma calm_larger k : 0 < k -> exists up up' s, SolveSpec gauss_solve /\ created up /\ List.length (up_steady_problems up) = 3%nat /\ larger_flight k up up' /\
  clear_steps gauss_solve true up 3 /\ finished gauss_solve true true up s.
Proof.
  intros Hk. destruct (windy_runs resting true true false (or_introl eq_refl)) as (up & s & HW). destruct (windy_facts _ _ _ _ _ _ (or_introl eq_refl) HW) as (HC & _ & HL & _ & _ & m & a & Hm & Hup & _).
  destruct (enlarged_movement k _ _ _ _ _ _ _ _ _ Hk Hm Hup) as (m' & up' & _ & _ & LF). exists up, (set_viscosity (k * op_nu default_operating_point) up'), s.
  split; [exact gauss_solve_spec|]. split; [exact HC|]. split; [exact HL|]. split; [exact LF|]. split; [exact (calm_clear _ _ _ _ HW) | exact (proj2 HW)].
Qed.
(** ** From the movement to the results *)
Lemma enlarged_run k ams om n cy ch dt m only up solve (prescribed lines : bool) s : SolveSpec solve -> 0 < k ->
  new_movement ams om n cy ch dt = Ok m -> new_unsteady_problem m only = Ok up ->
  resolved_steps k solve prescribed up (List.length (up_steady_problems up)) -> finished solve prescribed lines up s ->
  exists m' up' s', new_movement (map (larger_airplane_movement k) ams) (slower_wind k om) n cy ch (option_map (Rmult k) dt) = Ok m' /\
    new_unsteady_problem m' only = Ok up' /\ finished solve prescribed lines (set_viscosity (k * op_nu default_operating_point) up') s' /\
    run_enlarged k (List.length (up_steady_problems up)) s s'.
Proof.
  intros HS Hk Em Eup HR HF. destruct (enlarged_movement k _ _ _ _ _ _ _ _ _ Hk Em Eup) as (m' & up' & Em' & Eup' & LF).
  assert (HC : created up) by (do 7 eexists; exists only; split; [exact Em | exact Eup]).
  destruct (enlarged_finished k Hk solve HS prescribed lines up _ s HC LF HR HF) as (s' & HF' & RE). exists m', up', s'. auto.
Qed.
Lemma created_size k up up' : created up -> created up' -> larger_flight k up up' -> (0 < List.length (up_steady_problems up))%nat -> k = 1.
Proof.
  intros HC HC' LF HL. pose proof (lf_steps _ _ _ LF) as E. destruct (up_steady_problems up) as [|sp l] eqn:Eu; [cbn in HL; lia|]. cbn [map] in E.
  pose proof (L_SimilarMovement.snapshot_viscosity up sp HC) as E1. rewrite Eu in E1. specialize (E1 (or_introl eq_refl)).
  pose proof (L_SimilarMovement.snapshot_viscosity up' (mksteady (map (larger_airplane k) (sp_airplanes sp)) (thicker k (sp_operating_point sp))) HC') as E2. rewrite E in E2. specialize (E2 (or_introl eq_refl)).
  cbn [sp_operating_point thicker op_nu] in E2. rewrite E1 in E2. change (op_nu default_operating_point) with (1506 / 100000000) in E2. lra.
Qed.
