(** What a run leaves alone, wings that do not move, and when a run can fail. *)
From Coq Require Import List ZArith Lia Lra Bool Reals.
From Verif Require Import M_Unsteady S_Unsteady S_UnsteadyRun S_Geometry S_Vortices S_Loads S_Solve S_Movement L_Base L_Loads L_Horseshoe L_SteadyRing L_RingLegs L_Aero L_Frames
  L_Geometry L_Problems L_Wake L_WakeWings L_Unsteady L_UnsteadyStep L_UnsteadyRun L_UnsteadyFinal L_UnsteadyProps L_UnsteadyProps2 L_UnsteadyFlow.
Import ListNotations.
Local Open Scope R_scope.
Local Open Scope list_scope.

Lemma Forall2_compose {A B C} (P : A -> B -> Prop) (Q : B -> C -> Prop) (T : A -> C -> Prop) l m n :
  (forall a b c, P a b -> Q b c -> T a c) -> Forall2 P l m -> Forall2 Q m n -> Forall2 T l n.
Proof.
  intros H F. revert n. induction F as [|a b l m Hab F IH]; intros n G; inversion G as [|? c ? n' Hbc G' X1 X2]; subst; constructor; [eapply H; eassumption | apply IH; assumption].
Qed.
Lemma same_panel_trans' p q r : same_panel p q -> same_panel q r -> same_panel p r.
Proof. unfold same_panel. intuition congruence. Qed.
Lemma started_then_solved drift w v u : started_wing drift w v -> solved_wing v u -> kept_wing w u.
Proof.
  intros (E & F & _) [E' F']. split.
  - rewrite E' at 1. rewrite E. reflexivity.
  - eapply Forall2_compose; [|exact F|]; [|eapply Forall2_impl; [|exact F']; intros a b H; eapply Forall2_impl; [|exact H]; intros x y Hx; exact (proj1 Hx)].
    intros a b c Hab Hbc. eapply Forall2_compose; [exact same_panel_trans' | exact Hab | exact Hbc].
Qed.
Section Still.
  Variable solve : list (list R) -> list R -> result (list R).
  Hypothesis HS : SolveSpec solve.
  Variable prescribed : bool.

  Lemma steps_kept up n s : created up -> has_run solve prescribed up n s -> Forall2 kept_step (up_steady_problems up) (up_steady_problems (us_problem s)).
  Proof.
    intros HC HR. destruct (has_run_history _ HS _ _ _ _ HC HR) as (F & up1 & conv & sa & HH). pose proof (hi_ran _ _ _ _ _ _ _ _ _ HH) as R.
    rewrite (hi_steps _ _ _ _ _ _ _ _ _ HH). pose proof (rn_started _ _ _ _ _ _ _ _ R) as F1. pose proof (ri_kept _ _ _ _ (rn_inv _ _ _ _ _ _ _ _ R)) as F2.
    eapply Forall2_compose; [|exact F1 | exact F2]. intros sp sp1 sp2 [O1 A1] [O2 A2]. split; [congruence|]. eapply Forall2_compose; [|exact A1 | exact A2].
    intros a b c [W1 E1] (W2 & E2). split; [|rewrite E1 in E2; exact E2]. eapply Forall2_compose; [|exact W1 | exact W2]. intros w v u H1 H2. exact (started_then_solved _ _ _ _ H1 H2).
  Qed.
  Lemma kept_step_wings sp sp' : kept_step sp sp' -> Forall2 kept_wing (step_wings sp) (step_wings sp').
  Proof. intros [_ F]. unfold step_wings. apply Forall2_concat. apply Forall2_map_both. eapply Forall2_impl; [|exact F]. intros a b [H _]. exact H. Qed.
  Lemma kept_step_panels sp sp' : kept_step sp sp' -> Forall2 same_panel (step_panels sp) (step_panels sp').
  Proof.
    intros H. rewrite !panels_of_wings. apply Forall2_concat. apply Forall2_map_both. eapply Forall2_impl; [|exact (kept_step_wings _ _ H)].
    intros w v [_ F]. apply Forall2_concat. exact F.
  Qed.

  (** ** Wings that do not move *)
  Definition still_pair (d : vec) (p q : panel) : Prop :=
    same_panel p q /\ front_center p = front_center q /\
    vsub (right_center p) (right_center q) = (if p_is_trailing_edge p then vscale (/ 2) d else vzero) /\
    vsub (left_center p) (left_center q) = (if p_is_trailing_edge p then vscale (/ 2) d else vzero).
  Lemma same_panel_vertices p q : same_panel p q -> p_front_left_vortex_vertex q = p_front_left_vortex_vertex p /\ p_front_right_vortex_vertex q = p_front_right_vortex_vertex p.
  Proof.
    intros (E1 & E2 & E3 & E4 & _). unfold p_front_left_vortex_vertex, p_front_right_vortex_vertex, p_left_leg, p_right_leg. rewrite E1, E2, E3, E4. auto.
  Qed.
  Lemma still_rings d e m m' c l p q r r' : well_meshed m -> Forall2 (Forall2 same_panel) m m' -> at_position m c l p -> at_position m' c l q -> same_panel p q ->
    p_ring_vortex p = Some r -> bound_ring d m c l p r -> p_ring_vortex q = Some r' -> bound_ring e m' c l q r' -> still_pair (vsub d e) p q.
  Proof.
    intros HM FM Hp Hq HP Hr (HC & A1 & A2 & A3 & A4) Hr' (HC' & B1 & B2 & B3 & B4). destruct (same_panel_vertices _ _ HP) as [V1 V2].
    assert (HT : p_is_trailing_edge p = Nat.eqb (S c) (length m)). { destruct Hp as (row & Hrow & Hp). apply (proj2 HM c row l p Hrow Hp). }
    pose proof (Forall2_length _ _ _ FM) as L. split; [exact HP|].
    destruct HC as ((_ & _ & _ & _ & C1) & (_ & _ & _ & _ & C2) & _ & (_ & _ & _ & _ & C3) & _). destruct HC' as ((_ & _ & _ & _ & D1) & (_ & _ & _ & _ & D2) & _ & (_ & _ & _ & _ & D3) & _).
    unfold front_center, right_center, left_center. rewrite Hr, Hr', C1, C2, C3, D1, D2, D3, A1, A2, B1, B2, V1, V2. split; [reflexivity|].
    rewrite HT. destruct (Nat.eqb_spec (S c) (length m)) as [E|E].
    - destruct (A3 E) as [A5 A6]. rewrite L in E. destruct (B3 E) as [B5 B6]. rewrite A5, A6, B5, B6, A1, A2, B1, B2, V1, V2.
      destruct HP as (E1 & E2 & E3 & E4 & _). rewrite E1, E2, E3, E4. unfold midpoint. split; vunfold; apply vec_ext; cbn; field.
    - destruct (A4 E) as (q1 & Hq1 & A5 & A6). rewrite L in E. destruct (B4 E) as (q2 & Hq2 & B5 & B6).
      destruct (position_Forall2 _ _ _ _ _ _ FM Hq2) as (q1' & Hq1' & HP'). assert (q1' = q1) by (eapply position_unique; eassumption). subst q1'.
      destruct (same_panel_vertices _ _ HP') as [V3 V4]. rewrite A5, A6, B5, B6, V3, V4. split; unfold midpoint; vunfold; apply vec_ext; cbn; ring.
  Qed.
  (** Two snapshots that are the same. *)
  Lemma still_step up n s k a b sp sp' : created up -> has_run solve prescribed up n s ->
    nth_error (up_steady_problems up) k = Some a -> nth_error (up_steady_problems up) (S k) = Some b -> sp_airplanes b = sp_airplanes a ->
    step_at s k sp -> step_at s (S k) sp' -> Forall2 (still_pair (vsub (drift_at s k) (drift_at s (S k)))) (step_panels sp) (step_panels sp').
  Proof.
    intros HC HR Ha Hb E Hsp Hsp'. pose proof (steps_kept _ _ _ HC HR) as FK.
    destruct (Forall2_nth _ _ _ FK _ _ Hsp) as (a' & Ha' & Ka). assert (a' = a) by congruence. subst a'.
    destruct (Forall2_nth _ _ _ FK _ _ Hsp') as (b' & Hb' & Kb). assert (b' = b) by congruence. subst b'.
    assert (EW : step_wings b = step_wings a) by (unfold step_wings; rewrite E; reflexivity).
    pose proof (kept_step_wings _ _ Ka) as Wa. pose proof (kept_step_wings _ _ Kb) as Wb. rewrite EW in Wb.
    rewrite !panels_of_wings. apply Forall2_concat. apply Forall2_map_both. apply Forall2_of_nth.
    - rewrite <- (Forall2_length _ _ _ Wa), <- (Forall2_length _ _ _ Wb). reflexivity.
    - intros j w w' Hw Hw'. destruct (Forall2_nth _ _ _ Wa _ _ Hw) as (w0 & Hw0 & [_ F1]). destruct (Forall2_nth _ _ _ Wb _ _ Hw') as (w0' & Hw0' & [_ F2]).
      assert (w0' = w0) by congruence. subst w0'.
      assert (FM : Forall2 (Forall2 same_panel) (w_panels w) (w_panels w')).
      { eapply Forall2_compose; [| |exact F2].
        - intros x y z Hxy Hyz. eapply Forall2_compose; [exact same_panel_trans' | exact Hxy | exact Hyz].
        - apply Forall2_flip. eapply Forall2_impl; [|exact F1]. intros x y Hx. apply Forall2_flip. eapply Forall2_impl; [|exact Hx]. intros; apply same_panel_sym; assumption. }
      assert (Aw : wing_at s k j w) by (exists sp; auto). assert (Aw' : wing_at s (S k) j w') by (exists sp'; auto).
      destruct (has_run_history _ HS _ _ _ _ HC HR) as (F & up1 & conv & sa & HH). pose proof (history_ringed _ _ _ _ _ _ _ _ _ _ _ _ HH Aw) as [HM _].
      apply Forall2_concat. apply Forall2_of_nth; [exact (Forall2_length _ _ _ FM)|]. intros c row row' Hc Hc'.
      destruct (Forall2_nth _ _ _ FM _ _ Hc') as (row0 & Hc0 & FR). assert (row0 = row) by congruence. subst row0.
      apply Forall2_of_nth; [exact (Forall2_length _ _ _ FR)|]. intros l p q Hl Hl'.
      destruct (Forall2_nth _ _ _ FR _ _ Hl') as (p0 & Hl0 & HP). assert (p0 = p) by congruence. subst p0.
      assert (Pp : at_position (w_panels w) c l p) by (exists row; auto). assert (Pq : at_position (w_panels w') c l q) by (exists row'; auto).
      destruct (bound_rings _ HS _ _ _ _ _ _ _ _ _ _ HC HR Aw Pp) as (r & Hr & Br). destruct (bound_rings _ HS _ _ _ _ _ _ _ _ _ _ HC HR Aw' Pq) as (r' & Hr' & Br').
      eapply still_rings; eassumption.
  Qed.
  Lemma methods_points method point : In (method, point) flapping_methods -> exists get lasts, method = flapping_at get lasts /\ In (get, lasts, point) flapping_points.
  Proof.
    intros Hin. unfold flapping_methods in Hin. cbn [In] in Hin. destruct Hin as [H|[H|[H|[H|[]]]]]; apply pair_equal_spec in H; destruct H as [<- <-].
    - exists rr_collocation, la_collocations. split; [reflexivity | left; reflexivity].
    - exists rr_right_center, la_right_centers. split; [reflexivity | right; left; reflexivity].
    - exists rr_front_center, la_front_centers. split; [reflexivity | right; right; left; reflexivity].
    - exists rr_left_center, la_left_centers. split; [reflexivity | right; right; right; left; reflexivity].
  Qed.
  Lemma apparent_velocities up n s method point : created up -> has_run solve prescribed up (S n) s -> up_delta_time up <> 0 -> In (method, point) flapping_methods ->
    exists vs sp, method s = Ok vs /\ step_at s n sp /\ length vs = length (step_panels sp) /\ forall i v, nth_error vs i = Some v -> apparent_velocity point s n i v.
  Proof.
    intros HC HR Hdt Hin. destruct (methods_points _ _ Hin) as (get & lasts & -> & Hin'). exact (flapping_spec _ HS _ _ _ _ _ _ _ HC HR Hdt Hin').
  Qed.
  Lemma first_apparent_velocities up s method point : created up -> has_run solve prescribed up 1 s -> In (method, point) flapping_methods ->
    exists vs sp, method s = Ok vs /\ step_at s 0 sp /\ length vs = length (step_panels sp) /\ forall v, In v vs -> v = vzero.
  Proof.
    intros HC HR Hin. destruct (methods_points _ _ Hin) as (get & lasts & -> & Hin'). exact (flapping_first _ HS _ _ _ _ _ _ HC HR Hin').
  Qed.
  Definition shifted (point : panel -> vec) (d : vec) (p q : panel) : Prop :=
    vsub (point p) (point q) = vzero \/ (p_is_trailing_edge q = true /\ In point [right_center; left_center] /\ vsub (point p) (point q) = vscale (/ 2) d).
  Lemma still_velocity up k s a b method point : created up -> has_run solve prescribed up (S (S k)) s -> up_delta_time up <> 0 ->
    nth_error (up_steady_problems up) k = Some a -> nth_error (up_steady_problems up) (S k) = Some b -> sp_airplanes b = sp_airplanes a -> In (method, point) flapping_methods ->
    exists vs sp sp', method s = Ok vs /\ step_at s k sp /\ step_at s (S k) sp' /\ length vs = length (step_panels sp') /\
      Forall2 (still_pair (vsub (drift_at s k) (drift_at s (S k)))) (step_panels sp) (step_panels sp') /\
      forall i q v, nth_error (step_panels sp') i = Some q -> nth_error vs i = Some v ->
        exists p, nth_error (step_panels sp) i = Some p /\ vscale (up_delta_time up) v = vsub (point p) (point q).
  Proof.
    intros HC HR Hdt Ha Hb E Hin. destruct (apparent_velocities _ _ _ _ _ HC HR Hdt Hin) as (vs & sp' & Em & Hsp' & L & HV).
    destruct (Forall2_nth_l _ _ _ (steps_kept _ _ _ HC HR) _ _ Ha) as (sp & Hsp & _).
    exists vs, sp, sp'. split; [exact Em|]. split; [exact Hsp|]. split; [exact Hsp'|]. split; [exact L|].
    split; [exact (still_step _ _ _ _ _ _ _ _ HC HR Ha Hb E Hsp Hsp')|]. intros i q v Hq Hv. destruct (HV i v Hv) as (p & q' & (sp1 & H1 & Hp) & (sp2 & H2 & Hq') & Ev).
    assert (sp1 = sp) by (unfold step_at in *; congruence). assert (sp2 = sp') by (unfold step_at in *; congruence). subst sp1 sp2. assert (q' = q) by congruence. subst q'.
    exists p. split; [exact Hp|]. rewrite <- Ev. destruct (has_run_history _ HS _ _ _ _ HC HR) as (F & up1 & conv & sa & HH). rewrite (hi_time _ _ _ _ _ _ _ _ _ HH). reflexivity.
  Qed.
  Lemma vscale_cancel k v w : k <> 0 -> vscale k v = vscale k w -> v = w.
  Proof.
    intros Hk E. apply vec_ext; [apply (f_equal vx) in E | apply (f_equal vy) in E | apply (f_equal vz) in E]; cbn in E; apply (Rmult_eq_reg_l k); assumption.
  Qed.
  Lemma freestream_kept up n s k a : created up -> has_run solve prescribed up n s -> nth_error (up_steady_problems up) k = Some a ->
    freestream_at s k = freestream_velocity (sp_operating_point a).
  Proof.
    intros HC HR Ha. destruct (Forall2_nth_l _ _ _ (steps_kept _ _ _ HC HR) _ _ Ha) as (sp & Hsp & [EO _]). unfold freestream_at. rewrite Hsp, EO. reflexivity.
  Qed.
  (** Collocation points and front legs stay where they are. *)
  Lemma still_points up k s a b method point : created up -> has_run solve prescribed up (S (S k)) s -> up_delta_time up <> 0 ->
    nth_error (up_steady_problems up) k = Some a -> nth_error (up_steady_problems up) (S k) = Some b -> sp_airplanes b = sp_airplanes a ->
    In (method, point) [(flapping_at_collocation_points, p_collocation_point); (flapping_at_front_leg_centers, front_center)] ->
    exists vs sp, method s = Ok vs /\ step_at s (S k) sp /\ length vs = length (step_panels sp) /\ forall v, In v vs -> v = vzero.
  Proof.
    intros HC HR Hdt Ha Hb E Hin. assert (Hin' : In (method, point) flapping_methods).
    { destruct Hin as [<-|[<-|[]]]; unfold flapping_methods; cbn [In]; auto. }
    destruct (still_velocity _ _ _ _ _ _ _ HC HR Hdt Ha Hb E Hin') as (vs & sp & sp' & Em & Hsp & Hsp' & L & FS & HV).
    exists vs, sp'. split; [exact Em|]. split; [exact Hsp'|]. split; [exact L|]. intros v Hv. apply In_nth_error in Hv. destruct Hv as [i Hv].
    assert (Hi : (i < length (step_panels sp'))%nat) by (rewrite <- L; apply nth_error_Some; congruence). destruct (nth_in_range _ _ Hi) as [q Hq].
    destruct (HV i q v Hq Hv) as (p & Hp & Ev). destruct (Forall2_nth _ _ _ FS _ _ Hq) as (p' & Hp' & (HP & HF & _)). assert (p' = p) by congruence. subst p'.
    apply (vscale_cancel (up_delta_time up)); [exact Hdt|]. rewrite Ev. assert (EP : point p = point q).
    { destruct Hin as [H|[H|[]]]; apply pair_equal_spec in H; destruct H as [_ <-]; [|exact HF]. symmetry. apply (same_panel_collocation _ _ HP). }
    rewrite EP. vunfold; apply vec_ext; cbn; ring.
  Qed.
  (** The side legs of the trailing edge rings stretch with the freestream. *)
  Lemma still_legs up k s a b method point : created up -> has_run solve prescribed up (S (S k)) s -> up_delta_time up <> 0 ->
    nth_error (up_steady_problems up) k = Some a -> nth_error (up_steady_problems up) (S k) = Some b -> sp_airplanes b = sp_airplanes a ->
    In (method, point) [(flapping_at_right_leg_centers, right_center); (flapping_at_left_leg_centers, left_center)] ->
    exists vs sp, method s = Ok vs /\ step_at s (S k) sp /\
      Forall2 (fun p v => v = if p_is_trailing_edge p then vscale (/ 8) (vsub (freestream_velocity (sp_operating_point a)) (freestream_velocity (sp_operating_point b))) else vzero)
        (step_panels sp) vs.
  Proof.
    intros HC HR Hdt Ha Hb E Hin. assert (Hin' : In (method, point) flapping_methods).
    { destruct Hin as [<-|[<-|[]]]; unfold flapping_methods; cbn [In]; auto. }
    destruct (still_velocity _ _ _ _ _ _ _ HC HR Hdt Ha Hb E Hin') as (vs & sp & sp' & Em & Hsp & Hsp' & L & FS & HV).
    exists vs, sp'. split; [exact Em|]. split; [exact Hsp'|]. apply Forall2_of_nth; [symmetry; exact L|]. intros i q v Hq Hv.
    destruct (HV i q v Hq Hv) as (p & Hp & Ev). destruct (Forall2_nth _ _ _ FS _ _ Hq) as (p' & Hp' & (HP & HF & HR' & HL)). assert (p' = p) by congruence. subst p'.
    apply (vscale_cancel (up_delta_time up)); [exact Hdt|]. rewrite Ev. assert (ET : p_is_trailing_edge q = p_is_trailing_edge p) by apply HP. rewrite ET.
    unfold drift_at in HR', HL. rewrite (freestream_kept _ _ _ _ _ HC HR Ha), (freestream_kept _ _ _ _ _ HC HR Hb) in HR', HL.
    destruct (has_run_history _ HS _ _ _ _ HC HR) as (F & up1 & conv & sa & HH). rewrite (hi_time _ _ _ _ _ _ _ _ _ HH) in HR', HL.
    assert (EP : vsub (point p) (point q) = if p_is_trailing_edge p then vscale (/ 2) (vsub (vscale (25 / 100) (vscale (up_delta_time up) (freestream_velocity (sp_operating_point a)))) (vscale (25 / 100) (vscale (up_delta_time up) (freestream_velocity (sp_operating_point b))))) else vzero).
    { destruct Hin as [H|[H|[]]]; apply pair_equal_spec in H; destruct H as [_ <-]; assumption. }
    rewrite EP. destruct (p_is_trailing_edge p); unfold vscale, vsub, vzero; apply vec_ext; cbn [vx vy vz]; field.
  Qed.
  (** In a constant freestream all of them are zero. *)
  Lemma still_everywhere up k s a b method point : created up -> has_run solve prescribed up (S (S k)) s -> up_delta_time up <> 0 ->
    nth_error (up_steady_problems up) k = Some a -> nth_error (up_steady_problems up) (S k) = Some b -> sp_airplanes b = sp_airplanes a ->
    freestream_velocity (sp_operating_point b) = freestream_velocity (sp_operating_point a) -> In (method, point) flapping_methods ->
    exists vs sp, method s = Ok vs /\ step_at s (S k) sp /\ length vs = length (step_panels sp) /\ forall v, In v vs -> v = vzero.
  Proof.
    intros HC HR Hdt Ha Hb E EV Hin.
    assert (HL : In (method, point) [(flapping_at_right_leg_centers, right_center); (flapping_at_left_leg_centers, left_center)] ->
      exists vs sp, method s = Ok vs /\ step_at s (S k) sp /\ length vs = length (step_panels sp) /\ forall v, In v vs -> v = vzero).
    { intros H. destruct (still_legs _ _ _ _ _ _ _ HC HR Hdt Ha Hb E H) as (vs & sp & Em & Hsp & F2). exists vs, sp. split; [exact Em|]. split; [exact Hsp|].
      split; [symmetry; exact (Forall2_length _ _ _ F2)|]. intros v Hv. apply In_nth_error in Hv. destruct Hv as [i Hv]. destruct (Forall2_nth _ _ _ F2 _ _ Hv) as (p & _ & ->).
      destruct (p_is_trailing_edge p); [|reflexivity]. rewrite EV. vunfold; apply vec_ext; cbn; ring. }
    unfold flapping_methods in Hin. cbn [In] in Hin. destruct Hin as [H|[H|[H|[H|[]]]]].
    - apply (still_points up k s a b method point); auto. left; exact H.
    - apply HL. left; exact H.
    - apply (still_points up k s a b method point); auto. right; left; exact H.
    - apply HL. right; left; exact H.
  Qed.

  (** ** When a run fails *)
  Lemma unsolved_matrix up k s e : created up -> after solve prescribed up k s -> unsolved solve k s e ->
    exists sp A b, step_at s k sp /\ influence_matrix sp A /\ length b = length A /\ solve A b = Err e.
  Proof.
    intros HC HA (sp & rows & b & Hsp & FR & PR & Lb & Es). assert (HR : has_run solve prescribed up k s) by (left; exact HA).
    assert (FL : Forall2 row_like rows (step_panels sp)) by (apply (rows_like _ HS _ up k s k sp sp rows HC HR); [exact Hsp | apply solved_step_refl | exact FR]).
    destruct (bound_ring_list _ _ FL) as [rs Frs]. exists sp, (step_matrix rows (op_nu (sp_operating_point sp))), b. split; [exact Hsp|].
    split; [|split; [rewrite step_matrix_length; exact Lb | exact Es]]. exists rs. split; [exact Frs|]. rewrite step_matrix_explicit.
    set (nu := op_nu (sp_operating_point sp)).
    assert (ER : forall x nv, map (fun q => vdot (quad_velocity x (rr_back_right q) (rr_front_right q) (rr_front_left q) (rr_back_left q) 1 0 nu) nv) rows =
                              map (fun r => vdot (ring_velocity nu 0 x (ring_update_strength 1 r)) nv) rs).
    { intros x nv. clear -FL Frs. revert rs Frs. induction FL as [|row p rows ps (_ & r & Hr & HC & E1 & E2 & E3 & E4 & _) FL IH]; intros rs Frs; inversion Frs as [|? r' ? rs' Hr' HR' X1 X2]; subst; [reflexivity|].
      cbn [map]. rewrite (IH rs' HR'). f_equal. assert (r' = r) by congruence. subst r'.
      rewrite (ring_velocity_quad nu 0 x (ring_update_strength 1 r) (update_strength_consistent 1 r HC)), E1, E2, E3, E4. reflexivity. }
    assert (GEN : forall (f g : vec -> vec -> list R) rows ps, Forall2 row_like rows ps -> (forall x nv, g x nv = f x nv) ->
      map (fun r => g (rr_collocation r) (rr_normal r)) rows = map (fun p => f (p_collocation_point p) (p_unit_normal p)) ps).
    { clear. intros f g rows ps FL ER. induction FL as [|row p rows ps (HP & _) FL IH]; [reflexivity|]. cbn [map]. rewrite IH, ER. destruct (same_panel_collocation _ _ HP) as [-> ->]. reflexivity. }
    exact (GEN (fun x nv => map (fun r => vdot (ring_velocity nu 0 x (ring_update_strength 1 r)) nv) rs)
               (fun x nv => map (fun q => vdot (quad_velocity x (rr_back_right q) (rr_front_right q) (rr_front_left q) (rr_back_left q) 1 0 nu) nv) rows) rows _ FL ER).
  Qed.
  Lemma run_outcome up lines s0 : created up -> unsteady_new up = Ok s0 ->
    (exists s, unsteady_run solve prescribed lines s0 = Ok s) \/
    exists k s sp A b e, after solve prescribed up k s /\ step_at s k sp /\ influence_matrix sp A /\ length b = length A /\ solve A b = Err e /\
      unsteady_run solve prescribed lines s0 = Err e.
  Proof.
    intros HC E0. destruct (run_total _ HS prescribed lines up s0 HC E0) as [H|(k & s & e & Hk & HA & HU & E)]; [left; exact H|]. right.
    destruct (unsolved_matrix _ _ _ _ HC HA HU) as (sp & A & b & H1 & H2 & H3 & H4). exists k, s, sp, A, b, e. auto 8.
  Qed.
End Still.
