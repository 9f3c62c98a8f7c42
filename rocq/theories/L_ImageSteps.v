(** The geometry of the time steps of an unsteady run and of its image. *)
From Coq Require Import List ZArith Lia Lra Reals Bool Permutation.
From Verif Require Import M_Unsteady S_Solve S_Geometry S_Vortices S_Loads S_Mirror S_Rigid
  L_Base L_Rotations L_Loads L_Aero L_Horseshoe L_SteadyRing L_RingLegs L_Frames L_Geometry L_Problems L_Mirror L_MirrorHorseshoe L_MirrorRing L_Rigid
  L_Wake L_WakeWings L_Unsteady L_UnsteadyStep L_UnsteadyRun L_UnsteadyFinal L_UnsteadyProps L_UnsteadyProps2 L_UnsteadyFlow L_UnsteadyStill L_UnsteadyLoads
  S_Unsteady S_UnsteadyRun S_Image L_Pairs L_ImageGeometry L_ImagePlaces.
Import ListNotations.
Local Open Scope R_scope.
Local Open Scope list_scope.

Lemma Forall2_four {A A1 B B1} (R : A -> A1 -> Prop) (R' : B -> B1 -> Prop) (P : A -> B -> Prop) (Q : A1 -> B1 -> Prop) l l' l1 l1' :
  (forall x x' y y', R x y -> R' x' y' -> P x x' -> Q y y') -> Forall2 R l l1 -> Forall2 R' l' l1' -> Forall2 P l l' -> Forall2 Q l1 l1'.
Proof.
  intros H F1 F2 F. revert l1 l1' F1 F2. induction F as [|x x' l l' HP F IH]; intros l1 l1' F1 F2; inversion F1; subst; inversion F2; subst; constructor; eauto.
Qed.
Lemma rows_image_replace {A A1 B B1} (R : A -> A1 -> Prop) (R' : B -> B1 -> Prop) (P : A -> B -> Prop) (Q : A1 -> B1 -> Prop) (k : bool) l l' l1 l1' :
  (forall x x' y y', R x y -> R' x' y' -> P x x' -> Q y y') -> Forall2 (Forall2 R) l l1 -> Forall2 (Forall2 R') l' l1' -> rows_image k P l l' -> rows_image k Q l1 l1'.
Proof.
  intros H F1 F2 F. unfold rows_image in *. revert F1 F2 F. apply Forall2_four. intros r r' q q' G1 G2 G. apply (Forall2_four R R' P Q r (if k then r' else rev r')); auto.
  destruct k; [exact G2 | apply Forall2_rev; exact G2].
Qed.
Lemma last_Forall2 {A B} (R : A -> B -> Prop) l l' d d' : Forall2 R l l' -> R d d' -> R (last l d) (last l' d').
Proof.
  intros F H. induction F as [|x y l l' Hxy F IH]; [exact H|]. destruct F as [|x2 y2 l l' H2 F]; [exact Hxy | exact IH].
Qed.
Lemma kept_trailing w w1 : kept_wing w w1 -> Forall2 same_panel (trailing_panels w) (trailing_panels w1).
Proof. intros [_ F]. unfold trailing_panels. apply last_Forall2; [exact F | constructor]. Qed.
Lemma joined_same row row1 : Forall2 same_panel row row1 -> joined row -> joined row1.
Proof.
  intros F H s p q Hp Hq. destruct (Forall2_nth _ _ _ F _ _ Hp) as (p0 & Hp0 & (A1 & A2 & A3 & A4 & _)). destruct (Forall2_nth _ _ _ F _ _ Hq) as (q0 & Hq0 & (B1 & B2 & B3 & B4 & _)).
  destruct (H s p0 q0 Hp0 Hq0) as [E1 E2]. split; congruence.
Qed.
Lemma wing_image_kept m t k w w' w1 w1' : kept_wing w w1 -> kept_wing w' w1' -> wing_image m t k w w' -> wing_image m t k w1 w1'.
Proof.
  intros K K' (H1 & H2 & H3). pose proof (kept_trailing _ _ K) as FT. split; [|split].
  - revert H1. apply (rows_image_replace same_panel same_panel); [|exact (proj2 K) | exact (proj2 K')]. intros x x' y y'. apply panel_image_same.
  - intros E. rewrite E in FT. inversion FT. congruence.
  - intros Ek. exact (joined_same _ _ FT (H3 Ek)).
Qed.
Lemma image_kept pr m t (W V : bool -> wing -> wing -> Prop) l l' l1 l1' : Forall2 kept_airplane l l1 -> Forall2 kept_airplane l' l1' ->
  (forall k w w' w1 w1', kept_wing w w1 -> kept_wing w' w1' -> W k w w' -> V k w1 w1') -> airplanes_image m t pr W l l' -> airplanes_image m t pr V l1 l1'.
Proof.
  intros F F' HV (L & Inj & T). pose proof (Forall2_length _ _ _ F) as Ln. pose proof (Forall2_length _ _ _ F') as Ln'.
  split; [lia|]. split; [rewrite <- Ln; exact Inj|]. intros k a1 Ha1. destruct (Forall2_nth _ _ _ F _ _ Ha1) as (a & Ha & (FW & _ & E1 & _ & E2 & E3 & E4 & _)).
  destruct (T k a Ha) as (a' & Ha' & G1 & G2 & G3 & G4 & (M & MI & MT)). destruct (Forall2_nth_l _ _ _ F' _ _ Ha') as (a1' & Ha1' & (FW' & _ & E1' & _ & E2' & E3' & E4' & _)).
  pose proof (Forall2_length _ _ _ FW) as Mn. pose proof (Forall2_length _ _ _ FW') as Mn'.
  exists a1'. split; [exact Ha1'|]. split; [congruence|]. split; [congruence|]. split; [congruence|]. split; [congruence|]. split; [lia|]. split; [rewrite <- Mn; exact MI|].
  intros i w1 Hw1. destruct (Forall2_nth _ _ _ FW _ _ Hw1) as (w & Hw & K). destruct (MT i w Hw) as (w' & Hw' & HW).
  destruct (Forall2_nth_l _ _ _ FW' _ _ Hw') as (w1' & Hw1' & K'). exists w1'. split; [exact Hw1'|]. exact (HV _ _ _ _ _ K K' HW).
Qed.

(** ** Rows of vertices along a trailing edge *)
Section Trailing.
Context {A : Type} (bl br : A -> vec).
Definition edge (row : list A) : list vec := map bl row ++ [last (map br row) vzero].
Lemma edge_joined x row : (forall s p q, nth_error (x :: row) s = Some p -> nth_error (x :: row) (S s) = Some q -> br p = bl q) -> edge (x :: row) = bl x :: map br (x :: row).
Proof.
  unfold edge. revert x. induction row as [|y row IH]; intros x H; [reflexivity|]. pose proof (IH y (fun s => H (S s))) as E. pose proof (H 0%nat x y eq_refl eq_refl) as Exy.
  change (map br (x :: y :: row)) with (br x :: map br (y :: row)). change (map bl (x :: y :: row) ++ [last (br x :: map br (y :: row)) vzero]) with (bl x :: (map bl (y :: row) ++ [last (map br (y :: row)) vzero])).
  rewrite E, Exy. reflexivity.
Qed.
End Trailing.
Lemma last_snoc {A} (l : list A) x d : last (l ++ [x]) d = x.
Proof. induction l as [|y l IH]; [reflexivity|]. cbn [app]. destruct (l ++ [x]) eqn:E; [destruct l; discriminate|]. rewrite <- IH. reflexivity. Qed.
Lemma edge_image {A B} (bl br : A -> vec) (bl' br' : B -> vec) (f : vec -> vec) (k : bool) row row' : row <> [] ->
  Forall2 (fun p p' => bl' p' = f (pick k (bl p) (br p)) /\ br' p' = f (pick k (br p) (bl p))) row (if k then row' else rev row') ->
  (k = false -> forall s p q, nth_error row s = Some p -> nth_error row (S s) = Some q -> br p = bl q) ->
  Forall2 (fun v v' => v' = f v) (edge bl br row) (if k then edge bl' br' row' else rev (edge bl' br' row')).
Proof.
  intros HN F HJ. destruct k; cbn [pick] in F.
  - destruct (exists_last HN) as (l & x & ->). apply Forall2_app_inv_l in F. destruct F as (l' & lx & F & Fx & ->). inversion Fx as [|? x' ? ? [E1 E2] Fn]; subst. inversion Fn; subst.
    unfold edge. rewrite !map_app. cbn [map]. rewrite !last_snoc. apply Forall2_app; [|repeat constructor; exact E2]. apply Forall2_app; [|repeat constructor; exact E1].
    clear -F. induction F as [|p p' l l' [E _] F IH]; constructor; auto.
  - specialize (HJ eq_refl). assert (exists R, rev row' = R /\ row' = rev R) as (R & ER & ->) by (exists (rev row'); rewrite rev_involutive; auto). rewrite ER in F. clear ER.
    destruct row as [|x row]; [congruence|]. rewrite (edge_joined bl br x row HJ). inversion F as [|? x' ? R' [E1 E2] F' X1 X2]; subst. clear F HJ HN. unfold edge. cbn [rev].
    rewrite !map_app. cbn [map]. rewrite last_snoc, rev_app_distr. cbn [rev app]. rewrite rev_app_distr. cbn [rev app]. rewrite <- map_rev, rev_involutive.
    constructor; [exact E2|]. constructor; [exact E1|]. clear -F'. induction F' as [|p p' l l' [E _] F IH]; constructor; auto.
Qed.

(** ** Ring vortices of the image *)
Lemma image_drift mirror m op op' dt : isometric mirror m -> flow_image mirror m op op' ->
  vscale (25 / 100) (vscale dt (freestream_velocity op')) = mvmul m (vscale (25 / 100) (vscale dt (freestream_velocity op))).
Proof. intros HI HF. rewrite (image_freestream mirror m HI op op' HF), !mvmul_scale. reflexivity. Qed.
Lemma moved_back m t f a b d : vadd (vadd (moved m t f) (vsub (moved m t a) (moved m t b))) (mvmul m d) = moved m t (vadd (vadd f (vsub a b)) d).
Proof. unfold moved. vring. Qed.
Lemma image_bound_ring m t (k : bool) drift ps ps' c s p p' r r' : rows_image k (panel_image m t k) ps ps' ->
  at_position ps c s p -> (exists row, nth_error ps c = Some row /\ nth_error ps' c <> None /\ at_position ps' c (column_of k (length row) s) p') ->
  (forall row row1, nth_error ps c = Some row -> nth_error ps (S c) = Some row1 -> length row1 = length row) ->
  bound_ring drift ps c s p r -> bound_ring (mvmul m drift) ps' c (match nth_error ps c with Some row => column_of k (length row) s | None => s end) p' r' -> ring_image m t k r r'.
Proof.
  intros HR (row & Hc & Hs) (row0 & Hc0 & _ & (row' & Hc' & Hs')) HL (C & E1 & E2 & ET & EI) (C' & E1' & E2' & ET' & EI'). assert (X : row0 = row) by congruence. subst row0. clear Hc0.
  rewrite Hc in EI'. destruct (rows_image_pos _ _ _ _ _ _ HR Hc) as (row1 & Hc1 & Lr & Hp). assert (X : row1 = row') by congruence. subst row1. clear Hc1.
  destruct (Hp s p Hs) as (p1 & Hp1 & HP). assert (X : p1 = p') by congruence. subst p1. clear Hp1. destruct (image_vertices _ _ _ _ _ HP) as [V1 V2].
  pose proof (Forall2_length _ _ _ HR) as Ln. split; [exact C|]. split; [exact C'|]. rewrite E1', E2', E1, E2. split; [exact V1|]. split; [exact V2|].
  destruct (Nat.eq_dec (S c) (length ps)) as [Et|Ei].
  - destruct (ET Et) as [T1 T2]. destruct (ET' ltac:(congruence)) as [T1' T2']. rewrite T1, T2, T1', T2', E1, E2, E1', E2', V1, V2. destruct (panel_image_corners _ _ _ _ _ HP) as (K1 & K2 & K3 & K4). rewrite K1, K2, K3, K4.
    destruct k; cbn [pick]; rewrite !moved_back; auto.
  - destruct (EI Ei) as (q & (rq & Hq1 & Hq2) & B1 & B2). destruct (EI' ltac:(congruence)) as (q' & (rq' & Hq1' & Hq2') & B1' & B2').
    rewrite B1, B2, B1', B2'. destruct (rows_image_pos _ _ _ _ _ _ HR Hq1) as (rq1 & X1 & _ & Hpq). assert (X : rq1 = rq') by congruence. subst rq1. clear X1.
    destruct (Hpq s q Hq2) as (q1 & Hq1x & HPq). rewrite (HL _ _ Hc Hq1) in Hq1x. assert (X : q1 = q') by congruence. subst q1. exact (image_vertices _ _ _ _ _ HPq).
Qed.

Lemma trailing_joined m drift row : joined row -> (forall s p, nth_error row s = Some p -> exists r, p_ring_vortex p = Some r /\ bound_ring drift m (length m - 1) s p r) -> (0 < length m)%nat ->
  forall s p q, nth_error row s = Some p -> nth_error row (S s) = Some q -> back_right_of p = back_left_of q.
Proof.
  intros HJ HB Hm s p q Hp Hq. destruct (HB s p Hp) as (r & Hr & (_ & _ & E2 & ET & _)). destruct (HB (S s) q Hq) as (r' & Hr' & (_ & E1' & _ & ET' & _)).
  destruct (HJ s p q Hp Hq) as [J1 J2]. unfold back_right_of, back_left_of. rewrite Hr, Hr'. destruct (ET ltac:(lia)) as [_ ->]. destruct (ET' ltac:(lia)) as [-> _].
  rewrite E2, E1'. unfold p_front_right_vortex_vertex, p_front_left_vortex_vertex, p_right_leg, p_left_leg. rewrite J1, J2. clear. vunfold. apply vec_ext; cbn; lra.
Qed.

Section Steps.
Context (solve : list (list R) -> list R -> result (list R)) (HS : SolveSpec solve) (prescribed mirror : bool) (m : mat) (t : vec) (HI : isometric mirror m) (pr : pairing).
Context (up up' : unsteady_problem) (HC : created up) (HC' : created up') (HP : problem_image mirror m t pr up up').
Context (F F' : list (list (nat * nat))) (HM : meshed_problem F up) (HM' : meshed_problem F' up').
Notation mv := (moved m t).
Notation lin := (mvmul m).
Notation sg := (sense mirror).

Lemma layout_unique (F1 F2 : list (list (nat * nat))) u : meshed_problem F1 u -> meshed_problem F2 u -> F1 = F2.
Proof.
  intros H1 H2. pose proof (mp_some _ _ H1) as L. destruct (nth_in_range (up_steady_problems u) 0 L) as [sp Hsp]. apply nth_error_In in Hsp.
  rewrite <- (proj1 (mp_steps _ _ H1 sp Hsp)). apply (proj1 (mp_steps _ _ H2 sp Hsp)).
Qed.
Lemma step_ready u G n s k sp : created u -> meshed_problem G u -> has_run solve prescribed u n s -> step_at s k sp -> ready_step G sp.
Proof.
  intros C M R Hsp. destruct (has_run_history _ HS _ _ _ _ C R) as (F0 & up1 & conv & sa & H). pose proof (layout_unique _ _ _ (hi_meshed _ _ _ _ _ _ _ _ _ H) M) as E. subst F0.
  unfold step_at in Hsp. rewrite (hi_steps _ _ _ _ _ _ _ _ _ H) in Hsp. pose proof (hi_ran _ _ _ _ _ _ _ _ _ H) as RR.
  destruct (Forall2_nth _ _ _ (ri_kept _ _ _ _ (rn_inv _ _ _ _ _ _ _ _ RR)) _ _ Hsp) as (q1 & H1 & S1).
  exact (solved_ready _ _ _ S1 (rp_steps _ _ (rn_ready _ _ _ _ _ _ _ _ RR) q1 (nth_error_In _ _ H1))).
Qed.
Lemma ready_gridded G sp : ready_step G sp -> Forall gridded (sp_airplanes sp) /\ Forall (fun a => Forall ringed_wing (a_wings a)) (sp_airplanes sp).
Proof.
  intros (_ & H & _). unfold step_wings in H. apply Forall_concat in H. rewrite Forall_map in H. split; [|exact H]. eapply Forall_impl; [|exact H]. intros a Ha. unfold gridded.
  eapply Forall_impl; [|exact Ha]. intros w (_ & _ & W & _). exact W.
Qed.

(** What relates two steps, whatever has been solved. *)
Definition ringed_image (k : bool) (p p' : panel) : Prop :=
  panel_image m t k p p' /\ exists r r', p_ring_vortex p = Some r /\ p_ring_vortex p' = Some r' /\ ring_image m t k r r'.
Definition edge_images (k : bool) (w w' : wing) : Prop :=
  Forall2 (fun v v' => v' = mv v) (trailing_vertices w) (if k then trailing_vertices w' else rev (trailing_vertices w')).
Record geo (sp sp' : steady_problem) : Prop := {
  ge_flow : flow_image mirror m (sp_operating_point sp) (sp_operating_point sp');
  ge_ready : ready_step F sp;
  ge_ready' : ready_step F' sp';
  ge_wings : airplanes_image m t pr (wing_image m t) (sp_airplanes sp) (sp_airplanes sp');
  ge_rings : airplanes_image m t pr (fun k w w' => rows_image k (ringed_image k) (w_panels w) (w_panels w')) (sp_airplanes sp) (sp_airplanes sp');
  ge_edges : airplanes_image m t pr edge_images (sp_airplanes sp) (sp_airplanes sp') }.

Lemma at_wing_flat l x w : at_wing l x w -> exists i, nth_error (concat (map a_wings l)) i = Some w.
Proof.
  intros (a & Ha & Hw). apply In_nth_error. apply in_concat. exists (a_wings a). split; [apply in_map; exact (nth_error_In _ _ Ha) | exact (nth_error_In _ _ Hw)].
Qed.
Lemma steps_geo n n' s s' k sp sp' : has_run solve prescribed up n s -> has_run solve prescribed up' n' s' -> step_at s k sp -> step_at s' k sp' -> geo sp sp'.
Proof.
  intros R R' Hsp Hsp'.
  destruct (Forall2_nth _ _ _ (steps_kept _ HS _ _ _ _ HC R) _ _ Hsp) as (sp0 & H0 & [O0 K0]). destruct (Forall2_nth _ _ _ (steps_kept _ HS _ _ _ _ HC' R') _ _ Hsp') as (sp0' & H0' & [O0' K0']).
  destruct (Forall2_nth_l _ _ _ (pi_steps _ _ _ _ _ _ HP) _ _ H0) as (sp1 & H1 & [FI AI]). assert (X : sp1 = sp0') by congruence. subst sp1. clear H1.
  assert (GW : airplanes_image m t pr (wing_image m t) (sp_airplanes sp) (sp_airplanes sp')).
  { revert AI. apply image_kept; [exact K0 | exact K0' | intros; eapply wing_image_kept; eassumption]. }
  assert (GF : flow_image mirror m (sp_operating_point sp) (sp_operating_point sp')) by (rewrite O0, O0'; exact FI).
  pose proof (step_ready _ _ _ _ _ _ HC HM R Hsp) as RD. pose proof (step_ready _ _ _ _ _ _ HC' HM' R' Hsp') as RD'.
  destruct (ready_gridded _ _ RD) as [GR RW]. destruct (ready_gridded _ _ RD') as [GR' RW'].
  destruct (has_run_history _ HS _ _ _ _ HC R) as (Fa & upa & conva & sa & HH). destruct (has_run_history _ HS _ _ _ _ HC' R') as (Fb & upb & convb & sb & HH').
  assert (ED : drift_at s' k = lin (drift_at s k)).
  { unfold drift_at, freestream_at. unfold step_at in Hsp, Hsp'. rewrite Hsp, Hsp', (hi_time _ _ _ _ _ _ _ _ _ HH), (hi_time _ _ _ _ _ _ _ _ _ HH'), (pi_time _ _ _ _ _ _ HP). exact (image_drift mirror m _ _ _ HI GF). }
  assert (GB : forall x w w', at_wing (sp_airplanes sp) x w -> at_wing (sp_airplanes sp') (wimage pr x) w' -> wing_image m t (wkeeps pr x) w w' ->
    rows_image (wkeeps pr x) (ringed_image (wkeeps pr x)) (w_panels w) (w_panels w')).
  { intros x w w' Hw Hw' (W1 & W2 & W3). destruct (at_wing_flat _ _ _ Hw) as [i Hi]. destruct (at_wing_flat _ _ _ Hw') as [i' Hi'].
    destruct Hw as (a & Ha & Hw). destruct Hw' as (a' & Ha' & Hw'). pose proof (proj1 (Forall_forall _ _) (proj1 (Forall_forall _ _) GR a (nth_error_In _ _ Ha)) w (nth_error_In _ _ Hw)) as [L G].
    apply rows_image_intro; [exact (Forall2_length _ _ _ W1)|]. intros c row row' Hc Hc'. destruct (rows_image_pos _ _ _ _ _ _ W1 Hc) as (row1 & Hc1 & Lr & Hpp).
    assert (X : row1 = row') by congruence. subst row1. split; [exact Lr|]. intros c1 p p' Hs Hs'. destruct (Hpp c1 p Hs) as (p1 & Hp1 & HPI). assert (X : p1 = p') by congruence. subst p1.
    destruct (bound_rings _ HS _ up n s k i w c c1 p HC R) as (r & Hr & HB); [exists sp; auto | exists row; auto|].
    destruct (bound_rings _ HS _ up' n' s' k i' w' c (column_of (wkeeps pr x) (length row) c1) p' HC' R') as (r' & Hr' & HB'); [exists sp'; auto | exists row'; auto|].
    split; [exact HPI|]. exists r, r'. split; [exact Hr|]. split; [exact Hr'|]. rewrite ED in HB'.
    apply (image_bound_ring m t (wkeeps pr x) (drift_at s k) (w_panels w) (w_panels w') c c1 p p' r r' W1); [exists row; auto | | | exact HB | rewrite Hc; exact HB'].
    - exists row. split; [exact Hc|]. split; [congruence|]. exists row'. auto.
    - intros ra rb Ea Eb. rewrite (proj1 (Forall_forall _ _) G ra (nth_error_In _ _ Ea)), (proj1 (Forall_forall _ _) G rb (nth_error_In _ _ Eb)). reflexivity. }
  constructor; try assumption.
  - apply (image_impl pr m t _ _ _ _ GW). exact GB.
  - apply (image_impl pr m t _ _ _ _ GW). intros x w w' Hw Hw' HW. pose proof (GB x w w' Hw Hw' HW) as GBw. destruct HW as (W1 & W2 & W3).
    destruct (at_wing_flat _ _ _ Hw) as [i Hi]. destruct Hw as (a & Ha & Hw). destruct Hw' as (a' & Ha' & Hw').
    pose proof (proj1 (Forall_forall _ _) (proj1 (Forall_forall _ _) RW a (nth_error_In _ _ Ha)) w (nth_error_In _ _ Hw)) as RWw. cbn beta in RWw.
    pose proof (proj1 (Forall_forall _ _) (proj1 (Forall_forall _ _) RW' a' (nth_error_In _ _ Ha')) w' (nth_error_In _ _ Hw')) as RWw'. cbn beta in RWw'.
    destruct (trailing_row_at w RWw) as [Tr _]. destruct RWw as (_ & N1 & [L _] & _). destruct RWw' as (_ & N1' & [L' _] & _).
    apply (edge_image back_left_of back_right_of back_left_of back_right_of mv (wkeeps pr x) (trailing_panels w) (trailing_panels w') W2).
    + assert (FT : Forall2 (ringed_image (wkeeps pr x)) (trailing_panels w) (if wkeeps pr x then trailing_panels w' else rev (trailing_panels w'))).
      { unfold trailing_panels. pose proof (last_Forall2 _ _ _ [] [] GBw) as FL. cbn beta in FL. apply FL. destruct (wkeeps pr x); constructor. }
      eapply Forall2_impl; [|exact FT]. intros p p' (_ & r & r' & Hr & Hr' & (_ & _ & _ & _ & E3 & E4)). unfold back_left_of, back_right_of. rewrite Hr, Hr', E3, E4. split; reflexivity.
    + intros Ek. apply (trailing_joined (w_panels w) (drift_at s k)); [exact (W3 Ek) | | lia]. intros s1 p Hp.
      apply (bound_rings _ HS _ up n s k i w _ s1 p HC R); [exists sp; auto|]. exists (trailing_panels w). split; [|exact Hp]. rewrite L. exact Tr.
Qed.
Lemma geo_layout sp sp' : geo sp sp' -> lay_image pr F F'.
Proof.
  intros [G1 G2 G3 G4 G5 G6]. destruct (ready_gridded _ _ G2) as [A1 A2]. destruct (ready_gridded _ _ G3) as [B1 _]. rewrite <- (proj1 G2), <- (proj1 G3).
  apply (image_layout pr m t); [exact A1 | exact B1 | |].
  - eapply Forall_impl; [|exact A2]. intros a Ha. eapply Forall_impl; [|exact Ha]. intros w (_ & W & _). exact W.
  - apply (image_impl pr m t _ _ _ _ G4). intros x w w' _ _ (W & _). revert W. apply rows_image_impl. auto.
Qed.
End Steps.
