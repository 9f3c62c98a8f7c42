(** A case can be solved exactly when its vortices are distinguishable. *)
From Coq Require Import List ZArith Lia Lra Bool Reals.
From Verif Require Import M_Unsteady M_SteadyRing M_Horseshoe S_Unsteady S_UnsteadyRun S_Geometry S_Vortices S_Loads S_Solve S_Solvable L_Base L_Loads L_Aero L_Horseshoe L_SteadyRing L_RingLegs L_Geometry L_Frames L_Mirror L_Gauss L_Dominant
  L_UnsteadyRun L_UnsteadyFinal L_UnsteadyProps L_UnsteadyProps2 L_UnsteadyFlow L_UnsteadyStill L_UnsteadyStep L_Wake L_ImageRun L_Unsteady.
Import ListNotations.
Local Open Scope R_scope.

(** ** Matrices *)
Lemma map2_map_l {A B C D} (f : B -> C -> D) (g : A -> B) l : forall m, map2 f (map g l) m = map2 (fun a c => f (g a) c) l m.
Proof. induction l as [|a l IH]; intros [|c m]; cbn; [reflexivity..|]. rewrite IH. reflexivity. Qed.
Lemma all_zero l : (forall g, In g l -> g = 0) <-> l = repeat 0 (length l).
Proof.
  split.
  - induction l as [|g l IH]; cbn; intros H; [reflexivity|]. rewrite (H g) by auto. f_equal. apply IH. auto.
  - intros E g Hg. rewrite E in Hg. exact (repeat_spec _ _ _ Hg).
Qed.
Lemma kernel_felt ps vs : length vs = length ps -> trivial_kernel (map (fun p => map (felt p) vs) ps) <-> distinguishable ps vs.
Proof.
  intros L. unfold trivial_kernel, distinguishable, solves. rewrite map_length.
  assert (HM : forall gs, matvec (map (fun p => map (felt p) vs) ps) gs = repeat 0 (length ps) <-> forall p, In p ps -> rsum (map2 (fun v g => felt p v * g) vs gs) = 0).
  { intros gs. unfold matvec. rewrite map_map. rewrite <- (map_length (fun p => rsum (map2 Rmult (map (felt p) vs) gs)) ps) at 1. rewrite <- all_zero. split.
    - intros H p Hp. rewrite <- (map2_map_l Rmult (felt p)). apply H. apply in_map_iff. eauto.
    - intros H g Hg. apply in_map_iff in Hg. destruct Hg as (p & <- & Hp). rewrite map2_map_l. apply H, Hp. }
  split; intros H gs.
  - intros Lg Hz g Hg. assert (E : gs = repeat 0 (length ps)) by (apply H; split; [congruence | apply HM; exact Hz]). rewrite E in Hg. exact (repeat_spec _ _ _ Hg).
  - intros [Lg Hz]. rewrite <- Lg. apply all_zero. apply H; [congruence | apply HM; exact Hz].
Qed.
Lemma square_felt ps vs : length vs = length ps -> square (map (fun p => map (felt p) vs) ps).
Proof. intros L row Hrow. apply in_map_iff in Hrow. destruct Hrow as (p & <- & _). rewrite !map_length. exact L. Qed.
Lemma solvable_felt solve ps vs b : SolveSpec solve -> length vs = length ps -> length b = length ps ->
  (exists x, solve (map (fun p => map (felt p) vs) ps) b = Ok x) <-> distinguishable ps vs.
Proof. intros HS L Lb. rewrite <- kernel_felt by exact L. apply solvable_iff; [exact HS | apply square_felt, L | rewrite map_length; exact Lb]. Qed.

(** ** Paths *)
Lemma felt_closed p a b c d : felt p (closed_path a b c d) = vdot (quad_velocity (p_collocation_point p) a b c d 1 0 0) (p_unit_normal p).
Proof. unfold felt, closed_path, quad_velocity. cbn [map fst snd]. rewrite !vsum_cons. change (vsum []) with vzero. f_equal. rewrite vadd_0_r, !vadd_assoc. reflexivity. Qed.
Lemma felt_open p a b c d : felt p (open_path a b c d) = vdot (shoe_velocity (p_collocation_point p) a b c d 1 0 0) (p_unit_normal p).
Proof. unfold felt, open_path, shoe_velocity. cbn [map fst snd]. rewrite !vsum_cons. change (vsum []) with vzero. f_equal. rewrite vadd_0_r, !vadd_assoc. reflexivity. Qed.
Lemma felt_app p v w : felt p (v ++ w) = felt p v + felt p w.
Proof. unfold felt. rewrite map_app, vsum_app, vdot_add_l. reflexivity. Qed.
Lemma felt_nil p : felt p [] = 0.
Proof. unfold felt. cbn [map]. change (vsum []) with vzero. vunfold. ring. Qed.
Lemma felt_same p q v : same_panel p q -> felt q v = felt p v.
Proof. intros H. unfold felt. destruct (same_panel_collocation _ _ H) as [-> ->]. reflexivity. Qed.
Lemma line_velocity_nu x a b g nu nu' : line_velocity x a b g 0 nu = line_velocity x a b g 0 nu'.
Proof. unfold line_velocity. rewrite !core_radius_age0. reflexivity. Qed.
Lemma quad_velocity_nu x a b c d g nu nu' : quad_velocity x a b c d g 0 nu = quad_velocity x a b c d g 0 nu'.
Proof. unfold quad_velocity. rewrite !(line_velocity_nu _ _ _ _ nu nu'). reflexivity. Qed.

(** ** Walks over panels *)
Lemma panels_of_all l : panels_of l = all_panels l.
Proof.
  unfold panels_of, wings_of, all_panels, airplane_panels. induction l as [|a l IH]; [reflexivity|]. cbn [map concat]. rewrite map_app, concat_app, IH. reflexivity.
Qed.
Lemma walk_flat {A} (f : wing -> panel -> A) l :
  concat (map (fun w => map (f w) (concat (w_panels w))) (wings_of l)) = map (fun awp => f (snd (fst awp)) (snd awp)) (flat_panels l).
Proof.
  unfold wings_of, flat_panels, ravel. induction l as [|a l IH]; [reflexivity|]. cbn [map concat]. rewrite map_app, concat_app, IH, map_app. f_equal.
  clear. induction (a_wings a) as [|w ws IH]; [reflexivity|]. cbn [map concat]. rewrite map_app, IH, map_map. reflexivity.
Qed.
Lemma numbered_nth {A} (l : list A) i : nth_error (numbered l) i = option_map (fun x => (i, x)) (nth_error l i).
Proof.
  unfold numbered. assert (G : forall (l : list A) k i, nth_error (combine (seq k (length l)) l) i = option_map (fun x => (k + i, x)%nat) (nth_error l i)).
  { clear. induction l as [|a l IH]; intros k [|i]; cbn [length seq combine nth_error option_map]; [reflexivity | reflexivity | rewrite Nat.add_0_r; reflexivity|].
    rewrite IH. destruct (nth_error l i); cbn; [|reflexivity]. do 2 f_equal. lia. }
  rewrite G. reflexivity.
Qed.
Lemma numbered_rel {A B} (P : A -> nat * B -> Prop) l m : length l = length m -> (forall i x y, nth_error l i = Some x -> nth_error m i = Some y -> P x (i, y)) -> Forall2 P l (numbered m).
Proof.
  intros L H. apply Forall2_from_nth; [unfold numbered; rewrite combine_length, seq_length; lia|]. intros i x y Hx Hy. rewrite numbered_nth in Hy.
  destruct (nth_error m i) as [z|] eqn:Ez; [|discriminate]. cbn in Hy. apply Some_eq in Hy. subst y. apply H; assumption.
Qed.
Lemma mesh_rel {A} (R : panel -> panel -> Prop) (P : panel -> A -> Prop) (f : nat -> nat -> panel -> A) m0 m : Forall2 (Forall2 R) m0 m ->
  (forall c j p0 p, at_position m0 c j p0 -> at_position m c j p -> P p (f c j p0)) -> Forall2 P (concat m) (on_mesh f m0).
Proof.
  intros HR H. unfold on_mesh. apply Forall2_concat. 
  assert (F : Forall2 (fun row nrow => Forall2 P row (map (fun p => f (fst nrow) (fst p) (snd p)) (numbered (snd nrow)))) m (numbered m0)).
  { apply numbered_rel; [symmetry; exact (Forall2_length _ _ _ HR)|]. intros c row row0 Hr Hr0. cbn [fst snd].
    destruct (Forall2_nth _ _ _ HR _ _ Hr) as (row0' & Hr0' & HRr). assert (row0' = row0) by congruence. subst row0'.
    assert (G : Forall2 (fun p np => P p (f c (fst np) (snd np))) row (numbered row0)).
    { apply numbered_rel; [symmetry; exact (Forall2_length _ _ _ HRr)|]. intros j p p0 Hp Hp0. apply H; [exists row0 | exists row]; auto. }
    clear -G. induction G; cbn [map]; constructor; assumption. }
  clear -F. induction F; cbn [map]; constructor; assumption.
Qed.

(** ** The horseshoe solver *)
Lemma horseshoe_solvable solve airplanes op : SolveSpec solve ->
  (exists s, hs_run solve (hs_new airplanes op) = Ok s) <-> distinguishable (panels_of airplanes) (horseshoe_paths op airplanes).
Proof.
  intros HS. rewrite (hs_run_succeeds_iff _ _ HS). cbn [hs_new hso_op hso_airplanes hso_freestream]. set (rows := hs_rows_of op airplanes).
  assert (E : hs_influences rows = map (fun p => map (felt p) (horseshoe_paths op airplanes)) (panels_of airplanes)).
  { rewrite hs_influences_explicit. unfold rows, hs_rows_of, horseshoe_paths. rewrite walk_flat, panels_of_all, <- flat_panels_snd, !map_map.
    apply map_ext. intros [[a w] p]. rewrite !map_map. apply map_ext. intros [[a' w'] q]. cbn [fst snd]. unfold horseshoe_path. rewrite felt_open. unfold hs_row_velocity.
    rewrite (Rmult_comm 20). reflexivity. }
  rewrite E. apply solvable_felt; [exact HS | unfold horseshoe_paths; rewrite walk_flat, panels_of_all, <- flat_panels_snd, !map_length; reflexivity|].
  unfold freestream_influences, rows, hs_rows_of. rewrite panels_of_all, <- flat_panels_snd, !map_length. reflexivity.
Qed.

(** ** The ring solver *)
Lemma behind_trailing m c j p : well_meshed m -> at_position m c j p -> (exists q, behind m c j = Some q /\ p_is_trailing_edge p = false /\ panel_at m (S c) j = Ok q) \/ (behind m c j = None /\ p_is_trailing_edge p = true).
Proof.
  intros [HL HF] (row & Hrow & Hp). destruct (HF _ _ _ _ Hrow Hp) as (_ & ET & _). unfold behind, panel_at, index. destruct (nth_error m (S c)) as [row'|] eqn:E.
  - left. assert (Hj : (j < length row')%nat).
    { rewrite (HL row') by (eapply nth_error_In; exact E). rewrite <- (HL row) by (eapply nth_error_In; exact Hrow). apply nth_error_Some. congruence. }
    destruct (nth_error row' j) as [q|] eqn:Eq; [|apply nth_error_Some in Hj; congruence]. exists q. split; [reflexivity|]. split; [|cbn; rewrite Eq; reflexivity].
    rewrite ET. apply Nat.eqb_neq. assert (S c < length m)%nat by (apply nth_error_Some; congruence). lia.
  - right. split; [reflexivity|]. rewrite ET. apply Nat.eqb_eq. apply nth_error_None in E. assert (c < length m)%nat by (apply nth_error_Some; congruence). lia.
Qed.
Definition row_felt (p : panel) (v : path) : Prop := forall a w r q, ring_make_row (a, w, p) = Ok r ->
  vdot (ring_row_velocity (p_collocation_point q) r 1 1) (p_unit_normal q) = felt q v.
Lemma init_panel_felt d w c j p0 p : well_meshed (w_panels w) -> at_position (w_panels w) c j p0 -> ring_init_panel d (w_span w * 20) (w_panels w) c j p0 = Ok p ->
  row_felt p (steady_ring_path d w c j p0).
Proof.
  intros HM H0 E a w' r q Er. unfold steady_ring_path, ring_path, back_ends. unfold ring_init_panel in E. destruct (behind_trailing _ _ _ _ HM H0) as [(n & EB & ET & EN)|[EB ET]]; rewrite EB; rewrite ET in E.
  - rewrite EN in E. cbn [bind] in E. apply Ok_eq in E. subst p. cbn in Er. rewrite ET in Er. apply Ok_eq in Er. subst r. rewrite app_nil_r, felt_closed.
    unfold ring_row_velocity. cbn [rr_hs_back_right rr_hs_front_right rr_hs_front_left rr_hs_back_left]. rewrite shoe_velocity_degenerate, vadd_0_r. reflexivity.
  - apply Ok_eq in E. subst p. cbn in Er. rewrite ET in Er. apply Ok_eq in Er. subst r. rewrite felt_app, felt_closed, felt_open. unfold ring_row_velocity. rewrite vdot_add_l. rewrite !vadd_0_r, (Rmult_comm 20). reflexivity.
Qed.
Lemma ring_rows_felt op airplanes airplanes0 rows : (forall a w, In a airplanes -> In w (a_wings a) -> well_meshed (w_panels w)) ->
  ring_init op airplanes = Ok airplanes0 -> ring_collapse airplanes0 = Ok rows ->
  Forall2 (fun r v => forall q, vdot (ring_row_velocity (p_collocation_point q) r 1 1) (p_unit_normal q) = felt q v) rows (steady_ring_paths op airplanes).
Proof.
  intros HM Ei Ec. set (d := freestream_direction op).
  assert (FP : Forall2 row_felt (all_panels airplanes0) (steady_ring_paths op airplanes)).
  { rewrite <- panels_of_all. unfold panels_of, steady_ring_paths. apply Forall2_concat.
    assert (FW : Forall2 (fun w' w => ring_init_wing d w = Ok w' /\ well_meshed (w_panels w)) (wings_of airplanes0) (wings_of airplanes)).
    { unfold wings_of. apply Forall2_concat. unfold ring_init in Ei. apply mapM_Forall2 in Ei. fold d in Ei. revert HM Ei. clear. intros HM F.
      induction F as [|a a' l l' Ha F IH]; cbn [map]; [constructor|]. constructor; [|apply IH; intros; eapply HM; [right|]; eassumption].
      unfold ring_init_airplane in Ha. apply bind_Ok in Ha. destruct Ha as (ws & Ew & Ha). apply Ok_eq in Ha. subst a'. cbn [a_wings a_set_wings]. apply mapM_Forall2 in Ew.
      assert (HW : forall w, In w (a_wings a) -> well_meshed (w_panels w)) by (intros w Hw; exact (HM a w (or_introl eq_refl) Hw)). revert HW Ew. clear. intros HW F.
      induction F as [|w w' ws ws' Hw F IH]; constructor; [split; [exact Hw | apply HW; left; reflexivity] | apply IH; intros; apply HW; right; assumption]. }
    revert FW. fold d. clear. intros FW. induction FW as [|w' w l' l [Ew HM] FW IH]; cbn [map]; constructor; [|exact IH].
    pose proof (ring_init_wing_same _ _ _ Ew) as HW. 
    assert (HR : Forall2 (Forall2 same_panel) (w_panels w) (w_panels w')) by apply HW.
    apply (mesh_rel same_panel _ _ _ _ HR). intros c j p0 p H0 Hp. apply (init_panel_felt d w c j p0 p HM H0).
    unfold ring_init_wing in Ew. apply bind_Ok in Ew. destruct Ew as (m' & Em & Ew). apply Ok_eq in Ew. subst w'. cbn in Hp. destruct Hp as (row & Hrow & Hj).
    destruct (mapiM_nth _ _ _ _ _ Em Hrow) as (row0 & Hrow0 & Er). destruct (mapiM_nth _ _ _ _ _ Er Hj) as (p0' & Hp0 & Eq).
    assert (p0' = p0) by (apply (position_unique (w_panels w) c j); [exists row0; auto | exact H0]). subst p0'. exact Eq. }
  rewrite <- flat_panels_snd in FP. unfold ring_collapse in Ec. apply mapM_Forall2 in Ec. revert FP. generalize (steady_ring_paths op airplanes). clear -Ec. intros vs FP. revert vs FP.
  induction Ec as [|[[a w] p] r l rows Er Ec IH]; cbn [map snd]; intros vs FP; inversion FP as [|? v ? vs' Hv FP' X1 X2]; subst; constructor; [|apply IH; exact FP'].
  intros q. exact (Hv a w r q Er).
Qed.
Lemma ring_solvable solve airplanes op : SolveSpec solve -> fresh_ring (ring_new airplanes op) ->
  (forall a w, In a airplanes -> In w (a_wings a) -> well_meshed (w_panels w)) ->
  (exists s, ring_run solve (ring_new airplanes op) = Ok s) <-> distinguishable (panels_of airplanes) (steady_ring_paths op airplanes).
Proof.
  intros HS HF HM. destruct (ring_run_total solve (ring_new airplanes op) HS (fresh_sized _ HF) HM) as (l0 & rows & Ei & Ec & Hrun).
  cbn [ring_new rso_op rso_airplanes] in Ei. pose proof (ring_init_same _ _ _ Ei) as HA. pose proof (ring_collapse_panels _ _ Ec) as EP.
  pose proof (ring_rows_felt _ _ _ _ HM Ei Ec) as FR. assert (LR : length rows = length (all_panels airplanes)).
  { rewrite <- (map_length rr_panel rows), EP. symmetry. exact (Forall2_length _ _ _ (same_all_panels _ _ HA)). }
  set (b := map Ropp (freestream_influences (map rr_normal rows) (rso_freestream (ring_new airplanes op)))) in *.
  assert (E : ring_influences rows (rso_strengths (ring_new airplanes op)) (ring_collapse_hs_strengths rows (rso_hs_strengths (ring_new airplanes op))) =
    map (fun p => map (felt p) (steady_ring_paths op airplanes)) (panels_of airplanes)).
  { destruct HF as [F1 F2]. rewrite F1, F2. rewrite ring_influences_explicit; [| |cbn [ring_new rso_airplanes]; symmetry; exact LR].
    2:{ apply ring_collapse_ok in Ec. clear -Ec. induction Ec; constructor; tauto. }
    assert (ER : forall q, map (fun s => vdot (ring_row_velocity (p_collocation_point q) s 1 1) (p_unit_normal q)) rows = map (felt q) (steady_ring_paths op airplanes)).
    { intros q. clear -FR. induction FR as [|r v rows vs H FR IH]; [reflexivity|]. cbn [map]. rewrite IH, H. reflexivity. }
    transitivity (map (fun r => map (felt (rr_panel r)) (steady_ring_paths op airplanes)) rows); [apply map_ext; intros r; apply ER|].
    rewrite <- (map_map rr_panel (fun p => map (felt p) (steady_ring_paths op airplanes))), EP, panels_of_all. pose proof (same_all_panels _ _ HA) as FA. clear -FA.
    induction FA as [|p q ps qs H FA IH]; [reflexivity|]. cbn [map]. rewrite IH. f_equal. apply map_ext. intros v. apply felt_same, H. }
  assert (Lv : length (steady_ring_paths op airplanes) = length (panels_of airplanes)) by (rewrite <- (Forall2_length _ _ _ FR), panels_of_all; exact LR).
  rewrite <- (solvable_felt solve _ _ b HS Lv); [|unfold b, freestream_influences; rewrite !map_length, panels_of_all; exact LR]. rewrite <- E. split.
  - intros [s Es]. apply ring_run_inv in Es. destruct Es as (a0 & a1 & loads & Ei' & Ec' & _ & Ev & _ & Ex & _). cbn [ring_new rso_op rso_airplanes] in Ei'. assert (a0 = l0) by congruence. subst a0.
    assert (ER : rso_rows s = rows) by congruence. rewrite ER in Ex. exists (rso_strengths s). exact Ex.
  - intros [xs Ex]. destruct (Hrun xs Ex) as (s & Es & _). eauto.
Qed.

(** ** The unsteady solver *)
Definition along (p : panel) (v : path) : Prop := exists r, p_ring_vortex p = Some r /\ v = closed_path (rv_back_right r) (rv_front_right r) (rv_front_left r) (rv_back_left r).
Section Unsteady.
  Variable solve : list (list R) -> list R -> result (list R).
  Hypothesis HS : SolveSpec solve.
  Variable prescribed : bool.
  Lemma kept_along up n s k sp0 sp : created up -> has_run solve prescribed up n s -> nth_error (up_steady_problems up) k = Some sp0 -> step_at s k sp -> kept_step sp0 sp ->
    Forall2 along (step_panels sp) (unsteady_ring_paths (up_delta_time up) sp0).
  Proof.
    intros HC HR H0 Hsp HK. rewrite panels_of_wings. unfold unsteady_ring_paths. apply Forall2_concat.
    assert (ED : drift_at s k = vscale (up_delta_time up / 4) (freestream_velocity (sp_operating_point sp0))).
    { unfold drift_at, freestream_at. unfold step_at in Hsp. rewrite Hsp, (proj1 HK). destruct (has_run_history _ HS _ _ _ _ HC HR) as (F & up1 & conv & sa & HH). rewrite (hi_time _ _ _ _ _ _ _ _ _ HH).
      generalize (freestream_velocity (sp_operating_point sp0)) (up_delta_time up). clear. intros v t. vunfold. apply vec_ext; cbn; field. }
    rewrite <- ED. pose proof (kept_step_wings _ _ HK) as FW.
    assert (FB : Forall2 (fun w0 w => Forall2 (Forall2 same_panel) (w_panels w0) (w_panels w) /\ forall c j p, at_position (w_panels w) c j p -> exists r, p_ring_vortex p = Some r /\ bound_ring (drift_at s k) (w_panels w) c j p r)
                         (step_wings sp0) (step_wings sp)).
    { apply Forall2_from_nth; [exact (Forall2_length _ _ _ FW)|]. intros i w0 w Hw0 Hw. destruct (Forall2_nth _ _ _ FW _ _ Hw) as (w0' & Hw0' & _ & FP). assert (w0' = w0) by congruence. subst w0'.
      split; [exact FP|]. intros c j p Hp. exact (bound_rings _ HS _ _ _ _ _ i _ _ _ _ HC HR (ex_intro _ sp (conj Hsp Hw)) Hp). }
    generalize (drift_at s k) FB. clear. intros d FB. induction FB as [|w0 w l0 l [FP HB] FB IH]; cbn [map]; constructor; [|exact IH].
    apply (mesh_rel same_panel _ _ _ _ FP). intros c j p0 p H0 Hp. destruct (HB c j p Hp) as (r & Hr & (HCr & B1 & B2 & B3 & B4)). exists r. split; [exact Hr|].
    assert (HP : same_panel p0 p). { destruct H0 as (row0 & E0 & F0). destruct Hp as (row & E & F). destruct (Forall2_nth _ _ _ FP _ _ E) as (row0' & E0' & FR). assert (row0' = row0) by congruence. subst row0'.
      destruct (Forall2_nth _ _ _ FR _ _ F) as (p0' & F0' & HP). assert (p0' = p0) by congruence. subst p0'. exact HP. }
    destruct (L_UnsteadyRun.same_panel_vertices _ _ HP) as [V1 V2]. pose proof (Forall2_length _ _ _ FP) as LM. unfold ring_path, back_ends, behind. rewrite B1, B2, <- V1, <- V2 in *.
    destruct (Nat.eq_dec (S c) (length (w_panels w))) as [E|E].
    - destruct (B3 E) as [B5 B6]. destruct (nth_error (w_panels w0) (S c)) as [row'|] eqn:EN; [exfalso; assert (S c < length (w_panels w0))%nat by (apply nth_error_Some; congruence); lia|].
      destruct HP as (E1 & E2 & E3 & E4 & _). rewrite B5, B6, E1, E2, E3, E4. reflexivity.
    - destruct (B4 E) as (q & Hq & B5 & B6). destruct (position_rel _ _ _ _ _ _ FP Hq) as (q0 & (row0 & R0 & Q0) & HQ). rewrite R0, Q0.
      destruct (L_UnsteadyRun.same_panel_vertices _ _ HQ) as [V3 V4]. rewrite B5, B6, V3, V4. reflexivity.
  Qed.
  Lemma step_matrix_felt up k s sp0 sp rows nu : created up -> after solve prescribed up k s -> nth_error (up_steady_problems up) k = Some sp0 -> step_at s k sp -> 
    Forall2 row_matches (flat_panels (sp_airplanes sp)) rows ->
    step_matrix rows nu = map (fun p => map (felt p) (unsteady_ring_paths (up_delta_time up) sp0)) (step_panels sp0) /\
    length (unsteady_ring_paths (up_delta_time up) sp0) = length (step_panels sp0) /\ length rows = length (step_panels sp0).
  Proof.
    intros HC HA H0 Hsp FR. assert (HR : has_run solve prescribed up k s) by (left; exact HA).
    assert (HK : kept_step sp0 sp). { pose proof (steps_kept _ HS _ _ _ _ HC HR) as FK. destruct (Forall2_nth _ _ _ FK _ _ Hsp) as (sp0' & H0' & HK). assert (sp0' = sp0) by congruence. subst sp0'. exact HK. }
    assert (FL : Forall2 row_like rows (step_panels sp)) by (apply (rows_like _ HS _ up k s k sp sp rows HC HR); [exact Hsp | apply solved_step_refl | exact FR]).
    pose proof (kept_along _ _ _ _ _ _ HC HR H0 Hsp HK) as FV. set (vs := unsteady_ring_paths (up_delta_time up) sp0) in *.
    assert (FP : Forall2 same_panel (step_panels sp0) (step_panels sp)).
    { rewrite !panels_of_wings. apply Forall2_concat. pose proof (kept_step_wings _ _ HK) as FW. clear -FW. induction FW as [|w v l m [_ H] FW IH]; cbn [map]; constructor; [apply Forall2_concat; exact H | exact IH]. }
    split; [|split; [rewrite <- (Forall2_length _ _ _ FV), (Forall2_length _ _ _ FP); reflexivity | rewrite (Forall2_length _ _ _ FL), (Forall2_length _ _ _ FP); reflexivity]].
    rewrite step_matrix_explicit.
    assert (ER : forall p, map (fun q => vdot (quad_velocity (p_collocation_point p) (rr_back_right q) (rr_front_right q) (rr_front_left q) (rr_back_left q) 1 0 nu) (p_unit_normal p)) rows = map (felt p) vs).
    { intros p. generalize vs FV. revert FL. clear. generalize (step_panels sp). intros ps FL. induction FL as [|row q rows ps (_ & r & Hr & _ & E1 & E2 & E3 & E4 & _) FL IH]; intros vs FV; inversion FV as [|? v ? vs' (r' & Hr' & Ev) FV' X1 X2]; subst; [reflexivity|].
      cbn [map]. rewrite (IH vs' FV'). f_equal. assert (r' = r) by congruence. subst r'. rewrite felt_closed, E1, E2, E3, E4. rewrite (quad_velocity_nu _ _ _ _ _ _ nu 0). reflexivity. }
    transitivity (map (fun r => map (felt (rr_panel r)) vs) rows); [apply map_ext; intros r; apply ER|].
    generalize FL FP. clear. generalize (step_panels sp) (step_panels sp0). intros ps ps0 FL. revert ps0. induction FL as [|row q rows ps (H & _) FL IH]; intros ps0 FP; inversion FP as [|p0 ? ps0' ? HP FP' X1 X2]; subst; [reflexivity|].
    cbn [map]. rewrite (IH _ FP'). f_equal. apply map_ext. intros v. transitivity (felt q v); [symmetry; apply felt_same, H | apply felt_same, HP].
  Qed.
  Lemma unsteady_solvable up lines : created up ->
    (exists s, finished solve prescribed lines up s) <->
    up_steady_problems up <> [] /\ forall sp, In sp (up_steady_problems up) -> distinguishable (step_panels sp) (unsteady_ring_paths (up_delta_time up) sp).
  Proof.
    intros HC. split.
    - intros [s HF]. assert (Hlen : (0 < length (up_steady_problems up))%nat).
      { destruct HF as (s0 & E0 & _). unfold unsteady_new, index in E0. destruct (up_steady_problems up); [discriminate | cbn; lia]. }
      split; [intros E; rewrite E in Hlen; cbn in Hlen; lia|]. intros sp0 Hin. apply In_nth_error in Hin. destruct Hin as [k H0].
      destruct (created_some up HC Hlen) as [F HM]. destruct (finished_inv _ _ _ _ _ F HF HM) as (sf & _ & _ & _ & HA & _).
      assert (Hk : (k < length (up_steady_problems up))%nat) by (apply nth_error_Some; congruence).
      destruct (after_prefix _ _ _ _ _ (S k) HA ltac:(lia)) as [sk HAk].
      destruct (after_stepped solve HS prescribed F up k sk HM HAk Hk) as (s1 & s' & conv0 & conv1 & A1 & As' & R & R' & St & _).
      destruct St as (sp & rows & la & xs & a1 & a' & Hsp & Ec & FR & PR & El & Sl & St). cbn zeta in St. destruct St as (Esol & Lx & _).
      destruct (step_matrix_felt up k s' sp0 sp rows (op_nu (sp_operating_point sp)) HC As' H0 Hsp FR) as (EM & Lv & Lr). rewrite EM in Esol.
      match type of Esol with solve _ ?b = _ => apply (proj1 (solvable_felt solve _ _ b HS Lv ltac:(rewrite (step_rhs_length _ _ _ _ _ _ (proj1 Sl)); exact Lr))) end. eauto.
    - intros [Hne HD]. assert (Hlen : (0 < length (up_steady_problems up))%nat) by (destruct (up_steady_problems up); [congruence | cbn; lia]).
      destruct (L_Wake.nth_in_range _ _ Hlen) as [sp0 H0]. assert (exists s0, unsteady_new up = Ok s0) as [s0 E0] by (unfold unsteady_new, index; rewrite H0; cbn; eauto).
      destruct (run_total _ HS prescribed lines up s0 HC E0) as [[s Es]|(k & s & e & Hk & HA & HU & E)]; [exists s, s0; auto|]. exfalso.
      destruct HU as (sp & rows & b & Hsp & FR & PR & Lb & Es). destruct (L_Wake.nth_in_range _ _ Hk) as [spk Hspk].
      destruct (step_matrix_felt up k s spk sp rows (op_nu (sp_operating_point sp)) HC HA Hspk Hsp FR) as (EM & Lv & Lr). rewrite EM in Es.
      destruct (proj2 (solvable_felt solve _ _ b HS Lv ltac:(congruence)) (HD _ (nth_error_In _ _ Hspk))) as [x Ex]. congruence.
  Qed.
End Unsteady.

(** ** Consequences *)
Lemma same_direction op op' : op_alpha op' = op_alpha op -> op_beta op' = op_beta op -> freestream_direction op' = freestream_direction op.
Proof. intros Ea Eb. rewrite !freestream_direction_explicit, Ea, Eb. reflexivity. Qed.
Lemma steady_any_speed solve solve' airplanes op op' : SolveSpec solve -> SolveSpec solve' -> op_alpha op' = op_alpha op -> op_beta op' = op_beta op ->
  ((exists s, hs_run solve (hs_new airplanes op) = Ok s) <-> (exists s, hs_run solve' (hs_new airplanes op') = Ok s)) /\
  (fresh_ring (ring_new airplanes op) -> (forall a w, In a airplanes -> In w (a_wings a) -> well_meshed (w_panels w)) ->
   ((exists s, ring_run solve (ring_new airplanes op) = Ok s) <-> (exists s, ring_run solve' (ring_new airplanes op') = Ok s))).
Proof.
  intros HS HS' Ea Eb. pose proof (same_direction _ _ Ea Eb) as E. split.
  - rewrite !horseshoe_solvable by assumption. unfold horseshoe_paths. rewrite E. reflexivity.
  - intros HF HM. rewrite (ring_solvable _ _ _ HS HF HM). rewrite (ring_solvable solve' airplanes op' HS' HF HM). unfold steady_ring_paths. rewrite E. reflexivity.
Qed.
Lemma unsteady_any_wake solve solve' prescribed prescribed' lines lines' up : SolveSpec solve -> SolveSpec solve' -> created up ->
  (exists s, finished solve prescribed lines up s) <-> (exists s, finished solve' prescribed' lines' up s).
Proof. intros HS HS' HC. rewrite (unsteady_solvable solve HS), (unsteady_solvable solve' HS') by exact HC. reflexivity. Qed.

(** Two vortices in one place cannot be told apart. *)
Lemma indistinct ps vs i j v : nth_error vs i = Some v -> nth_error vs j = Some v -> (i < j)%nat -> ~ distinguishable ps vs.
Proof.
  intros Hi Hj Hij HD. destruct (nth_error_split _ _ Hi) as (l1 & l2 & E & L1). subst vs.
  assert (exists l3 l4, l2 = l3 ++ v :: l4) as (l3 & l4 & ->).
  { rewrite nth_error_app2 in Hj by lia. rewrite L1 in Hj. destruct (j - i)%nat as [|n] eqn:En; [lia|]. cbn [nth_error] in Hj. destruct (nth_error_split _ _ Hj) as (l3 & l4 & -> & _). eauto. }
  set (gs := repeat 0 (length l1) ++ 1 :: repeat 0 (length l3) ++ -1 :: repeat 0 (length l4)).
  assert (HA : forall p (l m : list path) gs', rsum (map2 (fun v g => felt p v * g) (l ++ m) (repeat 0 (length l) ++ gs')) = rsum (map2 (fun v g => felt p v * g) m gs')).
  { intros p l m gs'. induction l as [|u l IH]; [reflexivity|]. cbn [length repeat app map2]. rewrite rsum_cons, IH. ring. }
  assert (Hg : 1 = 0); [|lra]. apply (HD gs).
  - unfold gs. rewrite !app_length. cbn [length]. rewrite !app_length. cbn [length]. rewrite !repeat_length. reflexivity.
  - intros p _. unfold gs. rewrite HA. cbn [map2]. rewrite rsum_cons, HA. cbn [map2]. rewrite rsum_cons. rewrite <- (app_nil_r l4) at 1. rewrite <- (app_nil_r (repeat 0 (length l4))), HA. cbn [map2]. change (rsum []) with 0. ring.
  - unfold gs. apply in_or_app. right. left. reflexivity.
Qed.
Lemma wing_twice solve airplanes op pre a post w before between after p ps : SolveSpec solve -> airplanes = pre ++ a :: post -> a_wings a = before ++ w :: between ++ w :: after ->
  concat (w_panels w) = p :: ps -> ~ exists s, hs_run solve (hs_new airplanes op) = Ok s.
Proof.
  intros HS EA EW EP. rewrite horseshoe_solvable by exact HS.
  assert (exists l1 l2 l3, wings_of airplanes = l1 ++ w :: l2 ++ w :: l3) as (l1 & l2 & l3 & E).
  { exists (wings_of pre ++ before), between, (after ++ wings_of post). unfold wings_of. rewrite EA, map_app, concat_app. cbn [map concat]. rewrite EW. rewrite <- !app_assoc. cbn [app]. rewrite <- !app_assoc. reflexivity. }
  unfold horseshoe_paths. rewrite E. rewrite map_app. cbn [map]. rewrite map_app. cbn [map]. rewrite !concat_app. cbn [concat]. rewrite !concat_app. cbn [concat]. rewrite EP. cbn [map].
  set (d := freestream_direction op). set (x1 := concat (map _ l1)). set (m := map (horseshoe_path d w) ps). set (x2 := concat (map _ l2)).
  apply (indistinct _ _ (length x1) (length x1 + S (length m + length x2))%nat (horseshoe_path d w p)); [| |lia].
  - rewrite nth_error_app2, Nat.sub_diag by lia. reflexivity.
  - rewrite nth_error_app2 by lia. replace (length x1 + S (length m + length x2) - length x1)%nat with (S (length m + length x2)) by lia. cbn [app nth_error].
    rewrite nth_error_app2 by lia. replace (length m + length x2 - length m)%nat with (length x2) by lia. rewrite nth_error_app2, Nat.sub_diag by lia. reflexivity.
Qed.
