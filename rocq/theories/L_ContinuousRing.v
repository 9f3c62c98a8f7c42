(** The ring solver on inputs that come closer and closer to given ones. *)
From Coq Require Import List Lia Lra Reals.
From Verif Require Import M_Loads M_Horseshoe M_SteadyRing S_Geometry S_Solve S_Loads S_Mirror S_Solvable S_Size S_Continuous
  L_Base L_Rotations L_Loads L_Aero L_Horseshoe L_SteadyRing L_RingLegs L_Mirror L_MirrorHorseshoe L_MirrorRing L_RigidSolvers L_Solvable L_Size L_SizeSolvers L_Limits L_Continuous L_ContinuousRun.
Import ListNotations.
Local Open Scope R_scope.

Lemma settles_mapiM {A B} (TA : (nat -> A) -> A -> Prop) (TB : (nat -> B) -> B -> Prop) (f : nat -> nat -> A -> result B) g u l :
  (forall i x a, TA x a -> settles TB (fun n => f n i (x n)) (g i a)) -> each TA u l -> settles (each TB) (fun n => mapiM (f n) (u n)) (mapiM g l).
Proof.
  intros HF H. unfold mapiM. pose proof (each_length _ _ _ H) as Lu. eapply settles_ext; [intros n; rewrite Lu; reflexivity|].
  pose proof (each_combine (fun x a => forall n : nat, x n = a) TA (fun _ => seq 0 (length l)) (seq 0 (length l)) _ _ (each_const (fun x a => forall n : nat, x n = a) _ (fun a _ _ => eq_refl)) H) as HC.
  refine (settles_mapM _ TB (fun n ix => f n (fst ix) (snd ix)) (fun ix => g (fst ix) (snd ix)) _ _ _ HC). intros W w _ (I & X & E & EI & HX).
  apply (settles_ext _ (fun n => f n (fst w) (X n))); [intros n; rewrite E; cbn [fst snd]; rewrite EI; reflexivity|]. apply HF, HX.
Qed.

(** ** Vortices *)
Definition leg_tends (u : nat -> line_vortex) (l : line_vortex) : Prop :=
  vtends (fun n => lv_origin (u n)) (lv_origin l) /\ vtends (fun n => lv_termination (u n)) (lv_termination l) /\
  vtends (fun n => lv_vector (u n)) (lv_vector l) /\ vtends (fun n => lv_center (u n)) (lv_center l).
Lemma new_leg A a B b G g : vtends A a -> vtends B b -> leg_tends (fun n => new_line_vortex (A n) (B n) (G n)) (new_line_vortex a b g).
Proof. intros HA HB. unfold leg_tends, new_line_vortex; cbn [lv_origin lv_termination lv_vector lv_center]. split; [exact HA|]. split; [exact HB|]. split; vl. Qed.
Definition ring_tends (u : nat -> ring_vortex) (r : ring_vortex) : Prop :=
  leg_tends (fun n => rv_right_leg (u n)) (rv_right_leg r) /\ leg_tends (fun n => rv_front_leg (u n)) (rv_front_leg r) /\ leg_tends (fun n => rv_left_leg (u n)) (rv_left_leg r).
Definition centred (r : ring_vortex) : Prop :=
  lv_center (rv_right_leg r) = midpoint (lv_origin (rv_right_leg r)) (lv_termination (rv_right_leg r)) /\
  lv_center (rv_front_leg r) = midpoint (lv_termination (rv_right_leg r)) (lv_origin (rv_left_leg r)) /\
  lv_center (rv_left_leg r) = midpoint (lv_origin (rv_left_leg r)) (lv_termination (rv_left_leg r)).
Lemma new_ring_tends FL fl FR fr BL bl BR br : vtends FL fl -> vtends FR fr -> vtends BL bl -> vtends BR br ->
  ring_tends (fun n => new_ring (FL n) (FR n) (BL n) (BR n) 0) (new_ring fl fr bl br 0) /\ centred (new_ring fl fr bl br 0).
Proof.
  intros H1 H2 H3 H4. split; [|repeat split; cbn; apply center_midpoint]. unfold ring_tends, new_ring; cbn [rv_right_leg rv_front_leg rv_left_leg]. split; [|split]; apply (new_leg _ _ _ _ (fun _ => 0) 0); assumption.
Qed.
Definition ringed_tends (u : nat -> panel) (p : panel) : Prop :=
  approaching_panel u p /\ p_cross p <> vzero /\
  (exists R r, (forall n, p_ring_vortex (u n) = Some (R n)) /\ p_ring_vortex p = Some r /\ ring_tends R r /\ centred r) /\
  (p_is_trailing_edge p = true -> exists H h, (forall n, p_horseshoe_vortex (u n) = Some (H n)) /\ p_horseshoe_vortex p = Some h /\
     leg_tends (fun n => hs_right_leg (H n)) (hs_right_leg h) /\ leg_tends (fun n => hs_left_leg (H n)) (hs_left_leg h)).
Definition solid (u : nat -> panel) (p : panel) : Prop := approaching_panel u p /\ p_cross p <> vzero.
Lemma panel_at_settles (T : (nat -> panel) -> panel -> Prop) M m c s : each (each T) M m -> settles T (fun n => panel_at (M n) c s) (panel_at m c s).
Proof.
  intros H. unfold panel_at. apply (settles_bind (each T) T (fun n => index (M n) c) _ (fun _ row => index row s)); [apply settles_index, H|]. intros R r _ HR. apply settles_index, HR.
Qed.
Lemma ring_init_settles O op L l : approaching_op O op -> each (approaching_airplane solid) L l ->
  settles (each (approaching_airplane ringed_tends)) (fun n => ring_init (O n) (L n)) (ring_init op l).
Proof.
  intros HO HL. pose proof (op_direction O op HO) as HD. unfold ring_init. apply (settles_mapM (approaching_airplane solid) _ (fun n => ring_init_airplane (freestream_direction (O n)))); [|exact HL].
  intros A a _ (H1 & H2 & H3 & H4 & H5 & HW). unfold ring_init_airplane.
  apply (settles_bind (each (approaching_wing ringed_tends)) _ (fun n => mapM (ring_init_wing (freestream_direction (O n))) (a_wings (A n))) _ (fun n ws => Ok (a_set_wings ws (A n))));
    [|intros V v _ HV; apply (settles_Ok (approaching_airplane ringed_tends) (fun n => a_set_wings (V n) (A n))); repeat (split; [assumption|]); exact HV].
  apply (settles_mapM (approaching_wing solid) _ (fun n => ring_init_wing (freestream_direction (O n)))); [|exact HW]. intros W w _ (Hs & HM). unfold ring_init_wing. cbv zeta.
  eapply (settles_bind (each (each ringed_tends)) _ _ _ (fun n m' => Ok (w_set_panels m' (W n))));
    [|intros V v _ HV; apply (settles_Ok (approaching_wing ringed_tends) (fun n => w_set_panels (V n) (W n))); split; [exact Hs | exact HV]].
  apply (settles_mapiM (each solid) _ (fun n c row => mapiM (fun s p => ring_init_panel (freestream_direction (O n)) (w_span (W n) * 20) (w_panels (W n)) c s p) row)); [|exact HM]. intros c R r HR.
  apply (settles_mapiM solid _ (fun n s p => ring_init_panel (freestream_direction (O n)) (w_span (W n) * 20) (w_panels (W n)) c s p)); [|exact HR]. intros s P p (HP & HC).
  destruct (panel_points P p HP) as (F1 & F2 & _). pose proof HP as (V1 & V2 & V3 & V4 & HF). unfold ring_init_panel. cbv zeta.
  destruct (p_is_trailing_edge p) eqn:ET.
  - eapply settles_ext; [intros n; rewrite (proj1 (proj2 (HF n))); reflexivity|]. eapply (settles_Ok ringed_tends). split; [exact HP|]. split; [exact HC|].
    assert (B1 : vtends (fun n => vadd (p_front_left_vortex_vertex (P n)) (vsub (p_back_left (P n)) (p_front_left (P n)))) (vadd (p_front_left_vortex_vertex p) (vsub (p_back_left p) (p_front_left p)))) by vl.
    assert (B2 : vtends (fun n => vadd (p_front_right_vortex_vertex (P n)) (vsub (p_back_right (P n)) (p_front_right (P n)))) (vadd (p_front_right_vortex_vertex p) (vsub (p_back_right p) (p_front_right p)))) by vl.
    split.
    + eexists _, _. split; [intros n; reflexivity|]. split; [reflexivity|]. exact (new_ring_tends _ _ _ _ _ _ _ _ F1 F2 B1 B2).
    + intros _. eexists _, _. split; [intros n; reflexivity|]. split; [reflexivity|].
      assert (FAR : forall Q q, vtends Q q -> vtends (fun n => vadd (Q n) (vscale (w_span (W n) * 20) (freestream_direction (O n)))) (vadd q (vscale (w_span w * 20) (freestream_direction op)))).
      { intros Q q HQ. apply vtends_add; [exact HQ|]. apply vtends_scale; [|exact HD]. apply tends_mult; [exact Hs | apply tends_const]. }
      unfold new_horseshoe; cbn [hs_right_leg hs_left_leg]. split; apply (new_leg _ _ _ _ (fun _ => 0) 0); auto.
  - eapply settles_ext; [intros n; rewrite (proj1 (proj2 (HF n))); reflexivity|].
    apply (settles_bind solid ringed_tends (fun n => panel_at (w_panels (W n)) (S c) s) _ (fun n next => Ok (p_set_ring (Some (new_ring (p_front_left_vortex_vertex (P n)) (p_front_right_vortex_vertex (P n)) (p_front_left_vortex_vertex next) (p_front_right_vortex_vertex next) 0)) (P n)))); [apply panel_at_settles, HM|].
    intros Q q _ (HQ & _). destruct (panel_points Q q HQ) as (G1 & G2 & _). eapply (settles_Ok ringed_tends). split; [exact HP|]. split; [exact HC|]. split.
    + eexists _, _. split; [intros n; reflexivity|]. split; [reflexivity|]. exact (new_ring_tends _ _ _ _ _ _ _ _ F1 F2 G1 G2).
    + cbn [p_set_ring p_is_trailing_edge]. rewrite ET. discriminate.
Qed.

(** ** The paths of the limit *)
Definition core_shape (p : panel) (v : path) : Prop :=
  let c := core_of p in
  v = closed_path (k_br c) (k_fr c) (k_fl c) (k_bl c) ++ (if p_is_trailing_edge p then open_path (k_hbr c) (k_hfr c) (k_hfl c) (k_hbl c) else []).
Lemma init_core_shape d w c j p0 p : well_meshed (w_panels w) -> at_position (w_panels w) c j p0 -> ring_init_panel d (w_span w * 20) (w_panels w) c j p0 = Ok p ->
  core_shape p (steady_ring_path d w c j p0).
Proof.
  intros HM H0 E. unfold core_shape, steady_ring_path, ring_path, back_ends. unfold ring_init_panel in E. destruct (behind_trailing _ _ _ _ HM H0) as [(n & EB & ET & EN)|[EB ET]]; rewrite EB; rewrite ET in E.
  - rewrite EN in E. cbn [bind] in E. apply Ok_eq in E. subst p. unfold core_of. cbn [p_ring_vortex p_set_ring p_is_trailing_edge]. rewrite ET. reflexivity.
  - apply Ok_eq in E. subst p. unfold core_of. cbn [p_ring_vortex p_set_ring p_set_horseshoe p_is_trailing_edge p_horseshoe_vortex]. rewrite ET. rewrite !vadd_0_r, (Rmult_comm 20). reflexivity.
Qed.
Lemma ring_core_shapes op airplanes airplanes0 : (forall a w, In a airplanes -> In w (a_wings a) -> well_meshed (w_panels w)) ->
  ring_init op airplanes = Ok airplanes0 -> Forall2 core_shape (all_panels airplanes0) (steady_ring_paths op airplanes).
Proof.
  intros HM Ei. set (d := freestream_direction op).
  rewrite <- panels_of_all. unfold panels_of, steady_ring_paths. apply Forall2_concat.
  assert (FW : Forall2 (fun w' w => ring_init_wing d w = Ok w' /\ well_meshed (w_panels w)) (wings_of airplanes0) (wings_of airplanes)).
  { unfold wings_of. apply Forall2_concat. unfold ring_init in Ei. apply mapM_Forall2 in Ei. fold d in Ei. revert HM Ei. clear. intros HM F.
    induction F as [|a a' l l' Ha F IH]; cbn [map]; [constructor|]. constructor; [|apply IH; intros; eapply HM; [right|]; eassumption].
    unfold ring_init_airplane in Ha. apply bind_Ok in Ha. destruct Ha as (ws & Ew & Ha). apply Ok_eq in Ha. subst a'. cbn [a_wings a_set_wings]. apply mapM_Forall2 in Ew.
    assert (HW : forall w, In w (a_wings a) -> well_meshed (w_panels w)) by (intros w Hw; exact (HM a w (or_introl eq_refl) Hw)). revert HW Ew. clear. intros HW F.
    induction F as [|w w' ws ws' Hw F IH]; constructor; [split; [exact Hw | apply HW; left; reflexivity] | apply IH; intros; apply HW; right; assumption]. }
  revert FW. fold d. clear. intros FW. induction FW as [|w' w l' l [Ew HM] FW IH]; cbn [map]; constructor; [|exact IH].
  pose proof (ring_init_wing_same _ _ _ Ew) as HW.
  assert (HR : Forall2 (Forall2 same_panel) (w_panels w) (w_panels w')) by apply HW.
  apply (mesh_rel same_panel _ _ _ _ HR). intros c j p0 p H0 Hp. apply (init_core_shape d w c j p0 p HM H0).
  unfold ring_init_wing in Ew. apply bind_Ok in Ew. destruct Ew as (m' & Em & Ew). apply Ok_eq in Ew. subst w'. cbn in Hp. destruct Hp as (row & Hrow & Hj).
  destruct (mapiM_nth _ _ _ _ _ Em Hrow) as (row0 & Hrow0 & Er). destruct (mapiM_nth _ _ _ _ _ Er Hj) as (p0' & Hp0 & Eq).
  assert (p0' = p0) by (apply (position_unique (w_panels w) c j); [exists row0; auto | exact H0]). subst p0'. exact Eq.
Qed.

(** ** Rows *)
Section Rows.
Context (vs : list path) (ps : list panel) (HG : forall x, In x (ring_points ps vs) -> off_edges vs x).
Let Good := off_edges vs.
Definition rrow_tends (u : nat -> ring_row) (r : ring_row) : Prop :=
  sys_tends Good k_coll k_normal core_velocity (fun n => core_of_row (u n)) (core_of_row r) /\ (forall n, row_ok (u n)) /\ row_ok r /\
  vtends (fun n => rr_ref (u n)) (rr_ref r) /\ ring_tends (fun n => rr_vortex (u n)) (rr_vortex r) /\
  Good (rr_right_center r) /\ Good (rr_front_center r) /\ Good (rr_left_center r).
Lemma make_row_settles U x v : triple ringed_tends U x -> In v vs -> core_shape (snd x) v -> Good (p_collocation_point (snd x)) ->
  settles rrow_tends (fun n => ring_make_row (U n)) (ring_make_row x).
Proof.
  intros (A & W & P & E & HA & _ & HP & HC & (R & r & E1 & E2 & HR & HM) & HT) Hv Sv Hg. destruct x as [[a w] p]. cbn [fst snd] in *.
  assert (HF : forall n, p_is_trailing_edge (P n) = p_is_trailing_edge p) by (intros n; apply HP).
  pose proof (panel_points P p HP) as (_ & _ & F3 & _). pose proof (panel_normal P p HP HC) as F4.
  pose proof HR as ((R1 & R2 & R3 & R4) & (R5 & R6 & R7 & R8) & (R9 & R10 & R11 & R12)). destruct HM as (M1 & M2 & M3).
  assert (IC : forall x, In x (map (fun s => midpoint (fst s) (snd s)) (firstn 3 v)) -> Good x).
  { intros x Hx. apply HG. unfold ring_points. apply in_or_app. right. apply in_concat. eexists. split; [apply in_map_iff; exists v; split; [reflexivity | exact Hv] | exact Hx]. }
  assert (Href : vtends (fun n => a_xyz_ref (A n)) (a_xyz_ref a)) by apply HA.
  unfold core_shape in Sv. cbv zeta in Sv.
  eapply settles_ext; [intros n; rewrite E; reflexivity|]. unfold ring_make_row. rewrite E2. destruct (p_is_trailing_edge p) eqn:ET.
  - destruct (HT eq_refl) as (H & h & E3 & E4 & (H1 & H2 & _) & (H3 & H4 & _)). rewrite E4. eapply settles_ext; [intros n; rewrite E1, HF, E3; reflexivity|]. eapply (settles_Ok rrow_tends).
    assert (Sv' : v = closed_path (lv_origin (rv_right_leg r)) (lv_termination (rv_right_leg r)) (lv_origin (rv_left_leg r)) (lv_termination (rv_left_leg r)) ++
                      open_path (lv_origin (hs_right_leg h)) (lv_termination (hs_right_leg h)) (lv_origin (hs_left_leg h)) (lv_termination (hs_left_leg h))).
    { rewrite Sv. unfold core_of. rewrite E2, ET, E4. reflexivity. } clear Sv.
    rewrite Sv' in IC. cbn [closed_path app firstn map fst snd] in IC.
    split; [|split; [|split; [|split; [|split; [|split; [|split]]]]]].
    + split; [exact F3|]. split; [exact Hg|]. split; [exact F4|]. intros X x HX Hx.
      assert (EV : forall y c, core_velocity y c = path_velocity y (closed_path (k_br c) (k_fr c) (k_fl c) (k_bl c) ++ open_path (k_hbr c) (k_hfr c) (k_hfl c) (k_hbl c))) by (intros y c; rewrite path_app, path_closed, path_open; reflexivity).
      rewrite EV. eapply vtends_ext; [intros n; apply EV|]. apply path_tends; [|exact HX|].
      * repeat (eapply each_cons; [intros n; reflexivity | split; cbn [fst snd]; assumption |]). constructor. reflexivity.
      * intros s Hs. apply (Hx v s Hv). rewrite Sv'. exact Hs.
    + intros n. unfold row_ok. cbn [rr_panel rr_vortex]. rewrite HF. split; [apply E1 | eexists; apply E3].
    + unfold row_ok. cbn [rr_panel rr_vortex]. rewrite ET. split; [exact E2 | eexists; exact E4].
    + exact Href.
    + exact HR.
    + apply IC. left. symmetry. exact M1.
    + apply IC. right; left. symmetry. exact M2.
    + apply IC. right; right; left. symmetry. exact M3.
  - eapply settles_ext; [intros n; rewrite E1, HF; reflexivity|]. eapply (settles_Ok rrow_tends).
    assert (Sv' : v = closed_path (lv_origin (rv_right_leg r)) (lv_termination (rv_right_leg r)) (lv_origin (rv_left_leg r)) (lv_termination (rv_left_leg r))).
    { rewrite Sv. unfold core_of. rewrite E2, ET. reflexivity. } clear Sv.
    rewrite Sv' in IC. cbn [closed_path app firstn map fst snd] in IC.
    split; [|split; [|split; [|split; [|split; [|split; [|split]]]]]].
    + split; [exact F3|]. split; [exact Hg|]. split; [exact F4|]. intros X x HX Hx.
      assert (EV : forall y c, k_hbr c = vzero -> k_hfr c = vzero -> k_hfl c = vzero -> k_hbl c = vzero -> core_velocity y c = path_velocity y (closed_path (k_br c) (k_fr c) (k_fl c) (k_bl c))) by (intros y c Z1 Z2 Z3 Z4; unfold core_velocity; rewrite Z1, Z2, Z3, Z4, no_shoe, path_closed, vadd_0_r; reflexivity).
      rewrite EV by reflexivity. eapply vtends_ext; [intros n; apply EV; reflexivity|]. apply path_tends; [|exact HX|].
      * repeat (eapply each_cons; [intros n; reflexivity | split; cbn [fst snd]; assumption |]). constructor. reflexivity.
      * intros s Hs. apply (Hx v s Hv). rewrite Sv'. exact Hs.
    + intros n. unfold row_ok. cbn [rr_panel rr_vortex rr_hs_back_right rr_hs_front_right rr_hs_front_left rr_hs_back_left]. rewrite HF. split; [apply E1 | auto].
    + unfold row_ok. cbn [rr_panel rr_vortex rr_hs_back_right rr_hs_front_right rr_hs_front_left rr_hs_back_left]. rewrite ET. split; [exact E2 | auto].
    + exact Href.
    + exact HR.
    + apply IC. left. symmetry. exact M1.
    + apply IC. right; left. symmetry. exact M2.
    + apply IC. right; right; left. symmetry. exact M3.
Qed.
Lemma ring_velocity_form rows xs old v points : Forall row_ok rows -> length xs = length rows -> length old = length rows ->
  ring_velocity_of rows xs (ring_solved_hs_strengths rows xs old) v points = map (sys_velocity core_velocity (map core_of_row rows) xs v) points.
Proof.
  intros F L1 L2. rewrite ring_velocity_explicit; [|exact L1 | apply ring_solved_length; assumption]. apply map_ext. intros x.
  fold (ring_velocity_at rows xs (ring_solved_hs_strengths rows xs old) v x). rewrite ring_solved_velocity by assumption. apply ring_sys_velocity.
Qed.
Lemma rows_ok_tends U rows : each rrow_tends U rows -> (forall n, Forall row_ok (U n)) /\ Forall row_ok rows.
Proof.
  intros H. induction H as [U E|U x l a m E Hx Hl (IH1 & IH2)]; split; try constructor; try (intros n; rewrite E; constructor); try apply IH1; try apply IH2; apply Hx.
Qed.
Lemma cores_tends U rows : each rrow_tends U rows -> each (sys_tends Good k_coll k_normal core_velocity) (fun n => map core_of_row (U n)) (map core_of_row rows).
Proof. intros H. refine (each_map rrow_tends _ (fun _ => core_of_row) core_of_row _ _ _ H). intros S s _ Hs. apply Hs. Qed.
(** ** Loads *)
Definition three_tends (u : nat -> R * R * R) (r : R * R * R) : Prop :=
  exists a b c, (forall n, u n = (a n, b n, c n)) /\ tends a (fst (fst r)) /\ tends b (snd (fst r)) /\ tends c (snd r).
Notation strong := (with_strength ring_strength).
Lemma strength_at_settles M m c s : each (each strong) M m -> settles tends (fun n => ring_strength_at (M n) c s) (ring_strength_at m c s).
Proof.
  intros H. unfold ring_strength_at. eapply (settles_bind strong tends); [apply panel_at_settles, H|]. intros P p _ (_ & _ & g & g0 & E1 & E2 & Hg). cbv beta.
  unfold ring_strength in E1, E2. destruct (p_ring_vortex p) as [r|]; [|discriminate]. cbn in E2. apply Some_eq' in E2. subst g0. apply (settles_ext _ (fun n => Ok (g n))); [|apply (settles_Ok tends), Hg].
  intros n. specialize (E1 n). destruct (p_ring_vortex (P n)); [|discriminate]. cbn in E1. congruence.
Qed.
Lemma effective_settles U x G g : triple strong U x -> tends G g -> settles three_tends (fun n => effective_strengths (U n, G n)) (effective_strengths (x, g)).
Proof.
  intros (A & W & P & E & _ & (_ & HM) & HP & _) HG'. destruct x as [[a w] p]. cbn [fst snd] in *. pose proof HP as (_ & _ & _ & _ & HF).
  assert (LM : forall n, length (w_panels (W n)) = length (w_panels w)) by apply (each_length _ _ _ HM).
  eapply settles_ext; [intros n; rewrite E; reflexivity|]. unfold effective_strengths. cbv zeta.
  assert (DIFF : forall c s, settles tends (fun n => bind (ring_strength_at (w_panels (W n)) c s) (fun k => Ok (G n - k))) (bind (ring_strength_at (w_panels w) c s) (fun k => Ok (g - k)))).
  { intros c s. apply (settles_bind tends tends (fun n => ring_strength_at (w_panels (W n)) c s) _ (fun n k => Ok (G n - k))); [apply strength_at_settles, HM|]. intros K k _ HK. apply (settles_Ok tends (fun n => G n - K n)), tends_minus; assumption. }
  eapply (settles_bind tends three_tends).
  { destruct (truthy (p_is_right_edge p)) eqn:ER; eapply settles_ext; try (intros n; destruct (HF n) as (_ & _ & -> & _ & -> & ->); rewrite ER; reflexivity); [apply (settles_Ok tends), HG'|].
    destruct (position_of (p_local_chordwise p)) as [c|]; [|apply settles_Err]. cbn [bind]. destruct (position_of (p_local_spanwise p)) as [s|]; [|apply settles_Err]. apply DIFF. }
  intros K1 k1 _ HK1. cbv beta. eapply (settles_bind tends three_tends).
  { eapply settles_ext; [intros n; destruct (HF n) as (-> & _ & _ & _ & -> & ->); rewrite ?LM; reflexivity|]. destruct (p_is_leading_edge p); [apply (settles_Ok tends), HG'|].
    destruct (position_of (p_local_chordwise p)) as [c|]; [|apply settles_Err]. cbn [bind]. destruct (position_of (p_local_spanwise p)) as [s|]; [|apply settles_Err]. apply DIFF. }
  intros K2 k2 _ HK2. cbv beta. eapply (settles_bind tends three_tends).
  { destruct (truthy (p_is_left_edge p)) eqn:ER; eapply settles_ext; try (intros n; destruct (HF n) as (_ & _ & _ & -> & -> & ->); rewrite ER; reflexivity); [apply (settles_Ok tends), HG'|].
    destruct (position_of (p_local_chordwise p)) as [c|]; [|apply settles_Err]. cbn [bind]. destruct (position_of (p_local_spanwise p)) as [s|]; [|apply settles_Err]. cbn [bind].
    apply (settles_bind (each strong) tends (fun n => index (w_panels (W n)) c) _ (fun n row => bind (ring_strength_at (w_panels (W n)) c (py_pred s (length row))) (fun k => Ok (G n - k)))); [apply settles_index, HM|].
    intros Rw rw _ HRw. eapply settles_ext; [intros n; rewrite (each_length _ _ _ HRw); reflexivity|]. apply DIFF. }
  intros K3 k3 _ HK3. cbv beta. apply (settles_Ok three_tends (fun n => (K1 n, K2 n, K3 n))). exists K1, K2, K3. auto.
Qed.
Definition pair_tends (u : nat -> vec * vec) (p : vec * vec) : Prop := vtends (fun n => fst (u n)) (fst p) /\ vtends (fun n => snd (u n)) (snd p).
Lemma ring_loads_settles D d VEL vel L l U rows G gs : tends D d -> each rrow_tends U rows -> each (approaching_airplane strong) L l -> each tends G gs ->
  (forall PS ps, each (fun X x => vtends X x /\ Good x) PS ps -> each vtends (fun n => VEL n (PS n)) (vel ps)) ->
  settles (each pair_tends) (fun n => ring_loads (D n) (VEL n) (L n) (U n) (G n)) (ring_loads d vel l rows gs).
Proof.
  intros HD HU HL HGs HV. unfold ring_loads. cbv zeta.
  apply (settles_bind (each three_tends) (each pair_tends) (fun n => mapM effective_strengths (combine (flat_panels (L n)) (G n))) _
    (fun n effective => Ok (map2 (fun re vs => ring_panel_loads (D n) (fst re) (snd re) (fst (fst vs)) (snd (fst vs)) (snd vs)) (combine (U n) effective)
        (combine (combine (VEL n (map rr_right_center (U n))) (VEL n (map rr_front_center (U n)))) (VEL n (map rr_left_center (U n))))))).
  - refine (settles_mapM _ three_tends (fun _ => effective_strengths) effective_strengths _ _ _ (each_combine _ _ _ _ _ _ (flat_tends _ _ _ HL) HGs)).
    intros W w _ (X & K & E & HX & HK). destruct w as [x g]. cbn [fst snd] in *. apply (settles_ext _ (fun n => effective_strengths (X n, K n))); [intros n; rewrite E; reflexivity|]. apply effective_settles; assumption.
  - intros EF ef _ HEF. apply (settles_Ok (each pair_tends) (fun n => map2 (fun re vs => ring_panel_loads (D n) (fst re) (snd re) (fst (fst vs)) (snd (fst vs)) (snd vs)) (combine (U n) (EF n))
        (combine (combine (VEL n (map rr_right_center (U n))) (VEL n (map rr_front_center (U n)))) (VEL n (map rr_left_center (U n)))))).
    assert (C1 : each vtends (fun n => VEL n (map rr_right_center (U n))) (vel (map rr_right_center rows))).
    { apply HV. refine (each_map rrow_tends _ (fun _ => rr_right_center) rr_right_center _ _ _ HU). intros S s _ (_ & _ & _ & _ & ((_ & _ & _ & C) & _ & _) & K1 & _ & _). split; [exact C | exact K1]. }
    assert (C2 : each vtends (fun n => VEL n (map rr_front_center (U n))) (vel (map rr_front_center rows))).
    { apply HV. refine (each_map rrow_tends _ (fun _ => rr_front_center) rr_front_center _ _ _ HU). intros S s _ (_ & _ & _ & _ & (_ & (_ & _ & _ & C) & _) & _ & K1 & _). split; [exact C | exact K1]. }
    assert (C3 : each vtends (fun n => VEL n (map rr_left_center (U n))) (vel (map rr_left_center rows))).
    { apply HV. refine (each_map rrow_tends _ (fun _ => rr_left_center) rr_left_center _ _ _ HU). intros S s _ (_ & _ & _ & _ & (_ & _ & (_ & _ & _ & C)) & _ & _ & K1). split; [exact C | exact K1]. }
    refine (each_map2 _ _ pair_tends (fun n re vs => ring_panel_loads (D n) (fst re) (snd re) (fst (fst vs)) (snd (fst vs)) (snd vs)) (fun re vs => ring_panel_loads d (fst re) (snd re) (fst (fst vs)) (snd (fst vs)) (snd vs)) _ _ _ _ _
       (each_combine _ _ _ _ _ _ HU HEF) (each_combine _ _ _ _ _ _ (each_combine _ _ _ _ _ _ C1 C2) C3)).
    intros X x Y y _ _ (S & K & EX & HS & (k1 & k2 & k3 & EK & H1 & H2 & H3)) (YY & V3 & EY & (V1 & V2 & EYY & HV1 & HV2) & HV3).
    destruct x as [r [[g1 g2] g3]], y as [[v1 v2] v3]. cbn [fst snd] in *.
    destruct HS as (_ & _ & _ & Hr & ((_ & _ & B1 & D1) & (_ & _ & B2 & D2) & (_ & _ & B3 & D3)) & _).
    assert (FF : forall KK kk VV vv BB bb, tends KK kk -> vtends VV vv -> vtends BB bb -> vtends (fun n => leg_force (D n) (KK n) (VV n) (BB n)) (leg_force d kk vv bb)).
    { intros. unfold leg_force. apply vtends_scale; [apply tends_mult; assumption|]. apply vtends_cross; assumption. }
    split; cbn [fst snd ring_panel_loads].
    + eapply vtends_ext; [intros n; rewrite EX, EY; cbn [fst snd]; rewrite EYY, EK; reflexivity|]. cbn [fst snd ring_panel_loads]. apply vtends_add; [apply vtends_add|]; apply FF; assumption.
    + eapply vtends_ext; [intros n; rewrite EX, EY; cbn [fst snd]; rewrite EYY, EK; reflexivity|]. cbn [fst snd ring_panel_loads].
      apply vtends_add; [apply vtends_add|]; (apply vtends_cross; [apply vtends_sub; assumption | apply FF; assumption]).
Qed.
End Rows.

(** ** The run *)
Definition ring_settled (op : operating_point) (l : list airplane) (S : nat -> ring_solver) (s : ring_solver) : Prop :=
  each (approaching_solution (dynamic_pressure op) ring_strength) (fun n => rso_airplanes (S n)) (rso_airplanes s) /\
  forall X x, vtends X x -> off_edges (steady_ring_paths op l) x -> each vtends (fun n => ring_solution_velocity (S n) [X n]) (ring_solution_velocity s [x]).
Lemma Forall2_left_in {A B} (P : A -> B -> Prop) l k x : Forall2 P l k -> In x l -> exists y, In y k /\ P x y.
Proof. intros F. induction F as [|a b l k H F IH]; intros Hx; [contradiction|]. destruct Hx as [<-|Hx]; [exists b; split; [left; reflexivity | exact H]|]. destruct (IH Hx) as (y & Hy & Py). exists y. split; [right; exact Hy | exact Py]. Qed.
Lemma num_panels_tends T L l : each (approaching_airplane T) L l -> forall n, num_panels_of (L n) = num_panels_of l.
Proof.
  unfold num_panels_of. generalize 0%nat as k. intros k H n. revert k. induction H as [L E|L x m a l E Hx Hl IH]; intros k; rewrite E; cbn [fold_left]; [reflexivity|].
  rewrite IH. f_equal. f_equal. apply Hx.
Qed.
Lemma ring_continuous solve O op L l : SolveSpec solve -> approaching_op O op -> approaching L l -> (forall p, In p (panels_of l) -> p_cross p <> vzero) ->
  (forall a, In a l -> well_meshed_airplane a) ->
  (forall x, In x (ring_points (panels_of l) (steady_ring_paths op l)) -> off_edges (steady_ring_paths op l) x) ->
  settles (ring_settled op l) (fun n => ring_run solve (ring_new (L n) (O n))) (ring_run solve (ring_new l op)).
Proof.
  intros HS HO HL HC W HG. assert (HL' := airplane_in _ (fun p => p_cross p <> vzero) _ _ (fun p Hp => HC p (proj2 (in_panels_of p l) Hp)) HL). cbv beta in HL'. fold solid in HL'.
  assert (Wm : forall a w, In a l -> In w (a_wings a) -> well_meshed (w_panels w)) by (intros a w Ha Hw; exact (proj1 (W a Ha) w Hw)).
  destruct (ring_new_fresh l op (fun a Ha => proj2 (W a Ha))) as (N1 & _). cbn [ring_new rso_strengths rso_airplanes] in N1. apply (f_equal (@length R)) in N1. rewrite !repeat_length in N1.
  pose proof (op_stream O op HO) as HV. set (vs := steady_ring_paths op l) in *. set (good := off_edges vs).
  unfold ring_run, ring_new. cbn [rso_op rso_freestream rso_airplanes rso_seed_points rso_strengths rso_hs_strengths]. cbv zeta.
  eapply settles_ext; [intros n; rewrite (num_panels_tends _ _ _ HL n); reflexivity|].
  eapply (settles_bind (each (approaching_airplane ringed_tends))); [exact (ring_init_settles O op L l HO HL')|]. intros L0 l0 Ei HL0. cbv beta.
  pose proof (ring_core_shapes op l l0 Wm Ei) as P0. fold vs in P0.
  eapply (settles_bind (each (rrow_tends vs))).
  { unfold ring_collapse. refine (settles_mapM _ _ (fun _ => ring_make_row) ring_make_row _ _ _ (flat_tends _ _ _ HL0)). intros U x Hx HU.
    assert (Hp : In (snd x) (all_panels l0)) by (rewrite <- flat_panels_snd; apply in_map, Hx).
    destruct (Forall2_left_in _ _ _ _ P0 Hp) as (v & Hv & Sv). apply (make_row_settles vs (panels_of l) HG U x v HU Hv Sv).
    destruct (Forall2_In_r _ _ _ _ (same_all_panels _ _ (ring_init_same _ _ _ Ei)) Hp) as (q & Hq & Sq). destruct (same_panel_collocation _ _ Sq) as [-> _].
    apply HG. unfold ring_points. apply in_or_app. left. apply in_map, in_panels_of, Hq. }
  intros U rows Ec HR. cbv beta. destruct (rows_ok_tends vs U rows HR) as (OKn & OK). pose proof (cores_tends vs U rows HR) as HY.
  assert (LU : forall n, length (U n) = length rows) by exact (each_length _ _ _ HR).
  assert (LR : num_panels_of l = length rows).
  { rewrite N1. rewrite (Forall2_length _ _ _ (same_all_panels _ _ (ring_init_same _ _ _ Ei))). rewrite <- (ring_collapse_panels _ _ Ec), map_length. reflexivity. }
  rewrite LR.
  eapply (settles_bind (each tends)).
  - rewrite (ring_sys_matrix rows (length rows) OK eq_refl), ring_sys_rhs. eapply settles_ext; [intros n; rewrite (ring_sys_matrix (U n) (length rows) (OKn n) (eq_sym (LU n))), ring_sys_rhs; reflexivity|].
    apply (system_settles good k_coll k_normal core_velocity solve (fun n => map core_of_row (U n)) (map core_of_row rows) (fun n => freestream_velocity (O n))); assumption.
  - intros G gs Egs HGs. rewrite (ring_sys_matrix rows (length rows) OK eq_refl), ring_sys_rhs in Egs. apply (HS _ _ (sys_square _ _ _ _) (sys_lengths _ _ _ _ _)) in Egs. destruct Egs as ((Lg & _) & _). unfold sys_matrix in Lg. rewrite !map_length in Lg.
    assert (LG : forall n, length (G n) = length (U n)) by (intros n; rewrite (each_length _ _ _ HGs), LU; exact Lg).
    assert (VEL : forall PS ps, each (fun X x => vtends X x /\ good x) PS ps ->
      each vtends (fun n => ring_velocity_of (U n) (G n) (ring_solved_hs_strengths (U n) (G n) (ring_collapse_hs_strengths (U n) (repeat 0 (length rows)))) (freestream_velocity (O n)) (PS n))
        (ring_velocity_of rows gs (ring_solved_hs_strengths rows gs (ring_collapse_hs_strengths rows (repeat 0 (length rows)))) (freestream_velocity op) ps)).
    { intros PS ps HP. rewrite ring_velocity_form; [|exact OK | exact Lg | unfold ring_collapse_hs_strengths; rewrite map2_length, repeat_length; lia].
      eapply each_ext; [intros n; rewrite ring_velocity_form; [reflexivity | apply OKn | apply LG | unfold ring_collapse_hs_strengths; rewrite map2_length, repeat_length, LU; lia]|].
      refine (each_map _ _ (fun n => sys_velocity core_velocity (map core_of_row (U n)) (G n) (freestream_velocity (O n))) (sys_velocity core_velocity (map core_of_row rows) gs (freestream_velocity op)) _ _ _ HP).
      intros X x _ (HX & Hx). apply (velocity_tends good k_coll k_normal core_velocity); assumption. }
    eapply (settles_bind (each (approaching_airplane (with_strength ring_strength)))).
    + apply (settles_update ringed_tends (with_strength ring_strength) tends (fun _ => ring_set_strength) ring_set_strength); [|exact HL0 | exact HGs].
      intros P p K k (HP & HC' & (R & r & E1 & E2 & _) & _) HK.
      assert (F' : forall q x r, p_ring_vortex q = Some r -> ring_set_strength q x = Ok (p_set_horseshoe (option_map (hs_update_strength x) (p_horseshoe_vortex q)) (p_set_ring (Some (ring_update_strength x r)) q))).
      { intros q x r0 E. unfold ring_set_strength. rewrite E. change (p_horseshoe_vortex (p_set_ring (Some (ring_update_strength x r0)) q)) with (p_horseshoe_vortex q). destruct (p_horseshoe_vortex q) eqn:EH; [reflexivity|]. destruct q. cbn in EH. subst. reflexivity. }
      rewrite (F' _ _ _ E2). eapply settles_ext; [intros n; rewrite (F' _ _ _ (E1 n)); reflexivity|].
      eapply (settles_Ok (with_strength ring_strength)). split; [exact HP|]. split; [exact HC'|]. exists K, k. split; [reflexivity | split; [reflexivity | exact HK]].
    + intros L1 l1 _ HL1. cbv beta. eapply (settles_bind (each pair_tends)).
      * refine (ring_loads_settles vs (fun n => op_density (O n)) (op_density op) _ _ L1 l1 U rows G gs (proj1 HO) HR HL1 HGs VEL).
      * intros LO lo _ HLO. cbv beta. eapply (settles_bind (each (approaching_solution (dynamic_pressure op) ring_strength))).
        -- refine (settles_process ring_strength _ O op _ _ _ _ _ _ HO _ _ HL1).
           ++ intros; reflexivity.
           ++ refine (each_map _ _ (fun _ => fst) fst _ _ _ HLO). intros X x _ Hx. apply Hx.
           ++ refine (each_map _ _ (fun _ => snd) snd _ _ _ HLO). intros X x _ Hx. apply Hx.
        -- intros L2 l2 _ HL2. eapply (settles_Ok (ring_settled op l)). split; [exact HL2|]. intros X x HX Hx.
           exact (VEL (fun n => [X n]) [x] (each_one _ _ _ (conj HX Hx))).
Qed.
