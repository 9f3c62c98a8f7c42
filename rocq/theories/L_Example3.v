(** Example movements: a plate whose tip flaps, a vertical fin, and a plate that
    is swept back and raised at once. *)
From Coq Require Import Lra Lia.
From Verif Require Import M_Movement S_Geometry S_Wing S_Movement L_Base L_Loads L_Meshing L_Geometry L_Example L_Movement L_Snapshots L_Problems.

Definition resting : oscillation := mkosc 0 0 "sine".
Definition section_of (p n : vec) : section :=
  mksection (flat_named "plate") (vx p) (vy p) (vz p) 4 n 0 "symmetric" (75 / 100) 0 1 "uniform" None.
Definition moving (s : section) (sweeping : oscillation) : section_movement :=
  mksecmove s sweeping None resting None resting None.
Lemma section_of_takes p n : takes_flap (section_of p n) 0 (75 / 100).
Proof. exists (flat_named (append "plate" " flapped")). apply flat_flapped. Qed.
Lemma section_of_meshable p q n sym : meshable [section_of p n; section_of q n] sym 1.
Proof.
  split; [lia|]. intros i o [[= <- <-]|[]]. change (port_deflection (section_of p n)) with 0.
  change (cs_control_surface_deflection (section_of p n)) with 0. change (cs_control_surface_hinge_point (section_of p n)) with (75 / 100).
  change (cs_num_spanwise_panels (section_of p n)) with 1%nat. cbn zeta.
  split; [apply section_of_takes|]. split; [apply section_of_takes|]. intros _. split; [lia|]. split; apply section_of_takes.
Qed.
Lemma two_plates q n sym : n <> vzero -> vx n = 0 ->
  exists w, new_wing [section_of vzero n; section_of q n] "wing" 0 0 0 n sym (mkvec 1 0 0) 1 "uniform" = Ok w.
Proof.
  intros Hn Hx. apply wing_created_iff; [exact Hn|]. split; [|apply section_of_meshable].
  assert (HD : vdot (mkvec 1 0 0) n = 0) by (unfold vdot; cbn [vx vy vz]; rewrite Hx; ring).
  unfold wing_rules. rewrite !all_hold_cons. split; [cbn; lia|]. split; [right; left; reflexivity|].
  split; [intros root [= <-]; reflexivity|]. split; [intros root [= <-]; reflexivity|]. split; [exact HD|].
  split; [|intros P e []]. intros s Hs. assert (cs_unit_normal s = n) as -> by (destruct Hs as [<-|[<-|[]]]; reflexivity). exact HD.
Qed.
Lemma resting_good : good_spacing resting. Proof. left; reflexivity. Qed.
Lemma moving_movable p n o : good_spacing o -> section_movable (moving (section_of p n) o).
Proof.
  intros Ho. split; [|split; [left; exact Ho | split; left; apply resting_good]].
  intros P e H. repeat (destruct H as [[= <- <-]|H]; [first [cbn; lra | cbn; tauto]|]). destruct H.
Qed.
Definition plate_movement (base : wing) (q n : vec) (o : oscillation) : wing_movement :=
  mkwingmove base [moving (section_of vzero n) resting; moving (section_of q n) o] resting resting resting.
Lemma plate_movable base q n o : good_spacing o -> w_chordwise_spacing base = "uniform"%string -> w_num_chordwise_panels base = 1%nat ->
  wing_movable (plate_movement base q n o).
Proof.
  intros Ho H1 H2. split; [cbn; lia|]. split; [cbn [plate_movement wm_base]; rewrite H1; right; left; reflexivity|].
  split; [cbn [plate_movement wm_base wm_sections map moving sm_base]; rewrite H2; apply section_of_meshable|].
  split; [constructor; [apply moving_movable, resting_good | constructor; [apply moving_movable, Ho | constructor]]|].
  split; [intros root [= <-]; repeat split | repeat split; apply resting_good].
Qed.
(** A base wing for [plate_movement] with its first snapshots. *)
Lemma plates_move q n o dt (k : Z) : n <> vzero -> vx n = 0 -> good_spacing o -> (1 <= k)%Z -> exists b ws w,
  new_wing [section_of vzero n; section_of q n] "wing" 0 0 0 n false (mkvec 1 0 0) 1 "uniform" = Ok b /\
  generate_wings (plate_movement b q n o) k dt = Ok ws /\ nth_error ws 0 = Some w.
Proof.
  intros Hn Hx Ho Hk. destruct (two_plates q n false Hn Hx) as [b Hb]. pose proof (wing_attributes _ _ _ _ _ _ _ _ _ _ _ Hb) as HA.
  destruct (proj2 (wings_succeed (plate_movement b q n o) k dt Hk)) as [ws Hws]; [apply plate_movable; tauto|].
  destruct (generated_wings _ _ _ _ Hws) as [L _]. destruct ws as [|w ws]; [cbn in L; lia|]. exists b, (w :: ws), w. auto.
Qed.
Lemma up_nonzero : mkvec 0 0 1 <> vzero. Proof. intros H. apply (f_equal vz) in H. cbn in H. lra. Qed.
Lemma right_nonzero : mkvec 0 1 0 <> vzero. Proof. intros H. apply (f_equal vy) in H. cbn in H. lra. Qed.
Lemma fin_turned : exists sections m ws w,
  new_wing sections "wing" 0 0 0 (mkvec 0 0 1) false (mkvec 1 0 0) 1 "uniform" = Ok (wm_base m) /\
  map sm_base (wm_sections m) = sections /\ wing_unmoving m /\ generate_wings m 1 1 = Ok ws /\ In w ws /\
  w_unit_normal w <> w_unit_normal (wm_base m) /\
  exists s t, In s sections /\ In t (w_sections w) /\ cs_unit_normal t <> cs_unit_normal s.
Proof.
  destruct (plates_move (mkvec 0 0 1) (mkvec 0 0 1) resting 1 1 up_nonzero eq_refl resting_good) as (b & ws & w & Hb & Hw & Hi); [lia|].
  eexists _, (plate_movement b (mkvec 0 0 1) (mkvec 0 0 1) resting), ws, w. split; [exact Hb|]. split; [reflexivity|]. split; [|split; [exact Hw|]].
  - split; [repeat constructor; left; reflexivity|]. repeat split; left; reflexivity.
  - split; [eapply nth_error_In; exact Hi|]. destruct (generated_wing_kept _ _ _ _ _ _ Hw Hi) as [(_ & _ & _ & _ & HK) (R1 & _ & R3)].
    pose proof (wing_attributes _ _ _ _ _ _ _ _ _ _ _ Hb) as (_ & _ & HN & _). cbn [plate_movement wm_base]. rewrite R1, HN.
    assert (HD : mkvec 0 1 0 <> mkvec 0 0 1) by (intros HX; apply (f_equal vy) in HX; cbn in HX; lra). split; [exact HD|].
    inversion HK as [|sm s ms ss HK1 HK2 E1 E2]; subst. rewrite <- E2 in *. apply Forall_cons_iff in R3. destruct R3 as [R3 _].
    exists (section_of vzero (mkvec 0 0 1)), s. split; [left; reflexivity|]. split; [left; reflexivity|]. rewrite R3. exact HD.
Qed.
Lemma swept_dihedral_refuted : exists sections m ws w,
  new_wing sections "wing" 0 0 0 (mkvec 0 1 0) false (mkvec 1 0 0) 1 "uniform" = Ok (wm_base m) /\
  map sm_base (wm_sections m) = sections /\ wing_unmoving m /\ generate_wings m 1 1 = Ok ws /\ nth_error ws 0 = Some w /\
  map cs_leading_edge (w_sections w) <> map cs_leading_edge sections.
Proof.
  destruct (plates_move (mkvec 1 1 1) (mkvec 0 1 0) resting 1 1 right_nonzero eq_refl resting_good) as (b & ws & w & Hb & Hw & Hi); [lia|].
  eexists _, (plate_movement b (mkvec 1 1 1) (mkvec 0 1 0) resting), ws, w. split; [exact Hb|]. split; [reflexivity|]. split; [|split; [exact Hw|split; [exact Hi|]]].
  - split; [repeat constructor; left; reflexivity|]. repeat split; left; reflexivity.
  - destruct (first_wing _ _ _ _ _ Hw Hi) as [_ HF].
    { intros sm [<-|[<-|[]]]; split; left; reflexivity. }
    intros HE. apply HF in HE. destruct HE as [_ HS]. specialize (HS 0%nat _ _ eq_refl eq_refl). unfold representable in HS. cbn in HS. lra.
Qed.
Lemma backward_refuted : exists sections m ws w,
  new_wing sections "wing" 0 0 0 (mkvec 0 1 0) false (mkvec 1 0 0) 1 "uniform" = Ok (wm_base m) /\
  map sm_base (wm_sections m) = sections /\ wing_unmoving m /\ generate_wings m 1 1 = Ok ws /\ nth_error ws 0 = Some w /\
  map cs_leading_edge (w_sections w) <> map cs_leading_edge sections /\ map cs_leading_edge sections = [vzero; mkvec 0 (-1) 0].
Proof.
  destruct (plates_move (mkvec 0 (-1) 0) (mkvec 0 1 0) resting 1 1 right_nonzero eq_refl resting_good) as (b & ws & w & Hb & Hw & Hi); [lia|].
  eexists _, (plate_movement b (mkvec 0 (-1) 0) (mkvec 0 1 0) resting), ws, w. split; [exact Hb|]. split; [reflexivity|]. split; [|split; [exact Hw|split; [exact Hi|split; [|reflexivity]]]].
  - split; [repeat constructor; left; reflexivity|]. repeat split; left; reflexivity.
  - destruct (first_wing _ _ _ _ _ Hw Hi) as [_ HF].
    { intros sm [<-|[<-|[]]]; split; left; reflexivity. }
    intros HE. apply HF in HE. destruct HE as [_ HS]. specialize (HS 0%nat _ _ eq_refl eq_refl). unfold representable in HS. cbn in HS. lra.
Qed.
(** A flapping airplane. *)
Definition flap : oscillation := mkosc 30 2 "sine".
Definition ex_wing_movement (o : oscillation) : wing_movement :=
  plate_movement (ex_wing false) (mkvec 0 1 0) (mkvec 0 1 0) o.
Definition ex_airplane_movement (weight : R) (o : oscillation) : airplane_movement :=
  mkairmove (mkairplane [ex_wing false] "plane" 0 0 0 weight 8 4 3 1 None None None None) [ex_wing_movement o] resting resting resting.
Definition ex_op_movement : op_movement := mkopmove (mkop 1 1 0 0 5 7) resting.
Lemma ex_movable weight o : good_spacing o -> airplane_movable (ex_airplane_movement weight o).
Proof.
  intros Ho. split; [discriminate|]. split; [|repeat split; apply resting_good]. constructor; [|constructor]. apply plate_movable; auto.
Qed.
Lemma ex_plain o : plain_base (ex_wing_movement o).
Proof.
  split; [|split].
  - exact (ex_wing_ok false).
  - intros sm [<-|[<-|[]]]; reflexivity.
  - intros [|[|i]] p q Hp Hq; [|discriminate Hq|destruct i; discriminate Hq]. injection Hp as <-. injection Hq as <-.
    right. cbn. lra.
Qed.
Lemma ex_periods weight : max_period [ex_airplane_movement weight flap] ex_op_movement = Ok 2.
Proof.
  destruct (proj2 (max_period_total [ex_airplane_movement weight flap] ex_op_movement)) as [p Hp].
  { apply movable_populated; [discriminate|]. constructor; [|constructor]. apply ex_movable. left; reflexivity. }
  rewrite Hp. f_equal. apply (largest_unique _ _ _ (max_period_largest _ _ _ Hp)). split.
  - cbn. tauto.
  - intros q Hq. cbn in Hq. decompose [or] Hq; subst; try lra; try contradiction.
Qed.
(** The plate flaps for four steps of half a second. *)
Lemma ex_movement weight : exists m up, new_movement [ex_airplane_movement weight flap] ex_op_movement (Some 4%Z) None None (Some (1 / 2)) = Ok m /\
  mv_num_steps m = 4%Z /\ new_unsteady_problem m true = Ok up /\ up_first_averaging_step up = 0%Z.
Proof.
  destruct (proj2 (movement_succeeds [ex_airplane_movement weight flap] ex_op_movement (Some 4%Z) None None (1 / 2) 4 eq_refl ltac:(lia))) as [m Hm].
  { split; [reflexivity|]. split; [reflexivity|]. split; [constructor; [apply ex_movable; left; reflexivity | constructor] | apply resting_good]. }
  assert (HP : populated [ex_airplane_movement weight flap]).
  { apply movable_populated; [discriminate|]. constructor; [|constructor]. apply ex_movable. left; reflexivity. }
  destruct (unsteady_succeeds _ _ _ _ _ _ _ true Hm HP) as [up Hup]. exists m, up. split; [exact Hm|].
  destruct (movement_built _ _ _ _ _ _ _ Hm) as (HA & HO & HD & (HN & _) & _). split; [exact HN|]. split; [exact Hup|].
  destruct (unsteady_built _ _ _ Hup) as (_ & _ & _ & _ & HMP & HF & _). unfold mv_max_period in HMP. rewrite HA, HO, ex_periods in HMP. apply Ok_eq in HMP.
  rewrite HF, <- HMP, HN, HD. unfold first_averaging_step. rdec. replace (IZR 4 - 2 / (1 / 2)) with (IZR 0) by lra.
  assert (py_floor (IZR 0) = 0%Z) as -> by (apply floor_unique; lra). reflexivity.
Qed.
Lemma airplane_attributes_dropped : exists m l a, (exists w, new_airplane [w] "plane" 0 0 0 6 (Some 8) (Some 4) (Some 3) = Ok (am_base m)) /\
  generate_airplanes m 1 1 = Ok l /\ In a l /\ a_weight a <> a_weight (am_base m) /\ a_b_ref a <> a_b_ref (am_base m).
Proof.
  destruct (proj2 (airplanes_succeed (ex_airplane_movement 6 resting) 1 1 ltac:(lia))) as [l Hl]; [apply ex_movable; apply resting_good|].
  destruct (generated_airplanes _ _ _ _ Hl) as [L _]. destruct l as [|a l]; [cbn in L; lia|]. destruct (generated_airplane_kept _ _ _ _ 0%nat a Hl eq_refl) as [[_ HK] (R1 & R2 & main & R3 & R4 & R5 & R6)].
  exists (ex_airplane_movement 6 resting), (a :: l), a. split; [exists (ex_wing false); reflexivity|]. split; [exact Hl|]. split; [left; reflexivity|].
  split; [rewrite R1; cbn; lra|]. rewrite R6.
  destruct (generated_airplanes _ _ _ _ Hl) as (_ & _ & xs & ys & zs & hs & _ & _ & _ & EH & HN). destruct (HN 0%nat a eq_refl) as (x & y & z & wings & _ & _ & _ & EC & EA).
  cbn [am_wings ex_airplane_movement mapM] in EH. inv_ok EH. rename v into ws, E into EW. inv_ok EH. injection E as <-. apply Ok_eq in EH. subst hs.
  assert (HU : wing_unmoving (ex_wing_movement resting)) by (split; [repeat constructor; left; reflexivity | repeat split; left; reflexivity]).
  pose proof (static_wings _ _ _ _ EW HU (ex_plain resting)) as ->. cbn in EC. apply Ok_eq in EC. subst wings. unfold new_airplane in EA. apply Ok_eq in EA. subst a.
  cbn [a_wings nth_error] in R3. apply L_Frames.Some_eq in R3. subst main. change (w_span (wm_base (ex_wing_movement resting))) with (w_span (ex_wing false)). rewrite ex_span.
  cbn. lra.
Qed.
Lemma operating_point_dropped : exists m l op, generate_operating_points m 1 1 = Ok l /\ In op l /\
  op_nu op <> op_nu (om_base m) /\ op_external_thrust op <> op_external_thrust (om_base m).
Proof.
  destruct (proj2 (operating_points_succeed ex_op_movement 1 1 ltac:(lia)) resting_good) as [l Hl].
  destruct (generated_operating_points _ _ _ _ Hl) as (L & _ & vs & _ & HN). destruct l as [|op l]; [cbn in L; lia|]. destruct (HN 0%nat op eq_refl) as (v & _ & ->).
  exists ex_op_movement, (mkop (op_density (om_base ex_op_movement)) v (op_alpha (om_base ex_op_movement)) (op_beta (om_base ex_op_movement)) 0 (1506 / 100000000) :: l).
  eexists. split; [exact Hl|]. split; [left; reflexivity|]. cbn. lra.
Qed.
