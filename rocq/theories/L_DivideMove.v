(** Moving wings with an extra section. *)
From Coq Require Import List ZArith Reals Lra Lia String.
From Verif Require Import M_Geometry M_Movement S_Geometry S_Wing S_Movement S_Divide L_Base L_Frames L_Functions L_Loads L_Meshing L_Geometry L_Movement L_Snapshots L_Mirror L_ImageMovement L_Divide L_DivideRun.
Import ListNotations.
Local Open Scope R_scope.

(** ** Sections *)
Lemma section_same (s t : section) : cs_airfoil s = cs_airfoil t -> cs_leading_edge s = cs_leading_edge t -> cs_chord s = cs_chord t -> cs_unit_normal s = cs_unit_normal t -> cs_twist s = cs_twist t ->
  cs_control_surface_type s = cs_control_surface_type t -> cs_control_surface_hinge_point s = cs_control_surface_hinge_point t -> cs_control_surface_deflection s = cs_control_surface_deflection t ->
  cs_num_spanwise_panels s = cs_num_spanwise_panels t -> cs_spanwise_spacing s = cs_spanwise_spacing t -> cs_wing_unit_chordwise s = cs_wing_unit_chordwise t -> s = t.
Proof.
  destruct s, t; unfold cs_leading_edge; cbn. intros -> H -> -> -> -> -> -> -> -> ->. pose proof (f_equal vx H) as HX. pose proof (f_equal vy H) as HY. pose proof (f_equal vz H) as HZ. cbn in HX, HY, HZ. rewrite HX, HY, HZ. reflexivity.
Qed.
Lemma section_at_new b x y z t s : section_at b x y z t = Ok s ->
  s = mksection (cs_airfoil b) x y z (cs_chord b) default_unit_normal t (cs_control_surface_type b) (cs_control_surface_hinge_point b) (cs_control_surface_deflection b) (cs_num_spanwise_panels b) (cs_spanwise_spacing b) (cs_wing_unit_chordwise s).
Proof.
  unfold section_at, new_section. cbn zeta. intros H. repeat (apply bind_Ok in H; let v := fresh "v" in let E := fresh "E" in destruct H as (v & E & H)). apply Ok_eq in H. subst s. reflexivity.
Qed.
Lemma section_at_none b x y z t s : section_at b x y z t = Ok s -> cs_wing_unit_chordwise s = None.
Proof.
  unfold section_at, new_section. cbn zeta. intros H. repeat (apply bind_Ok in H; let v := fresh "v" in let E := fresh "E" in destruct H as (v & E & H)). apply Ok_eq in H. subst s. reflexivity.
Qed.
Lemma section_at_panels j b x y z t s : section_at b x y z t = Ok s -> section_at (with_panels j b) x y z t = Ok (with_panels j s).
Proof.
  unfold section_at, new_section. cbn zeta. cbn [with_panels cs_airfoil cs_chord cs_control_surface_type cs_control_surface_hinge_point cs_control_surface_deflection cs_num_spanwise_panels cs_spanwise_spacing]. intros H.
  repeat (apply bind_Ok in H; let v := fresh "v" in let E := fresh "E" in destruct H as (v & E & H); rewrite E; cbn [bind]). apply Ok_eq in H. subst s. reflexivity.
Qed.
Lemma mapM_onto {A B C} (f : A -> result B) (g : A -> result C) (w : B -> C) l : (forall x y, f x = Ok y -> g x = Ok (w y)) -> forall h, mapM f l = Ok h -> mapM g l = Ok (map w h).
Proof.
  intros HG. induction l as [|x l IH]; intros h H; cbn [mapM] in *; [apply Ok_eq in H; subst h; reflexivity|].
  apply bind_Ok in H. destruct H as (y & E & H). apply bind_Ok in H. destruct H as (ys & E' & H). apply Ok_eq in H. subst h. rewrite (HG _ _ E). cbn [bind]. rewrite (IH _ E'). reflexivity.
Qed.
Lemma generated_panels j m n dt last v sp sw he h : generate_sections m n dt last v sp sw he = Ok h ->
  generate_sections (movement_with_panels j m) n dt last v sp sw he = Ok (map (with_panels j) h).
Proof.
  unfold generate_sections. cbn [movement_with_panels sm_base sm_sweeping sm_custom_sweep sm_pitching sm_custom_pitch sm_heaving sm_custom_heave]. intros H.
  change (cs_twist (with_panels j (sm_base m))) with (cs_twist (sm_base m)). change (cs_x_le (with_panels j (sm_base m))) with (cs_x_le (sm_base m)). change (cs_y_le (with_panels j (sm_base m))) with (cs_y_le (sm_base m)). change (cs_z_le (with_panels j (sm_base m))) with (cs_z_le (sm_base m)).
  do 4 (apply bind_Ok in H; let v := fresh "v" in let E := fresh "E" in destruct H as (v & E & H); rewrite E; cbn [bind]).
  unfold map4M in *. revert H. apply mapM_onto. intros x y. apply section_at_panels.
Qed.
Lemma generated_none m n dt last v sp sw he h : generate_sections m n dt last v sp sw he = Ok h -> forall s, In s h -> cs_wing_unit_chordwise s = None.
Proof.
  unfold generate_sections. intros H. do 4 (apply bind_Ok in H; let v := fresh "v" in let E := fresh "E" in destruct H as (v & E & H)).
  unfold map4M in H. apply mapM_Forall2 in H. intros s Hs. apply Forall2_sym in H. destruct (Forall2_in_l _ _ _ _ H Hs) as (q & _ & Hq). exact (section_at_none _ _ _ _ _ _ Hq).
Qed.

(** ** Angles *)
Lemma base_angles_part f p l p0 l0 span sw he v : 0 < f -> vsub p l = vscale f (vsub p0 l0) -> base_angles p0 l0 = (span, sw, he, v) -> base_angles p l = (f * span, sw, he, v).
Proof.
  intros Hf H. pose proof (f_equal vx H) as HX. pose proof (f_equal vy H) as HY. pose proof (f_equal vz H) as HZ. cbn in HX, HY, HZ. clear H. unfold base_angles. rewrite HX, HY, HZ.
  assert (ES : sqrt ((f * (vx p0 - vx l0)) ^ 2 + (f * (vy p0 - vy l0)) ^ 2 + (f * (vz p0 - vz l0)) ^ 2) = f * sqrt ((vx p0 - vx l0) ^ 2 + (vy p0 - vy l0) ^ 2 + (vz p0 - vz l0) ^ 2)).
  { replace ((f * (vx p0 - vx l0)) ^ 2 + (f * (vy p0 - vy l0)) ^ 2 + (f * (vz p0 - vz l0)) ^ 2) with (f * f * ((vx p0 - vx l0) ^ 2 + (vy p0 - vy l0) ^ 2 + (vz p0 - vz l0) ^ 2)) by ring.
    rewrite sqrt_mult; [|nra|]; [|generalize (pow2_ge_0 (vx p0 - vx l0)) (pow2_ge_0 (vy p0 - vy l0)) (pow2_ge_0 (vz p0 - vz l0)); lra]. rewrite sqrt_square by lra. reflexivity. }
  rewrite ES. destruct (Reqb (vy p0) (vy l0)) eqn:E0; destruct (Reqb (vy p) (vy l)) eqn:E1; cbn [negb]; (apply Reqb_true in E0 || apply Reqb_false in E0); (apply Reqb_true in E1 || apply Reqb_false in E1).
  - intros H. injection H as <- <- <- <-. reflexivity.
  - exfalso. apply E1. nra.
  - exfalso. apply E0. assert (f * (vy p0 - vy l0) = 0) by lra. apply Rmult_integral in H. destruct H; lra.
  - assert (Hy : vy p0 - vy l0 <> 0) by lra. intros H. injection H as <- <- <- <-.
    replace (f * (vz p0 - vz l0) / (f * (vy p0 - vy l0))) with ((vz p0 - vz l0) / (vy p0 - vy l0)) by (field; split; lra).
    replace (f * (vx p0 - vx l0) / (f * (vy p0 - vy l0))) with ((vx p0 - vx l0) / (vy p0 - vy l0)) by (field; split; lra). reflexivity.
Qed.
Lemma swung_part f l span sw he : swung l (f * span) sw he = vadd l (vscale f (vsub (swung l span sw he) l)).
Proof. unfold swung. destruct l. vunfold. apply vec_ext; cbn; ring. Qed.
Lemma swung_rest f l span sw he : swung (vadd l (vscale f (vsub (swung l span sw he) l))) ((1 - f) * span) sw he = swung l span sw he.
Proof. unfold swung. destruct l. vunfold. apply vec_ext; cbn; ring. Qed.
Lemma between_edge j k a b : cs_leading_edge (section_between j k a b) = vadd (cs_leading_edge a) (vscale (INR j / INR (j + k)) (vsub (cs_leading_edge b) (cs_leading_edge a))).
Proof. unfold section_between, cs_leading_edge, part_way. cbn [cs_x_le cs_y_le cs_z_le]. reflexivity. Qed.
Lemma share_bounds j k : (1 <= j)%nat -> (1 <= k)%nat -> 0 < INR j / INR (j + k) < 1.
Proof.
  intros Hj Hk. assert (Pj : 0 < INR j) by (apply lt_0_INR; lia). assert (Pk : 0 < INR k) by (apply lt_0_INR; lia). rewrite plus_INR. split; [apply Rdiv_lt_0_compat; lra|].
  apply (Rmult_lt_reg_r (INR j + INR k)); [lra|]. unfold Rdiv. rewrite Rmult_assoc, Rinv_l; lra.
Qed.
Lemma between_movable j k a b : (1 <= j)%nat -> (1 <= k)%nat -> section_movable a -> section_movable b -> section_movable (movement_between j k a b).
Proof.
  intros Hj Hk (R1 & S1 & P1 & H1) (R2 & S2 & P2 & H2). split; [|split; [exact S2 | split; [exact P1 | exact H2]]].
  cbn [movement_between sm_base section_between cs_chord cs_control_surface_type cs_spanwise_spacing]. unfold section_rules in *. apply all_hold_cons in R1, R2. apply all_hold_cons. destruct R1 as [C1 R1], R2 as [C2 _]. split; [|exact R1].
  destruct (share_bounds j k Hj Hk) as [F0 F1]. unfold part_way. revert F0 F1. generalize (INR j / INR (j + k)). intros f F0 F1. nra.
Qed.

(** ** Histories *)
Lemma nth_Forall2_eq {A} (l l' : list A) : List.length l' = List.length l -> (forall i x y, nth_error l i = Some x -> nth_error l' i = Some y -> y = x) -> l' = l.
Proof.
  revert l'. induction l as [|x l IH]; intros [|y l'] HL H; try discriminate HL; [reflexivity|]. f_equal; [exact (H 0%nat x y eq_refl eq_refl)|]. apply IH; [cbn in HL; lia|]. intros i u v Hu Hv. exact (H (S i) u v Hu Hv).
Qed.
Lemma outward_angles p l span sw he ver : base_angles p l = (span, sw, he, ver) -> vy l < vy p -> ver = false.
Proof. intros H HY. destruct ver; [|reflexivity]. apply base_angles_vertical in H. lra. Qed.
Section Between.
Variables (n : Z) (dt : R) (j k : nat) (a b : section_movement).
Hypothesis Hj : (1 <= j)%nat.
Hypothesis Hk : (1 <= k)%nat.
Hypothesis Hn : (1 <= n)%Z.
Hypothesis HA : pitch_alike a b.
Hypothesis HR : representable (cs_leading_edge (sm_base a)) (cs_leading_edge (sm_base b)).
Hypothesis HY : cs_y_le (sm_base a) < cs_y_le (sm_base b).
Hypothesis HS1 : starts_at_base (sm_sweeping b) (sm_custom_sweep b).
Hypothesis HS2 : starts_at_base (sm_heaving b) (sm_custom_heave b).
Hypothesis MA : section_movable a.
Hypothesis MB : section_movable b.
Variables (ha hb : list section) (s0 : section) (span sw he : R) (ver : bool).
Hypothesis LA : List.length ha = Z.to_nat n.
Hypothesis HA0 : nth_error ha 0 = Some s0.
Hypothesis HE0 : cs_leading_edge s0 = cs_leading_edge (sm_base a).
Hypothesis HAh : forall i s, nth_error ha i = Some s -> section_kept (sm_base a) s /\ section_reset s /\ cs_wing_unit_chordwise s = None.
Variables (pl : list R).
Hypothesis HPl : oscillate_custom (sm_pitching a) (sm_custom_pitch a) (cs_twist (sm_base a)) n dt = Ok pl.
Hypothesis HAt : forall i s, nth_error ha i = Some s -> nth_error pl i = Some (cs_twist s).
Hypothesis HB : base_angles (cs_leading_edge (sm_base b)) (cs_leading_edge s0) = (span, sw, he, ver).
Hypothesis HG : generate_sections b n dt (map cs_leading_edge ha) ver span sw he = Ok hb.
Let f := INR j / INR (j + k).

Lemma not_vertical : ver = false.
Proof using HY HE0 HB. apply (outward_angles _ _ _ _ _ _ HB). rewrite HE0. exact HY. Qed.
Lemma mid_history : exists hm,
  generate_sections (movement_between j k a b) n dt (map cs_leading_edge ha) false (f * span) sw he = Ok hm /\
  forall i s t, nth_error ha i = Some s -> nth_error hb i = Some t -> nth_error hm i = Some (section_between j k s t).
Proof.
  pose proof not_vertical as V. rewrite V in *.
  assert (LM : List.length (map cs_leading_edge ha) = Z.to_nat n) by (rewrite map_length; exact LA).
  destruct (proj2 (sections_succeed (movement_between j k a b) n dt (map cs_leading_edge ha) false (f * span) sw he Hn LM) (between_movable j k a b Hj Hk MA MB)) as [hm EM].
  exists hm. split; [exact EM|]. intros i s t Hs Ht.
  pose proof (generated_none _ _ _ _ _ _ _ _ _ EM) as NM. pose proof (generated_none _ _ _ _ _ _ _ _ _ HG) as NB.
  destruct (generated_sections _ _ _ _ _ _ _ _ _ EM LM) as (LHm & _ & sl & pl' & hl & E1 & E2 & E3 & HN). destruct (generated_sections _ _ _ _ _ _ _ _ _ HG LM) as (LHb & _ & sl' & pl'' & hl' & E1' & E2' & E3' & HN').
  cbn [movement_between sm_sweeping sm_custom_sweep sm_pitching sm_custom_pitch sm_heaving sm_custom_heave sm_base] in E1, E2, E3. change (cs_twist (section_between j k (sm_base a) (sm_base b))) with (cs_twist (sm_base a)) in E2.
  assert (sl' = sl) by congruence. assert (hl' = hl) by congruence. assert (pl' = pl) by congruence. subst sl' hl' pl'.
  destruct (nth_error hm i) as [u|] eqn:Hu.
  2:{ apply nth_error_None in Hu. assert (nth_error ha i <> None) by congruence. apply nth_error_Some in H. lia. }
  f_equal. destruct (HN i u Hu) as ((K1 & K2 & K3 & K4 & K5 & K6 & K7) & KR & l & x & y & z & F1 & F2 & F3 & F4 & KE & KT).
  destruct (HN' i t Ht) as ((K1' & K2' & K3' & K4' & K5' & K6' & K7') & KR' & l' & x' & y' & z' & F1' & F2' & F3' & F4' & KE' & KT').
  destruct (HAh i s Hs) as ((J1 & J2 & J3 & J4 & J5 & J6 & J7) & JR & JN).
  rewrite nth_error_map, Hs in F1, F1'. apply Some_eq in F1, F1'. subst l l'. assert (x' = x) by congruence. assert (z' = z) by congruence. subst x' z'.
  cbn [movement_between sm_base section_between cs_airfoil cs_chord cs_control_surface_type cs_control_surface_hinge_point cs_control_surface_deflection cs_num_spanwise_panels cs_spanwise_spacing] in K1, K2, K3, K4, K5, K6, K7.
  apply section_same; try (rewrite between_edge); cbn [section_between cs_airfoil cs_chord cs_unit_normal cs_twist cs_control_surface_type cs_control_surface_hinge_point cs_control_surface_deflection cs_num_spanwise_panels cs_spanwise_spacing cs_wing_unit_chordwise]; try congruence.
  - rewrite KE, swung_part, KE'. reflexivity.
  - rewrite KT. pose proof (HAt i s Hs). congruence.
  - rewrite JN. apply NM. exact (nth_error_In _ _ Hu).
Qed.
Lemma outer_history hm : generate_sections (movement_between j k a b) n dt (map cs_leading_edge ha) false (f * span) sw he = Ok hm ->
  (forall i s t, nth_error ha i = Some s -> nth_error hb i = Some t -> nth_error hm i = Some (section_between j k s t)) ->
  exists m0, nth_error hm 0 = Some m0 /\ base_angles (cs_leading_edge (sm_base b)) (cs_leading_edge m0) = ((1 - f) * span, sw, he, false) /\
    generate_sections b n dt (map cs_leading_edge hm) false ((1 - f) * span) sw he = Ok hb.
Proof.
  intros EM HM. pose proof not_vertical as V. rewrite V in *. destruct (share_bounds j k Hj Hk) as [F0 F1]. fold f in F0, F1.
  assert (LM : List.length (map cs_leading_edge ha) = Z.to_nat n) by (rewrite map_length; exact LA).
  destruct (generated_sections _ _ _ _ _ _ _ _ _ EM LM) as (LHm & _). destruct (generated_sections _ _ _ _ _ _ _ _ _ HG LM) as (LHb & _ & sl & pl1 & hl & E1 & E2 & E3 & HN).
  assert (LM' : List.length (map cs_leading_edge hm) = Z.to_nat n) by (rewrite map_length; exact LHm).
  destruct hb as [|b0 hb']; [cbn in LHb; lia|]. pose proof (HM 0%nat s0 b0 HA0 eq_refl) as HM0. exists (section_between j k s0 b0). split; [exact HM0|].
  assert (EB0 : cs_leading_edge b0 = cs_leading_edge (sm_base b)).
  { refine (proj2 (first_edge b n dt _ _ _ _ _ _ _ b0 HB HG LM _ HS1 HS2 eq_refl) _); [rewrite nth_error_map, HA0; reflexivity|]. rewrite HE0. exact HR. }
  split.
  { apply (base_angles_part (1 - f) _ _ (cs_leading_edge (sm_base b)) (cs_leading_edge s0)); [lra | | exact HB]. rewrite between_edge, EB0. fold f. clear. generalize (cs_leading_edge (sm_base b)) (cs_leading_edge s0) f. intros; vring. }
  destruct (proj2 (sections_succeed b n dt (map cs_leading_edge hm) false ((1 - f) * span) sw he Hn LM') MB) as [hb2 EB2]. rewrite EB2. f_equal.
  pose proof (generated_none _ _ _ _ _ _ _ _ _ EB2) as N2. pose proof (generated_none _ _ _ _ _ _ _ _ _ HG) as NB.
  destruct (generated_sections _ _ _ _ _ _ _ _ _ EB2 LM') as (LB2 & _ & sl' & pl1' & hl' & E1' & E2' & E3' & HN').
  assert (sl' = sl) by congruence. assert (hl' = hl) by congruence. assert (pl1' = pl1) by congruence. subst sl' hl' pl1'.
  apply nth_Forall2_eq; [congruence|]. intros i t u Ht Hu.
  destruct (HN i t Ht) as ((K1 & K2 & K3 & K4 & K5 & K6 & K7) & KR & l & x & y & z & G1 & G2 & G3 & G4 & KE & KT).
  destruct (HN' i u Hu) as ((K1' & K2' & K3' & K4' & K5' & K6' & K7') & KR' & l' & x' & y' & z' & G1' & G2' & G3' & G4' & KE' & KT').
  assert (x' = x) by congruence. assert (y' = y) by congruence. assert (z' = z) by congruence. subst x' y' z'.
  destruct (nth_error ha i) as [s|] eqn:Hs; [|rewrite nth_error_map, Hs in G1; discriminate G1]. rewrite nth_error_map, Hs in G1. apply Some_eq in G1. subst l.
  rewrite nth_error_map, (HM i s t Hs Ht) in G1'. cbn [option_map] in G1'. apply Some_eq in G1'. subst l'.
  apply section_same; try congruence.
  - rewrite KE', between_edge, KE. fold f. apply swung_rest.
  - rewrite (NB t), (N2 u); [reflexivity | exact (nth_error_In _ _ Hu) | exact (nth_error_In _ _ Ht)].
Qed.
End Between.
(** The history of the next section. *)
Definition head_of (n : Z) (dt : R) (last : option (list section)) (m : section_movement) : result (list section) :=
  match last with
  | None =>
      let* _ := check (root_fixed m) ERootSectionMoves in
      let* k := count n in
      generate_sections m n dt (repeat vzero k) false 0 0 0
  | Some sections =>
      let les := map cs_leading_edge sections in
      let* first := index les 0 in
      let '(span, sweep, heave, vertical) := base_angles (cs_leading_edge (sm_base m)) first in
      generate_sections m n dt les vertical span sweep heave
  end.
Lemma histories_cons n dt last m ms : section_histories n dt last (m :: ms) = (let* h := head_of n dt last m in let* rest := section_histories n dt (Some h) ms in Ok (h :: rest)).
Proof. reflexivity. Qed.
Definition outward (p q : vec) : Prop := vy p < vy q /\ representable p q.
Definition good_start (n : Z) (last : option (list section)) (m : section_movement) : Prop :=
  match last with
  | None => cs_leading_edge (sm_base m) = vzero
  | Some l => List.length l = Z.to_nat n /\ exists l0, nth_error l 0 = Some l0 /\ outward (cs_leading_edge l0) (cs_leading_edge (sm_base m))
  end.
Lemma head_facts n dt last m h : (1 <= n)%Z -> good_start n last m -> starts_at_base (sm_sweeping m) (sm_custom_sweep m) -> starts_at_base (sm_heaving m) (sm_custom_heave m) -> head_of n dt last m = Ok h ->
  List.length h = Z.to_nat n /\ section_movable m /\
  (exists s0, nth_error h 0 = Some s0 /\ cs_leading_edge s0 = cs_leading_edge (sm_base m)) /\
  (forall i s, nth_error h i = Some s -> section_kept (sm_base m) s /\ section_reset s /\ cs_wing_unit_chordwise s = None) /\
  exists pl, oscillate_custom (sm_pitching m) (sm_custom_pitch m) (cs_twist (sm_base m)) n dt = Ok pl /\ forall i s, nth_error h i = Some s -> nth_error pl i = Some (cs_twist s).
Proof.
  intros Hn HS S1 S2 H.
  assert (G : exists les span sw he, generate_sections m n dt les false span sw he = Ok h /\ List.length les = Z.to_nat n /\ forall s, nth_error h 0 = Some s -> cs_leading_edge s = cs_leading_edge (sm_base m)).
  { destruct last as [l|]; cbn [head_of good_start] in *.
    - destruct HS as (LL & l0 & L0 & HY & HR). apply bind_Ok in H. destruct H as (v & E & H). apply index_Some in E. rewrite nth_error_map, L0 in E. apply Some_eq in E. subst v.
      destruct (base_angles (cs_leading_edge (sm_base m)) (cs_leading_edge l0)) as [[[span sw] he] ver] eqn:EB. pose proof (outward_angles _ _ _ _ _ _ EB HY) as V. subst ver.
      assert (LM : List.length (map cs_leading_edge l) = Z.to_nat n) by (rewrite map_length; exact LL).
      exists (map cs_leading_edge l), span, sw, he. split; [exact H|]. split; [exact LM|]. intros s Hs. refine (proj2 (first_edge m n dt _ _ _ _ _ _ _ s EB H LM _ S1 S2 Hs) HR). rewrite nth_error_map, L0. reflexivity.
    - apply bind_Ok in H. destruct H as (v & _ & H). apply bind_Ok in H. destruct H as (k & E & H). apply count_spec in E. destruct E as [_ E].
      exists (repeat vzero k), 0, 0, 0. split; [exact H|]. split; [rewrite repeat_length; exact E|]. intros s Hs. rewrite HS. exact (proj2 (root_history _ _ _ _ _ H E) _ _ Hs). }
  destruct G as (les & span & sw & he & HG & LL & HF). pose proof (generated_none _ _ _ _ _ _ _ _ _ HG) as NN. destruct (generated_sections _ _ _ _ _ _ _ _ _ HG LL) as (LH & _ & sl & pl & hl & E1 & E2 & E3 & HN).
  split; [exact LH|]. split; [apply (sections_succeed m n dt les false span sw he Hn LL); exists h; exact HG|]. split.
  { destruct h as [|s0 h]; [cbn in LH; lia|]. exists s0. split; [reflexivity | apply HF; reflexivity]. }
  split.
  - intros i s Hs. destruct (HN i s Hs) as (K & R & _). split; [exact K|]. split; [exact R|]. apply NN. exact (nth_error_In _ _ Hs).
  - exists pl. split; [exact E2|]. intros i s Hs. destruct (HN i s Hs) as (_ & _ & l & x & y & z & _ & _ & F3 & _ & _ & ET). rewrite F3, ET. reflexivity.
Qed.
Lemma head_panels n dt last m j h : head_of n dt last m = Ok h -> head_of n dt last (movement_with_panels j m) = Ok (map (with_panels j) h).
Proof.
  destruct last as [l|]; cbn [head_of]; intros H.
  - apply bind_Ok in H. destruct H as (v & E & H). rewrite E. cbn [bind]. change (cs_leading_edge (sm_base (movement_with_panels j m))) with (cs_leading_edge (sm_base m)).
    destruct (base_angles (cs_leading_edge (sm_base m)) v) as [[[span sw] he] ver]. apply generated_panels. exact H.
  - change (root_fixed (movement_with_panels j m)) with (root_fixed m). apply bind_Ok in H. destruct H as (v & E & H). rewrite E. cbn [bind]. apply bind_Ok in H. destruct H as (k & E' & H). rewrite E'. cbn [bind]. apply generated_panels. exact H.
Qed.
Lemma panels_edges j h : map cs_leading_edge (map (with_panels j) h) = map cs_leading_edge h.
Proof. rewrite map_map. apply map_ext. intros s. reflexivity. Qed.

Section Histories.
Variables (n : Z) (dt : R) (j k : nat) (a b : section_movement) (post : list section_movement).
Hypothesis Hj : (1 <= j)%nat.
Hypothesis Hk : (1 <= k)%nat.
Hypothesis Hn : (1 <= n)%Z.
Hypothesis HA : pitch_alike a b.
Definition good_column (sections sections' : list section) : Prop :=
  exists P s t Q, sections = P ++ s :: t :: Q /\ sections' = divided P j k s t Q /\ alike s t /\ section_kept (sm_base a) s.
Definition good_histories (hs hs' : list (list section)) : Prop :=
  forall i sections, column hs i = Ok sections -> exists sections', column hs' i = Ok sections' /\ good_column sections sections'.

Lemma histories_here last hs : good_start n last a -> outward (cs_leading_edge (sm_base a)) (cs_leading_edge (sm_base b)) ->
  (forall s, In s [a; b] -> starts_at_base (sm_sweeping s) (sm_custom_sweep s) /\ starts_at_base (sm_heaving s) (sm_custom_heave s)) ->
  section_histories n dt last (a :: b :: post) = Ok hs ->
  exists hs', section_histories n dt last (movements_divided [] j k a b post) = Ok hs' /\ good_histories hs hs'.
Proof.
  intros GS [HY HR] HS H. rewrite histories_cons in H. apply bind_Ok in H. destruct H as (ha & EA & H). apply bind_Ok in H. destruct H as (rest & ER & H). apply Ok_eq in H. subst hs.
  rewrite histories_cons in ER. apply bind_Ok in ER. destruct ER as (hb & EB & ER). apply bind_Ok in ER. destruct ER as (hp & EP & ER). apply Ok_eq in ER. subst rest.
  destruct (HS a (or_introl eq_refl)) as [SA1 SA2]. destruct (HS b (or_intror (or_introl eq_refl))) as [SB1 SB2].
  destruct (head_facts _ _ _ _ _ Hn GS SA1 SA2 EA) as (LA & MA & (s0 & HA0 & HE0) & HK & pl & EPl & HPl).
  assert (GB : good_start n (Some ha) b) by (split; [exact LA | exists s0; split; [exact HA0 | rewrite HE0; split; assumption]]).
  destruct (head_facts _ _ _ _ _ Hn GB SB1 SB2 EB) as (LB & MB & _ & HKb & pl' & EPl' & HPl').
  destruct HA as (A1 & A2 & A3 & A4). rewrite A2, A3, A4, EPl in EPl'. apply Ok_eq in EPl'. subst pl'.
  cbn [head_of] in EB. apply bind_Ok in EB. destruct EB as (v & E & EB). apply index_Some in E. rewrite nth_error_map, HA0 in E. apply Some_eq in E. subst v.
  destruct (base_angles (cs_leading_edge (sm_base b)) (cs_leading_edge s0)) as [[[span sw] he] ver] eqn:EBA.
  destruct (mid_history n dt j k a b Hj Hk Hn HY MA MB ha hb s0 span sw he ver LA HE0 HK pl EPl HPl EBA EB) as (hm & EM & HM).
  destruct (outer_history n dt j k a b Hj Hk Hn HR HY SB1 SB2 MB ha hb s0 span sw he ver LA HA0 HE0 EBA EB hm EM HM) as (m0 & HM0 & EBM & EBO).
  exists (map (with_panels j) ha :: hm :: hb :: hp). split.
  - unfold movements_divided. cbn [app]. rewrite histories_cons, (head_panels _ _ _ _ j _ EA). cbn [bind]. rewrite histories_cons.
    assert (E1 : head_of n dt (Some (map (with_panels j) ha)) (movement_between j k a b) = Ok hm).
    { cbn [head_of]. rewrite panels_edges. unfold index. rewrite nth_error_map, HA0. cbn [option_map bind].
      rewrite (base_angles_part (INR j / INR (j + k)) _ _ (cs_leading_edge (sm_base b)) (cs_leading_edge s0) span sw he ver); [ | apply share_bounds; assumption | | exact EBA].
      - rewrite (outward_angles _ _ _ _ _ _ EBA); [exact EM | rewrite HE0; exact HY].
      - cbn [movement_between sm_base]. rewrite between_edge, HE0. generalize (cs_leading_edge (sm_base a)) (cs_leading_edge (sm_base b)) (INR j / INR (j + k)). clear. intros; vring. }
    rewrite E1. cbn [bind]. rewrite histories_cons.
    assert (E2 : head_of n dt (Some hm) b = Ok hb) by (cbn [head_of]; unfold index; rewrite nth_error_map, HM0; cbn [option_map bind]; rewrite EBM; exact EBO).
    rewrite E2. cbn [bind]. rewrite EP. reflexivity.
  - intros i sections HC. apply column_cons in HC. destruct HC as (s & l1 & -> & Hs & HC). apply column_cons in HC. destruct HC as (t & l2 & -> & Ht & HC).
    exists (divided [] j k s t l2). split.
    + unfold divided. cbn [app]. apply column_cons. do 2 eexists. split; [reflexivity|]. split; [rewrite nth_error_map, Hs; reflexivity|].
      apply column_cons. do 2 eexists. split; [reflexivity|]. split; [exact (HM i s t Hs Ht)|]. apply column_cons. do 2 eexists. split; [reflexivity|]. split; [exact Ht | exact HC].
    + exists [], s, t, l2. split; [reflexivity|]. split; [reflexivity|]. destruct (HK i s Hs) as (K & R & _). destruct (HKb i t Ht) as (K' & R' & _). split; [|exact K].
      destruct K as (K1 & _). destruct K' as (K1' & _). unfold alike. rewrite K1, K1', R, R'. split; [exact A1|]. split; [reflexivity|]. pose proof (HPl i s Hs). pose proof (HPl' i t Ht). congruence.
Qed.
Lemma histories_divided pre : forall last hs,
  (match last with
   | None => nth_error (map (fun s => cs_leading_edge (sm_base s)) (pre ++ [a; b])) 0 = Some vzero /\ successive outward (map (fun s => cs_leading_edge (sm_base s)) (pre ++ [a; b]))
   | Some l => List.length l = Z.to_nat n /\ exists l0, nth_error l 0 = Some l0 /\ successive outward (cs_leading_edge l0 :: map (fun s => cs_leading_edge (sm_base s)) (pre ++ [a; b]))
   end) ->
  (forall s, In s (pre ++ [a; b]) -> starts_at_base (sm_sweeping s) (sm_custom_sweep s) /\ starts_at_base (sm_heaving s) (sm_custom_heave s)) ->
  section_histories n dt last (pre ++ a :: b :: post) = Ok hs ->
  exists hs', section_histories n dt last (movements_divided pre j k a b post) = Ok hs' /\ good_histories hs hs'.
Proof.
  assert (GO : forall last m ms, (match last with
     | None => nth_error (map (fun s => cs_leading_edge (sm_base s)) (m :: ms)) 0 = Some vzero /\ successive outward (map (fun s => cs_leading_edge (sm_base s)) (m :: ms))
     | Some l => List.length l = Z.to_nat n /\ exists l0, nth_error l 0 = Some l0 /\ successive outward (cs_leading_edge l0 :: map (fun s => cs_leading_edge (sm_base s)) (m :: ms))
     end) -> good_start n last m /\ successive outward (map (fun s => cs_leading_edge (sm_base s)) (m :: ms))).
  { intros [l|] m ms; cbn [map good_start].
    - intros (LL & l0 & H0 & H). apply successive_cons in H. destruct H as [H1 H2]. split; [split; [exact LL | exists l0; split; assumption] | exact H2].
    - intros [H0 H]. cbn [nth_error] in H0. apply Some_eq in H0. split; assumption. }
  induction pre as [|m pre IH]; intros last hs HE HS H.
  - cbn [app] in HE, HS, H. destruct (GO _ _ _ HE) as [G1 G2]. cbn [map] in G2. apply successive_cons in G2. apply histories_here; [exact G1 | apply G2 | exact HS | exact H].
  - cbn [app] in HE, HS, H. destruct (GO _ _ _ HE) as [G1 G2]. rewrite histories_cons in H. apply bind_Ok in H. destruct H as (h & EH & H). apply bind_Ok in H. destruct H as (rest & ER & H). apply Ok_eq in H. subst hs.
    destruct (HS m (or_introl eq_refl)) as [S1 S2]. destruct (head_facts _ _ _ _ _ Hn G1 S1 S2 EH) as (LH & _ & (s0 & H0 & HE0) & _).
    destruct (IH (Some h) rest) as (rest' & ER' & HG).
    { split; [exact LH|]. exists s0. split; [exact H0|]. rewrite HE0. exact G2. }
    { intros s Hs. apply HS. right. exact Hs. }
    { exact ER. }
    exists (h :: rest'). split; [unfold movements_divided in *; cbn [app]; rewrite histories_cons, EH; cbn [bind]; rewrite ER'; reflexivity|].
    intros i sections HC. apply column_cons in HC. destruct HC as (s & l1 & -> & Hs & HC). destruct (HG i l1 HC) as (l1' & HC' & P & u & t & Q & E1 & E2 & EA & EK).
    exists (s :: l1'). split; [apply column_cons; do 2 eexists; split; [reflexivity | split; assumption]|]. exists (s :: P), u, t, Q. subst l1 l1'. split; [reflexivity|]. split; [reflexivity|]. split; assumption.
Qed.
End Histories.

(** ** Wings, airplanes, movements *)
Lemma mapM_follow {A A' B C} (R : A -> A' -> Prop) (P : B -> C -> Prop) (f : A -> result B) (g : A' -> result C) l l' : (forall x x' y, In x l -> R x x' -> f x = Ok y -> exists y', g x' = Ok y' /\ P y y') -> Forall2 R l l' ->
  forall h, mapM f l = Ok h -> exists h', mapM g l' = Ok h' /\ Forall2 P h h'.
Proof.
  intros H HF. induction HF as [|x x' l l' Hx HF IH]; intros h E; cbn [mapM] in *; [apply Ok_eq in E; subst h; exists []; split; [reflexivity | constructor]|].
  apply bind_Ok in E. destruct E as (y & E1 & E). apply bind_Ok in E. destruct E as (ys & E2 & E). apply Ok_eq in E. subst h.
  destruct (H x x' y (or_introl eq_refl) Hx E1) as (y' & E1' & HP). destruct (IH (fun x x' y Hi => H x x' y (or_intror Hi)) _ E2) as (ys' & E2' & HPs). rewrite E1'. cbn [bind]. rewrite E2'. cbn [bind].
  exists (y' :: ys'). split; [reflexivity | constructor; assumption].
Qed.
Lemma F2_eq {A} (l : list A) : Forall2 eq l l.
Proof. induction l; constructor; auto. Qed.
Lemma like_wing_refl w : like_wing w w. Proof. repeat split. Qed.
Lemma two_sections n dt pre a b post hs : section_histories n dt None (pre ++ a :: b :: post) = Ok hs -> (1 <= n)%Z.
Proof.
  intros H. assert (G : forall l last h, (match last with None => (2 <= List.length l)%nat | Some _ => (1 <= List.length l)%nat end) -> (forall x, last = Some x -> List.length x = Z.to_nat n) -> section_histories n dt last l = Ok h -> (1 <= n)%Z).
  { clear. induction l as [|m l IH]; intros last h HL HX H; [destruct last; cbn in HL; lia|]. rewrite histories_cons in H. apply bind_Ok in H. destruct H as (h0 & E & H). apply bind_Ok in H. destruct H as (rest & E' & H).
    destruct last as [x|]; cbn [head_of] in E.
    - apply bind_Ok in E. destruct E as (v & E & _). apply index_Some in E. assert (HI : nth_error (map cs_leading_edge x) 0 <> None) by congruence. apply nth_error_Some in HI. rewrite map_length, (HX x eq_refl) in HI. lia.
    - apply bind_Ok in E. destruct E as (v & _ & E). apply bind_Ok in E. destruct E as (k & EC & E). apply count_spec in EC. destruct EC as [_ EC]. apply (IH (Some h0) rest); [cbn in HL; lia | | exact E']. intros x EX. apply Some_eq in EX. subst x. exact (proj1 (root_history _ _ _ _ _ E EC)). }
  apply (G _ _ _) with (3 := H); [rewrite app_length; cbn; lia | discriminate].
Qed.
Lemma wings_divided m m' n dt ws : wing_movement_divided m m' -> generate_wings m n dt = Ok ws -> exists ws', generate_wings m' n dt = Ok ws' /\ Forall2 like_wing ws ws'.
Proof.
  intros (pre & j & k & a & b & post & E1 & E2 & Hj & Hk & Hnum & Hsp & HA & (HE0 & HE) & HS & X1 & X2 & X3 & X4 & X5 & X6 & X7) H.
  unfold generate_wings in *. pose proof (f_equal vx X4) as LX. pose proof (f_equal vy X4) as LY. pose proof (f_equal vz X4) as LZ. cbn [w_leading_edge vx vy vz] in LX, LY, LZ. rewrite X1, X2, X3, LX, LY, LZ, X5, X6, X7, E2. rewrite E1 in H.
  apply bind_Ok in H. destruct H as (xs & Ex & H). rewrite Ex. cbn [bind]. apply bind_Ok in H. destruct H as (ys & Ey & H). rewrite Ey. cbn [bind]. apply bind_Ok in H. destruct H as (zs & Ez & H). rewrite Ez. cbn [bind].
  apply bind_Ok in H. destruct H as (hs & EH & H). pose proof (two_sections _ _ _ _ _ _ _ EH) as Hn. destruct (histories_divided n dt j k a b post Hj Hk Hn HA pre None hs (conj HE0 HE) HS EH) as (hs' & EH' & HG). rewrite EH'. cbn [bind].
  revert H. apply (mapM_follow eq like_wing); [|apply F2_eq]. intros i i' w _ <- H.
  apply bind_Ok in H. destruct H as (x & Fx & H). rewrite Fx. cbn [bind]. apply bind_Ok in H. destruct H as (y & Fy & H). rewrite Fy. cbn [bind]. apply bind_Ok in H. destruct H as (z & Fz & H). rewrite Fz. cbn [bind].
  apply bind_Ok in H. destruct H as (sections & FC & H). destruct (HG i sections FC) as (sections' & FC' & P & s & t & Q & S1 & S2 & HAl & HK). rewrite FC'. cbn [bind]. subst sections sections'.
  destruct HK as (_ & _ & _ & _ & _ & K6 & K7). rewrite Hnum in K6. rewrite Hsp in K7.
  pose proof (wing_divided P s t Q j k (w_name (wm_base m)) x y z default_unit_normal (w_symmetric (wm_base m)) default_unit_chordwise (w_num_chordwise_panels (wm_base m)) (w_chordwise_spacing (wm_base m)) Hj Hk K6 K7 HAl) as EW. rewrite H in EW.
  destruct (dimensions_divided _ _ _ _ _ _ _ _ _ _ _ _ _ _ _ _ _ Hj Hk K6 K7 HAl H EW) as (D1 & D2 & D3 & _ & _ & D6).
  exists (renamed (w_name (wm_base m')) (with_sections (map (cs_set_wing_chordwise default_unit_chordwise) (divided P j k s t Q)) w)). split; [exact (wing_renamed _ _ _ _ _ _ _ _ _ _ _ _ EW)|].
  split; [exact D1|]. split; [reflexivity|]. split; [exact D2|]. split; [exact D3 | exact D6].
Qed.
Lemma airplanes_divided m m' n dt l : airplane_movement_divided m m' -> generate_airplanes m n dt = Ok l -> exists l', generate_airplanes m' n dt = Ok l' /\ Forall2 same_airplane l l'.
Proof.
  intros (X0 & _ & _ & X1 & X2 & X3 & HW) H. unfold generate_airplanes in *. pose proof (f_equal vx X0) as LX. pose proof (f_equal vy X0) as LY. pose proof (f_equal vz X0) as LZ. cbn [a_xyz_ref vx vy vz] in LX, LY, LZ. rewrite X1, X2, X3, LX, LY, LZ.
  apply bind_Ok in H. destruct H as (xs & Ex & H). rewrite Ex. cbn [bind]. apply bind_Ok in H. destruct H as (ys & Ey & H). rewrite Ey. cbn [bind]. apply bind_Ok in H. destruct H as (zs & Ez & H). rewrite Ez. cbn [bind].
  apply bind_Ok in H. destruct H as (hs & EH & H).
  destruct (mapM_follow (fun w w' => w' = w \/ wing_movement_divided w w') (Forall2 like_wing) (fun w => generate_wings w n dt) (fun w => generate_wings w n dt) (am_wings m) (am_wings m')) with (2 := HW) (3 := EH) as (hs' & EH' & HF).
  { intros w w' ws _ [->|HD] E; [exists ws; split; [exact E|] | exact (wings_divided _ _ _ _ _ HD E)]. clear. induction ws; constructor; [apply like_wing_refl | assumption]. }
  rewrite EH'. cbn [bind]. revert H. apply (mapM_follow eq same_airplane); [|apply F2_eq]. intros i i' w _ <- H.
  apply bind_Ok in H. destruct H as (x & Fx & H). rewrite Fx. cbn [bind]. apply bind_Ok in H. destruct H as (y & Fy & H). rewrite Fy. cbn [bind]. apply bind_Ok in H. destruct H as (z & Fz & H). rewrite Fz. cbn [bind].
  apply bind_Ok in H. destruct H as (wings & FC & H). unfold column in *.
  destruct (mapM_follow (Forall2 like_wing) like_wing (fun r => index r i) (fun r => index r i) hs hs') with (2 := HF) (3 := FC) as (wings' & FC' & HL).
  { intros r r' y0 _ HR E. apply index_Some in E. destruct (Forall2_nth_l _ _ _ HR _ _ E) as (y1 & E1 & HL). exists y1. split; [apply index_Some; exact E1 | exact HL]. }
  rewrite FC'. cbn [bind]. exact (airplane_like _ _ _ _ _ _ _ _ _ _ _ _ _ HL H).
Qed.

Lemma Forall2_periods {A B} (P : A -> B -> Prop) (p : A -> list R) (q : B -> list R) l l' : (forall x x', P x x' -> forall r, In r (p x) <-> In r (q x')) -> Forall2 P l l' -> forall r, In r (concat (map p l)) <-> In r (concat (map q l')).
Proof.
  intros H HF r. induction HF as [|x x' l l' Hx HF IH]; [reflexivity|]. cbn [map concat]. rewrite !in_app_iff, IH, (H x x' Hx). reflexivity.
Qed.
Lemma periods_divided ams ams' om : Forall2 airplane_movement_divided ams ams' -> forall r, In r (all_periods ams om) <-> In r (all_periods ams' om).
Proof.
  intros HF r. unfold all_periods. rewrite !in_app_iff. rewrite (Forall2_periods airplane_movement_divided airplane_periods airplane_periods ams ams'); [reflexivity | | exact HF].
  intros m m' (_ & _ & _ & X1 & X2 & X3 & HW) q. unfold airplane_periods. rewrite !in_app_iff, X1, X2, X3. rewrite (Forall2_periods _ wing_periods wing_periods _ _) with (2 := HW); [reflexivity|].
  clear. intros w w' [->|(pre & j & k & a & b & post & E1 & E2 & _ & _ & _ & _ & (_ & _ & A3 & _) & _ & _ & Y1 & Y2 & Y3 & _)] r; [reflexivity|].
  unfold wing_periods. rewrite E1, E2, Y1, Y2, Y3, !in_app_iff. unfold movements_divided. rewrite !map_app, !concat_app, !in_app_iff. cbn [map concat]. rewrite !in_app_iff. unfold section_periods.
  cbn [movement_with_panels movement_between sm_sweeping sm_pitching sm_heaving In]. rewrite A3. tauto.
Qed.
Lemma populated_divided ams ams' : Forall2 airplane_movement_divided ams ams' -> populated ams -> populated ams'.
Proof.
  intros HF [HN HP]. split; [intros ->; inversion HF; subst; contradiction|]. intros am' Ham'. apply Forall2_sym in HF. destruct (Forall2_in_l _ _ _ _ HF Ham') as (am & Ham & (_ & _ & _ & _ & _ & _ & HW)). destruct (HP am Ham) as [H1 H2].
  split; [intros X; rewrite X in HW; inversion HW; congruence|]. intros w' Hw'. apply Forall2_sym in HW. destruct (Forall2_in_l _ _ _ _ HW Hw') as (w & Hw & [->|HD]); [exact (H2 w Hw)|].
  destruct HD as (pre & j & k & a & b & post & _ & E2 & _). rewrite E2. unfold movements_divided. intros X. apply app_eq_nil in X. destruct X as [_ X]. discriminate X.
Qed.
Lemma period_divided ams ams' om p : Forall2 airplane_movement_divided ams ams' -> max_period ams om = Ok p -> max_period ams' om = Ok p.
Proof.
  intros HF H. destruct (proj2 (max_period_total ams' om)) as [p' H']; [apply (populated_divided _ _ HF), (max_period_total ams om); exists p; exact H|].
  rewrite H'. f_equal. apply max_period_largest in H, H'. apply (largest_unique (all_periods ams om)); [|exact H]. destruct H' as [I B]. pose proof (periods_divided ams ams' om HF) as E.
  split; [apply E; exact I | intros q Hq; apply B, E; exact Hq].
Qed.
Lemma first_chordwise (ws ws' : list wing) w : map w_num_chordwise_panels ws' = map w_num_chordwise_panels ws -> index ws 0 = Ok w -> exists w', index ws' 0 = Ok w' /\ w_num_chordwise_panels w' = w_num_chordwise_panels w.
Proof.
  intros H E. destruct ws as [|x ws]; [discriminate E|]. destruct ws' as [|x' ws']; [discriminate H|]. cbn [map] in H. apply cons_eq in H. destruct H as [H _]. apply index_Some in E. cbn [nth_error] in E. apply Some_eq in E. subst x. exists x'. split; [reflexivity | exact H].
Qed.
Lemma movement_divided ams ams' om ns cy ch dt mv : Forall2 airplane_movement_divided ams ams' -> new_movement ams om ns cy ch dt = Ok mv ->
  exists mv', new_movement ams' om ns cy ch dt = Ok mv' /\ mv_num_steps mv' = mv_num_steps mv /\ mv_num_cycles mv' = mv_num_cycles mv /\ mv_num_chords mv' = mv_num_chords mv /\
    mv_delta_time mv' = mv_delta_time mv /\ mv_operating_points mv' = mv_operating_points mv /\ Forall2 (Forall2 same_airplane) (mv_airplanes mv) (mv_airplanes mv').
Proof.
  intros HF H. assert (HP : forall p, max_period ams om = Ok p -> max_period ams' om = Ok p) by (intros p; apply period_divided; exact HF).
  unfold new_movement in *. cbn zeta in *.
  apply bind_Ok in H. destruct H as (u & E1 & H).
  match goal with |- exists _, bind ?r _ = _ /\ _ => assert (E1' : r = Ok u) end.
  { destruct (is_some cy); [|exact E1]. apply bind_Ok in E1. destruct E1 as (bad & E & E1). destruct (is_some ns); [cbn [bind]; apply Ok_eq in E; subst bad; exact E1|]. apply bind_Ok in E. destruct E as (p & Ep & E). rewrite (HP _ Ep). cbn [bind]. apply Ok_eq in E. subst bad. exact E1. }
  rewrite E1'. cbn [bind]. clear E1 E1' u. apply bind_Ok in H. destruct H as (u & E1 & H).
  match goal with |- exists _, bind ?r _ = _ /\ _ => assert (E1' : r = Ok u) end.
  { destruct (is_some ch); [|exact E1]. apply bind_Ok in E1. destruct E1 as (bad & E & E1). destruct (is_some ns); [cbn [bind]; apply Ok_eq in E; subst bad; exact E1|]. apply bind_Ok in E. destruct E as (p & Ep & E). rewrite (HP _ Ep). cbn [bind]. apply Ok_eq in E. subst bad. exact E1. }
  rewrite E1'. cbn [bind]. clear E1 E1' u. apply bind_Ok in H. destruct H as (d & E1 & H).
  match goal with |- exists _, bind ?r _ = _ /\ _ => assert (E1' : r = Ok d) end.
  { destruct dt as [dt|]; [exact E1|]. apply bind_Ok in E1. destruct E1 as (dts & E & E1).
    destruct (mapM_follow airplane_movement_divided eq (fun m => let* w := index (a_wings (am_base m)) 0 in Ok (a_c_ref (am_base m) / INR (w_num_chordwise_panels w) / op_velocity (om_base om)))
      (fun m => let* w := index (a_wings (am_base m)) 0 in Ok (a_c_ref (am_base m) / INR (w_num_chordwise_panels w) / op_velocity (om_base om))) ams ams') with (2 := HF) (3 := E) as (dts' & E' & HD).
    { intros m m' y _ (_ & C & NC & _) Em. apply bind_Ok in Em. destruct Em as (w & Ew & Em). destruct (first_chordwise _ _ _ NC Ew) as (w' & Ew' & Nw). rewrite Ew'. cbn [bind]. rewrite C, Nw. exists y. split; [exact Em | reflexivity]. }
    rewrite E'. cbn [bind]. assert (dts' = dts) by (clear -HD; induction HD; congruence). subst dts'. exact E1. }
  rewrite E1'. cbn [bind]. clear E1 E1'. apply bind_Ok in H. destruct H as (r & E1 & H).
  match goal with |- exists _, bind ?r0 _ = _ /\ _ => assert (E1' : r0 = Ok r) end.
  { destruct ns as [z|]; [exact E1|]. apply bind_Ok in E1. destruct E1 as (p & Ep & E1). rewrite (HP _ Ep). cbn [bind]. destruct (Reqb p 0); [|exact E1].
    assert (EC : map (fun m => a_c_ref (am_base m)) ams' = map (fun m => a_c_ref (am_base m)) ams) by (clear -HF; induction HF as [|m m' l l' (_ & C & _) _ IH]; cbn [map]; congruence). rewrite EC. exact E1. }
  rewrite E1'. cbn [bind]. clear E1 E1'. destruct r as [[z cycles] chords].
  apply bind_Ok in H. destruct H as (l & El & H). destruct (mapM_follow airplane_movement_divided (Forall2 same_airplane) (fun m => generate_airplanes m z d) (fun m => generate_airplanes m z d) ams ams') with (2 := HF) (3 := El) as (l' & El' & HL).
  { intros m m' y _ HD E. exact (airplanes_divided _ _ _ _ _ HD E). }
  rewrite El'. cbn [bind]. apply bind_Ok in H. destruct H as (ops & Eo & H). rewrite Eo. cbn [bind]. apply Ok_eq in H. eexists. split; [reflexivity|]. subst mv. cbn [mv_num_steps mv_num_cycles mv_num_chords mv_delta_time mv_operating_points mv_airplanes]. repeat (split; [reflexivity|]). exact HL.
Qed.
