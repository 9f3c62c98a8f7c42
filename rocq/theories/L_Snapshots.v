(** Lemmas about the first snapshot and the success of the generators. *)
From Coq Require Import Lra Lia.
From Verif Require Import M_Movement S_Geometry S_Wing S_Movement L_Base L_Functions L_Loads L_Meshing L_Geometry L_Airfoil L_Camber L_Movement.

Lemma degrees_atan u : atan u * 180 / PI * PI / 180 = atan u.
Proof. field. apply PI_neq0. Qed.
Lemma atan_parts u : 0 < cos (atan u) /\ sin (atan u) = u * cos (atan u) /\ cos (atan u) * cos (atan u) * (1 + u * u) = 1.
Proof.
  destruct (unit_slope u) as [H1 H2]. split; [exact H2|]. split; [exact H1|]. pose proof (sin2_cos2 (atan u)) as H. unfold Rsqr in H. rewrite H1 in H. lra.
Qed.
(** What the angles make of a base step (dx, dy, dz) with dy <> 0. *)
Lemma swung_back l p span sweep heave : base_angles p l = (span, sweep, heave, false) ->
  (swung l span sweep heave = p <-> vy l < vy p /\ (vx p = vx l \/ vz p = vz l)).
Proof.
  unfold base_angles. destruct (Reqb (vy p) (vy l)) eqn:E; cbn [negb]; [discriminate|]. apply Reqb_false in E.
  intros H. injection H as <- <- <-. unfold swung. rewrite !degrees_atan.
  set (dx := vx p - vx l). set (dy := vy p - vy l). set (dz := vz p - vz l). assert (Hy : dy <> 0) by (unfold dy; lra).
  destruct (atan_parts (dz / dy)) as (C1 & S1 & N1). destruct (atan_parts (dx / dy)) as (C2 & S2 & N2). rewrite S1, S2.
  set (c1 := cos (atan (dz / dy))) in *. set (c2 := cos (atan (dx / dy))) in *.
  assert (P1 : c1 * c1 * (dy * dy + dz * dz) = dy * dy).
  { replace (dy * dy + dz * dz) with (dy * dy * (1 + dz / dy * (dz / dy))) by (field; exact Hy).
    replace (c1 * c1 * (dy * dy * (1 + dz / dy * (dz / dy)))) with (dy * dy * (c1 * c1 * (1 + dz / dy * (dz / dy)))) by ring. rewrite N1. ring. }
  assert (P2 : c2 * c2 * (dy * dy + dx * dx) = dy * dy).
  { replace (dy * dy + dx * dx) with (dy * dy * (1 + dx / dy * (dx / dy))) by (field; exact Hy).
    replace (c2 * c2 * (dy * dy * (1 + dx / dy * (dx / dy)))) with (dy * dy * (c2 * c2 * (1 + dx / dy * (dx / dy)))) by ring. rewrite N2. ring. }
  assert (Hyy : 0 < dy * dy) by nra.
  set (L := sqrt (dx * (dx * 1) + dy * (dy * 1) + dz * (dz * 1))).
  assert (HL : L * L = dx * dx + dy * dy + dz * dz) by (unfold L; rewrite sqrt_sqrt; [ring | nra]).
  assert (HLp : 0 < L) by (apply sqrt_lt_R0; nra). clearbody L.
  split.
  - intros HE. apply (f_equal vy) in HE as H2. cbn [vx vy vz] in *.
    assert (G2 : L * c1 * c2 = dy) by (unfold dy; lra).
    assert (Hpos : 0 < dy) by (rewrite <- G2; apply Rmult_lt_0_compat; [apply Rmult_lt_0_compat|]; assumption).
    split; [unfold dy in Hpos; lra|].
    assert (Q : (L * L) * (c1 * c1) * (c2 * c2) = dy * dy) by (rewrite <- G2; ring).
    assert (Q2 : (dx * dx + dy * dy + dz * dz) * (dy * dy) = (dy * dy + dz * dz) * (dy * dy + dx * dx)).
    { apply (Rmult_eq_reg_l (c1 * c1 * (c2 * c2))); [|apply Rgt_not_eq; repeat apply Rmult_lt_0_compat; assumption].
      rewrite <- HL. replace (c1 * c1 * (c2 * c2) * (L * L * (dy * dy))) with ((L * L) * (c1 * c1) * (c2 * c2) * (dy * dy)) by ring. rewrite Q.
      replace (c1 * c1 * (c2 * c2) * ((dy * dy + dz * dz) * (dy * dy + dx * dx)))
        with ((c1 * c1 * (dy * dy + dz * dz)) * (c2 * c2 * (dy * dy + dx * dx))) by ring. rewrite P1, P2. reflexivity. }
    assert (Q3 : (dx * dz) * (dx * dz) = 0) by nra. apply Rmult_integral in Q3.
    assert (Q4 : dx * dz = 0) by tauto. apply Rmult_integral in Q4. unfold dx, dz in Q4. destruct Q4; [left | right]; lra.
  - intros [Hlt Hor]. assert (Hpos : 0 < dy) by (unfold dy; lra).
    assert (G : L * c1 * c2 = dy).
    { assert (Q : (L * c1 * c2) * (L * c1 * c2) = dy * dy).
      { replace (L * c1 * c2 * (L * c1 * c2)) with ((L * L) * (c1 * c1) * (c2 * c2)) by ring. rewrite HL.
        destruct Hor as [Hx|Hz].
        - assert (Dx : dx = 0) by (unfold dx; lra). rewrite Dx in *. assert (E2 : c2 * c2 = 1) by nra. rewrite E2. nra.
        - assert (Dz : dz = 0) by (unfold dz; lra). rewrite Dz in *. assert (E1 : c1 * c1 = 1) by nra. rewrite E1. nra. }
      assert (0 < L * c1 * c2) by (repeat apply Rmult_lt_0_compat; assumption). nra. }
    assert (GZ : L * c1 * dz = dy * dz).
    { destruct Hor as [Hx|Hz].
      - assert (Dx : dx = 0) by (unfold dx; lra). rewrite Dx in *. assert (E2 : c2 * c2 = 1) by nra. assert (c2 = 1) by nra.
        rewrite <- G. rewrite H. ring.
      - assert (Dz : dz = 0) by (unfold dz; lra). rewrite Dz. ring. }
    apply vec_ext; cbn [vx vy vz].
    + replace (L * c1 * (dx / dy * c2)) with (L * c1 * c2 * dx / dy) by (field; exact Hy). rewrite G. replace (dy * dx / dy) with dx by (field; exact Hy). unfold dx. lra.
    + rewrite G. unfold dy. lra.
    + replace (L * (dz / dy * c1)) with (L * c1 * dz / dy) by (field; exact Hy). rewrite GZ. replace (dy * dz / dy) with dz by (field; exact Hy). unfold dz; lra.
Qed.
Lemma base_angles_vertical l p span sweep heave : base_angles p l = (span, sweep, heave, true) -> vy p = vy l /\ sweep = 0 /\ heave = 0.
Proof.
  unfold base_angles. destruct (Reqb (vy p) (vy l)) eqn:E; cbn [negb]; [|discriminate]. apply Reqb_true in E. intros H. injection H as _ <- <-. auto.
Qed.
Lemma base_angles_y l p span sweep heave : base_angles p l = (span, sweep, heave, false) -> vy p <> vy l.
Proof. unfold base_angles. destruct (Reqb (vy p) (vy l)) eqn:E; cbn [negb]; [discriminate|]. apply Reqb_false in E. auto. Qed.
(** One section's leading edge at the start of the movement. *)
Lemma first_edge m n dt last l0 span sweep heave vertical h s :
  base_angles (cs_leading_edge (sm_base m)) l0 = (span, sweep, heave, vertical) ->
  generate_sections m n dt last vertical span sweep heave = Ok h -> length last = Z.to_nat n -> nth_error last 0 = Some l0 ->
  starts_at_base (sm_sweeping m) (sm_custom_sweep m) -> starts_at_base (sm_heaving m) (sm_custom_heave m) -> nth_error h 0 = Some s ->
  (cs_leading_edge s = cs_leading_edge (sm_base m) <-> representable l0 (cs_leading_edge (sm_base m))).
Proof.
  intros HB HG HL H0 HS HH Hs. apply generated_sections in HG; [|exact HL]. destruct HG as (_ & _ & sw & pi & he & E1 & E2 & E3 & HN).
  destruct (HN 0%nat s Hs) as (_ & _ & HN0). unfold representable. destruct vertical.
  - apply base_angles_vertical in HB. destruct HN0 as [HN0 _]. split; [left; tauto | intros _; exact HN0].
  - destruct HN0 as (l & a & b & c & F1 & F2 & F3 & F4 & HE & _). rewrite H0 in F1. injection F1 as <-.
    pose proof (oscillate_custom_start _ _ _ _ _ _ _ HS E1 F2) as ->. pose proof (oscillate_custom_start _ _ _ _ _ _ _ HH E3 F4) as ->.
    rewrite HE. rewrite (swung_back _ _ _ _ _ HB). apply base_angles_y in HB. split; [intros H; right; exact H|]. intros [H|H]; [congruence | exact H].
Qed.
Lemma cons_eq {A} (x y : A) l k : x :: l = y :: k -> x = y /\ l = k.
Proof. intros H. split; [exact (f_equal (hd x) H) | exact (f_equal (@tl A) H)]. Qed.
Lemma successive_cons P p q l : successive P (p :: q :: l) <-> P p q /\ successive P (q :: l).
Proof.
  split.
  - intros H. split; [apply (H 0%nat); reflexivity | intros i a b Ha Hb; apply (H (S i)); assumption].
  - intros [H1 H2] [|i] a b Ha Hb; [injection Ha as <-; injection Hb as <-; exact H1 | apply (H2 i); assumption].
Qed.
Lemma column_cons {A} (h : list A) hs i l : column (h :: hs) i = Ok l <-> exists x l', l = x :: l' /\ nth_error h i = Some x /\ column hs i = Ok l'.
Proof.
  unfold column; cbn [mapM]. split.
  - intros H. do 2 inv_ok H. apply Ok_eq in H. subst l. eexists _, _. split; [reflexivity|]. split; [apply index_Some; assumption | assumption].
  - intros (x & l' & -> & H1 & H2). apply index_Some in H1. rewrite H1. cbn [bind]. rewrite H2. reflexivity.
Qed.
Lemma outboard_edges n dt ms : forall last s0 hs sections,
  (forall sm, In sm ms -> starts_at_base (sm_sweeping sm) (sm_custom_sweep sm) /\ starts_at_base (sm_heaving sm) (sm_custom_heave sm)) ->
  section_histories n dt (Some last) ms = Ok hs -> length last = Z.to_nat n -> nth_error last 0 = Some s0 -> column hs 0 = Ok sections ->
  (map cs_leading_edge sections = map (fun sm => cs_leading_edge (sm_base sm)) ms <->
   successive representable (cs_leading_edge s0 :: map (fun sm => cs_leading_edge (sm_base sm)) ms)).
Proof.
  induction ms as [|m ms IH]; intros last s0 hs sections HS H HL H0 HC.
  - injection H as <-. injection HC as <-. cbn [map]. split; [intros _ [|i] p q Hp Hq; [discriminate Hq | destruct i; discriminate Hq] | reflexivity].
  - cbn [section_histories] in H. inv_ok H. rename v into h, E into EH. inv_ok H. rename v into rest, E into ER. apply Ok_eq in H. subst hs.
    inv_ok EH. rename v into l0, E into EI. apply index_Some in EI. rewrite nth_error_map, H0 in EI. injection EI as <-.
    destruct (base_angles (cs_leading_edge (sm_base m)) (cs_leading_edge s0)) as [[[span sweep] heave] vertical] eqn:EB.
    assert (LE : length (map cs_leading_edge last) = Z.to_nat n) by (rewrite map_length; exact HL).
    apply column_cons in HC. destruct HC as (s & sections' & -> & Hs & HC).
    destruct (HS m (or_introl eq_refl)) as [HS1 HS2].
    assert (H0' : nth_error (map cs_leading_edge last) 0 = Some (cs_leading_edge s0)) by (rewrite nth_error_map, H0; reflexivity).
    pose proof (first_edge m n dt _ _ _ _ _ _ h s EB EH LE H0' HS1 HS2 Hs) as HF.
    assert (LH : length h = Z.to_nat n) by (apply generated_sections in EH; [apply EH | exact LE]).
    specialize (IH h s rest sections' (fun sm Hi => HS sm (or_intror Hi)) ER LH Hs HC).
    cbn [map]. rewrite successive_cons, <- HF. split.
    + intros HE. apply cons_eq in HE. destruct HE as [HE1 HE2]. split; [exact HE1|]. rewrite HE1 in IH. apply IH. exact HE2.
    + intros [HE1 HE2]. f_equal; [exact HE1|]. rewrite HE1 in IH. apply IH. exact HE2.
Qed.
Lemma root_history m n dt h k : generate_sections m n dt (repeat vzero k) false 0 0 0 = Ok h -> k = Z.to_nat n ->
  length h = Z.to_nat n /\ forall i s, nth_error h i = Some s -> cs_leading_edge s = vzero.
Proof.
  intros H ->. apply generated_sections in H; [|apply repeat_length]. destruct H as (HL & _ & a & b & c & _ & _ & _ & HN). split; [exact HL|].
  intros i s Hs. destruct (HN i s Hs) as (_ & _ & l & sw & pi & he & F1 & _ & _ & _ & HE & _). rewrite HE. apply nth_repeat_some in F1. subst l.
  unfold swung, vzero; cbn [vx vy vz]. f_equal; ring.
Qed.
Lemma first_edges n dt ms hs sections :
  (forall sm, In sm ms -> starts_at_base (sm_sweeping sm) (sm_custom_sweep sm) /\ starts_at_base (sm_heaving sm) (sm_custom_heave sm)) ->
  section_histories n dt None ms = Ok hs -> column hs 0 = Ok sections ->
  let edges := map (fun sm => cs_leading_edge (sm_base sm)) ms in
  (map cs_leading_edge sections = edges <-> (forall root, nth_error edges 0 = Some root -> root = vzero) /\ successive representable edges).
Proof.
  intros HS H HC. cbn zeta. destruct ms as [|m ms].
  - injection H as <-. injection HC as <-. cbn. split; [|reflexivity]. intros _. split; [discriminate | intros [|i] p q Hp Hq; discriminate].
  - cbn [section_histories] in H. inv_ok H. rename v into h, E into EH. inv_ok H. rename v into rest, E into ER. apply Ok_eq in H. subst hs.
    do 2 inv_ok EH. apply count_spec in E0. destruct E0 as [_ E0]. destruct (root_history _ _ _ _ _ EH E0) as [LH HR].
    apply column_cons in HC. destruct HC as (s & sections' & -> & Hs & HC). pose proof (HR 0%nat s Hs) as Hs0.
    pose proof (outboard_edges n dt ms h s rest sections' (fun sm Hi => HS sm (or_intror Hi)) ER LH Hs HC) as HO.
    cbn [map]. rewrite Hs0 in *. split.
    + intros HE. apply cons_eq in HE. destruct HE as [HE1 HE2]. split; [intros root [= <-]; symmetry; exact HE1|]. rewrite <- HE1. apply HO. exact HE2.
    + intros [HR0 HE2]. specialize (HR0 _ eq_refl). rewrite HR0 in *. f_equal. apply HO. exact HE2.
Qed.
Lemma first_wing m n dt ws w : generate_wings m n dt = Ok ws -> nth_error ws 0 = Some w -> sections_start_at_base m ->
  w_leading_edge w = w_leading_edge (wm_base m) /\
  (map cs_leading_edge (w_sections w) = base_edges m <->
   (forall root, nth_error (base_edges m) 0 = Some root -> root = vzero) /\ successive representable (base_edges m)).
Proof.
  intros H Hw HS. destruct (generated_wings _ _ _ _ H) as (_ & _ & xs & ys & zs & hs & E1 & E2 & E3 & EH & HN).
  destruct (HN _ _ Hw) as (x & y & z & sections & F1 & F2 & F3 & EC & EW). apply wing_attributes in EW.
  destruct EW as (_ & W2 & _ & _ & _ & _ & _ & W8 & _). split.
  - rewrite W2. rewrite (oscillate_start _ _ _ _ _ _ E1 F1), (oscillate_start _ _ _ _ _ _ E2 F2), (oscillate_start _ _ _ _ _ _ E3 F3). reflexivity.
  - rewrite W8, map_map. cbn [cs_leading_edge cs_set_wing_chordwise cs_x_le cs_y_le cs_z_le].
    exact (first_edges n dt (wm_sections m) hs sections HS EH EC).
Qed.
(** ** Success *)
Lemma mapM_In {A B} (f : A -> result B) l m x : mapM f l = Ok m -> In x l -> exists y, f x = Ok y.
Proof.
  revert m; induction l as [|a l IH]; intros m H Hx; [destruct Hx|]. cbn [mapM] in H. do 2 inv_ok H. destruct Hx as [->|Hx]; [eauto | eapply IH; eauto].
Qed.
Lemma succeeds_ok {A} (x : A) : succeeds (Ok x). Proof. exists x; reflexivity. Qed.
Lemma count_succeeds n : (0 <= n)%Z -> count n = Ok (Z.to_nat n).
Proof. intros H. apply count_spec. auto. Qed.
Lemma oscillate_succeeds o base n dt : (0 <= n)%Z -> (succeeds (oscillate o base n dt) <-> good_spacing o).
Proof.
  intros Hn. unfold oscillate, good_spacing, oscillating_sinspace, oscillating_linspace. rewrite (count_succeeds n Hn). cbn [bind].
  destruct (String.eqb_spec (osc_spacing o) "sine") as [->|N1].
  { split; [intros _; cbn; auto | intros _; destruct (_ || _); apply succeeds_ok]. }
  destruct (String.eqb_spec (osc_spacing o) "uniform") as [->|N2].
  { split; [intros _; cbn; auto | intros _; destruct (_ || _); apply succeeds_ok]. }
  split; [intros [x H]; discriminate H | intros [H|[H|[]]]; congruence].
Qed.
Lemma oscillate_custom_succeeds o c base n dt : (0 <= n)%Z -> (succeeds (oscillate_custom o c base n dt) <-> good_custom o c).
Proof.
  intros Hn. unfold oscillate_custom, good_custom, good_spacing, oscillating_sinspace, oscillating_linspace, oscillating_customspace.
  rewrite (count_succeeds n Hn). cbn [bind].
  destruct (String.eqb_spec (osc_spacing o) "sine") as [->|N1].
  { split; [intros _; cbn; auto | intros _; destruct (_ || _); apply succeeds_ok]. }
  destruct (String.eqb_spec (osc_spacing o) "uniform") as [->|N2].
  { split; [intros _; cbn; auto | intros _; destruct (_ || _); apply succeeds_ok]. }
  destruct (String.eqb_spec (osc_spacing o) "custom") as [->|N3].
  { destruct c as [f|]; split.
    - intros _; right; split; [reflexivity | discriminate].
    - intros _; destruct (_ || _); apply succeeds_ok.
    - intros [x H]; discriminate H.
    - intros [[H|[H|[]]]|[_ H]]; [discriminate | discriminate | congruence]. }
  split; [intros [x H]; discriminate H | intros [[H|[H|[]]]|[H _]]; congruence].
Qed.
Lemma oscillate_custom_len o c base n dt l : oscillate_custom o c base n dt = Ok l -> length l = Z.to_nat n.
Proof. intros H. apply (oscillate_custom_length _ _ _ _ _ _ H). Qed.
Lemma combine4_in {A B C D} (a : list A) (b : list B) (c : list C) (d : list D) n q : length a = S n -> length b = S n -> length c = S n -> length d = S n ->
  q = tt -> exists x, In x (combine (combine a b) (combine c d)).
Proof.
  intros H1 H2 H3 H4 _. destruct a, b, c, d; try discriminate. cbn [combine]. eexists; left; reflexivity.
Qed.
Lemma section_at_succeeds b x y z t :
  succeeds (section_at b x y z t) <-> all_hold (section_rules (cs_chord b) (cs_control_surface_type b) (cs_spanwise_spacing b)).
Proof. unfold section_at. apply section_created_iff. Qed.
Lemma sections_succeed m n dt last vertical span sweep heave : (1 <= n)%Z -> length last = Z.to_nat n ->
  (succeeds (generate_sections m n dt last vertical span sweep heave) <-> section_movable m).
Proof.
  intros Hn HL. assert (H0 : (0 <= n)%Z) by lia. unfold section_movable, generate_sections.
  rewrite <- (oscillate_custom_succeeds (sm_sweeping m) (sm_custom_sweep m) sweep n dt H0).
  rewrite <- (oscillate_custom_succeeds (sm_pitching m) (sm_custom_pitch m) (cs_twist (sm_base m)) n dt H0).
  rewrite <- (oscillate_custom_succeeds (sm_heaving m) (sm_custom_heave m) heave n dt H0).
  split.
  - intros [h H]. inv_ok H. rename v into sw, E into E1. inv_ok H. rename v into pi, E into E2. inv_ok H. rename v into he, E into E3.
    inv_ok H. rename v into k, E into E4. apply count_spec in E4. destruct E4 as [_ ->].
    split; [|split; [|split]; eexists; eassumption].
    pose proof (oscillate_custom_len _ _ _ _ _ _ E1) as L1. pose proof (oscillate_custom_len _ _ _ _ _ _ E2) as L2. pose proof (oscillate_custom_len _ _ _ _ _ _ E3) as L3.
    unfold map4M in H. 
    match type of H with mapM _ (combine (combine ?a ?b) (combine ?c ?d)) = _ => destruct (combine4_in a b c d (pred (Z.to_nat n)) tt) as [q Hq] end.
    1-4: destruct vertical; rewrite ?repeat_length, ?map2_length, ?combine_length, ?L1, ?L2, ?L3, ?HL; lia.
    { reflexivity. }
    destruct (mapM_In _ _ _ _ H Hq) as (s & Hs). eapply (proj1 (section_at_succeeds _ _ _ _ _)). exists s. exact Hs.
  - intros (HR & [sw E1] & [pi E2] & [he E3]). rewrite E1. cbn [bind]. rewrite E2. cbn [bind]. rewrite E3. cbn [bind]. rewrite (count_succeeds n H0). cbn [bind].
    unfold map4M. apply mapM_all_ok. intros x _. apply section_at_succeeds. exact HR.
Qed.
Lemma histories_succeed n dt ms : (1 <= n)%Z -> forall last, (forall l, last = Some l -> length l = Z.to_nat n) ->
  (succeeds (section_histories n dt last ms) <->
   Forall section_movable ms /\ (last = None -> forall root, nth_error ms 0 = Some root -> still (sm_sweeping root) /\ still (sm_heaving root))).
Proof.
  intros Hn. assert (H0 : (0 <= n)%Z) by lia. induction ms as [|m ms IH]; intros last HL.
  - split; [|intros _; apply succeeds_ok]. intros _. split; [constructor|]. discriminate.
  - cbn [section_histories].
    assert (G : succeeds (match last with
        | None =>
            let* _ := check (root_fixed m) ERootSectionMoves in
            let* k := count n in generate_sections m n dt (repeat vzero k) false 0 0 0
        | Some sections =>
            let les := map cs_leading_edge sections in
            let* first := index les 0 in
            let '(span, sweep, heave, vertical) := base_angles (cs_leading_edge (sm_base m)) first in
            generate_sections m n dt les vertical span sweep heave
        end) <-> section_movable m /\ (last = None -> still (sm_sweeping m) /\ still (sm_heaving m))).
    { destruct last as [l|].
      - specialize (HL l eq_refl). destruct l as [|s l]; [cbn in HL; lia|]. cbn [map index nth_error bind]. cbn zeta.
        destruct (base_angles (cs_leading_edge (sm_base m)) (cs_leading_edge s)) as [[[span sweep] heave] vertical]. rewrite sections_succeed; [|exact Hn|].
        + split; [intros H; split; [exact H | discriminate] | tauto].
        + cbn [length map] in *. rewrite map_length. exact HL.
      - rewrite (count_succeeds n H0). unfold root_fixed, check, still. cbn [bind].
        destruct (Reqb (osc_amplitude (sm_sweeping m)) 0) eqn:Q1; cbn [andb bind]; [apply Reqb_true in Q1 | apply Reqb_false in Q1; split; [intros [x H]; discriminate H | intros [_ H]; destruct (H eq_refl); tauto]].
        destruct (Reqb (osc_period (sm_sweeping m)) 0) eqn:Q2; cbn [andb bind]; [apply Reqb_true in Q2 | apply Reqb_false in Q2; split; [intros [x H]; discriminate H | intros [_ H]; destruct (H eq_refl); tauto]].
        destruct (Reqb (osc_amplitude (sm_heaving m)) 0) eqn:Q3; cbn [andb bind]; [apply Reqb_true in Q3 | apply Reqb_false in Q3; split; [intros [x H]; discriminate H | intros [_ H]; destruct (H eq_refl); tauto]].
        destruct (Reqb (osc_period (sm_heaving m)) 0) eqn:Q4; cbn [andb bind]; [apply Reqb_true in Q4 | apply Reqb_false in Q4; split; [intros [x H]; discriminate H | intros [_ H]; destruct (H eq_refl); tauto]].
        rewrite sections_succeed; [|exact Hn | apply repeat_length]. tauto. }
    match type of G with succeeds ?r <-> _ => set (hr := r) in *; destruct hr as [h|e] eqn:EH; subst hr end.
    + cbn [bind]. assert (LH : length h = Z.to_nat n).
      { destruct last as [l|].
        - specialize (HL l eq_refl). cbn beta zeta in EH. inv_ok EH. destruct (base_angles (cs_leading_edge (sm_base m)) v) as [[[span sweep] heave] vertical].
          apply generated_sections in EH; [apply EH | rewrite map_length; exact HL].
        - do 2 inv_ok EH. apply count_spec in E0. destruct E0 as [_ ->]. apply generated_sections in EH; [apply EH | apply repeat_length]. }
      assert (HL' : forall l, Some h = Some l -> length l = Z.to_nat n) by (intros l [= <-]; exact LH). specialize (IH (Some h) HL').
      assert (GM : section_movable m /\ (last = None -> still (sm_sweeping m) /\ still (sm_heaving m))) by (apply G; apply succeeds_ok).
      split.
      * intros [hs H]. inv_ok H. split; [constructor; [apply GM|]; apply IH; eexists; eassumption | intros HN root [= <-]; apply GM; exact HN].
      * intros [HF _]. inversion HF; subst. destruct (proj2 IH) as [hs ->]; [split; [assumption | discriminate]|]. apply succeeds_ok.
    + cbn [bind]. split; [intros [x H]; discriminate H|]. intros [HF HR]. exfalso.
      assert (X : succeeds (Err e : result (list section))); [|destruct X as [x X]; discriminate X].
      apply G. inversion HF; subst. split; [assumption|]. intros HN. apply (HR HN). reflexivity.
Qed.
(** Meshability depends only on what snapshots keep. *)
Lemma adjacent_Forall2 {A B} (P : A -> B -> Prop) l k : Forall2 P l k -> Forall2 (fun p q => P (fst p) (fst q) /\ P (snd p) (snd q)) (adjacent l) (adjacent k).
Proof.
  unfold adjacent. induction 1 as [|x y l k Hxy H IH]; [constructor|]. destruct H as [|x' y' l k Hxy' H]; cbn [tl combine] in *; [constructor|].
  constructor; [auto | exact IH].
Qed.
Lemma Forall2_in_l {A B} (P : A -> B -> Prop) l k x : Forall2 P l k -> In x l -> exists y, In y k /\ P x y.
Proof. induction 1; intros Hx; [destruct Hx|]. destruct Hx as [->|Hx]; [eexists; split; [left; reflexivity | assumption]|]. destruct (IHForall2 Hx) as (z & Hz & Pz). exists z. split; [right|]; assumption. Qed.
Lemma Forall2_sym {A B} (P : A -> B -> Prop) l k : Forall2 P l k -> Forall2 (fun y x => P x y) k l.
Proof. induction 1; constructor; auto. Qed.
Lemma takes_kept b s d h : section_kept b s -> (takes_flap b d h <-> takes_flap s d h).
Proof. intros (H & _). unfold takes_flap. rewrite H. tauto. Qed.
Lemma kept_sym b s : section_kept b s -> section_kept s b.
Proof. unfold section_kept. intros H. decompose [and] H. repeat split; symmetry; assumption. Qed.
Lemma meshable_kept bs ss sym nc : Forall2 section_kept bs ss -> meshable bs sym nc -> meshable ss sym nc.
Proof.
  intros HF [Hn HM]. split; [exact Hn|]. intros i o Hio. apply Forall2_sym in HF. apply adjacent_Forall2 in HF.
  destruct (Forall2_in_l _ _ _ _ HF Hio) as ([bi bo] & Hin & Hi & Ho). cbn [fst snd] in Hi, Ho. specialize (HM bi bo Hin). cbn zeta in *.
  pose proof Hi as (_ & _ & E3 & E4 & E5 & E6 & _). rewrite E4, E5, E6. destruct HM as (M1 & M2 & M3).
  assert (EP : port_deflection i = port_deflection bi) by (unfold port_deflection; rewrite E3, E5; reflexivity). rewrite EP.
  rewrite <- !(takes_kept bi i), <- !(takes_kept bo o) by assumption. tauto.
Qed.
Lemma y_vec : default_unit_normal <> vzero.
Proof. intros H. apply (f_equal vy) in H. cbn in H. lra. Qed.
Lemma history_root n dt ms hs i s : section_histories n dt None ms = Ok hs -> column hs i = Ok s -> forall root, nth_error s 0 = Some root -> cs_leading_edge root = vzero.
Proof.
  intros H HC root Hr. destruct ms as [|m ms]; [injection H as <-; injection HC as <-; discriminate Hr|].
  cbn [section_histories] in H. inv_ok H. rename v into h, E into EH. inv_ok H. rename v into rest, E into ER. apply Ok_eq in H. subst hs.
  do 2 inv_ok EH. apply count_spec in E0. destruct E0 as [_ E0]. destruct (root_history _ _ _ _ _ EH E0) as [LH HR].
  apply column_cons in HC. destruct HC as (s' & sections' & -> & Hs & HC). injection Hr as <-. exact (HR i s' Hs).
Qed.
Lemma column_succeeds {A} (hs : list (list A)) n i : Forall (fun h => length h = n) hs -> (i < n)%nat -> succeeds (column hs i).
Proof.
  intros HF Hi. unfold column. apply mapM_all_ok. intros h Hh. rewrite Forall_forall in HF. specialize (HF h Hh).
  destruct (nth_error h i) as [x|] eqn:E; [exists x; apply index_Some; exact E | apply nth_error_None in E; lia].
Qed.
Lemma index_succeeds {A} (l : list A) i : (i < length l)%nat -> exists x, index l i = Ok x.
Proof. intros H. destruct (nth_error l i) as [x|] eqn:E; [exists x; apply index_Some; exact E | apply nth_error_None in E; lia]. Qed.
Lemma history_lengths n ms hs : Forall2 (history_of n) ms hs -> Forall (fun h => length h = Z.to_nat n) hs.
Proof. induction 1 as [|? ? ? ? H]; constructor; [apply H | assumption]. Qed.
Lemma column_kept n ms hs i l : Forall2 (history_of n) ms hs -> column hs i = Ok l ->
  Forall2 (fun m s => section_kept (sm_base m) s /\ section_reset s) ms l.
Proof. intros HF HC. refine (column_Forall2 _ _ _ _ _ _ _ HF HC). intros m h x Hm Hx. exact (history_at _ _ _ _ _ Hm Hx). Qed.
Lemma wing_rules_reset l sp : all_hold (wing_rules l sp default_unit_normal default_unit_chordwise) <->
  (2 <= length l)%nat /\ In sp ["cosine"; "uniform"]%string /\ (forall root, nth_error l 0 = Some root -> cs_unit_normal root = default_unit_normal) /\
  (forall root, nth_error l 0 = Some root -> cs_leading_edge root = vzero) /\ vdot default_unit_chordwise default_unit_normal = 0 /\
  (forall s, In s l -> vdot default_unit_chordwise (cs_unit_normal s) = 0).
Proof.
  unfold wing_rules. rewrite !all_hold_cons. assert (all_hold []) by (intros P e []). tauto.
Qed.
Lemma wings_succeed m n dt : (1 <= n)%Z -> (succeeds (generate_wings m n dt) <-> wing_movable m).
Proof.
  intros Hn. assert (H0 : (0 <= n)%Z) by lia. unfold wing_movable. split.
  - intros [ws H]. destruct (generated_wings _ _ _ _ H) as (HLw & _ & xs & ys & zs & hs & E1 & E2 & E3 & EH & HN).
    destruct ws as [|w ws]; [cbn in HLw; lia|]. destruct (HN 0%nat w eq_refl) as (x & y & z & l & F1 & F2 & F3 & EC & EW).
    assert (HO : Forall2 (history_of n) (wm_sections m) hs) by (apply (histories_spec n dt _ _ _ EH); discriminate).
    pose proof (column_kept _ _ _ _ _ HO EC) as HK.
    destruct (proj1 (wing_created_iff _ _ _ _ _ _ _ _ _ _ y_vec) (ex_intro _ w EW)) as [HR HM]. apply wing_rules_reset in HR.
    assert (LS : length l = length (wm_sections m)) by (symmetry; apply (Forall2_length _ _ _ HK)).
    assert (HS : Forall section_movable (wm_sections m) /\ ((None : option (list section)) = None -> forall root, nth_error (wm_sections m) 0 = Some root -> still (sm_sweeping root) /\ still (sm_heaving root))).
    { apply (histories_succeed n dt (wm_sections m) Hn None); [discriminate | exists hs; exact EH]. }
    split; [rewrite <- LS; apply HR|]. split; [apply HR|]. split.
    { refine (meshable_kept l _ _ _ _ HM). apply Forall2_sym. apply Forall2_mapl. refine (Forall2_weaken _ _ _ _ _ HK). intros a b [Hk _]. apply kept_sym. exact Hk. }
    split; [apply HS|]. split; [apply HS; reflexivity|].
    split; [|split]; [apply (oscillate_succeeds _ (w_x_le (wm_base m)) n dt H0) | apply (oscillate_succeeds _ (w_y_le (wm_base m)) n dt H0) | apply (oscillate_succeeds _ (w_z_le (wm_base m)) n dt H0)]; eexists; eassumption.
  - intros (H2 & Hsp & HM & HF & HR & G1 & G2 & G3). unfold generate_wings.
    apply (oscillate_succeeds _ (w_x_le (wm_base m)) n dt H0) in G1. apply (oscillate_succeeds _ (w_y_le (wm_base m)) n dt H0) in G2.
    apply (oscillate_succeeds _ (w_z_le (wm_base m)) n dt H0) in G3. destruct G1 as [xs E1], G2 as [ys E2], G3 as [zs E3]. rewrite E1. cbn [bind]. rewrite E2. cbn [bind]. rewrite E3. cbn [bind].
    assert (HS : succeeds (section_histories n dt None (wm_sections m))) by (apply (histories_succeed n dt _ Hn None); [discriminate | auto]).
    destruct HS as [hs EH]. rewrite EH. cbn [bind]. apply mapM_all_ok. intros i Hi. apply in_seq in Hi.
    assert (HO : Forall2 (history_of n) (wm_sections m) hs) by (apply (histories_spec n dt _ _ _ EH); discriminate).
    destruct (oscillate_length _ _ _ _ _ E1) as [L1 _], (oscillate_length _ _ _ _ _ E2) as [L2 _], (oscillate_length _ _ _ _ _ E3) as [L3 _].
    destruct (index_succeeds xs i) as [x ->]; [lia|]. destruct (index_succeeds ys i) as [y ->]; [lia|]. destruct (index_succeeds zs i) as [z ->]; [lia|]. cbn [bind].
    destruct (column_succeeds hs (Z.to_nat n) i (history_lengths _ _ _ HO)) as [l EC]; [lia|]. rewrite EC. cbn [bind].
    pose proof (column_kept _ _ _ _ _ HO EC) as HK. apply wing_created_iff; [exact y_vec|].
    assert (LS : length l = length (wm_sections m)) by (symmetry; apply (Forall2_length _ _ _ HK)). split.
    + apply wing_rules_reset. split; [lia|]. split; [exact Hsp|].
      assert (HNs : forall s, In s l -> cs_unit_normal s = default_unit_normal).
      { intros s Hs. apply Forall2_sym in HK. destruct (Forall2_in_l _ _ _ _ HK Hs) as (b & _ & _ & Hr). exact Hr. }
      split; [intros root Hr; apply HNs; eapply nth_error_In; exact Hr|]. split; [exact (history_root _ _ _ _ _ _ EH EC)|].
      assert (HD : vdot default_unit_chordwise default_unit_normal = 0) by (unfold vdot, default_unit_chordwise, default_unit_normal; cbn [vx vy vz]; ring).
      split; [exact HD|]. intros s Hs. rewrite (HNs s Hs). exact HD.
    + refine (meshable_kept _ _ _ _ _ HM). apply Forall2_mapl. refine (Forall2_weaken _ _ _ _ _ HK). intros a b [Hk _]. exact Hk.
Qed.
