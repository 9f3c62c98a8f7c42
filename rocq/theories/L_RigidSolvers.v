(** The steady solvers commute with rigid motions. *)
From Coq Require Import Lra Lia.
From Verif Require Import M_Loads M_Horseshoe M_SteadyRing S_Geometry S_Vortices S_Solve S_Loads S_Mirror S_Rigid
  L_Base L_Rotations L_Loads L_Aero L_Horseshoe L_SteadyRing L_RingLegs L_Meshing L_Mirror L_MirrorHorseshoe L_MirrorRing L_Rigid.

Lemma no_leg x o g age nu : line_velocity x o o g age nu = vzero.
Proof.
  assert (H : line_velocity x o o g age nu = vopp (line_velocity x o o g age nu)) by apply line_velocity_reverse.
  revert H. generalize (line_velocity x o o g age nu). intros [a b c] H.
  pose proof (f_equal vx H) as H1. pose proof (f_equal vy H) as H2. pose proof (f_equal vz H) as H3. cbn in H1, H2, H3.
  apply vec_ext; cbn; lra.
Qed.
Lemma no_shoe x g age nu : shoe_velocity x vzero vzero vzero vzero g age nu = vzero.
Proof. unfold shoe_velocity. rewrite !no_leg. vring. Qed.

Section Motion.
Context (m : mat) (t : vec) (HR : proper_rotation m).
Notation mv := (moved m t).
Notation lin := (mvmul m).

(** ** Linear systems *)
Section System.
Context {T : Type} (coll normal : T -> vec) (uv : vec -> T -> vec).
Definition sys_moved (r r' : T) : Prop :=
  coll r' = mv (coll r) /\ normal r' = lin (normal r) /\ forall x, uv (mv x) r' = lin (uv x r).
Lemma moved_matrix rows rows' : Forall2 sys_moved rows rows' -> sys_matrix coll normal uv rows' = sys_matrix coll normal uv rows.
Proof.
  intros F. unfold sys_matrix. refine (map_related sys_moved _ _ _ _ _ F). intros s s' (Hc & Hn & _).
  refine (map_related sys_moved _ _ _ _ _ F). intros r r' (_ & _ & H). rewrite Hc, Hn, H. apply (lin_dot m HR).
Qed.
Lemma moved_rhs rows rows' v : Forall2 sys_moved rows rows' -> sys_rhs normal rows' (lin v) = sys_rhs normal rows v.
Proof.
  intros F. unfold sys_rhs. induction F as [|r r' l l' (_ & H & _) _ IH]; cbn [map]; [reflexivity|]. rewrite H, (lin_dot m HR), IH. reflexivity.
Qed.
Lemma moved_velocity rows rows' xs v x : Forall2 sys_moved rows rows' ->
  sys_velocity uv rows' xs (lin v) (mv x) = lin (sys_velocity uv rows xs v x).
Proof.
  intros F. unfold sys_velocity. rewrite lin_add. f_equal. revert xs. induction F as [|r r' l l' (_ & _ & H) _ IH]; intros [|g xs]; cbn [combine map];
    try (symmetry; apply lin_zero). cbn [fst snd]. rewrite !vsum_cons, IH, H, lin_add, lin_scale. reflexivity.
Qed.
End System.

(** ** The horseshoe solver *)
Lemma hs_row_moved d d' x x' : d' = lin d -> moved_panel m t (snd x) (snd x') -> w_span (snd (fst x')) = w_span (snd (fst x)) ->
  sys_moved hr_collocation hr_normal hs_unit (hs_row_of d x) (hs_row_of d' x').
Proof.
  destruct x as [[a w] p], x' as [[a' w'] p']. intros -> Hp Hw. cbn [fst snd] in *.
  destruct (moved_points m t HR p p' Hp) as (V1 & V2 & V3 & V4 & _).
  split; [exact V3|]. split; [exact V4|]. intros y.
  unfold hs_row_velocity, hr_back_right, hr_front_right, hr_front_left, hr_back_left. cbn. rewrite V1, V2, Hw.
  rewrite <- (moved_shoe m t HR), <- !moved_add, !lin_scale. reflexivity.
Qed.
Lemma hs_rows_moved op op' l l' : turned_flow m op op' -> moved_airplanes m t l l' ->
  Forall2 (sys_moved hr_collocation hr_normal hs_unit) (hs_rows_of op l) (hs_rows_of op' l').
Proof.
  intros Hop G. apply moved_flat in G. unfold hs_rows_of. induction G as [|x x' xs xs' (Hp & Hs) _ IH]; cbn [map]; constructor; auto.
  apply hs_row_moved; auto. apply (turned_direction m op op' Hop).
Qed.
Lemma leg_moved k l l' a b g a' b' g' : leg_is l a b g -> leg_is l' a' b' g' -> a' = mv a -> b' = mv b -> k = lv_center l ->
  lv_center l' = mv k /\ lv_vector l' = lin (lv_vector l).
Proof.
  intros (_ & _ & _ & V & C) (_ & _ & _ & V' & C') -> -> ->. rewrite V, C, V', C', moved_midpoint, moved_sub. auto.
Qed.
Lemma force_moved rho rho' g g' v v' u u' : rho' = rho -> g' = g -> v' = lin v -> u' = lin u ->
  vscale (rho' * g') (vcross v' u') = lin (vscale (rho * g) (vcross v u)).
Proof. intros -> -> -> ->. rewrite (lin_cross m HR), lin_scale. reflexivity. Qed.

Lemma hs_moved solve l l' op op' s : SolveSpec solve -> turned_flow m op op' -> moved_airplanes m t l l' ->
  hs_run solve (hs_new l op) = Ok s ->
  exists s', hs_run solve (hs_new l' op') = Ok s' /\
    (forall x v, hs_solution_velocity s [x] = [v] -> hs_solution_velocity s' [mv x] = [lin v]) /\
    Forall2 (moved_solution m t op' horseshoe_strength) (hso_airplanes s) (hso_airplanes s').
Proof.
  intros HS Hop HM E. pose proof (hs_rows_moved op op' l l' Hop HM) as Rw.
  pose proof E as E0. apply hs_run_inv in E0. cbv zeta in E0. cbn [hs_new hso_op hso_airplanes hso_freestream] in E0.
  destruct E0 as (Eo & Ev & Er & Es & _).
  assert (Es2 : solve (hs_influences (hs_rows_of op' l')) (map Ropp (freestream_influences (map hr_normal (hs_rows_of op' l')) (freestream_velocity op'))) = Ok (hso_strengths s)).
  { rewrite hs_sys_matrix, hs_sys_rhs, (turned_freestream m op op' Hop), (moved_matrix _ _ _ _ _ Rw), (moved_rhs _ _ _ _ _ _ Rw), <- hs_sys_matrix, <- hs_sys_rhs. exact Es. }
  destruct (hs_run_total solve (hs_new l' op') _ HS Es2) as (s' & E' & Ex'). exists s'. split; [exact E'|].
  pose proof E' as E0'. apply hs_run_inv in E0'. cbv zeta in E0'. cbn [hs_new hso_op hso_airplanes hso_freestream] in E0'.
  destruct E0' as (Eo' & Ev' & Er' & _).
  destruct (hs_solution_length _ _ _ HS E) as [L1 _]. destruct (hs_solution_length _ _ _ HS E') as [L3 _].
  assert (V : forall x, hs_velocity_at (hso_rows s') (hso_strengths s') (hso_freestream s') (mv x) =
                        lin (hs_velocity_at (hso_rows s) (hso_strengths s) (hso_freestream s) x)).
  { intros x. rewrite Er, Er', Ev, Ev', Ex', !hs_sys_velocity, (turned_freestream m op op' Hop). exact (moved_velocity _ _ _ _ _ _ _ _ Rw). }
  split.
  { intros x v. rewrite !hs_velocity_at_spec by assumption. intros H. injection H as <-. rewrite V. reflexivity. }
  pose proof (hs_run_same _ _ _ E) as F1. pose proof (hs_run_same _ _ _ E') as F3. cbn [hs_new hso_airplanes] in F1, F3.
  pose proof (hs_final_strengths _ _ _ HS E) as X1. pose proof (hs_final_strengths _ _ _ HS E') as X3. rewrite Ex' in X3.
  set (l1 := hso_airplanes s) in *. set (l3 := hso_airplanes s') in *.
  assert (M1 : Forall2 (moved_airplane (fun _ _ => moved_panel m t)) l1 l3).
  { refine (moved_tree_same _ _ _ _ _ _ _ F1 F3 HM). intros a a' b b' p p' q q' _ _. apply moved_panel_same. }
  pose proof (moved_tree_both _ _ _ _ M1 (strengths_same _ _ _ _ X1 X3)) as M2.
  assert (M4 : Forall2 (moved_airplane (fun a a' p p' => moved_panel m t p p' /\ moved_loads m t op' a a' p p' /\ horseshoe_strength p <> None /\
                 horseshoe_strength p' = horseshoe_strength p)) l1 l3).
  { refine (moved_tree_impl _ _ _ _ _ M2). intros a a' w w' p p' Ha Ha' _ _ Hp Hp' (Hm & Hst). split; [exact Hm|].
    split; [|split; [|exact Hst]].
    2:{ apply (strengths_known horseshoe_strength _ _ p X1). apply in_all_panels. exists a. auto. }
    destruct (horseshoe_kutta_joukowski _ _ _ HS E a p Ha Hp) as (h & v & g & Hh & (_ & Lg & _) & O1 & O2 & Hv & Hf & G1 & G2 & _).
    destruct (horseshoe_kutta_joukowski _ _ _ HS E' a' p' Ha' Hp') as (h' & v' & g' & Hh' & (_ & Lg' & _) & O1' & O2' & Hv' & Hf' & G1' & G2' & _).
    unfold horseshoe_strength in Hst. rewrite Hh, Hh' in Hst. cbn [option_map] in Hst. apply Some_eq' in Hst.
    destruct (moved_points m t HR p p' Hm) as (V1 & V2 & _). rewrite O1, O2 in Lg. rewrite O1', O2' in Lg'.
    destruct (leg_moved _ _ _ _ _ _ _ _ _ Lg Lg' V1 V2 eq_refl) as [Hc Hvec].
    rewrite hs_velocity_at_spec in Hv, Hv' by assumption. apply cons_eq' in Hv, Hv'. destruct Hv as [Hv _], Hv' as [Hv' _].
    assert (Hvv : v' = lin v) by (rewrite <- Hv, <- Hv', Hc; apply V).
    assert (Hg : g' = lin g).
    { rewrite Hf, Hf'. apply force_moved; auto. rewrite Eo', Eo. apply Hop. }
    apply (moved_loads_from m t HR op op' a a' p p' _ _ Hop Hm (proj2 (hs_processed _ _ _ E a Ha) p Hp) (proj2 (hs_processed _ _ _ E' a' Ha') p' Hp') G1 G2).
    - rewrite G1', Hg. reflexivity.
    - rewrite G2', Hg, Hc. f_equal. apply (moment_moved m t HR). }
  assert (Y : forall a a', In a l1 -> In a' l3 -> moved_airplane (fun a a' p p' => moved_panel m t p p' /\ moved_loads m t op' a a' p p' /\ horseshoe_strength p <> None /\
                 horseshoe_strength p' = horseshoe_strength p) a a' -> moved_solution m t op' horseshoe_strength a a').
  { intros a a' Ha Ha' Hm. split; [|exact Hm].
    refine (moved_totals_from m t op op' _ a a' Hop _ Hm (proj1 (hs_processed _ _ _ E a Ha)) (proj1 (hs_processed _ _ _ E' a' Ha'))).
    intros p p' H. apply H. }
  clear -M4 Y. induction M4; constructor; [apply Y; cbn; auto|]. apply IHM4. intros; apply Y; cbn; auto.
Qed.

(** ** The ring solver *)
Definition moved_core (c c' : core) : Prop :=
  k_coll c' = mv (k_coll c) /\ k_normal c' = lin (k_normal c) /\
  k_br c' = mv (k_br c) /\ k_fr c' = mv (k_fr c) /\ k_fl c' = mv (k_fl c) /\ k_bl c' = mv (k_bl c) /\
  ((k_hbr c' = mv (k_hbr c) /\ k_hfr c' = mv (k_hfr c) /\ k_hfl c' = mv (k_hfl c) /\ k_hbl c' = mv (k_hbl c)) \/
   (k_hbr c' = vzero /\ k_hfr c' = vzero /\ k_hfl c' = vzero /\ k_hbl c' = vzero /\
    k_hbr c = vzero /\ k_hfr c = vzero /\ k_hfl c = vzero /\ k_hbl c = vzero)).
Lemma moved_core_sys c c' : moved_core c c' -> sys_moved k_coll k_normal core_velocity c c'.
Proof.
  intros (H1 & H2 & H3 & H4 & H5 & H6 & H). split; [exact H1|]. split; [exact H2|]. intros x. unfold core_velocity.
  rewrite H3, H4, H5, H6, (moved_quad m t HR), lin_add. f_equal. destruct H as [(K1 & K2 & K3 & K4)|(K1 & K2 & K3 & K4 & K5 & K6 & K7 & K8)].
  - rewrite K1, K2, K3, K4. apply (moved_shoe m t HR).
  - rewrite K1, K2, K3, K4, K5, K6, K7, K8, !no_shoe. symmetry. apply lin_zero.
Qed.
Definition moved_ring (p p' : panel) : Prop :=
  moved_panel m t p p' /\ p_ring_vortex p <> None /\ p_ring_vortex p' <> None /\ moved_core (core_of p) (core_of p').
Lemma moved_init d len g g' c s p p' q q' : moved_panel m t p p' -> p_is_trailing_edge p' = p_is_trailing_edge p ->
  (forall n n', panel_at g (S c) s = Ok n -> panel_at g' (S c) s = Ok n' -> moved_panel m t n n') ->
  ring_init_panel d len g c s p = Ok q -> ring_init_panel (lin d) len g' c s p' = Ok q' -> moved_ring q q'.
Proof.
  intros Hp Ht Hn E E'. destruct (moved_points m t HR p p' Hp) as (V1 & V2 & V3 & V4 & _).
  unfold ring_init_panel in E, E'. rewrite Ht in E'. destruct (p_is_trailing_edge p) eqn:T.
  - apply Ok_eq in E, E'. subst q q'. split; [exact Hp|]. split; [discriminate|]. split; [discriminate|].
    unfold moved_core, core_of. cbn [p_ring_vortex p_set_ring p_set_horseshoe p_is_trailing_edge p_horseshoe_vortex]. rewrite T, Ht.
    cbn [k_coll k_normal k_br k_fr k_fl k_bl k_hbr k_hfr k_hfl k_hbl new_ring new_horseshoe rv_right_leg rv_left_leg hs_right_leg hs_left_leg
         new_line_vortex lv_origin lv_termination].
    split; [exact V3|]. split; [exact V4|]. destruct Hp as (C1 & C2 & C3 & C4).
    rewrite V1, V2, C1, C2, C3, C4. rewrite ?moved_sub, <- ?lin_scale, ?moved_add.
    repeat (split; [reflexivity|]). left. repeat (split; [reflexivity|]). reflexivity.
  - apply bind_Ok in E, E'. destruct E as (n & En & E), E' as (n' & En' & E'). apply Ok_eq in E, E'. subst q q'.
    destruct (moved_points m t HR n n' (Hn _ _ En En')) as (W1 & W2 & _).
    split; [exact Hp|]. split; [discriminate|]. split; [discriminate|].
    unfold moved_core, core_of. cbn [p_ring_vortex p_set_ring p_is_trailing_edge p_horseshoe_vortex]. rewrite T, Ht.
    cbn [k_coll k_normal k_br k_fr k_fl k_bl k_hbr k_hfr k_hfl k_hbl new_ring rv_right_leg rv_left_leg new_line_vortex lv_origin lv_termination].
    split; [exact V3|]. split; [exact V4|]. rewrite V1, V2, W1, W2. repeat (split; [reflexivity|]). right. repeat (split; [reflexivity|]). reflexivity.
Qed.
Lemma rows_pos (P : panel -> panel -> Prop) g g' c s p p' : Forall2 (Forall2 P) g g' -> at_position g c s p -> at_position g' c s p' -> P p p'.
Proof.
  intros F (row & Hc & Hs) (row' & Hc' & Hs'). destruct (Forall2_nth_l _ _ _ F c row Hc) as (z & Hz & Fr). rewrite Hc' in Hz. apply Some_eq' in Hz. subst z.
  destruct (Forall2_nth_l _ _ _ Fr s p Hs) as (z & Hz & H). rewrite Hs' in Hz. apply Some_eq' in Hz. subst z. exact H.
Qed.
Lemma moved_init_wing d w w' v v' : moved_wing (moved_panel m t) w w' -> well_meshed (w_panels w) -> well_meshed (w_panels w') ->
  ring_init_wing d w = Ok v -> ring_init_wing (lin d) w' = Ok v' -> moved_wing moved_ring v v'.
Proof.
  intros (Hs & F) [U1 U2] [U1' U2'] E E'. unfold ring_init_wing in E, E'. cbv zeta in E, E'. rewrite Hs in E'.
  apply bind_Ok in E, E'. destruct E as (g & Em & E), E' as (g' & Em' & E'). apply Ok_eq in E, E'. subst v v'.
  split; [exact Hs|]. cbn [w_set_panels w_panels]. pose proof (Forall2_length _ _ _ F) as L.
  apply Forall2_from_nth; [rewrite (mapiM_length _ _ _ Em), (mapiM_length _ _ _ Em'); exact L|].
  intros c row row' Hc Hc'.
  destruct (mapiM_nth _ _ _ _ _ Em Hc) as (row0 & Hc0 & Er). destruct (mapiM_nth _ _ _ _ _ Em' Hc') as (row0' & Hc0' & Er').
  pose proof (mapiM_length _ _ _ Er) as Lr. pose proof (mapiM_length _ _ _ Er') as Lr'.
  destruct (Forall2_nth_l _ _ _ F c row0 Hc0) as (z & Hz & Fr). rewrite Hc0' in Hz. apply Some_eq' in Hz. subst z.
  apply Forall2_from_nth; [rewrite Lr, Lr'; exact (Forall2_length _ _ _ Fr)|]. intros s q q' Hq Hq'.
  destruct (mapiM_nth _ _ _ _ _ Er Hq) as (p & Hp & Ep). destruct (mapiM_nth _ _ _ _ _ Er' Hq') as (p' & Hp' & Ep').
  assert (Ip : at_position (w_panels w) c s p) by (exists row0; auto). assert (Ip' : at_position (w_panels w') c s p') by (exists row0'; auto).
  refine (moved_init _ _ _ _ _ _ _ _ _ _ (rows_pos _ _ _ _ _ _ _ F Ip Ip') _ _ Ep Ep').
  - rewrite (proj1 (proj2 (U2 _ _ _ _ Hc0 Hp))), (proj1 (proj2 (U2' _ _ _ _ Hc0' Hp'))), L. reflexivity.
  - intros n n' Hn Hn'. apply panel_at_spec in Hn, Hn'. exact (rows_pos _ _ _ _ _ _ _ F Hn Hn').
Qed.
Lemma moved_init_all op op' l l' l0 l0' : turned_flow m op op' -> moved_airplanes m t l l' ->
  (forall a, In a l -> well_meshed_airplane a) -> (forall a, In a l' -> well_meshed_airplane a) ->
  ring_init op l = Ok l0 -> ring_init op' l' = Ok l0' -> Forall2 (moved_airplane (fun _ _ => moved_ring)) l0 l0'.
Proof.
  intros Hop HM W W' E E'. unfold ring_init in E, E'. rewrite (turned_direction m op op' Hop) in E'. apply mapM_Forall2 in E, E'.
  revert l0 l0' E E' W W'. induction HM as [|a a' l l' (H1 & H2 & H3 & Hw) _ IH]; intros l0 l0' E E' W W'; inversion E as [|? b ? l1 Eb E1]; inversion E' as [|? b' ? l1' Eb' E1']; subst; constructor.
  - clear IH E1 E1'. unfold ring_init_airplane in Eb, Eb'. apply bind_Ok in Eb, Eb'. destruct Eb as (ws & Ew & Eb), Eb' as (ws' & Ew' & Eb').
    apply Ok_eq in Eb, Eb'. subst b b'. repeat (split; [assumption|]). cbn [a_set_wings a_wings]. apply mapM_Forall2 in Ew, Ew'.
    assert (Wa : forall w, In w (a_wings a) -> well_meshed (w_panels w)) by (apply (W a); cbn; auto).
    assert (Wa' : forall w, In w (a_wings a') -> well_meshed (w_panels w)) by (apply (W' a'); cbn; auto).
    clear -HR Hw Ew Ew' Wa Wa'. revert ws ws' Ew Ew' Wa Wa'. induction Hw as [|w w' vs vs' Hw _ IH]; intros ws ws' Ew Ew' Wa Wa'; inversion Ew; inversion Ew'; subst; constructor.
    + eapply moved_init_wing; eauto; [apply Wa | apply Wa']; cbn; auto.
    + apply IH; auto; intros; [apply Wa | apply Wa']; cbn; auto.
  - apply IH; auto; intros; [apply W | apply W']; cbn; auto.
Qed.
(** Nets of two meshes with the same strengths. *)
Lemma circulation_same g g' c s : Forall2 (Forall2 (fun p p' => ring_strength p' = ring_strength p)) g g' -> circulation g' c s = circulation g c s.
Proof.
  intros F. unfold circulation. destruct (nth_error g c) as [row|] eqn:Hc.
  - destruct (Forall2_nth_l _ _ _ F c row Hc) as (row' & Hc' & Fr). rewrite Hc'. destruct (nth_error row s) as [p|] eqn:Hs.
    + destruct (Forall2_nth_l _ _ _ Fr s p Hs) as (p' & Hs' & E). rewrite Hs'. unfold ring_strength in E.
      destruct (p_ring_vortex p), (p_ring_vortex p'); cbn [option_map] in E; try discriminate; [apply Some_eq' in E; congruence | reflexivity].
    + assert (Hs' : nth_error row' s = None) by (apply nth_error_None; rewrite <- (Forall2_length _ _ _ Fr); apply nth_error_None; exact Hs). rewrite Hs'. reflexivity.
  - assert (Hc' : nth_error g' c = None) by (apply nth_error_None; rewrite <- (Forall2_length _ _ _ F); apply nth_error_None; exact Hc). rewrite Hc'. reflexivity.
Qed.
Lemma nets_same g g' c s : Forall2 (Forall2 (fun p p' => ring_strength p' = ring_strength p)) g g' ->
  net_front g' c s = net_front g c s /\ net_left g' c s = net_left g c s /\ net_right g' c s = net_right g c s.
Proof.
  intros F. unfold net_front, net_left, net_right. rewrite !(fun c s => circulation_same g g' c s F). 
  split; [|split; [|reflexivity]]; [destruct c | destruct s]; rewrite ?(fun c s => circulation_same g g' c s F); reflexivity.
Qed.
Lemma rings_moved p p' r r' : moved_core (core_of p) (core_of p') -> p_ring_vortex p = Some r -> p_ring_vortex p' = Some r' ->
  ring_consistent r -> ring_consistent r' ->
  (lv_center (rv_front_leg r') = mv (lv_center (rv_front_leg r)) /\ lv_vector (rv_front_leg r') = lin (lv_vector (rv_front_leg r))) /\
  (lv_center (rv_left_leg r') = mv (lv_center (rv_left_leg r)) /\ lv_vector (rv_left_leg r') = lin (lv_vector (rv_left_leg r))) /\
  (lv_center (rv_right_leg r') = mv (lv_center (rv_right_leg r)) /\ lv_vector (rv_right_leg r') = lin (lv_vector (rv_right_leg r))).
Proof.
  intros (_ & _ & H1 & H2 & H3 & H4 & _) Er Er' (Lf & Ll & _ & Lr & _) (Lf' & Ll' & _ & Lr' & _).
  destruct (core_ring p r Er) as (K1 & K2 & K3 & K4). destruct (core_ring p' r' Er') as (K1' & K2' & K3' & K4').
  pose proof Ll as (A1 & A2 & _). pose proof Lr as (B1 & B2 & _). pose proof Ll' as (A1' & A2' & _). pose proof Lr' as (B1' & B2' & _).
  rewrite K1, K2, K3, K4, K1', K2', K3', K4', A1, A2, B1, B2, A1', A2', B1', B2' in *.
  split; [|split].
  - exact (leg_moved _ _ _ _ _ _ _ _ _ Lf Lf' H2 H3 eq_refl).
  - exact (leg_moved _ _ _ _ _ _ _ _ _ Ll Ll' H3 H4 eq_refl).
  - exact (leg_moved _ _ _ _ _ _ _ _ _ Lr Lr' H1 H2 eq_refl).
Qed.

Lemma moment_sum d n1 n2 n3 f1 f2 f3 : vadd (vadd (moment_about d n1 f1) (moment_about d n2 f2)) (moment_about d n3 f3) =
  moment_about d (vadd (vadd n1 n2) n3) (vadd (vadd f1 f2) f3).
Proof. rewrite !moment_about_add. reflexivity. Qed.
Lemma ring_moved solve l l' op op' s : SolveSpec solve -> turned_flow m op op' -> moved_airplanes m t l l' ->
  (forall a, In a l -> well_meshed_airplane a) -> (forall a, In a l' -> well_meshed_airplane a) ->
  ring_run solve (ring_new l op) = Ok s ->
  exists s', ring_run solve (ring_new l' op') = Ok s' /\
    (forall x v, ring_solution_velocity s [x] = [v] -> ring_solution_velocity s' [mv x] = [lin v]) /\
    Forall2 (moved_solution m t op' ring_strength) (rso_airplanes s) (rso_airplanes s').
Proof.
  intros HS Hop HM W W' E.
  assert (Fr : fresh_ring (ring_new l op)) by (apply ring_new_fresh; intros a Ha; apply W, Ha).
  assert (Fr' : fresh_ring (ring_new l' op')) by (apply ring_new_fresh; intros a Ha; apply W', Ha).
  assert (Wm : forall a w, In a l -> In w (a_wings a) -> well_meshed (w_panels w)) by (intros a w Ha Hw; exact (proj1 (W a Ha) w Hw)).
  assert (Wm' : forall a w, In a l' -> In w (a_wings a) -> well_meshed (w_panels w)) by (intros a w Ha Hw; exact (proj1 (W' a Ha) w Hw)).
  pose proof (ring_final_strengths _ _ _ HS (fresh_sized _ Fr) E) as X1. change (map ring_strength (all_panels (rso_airplanes s)) = map Some (rso_strengths s)) in X1.
  destruct (final_core _ _ _ E) as (l0 & Ei & Ec & Rc). cbn [ring_new rso_op rso_airplanes] in Ei.
  destruct (ring_run_total solve (ring_new l' op') HS (fresh_sized _ Fr') Wm') as (l0' & rows' & Ei' & Ec' & K). cbn [ring_new rso_op rso_airplanes] in Ei'.
  pose proof (moved_init_all op op' l l' l0 l0' Hop HM W W' Ei Ei') as M0.
  assert (Mc : Forall2 (sys_moved k_coll k_normal core_velocity) (map core_of_row (rso_rows s)) (map core_of_row rows')).
  { rewrite (ring_collapse_core _ _ Ec), (ring_collapse_core _ _ Ec'). apply moved_panels_flat in M0.
    induction M0 as [|p p' ps ps' (_ & _ & _ & H) _ IH]; cbn [map]; constructor; auto. apply moved_core_sys, H. }
  assert (Ok' : Forall row_ok rows').
  { apply ring_collapse_ok in Ec'. apply Forall_forall. intros r Hr. destruct (Forall2_In_r _ _ _ _ Ec' Hr) as (x & _ & Hx & _). exact Hx. }
  assert (N' : length (all_panels l') = length rows').
  { rewrite (Forall2_length _ _ _ (same_all_panels _ _ (ring_init_same _ _ _ Ei'))). rewrite <- (ring_collapse_panels _ _ Ec'), map_length. reflexivity. }
  pose proof E as E0. apply ring_run_inv in E0. cbv zeta in E0. destruct E0 as (z0 & z1 & loads & _ & _ & Eo & Ev & _ & Es & _ & _ & _ & Ep).
  rewrite (proj1 Fr), (proj2 Fr) in Es. cbn [ring_new rso_op rso_airplanes rso_freestream] in Es, Eo, Ev.
  assert (Es2 : solve (ring_influences rows' (rso_strengths (ring_new l' op')) (ring_collapse_hs_strengths rows' (rso_hs_strengths (ring_new l' op'))))
          (map Ropp (freestream_influences (map rr_normal rows') (rso_freestream (ring_new l' op')))) = Ok (rso_strengths s)).
  { rewrite (proj1 Fr'), (proj2 Fr'). cbn [ring_new rso_airplanes rso_freestream].
    rewrite ring_sys_matrix, ring_sys_rhs, (turned_freestream m op op' Hop) by assumption.
    rewrite (moved_matrix _ _ _ _ _ Mc), (moved_rhs _ _ _ _ _ _ Mc), <- ring_sys_rhs.
    rewrite <- (ring_sys_matrix (rso_rows s) (length (all_panels l))); [exact Es | exact (ring_rows_ok _ _ _ E)|].
    symmetry. exact (ring_rows_count _ _ _ E). }
  destruct (K _ Es2) as (s' & E' & Ex'). exists s'. split; [exact E'|].
  pose proof (ring_final_strengths _ _ _ HS (fresh_sized _ Fr') E') as X3. change (map ring_strength (all_panels (rso_airplanes s')) = map Some (rso_strengths s')) in X3.
  rewrite Ex' in X3. destruct (final_core _ _ _ E') as (l0'' & Ei'' & Ec'' & Rc'). cbn [ring_new rso_op rso_airplanes] in Ei''.
  rewrite Ei' in Ei''. apply Ok_eq in Ei''. subst l0''. rewrite Ec' in Ec''. apply Ok_eq in Ec''.
  pose proof E' as E0'. apply ring_run_inv in E0'. cbv zeta in E0'. destruct E0' as (z0' & z1' & loads' & _ & _ & Eo' & Ev' & _ & _ & _ & _ & _ & Ep').
  cbn [ring_new rso_op rso_airplanes rso_freestream] in Eo', Ev', Ep, Ep'.
  destruct (ring_solution _ _ _ HS Fr E) as (_ & _ & Vs & _). destruct (ring_solution _ _ _ HS Fr' E') as (_ & _ & Vs' & _).
  assert (V : forall x v, ring_solution_velocity s [x] = [v] -> ring_solution_velocity s' [mv x] = [lin v]).
  { intros x v. rewrite Vs, Vs', !ring_sys_velocity. intros H. apply cons_eq' in H. destruct H as [<- _]. f_equal.
    rewrite <- Ec'', Ex', Ev, Ev', (turned_freestream m op op' Hop). exact (moved_velocity _ _ _ _ _ _ _ _ Mc). }
  split; [exact V|]. set (l1 := rso_airplanes s) in *. set (l3 := rso_airplanes s') in *.
  assert (M1 : Forall2 (moved_airplane (fun _ _ p p' => moved_ring p p' /\ ring_strength p' = ring_strength p)) l1 l3).
  { refine (moved_tree_both _ _ _ _ _ (strengths_same _ _ _ _ X1 X3)).
    pose proof (moved_tree_same _ (fun _ _ => moved_panel m t) _ _ _ _ (fun a a' b b' p p' q q' _ _ Sp Sp' (H : moved_panel m t p p') => moved_panel_same m t p p' q q' Sp Sp' H)
       (ring_run_same _ _ _ E) (ring_run_same _ _ _ E') HM) as M1. change (Forall2 (moved_airplane (fun _ _ => moved_panel m t)) l1 l3) in M1.
    assert (Q : Forall2 (fun p p' => p_ring_vortex p <> None /\ p_ring_vortex p' <> None /\ moved_core (core_of p) (core_of p')) (all_panels l1) (all_panels l3)).
    { apply moved_panels_flat in M0. apply rel_all_panels in Rc, Rc'. fold l1 in Rc. fold l3 in Rc'.
      refine (Forall2_replace_r _ _ _ _ _ _ Rc' (Forall2_replace_l _ (fun q p' => p_ring_vortex q <> None /\ p_ring_vortex p' <> None /\ moved_core (core_of q) (core_of p')) _ _ _ _ Rc M0 _) _).
      - intros p q p' [C N] (_ & A & B & D). rewrite C. auto.
      - intros q p' q' [C N] (A & B & D). rewrite C. auto. }
    pose proof (moved_tree_both _ _ _ _ M1 Q) as M2. refine (moved_tree_impl _ _ _ _ _ M2). intros a a' w w' p p' _ _ _ _ _ _ (A & B & C & D). exact (conj A (conj B (conj C D))). }
  assert (M4 : Forall2 (moved_airplane (fun a a' p p' => moved_panel m t p p' /\ moved_loads m t op' a a' p p' /\ ring_strength p <> None /\
                 ring_strength p' = ring_strength p)) l1 l3).
  { refine (moved_wings_impl _ _ _ _ _ M1). intros a a' w w' Ha Ha' Hw Hw' (Hs & HF). split; [exact Hs|].
    assert (HG : Forall2 (Forall2 (fun p p' => ring_strength p' = ring_strength p)) (w_panels w) (w_panels w')).
    { eapply Forall2_impl; [|exact HF]. intros r r' Hr. eapply Forall2_impl; [|exact Hr]. intros p p' H. apply H. }
    apply Forall2_from_nth; [exact (Forall2_length _ _ _ HF)|]. intros c row row' Hc Hc'.
    destruct (Forall2_nth_l _ _ _ HF c row Hc) as (z & Hz & Pz). rewrite Hc' in Hz. apply Some_eq' in Hz. subst z.
    apply Forall2_from_nth; [exact (Forall2_length _ _ _ Pz)|]. intros j p p' Hp Hp'.
    destruct (Forall2_nth_l _ _ _ Pz j p Hp) as (z & Hz & (A & B & C & D) & T). rewrite Hp' in Hz. apply Some_eq' in Hz. subst z.
    split; [exact A|]. split; [|split; [unfold ring_strength; destruct (p_ring_vortex p); [discriminate | congruence] | exact T]].
    assert (Hq : at_position (w_panels w) c j p) by (exists row; auto).
    assert (Hq' : at_position (w_panels w') c j p') by (exists row'; auto).
    destruct (ring_kutta_joukowski _ _ _ HS (fresh_sized _ Fr) Wm E a w c j p Ha Hw Hq) as (r & vr & vf & vl & Hr & Cr & V1 & V2 & V3 & G1 & G2 & _).
    destruct (ring_kutta_joukowski _ _ _ HS (fresh_sized _ Fr') Wm' E' a' w' c _ p' Ha' Hw' Hq') as (r' & vr' & vf' & vl' & Hr' & Cr' & V1' & V2' & V3' & G1' & G2' & _).
    destruct (rings_moved p p' r r' D Hr Hr' Cr Cr') as ((F1 & F2) & (K1 & K2) & (R1 & R2)).
    destruct (nets_same _ _ c j HG) as (N1 & N2 & N3).
    assert (Er : op_density (rso_op s') = op_density (rso_op s)) by (rewrite Eo, Eo'; apply Hop).
    assert (Ip : In p (airplane_panels a)).
    { apply in_airplane_panels. exists w. split; [exact Hw|]. apply in_ravel_position. eauto. }
    assert (Ip' : In p' (airplane_panels a')).
    { apply in_airplane_panels. exists w'. split; [exact Hw'|]. apply in_ravel_position. eauto. }
    cbv zeta in G1, G2, G1', G2'. apply V in V1, V2, V3. rewrite F1, V2 in V2'. rewrite K1, V3 in V3'. rewrite R1, V1 in V1'.
    apply cons_eq' in V1', V2', V3'. destruct V1' as [Q1 _], V2' as [Q2 _], V3' as [Q3 _]. symmetry in Q1, Q2, Q3.
    rewrite (force_moved _ _ _ _ _ _ _ _ Er N1 Q2 F2), (force_moved _ _ _ _ _ _ _ _ Er N2 Q3 K2), (force_moved _ _ _ _ _ _ _ _ Er N3 Q1 R2) in G1', G2'.
    rewrite F1, K1, R1 in G2'. rewrite !(moment_moved m t HR (a_xyz_ref a) (a_xyz_ref a')), moment_sum, <- !lin_add in G2'. rewrite <- !lin_add in G1'.
    exact (moved_loads_from m t HR op op' a a' p p' _ _ Hop A (proj2 (processed _ _ _ _ _ Ep a Ha) p Ip) (proj2 (processed _ _ _ _ _ Ep' a' Ha') p' Ip') G1 G2 G1' G2'). }
  assert (Y : forall a a', In a l1 -> In a' l3 -> moved_airplane (fun a a' p p' => moved_panel m t p p' /\ moved_loads m t op' a a' p p' /\ ring_strength p <> None /\
                 ring_strength p' = ring_strength p) a a' -> moved_solution m t op' ring_strength a a').
  { intros a a' Ha Ha' Hm. split; [|exact Hm].
    refine (moved_totals_from m t op op' _ a a' Hop _ Hm (proj1 (processed _ _ _ _ _ Ep a Ha)) (proj1 (processed _ _ _ _ _ Ep' a' Ha'))).
    intros p p' H. apply H. }
  clear -M4 Y. induction M4; constructor; [apply Y; cbn; auto|]. apply IHM4. intros; apply Y; cbn; auto.
Qed.
End Motion.
