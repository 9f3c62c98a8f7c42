(** The steady solvers on larger and smaller problems. *)
From Coq Require Import List Reals Lra Lia.
From Verif Require Import M_Loads M_Horseshoe M_SteadyRing S_Geometry S_Vortices S_Solve S_Loads S_Mirror S_Solvable S_Size
  L_Base L_Rotations L_Loads L_Aero L_Horseshoe L_SteadyRing L_RingLegs L_Meshing L_Mirror L_MirrorHorseshoe L_MirrorRing L_Scaling L_Rigid L_RigidSolvers L_Solvable L_Size.
Import ListNotations.
Local Open Scope R_scope.

(** ** Linear systems *)
Lemma matvec_scaled c a y : matvec (map (map (Rmult c)) a) y = matvec a (map (Rmult c) y).
Proof.
  unfold matvec. rewrite map_map. apply map_ext. intros row. revert y; induction row as [|d row IH]; intros [|z y]; cbn [map map2]; rewrite ?rsum_cons, ?rsum_nil; try reflexivity.
  rewrite IH. ring.
Qed.
Lemma scale_back c (l : list R) : c <> 0 -> map (Rmult c) (map (Rmult (/ c)) l) = l.
Proof. intros H. rewrite map_map. rewrite <- (map_id l) at 2. apply map_ext. intros x. field. exact H. Qed.
Lemma solve_matrix_scale solve a b x c : SolveSpec solve -> square a -> length b = length a -> c <> 0 ->
  solve a b = Ok x -> solve (map (map (Rmult c)) a) b = Ok (map (Rmult (/ c)) x).
Proof.
  intros HS Sq Lb Hc E. apply (HS a b Sq Lb) in E. destruct E as [[Lx Ex] U]. apply HS.
  - intros row Hr. apply in_map_iff in Hr. destruct Hr as (r & <- & Hr). rewrite !map_length. exact (Sq r Hr).
  - rewrite map_length. exact Lb.
  - split; [split|].
    + rewrite !map_length. exact Lx.
    + rewrite matvec_scaled, scale_back by exact Hc. exact Ex.
    + intros y [Ly Ey]. rewrite map_length in Ly. rewrite matvec_scaled in Ey.
      assert (E : map (Rmult c) y = x) by (apply U; split; [rewrite map_length; exact Ly | exact Ey]).
      rewrite <- E. assert (Hc' : / c <> 0) by (apply Rinv_neq_0_compat; exact Hc). rewrite <- (scale_back (/ c) y Hc') at 1. rewrite Rinv_inv. reflexivity.
Qed.

Section Size.
Context (k : R) (Hk : 0 < k).
Section System.
Context (Good : vec -> Prop) {T : Type} (coll normal : T -> vec) (uv : vec -> T -> vec).
Definition sys_big (r r' : T) : Prop :=
  coll r' = vscale k (coll r) /\ Good (coll r) /\ normal r' = normal r /\ forall x, Good x -> uv (vscale k x) r' = vscale (/ k) (uv x r).
Lemma big_matrix rows rows' : Forall2 sys_big rows rows' -> sys_matrix coll normal uv rows' = map (map (Rmult (/ k))) (sys_matrix coll normal uv rows).
Proof.
  intros F. unfold sys_matrix. rewrite map_map. refine (map_related sys_big _ _ _ _ _ F). intros s s' (Hc & Hg & Hn & _). rewrite map_map.
  refine (map_related sys_big _ _ _ _ _ F). intros r r' (_ & _ & _ & H). rewrite Hc, Hn, (H _ Hg). apply vdot_scale_l.
Qed.
Lemma big_rhs rows rows' v : Forall2 sys_big rows rows' -> sys_rhs normal rows' v = sys_rhs normal rows v.
Proof.
  intros F. unfold sys_rhs. induction F as [|r r' l l' (_ & _ & H & _) _ IH]; cbn [map]; [reflexivity|]. rewrite H, IH. reflexivity.
Qed.
Lemma big_velocity rows rows' xs v x : Good x -> Forall2 sys_big rows rows' ->
  sys_velocity uv rows' (map (Rmult k) xs) v (vscale k x) = sys_velocity uv rows xs v x.
Proof.
  intros G F. unfold sys_velocity. f_equal. revert xs. induction F as [|r r' l l' (_ & _ & _ & H) _ IH]; intros [|g xs]; cbn [combine map]; try reflexivity.
  cbn [fst snd]. rewrite !vsum_cons, IH, (H x G), vscale_scale. f_equal. f_equal. field. lra.
Qed.
Lemma sys_square rows : square (sys_matrix coll normal uv rows).
Proof. unfold sys_matrix. intros row Hr. apply in_map_iff in Hr. destruct Hr as (r & <- & _). rewrite !map_length. reflexivity. Qed.
Lemma sys_lengths rows v : length (sys_rhs normal rows v) = length (sys_matrix coll normal uv rows).
Proof. unfold sys_matrix, sys_rhs. rewrite !map_length. reflexivity. Qed.
Lemma big_solve solve rows rows' v xs : SolveSpec solve -> Forall2 sys_big rows rows' ->
  solve (sys_matrix coll normal uv rows) (sys_rhs normal rows v) = Ok xs ->
  solve (sys_matrix coll normal uv rows') (sys_rhs normal rows' v) = Ok (map (Rmult k) xs).
Proof.
  intros HS F E. rewrite (big_matrix _ _ F), (big_rhs _ _ _ F). rewrite <- (Rinv_inv k) at 2.
  apply solve_matrix_scale; [exact HS | apply sys_square | apply sys_lengths | apply Rinv_neq_0_compat; lra | exact E].
Qed.
End System.
Lemma strengths_scaled (st : panel -> option R) l m xs : map st l = map Some xs -> map st m = map Some (map (Rmult k) xs) ->
  Forall2 (fun p q => exists g, st p = Some g /\ st q = Some (k * g)) l m.
Proof.
  revert m xs; induction l as [|p l IH]; intros [|q m] [|x xs]; cbn; try discriminate; [constructor|]. intros E E'.
  apply cons_eq' in E, E'. destruct E, E'. constructor; [eauto | eauto].
Qed.

(** ** The horseshoe solver *)
Lemma horseshoe_path_unit op a w p x : hs_unit x (hs_row_of (freestream_direction op) (a, w, p)) = path_velocity x (horseshoe_path (freestream_direction op) w p).
Proof. unfold horseshoe_path. rewrite path_open, (Rmult_comm 20). reflexivity. Qed.
Lemma horseshoe_path_big d w w' p p' : enlarged_panel k p p' -> w_span w' = k * w_span w -> horseshoe_path d w' p' = map (big_segment k) (horseshoe_path d w p).
Proof.
  intros Hp Hs. destruct (big_points k p p' Hk Hp) as (V1 & V2 & _). unfold horseshoe_path, open_path, big_segment. cbn [map fst snd]. rewrite V1, V2, Hs, <- !big_add, !vscale_scale.
  replace (20 * (k * w_span w)) with (k * (20 * w_span w)) by ring. reflexivity.
Qed.
Lemma hs_rows_big op op' l l' : same_stream op op' -> enlarged_airplanes k l l' ->
  (forall p, In p (all_panels l) -> resolved k (horseshoe_paths op l) (p_collocation_point p)) ->
  Forall2 (sys_big (resolved k (horseshoe_paths op l)) hr_collocation hr_normal hs_unit) (hs_rows_of op l) (hs_rows_of op' l').
Proof.
  intros Hop G HG. apply big_flat in G. unfold hs_rows_of. rewrite (same_stream_direction _ _ Hop).
  assert (IV : forall x, In x (flat_panels l) -> In (horseshoe_path (freestream_direction op) (snd (fst x)) (snd x)) (horseshoe_paths op l)).
  { intros x Hx. unfold horseshoe_paths. rewrite walk_flat. apply in_map_iff. exists x. auto. }
  assert (IP : forall x, In x (flat_panels l) -> resolved k (horseshoe_paths op l) (p_collocation_point (snd x))).
  { intros x Hx. apply HG. rewrite <- flat_panels_snd. apply in_map_iff. eauto. }
  revert IV IP. generalize (horseshoe_paths op l). intros vs IV IP. clear HG. induction G as [|x x' xs xs' (Hp & Hs) _ IH]; cbn [map]; constructor.
  - destruct x as [[a w] p], x' as [[a' w'] p']. cbn [fst snd] in *. destruct (big_points k p p' Hk Hp) as (V1 & V2 & V3 & V4 & _).
    split; [exact V3|]. split; [exact (IP _ (or_introl eq_refl))|]. split; [exact V4|]. intros y Hy.
    rewrite !horseshoe_path_unit, (horseshoe_path_big _ _ _ _ _ Hp Hs). exact (big_path k vs _ y Hk Hy (IV _ (or_introl eq_refl))).
  - apply IH; intros; [apply IV | apply IP]; right; assumption.
Qed.
Lemma leg_big l l' a b g a' b' g' : leg_is l a b g -> leg_is l' a' b' g' -> a' = vscale k a -> b' = vscale k b ->
  lv_center l' = vscale k (lv_center l) /\ lv_vector l' = vscale k (lv_vector l).
Proof.
  intros (_ & _ & _ & V & C) (_ & _ & _ & V' & C') -> ->. rewrite V, C, V', C', big_midpoint, big_sub. auto.
Qed.
Lemma in_panels_of p l : In p (panels_of l) <-> In p (all_panels l).
Proof. rewrite panels_of_all. tauto. Qed.
Lemma hs_big solve l l' op op' s : SolveSpec solve -> same_stream op op' -> enlarged_airplanes k l l' ->
  (forall p x, In p (panels_of l) -> In x (horseshoe_points p) -> resolved k (horseshoe_paths op l) x) ->
  hs_run solve (hs_new l op) = Ok s ->
  exists s', hs_run solve (hs_new l' op') = Ok s' /\
    (forall x, resolved k (horseshoe_paths op l) x -> hs_solution_velocity s' [vscale k x] = hs_solution_velocity s [x]) /\
    Forall2 (enlarged_solution k horseshoe_strength) (hso_airplanes s) (hso_airplanes s').
Proof.
  intros HS Hop HM HG E. pose proof (hs_rows_big op op' l l' Hop HM (fun p Hp => HG p _ (proj2 (in_panels_of p l) Hp) (or_introl eq_refl))) as Rw.
  pose proof E as E0. apply hs_run_inv in E0. cbv zeta in E0. cbn [hs_new hso_op hso_airplanes hso_freestream] in E0.
  destruct E0 as (Eo & Ev & Er & Es & _).
  assert (Es2 : solve (hs_influences (hs_rows_of op' l')) (map Ropp (freestream_influences (map hr_normal (hs_rows_of op' l')) (freestream_velocity op'))) = Ok (map (Rmult k) (hso_strengths s))).
  { rewrite hs_sys_matrix, hs_sys_rhs, (same_stream_velocity op op' Hop). apply (big_solve _ _ _ _ _ _ _ _ _ HS Rw). rewrite <- hs_sys_matrix, <- hs_sys_rhs. exact Es. }
  destruct (hs_run_total solve (hs_new l' op') _ HS Es2) as (s' & E' & Ex'). exists s'. split; [exact E'|].
  pose proof E' as E0'. apply hs_run_inv in E0'. cbv zeta in E0'. cbn [hs_new hso_op hso_airplanes hso_freestream] in E0'.
  destruct E0' as (Eo' & Ev' & Er' & _).
  destruct (hs_solution_length _ _ _ HS E) as [L1 _]. destruct (hs_solution_length _ _ _ HS E') as [L3 _].
  assert (V : forall x, resolved k (horseshoe_paths op l) x -> hs_solution_velocity s' [vscale k x] = hs_solution_velocity s [x]).
  { intros x Hx. rewrite !hs_velocity_at_spec by assumption. f_equal. rewrite Er, Er', Ev, Ev', Ex', !hs_sys_velocity, (same_stream_velocity op op' Hop). exact (big_velocity _ _ _ _ _ _ _ _ _ Hx Rw). }
  split; [exact V|].
  pose proof (hs_run_same _ _ _ E) as F1. pose proof (hs_run_same _ _ _ E') as F3. cbn [hs_new hso_airplanes] in F1, F3.
  pose proof (hs_final_strengths _ _ _ HS E) as X1. pose proof (hs_final_strengths _ _ _ HS E') as X3. rewrite Ex' in X3.
  set (l1 := hso_airplanes s) in *. set (l3 := hso_airplanes s') in *.
  assert (M1 : Forall2 (enlarged_airplane k (enlarged_panel k)) l1 l3).
  { refine (big_tree_same k _ _ _ _ _ _ _ F1 F3 HM). intros p p' q q'. apply enlarged_panel_same. }
  pose proof (big_tree_both _ _ _ _ _ M1 (strengths_scaled _ _ _ _ X1 X3)) as M2.
  assert (M4 : Forall2 (enlarged_airplane k (fun p p' => enlarged_panel k p p' /\ enlarged_loads k p p' /\
                 exists g, horseshoe_strength p = Some g /\ horseshoe_strength p' = Some (k * g))) l1 l3).
  { refine (big_tree_impl _ _ _ _ _ _ M2). intros a a' p p' Ha Ha' Hx Hp Hp' (Hm & Hst). split; [exact Hm|].
    split; [|exact Hst]. destruct Hst as (ga & Hst & Hst').
    destruct (horseshoe_kutta_joukowski _ _ _ HS E a p Ha Hp) as (h & v & g & Hh & (_ & Lg & _) & O1 & O2 & Hv & Hf & G1 & G2 & _).
    destruct (horseshoe_kutta_joukowski _ _ _ HS E' a' p' Ha' Hp') as (h' & v' & g' & Hh' & (_ & Lg' & _) & O1' & O2' & Hv' & Hf' & G1' & G2' & _).
    unfold horseshoe_strength in Hst, Hst'. rewrite Hh in Hst. rewrite Hh' in Hst'. cbn [option_map] in Hst, Hst'. apply Some_eq' in Hst, Hst'.
    destruct (big_points k p p' Hk Hm) as (V1 & V2 & _). rewrite O1, O2 in Lg. rewrite O1', O2' in Lg'.
    destruct (leg_big _ _ _ _ _ _ _ _ Lg Lg' V1 V2) as [Hc Hvec].
    assert (Hres : resolved k (horseshoe_paths op l) (lv_center (hs_finite_leg h))).
    { pose proof (same_all_panels _ _ F1) as FP. assert (Hin : In p (all_panels l1)) by (apply in_all_panels; exists a; auto).
      destruct (Forall2_In_r _ _ _ _ FP Hin) as (p0 & Hp0 & Sp). apply (HG p0); [apply in_panels_of; exact Hp0|]. right; left.
      destruct (L_Horseshoe.same_panel_vertices _ _ Sp) as [S1 S2]. destruct Lg as (_ & _ & _ & _ & LC). rewrite LC. congruence. }
    assert (Hvv : v' = v). { rewrite Hc, (V _ Hres), Hv in Hv'. apply cons_eq' in Hv'. symmetry. apply Hv'. }
    assert (Hg : g' = vscale (k ^ 2) g). { rewrite Hf, Hf', Hvv, Hvec, Hst', <- Hst, Eo, Eo', (proj1 Hop). apply big_force. }
    apply (enlarged_loads_from k op op' p p' _ _ Hk Hop Hm (proj2 (hs_processed _ _ _ E a Ha) p Hp) (proj2 (hs_processed _ _ _ E' a' Ha') p' Hp') G1 G2).
    - rewrite G1', Hg. reflexivity.
    - rewrite G2', Hg, Hc, Hx. f_equal. apply big_moment. }
  assert (Y : forall a a', In a l1 -> In a' l3 -> enlarged_airplane k (fun p p' => enlarged_panel k p p' /\ enlarged_loads k p p' /\
                 exists g, horseshoe_strength p = Some g /\ horseshoe_strength p' = Some (k * g)) a a' -> enlarged_solution k horseshoe_strength a a').
  { intros a a' Ha Ha' Hm. split; [|exact Hm].
    refine (enlarged_totals_from k op op' _ a a' Hk Hop _ Hm (proj1 (hs_processed _ _ _ E a Ha)) (proj1 (hs_processed _ _ _ E' a' Ha'))).
    intros p p' H. apply H. }
  clear -M4 Y. induction M4; constructor; [apply Y; cbn; auto|]. apply IHM4. intros; apply Y; cbn; auto.
Qed.

(** ** The ring solver *)
Definition big_core (c c' : core) : Prop :=
  k_coll c' = vscale k (k_coll c) /\ k_normal c' = k_normal c /\
  k_br c' = vscale k (k_br c) /\ k_fr c' = vscale k (k_fr c) /\ k_fl c' = vscale k (k_fl c) /\ k_bl c' = vscale k (k_bl c) /\
  k_hbr c' = vscale k (k_hbr c) /\ k_hfr c' = vscale k (k_hfr c) /\ k_hfl c' = vscale k (k_hfl c) /\ k_hbl c' = vscale k (k_hbl c).
Definition core_path (c : core) (v : path) : Prop :=
  (v = closed_path (k_br c) (k_fr c) (k_fl c) (k_bl c) /\ k_hbr c = vzero /\ k_hfr c = vzero /\ k_hfl c = vzero /\ k_hbl c = vzero) \/
  v = closed_path (k_br c) (k_fr c) (k_fl c) (k_bl c) ++ open_path (k_hbr c) (k_hfr c) (k_hfl c) (k_hbl c).
Lemma core_path_velocity c v x : core_path c v -> core_velocity x c = path_velocity x v.
Proof.
  unfold core_velocity. intros [(-> & -> & -> & -> & ->)| ->].
  - rewrite no_shoe, path_closed, vadd_0_r. reflexivity.
  - rewrite path_app, path_closed, path_open. reflexivity.
Qed.
Lemma core_path_big c c' v : big_core c c' -> core_path c v -> core_path c' (map (big_segment k) v).
Proof.
  intros (_ & _ & H1 & H2 & H3 & H4 & H5 & H6 & H7 & H8) [(-> & E1 & E2 & E3 & E4)| ->]; [left | right]; unfold closed_path, open_path, big_segment; rewrite ?H1, ?H2, ?H3, ?H4, ?H5, ?H6, ?H7, ?H8; cbn [map app fst snd]; [|reflexivity].
  rewrite E1, E2, E3, E4, vscale_0_r. auto.
Qed.
Lemma core_big_sys vs c c' v : big_core c c' -> core_path c v -> In v vs -> resolved k vs (k_coll c) -> sys_big (resolved k vs) k_coll k_normal core_velocity c c'.
Proof.
  intros B HP Hv HR. pose proof B as (H1 & H2 & _). split; [exact H1|]. split; [exact HR|]. split; [exact H2|]. intros x Hx.
  rewrite (core_path_velocity _ _ x HP), (core_path_velocity _ _ _ (core_path_big _ _ _ B HP)). exact (big_path k vs v x Hk Hx Hv).
Qed.
Definition big_ring (p p' : panel) : Prop :=
  enlarged_panel k p p' /\ p_ring_vortex p <> None /\ p_ring_vortex p' <> None /\ big_core (core_of p) (core_of p').
Lemma big_init d len g g' c s p p' q q' : enlarged_panel k p p' -> p_is_trailing_edge p' = p_is_trailing_edge p ->
  (forall n n', panel_at g (S c) s = Ok n -> panel_at g' (S c) s = Ok n' -> enlarged_panel k n n') ->
  ring_init_panel d len g c s p = Ok q -> ring_init_panel d (k * len) g' c s p' = Ok q' -> big_ring q q'.
Proof.
  intros Hp Ht Hn E E'. destruct (big_points k p p' Hk Hp) as (V1 & V2 & V3 & V4 & _).
  unfold ring_init_panel in E, E'. rewrite Ht in E'. destruct (p_is_trailing_edge p) eqn:T.
  - apply Ok_eq in E, E'. subst q q'. split; [exact Hp|]. split; [discriminate|]. split; [discriminate|].
    unfold big_core, core_of. cbn [p_ring_vortex p_set_ring p_set_horseshoe p_is_trailing_edge p_horseshoe_vortex]. rewrite T, Ht.
    cbn [k_coll k_normal k_br k_fr k_fl k_bl k_hbr k_hfr k_hfl k_hbl new_ring new_horseshoe rv_right_leg rv_left_leg hs_right_leg hs_left_leg
         new_line_vortex lv_origin lv_termination].
    split; [exact V3|]. split; [exact V4|]. destruct Hp as (C1 & C2 & C3 & C4).
    rewrite V1, V2, C1, C2, C3, C4. rewrite ?big_sub, <- (vscale_scale k len), ?big_add.
    repeat (split; [reflexivity|]). reflexivity.
  - apply bind_Ok in E, E'. destruct E as (n & En & E), E' as (n' & En' & E'). apply Ok_eq in E, E'. subst q q'.
    destruct (big_points k n n' Hk (Hn _ _ En En')) as (W1 & W2 & _).
    split; [exact Hp|]. split; [discriminate|]. split; [discriminate|].
    unfold big_core, core_of. cbn [p_ring_vortex p_set_ring p_is_trailing_edge p_horseshoe_vortex]. rewrite T, Ht.
    cbn [k_coll k_normal k_br k_fr k_fl k_bl k_hbr k_hfr k_hfl k_hbl new_ring rv_right_leg rv_left_leg new_line_vortex lv_origin lv_termination].
    split; [exact V3|]. split; [exact V4|]. rewrite V1, V2, W1, W2, vscale_0_r. repeat (split; [reflexivity|]). reflexivity.
Qed.
Lemma big_init_wing d w w' v v' : enlarged_wing k (enlarged_panel k) w w' -> well_meshed (w_panels w) -> well_meshed (w_panels w') ->
  ring_init_wing d w = Ok v -> ring_init_wing d w' = Ok v' -> enlarged_wing k big_ring v v'.
Proof.
  intros (Hs & F) [U1 U2] [U1' U2'] E E'. unfold ring_init_wing in E, E'. cbv zeta in E, E'. rewrite Hs, Rmult_assoc in E'.
  apply bind_Ok in E, E'. destruct E as (g & Em & E), E' as (g' & Em' & E'). apply Ok_eq in E, E'. subst v v'.
  split; [exact Hs|]. cbn [w_set_panels w_panels]. pose proof (Forall2_length _ _ _ F) as L.
  apply Forall2_from_nth; [rewrite (mapiM_length _ _ _ Em), (mapiM_length _ _ _ Em'); exact L|].
  intros c row row' Hc Hc'.
  destruct (mapiM_nth _ _ _ _ _ Em Hc) as (row0 & Hc0 & Er). destruct (mapiM_nth _ _ _ _ _ Em' Hc') as (row0' & Hc0' & Er').
  pose proof (mapiM_length _ _ _ Er) as Lr. pose proof (mapiM_length _ _ _ Er') as Lr'.
  destruct (Forall2_nth_l _ _ _ F c row0 Hc0) as (z & Hz & Fr). rewrite Hc0' in Hz. apply Some_eq' in Hz. subst z.
  apply Forall2_from_nth; [rewrite Lr, Lr'; exact (Forall2_length _ _ _ Fr)|]. intros s q q' Hq Hq'.
  destruct (mapiM_nth _ _ _ _ _ Er Hq) as (p & Hp & Ep). destruct (mapiM_nth _ _ _ _ _ Er' Hq') as (p' & Hp' & Ep').
  assert (Ip : at_position (w_panels w) c s p) by (exists row0; auto). assert (Ip' : at_position (w_panels w') c s p') by (exists row0'; auto).
  refine (big_init _ _ _ _ _ _ _ _ _ _ (rows_pos _ _ _ _ _ _ _ F Ip Ip') _ _ Ep Ep').
  - rewrite (proj1 (proj2 (U2 _ _ _ _ Hc0 Hp))), (proj1 (proj2 (U2' _ _ _ _ Hc0' Hp'))), L. reflexivity.
  - intros n n' Hn Hn'. apply panel_at_spec in Hn, Hn'. exact (rows_pos _ _ _ _ _ _ _ F Hn Hn').
Qed.
Lemma big_init_all op op' l l' l0 l0' : same_stream op op' -> enlarged_airplanes k l l' ->
  (forall a, In a l -> well_meshed_airplane a) -> (forall a, In a l' -> well_meshed_airplane a) ->
  ring_init op l = Ok l0 -> ring_init op' l' = Ok l0' -> Forall2 (enlarged_airplane k big_ring) l0 l0'.
Proof.
  intros Hop HM W W' E E'. unfold ring_init in E, E'. rewrite (same_stream_direction op op' Hop) in E'. apply mapM_Forall2 in E, E'.
  revert l0 l0' E E' W W'. induction HM as [|a a' l l' (H1 & H2 & H3 & H4 & Hw) _ IH]; intros l0 l0' E E' W W'; inversion E as [|? b ? l1 Eb E1]; inversion E' as [|? b' ? l1' Eb' E1']; subst; constructor.
  - clear IH E1 E1'. unfold ring_init_airplane in Eb, Eb'. apply bind_Ok in Eb, Eb'. destruct Eb as (ws & Ew & Eb), Eb' as (ws' & Ew' & Eb').
    apply Ok_eq in Eb, Eb'. subst b b'. repeat (split; [assumption|]). cbn [a_set_wings a_wings]. apply mapM_Forall2 in Ew, Ew'.
    assert (Wa : forall w, In w (a_wings a) -> well_meshed (w_panels w)) by (apply (W a); cbn; auto).
    assert (Wa' : forall w, In w (a_wings a') -> well_meshed (w_panels w)) by (apply (W' a'); cbn; auto).
    clear -Hk Hw Ew Ew' Wa Wa'. revert ws ws' Ew Ew' Wa Wa'. induction Hw as [|w w' vs vs' Hw _ IH]; intros ws ws' Ew Ew' Wa Wa'; inversion Ew; inversion Ew'; subst; constructor.
    + eapply big_init_wing; eauto; [apply Wa | apply Wa']; cbn; auto.
    + apply IH; auto; intros; [apply Wa | apply Wa']; cbn; auto.
  - apply IH; auto; intros; [apply W | apply W']; cbn; auto.
Qed.
Lemma init_core_path d w c j p0 p : well_meshed (w_panels w) -> at_position (w_panels w) c j p0 -> ring_init_panel d (w_span w * 20) (w_panels w) c j p0 = Ok p ->
  core_path (core_of p) (steady_ring_path d w c j p0).
Proof.
  intros HM H0 E. unfold steady_ring_path, ring_path, back_ends. unfold ring_init_panel in E. destruct (behind_trailing _ _ _ _ HM H0) as [(n & EB & ET & EN)|[EB ET]]; rewrite EB; rewrite ET in E.
  - rewrite EN in E. cbn [bind] in E. apply Ok_eq in E. subst p. left. unfold core_of. cbn [p_ring_vortex p_set_ring p_is_trailing_edge]. rewrite ET. rewrite app_nil_r. cbn. auto.
  - apply Ok_eq in E. subst p. right. unfold core_of. cbn [p_ring_vortex p_set_ring p_set_horseshoe p_is_trailing_edge p_horseshoe_vortex]. rewrite ET. rewrite !vadd_0_r, (Rmult_comm 20). reflexivity.
Qed.
Lemma ring_core_paths op airplanes airplanes0 : (forall a w, In a airplanes -> In w (a_wings a) -> well_meshed (w_panels w)) ->
  ring_init op airplanes = Ok airplanes0 -> Forall2 (fun p v => core_path (core_of p) v) (all_panels airplanes0) (steady_ring_paths op airplanes).
Proof.
  intros HM Ei. set (d := freestream_direction op).
  rewrite <- panels_of_all. unfold panels_of, steady_ring_paths. apply Forall2_concat.
  assert (FW : Forall2 (fun w' w => ring_init_wing d w = Ok w' /\ well_meshed (w_panels w)) (wings_of airplanes0) (wings_of airplanes)).
  { unfold wings_of. apply Forall2_concat. unfold ring_init in Ei. apply mapM_Forall2 in Ei. fold d in Ei. revert HM Ei. clear. intros HM F.
    induction F as [|a a' l l' Ha F IH]; cbn [map]; [constructor|]. constructor; [|apply IH; intros; eapply HM; [right|]; eassumption].
    unfold ring_init_airplane in Ha. apply bind_Ok in Ha. destruct Ha as (ws & Ew & Ha). apply Ok_eq in Ha. subst a'. cbn [a_wings a_set_wings]. apply mapM_Forall2 in Ew.
    assert (HW : forall w, In w (a_wings a) -> well_meshed (w_panels w)) by (intros w Hw; exact (HM a w (or_introl eq_refl) Hw)). revert HW Ew. clear. intros HW F.
    induction F as [|w w' ws ws' Hw F IH]; constructor; [split; [exact Hw | apply HW; left; reflexivity] | apply IH; intros; apply HW; right; assumption]. }
  revert FW. fold d. clear. intros FW. induction FW as [|w' w l' l [Ew HM] FW IH]; cbn [map]; constructor; [|exact IH].
  pose proof (ring_init_wing_same _ _ _ Ew) as HW.
  assert (HR : Forall2 (Forall2 same_panel) (w_panels w) (w_panels w')) by apply HW.
  apply (mesh_rel same_panel _ _ _ _ HR). intros c j p0 p H0 Hp. apply (init_core_path d w c j p0 p HM H0).
  unfold ring_init_wing in Ew. apply bind_Ok in Ew. destruct Ew as (m' & Em & Ew). apply Ok_eq in Ew. subst w'. cbn in Hp. destruct Hp as (row & Hrow & Hj).
  destruct (mapiM_nth _ _ _ _ _ Em Hrow) as (row0 & Hrow0 & Er). destruct (mapiM_nth _ _ _ _ _ Er Hj) as (p0' & Hp0 & Eq).
  assert (p0' = p0) by (apply (position_unique (w_panels w) c j); [exists row0; auto | exact H0]). subst p0'. exact Eq.
Qed.
(** Nets of two meshes whose strengths are in proportion. *)
Lemma circulation_big g g' c s : Forall2 (Forall2 (fun p p' => exists x, ring_strength p = Some x /\ ring_strength p' = Some (k * x))) g g' -> circulation g' c s = k * circulation g c s.
Proof.
  intros F. unfold circulation. destruct (nth_error g c) as [row|] eqn:Hc.
  - destruct (Forall2_nth_l _ _ _ F c row Hc) as (row' & Hc' & Fr). rewrite Hc'. destruct (nth_error row s) as [p|] eqn:Hs.
    + destruct (Forall2_nth_l _ _ _ Fr s p Hs) as (p' & Hs' & x & E & E'). rewrite Hs'. unfold ring_strength in E, E'.
      destruct (p_ring_vortex p), (p_ring_vortex p'); cbn [option_map] in E, E'; try discriminate. apply Some_eq' in E, E'. congruence.
    + assert (Hs' : nth_error row' s = None) by (apply nth_error_None; rewrite <- (Forall2_length _ _ _ Fr); apply nth_error_None; exact Hs). rewrite Hs'. ring.
  - assert (Hc' : nth_error g' c = None) by (apply nth_error_None; rewrite <- (Forall2_length _ _ _ F); apply nth_error_None; exact Hc). rewrite Hc'. ring.
Qed.
Lemma nets_big g g' c s : Forall2 (Forall2 (fun p p' => exists x, ring_strength p = Some x /\ ring_strength p' = Some (k * x))) g g' ->
  net_front g' c s = k * net_front g c s /\ net_left g' c s = k * net_left g c s /\ net_right g' c s = k * net_right g c s.
Proof.
  intros F. unfold net_front, net_left, net_right. rewrite !(fun c s => circulation_big g g' c s F).
  split; [|split; [|ring]]; [destruct c | destruct s]; rewrite ?(fun c s => circulation_big g g' c s F); ring.
Qed.
Lemma rings_big p p' r r' : big_core (core_of p) (core_of p') -> p_ring_vortex p = Some r -> p_ring_vortex p' = Some r' ->
  ring_consistent r -> ring_consistent r' ->
  (lv_center (rv_front_leg r') = vscale k (lv_center (rv_front_leg r)) /\ lv_vector (rv_front_leg r') = vscale k (lv_vector (rv_front_leg r))) /\
  (lv_center (rv_left_leg r') = vscale k (lv_center (rv_left_leg r)) /\ lv_vector (rv_left_leg r') = vscale k (lv_vector (rv_left_leg r))) /\
  (lv_center (rv_right_leg r') = vscale k (lv_center (rv_right_leg r)) /\ lv_vector (rv_right_leg r') = vscale k (lv_vector (rv_right_leg r))).
Proof.
  intros (_ & _ & H1 & H2 & H3 & H4 & _) Er Er' (Lf & Ll & _ & Lr & _) (Lf' & Ll' & _ & Lr' & _).
  destruct (core_ring p r Er) as (K1 & K2 & K3 & K4). destruct (core_ring p' r' Er') as (K1' & K2' & K3' & K4').
  pose proof Ll as (A1 & A2 & _). pose proof Lr as (B1 & B2 & _). pose proof Ll' as (A1' & A2' & _). pose proof Lr' as (B1' & B2' & _).
  rewrite K1, K2, K3, K4, K1', K2', K3', K4', A1, A2, B1, B2, A1', A2', B1', B2' in *.
  split; [|split].
  - exact (leg_big _ _ _ _ _ _ _ _ Lf Lf' H2 H3).
  - exact (leg_big _ _ _ _ _ _ _ _ Ll Ll' H3 H4).
  - exact (leg_big _ _ _ _ _ _ _ _ Lr Lr' H1 H2).
Qed.
Lemma ring_centers p r v vs ps : core_path (core_of p) v -> p_ring_vortex p = Some r -> ring_consistent r -> In v vs ->
  In (lv_center (rv_front_leg r)) (ring_points ps vs) /\ In (lv_center (rv_left_leg r)) (ring_points ps vs) /\ In (lv_center (rv_right_leg r)) (ring_points ps vs).
Proof.
  intros HP Er (Lf & Ll & _ & Lr & _) Hv. destruct (core_ring p r Er) as (K1 & K2 & K3 & K4).
  pose proof Ll as (A1 & A2 & _). pose proof Lr as (B1 & B2 & _). rewrite A1 in K3. rewrite A2 in K4. rewrite B1 in K1. rewrite B2 in K2.
  assert (Z : firstn 3 v = [(k_br (core_of p), k_fr (core_of p)); (k_fr (core_of p), k_fl (core_of p)); (k_fl (core_of p), k_bl (core_of p))]).
  { destruct HP as [(-> & _)| ->]; reflexivity. }
  assert (I : forall x, In x (map (fun s => midpoint (fst s) (snd s)) (firstn 3 v)) -> In x (ring_points ps vs)).
  { intros x Hx. unfold ring_points. apply in_or_app. right. apply in_concat. eexists. split; [apply in_map_iff; exists v; split; [reflexivity | exact Hv] | exact Hx]. }
  rewrite Z, K1, K2, K3, K4 in I. cbn [map fst snd] in I.
  destruct Lf as (_ & _ & _ & _ & Cf), Ll as (_ & _ & _ & _ & Cl), Lr as (_ & _ & _ & _ & Cr). rewrite Cf, Cl, Cr. repeat split; apply I; cbn; auto.
Qed.
Lemma big_sum a b c n : vadd (vadd (vscale n a) (vscale n b)) (vscale n c) = vscale n (vadd (vadd a b) c). Proof. rewrite !big_add. reflexivity. Qed.
Lemma ring_big solve l l' op op' s : SolveSpec solve -> same_stream op op' -> enlarged_airplanes k l l' ->
  (forall a, In a l -> well_meshed_airplane a) -> (forall a, In a l' -> well_meshed_airplane a) ->
  (forall x, In x (ring_points (panels_of l) (steady_ring_paths op l)) -> resolved k (steady_ring_paths op l) x) ->
  ring_run solve (ring_new l op) = Ok s ->
  exists s', ring_run solve (ring_new l' op') = Ok s' /\
    (forall x, resolved k (steady_ring_paths op l) x -> ring_solution_velocity s' [vscale k x] = ring_solution_velocity s [x]) /\
    Forall2 (enlarged_solution k ring_strength) (rso_airplanes s) (rso_airplanes s').
Proof.
  intros HS Hop HM W W' HG E.
  assert (Fr : fresh_ring (ring_new l op)) by (apply ring_new_fresh; intros a Ha; apply W, Ha).
  assert (Fr' : fresh_ring (ring_new l' op')) by (apply ring_new_fresh; intros a Ha; apply W', Ha).
  assert (Wm : forall a w, In a l -> In w (a_wings a) -> well_meshed (w_panels w)) by (intros a w Ha Hw; exact (proj1 (W a Ha) w Hw)).
  assert (Wm' : forall a w, In a l' -> In w (a_wings a) -> well_meshed (w_panels w)) by (intros a w Ha Hw; exact (proj1 (W' a Ha) w Hw)).
  pose proof (ring_final_strengths _ _ _ HS (fresh_sized _ Fr) E) as X1. change (map ring_strength (all_panels (rso_airplanes s)) = map Some (rso_strengths s)) in X1.
  destruct (final_core _ _ _ E) as (l0 & Ei & Ec & Rc). cbn [ring_new rso_op rso_airplanes] in Ei.
  destruct (ring_run_total solve (ring_new l' op') HS (fresh_sized _ Fr') Wm') as (l0' & rows' & Ei' & Ec' & K). cbn [ring_new rso_op rso_airplanes] in Ei'.
  pose proof (big_init_all op op' l l' l0 l0' Hop HM W W' Ei Ei') as M0.
  pose proof (ring_core_paths op l l0 Wm Ei) as P0. set (vs := steady_ring_paths op l) in *.
  assert (C0 : forall p, In p (all_panels l0) -> resolved k vs (p_collocation_point p)).
  { intros p Hp. destruct (Forall2_In_r _ _ _ _ (same_all_panels _ _ (ring_init_same _ _ _ Ei)) Hp) as (q & Hq & Sq). destruct (same_panel_collocation _ _ Sq) as [-> _].
    apply HG. unfold ring_points. apply in_or_app. left. apply in_map, in_panels_of, Hq. }
  assert (Mc : Forall2 (sys_big (resolved k vs) k_coll k_normal core_velocity) (map core_of_row (rso_rows s)) (map core_of_row rows')).
  { rewrite (ring_collapse_core _ _ Ec), (ring_collapse_core _ _ Ec'). apply big_panels_flat in M0.
    enough (Z : forall us, Forall2 (fun p v => core_path (core_of p) v) (all_panels l0) us -> (forall v, In v us -> In v vs) ->
      Forall2 (sys_big (resolved k vs) k_coll k_normal core_velocity) (map core_of (all_panels l0)) (map core_of (all_panels l0'))) by exact (Z vs P0 (fun v H => H)).
    revert C0. clear P0. induction M0 as [|p p' ps ps' (_ & _ & _ & H) _ IH]; cbn [map]; intros C0 us P0 IV; inversion P0 as [|? v ? us' HP P0' X2 X3]; subst us; constructor.
    - apply (core_big_sys vs _ _ v H HP); [apply IV; left; reflexivity|]. pose proof (C0 p (or_introl eq_refl)) as Hp. unfold core_of. destruct (p_ring_vortex p); destruct (p_is_trailing_edge p); [destruct (p_horseshoe_vortex p) | | destruct (p_horseshoe_vortex p) |]; exact Hp.
    - apply (IH (fun q Hq => C0 q (or_intror Hq)) us' P0'). intros u Hu. apply IV. right. exact Hu. }
  assert (Ok' : Forall row_ok rows').
  { apply ring_collapse_ok in Ec'. apply Forall_forall. intros r Hr. destruct (Forall2_In_r _ _ _ _ Ec' Hr) as (x & _ & Hx & _). exact Hx. }
  assert (N' : length (all_panels l') = length rows').
  { rewrite (Forall2_length _ _ _ (same_all_panels _ _ (ring_init_same _ _ _ Ei'))). rewrite <- (ring_collapse_panels _ _ Ec'), map_length. reflexivity. }
  pose proof E as E0. apply ring_run_inv in E0. cbv zeta in E0. destruct E0 as (z0 & z1 & loads & _ & _ & Eo & Ev & _ & Es & _ & _ & _ & Ep).
  rewrite (proj1 Fr), (proj2 Fr) in Es. cbn [ring_new rso_op rso_airplanes rso_freestream] in Es, Eo, Ev.
  assert (Es2 : solve (ring_influences rows' (rso_strengths (ring_new l' op')) (ring_collapse_hs_strengths rows' (rso_hs_strengths (ring_new l' op'))))
          (map Ropp (freestream_influences (map rr_normal rows') (rso_freestream (ring_new l' op')))) = Ok (map (Rmult k) (rso_strengths s))).
  { rewrite (proj1 Fr'), (proj2 Fr'). cbn [ring_new rso_airplanes rso_freestream].
    rewrite ring_sys_matrix, ring_sys_rhs, (same_stream_velocity op op' Hop) by assumption.
    apply (big_solve _ _ _ _ _ _ _ _ _ HS Mc). rewrite <- ring_sys_rhs.
    rewrite <- (ring_sys_matrix (rso_rows s) (length (all_panels l))); [exact Es | exact (ring_rows_ok _ _ _ E)|].
    symmetry. exact (ring_rows_count _ _ _ E). }
  destruct (K _ Es2) as (s' & E' & Ex'). exists s'. split; [exact E'|].
  pose proof (ring_final_strengths _ _ _ HS (fresh_sized _ Fr') E') as X3. change (map ring_strength (all_panels (rso_airplanes s')) = map Some (rso_strengths s')) in X3.
  rewrite Ex' in X3. destruct (final_core _ _ _ E') as (l0'' & Ei'' & Ec'' & Rc'). cbn [ring_new rso_op rso_airplanes] in Ei''.
  rewrite Ei' in Ei''. apply Ok_eq in Ei''. subst l0''. rewrite Ec' in Ec''. apply Ok_eq in Ec''.
  pose proof E' as E0'. apply ring_run_inv in E0'. cbv zeta in E0'. destruct E0' as (z0' & z1' & loads' & _ & _ & Eo' & Ev' & _ & _ & _ & _ & _ & Ep').
  cbn [ring_new rso_op rso_airplanes rso_freestream] in Eo', Ev', Ep, Ep'.
  destruct (ring_solution _ _ _ HS Fr E) as (_ & _ & Vs & _). destruct (ring_solution _ _ _ HS Fr' E') as (_ & _ & Vs' & _).
  assert (V : forall x, resolved k vs x -> ring_solution_velocity s' [vscale k x] = ring_solution_velocity s [x]).
  { intros x Hx. rewrite Vs, Vs', !ring_sys_velocity. f_equal.
    rewrite <- Ec'', Ex', Ev, Ev', (same_stream_velocity op op' Hop). exact (big_velocity _ _ _ _ _ _ _ _ _ Hx Mc). }
  split; [exact V|]. set (l1 := rso_airplanes s) in *. set (l3 := rso_airplanes s') in *.
  assert (P1 : Forall2 (fun p v => core_path (core_of p) v) (all_panels l1) vs).
  { apply rel_all_panels in Rc. fold l1 in Rc. refine (Forall2_replace_l _ _ _ _ _ _ Rc P0 _). intros p q v [C _] HP. rewrite C. exact HP. }
  assert (M1 : Forall2 (enlarged_airplane k (fun p p' => big_ring p p' /\ exists g, ring_strength p = Some g /\ ring_strength p' = Some (k * g))) l1 l3).
  { refine (big_tree_both _ _ _ _ _ _ (strengths_scaled _ _ _ _ X1 X3)).
    pose proof (big_tree_same k _ (enlarged_panel k) _ _ _ _ (fun p p' q q' Sp Sp' (H : enlarged_panel k p p') => enlarged_panel_same k p p' q q' Sp Sp' H)
       (ring_run_same _ _ _ E) (ring_run_same _ _ _ E') HM) as M1. change (Forall2 (enlarged_airplane k (enlarged_panel k)) l1 l3) in M1.
    assert (Q : Forall2 (fun p p' => p_ring_vortex p <> None /\ p_ring_vortex p' <> None /\ big_core (core_of p) (core_of p')) (all_panels l1) (all_panels l3)).
    { apply big_panels_flat in M0. apply rel_all_panels in Rc, Rc'. fold l1 in Rc. fold l3 in Rc'.
      refine (Forall2_replace_r _ _ _ _ _ _ Rc' (Forall2_replace_l _ (fun q p' => p_ring_vortex q <> None /\ p_ring_vortex p' <> None /\ big_core (core_of q) (core_of p')) _ _ _ _ Rc M0 _) _).
      - intros p q p' [C N] (_ & A & B & D). rewrite C. auto.
      - intros q p' q' [C N] (A & B & D). rewrite C. auto. }
    pose proof (big_tree_both _ _ _ _ _ M1 Q) as M2. refine (big_tree_impl _ _ _ _ _ _ M2). intros a a' p p' _ _ _ _ _ (A & B & C & D). exact (conj A (conj B (conj C D))). }
  assert (M4 : Forall2 (enlarged_airplane k (fun p p' => enlarged_panel k p p' /\ enlarged_loads k p p' /\
                 exists g, ring_strength p = Some g /\ ring_strength p' = Some (k * g))) l1 l3).
  { refine (big_wings_impl _ _ _ _ _ _ M1). intros a a' w w' Ha Ha' Hx Hw Hw' (Hs & HF). split; [exact Hs|].
    assert (HN : Forall2 (Forall2 (fun p p' => exists g, ring_strength p = Some g /\ ring_strength p' = Some (k * g))) (w_panels w) (w_panels w')).
    { eapply Forall2_impl; [|exact HF]. intros r r' Hr. eapply Forall2_impl; [|exact Hr]. intros p p' H. apply H. }
    apply Forall2_from_nth; [exact (Forall2_length _ _ _ HF)|]. intros c row row' Hc Hc'.
    destruct (Forall2_nth_l _ _ _ HF c row Hc) as (z & Hz & Pz). rewrite Hc' in Hz. apply Some_eq' in Hz. subst z.
    apply Forall2_from_nth; [exact (Forall2_length _ _ _ Pz)|]. intros j p p' Hp Hp'.
    destruct (Forall2_nth_l _ _ _ Pz j p Hp) as (z & Hz & (A & B & C & D) & T). rewrite Hp' in Hz. apply Some_eq' in Hz. subst z.
    split; [exact A|]. split; [|exact T].
    assert (Hq : at_position (w_panels w) c j p) by (exists row; auto).
    assert (Hq' : at_position (w_panels w') c j p') by (exists row'; auto).
    destruct (ring_kutta_joukowski _ _ _ HS (fresh_sized _ Fr) Wm E a w c j p Ha Hw Hq) as (r & vr & vf & vl & Hr & Cr & V1 & V2 & V3 & G1 & G2 & _).
    destruct (ring_kutta_joukowski _ _ _ HS (fresh_sized _ Fr') Wm' E' a' w' c _ p' Ha' Hw' Hq') as (r' & vr' & vf' & vl' & Hr' & Cr' & V1' & V2' & V3' & G1' & G2' & _).
    destruct (rings_big p p' r r' D Hr Hr' Cr Cr') as ((F1 & F2) & (K1 & K2) & (R1 & R2)).
    destruct (nets_big _ _ c j HN) as (N1 & N2 & N3).
    assert (Er : op_density (rso_op s') = op_density (rso_op s)) by (rewrite Eo, Eo'; apply Hop).
    assert (Ip : In p (airplane_panels a)).
    { apply in_airplane_panels. exists w. split; [exact Hw|]. apply in_ravel_position. eauto. }
    assert (Ip' : In p' (airplane_panels a')).
    { apply in_airplane_panels. exists w'. split; [exact Hw'|]. apply in_ravel_position. eauto. }
    assert (Iall : In p (all_panels l1)) by (apply in_all_panels; exists a; auto). apply In_nth_error in Iall. destruct Iall as (i & Hi).
    destruct (Forall2_nth_l _ _ _ P1 _ _ Hi) as (v & Hv & HP). apply nth_error_In in Hv.
    destruct (ring_centers p r v vs (panels_of l) HP Hr Cr Hv) as (I1 & I2 & I3). apply HG in I1, I2, I3.
    cbv zeta in G1, G2, G1', G2'. rewrite F1, (V _ I1), V2 in V2'. rewrite K1, (V _ I2), V3 in V3'. rewrite R1, (V _ I3), V1 in V1'.
    apply cons_eq' in V1', V2', V3'. destruct V1' as [Q1 _], V2' as [Q2 _], V3' as [Q3 _]. subst vr' vf' vl'.
    rewrite F1, F2, K1, K2, R1, R2, Er, N1, N2, N3, Hx, !big_force, !big_moment, !big_sum in G2'. rewrite F2, K2, R2, Er, N1, N2, N3, !big_force, !big_sum in G1'.
    exact (enlarged_loads_from k op op' p p' _ _ Hk Hop A (proj2 (processed _ _ _ _ _ Ep a Ha) p Ip) (proj2 (processed _ _ _ _ _ Ep' a' Ha') p' Ip') G1 G2 G1' G2'). }
  assert (Y : forall a a', In a l1 -> In a' l3 -> enlarged_airplane k (fun p p' => enlarged_panel k p p' /\ enlarged_loads k p p' /\
                 exists g, ring_strength p = Some g /\ ring_strength p' = Some (k * g)) a a' -> enlarged_solution k ring_strength a a').
  { intros a a' Ha Ha' Hm. split; [|exact Hm].
    refine (enlarged_totals_from k op op' _ a a' Hk Hop _ Hm (proj1 (processed _ _ _ _ _ Ep a Ha)) (proj1 (processed _ _ _ _ _ Ep' a' Ha'))).
    intros p p' H. apply H. }
  clear -M4 Y. induction M4; constructor; [apply Y; cbn; auto|]. apply IHM4. intros; apply Y; cbn; auto.
Qed.
End Size.
