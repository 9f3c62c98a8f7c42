(** Wings that lie on themselves cannot be solved for. *)
From Coq Require Import List ZArith Lia Lra Bool Reals String.
From Verif Require Import M_Unsteady M_Horseshoe M_SteadyRing S_Unsteady S_UnsteadyRun S_Geometry S_Wing S_Loads S_Solve S_Solvable S_Folded L_Base L_Functions L_Aero L_Loads L_Meshing L_Geometry
  L_SteadyRing L_NoLoads L_Solvable L_Example L_Example3.
Import ListNotations.
Local Open Scope R_scope.
Local Open Scope list_scope.

(** ** Opposite vortices *)
Definition opposite (v w : path) : Prop := forall p, felt p w = - felt p v.
Lemma opposed_indistinct ps vs i j v w : nth_error vs i = Some v -> nth_error vs j = Some w -> opposite v w -> (i < j)%nat -> ~ distinguishable ps vs.
Proof.
  intros Hi Hj HO Hij HD. destruct (nth_error_split _ _ Hi) as (l1 & l2 & E & L1). subst vs.
  assert (exists l3 l4, l2 = l3 ++ w :: l4) as (l3 & l4 & ->).
  { rewrite nth_error_app2 in Hj by lia. rewrite L1 in Hj. destruct (j - i)%nat as [|n] eqn:En; [lia|]. cbn [nth_error] in Hj. destruct (nth_error_split _ _ Hj) as (l3 & l4 & -> & _). eauto. }
  set (gs := repeat 0 (List.length l1) ++ 1 :: repeat 0 (List.length l3) ++ 1 :: repeat 0 (List.length l4)).
  assert (HA : forall p (l m : list path) gs', rsum (map2 (fun v g => felt p v * g) (l ++ m) (repeat 0 (List.length l) ++ gs')) = rsum (map2 (fun v g => felt p v * g) m gs')).
  { intros p l m gs'. induction l as [|u l IH]; [reflexivity|]. cbn [List.length repeat app map2]. rewrite rsum_cons, IH. ring. }
  assert (Hg : 1 = 0); [|lra]. apply (HD gs).
  - unfold gs. rewrite !app_length. cbn [List.length]. rewrite !app_length. cbn [List.length]. rewrite !repeat_length. reflexivity.
  - intros p _. unfold gs. rewrite HA. cbn [map2]. rewrite rsum_cons, HA. cbn [map2]. rewrite rsum_cons. rewrite <- (app_nil_r l4) at 1. rewrite <- (app_nil_r (repeat 0 (List.length l4))), HA. cbn [map2]. change (rsum []) with 0. rewrite (HO p). ring.
  - unfold gs. apply in_or_app. right. left. reflexivity.
Qed.
Lemma felt_cons p s v : felt p (s :: v) = vdot (line_velocity (p_collocation_point p) (fst s) (snd s) 1 0 0) (p_unit_normal p) + felt p v.
Proof. unfold felt. cbn [map]. rewrite vsum_cons, vdot_add_l. reflexivity. Qed.
Lemma reversed_segment p a b : vdot (line_velocity (p_collocation_point p) b a 1 0 0) (p_unit_normal p) = - vdot (line_velocity (p_collocation_point p) a b 1 0 0) (p_unit_normal p).
Proof. rewrite line_velocity_reverse. vunfold. ring. Qed.
Lemma opposite_open a b c d : opposite (open_path a b c d) (open_path d c b a).
Proof. intros p. unfold open_path. rewrite !felt_cons, felt_nil. cbn [fst snd]. rewrite (reversed_segment p c d), (reversed_segment p b c), (reversed_segment p a b). ring. Qed.
Lemma opposite_closed a b c d : opposite (closed_path a b c d) (closed_path d c b a).
Proof. intros p. unfold closed_path. rewrite !felt_cons, felt_nil. cbn [fst snd]. rewrite (reversed_segment p c d), (reversed_segment p b c), (reversed_segment p a b), (reversed_segment p d a). ring. Qed.
Lemma opposite_app v w v' w' : opposite v v' -> opposite w w' -> opposite (v ++ w) (v' ++ w').
Proof. intros H1 H2 p. rewrite !felt_app, H1, H2. ring. Qed.
Lemma opposite_nil : opposite [] [].
Proof. intros p. rewrite felt_nil. ring. Qed.
Lemma exchanged_vertices p q : sides_exchanged p q -> p_front_left_vortex_vertex q = p_front_right_vortex_vertex p /\ p_front_right_vortex_vertex q = p_front_left_vortex_vertex p.
Proof.
  intros (E1 & E2 & E3 & E4). unfold p_front_left_vortex_vertex, p_front_right_vortex_vertex, p_left_leg, p_right_leg. rewrite E1, E2, E3, E4. split; apply vec_ext; vunfold; cbn; field.
Qed.
Lemma exchanged_horseshoe d w p q : sides_exchanged p q -> opposite (horseshoe_path d w p) (horseshoe_path d w q).
Proof. intros H. destruct (exchanged_vertices _ _ H) as [E1 E2]. unfold horseshoe_path. rewrite E1, E2. apply opposite_open. Qed.
Lemma folded_behind m j k c : folded m j k -> (behind m c j = None /\ behind m c k = None) \/ exists p q, behind m c j = Some p /\ behind m c k = Some q /\ sides_exchanged p q.
Proof.
  intros HF. unfold behind. destruct (nth_error m (S c)) as [row|] eqn:E; [|left; split; reflexivity]. destruct (HF row (nth_error_In _ _ E)) as (p & q & Ep & Eq & H). right. exists p, q. auto.
Qed.
Lemma folded_back shift m j k c p q : folded m j k -> sides_exchanged p q -> fst (back_ends shift m c k q) = snd (back_ends shift m c j p) /\ snd (back_ends shift m c k q) = fst (back_ends shift m c j p).
Proof.
  intros HF H. unfold back_ends. destruct (folded_behind m j k c HF) as [[-> ->] | (p' & q' & -> & -> & H')]; cbn [fst snd].
  - destruct (exchanged_vertices _ _ H) as [E1 E2]. destruct H as (F1 & F2 & F3 & F4). rewrite E1, E2, F1, F2, F3, F4. split; reflexivity.
  - exact (exchanged_vertices _ _ H').
Qed.
Lemma exchanged_ring shift m j k c p q : folded m j k -> sides_exchanged p q -> opposite (ring_path shift m c j p) (ring_path shift m c k q).
Proof.
  intros HF H. destruct (exchanged_vertices _ _ H) as [E1 E2]. destruct (folded_back shift m j k c p q HF H) as [B1 B2]. unfold ring_path.
  destruct (back_ends shift m c j p) as [bl br]. destruct (back_ends shift m c k q) as [bl' br']. cbn [fst snd] in B1, B2. subst bl' br'. rewrite E1, E2. apply opposite_closed.
Qed.
Lemma exchanged_steady d w j k c p q : folded (w_panels w) j k -> sides_exchanged p q -> opposite (steady_ring_path d w c j p) (steady_ring_path d w c k q).
Proof.
  intros HF H. pose proof (exchanged_ring vzero _ j k c p q HF H) as HR. destruct (folded_back vzero _ j k c p q HF H) as [B1 B2]. unfold steady_ring_path.
  destruct (back_ends vzero (w_panels w) c j p) as [bl br]. destruct (back_ends vzero (w_panels w) c k q) as [bl' br']. cbn [fst snd] in B1, B2. subst bl' br'.
  apply opposite_app; [exact HR|]. destruct (folded_behind (w_panels w) j k c HF) as [[-> ->] | (p' & q' & -> & -> & _)]; [apply opposite_open | apply opposite_nil].
Qed.

(** ** Two columns of a mesh *)
Definition pair_within (vs : list path) : Prop := exists i j v w, nth_error vs i = Some v /\ nth_error vs j = Some w /\ opposite v w /\ i <> j.
Lemma opposite_sym v w : opposite v w -> opposite w v.
Proof. intros H p. rewrite (H p). ring. Qed.
Lemma pair_indistinct ps vs : pair_within vs -> ~ distinguishable ps vs.
Proof.
  intros (i & j & v & w & Hi & Hj & H & Hij). destruct (Nat.lt_trichotomy i j) as [L|[L|L]]; [|contradiction|].
  - exact (opposed_indistinct ps vs i j v w Hi Hj H L).
  - exact (opposed_indistinct ps vs j i w v Hj Hi (opposite_sym _ _ H) L).
Qed.
Lemma pair_app vs ws us : pair_within ws -> pair_within (vs ++ ws ++ us).
Proof.
  intros (i & j & v & w & Hi & Hj & H & Hij). exists (List.length vs + i)%nat, (List.length vs + j)%nat, v, w.
  assert (HA : forall i v, nth_error ws i = Some v -> nth_error (vs ++ ws ++ us) (List.length vs + i) = Some v).
  { clear. intros i v Hi. rewrite nth_error_app2 by lia. replace (List.length vs + i - List.length vs)%nat with i by lia. rewrite nth_error_app1; [exact Hi | apply nth_error_Some; congruence]. }
  split; [exact (HA _ _ Hi)|]. split; [exact (HA _ _ Hj)|]. split; [exact H | lia].
Qed.
Lemma pair_concat ws l : In ws l -> pair_within ws -> pair_within (concat l).
Proof. intros H HP. apply in_split in H. destruct H as (l1 & l2 & ->). rewrite concat_app. cbn [concat]. apply pair_app. exact HP. Qed.
Lemma pair_mesh (f : nat -> nat -> panel -> path) m j k : m <> [] -> j <> k -> folded m j k ->
  (forall c p q, sides_exchanged p q -> opposite (f c j p) (f c k q)) -> pair_within (on_mesh f m).
Proof.
  intros HN Hjk HF HO. destruct m as [|row m]; [contradiction HN; reflexivity|]. destruct (HF row (or_introl eq_refl)) as (p & q & Ep & Eq & H).
  unfold on_mesh. eapply pair_concat; [left; reflexivity|]. cbn [fst snd].
  exists j, k, (f 0%nat j p), (f 0%nat k q). rewrite !nth_error_map, !numbered_nth, Ep, Eq. cbn [option_map fst snd]. split; [reflexivity|]. split; [reflexivity|]. split; [exact (HO _ _ _ H) | exact Hjk].
Qed.
Lemma pair_rows (f : panel -> path) m j k : m <> [] -> j <> k -> folded m j k -> (forall p q, sides_exchanged p q -> opposite (f p) (f q)) -> pair_within (map f (concat m)).
Proof.
  intros HN Hjk HF HO. destruct m as [|row m]; [contradiction HN; reflexivity|]. destruct (HF row (or_introl eq_refl)) as (p & q & Ep & Eq & H).
  cbn [concat]. rewrite map_app. apply (pair_app [] (map f row)). exists j, k, (f p), (f q). rewrite !nth_error_map, Ep, Eq. split; [reflexivity|]. split; [reflexivity|]. split; [exact (HO _ _ H) | exact Hjk].
Qed.

Lemma steady_folded solve airplanes op w j k : SolveSpec solve -> In w (wings_of airplanes) -> w_panels w <> [] -> j <> k -> folded (w_panels w) j k ->
  (~ exists s, hs_run solve (hs_new airplanes op) = Ok s) /\
  (fresh_ring (ring_new airplanes op) -> (forall a w, In a airplanes -> In w (a_wings a) -> well_meshed (w_panels w)) -> ~ exists s, ring_run solve (ring_new airplanes op) = Ok s).
Proof.
  intros HS Hw HN Hjk HF. split.
  - rewrite horseshoe_solvable by exact HS. apply pair_indistinct. unfold horseshoe_paths. eapply pair_concat; [apply in_map; exact Hw|].
    apply (pair_rows _ _ j k HN Hjk HF). intros p q. apply exchanged_horseshoe.
  - intros HFr HM. rewrite (ring_solvable _ _ _ HS HFr HM). apply pair_indistinct. unfold steady_ring_paths. eapply pair_concat; [apply in_map; exact Hw|].
    apply (pair_mesh _ _ j k HN Hjk HF). intros c p q H. exact (exchanged_steady _ _ j k c p q HF H).
Qed.
Lemma unsteady_folded solve prescribed (lines : bool) up sp w j k : SolveSpec solve -> created up -> In sp (up_steady_problems up) -> In w (step_wings sp) -> w_panels w <> [] -> j <> k ->
  folded (w_panels w) j k -> ~ exists s, finished solve prescribed lines up s.
Proof.
  intros HS HC Hin Hw HN Hjk HF H. apply (proj1 (unsteady_solvable solve HS prescribed up lines HC)) in H. destruct H as [_ H]. specialize (H sp Hin). revert H.
  apply pair_indistinct. unfold unsteady_ring_paths. eapply pair_concat; [apply in_map; exact Hw|].
  apply (pair_mesh _ _ j k HN Hjk HF). intros c p q H. exact (exchanged_ring _ _ j k c p q HF H).
Qed.

(** ** Wings within their plane of symmetry *)
Lemma plane_sum q a b c : vsub (vadd (vadd (vadd q a) b) c) q = vadd a (vadd b c).
Proof. vring. Qed.
Lemma plane_blend q a b k : vsub (vadd a (vscale k (vsub b a))) q = vadd (vscale (1 - k) (vsub a q)) (vscale k (vsub b q)).
Proof. vring. Qed.
Section Plane.
  Variables n q : vec.
  Hypothesis Hn : vnorm n = 1.
  Definition on (p : vec) : Prop := on_plane n q p.
  Definition panel_on (p : panel) : Prop := on (p_front_left p) /\ on (p_front_right p) /\ on (p_back_left p) /\ on (p_back_right p).
  Lemma plane_nonzero : n <> vzero.
  Proof. intros E. revert Hn. rewrite E, vnorm_zero. lra. Qed.
  Lemma section_on s mcl ps c : cs_unit_normal s = n -> vdot n (cs_leading_edge s) = 0 -> cs_wing_unit_chordwise s = Some c -> vdot c n = 0 ->
    section_mcl q s mcl = Ok ps -> Forall on ps.
  Proof.
    intros En El Ew Hc E. unfold section_mcl in E. apply bind_Ok in E. destruct E as (back & E1 & E). apply bind_Ok in E. destruct E as (up & E2 & E). apply Ok_eq in E. subst ps.
    unfold cs_unit_up in E2. rewrite E1 in E2. cbn [bind] in E2. apply Ok_eq in E2. subst up. unfold cs_unit_chordwise in E1. rewrite Ew in E1. apply Ok_eq in E1. rewrite En in *.
    assert (HB : vdot n back = 0).
    { subst back. replace n with (mvmul (angle_axis_rotation_matrix (cs_twist s * PI / 180) n false) n) at 1.
      - rewrite (proj1 (rotation_is_proper _ n false plane_nonzero ltac:(discriminate))). rewrite vdot_comm. exact Hc.
      - pose proof (rotation_fixes_axis (cs_twist s * PI / 180) n false plane_nonzero ltac:(discriminate) 1) as H. rewrite !vscale_1_l in H. exact H. }
    apply Forall_forall. intros p Hp. apply in_map_iff in Hp. destruct Hp as (t & <- & _). unfold on, on_plane.
    rewrite (plane_sum q (cs_leading_edge s)).
    rewrite !vdot_add_r, !vdot_scale_r, El, HB, vdot_cross_r. ring.
  Qed.
  Lemma interp_on l m ks : Forall on l -> Forall on m -> Forall (Forall on) (interp_between_points l m ks).
  Proof.
    intros HL. revert m. induction HL as [|a l Ha HL IH]; intros m HM; [constructor|]. destruct HM as [|b m Hb HM]; [constructor|]. unfold interp_between_points in *. cbn [map2]. constructor; [|apply IH; exact HM].
    apply Forall_forall. intros p Hp. apply in_map_iff in Hp. destruct Hp as (k & <- & _). unfold on, on_plane in *.
    rewrite plane_blend, vdot_add_r, !vdot_scale_r, Ha, Hb. ring.
  Qed.
  Lemma Forall_removelast {A} (P : A -> Prop) l : Forall P l -> Forall P (removelast l).
  Proof. intros H. apply Forall_forall. intros x Hx. rewrite Forall_forall in H. apply H. clear H. induction l as [|a [|b l] IH]; [destruct Hx | destruct Hx | destruct Hx as [<-|Hx]; [left; reflexivity | right; apply IH; exact Hx]]. Qed.
  Lemma but_last_Forall {A} (P : A -> Prop) l : Forall P l -> Forall P (but_last l).
  Proof. exact (Forall_removelast P l). Qed.
  Lemma Forall_tl {A} (P : A -> Prop) l : Forall P l -> Forall P (tl l).
  Proof. intros H. destruct H; [constructor | exact H0]. Qed.
  Lemma section_panels_on a b c d : Forall (Forall on) a -> Forall (Forall on) b -> Forall (Forall on) c -> Forall (Forall on) d -> Forall (Forall panel_on) (section_panels a b c d).
  Proof.
    intros HA HB HC HD. unfold section_panels, mapi. apply Forall_mapi_from. intros i [[[ra rb] rc] rd] Hi.
    pose proof (in_combine_r _ _ _ _ Hi) as Id. apply in_combine_l in Hi. pose proof (in_combine_r _ _ _ _ Hi) as Ic. apply in_combine_l in Hi. pose proof (in_combine_r _ _ _ _ Hi) as Ib. apply in_combine_l in Hi.
    rewrite Forall_forall in HA, HB, HC, HD. specialize (HA _ Hi). specialize (HB _ Ib). specialize (HC _ Ic). specialize (HD _ Id). rewrite Forall_forall in HA, HB, HC, HD.
    apply Forall_forall. intros p Hp. apply in_map_iff in Hp. destruct Hp as ([[[pa pb] pc] pd] & <- & Hp).
    pose proof (in_combine_r _ _ _ _ Hp) as Jd. apply in_combine_l in Hp. pose proof (in_combine_r _ _ _ _ Hp) as Jc. apply in_combine_l in Hp. pose proof (in_combine_r _ _ _ _ Hp) as Jb. apply in_combine_l in Hp.
    unfold panel_on, new_panel. cbn [p_front_left p_front_right p_back_left p_back_right]. auto.
  Qed.
  Lemma hstack_on a b : Forall (Forall panel_on) a -> Forall (Forall panel_on) b -> Forall (Forall panel_on) (hstack a b).
  Proof. intros HA. revert b. induction HA as [|x a Hx HA IH]; intros b HB; cbn [hstack]; [constructor|]. destruct HB; constructor; [apply Forall_app; auto | apply IH; assumption]. Qed.
  Definition section_flat (c : vec) (s : section) : Prop := cs_unit_normal s = n /\ vdot n (cs_leading_edge s) = 0 /\ cs_wing_unit_chordwise s = Some c.
  Definition grids (v : vertices) : Prop :=
    Forall (Forall on) (v_front_inner v) /\ Forall (Forall on) (v_front_outer v) /\ Forall (Forall on) (v_back_inner v) /\ Forall (Forall on) (v_back_outer v).
  Lemma vertices_on c i o l m ks v : vdot c n = 0 -> section_flat c i -> section_flat c o -> section_vertices q i o l m ks = Ok v -> grids v.
  Proof.
    intros Hc (I1 & I2 & I3) (O1 & O2 & O3) E. unfold section_vertices in E. apply bind_Ok in E. destruct E as (ip & Ei & E). apply bind_Ok in E. destruct E as (op & Eo & E). apply Ok_eq in E. subst v.
    pose proof (section_on _ _ _ _ I1 I2 I3 Hc Ei) as HI. pose proof (section_on _ _ _ _ O1 O2 O3 Hc Eo) as HO. pose proof (interp_on _ _ ks HI HO) as H. clear -H.
    unfold grids, split_vertices. cbn [v_front_inner v_front_outer v_back_inner v_back_outer].
    split; [|split; [|split]]; apply Forall_map.
    - eapply Forall_impl; [|apply but_last_Forall; exact H]. intros r. apply but_last_Forall.
    - eapply Forall_impl; [|apply but_last_Forall; exact H]. intros r. apply Forall_tl.
    - eapply Forall_impl; [|apply Forall_tl; exact H]. intros r. apply but_last_Forall.
    - eapply Forall_impl; [|apply Forall_tl; exact H]. intros r. apply Forall_tl.
  Qed.
  Lemma reflected_on (w : mesh_spec) g : ms_unit_normal w = n -> ms_leading_edge w = q -> Forall (Forall on) g -> reflect_grid w g = g.
  Proof.
    intros E1 E2 H. unfold reflect_grid. rewrite E1, E2. apply map_id_In. intros r Hr. apply map_id_In. intros p Hp. rewrite Forall_forall in H. specialize (H r Hr). rewrite Forall_forall in H.
    apply reflect_fixes_iff; [exact Hn | exact (H p Hp)].
  Qed.
  Lemma mesh_on c w l : vdot c n = 0 -> ms_unit_normal w = n -> ms_leading_edge w = q -> Forall (section_flat c) l ->
    forall acc m, Forall (Forall panel_on) acc -> mesh_sections w l acc = Ok m -> Forall (Forall panel_on) m.
  Proof.
    intros Hc E1 E2 HF. induction l as [|i [|o l] IH]; intros acc m HA E; [cbn in E; apply Ok_eq in E; subst; exact HA | cbn in E; apply Ok_eq in E; subst; exact HA |].
    change (mesh_sections w (i :: o :: l) acc) with
      (let* right_panels := right_section w i o in
       let acc := hstack acc right_panels in
       let* acc := if ms_symmetric w then let* left_panels := left_section w i o in Ok (hstack left_panels acc) else Ok acc in
       mesh_sections w (o :: l) acc) in E.
    apply Forall_cons_iff in HF. destruct HF as [Hi HF]. pose proof HF as HF'. apply Forall_cons_iff in HF'. destruct HF' as [Ho _].
    apply bind_Ok in E. destruct E as (r & Er & E). cbn zeta in E. apply bind_Ok in E. destruct E as (acc' & Ea & E). eapply IH; [exact HF | | exact E].
    assert (HR : Forall (Forall panel_on) r).
    { unfold right_section in Er. cbn zeta in Er. apply bind_Ok in Er. destruct Er as (mc & _ & Er). apply bind_Ok in Er. destruct Er as (v & Ev & Er). apply bind_Ok in Er. destruct Er as (? & _ & Er).
      apply Ok_eq in Er. subst r. rewrite E2 in Ev. destruct (vertices_on c i o _ _ _ _ Hc Hi Ho Ev) as (V1 & V2 & V3 & V4). apply section_panels_on; assumption. }
    destruct (ms_symmetric w); [|apply Ok_eq in Ea; subst; apply hstack_on; assumption].
    apply bind_Ok in Ea. destruct Ea as (lp & El & Ea). apply Ok_eq in Ea. subst acc'. apply hstack_on; [|apply hstack_on; assumption].
    unfold left_section in El. cbn zeta in El. apply bind_Ok in El. destruct El as (mc & _ & El). apply bind_Ok in El. destruct El as (v & Ev & El). apply bind_Ok in El. destruct El as (? & _ & El).
    apply Ok_eq in El. subst lp. rewrite E2 in Ev. destruct (vertices_on c i o _ _ _ _ Hc Hi Ho Ev) as (V1 & V2 & V3 & V4). rewrite !reflected_on by assumption.
    apply Forall_map. eapply Forall_impl; [|apply section_panels_on; eassumption]. intros row H. apply Forall_rev. exact H.
  Qed.
End Plane.
Lemma wing_on sections name x y z n sym c nc sp w : new_wing sections name x y z n sym c nc sp = Ok w -> vnorm n = 1 ->
  (forall s, In s sections -> cs_unit_normal s = n /\ vdot n (cs_leading_edge s) = 0) -> Forall (Forall (panel_on n (mkvec x y z))) (w_panels w).
Proof.
  intros E Hn HS. assert (Hc : vdot c n = 0).
  { assert (Hn0 : n <> vzero) by (intros ->; rewrite vnorm_zero in Hn; lra). pose proof (new_wing_rules _ _ _ _ _ _ _ _ _ _ _ Hn0 E) as HR.
    unfold wing_rules in HR. rewrite !all_hold_cons in HR. tauto. }
  unfold new_wing in E. cbn zeta in E. repeat (apply bind_Ok in E; destruct E as (? & ? & E)). apply Ok_eq in E. subst w. cbn [w_panels].
  match goal with H : mesh_wing _ _ _ = Ok _ |- _ => unfold mesh_wing in H; apply bind_Ok in H; destruct H as (m & Hm & H); apply Ok_eq in H; subst end.
  apply (mesh_on n (mkvec x y z) Hn c) in Hm; [|exact Hc | reflexivity | reflexivity | | apply Forall_forall; intros r Hr; apply repeat_spec in Hr; subst; constructor].
  - unfold set_positions, mapi. apply Forall_mapi_from. intros i row Hr. apply Forall_mapi_from. intros j p Hp. rewrite Forall_forall in Hm. specialize (Hm row Hr). rewrite Forall_forall in Hm. exact (Hm p Hp).
  - apply Forall_map. apply Forall_forall. intros s Hs. destruct (HS s Hs) as [S1 S2]. split; [exact S1|]. split; [exact S2 | reflexivity].
Qed.
Lemma mirror_on n q p : on n q p -> mirror n q p = p.
Proof. unfold on, on_plane, mirror. intros ->. vring. Qed.
Lemma left_section_count w i o lp : left_section w i o = Ok lp -> (1 <= cs_num_spanwise_panels i)%nat.
Proof.
  intros El. unfold left_section in El. cbn zeta in El. apply bind_Ok in El. destruct El as (? & _ & El). apply bind_Ok in El. destruct El as (? & _ & El). apply bind_Ok in El. destruct El as (? & Ec & _).
  unfold check in Ec. destruct (Nat.leb 1 (cs_num_spanwise_panels i)) eqn:E; [apply Nat.leb_le; exact E | discriminate].
Qed.
Lemma symmetric_columns sections name x y z n c nc sp w : new_wing sections name x y z n true c nc sp = Ok w -> (2 <= w_num_spanwise_panels w)%nat /\ (1 <= nc)%nat.
Proof.
  intros E. destruct (wing_shape _ _ _ _ _ _ _ _ _ _ _ E) as (_ & _ & _ & EN & _). rewrite EN. clear EN.
  unfold new_wing in E. cbn zeta in E. apply bind_Ok in E. destruct E as (? & Ec & E). repeat (apply bind_Ok in E; destruct E as (? & ? & E)).
  match goal with H : mesh_wing _ _ _ = Ok _ |- _ => unfold mesh_wing in H; apply bind_Ok in H; destruct H as (m & Hm & _) end.
  destruct sections as [|i [|o l]]; [discriminate Ec | discriminate Ec|]. cbn [map] in Hm.
  remember (cs_set_wing_chordwise c i) as i' eqn:Ei. remember (cs_set_wing_chordwise c o) as o' eqn:Eo.
  match type of Hm with mesh_sections ?w _ ?start = _ => change ((let* right_panels := right_section w i' o' in
       let acc := hstack start right_panels in
       let* acc := if ms_symmetric w then let* left_panels := left_section w i' o' in Ok (hstack left_panels acc) else Ok acc in
       mesh_sections w (o' :: map (cs_set_wing_chordwise c) l) acc) = Ok m) in Hm end.
  apply bind_Ok in Hm. destruct Hm as (r & Er & Hm). cbn zeta in Hm. apply bind_Ok in Hm. destruct Hm as (acc' & Ea & _). cbn [ms_symmetric] in Ea. apply bind_Ok in Ea. destruct Ea as (lp & El & _).
  apply left_section_count in El. subst i'. cbn [cs_set_wing_chordwise cs_num_spanwise_panels] in El.
  change (removelast (i :: o :: l)) with (i :: removelast (o :: l)). cbn [map list_sum fold_right]. split; [lia|].
  unfold right_section in Er. cbn zeta in Er. apply bind_Ok in Er. destruct Er as (? & _ & Er). apply bind_Ok in Er. destruct Er as (? & _ & Er). apply bind_Ok in Er. destruct Er as (? & Ek & _).
  cbn [ms_num_chordwise] in Ek. unfold check in Ek. destruct nc; [discriminate Ek | lia].
Qed.
Lemma wing_folded sections name x y z n c nc sp w : new_wing sections name x y z n true c nc sp = Ok w -> vnorm n = 1 ->
  (forall s, In s sections -> cs_unit_normal s = n /\ vdot n (cs_leading_edge s) = 0) ->
  (forall s, In s (removelast sections) -> cs_control_surface_type s = "symmetric"%string \/ cs_control_surface_deflection s = 0) ->
  w_panels w <> [] /\ (1 < w_num_spanwise_panels w)%nat /\
  forall j, (j < w_num_spanwise_panels w)%nat -> folded (w_panels w) (w_num_spanwise_panels w - 1 - j) j.
Proof.
  intros E Hn HS HC. destruct (wing_shape _ _ _ _ _ _ _ _ _ _ _ E) as (_ & EL & ER & _). destruct (symmetric_columns _ _ _ _ _ _ _ _ _ _ E) as [H2 H1].
  split; [intros HN; rewrite HN in EL; cbn in EL; lia|]. split; [lia|]. intros j Hj row Hr. pose proof (ER row Hr) as El.
  destruct (nth_error row (w_num_spanwise_panels w - 1 - j)) as [p|] eqn:Ep; [|apply nth_error_None in Ep; lia]. destruct (nth_error row j) as [p'|] eqn:Ep'; [|apply nth_error_None in Ep'; lia].
  exists p, p'. split; [reflexivity|]. split; [reflexivity|]. destruct (In_nth_error _ _ Hr) as [r Er].
  pose proof (wing_mirror _ _ _ _ _ _ _ _ _ _ E Hn HC r j p p' Hj (ex_intro _ row (conj Er Ep')) (ex_intro _ row (conj Er Ep))) as HM.
  pose proof (wing_on _ _ _ _ _ _ _ _ _ _ _ E Hn HS) as HO. rewrite Forall_forall in HO. specialize (HO row Hr). rewrite Forall_forall in HO. destruct (HO p (nth_error_In _ _ Ep)) as (O1 & O2 & O3 & O4).
  unfold mirror_image in HM. rewrite !mirror_on in HM by assumption. exact HM.
Qed.
Lemma own_image solve airplanes op sections name x y z n c nc sp w : SolveSpec solve -> In w (wings_of airplanes) ->
  new_wing sections name x y z n true c nc sp = Ok w -> vnorm n = 1 ->
  (forall s, In s sections -> cs_unit_normal s = n /\ vdot n (cs_leading_edge s) = 0) ->
  (forall s, In s (removelast sections) -> cs_control_surface_type s = "symmetric"%string \/ cs_control_surface_deflection s = 0) ->
  (~ exists s, hs_run solve (hs_new airplanes op) = Ok s) /\
  (fresh_ring (ring_new airplanes op) -> (forall a w, In a airplanes -> In w (a_wings a) -> well_meshed (w_panels w)) -> ~ exists s, ring_run solve (ring_new airplanes op) = Ok s).
Proof.
  intros HSo Hw E Hn HS HC. destruct (wing_folded _ _ _ _ _ _ _ _ _ _ E Hn HS HC) as (HN & H1 & HF).
  apply (steady_folded solve airplanes op w (w_num_spanwise_panels w - 1 - 0) 0%nat HSo Hw HN); [|apply HF; lia]. lia.
Qed.
Lemma own_image_once solve prescribed (lines : bool) up sp sections name x y z n c nc spacing w : SolveSpec solve -> created up -> In sp (up_steady_problems up) -> In w (step_wings sp) ->
  new_wing sections name x y z n true c nc spacing = Ok w -> vnorm n = 1 ->
  (forall s, In s sections -> cs_unit_normal s = n /\ vdot n (cs_leading_edge s) = 0) ->
  (forall s, In s (removelast sections) -> cs_control_surface_type s = "symmetric"%string \/ cs_control_surface_deflection s = 0) ->
  ~ exists s, finished solve prescribed lines up s.
Proof.
  intros HSo HCr Hsp Hw E Hn HS HC. destruct (wing_folded _ _ _ _ _ _ _ _ _ _ E Hn HS HC) as (HN & H1 & HF).
  apply (unsteady_folded solve prescribed lines up sp w (w_num_spanwise_panels w - 1 - 0) 0%nat HSo HCr Hsp Hw HN); [|apply HF; lia]. lia.
Qed.
(** A fin upright in the plane of symmetry, made as a symmetric wing. *)
Definition fin_sections : list section := [section_of vzero (mkvec 0 1 0); section_of (mkvec 0 0 1) (mkvec 0 1 0)].
Lemma fin_folded : exists w, new_wing fin_sections "wing" 0 0 0 (mkvec 0 1 0) true (mkvec 1 0 0) 1 "uniform" = Ok w /\ vnorm (mkvec 0 1 0) = 1 /\
  (forall s, In s fin_sections -> cs_unit_normal s = mkvec 0 1 0 /\ vdot (mkvec 0 1 0) (cs_leading_edge s) = 0) /\
  (forall s, In s (removelast fin_sections) -> cs_control_surface_type s = "symmetric"%string \/ cs_control_surface_deflection s = 0) /\
  exists a, new_airplane [w] "fin" 0 0 0 0 None None None = Ok a /\ In w (wings_of [a]).
Proof.
  destruct (two_plates (mkvec 0 0 1) (mkvec 0 1 0) true right_nonzero eq_refl) as [w Hw]. exists w. split; [exact Hw|]. split.
  { unfold vnorm, vdot. cbn [vx vy vz]. replace (0 * 0 + 1 * 1 + 0 * 0) with 1 by ring. apply sqrt_1. }
  split; [intros s [<-|[<-|[]]]; (split; [reflexivity|]); unfold vdot, cs_leading_edge; cbn; ring|].
  split; [intros s [<-|[]]; left; reflexivity|]. eexists. split; [reflexivity|]. left. reflexivity.
Qed.
