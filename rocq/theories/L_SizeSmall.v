(** Problems too small for the cut-offs. *)
From Coq Require Import List Reals Lra Lia.
From Verif Require Import M_Loads M_Horseshoe M_SteadyRing S_Geometry S_Vortices S_Solve S_Loads S_Mirror S_Solvable S_Size
  L_Base L_Rotations L_Loads L_Aero L_Horseshoe L_SteadyRing L_RingLegs L_Meshing L_Mirror L_Solvable L_Size L_SizeSolvers.
Import ListNotations.
Local Open Scope R_scope.

(** ** The paths of the larger problem *)
Lemma horseshoe_paths_big k l l' op op' : 0 < k -> same_stream op op' -> enlarged_airplanes k l l' ->
  horseshoe_paths op' l' = map (map (big_segment k)) (horseshoe_paths op l).
Proof.
  intros Hk Hop G. unfold horseshoe_paths. rewrite (same_stream_direction _ _ Hop), !walk_flat. apply big_flat in G.
  induction G as [|x x' xs xs' (Hp & Hs) _ IH]; cbn [map]; [reflexivity|]. rewrite IH, (horseshoe_path_big k Hk _ _ _ _ _ Hp Hs). reflexivity.
Qed.
Lemma Forall2_numbered {A B} (P : A -> B -> Prop) l l' : Forall2 P l l' -> Forall2 (fun x x' => fst x' = fst x /\ P (snd x) (snd x')) (numbered l) (numbered l').
Proof.
  intros F. unfold numbered. rewrite <- (Forall2_length _ _ _ F). generalize 0%nat. induction F as [|x x' l l' H _ IH]; intros n; cbn [length seq combine]; constructor; auto.
Qed.
Lemma on_mesh_rel {A B} (P : panel -> panel -> Prop) (f : nat -> nat -> panel -> A) (f' : nat -> nat -> panel -> B) (g : A -> B) m m' :
  (forall c j p p', P p p' -> f' c j p' = g (f c j p)) -> Forall2 (Forall2 P) m m' -> on_mesh f' m' = map g (on_mesh f m).
Proof.
  intros H F. unfold on_mesh. rewrite concat_map. f_equal. apply Forall2_numbered in F.
  induction F as [|r r' rs rs' (E & Fr) _ IH]; cbn [map]; [reflexivity|]. rewrite IH. f_equal. rewrite E. clear -H Fr. apply Forall2_numbered in Fr.
  induction Fr as [|x x' xs xs' (E & Hp) _ IH]; cbn [map]; [reflexivity|]. rewrite IH, E, (H _ _ _ _ Hp). reflexivity.
Qed.
Lemma behind_big (P : panel -> panel -> Prop) m m' c j : Forall2 (Forall2 P) m m' ->
  match behind m c j, behind m' c j with Some q, Some q' => P q q' | None, None => True | _, _ => False end.
Proof.
  intros F. unfold behind. generalize (S c). clear c. intros n. revert n. induction F as [|r r' m m' Fr _ IH]; intros [|n]; cbn [nth_error]; auto; [|apply IH].
  clear -Fr. revert j. induction Fr; intros [|j]; cbn [nth_error]; auto. apply IHFr.
Qed.
Lemma steady_ring_path_big k d w w' c j p p' : 0 < k -> enlarged_wing k (enlarged_panel k) w w' -> enlarged_panel k p p' ->
  steady_ring_path d w' c j p' = map (big_segment k) (steady_ring_path d w c j p).
Proof.
  intros Hk (Hs & Hm) Hp. destruct (big_points k p p' Hk Hp) as (V1 & V2 & _).
  unfold steady_ring_path, ring_path, back_ends. pose proof (behind_big _ _ _ c j Hm) as HB. rewrite Hs.
  assert (Far : forall v, vadd (vscale k v) (vscale (20 * (k * w_span w)) d) = vscale k (vadd v (vscale (20 * w_span w) d)))
    by (intros v; rewrite <- big_add, vscale_scale; do 2 f_equal; ring).
  destruct (behind (w_panels w) c j) as [q|], (behind (w_panels w') c j) as [q'|]; try contradiction.
  - destruct (big_points k q q' Hk HB) as (U1 & U2 & _). rewrite V1, V2, U1, U2. rewrite !app_nil_r. reflexivity.
  - destruct Hp as (H1 & H2 & H3 & H4). rewrite V1, V2, H1, H2, H3, H4, !big_sub, !big_add, !vadd_0_r.
    unfold closed_path, open_path, big_segment. cbn [map app fst snd]. rewrite !Far. reflexivity.
Qed.
Lemma steady_ring_paths_big k l l' op op' : 0 < k -> same_stream op op' -> enlarged_airplanes k l l' ->
  steady_ring_paths op' l' = map (map (big_segment k)) (steady_ring_paths op l).
Proof.
  intros Hk Hop G. unfold steady_ring_paths. rewrite (same_stream_direction _ _ Hop), concat_map, map_map. f_equal.
  assert (F : Forall2 (enlarged_wing k (enlarged_panel k)) (wings_of l) (wings_of l')).
  { unfold wings_of. apply Forall2_concat. induction G as [|a a' l l' (_ & _ & _ & _ & Hw) _ IH]; cbn [map]; constructor; auto. }
  induction F as [|w w' ws ws' Hw _ IH]; cbn [map]; [reflexivity|]. rewrite IH. f_equal.
  apply (on_mesh_rel (enlarged_panel k)); [|exact (proj2 Hw)]. intros c j p p' Hp. apply steady_ring_path_big; assumption.
Qed.

(** ** Small enough *)
Lemma small_segment x s : exists k0, 0 < k0 /\ forall k, 0 < k < k0 -> cut_off (vscale k x) (big_segment k s).
Proof.
  destruct s as [a b]. set (n := vnorm (vcross (vsub a x) (vsub b x)) ^ 2).
  assert (Hn : 0 <= n) by (unfold n; apply pow2_ge_0). set (e := / 2 ^ 52). assert (He : 0 < e < 1) by (unfold e; lra).
  exists (e / (1 + n)). split; [apply Rmult_lt_0_compat; [lra | apply Rinv_0_lt_compat; lra]|].
  intros k [Hk Hk0]. unfold cut_off, big_segment. cbn [fst snd]. cbv zeta. right; right. rewrite !big_sub, big_cross, big_norm by nra.
  fold n. rewrite Rpow_mult_distr. fold n. fold e.
  assert (K : k * (1 + n) < e) by (apply (Rmult_lt_compat_r (1 + n)) in Hk0; [|lra]; unfold Rdiv in Hk0; rewrite Rmult_assoc, Rinv_l, Rmult_1_r in Hk0 by lra; exact Hk0).
  assert (K1 : k < 1) by nra. assert (K2 : 0 < k ^ 2 < 1) by nra. assert (K4 : (k ^ 2) ^ 2 < k) by nra. nra.
Qed.
Lemma all_small {A} (P : R -> A -> Prop) (l : list A) : (forall x, In x l -> exists k0, 0 < k0 /\ forall k, 0 < k < k0 -> P k x) ->
  exists k0, 0 < k0 /\ forall k, 0 < k < k0 -> forall x, In x l -> P k x.
Proof.
  induction l as [|x l IH]; intros H; [exists 1; split; [lra | intros k _ x []]|].
  destruct (H x (or_introl eq_refl)) as (k1 & H1 & K1). destruct IH as (k2 & H2 & K2); [intros y Hy; apply H; right; exact Hy|].
  exists (Rmin k1 k2). split; [apply Rmin_glb_lt; assumption|]. intros k [Hk Hkm] y [<-|Hy].
  - apply K1. split; [exact Hk|]. apply Rlt_le_trans with (1 := Hkm), Rmin_l.
  - apply K2; [split; [exact Hk|]; apply Rlt_le_trans with (1 := Hkm), Rmin_r | exact Hy].
Qed.
Lemma felt_nothing p v : (forall s, In s v -> cut_off (p_collocation_point p) s) -> felt p v = 0.
Proof.
  intros H. rewrite felt_path. replace (path_velocity (p_collocation_point p) v) with vzero; [apply vdot_0_l|].
  unfold path_velocity. induction v as [|s v IH]; cbn [map]; [reflexivity|]. rewrite vsum_cons, <- IH by (intros; apply H; right; assumption).
  destruct s as [a b]. rewrite line_velocity_singular; [rewrite vadd_0_r; reflexivity|]. apply cut_off_singular. apply H. left; reflexivity.
Qed.
Lemma nothing_felt ps vs : vs <> [] -> (forall p v, In p ps -> In v vs -> felt p v = 0) -> ~ distinguishable ps vs.
Proof.
  intros Hv H D. assert (E : 1 = 0); [|lra]. apply (D (repeat 1 (length vs))); [apply repeat_length| |destruct vs; [contradiction | left; reflexivity]].
  intros p Hp. clear D Hv. induction vs as [|v vs IH]; cbn [length repeat map2]; [reflexivity|].
  rewrite rsum_cons, IH by (intros; apply H; cbn; auto). rewrite (H p v Hp (or_introl eq_refl)). ring.
Qed.
Lemma small_indistinct (ps : list panel) (vs : list path) : vs <> [] -> exists k0, 0 < k0 /\ forall k ps' vs', 0 < k < k0 ->
  Forall2 (enlarged_panel k) ps ps' -> vs' = map (map (big_segment k)) vs -> ~ distinguishable ps' vs'.
Proof.
  intros Hv. destruct (all_small (fun k (x : panel * (vec * vec)) => cut_off (vscale k (p_collocation_point (fst x))) (big_segment k (snd x))) (list_prod ps (concat vs))
    (fun x _ => small_segment (p_collocation_point (fst x)) (snd x))) as (k0 & H0 & HK).
  exists k0. split; [exact H0|]. intros k ps' vs' Hk F ->. apply nothing_felt; [destruct vs; [contradiction | discriminate]|].
  intros p' v' Hp' Hv'. apply in_map_iff in Hv'. destruct Hv' as (v & <- & Hin). destruct (Forall2_In_r _ _ _ _ F Hp') as (p & Hp & HE).
  apply felt_nothing. intros s' Hs'. apply in_map_iff in Hs'. destruct Hs' as (s & <- & Hs).
  destruct (big_points k p p' (proj1 Hk) HE) as (_ & _ & -> & _). apply (HK k Hk (p, s)). apply in_prod; [exact Hp|]. apply in_concat. eauto.
Qed.
Lemma too_small solve l op : SolveSpec solve -> panels_of l <> [] -> exists k0, 0 < k0 /\ forall k l' op', 0 < k < k0 -> same_stream op op' -> enlarged_airplanes k l l' ->
  (~ exists s, hs_run solve (hs_new l' op') = Ok s) /\
  (fresh_ring (ring_new l' op') -> (forall a w, In a l' -> In w (a_wings a) -> well_meshed (w_panels w)) -> ~ exists s, ring_run solve (ring_new l' op') = Ok s).
Proof.
  intros HS HP.
  assert (HV : horseshoe_paths op l <> [] /\ steady_ring_paths op l <> []).
  { clear -HP. unfold panels_of, horseshoe_paths, steady_ring_paths in *. induction (wings_of l) as [|w ws IH]; cbn [map concat] in *; [contradiction|].
    destruct (concat (w_panels w)) as [|p ps] eqn:E; [|split].
    - destruct (IH HP) as [I1 I2]. split; intros X; apply app_eq_nil in X; destruct X; auto.
    - discriminate.
    - intros X. apply app_eq_nil in X. destruct X as [X _]. apply (f_equal (@length path)) in X.
      assert (L : length (on_mesh (steady_ring_path (freestream_direction op) w) (w_panels w)) = length (concat (w_panels w))).
      { generalize (steady_ring_path (freestream_direction op) w). clear. intros f. generalize (w_panels w). intros m.
        assert (Z : forall n, length (concat (map (fun row => map (fun p => f (fst row) (fst p) (snd p)) (numbered (snd row))) (combine (seq n (length m)) m))) = length (concat m)).
        { induction m as [|r m IH]; intros n; cbn [length seq combine map concat]; [reflexivity|]. rewrite !app_length, IH, map_length. unfold numbered. rewrite combine_length, seq_length. cbn [snd]. lia. }
        apply Z. }
      rewrite L, E in X. discriminate. }
  destruct (small_indistinct (panels_of l) _ (proj1 HV)) as (k1 & H1 & K1). destruct (small_indistinct (panels_of l) _ (proj2 HV)) as (k2 & H2 & K2).
  exists (Rmin k1 k2). split; [apply Rmin_glb_lt; assumption|]. intros k l' op' [Hk Hkm] Hop G.
  assert (F : Forall2 (enlarged_panel k) (panels_of l) (panels_of l')) by (rewrite !panels_of_all; exact (big_panels_flat _ _ _ _ G)).
  split; [|intros HF HM]; intros X.
  - apply horseshoe_solvable in X; [|exact HS]. revert X. apply (K1 k); [split; [exact Hk | apply Rlt_le_trans with (1 := Hkm), Rmin_l] | exact F | apply horseshoe_paths_big; assumption].
  - apply ring_solvable in X; [|assumption..]. revert X. apply (K2 k); [split; [exact Hk | apply Rlt_le_trans with (1 := Hkm), Rmin_r] | exact F | apply steady_ring_paths_big; assumption].
Qed.

(** ** Small panels *)
Lemma small_cross x a b c (C : vec) : (vcross (vsub a x) (vsub b x) = vscale (c * / 4) C) -> c ^ 2 = 1 -> vnorm C / 2 < / 2 ^ 25 -> cut_off x (a, b).
Proof.
  intros E Hc HA. right; right. cbn [fst snd]. rewrite E, vnorm_sqr. 
  assert (D : vdot (vscale (c * / 4) C) (vscale (c * / 4) C) = c ^ 2 * / 16 * vnorm C ^ 2) by (rewrite vnorm_sqr; vdestruct; vunfold; cbn; field).
  rewrite D, Hc. pose proof (vnorm_nonneg C). assert (N : 0 <= vnorm C < 2 * / 2 ^ 25) by lra. replace (/ 2 ^ 52) with (/ 16 * (4 * / 2 ^ 50)) by field. 
  replace (/ 2 ^ 50) with (/ 2 ^ 25 * / 2 ^ 25) by field. generalize dependent (/ 2 ^ 25). intros; nra.
Qed.
Lemma small_parallelogram p : vsub (p_back_left p) (p_front_left p) = vsub (p_back_right p) (p_front_right p) -> p_area p < / 2 ^ 25 ->
  forall s, In s (closed_path (vadd (p_front_right_vortex_vertex p) (vsub (p_back_right p) (p_front_right p))) (p_front_right_vortex_vertex p)
                              (p_front_left_vortex_vertex p) (vadd (p_front_left_vortex_vertex p) (vsub (p_back_left p) (p_front_left p)))) ->
    cut_off (p_collocation_point p) s.
Proof.
  intros HP. unfold p_area, p_cross, p_first_diagonal, p_second_diagonal, p_front_right_vortex_vertex, p_front_left_vortex_vertex, p_collocation_point, p_right_leg, p_left_leg. cbv zeta.
  revert HP. generalize (p_front_left p) (p_front_right p) (p_back_left p) (p_back_right p). clear. intros fl fr bl br HP HA.
  assert (E : br = vadd fr (vsub bl fl)) by (rewrite HP; vring). subst br. clear HP.
  intros s [<-|[<-|[<-|[<-|[]]]]].
  all: first [eapply (small_cross _ _ _ 1); [|lra|exact HA]; clear HA; vdestruct; vunfold; apply vec_ext; cbn; lra
             |eapply (small_cross _ _ _ (-1)); [|lra|exact HA]; clear HA; vdestruct; vunfold; apply vec_ext; cbn; lra
             ].
Qed.
Lemma small_unfelt m c j p : behind m c j = None -> vsub (p_back_left p) (p_front_left p) = vsub (p_back_right p) (p_front_right p) -> p_area p < / 2 ^ 25 ->
  felt p (ring_path vzero m c j p) = 0.
Proof.
  intros HB HP HA. apply felt_nothing. unfold ring_path, back_ends. rewrite HB, !vadd_0_r. apply small_parallelogram; assumption.
Qed.

(** ** Larger problems lose nothing *)
Lemma larger_resolved k vs x : 1 <= k ->
  (forall v s, In v vs -> In s v -> vcross (vsub (fst s) x) (vsub (snd s) x) = vzero \/ ~ cut_off x s) -> resolved k vs x.
Proof.
  intros Hk H v s Hv Hs. destruct s as [a b]. cbn [fst snd] in *. unfold cut_off. cbn [fst snd]. cbv zeta.
  rewrite !big_sub, big_cross, !big_norm by nra.
  destruct (H v (a, b) Hv Hs) as [E|E]; cbn [fst snd] in E.
  - rewrite E. replace (vnorm vzero) with 0 by (symmetry; unfold vnorm; rewrite vdot_0_l; apply sqrt_0). split; intros _; right; right; rewrite ?Rmult_0_r; lra.
  - unfold cut_off in E. cbn [fst snd] in E. cbv zeta in E.
    pose proof (vnorm_nonneg (vsub a x)). pose proof (vnorm_nonneg (vsub b x)). pose proof (vnorm_nonneg (vcross (vsub a x) (vsub b x))).
    generalize dependent (vnorm (vsub a x)). generalize dependent (vnorm (vsub b x)). generalize dependent (vnorm (vcross (vsub a x) (vsub b x))).
    intros n Hn r2 Hr2 r1 E Hr1. assert (K2 : 1 <= k ^ 2) by nra. split; intros X; exfalso; apply E; [|exact X].
    destruct X as [X|[X|X]]; [left; nra | right; left; nra | right; right].
    assert (n <= k ^ 2 * n) by nra. assert (n ^ 2 <= (k ^ 2 * n) ^ 2) by (apply pow_incr; lra). lra.
Qed.
