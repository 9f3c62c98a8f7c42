(** The projected area of a wing is the sum of the trapezoids between its sections. *)
From Coq Require Import Lra Lia Psatz.
From Verif Require Import M_Geometry S_Geometry S_Airfoil S_Wing S_Planform L_Base L_Functions L_Panel L_Airfoil L_Camber L_Surface L_Meshing L_Geometry L_Chord.
Local Open Scope R_scope.

(** ** Sums over arrays of panels *)
Definition msum {A} (f : A -> R) (m : list (list A)) : R := rsum (map f (concat m)).
Lemma msum_cons {A} (f : A -> R) row m : msum f (row :: m) = rsum (map f row) + msum f m.
Proof. unfold msum. cbn [concat]. rewrite map_app, rsum_app. reflexivity. Qed.
Lemma msum_hstack {A} (f : A -> R) a : forall b, length a = length b -> msum f (hstack a b) = msum f a + msum f b.
Proof.
  induction a as [|x a IH]; intros [|y b] L; try discriminate L; [unfold msum; cbn; lra|].
  cbn [hstack]. rewrite !msum_cons, IH, map_app, rsum_app by (cbn in L; lia). lra.
Qed.
Lemma msum_repeat {A} (f : A -> R) n : msum f (repeat [] n) = 0.
Proof. induction n as [|n IH]; [reflexivity|]. cbn [repeat]. rewrite msum_cons, IH. cbn. lra. Qed.
Lemma rsum_rev l : rsum (rev l) = rsum l.
Proof. induction l as [|x l IH]; [reflexivity|]. cbn [rev]. rewrite rsum_app, IH, !rsum_cons, rsum_nil. lra. Qed.
Lemma msum_flip w f m : (forall p, f (mirror_panel (reflect w) p) = f p) -> msum f (flip w m) = msum f m.
Proof.
  intros H. unfold flip. induction m as [|row m IH]; [reflexivity|]. cbn [map]. rewrite !msum_cons, IH, map_rev, rsum_rev, map_map.
  f_equal. f_equal. apply map_ext. exact H.
Qed.
Lemma sum_mapi {A} (f : A -> R) (g : nat -> A -> A) l : (forall i p, f (g i p) = f p) -> forall k, rsum (map f (mapi_from k g l)) = rsum (map f l).
Proof. intros H. induction l as [|x l IH]; intros k; [reflexivity|]. cbn [mapi_from map]. rewrite !rsum_cons, IH, H. reflexivity. Qed.
Lemma msum_positions f n m : (forall a b c d p, f (p_set_position a b c d p) = f p) -> msum f (set_positions n m) = msum f m.
Proof.
  intros H. assert (G : forall g : nat -> list panel -> list panel, (forall i row, rsum (map f (g i row)) = rsum (map f row)) -> forall k, msum f (mapi_from k g m) = msum f m).
  { intros g Hg. induction m as [|row m IH]; intros k; [reflexivity|]. cbn [mapi_from]. rewrite !msum_cons, IH, Hg. reflexivity. }
  unfold set_positions, mapi at 1. apply G. intros i row. apply sum_mapi. intros k p. apply H.
Qed.

Definition isum (g : nat -> R) (n : nat) : R := rsum (map g (seq 0 n)).
Lemma isum_S g n : isum g (S n) = isum g n + g n.
Proof. unfold isum. rewrite seq_S, map_app, rsum_app. cbn [map Nat.add]. rewrite rsum_cons, rsum_nil. lra. Qed.
Lemma isum_ext g h n : (forall i, (i < n)%nat -> g i = h i) -> isum g n = isum h n.
Proof. induction n as [|n IH]; intros H; [reflexivity|]. rewrite !isum_S, IH by (intros; apply H; lia). f_equal. apply H. lia. Qed.
Lemma isum_telescope G n : isum (fun i => G (S i) - G i) n = G n - G 0%nat.
Proof. induction n as [|n IH]; [unfold isum; cbn; lra|]. rewrite isum_S, IH. lra. Qed.
Lemma isum_scale k g n : isum (fun i => k * g i) n = k * isum g n.
Proof. induction n as [|n IH]; [unfold isum; cbn; lra|]. rewrite !isum_S, IH. lra. Qed.
Lemma rsum_isum l : forall g, (forall i x, nth_error l i = Some x -> x = g i) -> rsum l = isum g (length l).
Proof.
  induction l as [|x l IH] using rev_ind; intros g H; [reflexivity|]. rewrite rsum_app, rsum_cons, rsum_nil, app_length. cbn [length].
  rewrite Nat.add_1_r, isum_S. rewrite (IH g).
  - rewrite (H (length l) x); [lra|]. rewrite nth_error_app2, Nat.sub_diag by lia. reflexivity.
  - intros i y Hy. apply H. rewrite nth_error_app1; [exact Hy|]. apply nth_error_Some. congruence.
Qed.
Lemma msum_rect {A} (f : A -> R) (g : nat -> nat -> R) n k m : rect n k m -> (forall c s p, cell m c s p -> f p = g c s) ->
  msum f m = isum (fun c => isum (g c) k) n.
Proof.
  intros [HL HR] Hg. assert (E : msum f m = rsum (map (fun row => rsum (map f row)) m)).
  { clear. induction m as [|row m IH]; [reflexivity|]. rewrite msum_cons, IH. cbn [map]. rewrite rsum_cons. reflexivity. }
  rewrite E, (rsum_isum _ (fun c => isum (g c) k)); [rewrite map_length, HL; reflexivity|].
  intros c x Hx. apply nth_error_map_inv in Hx. destruct Hx as (row & Hrow & ->). rewrite (rsum_isum _ (g c)); [rewrite map_length, (HR row) by (eapply nth_error_In; exact Hrow); reflexivity|].
  intros s y Hy. apply nth_error_map_inv in Hy. destruct Hy as (p & Hp & ->). apply Hg. exists row. split; assumption.
Qed.

(** ** One panel *)
Lemma cross_cross a b c d : vdot (vcross a b) (vcross c d) = vdot a c * vdot b d - vdot a d * vdot b c.
Proof. vdestruct; vunfold; ring. Qed.
Lemma cross_mirror (d1 d2 n : vec) : vcross (vsub d2 (vscale (2 * vdot n d2) n)) (vsub d1 (vscale (2 * vdot n d1) n)) =
  vadd (vcross d2 d1) (vscale 2 (vsub (vscale (vdot n n) (vcross d1 d2)) (vscale (vdot n (vcross d1 d2)) n))).
Proof. vring. Qed.
Lemma mirror_sub (a b q n : vec) : vsub (vsub a (vscale (2 * vdot n (vsub a q)) n)) (vsub b (vscale (2 * vdot n (vsub b q)) n)) = vsub (vsub a b) (vscale (2 * vdot n (vsub a b)) n).
Proof. vring. Qed.
Lemma cross_anti (a b u : vec) : vdot (vcross b a) u = - vdot (vcross a b) u.
Proof. vdestruct; vunfold; ring. Qed.
Lemma cross_perp (c n : vec) : vdot (vcross c n) n = 0.
Proof. vdestruct; vunfold; ring. Qed.
Lemma new_panel_area fr fl bl br a b c n yl yr : vnorm c = 1 -> vnorm n = 1 -> vdot c n = 0 ->
  vdot fl n = yl -> vdot bl n = yl -> vdot fr n = yr -> vdot br n = yr ->
  p_projected_area (new_panel fr fl bl br a b) (vcross c n) = Rabs (yr - yl) * Rabs ((vdot bl c - vdot fl c) + (vdot br c - vdot fr c)) / 2.
Proof.
  intros Hc Hn Hcn H1 H2 H3 H4. apply vnorm_1_dot in Hc, Hn. rewrite projected_area_dot.
  - unfold p_cross, p_first_diagonal, p_second_diagonal. cbn [new_panel p_front_right p_front_left p_back_left p_back_right]. rewrite <- Rabs_mult. f_equal.
    set (d1 := vsub fr bl). set (d2 := vsub fl br).
    rewrite cross_cross.
    unfold d1, d2. rewrite !vdot_sub_l, H1, H2, H3, H4. f_equal. ring.
  - apply vdot_1_norm. rewrite cross_cross, (vdot_comm n c), Hc, Hn, Hcn. ring.
Qed.
Lemma mirrored_area w c p : vnorm (ms_unit_normal w) = 1 -> vnorm c = 1 -> vdot c (ms_unit_normal w) = 0 ->
  p_projected_area (mirror_panel (reflect w) p) (vcross c (ms_unit_normal w)) = p_projected_area p (vcross c (ms_unit_normal w)).
Proof.
  set (n := ms_unit_normal w). intros Hn Hc Hcn. apply vnorm_1_dot in Hc, Hn.
  assert (Hu : vnorm (vcross c n) = 1). { apply vdot_1_norm. rewrite cross_cross, (vdot_comm n c), Hc, Hn, Hcn. ring. }
  rewrite !projected_area_dot by exact Hu. f_equal. f_equal. unfold p_cross, p_first_diagonal, p_second_diagonal, mirror_panel. cbn [new_panel p_front_right p_front_left p_back_left p_back_right].
  unfold reflect. fold n. rewrite !reflect_is_mirror. set (q := ms_leading_edge w). unfold mirror.
  set (d1 := vsub (p_front_right p) (p_back_left p)). set (d2 := vsub (p_front_left p) (p_back_right p)).
  rewrite !mirror_sub. fold d1 d2. set (u := vcross c n). assert (Hun : vdot u n = 0) by apply cross_perp.
  rewrite cross_mirror, Hn, vdot_add_l, vdot_scale_l, vdot_sub_l, !vdot_scale_l, (vdot_comm n u), Hun, (cross_anti d1 d2). ring.
Qed.

(** ** One wing section *)
Lemma linspace_increasing n : strictly_increasing (linspace 0 1 n).
Proof.
  intros i j x y Hij Hx Hy. unfold linspace in *. apply nth_error_map_inv in Hx, Hy. destruct Hx as (a & Ha & ->). destruct Hy as (b & Hb & ->).
  assert (La : (i < n)%nat) by (rewrite <- (seq_length n 0); apply nth_error_Some; congruence). assert (Lb : (j < n)%nat) by (rewrite <- (seq_length n 0); apply nth_error_Some; congruence).
  rewrite nth_error_seq0 in Ha, Hb. apply Nat.ltb_lt in La, Lb. rewrite La in Ha. rewrite Lb in Hb. injection Ha as E1. injection Hb as E2. subst a b. apply Nat.ltb_lt in La, Lb. apply Rplus_lt_compat_l. apply Rmult_lt_compat_r; [|apply lt_INR; exact Hij].
  unfold Rdiv. apply Rmult_lt_0_compat; [lra|]. apply Rinv_0_lt_compat. apply lt_0_INR. lia.
Qed.
Lemma spaced_increasing sp n : strictly_increasing (spaced sp n).
Proof. unfold spaced. destruct (String.eqb sp "uniform"); [apply linspace_increasing|]. apply cosspace_increasing. lra. Qed.
Lemma spaced_range sp n i t : nth_error (spaced sp (S n)) i = Some t -> (1 <= n)%nat -> 0 <= t <= 1.
Proof.
  intros Ht Hn. assert (Hi : (i < S n)%nat) by (rewrite <- (spaced_length sp (S n)); apply nth_error_Some; congruence). pose proof (spaced_first sp (S n) ltac:(lia)) as F. pose proof (spaced_last sp n Hn) as L.
  pose proof (spaced_increasing sp (S n)) as SI. split.
  - destruct i as [|i]; [rewrite F in Ht; injection Ht as <-; lra|]. left. apply (SI 0%nat (S i) 0 t); [lia|exact F|exact Ht].
  - destruct (Nat.eq_dec i n) as [->|N]; [rewrite L in Ht; injection Ht as <-; lra|]. left. apply (SI i n t 1); [lia|exact Ht|exact L].
Qed.
Lemma along_dot p q t n : vdot (along p q t) n = (1 - t) * vdot p n + t * vdot q n.
Proof. unfold along. rewrite vdot_add_l, !vdot_scale_l. reflexivity. Qed.

(** [P] lies in a plane [vdot _ n = y] and goes back along [c]. *)
Definition goes_back (c n : vec) (y : R) (P : list vec) : Prop :=
  (forall p, In p P -> vdot p n = y) /\ forall k p q, nth_error P k = Some p -> nth_error P (S k) = Some q -> vdot p c <= vdot q c.
Definition length_back (c : vec) (P : list vec) : R := vdot (last P vzero) c - vdot (hd vzero P) c.

Lemma last_nth {A} (l : list A) d : l <> [] -> nth_error l (length l - 1) = Some (last l d).
Proof.
  intros H. induction l as [|x l IH]; [congruence|]. destruct l as [|y l]; [reflexivity|]. cbn [length]. replace (S (S (length l)) - 1)%nat with (S (S (length l) - 1))%nat by lia. exact (IH ltac:(discriminate)).
Qed.
Lemma hd_nth {A} (l : list A) d : l <> [] -> nth_error l 0 = Some (hd d l).
Proof. destruct l; [congruence|reflexivity]. Qed.

Lemma strip_area w i o d m c n yp yq : strip w i o d = Ok m -> vnorm c = 1 -> vnorm n = 1 -> vdot c n = 0 -> (1 <= cs_num_spanwise_panels i)%nat ->
  (forall P, camber_points (ms_leading_edge w) (fractions w) i d (cs_control_surface_hinge_point i) = Ok P -> goes_back c n yp P) ->
  (forall Q, camber_points (ms_leading_edge w) (fractions w) o d (cs_control_surface_hinge_point i) = Ok Q -> goes_back c n yq Q) ->
  exists P Q, camber_points (ms_leading_edge w) (fractions w) i d (cs_control_surface_hinge_point i) = Ok P /\
    camber_points (ms_leading_edge w) (fractions w) o d (cs_control_surface_hinge_point i) = Ok Q /\
    msum (fun p => p_projected_area p (vcross c n)) m = Rabs (yq - yp) * (length_back c P + length_back c Q) / 2.
Proof.
  intros H Hc Hn Hcn Hs HP HQ. destruct (strip_cells _ _ _ _ _ H) as (P & Q & EP & EQ & HR & HC). exists P, Q. split; [exact EP|]. split; [exact EQ|].
  destruct (HP _ EP) as [YP MP]. destruct (HQ _ EQ) as [YQ MQ]. clear HP HQ.
  assert (LP : length P = S (ms_num_chordwise w)) by (rewrite (camber_points_length _ _ _ _ _ _ EP); apply spaced_length).
  assert (LQ : length Q = S (ms_num_chordwise w)) by (rewrite (camber_points_length _ _ _ _ _ _ EQ); apply spaced_length).
  set (ks := spaced (cs_spanwise_spacing i) (S (cs_num_spanwise_panels i))) in *. set (k := cs_num_spanwise_panels i) in *.
  set (A := fun j => vdot (nth j P vzero) c). set (B := fun j => vdot (nth j Q vzero) c). set (T := fun j => nth j ks 0).
  set (G := fun j s => (A (S j) - A j) * (T s - T s ^ 2 / 2) + (B (S j) - B j) * (T s ^ 2 / 2)).
  rewrite (msum_rect _ (fun j s => Rabs (yq - yp) * (G j (S s) - G j s)) _ _ _ HR).
  - transitivity (isum (fun j => Rabs (yq - yp) * ((A (S j) + B (S j)) / 2 - (A j + B j) / 2)) (ms_num_chordwise w)).
    + apply isum_ext. intros j _. rewrite isum_scale, (isum_telescope (G j)). f_equal. unfold G.
      assert (T0 : T 0%nat = 0). { unfold T. apply nth_error_nth. apply spaced_first. lia. }
      assert (T1 : T k = 1). { unfold T. apply nth_error_nth. apply spaced_last. exact Hs. } rewrite T0, T1. lra.
    + rewrite isum_scale, (isum_telescope (fun j => (A j + B j) / 2)). unfold length_back.
      assert (EA : forall L, length L = S (ms_num_chordwise w) -> nth (ms_num_chordwise w) L vzero = last L vzero /\ nth 0 L vzero = hd vzero L).
      { intros L HL. assert (N : L <> []) by (intros ->; discriminate HL). split; apply nth_error_nth; [|apply hd_nth; exact N]. rewrite <- (last_nth L vzero N). f_equal. lia. }
      destruct (EA P LP) as [E1 E2]. destruct (EA Q LQ) as [E3 E4]. unfold A, B. rewrite E1, E2, E3, E4. lra.
  - intros j s p Hp. destruct (HC _ _ _ Hp) as (a & b & a' & b' & t & t' & Ha & Hb & Ha' & Hb' & Ht & Ht' & ->).
    pose proof (YP _ (nth_error_In _ _ Ha)) as y1. pose proof (YQ _ (nth_error_In _ _ Hb)) as y2. pose proof (YP _ (nth_error_In _ _ Ha')) as y3. pose proof (YQ _ (nth_error_In _ _ Hb')) as y4.
    rewrite (new_panel_area _ _ _ _ _ _ c n ((1 - t) * yp + t * yq) ((1 - t') * yp + t' * yq) Hc Hn Hcn) by (rewrite along_dot; congruence).
    rewrite !along_dot. pose proof (MP _ _ _ Ha Ha') as m1. pose proof (MQ _ _ _ Hb Hb') as m2.
    pose proof (spaced_range _ _ _ _ Ht Hs) as r1. pose proof (spaced_range _ _ _ _ Ht' Hs) as r2. assert (tt : t < t') by (apply (spaced_increasing (cs_spanwise_spacing i) (S k) s (S s)); [lia|exact Ht|exact Ht']).
    assert (EA : A j = vdot a c /\ A (S j) = vdot a' c /\ B j = vdot b c /\ B (S j) = vdot b' c /\ T s = t /\ T (S s) = t').
    { unfold A, B, T. rewrite (nth_error_nth _ _ vzero Ha), (nth_error_nth _ _ vzero Ha'), (nth_error_nth _ _ vzero Hb), (nth_error_nth _ _ vzero Hb'), (nth_error_nth _ _ 0 Ht), (nth_error_nth _ _ 0 Ht'). repeat split. }
    destruct EA as (e1 & e2 & e3 & e4 & e5 & e6). unfold G. rewrite e1, e2, e3, e4, e5, e6. clear - m1 m2 r1 r2 tt.
    replace ((1 - t') * yp + t' * yq - ((1 - t) * yp + t * yq)) with ((t' - t) * (yq - yp)) by ring. rewrite Rabs_mult, (Rabs_right (t' - t)) by lra.
    set (da := vdot a' c - vdot a c). set (db := vdot b' c - vdot b c).
    replace ((1 - t) * vdot a' c + t * vdot b' c - ((1 - t) * vdot a c + t * vdot b c) + ((1 - t') * vdot a' c + t' * vdot b' c - ((1 - t') * vdot a c + t' * vdot b c))) with ((2 - t - t') * da + (t + t') * db) by (unfold da, db; ring).
    assert (0 <= da) by (unfold da; lra). assert (0 <= db) by (unfold db; lra). rewrite (Rabs_right (_ + _)) by (apply Rle_ge; apply Rplus_le_le_0_compat; apply Rmult_le_pos; lra). field.
Qed.
