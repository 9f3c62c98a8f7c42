(** Larger and smaller problems: panels, trees of panels, kernels, loads. *)
From Coq Require Import List Reals Lra Lia Bool.
From Verif Require Import M_Loads S_Geometry S_Vortices S_Solve S_Loads S_Solvable S_Size
  L_Base L_Rotations L_Loads L_Aero L_Horseshoe L_SteadyRing L_RingLegs L_Mirror L_MirrorHorseshoe L_Scaling L_Rigid.
Import ListNotations.
Local Open Scope R_scope.

Lemma big_add k x v : vadd (vscale k x) (vscale k v) = vscale k (vadd x v). Proof. vring. Qed.
Lemma big_sub k x v : vsub (vscale k x) (vscale k v) = vscale k (vsub x v). Proof. vring. Qed.
Lemma big_twice k j v : vscale k (vscale j v) = vscale j (vscale k v). Proof. vring. Qed.
Lemma big_cross k u v : vcross (vscale k u) (vscale k v) = vscale (k ^ 2) (vcross u v). Proof. vring. Qed.
Lemma big_dot k u v : vdot (vscale k u) (vscale k v) = k ^ 2 * vdot u v. Proof. vdestruct. vunfold. cbn. ring. Qed.
Lemma big_midpoint k x y : midpoint (vscale k x) (vscale k y) = vscale k (midpoint x y).
Proof. unfold midpoint. rewrite big_add. apply eq_sym, big_twice. Qed.
Lemma big_norm k v : 0 <= k -> vnorm (vscale k v) = k * vnorm v.
Proof. intros H. unfold vnorm. rewrite big_dot, sqrt_mult; [rewrite sqrt_pow2 by exact H; reflexivity | nra | apply vdot_self_nonneg]. Qed.
Lemma big_vsum k l : vsum (map (vscale k) l) = vscale k (vsum l).
Proof. apply vsum_scale. Qed.

(** ** Cut-offs *)
Lemma cut_off_singular x a b : cut_off x (a, b) <-> singular x a b = true.
Proof.
  unfold cut_off, singular, eps. cbn [fst snd]. cbv zeta. rewrite !orb_true_iff, !Rltb_true. tauto.
Qed.
Definition big_segment (k : R) (s : vec * vec) : vec * vec := (vscale k (fst s), vscale k (snd s)).
Lemma big_line k x a b : 0 < k -> (cut_off (vscale k x) (vscale k a, vscale k b) <-> cut_off x (a, b)) ->
  line_velocity (vscale k x) (vscale k a) (vscale k b) 1 0 0 = vscale (/ k) (line_velocity x a b 1 0 0).
Proof.
  intros Hk H. rewrite !cut_off_singular in H. destruct (singular x a b) eqn:E.
  - rewrite !line_velocity_singular by tauto. vring.
  - destruct (singular (vscale k x) (vscale k a) (vscale k b)) eqn:E'; [assert (false = true) by tauto; discriminate|].
    rewrite !line_velocity_regular by assumption. unfold line_coefficient. rewrite !core_radius_age0, !big_sub, !big_cross, !big_dot.
    destruct (regular_nonzero x a b E) as (N1 & N2 & N3).
    rewrite !big_norm by (try lra; nra).
    generalize dependent (vnorm (vcross (vsub a x) (vsub b x))). intros r3 N3.
    generalize dependent (vnorm (vsub a x)). intros r1 N1.
    generalize dependent (vnorm (vsub b x)). intros r2 N2.
    generalize (vdot (vsub a x) (vsub b x)) (vcross (vsub a x) (vsub b x)) (vnorm (vsub b a)). intros c v r0.
    rewrite !vscale_scale. f_equal. pose proof PI_neq0. field. repeat split; try assumption; try lra; nra.
Qed.
Definition path_velocity (x : vec) (v : path) : vec := vsum (map (fun s => line_velocity x (fst s) (snd s) 1 0 0) v).
Lemma big_path k vs v x : 0 < k -> resolved k vs x -> In v vs ->
  path_velocity (vscale k x) (map (big_segment k) v) = vscale (/ k) (path_velocity x v).
Proof.
  intros Hk H Hv. unfold path_velocity. specialize (H v). rewrite map_map, <- vsum_scale, map_map. f_equal. apply map_ext_in. intros [a b] Hs. cbn [big_segment fst snd].
  apply big_line; [exact Hk|]. exact (H (a, b) Hv Hs).
Qed.
Lemma path_app x v w : path_velocity x (v ++ w) = vadd (path_velocity x v) (path_velocity x w).
Proof. unfold path_velocity. rewrite map_app. apply vsum_app. Qed.
Lemma path_open x a b c d : path_velocity x (open_path a b c d) = shoe_velocity x a b c d 1 0 0.
Proof. unfold path_velocity, open_path, shoe_velocity. cbn [map fst snd]. rewrite !vsum_cons. change (vsum []) with vzero. rewrite vadd_0_r, !vadd_assoc. reflexivity. Qed.
Lemma path_closed x a b c d : path_velocity x (closed_path a b c d) = quad_velocity x a b c d 1 0 0.
Proof. unfold path_velocity, closed_path, quad_velocity. cbn [map fst snd]. rewrite !vsum_cons. change (vsum []) with vzero. rewrite vadd_0_r, !vadd_assoc. reflexivity. Qed.
Lemma felt_path p v : felt p v = vdot (path_velocity (p_collocation_point p) v) (p_unit_normal p).
Proof. reflexivity. Qed.

(** ** Trees of panels *)
Lemma big_tree_same k (P Q : panel -> panel -> Prop) l l' l1 l1' :
  (forall p p' q q', same_panel p q -> same_panel p' q' -> P p p' -> Q q q') ->
  Forall2 same_airplane l l1 -> Forall2 same_airplane l' l1' -> Forall2 (enlarged_airplane k P) l l' -> Forall2 (enlarged_airplane k Q) l1 l1'.
Proof.
  intros X F F' G. revert l1 l1' F F'. induction G as [|a a' l l' (Hs & Hc & Hb & Hx & Hw) _ IH]; intros l1 l1' F F';
    inversion F as [|? b ? ? Sa F0]; inversion F' as [|? b' ? ? Sa' F0']; subst; constructor; auto.
  pose proof Sa as (Fw & _ & R1 & _ & E1 & E2 & E3 & _). pose proof Sa' as (Fw' & _ & R1' & _ & E1' & E2' & E3' & _).
  split; [congruence|]. split; [congruence|]. split; [congruence|]. split; [congruence|].
  clear -Fw Fw' Hw X. revert Fw Fw'. generalize (a_wings b) (a_wings b'). induction Hw as [|w w' ws ws' (Hsp & Hp) _ IH]; intros vs vs' Fw Fw';
    inversion Fw as [|? v ? ? Sw F0]; inversion Fw' as [|? v' ? ? Sw' F0']; subst; constructor; auto.
  split; [rewrite (same_wing_span _ _ Sw), (same_wing_span _ _ Sw'); exact Hsp|].
  destruct Sw as [_ Sw], Sw' as [_ Sw'].
  apply (Forall2_replace_r _ _ _ _ _ _ Sw' (Forall2_replace_l _ (fun r r' => Forall2 (fun q p' => exists p, same_panel p q /\ P p p') r r') _ _ _ _ Sw Hp
     (fun r r1 r' Fr Pr => Forall2_replace_l _ _ _ _ _ _ Fr Pr (fun p q p' S HP => ex_intro _ p (conj S HP))))).
  intros r r' r1' Fr Pr. apply (Forall2_replace_r _ _ _ _ _ _ Fr Pr). intros q p' q' S' (p & S & HP). eauto.
Qed.
Lemma big_wings_impl k (P Q : panel -> panel -> Prop) l l' :
  (forall a a' w w', In a l -> In a' l' -> a_xyz_ref a' = vscale k (a_xyz_ref a) -> In w (a_wings a) -> In w' (a_wings a') -> enlarged_wing k P w w' -> enlarged_wing k Q w w') ->
  Forall2 (enlarged_airplane k P) l l' -> Forall2 (enlarged_airplane k Q) l l'.
Proof.
  intros H G. assert (X : forall a a', In a l -> In a' l' -> enlarged_airplane k P a a' -> enlarged_airplane k Q a a').
  { intros a a' Ha Ha' (H1 & H2 & H3 & H4 & Hw). repeat (split; [assumption|]).
    assert (Y : forall w w', In w (a_wings a) -> In w' (a_wings a') -> enlarged_wing k P w w' -> enlarged_wing k Q w w') by (intros; apply (H a a'); auto).
    clear -Hw Y. induction Hw; constructor; [apply Y; cbn; auto|]. apply IHHw. intros. apply Y; cbn; auto. }
  clear H. induction G; constructor; [apply X; cbn; auto|]. apply IHG. intros. apply X; cbn; auto.
Qed.
Lemma big_tree_impl k (P Q : panel -> panel -> Prop) l l' :
  (forall a a' p p', In a l -> In a' l' -> a_xyz_ref a' = vscale k (a_xyz_ref a) -> In p (airplane_panels a) -> In p' (airplane_panels a') -> P p p' -> Q p p') ->
  Forall2 (enlarged_airplane k P) l l' -> Forall2 (enlarged_airplane k Q) l l'.
Proof.
  intros H. apply big_wings_impl. intros a a' w w' Ha Ha' Hx Iw Iw' (Hs & Hp). split; [exact Hs|].
  assert (Z : forall p p', In p (ravel (w_panels w)) -> In p' (ravel (w_panels w')) -> P p p' -> Q p p').
  { intros p p' Ip Ip'. apply (H a a'); auto; apply in_airplane_panels; [exists w | exists w']; auto. }
  unfold ravel in Z. clear -Hp Z. induction Hp as [|r r' m m' Hr _ IH]; constructor.
  - assert (Z' : forall p p', In p r -> In p' r' -> P p p' -> Q p p') by (intros; apply Z; auto; cbn; apply in_or_app; auto).
    clear -Hr Z'. induction Hr; constructor; [apply Z'; cbn; auto|]. apply IHHr. intros. apply Z'; cbn; auto.
  - apply IH. intros. apply Z; auto; cbn; apply in_or_app; auto.
Qed.
Lemma big_flat k P l l' : Forall2 (enlarged_airplane k P) l l' ->
  Forall2 (fun x x' => P (snd x) (snd x') /\ w_span (snd (fst x')) = k * w_span (snd (fst x))) (flat_panels l) (flat_panels l').
Proof.
  intros G. unfold flat_panels. apply Forall2_concat. induction G as [|a a' l l' (_ & _ & _ & _ & Hw) _ IH]; cbn [map]; constructor; auto. clear IH.
  apply Forall2_concat. induction Hw as [|w w' ws ws' (Hs & Hp) _ IH]; cbn [map]; constructor; auto. clear IH.
  apply Forall2_concat in Hp. unfold ravel. induction Hp; cbn [map]; constructor; auto.
Qed.
Lemma big_panels_flat k P l l' : Forall2 (enlarged_airplane k P) l l' -> Forall2 P (all_panels l) (all_panels l').
Proof.
  intros G. apply big_flat in G. rewrite <- !flat_panels_snd. induction G as [|x x' xs xs' [H _] _ IH]; cbn [map]; constructor; auto.
Qed.
Lemma big_airplane_flat k P a a' : enlarged_airplane k P a a' -> Forall2 P (airplane_panels a) (airplane_panels a').
Proof.
  intros (_ & _ & _ & _ & Hw). unfold airplane_panels. apply Forall2_concat. induction Hw as [|w w' ws ws' (_ & Hp) _ IH]; cbn [map]; constructor; auto.
  apply Forall2_concat, Hp.
Qed.
Lemma big_tree_both k P (Q : panel -> panel -> Prop) l l' : Forall2 (enlarged_airplane k P) l l' -> Forall2 Q (all_panels l) (all_panels l') ->
  Forall2 (enlarged_airplane k (fun p p' => P p p' /\ Q p p')) l l'.
Proof.
  intros G F. unfold all_panels in F. apply Forall2_unconcat in F.
  - revert F. induction G as [|a a' l l' Ha _ IH]; cbn [map]; intros F; inversion F as [|? ? ? ? Fa F0]; subst; constructor; auto. clear IH F0 F.
    pose proof Ha as (H1 & H2 & H3 & H4 & Hw). repeat (split; [assumption|]). unfold airplane_panels in Fa. apply Forall2_unconcat in Fa.
    + clear -Fa Hw. revert Fa. induction Hw as [|w w' ws ws' (Hs & Hp) _ IH]; cbn [map]; intros F; inversion F as [|? ? ? ? Fw F0]; subst; constructor; auto.
      split; [exact Hs|]. unfold ravel in Fw. apply Forall2_unconcat in Fw.
      * clear -Fw Hp. revert Fw. induction Hp as [|r r' m m' Hr _ IH]; intros F; inversion F; subst; constructor; auto. apply Forall2_both; assumption.
      * clear -Hp. induction Hp; constructor; auto. eapply Forall2_length; eauto.
    + clear -Hw. induction Hw as [|w w' ws ws' (Hs & Hp) _ IH]; cbn [map]; constructor; auto.
      unfold ravel. apply Forall2_concat, Forall2_length in Hp. exact Hp.
  - clear -G. induction G as [|a a' l l' Ha _ IH]; cbn [map]; constructor; auto. apply big_airplane_flat, Forall2_length in Ha. exact Ha.
Qed.

(** ** Panels and loads *)
Lemma big_points k p p' : 0 < k -> enlarged_panel k p p' ->
  p_front_right_vortex_vertex p' = vscale k (p_front_right_vortex_vertex p) /\
  p_front_left_vortex_vertex p' = vscale k (p_front_left_vortex_vertex p) /\
  p_collocation_point p' = vscale k (p_collocation_point p) /\ p_unit_normal p' = p_unit_normal p /\ p_area p' = k ^ 2 * p_area p.
Proof.
  intros Hk (H1 & H2 & H3 & H4).
  assert (C : p_cross p' = vscale (k ^ 2) (p_cross p)).
  { unfold p_cross, p_first_diagonal, p_second_diagonal. rewrite H1, H2, H3, H4, !big_sub. apply big_cross. }
  assert (L : p_left_leg p' = vscale k (p_left_leg p)) by (unfold p_left_leg; rewrite H1, H3; apply big_sub).
  assert (R : p_right_leg p' = vscale k (p_right_leg p)) by (unfold p_right_leg; rewrite H2, H4; apply big_sub).
  assert (K2 : 0 <= k ^ 2) by nra.
  split; [unfold p_front_right_vortex_vertex; rewrite R, H4, <- (big_twice k); apply big_add|].
  split; [unfold p_front_left_vortex_vertex; rewrite L, H1, <- (big_twice k); apply big_add|].
  split; [|split].
  - unfold p_collocation_point. cbv zeta. rewrite L, R, H1, H4, <- !(big_twice k), !big_add, big_sub, <- (big_twice k). apply big_add.
  - unfold p_unit_normal. rewrite C, big_norm by exact K2. generalize (p_cross p). intros v. generalize (vnorm v). intros n. unfold vdiv, Rdiv. rewrite Rinv_mult.
    generalize (/ n). clear -Hk. intros n. destruct v. vunfold. apply vec_ext; cbn; field; lra.
  - unfold p_area. rewrite C, big_norm by exact K2. unfold Rdiv. ring.
Qed.
Lemma enlarged_panel_same k p p' q q' : same_panel p q -> same_panel p' q' -> enlarged_panel k p p' -> enlarged_panel k q q'.
Proof. intros (S1 & S2 & S3 & S4 & _) (S1' & S2' & S3' & S4' & _) (H1 & H2 & H3 & H4). unfold enlarged_panel. rewrite S1, S2, S3, S4, S1', S2', S3', S4'. auto. Qed.
Lemma same_stream_rotation op op' : same_stream op op' -> rotation_wind_to_geometry op' = rotation_wind_to_geometry op.
Proof. intros (_ & _ & Ha & Hb). rewrite !w2g_explicit, Ha, Hb. reflexivity. Qed.
Lemma same_stream_pressure op op' : same_stream op op' -> dynamic_pressure op' = dynamic_pressure op.
Proof. intros (H1 & H2 & _). unfold dynamic_pressure. rewrite H1, H2. reflexivity. Qed.
Lemma same_stream_direction op op' : same_stream op op' -> freestream_direction op' = freestream_direction op.
Proof. intros H. unfold freestream_direction. rewrite (same_stream_rotation _ _ H). reflexivity. Qed.
Lemma same_stream_velocity op op' : same_stream op op' -> freestream_velocity op' = freestream_velocity op.
Proof. intros H. unfold freestream_velocity. rewrite (same_stream_direction _ _ H). destruct H as (_ & -> & _). reflexivity. Qed.
Lemma big_force k rho g v u : vscale (rho * (k * g)) (vcross v (vscale k u)) = vscale (k ^ 2) (vscale (rho * g) (vcross v u)).
Proof. vring. Qed.
Lemma big_moment k c r f : vcross (vsub (vscale k c) (vscale k r)) (vscale (k ^ 2) f) = vscale (k ^ 3) (vcross (vsub c r) f).
Proof. vring. Qed.
Lemma big_ratio k x q a : k <> 0 -> k * x / q / (k * a) = x / q / a.
Proof. intros H. unfold Rdiv. rewrite Rinv_mult. generalize (/ q) (/ a). intros. field. exact H. Qed.
Lemma enlarged_loads_from k op op' p p' f n : 0 < k -> same_stream op op' -> enlarged_panel k p p' -> loads_from op p -> loads_from op' p' ->
  p_force_geometry p = Some f -> p_moment_geometry p = Some n -> p_force_geometry p' = Some (vscale (k ^ 2) f) ->
  p_moment_geometry p' = Some (vscale (k ^ 3) n) -> enlarged_loads k p p'.
Proof.
  intros Hk Hop Hp (p0 & f0 & m0 & Hs & ->) (p0' & f0' & m0' & Hs' & ->) E1 E2 E3 E4.
  cbn in E1, E2, E3, E4. apply Some_eq' in E1, E2, E3, E4. subst f0 m0 f0' m0'.
  assert (Hp0 : enlarged_panel k p0 p0') by exact Hp. destruct (big_points _ _ _ Hk Hp0) as (_ & _ & _ & _ & Ar).
  exists f, n. do 2 eexists. repeat (split; [reflexivity|]).
  cbn [loaded p_set_loads fst snd p_force_geometry p_moment_geometry p_force_wind p_moment_wind p_induced_drag_coefficient p_side_force_coefficient p_lift_coefficient].
  rewrite (same_stream_rotation _ _ Hop), (same_stream_pressure op op' Hop), Ar, !mvmul_scale.
  assert (K : k ^ 2 <> 0) by nra. generalize (mvmul (mtrans (rotation_wind_to_geometry op)) f). intros [fx fy fz]. unfold vscale. cbn [vx vy vz].
  split; [reflexivity|]. split; [reflexivity|].
  repeat split; f_equal; unfold Rdiv; rewrite ?Rinv_mult; generalize (/ p_area p0) (/ dynamic_pressure op); intros; field; lra.
Qed.
Lemma enlarged_totals_from k op op' (Q : panel -> panel -> Prop) a a' : 0 < k -> same_stream op op' ->
  (forall p p', Q p p' -> enlarged_loads k p p') ->
  enlarged_airplane k Q a a' -> totals_from op a -> totals_from op' a' -> enlarged_totals k a a'.
Proof.
  intros Hk Hop HQ Hm (fs & ms & E1 & E2 & T1 & T2 & T3 & T4) (fs' & ms' & E1' & E2' & T1' & T2' & T3' & T4').
  pose proof (big_airplane_flat _ _ _ _ Hm) as F. destruct Hm as (Hs & Hc & Hb & _).
  assert (X : fs' = map (vscale (k ^ 2)) fs /\ ms' = map (vscale (k ^ 3)) ms).
  { clear -F HQ E1 E2 E1' E2'. revert fs ms fs' ms' E1 E2 E1' E2'. induction F as [|p p' l l' H _ IH]; cbn [map]; intros [|f fs] [|n ms] [|f' fs'] [|n' ms'];
      cbn [map]; try discriminate; [auto|]. intros E1 E2 E1' E2'. apply cons_eq' in E1, E2, E1', E2'. destruct E1 as [E1 I1], E2 as [E2 I2], E1' as [E1' I1'], E2' as [E2' I2'].
    destruct (IH _ _ _ _ I1 I2 I1' I2') as (-> & ->). destruct (HQ _ _ H) as (fg & mg & fw & mw & A1 & A2 & _ & _ & A3 & A4 & _).
    rewrite E1 in A1. rewrite E2 in A2. apply Some_eq' in A1, A2. subst fg mg. rewrite A3 in E1'. rewrite A4 in E2'. apply Some_eq' in E1', E2'. subst f' n'. auto. }
  destruct X as (X1 & X2). rewrite X1, big_vsum, mvmul_scale in *. rewrite X2, big_vsum, mvmul_scale in *. rewrite (same_stream_rotation _ _ Hop), (same_stream_pressure op op' Hop), Hs, Hc, Hb in *.
  unfold enlarged_totals. do 4 eexists. repeat (split; [eassumption|]).
  assert (K : k ^ 2 <> 0) by nra. assert (K0 : k <> 0) by lra.
  split; [rewrite T3' | rewrite T4']; f_equal; unfold force_coefficients, moment_coefficients; cbn [vscale vx vy vz]; apply vec_ext; cbn [vx vy vz];
    unfold Rdiv; rewrite ?Rinv_mult; generalize (/ a_s_ref a) (/ a_b_ref a) (/ a_c_ref a) (/ dynamic_pressure op); intros; field; exact K0.
Qed.
