(** Rigid motions: panels, trees of panels, kernels, loads. *)
From Coq Require Import Lra Lia.
From Verif Require Import M_Loads S_Geometry S_Vortices S_Solve S_Loads S_Mirror S_Rigid
  L_Base L_Rotations L_Loads L_Aero L_Horseshoe L_SteadyRing L_RingLegs L_Mirror L_MirrorHorseshoe.

(** ** Trees of panels *)
Lemma moved_tree_same (P Q : airplane -> airplane -> panel -> panel -> Prop) l l' l1 l1' :
  (forall a a' b b' p p' q q', same_airplane a b -> same_airplane a' b' -> same_panel p q -> same_panel p' q' -> P a a' p p' -> Q b b' q q') ->
  Forall2 same_airplane l l1 -> Forall2 same_airplane l' l1' -> Forall2 (moved_airplane P) l l' -> Forall2 (moved_airplane Q) l1 l1'.
Proof.
  intros H F F' G. revert l1 l1' F F'. induction G as [|a a' l l' (Hs & Hc & Hb & Hw) _ IH]; intros l1 l1' F F';
    inversion F as [|? b ? ? Sa F0]; inversion F' as [|? b' ? ? Sa' F0']; subst; constructor; auto.
  pose proof Sa as (Fw & _ & _ & _ & E1 & E2 & E3 & _). pose proof Sa' as (Fw' & _ & _ & _ & E1' & E2' & E3' & _).
  split; [congruence|]. split; [congruence|]. split; [congruence|].
  assert (X : forall p p' q q', same_panel p q -> same_panel p' q' -> P a a' p p' -> Q b b' q q') by eauto.
  clear -Fw Fw' Hw X. revert Fw Fw'. generalize (a_wings b) (a_wings b'). induction Hw as [|w w' ws ws' (Hsp & Hp) _ IH]; intros vs vs' Fw Fw';
    inversion Fw as [|? v ? ? Sw F0]; inversion Fw' as [|? v' ? ? Sw' F0']; subst; constructor; auto.
  split; [rewrite (same_wing_span _ _ Sw), (same_wing_span _ _ Sw'); exact Hsp|].
  destruct Sw as [_ Sw], Sw' as [_ Sw'].
  apply (Forall2_replace_r _ _ _ _ _ _ Sw' (Forall2_replace_l _ (fun r r' => Forall2 (fun q p' => exists p, same_panel p q /\ P a a' p p') r r') _ _ _ _ Sw Hp
     (fun r r1 r' Fr Pr => Forall2_replace_l _ _ _ _ _ _ Fr Pr (fun p q p' S HP => ex_intro _ p (conj S HP))))).
  intros r r' r1' Fr Pr. apply (Forall2_replace_r _ _ _ _ _ _ Fr Pr). intros q p' q' S' (p & S & HP). eauto.
Qed.
Lemma moved_tree_impl (P Q : airplane -> airplane -> panel -> panel -> Prop) l l' :
  (forall a a' w w' p p', In a l -> In a' l' -> In w (a_wings a) -> In w' (a_wings a') -> In p (airplane_panels a) -> In p' (airplane_panels a') -> P a a' p p' -> Q a a' p p') ->
  Forall2 (moved_airplane P) l l' -> Forall2 (moved_airplane Q) l l'.
Proof.
  intros H G. assert (X : forall a a', In a l -> In a' l' -> moved_airplane P a a' -> moved_airplane Q a a').
  { intros a a' Ha Ha' (H1 & H2 & H3 & Hw). repeat (split; [assumption|]).
    assert (Y : forall w w', In w (a_wings a) -> In w' (a_wings a') -> moved_wing (P a a') w w' -> moved_wing (Q a a') w w').
    { intros w w' Iw Iw' (Hs & Hp). split; [exact Hs|].
      assert (Z : forall p p', In p (ravel (w_panels w)) -> In p' (ravel (w_panels w')) -> P a a' p p' -> Q a a' p p').
      { intros p p' Ip Ip'. apply (H a a' w w'); auto; apply in_airplane_panels; [exists w | exists w']; auto. }
      unfold ravel in Z. clear -Hp Z. induction Hp as [|r r' m m' Hr _ IH]; constructor.
      - assert (Z' : forall p p', In p r -> In p' r' -> P a a' p p' -> Q a a' p p') by (intros; apply Z; auto; cbn; apply in_or_app; auto).
        clear -Hr Z'. induction Hr; constructor; [apply Z'; cbn; auto|]. apply IHHr. intros. apply Z'; cbn; auto.
      - apply IH. intros. apply Z; auto; cbn; apply in_or_app; auto. }
    clear -Hw Y. induction Hw; constructor; [apply Y; cbn; auto|]. apply IHHw. intros. apply Y; cbn; auto. }
  clear H. induction G; constructor; [apply X; cbn; auto|]. apply IHG. intros. apply X; cbn; auto.
Qed.
Lemma moved_wings_impl (P Q : airplane -> airplane -> panel -> panel -> Prop) l l' :
  (forall a a' w w', In a l -> In a' l' -> In w (a_wings a) -> In w' (a_wings a') -> moved_wing (P a a') w w' -> moved_wing (Q a a') w w') ->
  Forall2 (moved_airplane P) l l' -> Forall2 (moved_airplane Q) l l'.
Proof.
  intros H G. assert (X : forall a a', In a l -> In a' l' -> moved_airplane P a a' -> moved_airplane Q a a').
  { intros a a' Ha Ha' (H1 & H2 & H3 & Hw). repeat (split; [assumption|]).
    assert (Y : forall w w', In w (a_wings a) -> In w' (a_wings a') -> moved_wing (P a a') w w' -> moved_wing (Q a a') w w') by (intros; apply H; auto).
    clear -Hw Y. induction Hw; constructor; [apply Y; cbn; auto|]. apply IHHw. intros. apply Y; cbn; auto. }
  clear H. induction G; constructor; [apply X; cbn; auto|]. apply IHG. intros. apply X; cbn; auto.
Qed.
Lemma map_related {A B} (P : A -> A -> Prop) (f g : A -> B) l l' : (forall x x', P x x' -> g x' = f x) -> Forall2 P l l' -> map g l' = map f l.
Proof. intros H F. induction F as [|x x' l l' Hx _ IH]; cbn [map]; [reflexivity|]. rewrite IH, (H x x' Hx). reflexivity. Qed.
Lemma moved_flat P l l' : Forall2 (moved_airplane P) l l' ->
  Forall2 (fun x x' => P (fst (fst x)) (fst (fst x')) (snd x) (snd x') /\ w_span (snd (fst x')) = w_span (snd (fst x)))
    (flat_panels l) (flat_panels l').
Proof.
  intros G. unfold flat_panels. apply Forall2_concat. induction G as [|a a' l l' (_ & _ & _ & Hw) _ IH]; cbn [map]; constructor; auto. clear IH.
  apply Forall2_concat. induction Hw as [|w w' ws ws' (Hs & Hp) _ IH]; cbn [map]; constructor; auto. clear IH.
  apply Forall2_concat in Hp. unfold ravel. induction Hp; cbn [map]; constructor; auto.
Qed.
Lemma moved_panels_flat P l l' : Forall2 (moved_airplane (fun _ _ => P)) l l' -> Forall2 P (all_panels l) (all_panels l').
Proof.
  intros G. apply moved_flat in G. rewrite <- !flat_panels_snd. induction G as [|x x' xs xs' [H _] _ IH]; cbn [map]; constructor; auto.
Qed.
Lemma airplane_panels_flat P a a' : moved_airplane P a a' -> Forall2 (P a a') (airplane_panels a) (airplane_panels a').
Proof.
  intros (_ & _ & _ & Hw). unfold airplane_panels. apply Forall2_concat. induction Hw as [|w w' ws ws' (_ & Hp) _ IH]; cbn [map]; constructor; auto.
  apply Forall2_concat, Hp.
Qed.
Lemma moved_tree_both P (Q : panel -> panel -> Prop) l l' : Forall2 (moved_airplane P) l l' -> Forall2 Q (all_panels l) (all_panels l') ->
  Forall2 (moved_airplane (fun a a' p p' => P a a' p p' /\ Q p p')) l l'.
Proof.
  intros G F. unfold all_panels in F. apply Forall2_unconcat in F.
  - revert F. induction G as [|a a' l l' Ha _ IH]; cbn [map]; intros F; inversion F as [|? ? ? ? Fa F0]; subst; constructor; auto. clear IH F0 F.
    pose proof Ha as (H1 & H2 & H3 & Hw). repeat (split; [assumption|]). unfold airplane_panels in Fa. apply Forall2_unconcat in Fa.
    + clear -Fa Hw. revert Fa. induction Hw as [|w w' ws ws' (Hs & Hp) _ IH]; cbn [map]; intros F; inversion F as [|? ? ? ? Fw F0]; subst; constructor; auto.
      split; [exact Hs|]. unfold ravel in Fw. apply Forall2_unconcat in Fw.
      * clear -Fw Hp. revert Fw. induction Hp as [|r r' m m' Hr _ IH]; intros F; inversion F; subst; constructor; auto. apply Forall2_both; assumption.
      * clear -Hp. induction Hp; constructor; auto. eapply Forall2_length; eauto.
    + clear -Hw. induction Hw as [|w w' ws ws' (Hs & Hp) _ IH]; cbn [map]; constructor; auto.
      unfold ravel. apply Forall2_concat, Forall2_length in Hp. exact Hp.
  - clear -G. induction G as [|a a' l l' Ha _ IH]; cbn [map]; constructor; auto. apply airplane_panels_flat, Forall2_length in Ha. exact Ha.
Qed.

Lemma lin_add m u v : mvmul m (vadd u v) = vadd (mvmul m u) (mvmul m v). Proof. vring. Qed.
Lemma lin_sub m u v : mvmul m (vsub u v) = vsub (mvmul m u) (mvmul m v). Proof. vring. Qed.
Lemma lin_scale m k u : mvmul m (vscale k u) = vscale k (mvmul m u). Proof. vring. Qed.
Lemma lin_zero m : mvmul m vzero = vzero. Proof. vring. Qed.
Lemma lin_vsum m l : vsum (map (fun v => mvmul m v) l) = mvmul m (vsum l).
Proof. induction l as [|v l IH]; [symmetry; apply lin_zero|]. cbn [map]. rewrite !vsum_cons, IH, lin_add. reflexivity. Qed.
Lemma moved_sub m t x y : vsub (moved m t x) (moved m t y) = mvmul m (vsub x y). Proof. unfold moved. vring. Qed.
Lemma moved_add m t x v : vadd (moved m t x) (mvmul m v) = moved m t (vadd x v). Proof. unfold moved. vring. Qed.
Lemma moved_midpoint m t x y : midpoint (moved m t x) (moved m t y) = moved m t (midpoint x y).
Proof. unfold midpoint, moved. vdestruct. vunfold. apply vec_ext; cbn; lra. Qed.
Lemma lin_one m v : vscale 1 (mvmul m v) = mvmul m v. Proof. vring. Qed.
Lemma lin_divide m k v : vdiv (mvmul m v) k = mvmul m (vdiv v k).
Proof. unfold vdiv. vdestruct. vunfold. apply vec_ext; cbn; unfold Rdiv; ring. Qed.
Lemma moment_shift c r r' f : vcross (vsub c r') f = vsub (vcross (vsub c r) f) (vcross (vsub r' r) f). Proof. vring. Qed.
Lemma moment_about_zero d : moment_about d vzero vzero = vzero. Proof. unfold moment_about. vring. Qed.
Lemma moment_about_add d n f n' f' : vadd (moment_about d n f) (moment_about d n' f') = moment_about d (vadd n n') (vadd f f').
Proof. unfold moment_about. vring. Qed.

Section Motion.
Context (m : mat) (t : vec) (HR : proper_rotation m).
Notation mv := (moved m t).
Notation lin := (mvmul m).
Lemma lin_dot u v : vdot (lin u) (lin v) = vdot u v. Proof. apply (proj1 HR). Qed.
Lemma lin_norm u : vnorm (lin u) = vnorm u. Proof. exact (orthogonal_norm m u (proj1 HR)). Qed.
Lemma lin_cross u v : vcross (lin u) (lin v) = lin (vcross u v).
Proof. rewrite (orthogonal_cross m u v (proj1 HR)), (proj2 HR). apply lin_one. Qed.
Lemma moved_line x a b g age nu : line_velocity (mv x) (mv a) (mv b) g age nu = lin (line_velocity x a b g age nu).
Proof. unfold moved. rewrite (line_velocity_isometry m t x a b g age nu (proj1 HR)), (proj2 HR). apply lin_one. Qed.
Lemma moved_quad x a b c d g age nu :
  quad_velocity (mv x) (mv a) (mv b) (mv c) (mv d) g age nu = lin (quad_velocity x a b c d g age nu).
Proof. unfold quad_velocity. rewrite !moved_line, !lin_add. reflexivity. Qed.
Lemma moved_shoe x a b c d g age nu :
  shoe_velocity (mv x) (mv a) (mv b) (mv c) (mv d) g age nu = lin (shoe_velocity x a b c d g age nu).
Proof. unfold shoe_velocity. rewrite !moved_line, !lin_add. reflexivity. Qed.

Lemma moved_points p p' : moved_panel m t p p' ->
  p_front_right_vortex_vertex p' = mv (p_front_right_vortex_vertex p) /\
  p_front_left_vortex_vertex p' = mv (p_front_left_vortex_vertex p) /\
  p_collocation_point p' = mv (p_collocation_point p) /\ p_unit_normal p' = lin (p_unit_normal p) /\ p_area p' = p_area p.
Proof.
  intros (H1 & H2 & H3 & H4).
  assert (C : p_cross p' = lin (p_cross p)).
  { unfold p_cross, p_first_diagonal, p_second_diagonal. rewrite H1, H2, H3, H4, !moved_sub. apply lin_cross. }
  assert (L : p_left_leg p' = lin (p_left_leg p)) by (unfold p_left_leg; rewrite H1, H3; apply moved_sub).
  assert (R : p_right_leg p' = lin (p_right_leg p)) by (unfold p_right_leg; rewrite H2, H4; apply moved_sub).
  split; [unfold p_front_right_vortex_vertex; rewrite R, H4, <- lin_scale; apply moved_add|].
  split; [unfold p_front_left_vortex_vertex; rewrite L, H1, <- lin_scale; apply moved_add|].
  split; [|split].
  - unfold p_collocation_point. cbv zeta. rewrite L, R, H1, H4, <- !lin_scale, !moved_add, moved_sub, <- lin_scale. apply moved_add.
  - unfold p_unit_normal. rewrite C, lin_norm. apply lin_divide.
  - unfold p_area. rewrite C, lin_norm. reflexivity.
Qed.
Lemma moved_panel_same p p' q q' : same_panel p q -> same_panel p' q' -> moved_panel m t p p' -> moved_panel m t q q'.
Proof. intros (S1 & S2 & S3 & S4 & _) (S1' & S2' & S3' & S4' & _) (H1 & H2 & H3 & H4). unfold moved_panel. rewrite S1, S2, S3, S4, S1', S2', S3', S4'. auto. Qed.

Lemma turned_direction op op' : turned_flow m op op' -> freestream_direction op' = lin (freestream_direction op).
Proof.
  intros (_ & _ & H). unfold freestream_direction. specialize (H (mvmul (rotation_wind_to_geometry op) (mkvec (-1) 0 0))).
  rewrite (orthogonal_trans_l _ _ (proper_orthogonal _ (w2g_proper op))) in H.
  rewrite <- H at 1. rewrite (orthogonal_trans_r _ _ (proper_orthogonal _ (w2g_proper op'))). reflexivity.
Qed.
Lemma turned_freestream op op' : turned_flow m op op' -> freestream_velocity op' = lin (freestream_velocity op).
Proof. intros H. unfold freestream_velocity. rewrite (turned_direction op op' H), lin_scale. destruct H as (_ & -> & _). reflexivity. Qed.
Lemma turned_pressure op op' : turned_flow m op op' -> dynamic_pressure op' = dynamic_pressure op.
Proof. intros (H1 & H2 & _). unfold dynamic_pressure. rewrite H1, H2. reflexivity. Qed.
Lemma wind_cross op u v : mvmul (mtrans (rotation_wind_to_geometry op)) (vcross u v) =
  vcross (mvmul (mtrans (rotation_wind_to_geometry op)) u) (mvmul (mtrans (rotation_wind_to_geometry op)) v).
Proof.
  assert (O : orthogonal (mtrans (rotation_wind_to_geometry op))) by apply orthogonal_trans, proper_orthogonal, w2g_proper.
  rewrite (orthogonal_cross _ u v O). assert (D : mdet (mtrans (rotation_wind_to_geometry op)) = 1).
  { rewrite <- (proj2 (w2g_proper op)). generalize (rotation_wind_to_geometry op). clear. intros [[] [] []]. unfold mdet, mtrans. vunfold. ring. }
  rewrite D. symmetry. apply lin_one.
Qed.
Lemma moment_about_wind op op' d n f : turned_flow m op op' ->
  mvmul (mtrans (rotation_wind_to_geometry op')) (moment_about d (lin n) (lin f)) =
  moment_about (mvmul (mtrans (rotation_wind_to_geometry op')) d) (mvmul (mtrans (rotation_wind_to_geometry op)) n) (mvmul (mtrans (rotation_wind_to_geometry op)) f).
Proof.
  intros (_ & _ & H). unfold moment_about. rewrite <- !H, <- wind_cross. apply lin_sub.
Qed.
(** Moments about the two reference points. *)
Lemma moment_moved r r' c f : vcross (vsub (mv c) r') (lin f) = moment_about (vsub r' (mv r)) (lin (vcross (vsub c r) f)) (lin f).
Proof. unfold moment_about. rewrite <- lin_cross, <- (moved_sub m t). apply moment_shift. Qed.

(** ** Loads *)
Lemma moved_loads_from op op' a a' p p' f n : turned_flow m op op' -> moved_panel m t p p' -> loads_from op p -> loads_from op' p' ->
  p_force_geometry p = Some f -> p_moment_geometry p = Some n -> p_force_geometry p' = Some (lin f) ->
  p_moment_geometry p' = Some (moment_about (ref_offset m t a a') (lin n) (lin f)) -> moved_loads m t op' a a' p p'.
Proof.
  intros Hop Hp (p0 & f0 & m0 & Hs & ->) (p0' & f0' & m0' & Hs' & ->) E1 E2 E3 E4.
  cbn in E1, E2, E3, E4. apply Some_eq' in E1, E2, E3, E4. subst f0 m0 f0' m0'.
  assert (Hp0 : moved_panel m t p0 p0') by exact Hp. destruct (moved_points _ _ Hp0) as (_ & _ & _ & _ & Ar).
  exists f, n. do 2 eexists. repeat (split; [reflexivity|]).
  cbn [loaded p_set_loads fst snd p_force_geometry p_moment_geometry p_force_wind p_moment_wind p_induced_drag_coefficient p_side_force_coefficient p_lift_coefficient].
  rewrite (moment_about_wind op op' _ _ _ Hop), (turned_pressure op op' Hop), Ar. destruct Hop as (_ & _ & Hw). rewrite !Hw. auto 12.
Qed.
Lemma moment_about_vsum d ns fs : length ns = length fs ->
  vsum (map2 (fun n f => moment_about d n f) ns fs) = moment_about d (vsum ns) (vsum fs).
Proof.
  revert fs; induction ns as [|n ns IH]; intros [|f fs]; cbn [map2 length]; try discriminate.
  - intros _. symmetry. apply moment_about_zero.
  - intros E. rewrite !vsum_cons, IH by lia. apply moment_about_add.
Qed.
Lemma moved_totals_from op op' (Q : airplane -> airplane -> panel -> panel -> Prop) a a' : turned_flow m op op' ->
  (forall p p', Q a a' p p' -> moved_loads m t op' a a' p p') ->
  moved_airplane Q a a' -> totals_from op a -> totals_from op' a' -> moved_totals m t op' a a'.
Proof.
  intros Hop HQ Hm (fs & ms & E1 & E2 & T1 & T2 & T3 & T4) (fs' & ms' & E1' & E2' & T1' & T2' & T3' & T4').
  pose proof (airplane_panels_flat _ _ _ Hm) as F. destruct Hm as (Hs & Hc & Hb & _).
  assert (X : fs' = map (fun f => lin f) fs /\ length ms = length fs /\ ms' = map2 (fun n f => moment_about (ref_offset m t a a') n f) (map (fun n => lin n) ms) (map (fun f => lin f) fs)).
  { clear -F HQ E1 E2 E1' E2'. revert fs ms fs' ms' E1 E2 E1' E2'. induction F as [|p p' l l' H _ IH]; cbn [map]; intros [|f fs] [|n ms] [|f' fs'] [|n' ms'];
      cbn [map length]; try discriminate; [auto|]. intros E1 E2 E1' E2'. apply cons_eq' in E1, E2, E1', E2'. destruct E1 as [E1 I1], E2 as [E2 I2], E1' as [E1' I1'], E2' as [E2' I2'].
    destruct (IH _ _ _ _ I1 I2 I1' I2') as (-> & -> & ->). destruct (HQ _ _ H) as (fg & mg & fw & mw & A1 & A2 & _ & _ & A3 & A4 & _).
    rewrite E1 in A1. rewrite E2 in A2. apply Some_eq' in A1, A2. subst fg mg. rewrite A3 in E1'. rewrite A4 in E2'. apply Some_eq' in E1', E2'. subst f' n'.
    cbn [map2]. auto. }
  destruct X as (X1 & L & X2). assert (Y1 : vsum fs' = lin (vsum fs)) by (rewrite X1; apply lin_vsum).
  assert (Y2 : vsum ms' = moment_about (ref_offset m t a a') (lin (vsum ms)) (lin (vsum fs))).
  { rewrite X2, moment_about_vsum by (rewrite !map_length; exact L). rewrite !lin_vsum. reflexivity. }
  rewrite Y1 in *. rewrite Y2 in *. rewrite (moment_about_wind op op' _ _ _ Hop) in *. rewrite (turned_pressure op op' Hop), Hs, Hc, Hb in *.
  assert (Hq : 1 / 2 * op_density op' * op_velocity op' ^ 2 = dynamic_pressure op).
  { unfold dynamic_pressure. destruct Hop as (-> & -> & _). field. }
  pose proof Hop as (_ & _ & Hw). rewrite Hw in *. unfold moved_totals. cbv zeta. rewrite Hq.
  do 4 eexists. repeat (split; [eassumption|]). rewrite T4'. f_equal. unfold moment_coefficients, moment_about. cbn [vx vy vz vsub].
  apply vec_ext; cbn; unfold Rdiv; ring.
Qed.
End Motion.
