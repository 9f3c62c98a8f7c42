(** Results do not depend on the order of airplanes and wings: mirror twice. *)
From Coq Require Import Lra Lia.
From Verif Require Import M_Loads M_Horseshoe M_SteadyRing S_Solve S_Loads S_Mirror S_Order
  L_Base L_Loads L_Frames L_Mirror L_MirrorHorseshoe L_MirrorRing L_Symmetry.

Lemma across_twice v : across (across v) = v.
Proof. destruct v; unfold across; cbn. apply vec_ext; cbn; lra. Qed.
Lemma across_moment_twice v : across_moment (across_moment v) = v.
Proof. destruct v; unfold across_moment; cbn. apply vec_ext; cbn; lra. Qed.
Lemma option_map_twice {A} (f : A -> A) o : (forall x, f (f x) = x) -> option_map f (option_map f o) = o.
Proof. intros H; destruct o; cbn; congruence. Qed.

(** ** The mirror image that keeps its sides *)
Definition image_panel (p : panel) : panel :=
  mkpanel (across (p_front_right p)) (across (p_front_left p)) (across (p_back_left p)) (across (p_back_right p))
    (p_is_leading_edge p) (p_is_trailing_edge p) (p_is_right_edge p) (p_is_left_edge p) (p_local_chordwise p) (p_local_spanwise p)
    None None None None None None None None None.
Definition image_wing (w : wing) : wing := w_set_panels (map (map image_panel) (w_panels w)) w.
Definition image_airplane (a : airplane) : airplane :=
  mkairplane (map image_wing (a_wings a)) (a_name a) (a_x_ref a) (- a_y_ref a) (a_z_ref a) (a_weight a) (a_s_ref a) (a_c_ref a)
             (a_b_ref a) (a_num_panels a) None None None None.
Definition image_flow (op : operating_point) : operating_point :=
  mkop (op_density op) (op_velocity op) (op_alpha op) (- op_beta op) (op_external_thrust op) (op_nu op).

Lemma image_panel_mirrored p : mirrored_panel true p (image_panel p).
Proof. cbn. auto. Qed.
Lemma image_wing_mirrored w : mirrored_wing mirrored_panel w (image_wing w).
Proof.
  split; [reflexivity|]. exists true. cbn [image_wing w_panels w_set_panels].
  induction (w_panels w) as [|row m IH]; constructor; [|exact IH]. induction row; constructor; [apply image_panel_mirrored | assumption].
Qed.
Lemma paired_map {A} (f : A -> A) (P : A -> A -> Prop) l : (forall x, P x (f x)) -> paired (fun k => k) P l (map f l).
Proof.
  intros H. split; [apply map_length|]. split; [auto|]. intros k x Hk. exists (f x). split; [rewrite nth_error_map, Hk; reflexivity | apply H].
Qed.
Lemma image_airplane_mirrored a : mirrored_airplane mirrored_panel a (image_airplane a).
Proof.
  repeat split. exists (fun k => k). apply paired_map, image_wing_mirrored.
Qed.
Lemma images_mirrored l : mirrored (fun k => k) l (map image_airplane l).
Proof. apply paired_map, image_airplane_mirrored. Qed.
Lemma image_well_meshed a : well_meshed_airplane a -> well_meshed_airplane (image_airplane a).
Proof.
  intros [H1 H2]. split.
  - intros w Hw. cbn in Hw. apply in_map_iff in Hw. destruct Hw as (v & <- & Hv). destruct (H1 v Hv) as [A B]. cbn [image_wing w_panels w_set_panels]. split.
    + intros row Hr. apply in_map_iff in Hr. destruct Hr as (r0 & <- & Hr0). rewrite map_length, (A r0 Hr0).
      destruct (w_panels v); [destruct Hr0 | cbn; rewrite map_length; reflexivity].
    + intros c row s p Hc Hs. rewrite nth_error_map in Hc. destruct (nth_error (w_panels v) c) as [r0|] eqn:E0; [|discriminate].
      apply Some_eq in Hc. subst row. rewrite nth_error_map in Hs. destruct (nth_error r0 s) as [q|] eqn:Eq; [|discriminate].
      apply Some_eq in Hs. subst p. rewrite !map_length. apply (B c r0 s q E0 Eq).
  - cbn [image_airplane a_num_panels]. rewrite H2. unfold airplane_panels. cbn [image_airplane a_wings]. clear.
    induction (a_wings a) as [|w ws IH]; [reflexivity|]. cbn [map concat flat_map]. rewrite !app_length, IH. f_equal.
    cbn [image_wing w_panels w_set_panels]. unfold ravel. rewrite <- concat_map, map_length. reflexivity.
Qed.

(** ** Composition *)
Lemma paired_compose {A} f g (P Q S : A -> A -> Prop) l m n : (forall x y z, P x y -> Q y z -> S x z) ->
  paired f P l m -> paired g Q m n -> paired (fun k => g (f k)) S l n.
Proof.
  intros H (L1 & I1 & H1) (L2 & I2 & H2). split; [congruence|]. split.
  - intros i j Hi Hj E. assert (B : forall i, (i < length l)%nat -> (f i < length m)%nat).
    { intros k Hk. destruct (nth_error l k) as [x|] eqn:Ex; [|apply nth_error_None in Ex; lia]. destruct (H1 k x Ex) as (y & Hy & _).
      apply nth_error_Some. congruence. }
    apply I1; auto.
  - intros k x Hk. destruct (H1 k x Hk) as (y & Hy & Pxy). destruct (H2 _ y Hy) as (z & Hz & Qyz). eauto.
Qed.
Lemma wing_compose (P Q S : bool -> panel -> panel -> Prop) w v u : (forall k1 k2 p q r, P k1 p q -> Q k2 q r -> S (Bool.eqb k1 k2) p r) ->
  mirrored_wing P w v -> mirrored_wing Q v u -> mirrored_wing S w u.
Proof.
  intros H (E1 & k1 & F1) (E2 & k2 & F2). split; [congruence|]. exists (Bool.eqb k1 k2).
  revert F2. generalize (w_panels u). induction F1 as [|row row' m m' Fr _ IH]; intros n F2; inversion F2; subst; constructor; [|auto].
  match goal with F : Forall2 (Q k2) row' _ |- _ => rename F into Fq end.
  assert (C : forall xs ys zs, Forall2 (P k1) xs ys -> Forall2 (Q k2) ys zs -> Forall2 (S (Bool.eqb k1 k2)) xs zs).
  { intros xs ys zs Fx. revert zs. induction Fx; intros zs Fy; inversion Fy; subst; constructor; eauto. }
  apply (C _ _ _ Fr). destruct k1; [destruct k2; exact Fq|]. apply Forall2_rev in Fq. destruct k2; [exact Fq|]. rewrite rev_involutive in Fq. exact Fq.
Qed.
Lemma flip_flow op : mirrored_flow op (image_flow op).
Proof. repeat split. Qed.
Lemma flip_flow_back op : mirrored_flow (image_flow op) op.
Proof. repeat split. cbn. lra. Qed.
Lemma image_reordered f l l' : reordered f l l' -> mirrored f (map image_airplane l) l'.
Proof.
  intros (L & I & H). split; [rewrite map_length; exact L|]. split; [rewrite map_length; exact I|].
  intros k x Hk. rewrite nth_error_map in Hk. destruct (nth_error l k) as [a|] eqn:Ea; [|discriminate]. apply Some_eq in Hk. subst x.
  destruct (H k a Ea) as (a' & Ha' & E1 & E2 & E3 & E4 & g & G). exists a'. split; [exact Ha'|].
  split; [rewrite E1; unfold a_xyz_ref, across; cbn; f_equal; lra|]. split; [exact E2|]. split; [exact E3|]. split; [exact E4|]. exists g.
  cbn [image_airplane a_wings]. destruct G as (LG & IG & HG). split; [rewrite map_length; exact LG|]. split; [rewrite map_length; exact IG|].
  intros j w Hj. rewrite nth_error_map in Hj. destruct (nth_error (a_wings a) j) as [v|] eqn:Ev; [|discriminate]. apply Some_eq in Hj. subst w.
  destruct (HG j v Ev) as (u & Hu & Es & kk & F). exists u. split; [exact Hu|]. split; [exact Es|]. exists kk. cbn [image_wing w_panels w_set_panels].
  clear -F. induction F as [|row row' m m' Fr _ IH]; constructor; [|exact IH].
  clear -Fr. induction Fr as [|p p' r r' Hp _ IH]; constructor; [|exact IH].
  destruct kk; destruct Hp as (E1 & E2 & E3 & E4); cbn; rewrite !across_twice; auto.
Qed.
Lemma twice_mirrored strength a b c : mirrored_solution strength a b -> mirrored_solution strength b c -> same_solution strength a c.
Proof.
  intros [(T1 & T2 & T3 & T4) (A1 & A2 & A3 & A4 & f & FW)] [(U1 & U2 & U3 & U4) (B1 & B2 & B3 & B4 & g & GW)]. split.
  - split; [rewrite U1, T1; apply option_map_twice, across_twice|]. split; [rewrite U2, T2; apply option_map_twice, across_moment_twice|].
    split; [rewrite U3, T3; apply option_map_twice, across_twice | rewrite U4, T4; apply option_map_twice, across_moment_twice].
  - split; [rewrite B1, A1; apply across_twice|]. split; [congruence|]. split; [congruence|]. split; [congruence|].
    exists (fun k => g (f k)). revert FW GW. apply paired_compose. intros w v u. apply wing_compose.
    intros k1 k2 p q r (M1 & (L1 & L2 & L3 & L4 & L5 & L6 & L7) & N1 & S1) (M2 & (K1 & K2 & K3 & K4 & K5 & K6 & K7) & N2 & S2).
    split; [|split; [|split; [exact N1|]]].
    + destruct k1, k2; destruct M1 as (O1 & O2 & O3 & O4); destruct M2 as (P1 & P2 & P3 & P4); cbn;
        rewrite P1, P2, P3, P4, O1, O2, O3, O4, !across_twice; auto.
    + split; [rewrite K1, L1; apply option_map_twice, across_twice|]. split; [rewrite K2, L2; apply option_map_twice, across_moment_twice|].
      split; [rewrite K3, L3; apply option_map_twice, across_twice|]. split; [rewrite K4, L4; apply option_map_twice, across_moment_twice|].
      split; [congruence|]. split; [rewrite K6, L6; apply option_map_twice; intros; lra | congruence].
    + rewrite S2, S1. destruct (strength p); [|congruence]. cbn. f_equal. destruct k1, k2; cbn; lra.
Qed.

(** ** The two steady solvers *)
Lemma hs_reordered solve f l l' op s : SolveSpec solve -> reordered f l l' -> hs_run solve (hs_new l op) = Ok s ->
  exists s', hs_run solve (hs_new l' op) = Ok s' /\
    (forall x v, hs_solution_velocity s [x] = [v] -> hs_solution_velocity s' [x] = [v]) /\
    paired f (same_solution horseshoe_strength) (hso_airplanes s) (hso_airplanes s').
Proof.
  intros HS HR E. destruct (hs_mirrored solve _ _ _ _ _ s HS (flip_flow op) (images_mirrored l) E) as (t & Et & V1 & P1).
  destruct (hs_mirrored solve _ _ _ _ _ t HS (flip_flow_back op) (image_reordered _ _ _ HR) Et) as (s' & Es & V2 & P2).
  exists s'. split; [exact Es|]. split.
  - intros x v H. apply V1, V2 in H. rewrite !across_twice in H. exact H.
  - exact (paired_compose _ _ _ _ _ _ _ _ (twice_mirrored horseshoe_strength) P1 P2).
Qed.
Lemma ring_reordered solve f l l' op s : SolveSpec solve -> reordered f l l' ->
  (forall a, In a l -> well_meshed_airplane a) -> (forall a, In a l' -> well_meshed_airplane a) ->
  ring_run solve (ring_new l op) = Ok s ->
  exists s', ring_run solve (ring_new l' op) = Ok s' /\
    (forall x v, ring_solution_velocity s [x] = [v] -> ring_solution_velocity s' [x] = [v]) /\
    paired f (same_solution ring_strength) (rso_airplanes s) (rso_airplanes s').
Proof.
  intros HS HR W W' E.
  assert (Wi : forall a, In a (map image_airplane l) -> well_meshed_airplane a).
  { intros a Ha. apply in_map_iff in Ha. destruct Ha as (b & <- & Hb). apply image_well_meshed, W, Hb. }
  destruct (ring_mirrored solve _ _ _ _ _ s HS (flip_flow op) (images_mirrored l) W Wi E) as (t & Et & V1 & P1).
  destruct (ring_mirrored solve _ _ _ _ _ t HS (flip_flow_back op) (image_reordered _ _ _ HR) Wi W' Et) as (s' & Es & V2 & P2).
  exists s'. split; [exact Es|]. split.
  - intros x v H. apply V1, V2 in H. rewrite !across_twice in H. exact H.
  - exact (paired_compose _ _ _ _ _ _ _ _ (twice_mirrored ring_strength) P1 P2).
Qed.
