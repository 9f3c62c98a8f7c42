(** The linear system of a step, its solution and the velocities, of a problem and of its image. *)
From Coq Require Import List ZArith Lia Lra Reals Bool Permutation.
From Verif Require Import M_Unsteady S_Solve S_Vortices S_Loads S_Mirror S_Rigid
  L_Base L_Loads L_Aero L_SteadyRing L_Mirror L_MirrorHorseshoe L_MirrorRing L_Rigid L_Wake L_WakeWings L_Unsteady L_UnsteadyStep L_UnsteadyRun L_UnsteadyFlow
  S_Unsteady S_UnsteadyRun S_Image L_Pairs L_ImageGeometry L_ImagePlaces L_ImageWake.
Import ListNotations.
Local Open Scope R_scope.
Local Open Scope list_scope.

Lemma pairs_along {A B C D} f (P : nat -> A -> B -> Prop) (S : A -> C -> Prop) (T : B -> D -> Prop) l l' r r' : pairs f P l l' -> Forall2 S l r -> Forall2 T l' r' ->
  pairs f (fun k y y' => exists x x', nth_error l k = Some x /\ nth_error l' (f k) = Some x' /\ P k x x' /\ S x y /\ T x' y') r r'.
Proof.
  intros (L & Inj & H) F F'. pose proof (Forall2_length _ _ _ F) as E. pose proof (Forall2_length _ _ _ F') as E'. split; [lia|]. rewrite <- E. split; [exact Inj|].
  intros k y Hy. destruct (Forall2_nth _ _ _ F k y Hy) as (x & Hx & HS). destruct (H k x Hx) as (x' & Hx' & HP). destruct (Forall2_nth_l _ _ _ F' _ x' Hx') as (y' & Hy' & HT).
  exists y'. split; [exact Hy'|]. exists x, x'. auto.
Qed.
Lemma pairs_combine {A B C D} f (P : nat -> A -> C -> Prop) (Q : nat -> B -> D -> Prop) l m l' m' : length l = length m -> pairs f P l l' -> pairs f Q m m' ->
  pairs f (fun k x x' => P k (fst x) (fst x') /\ Q k (snd x) (snd x')) (combine l m) (combine l' m').
Proof.
  intros E HP HQ. assert (X : forall X Y (u : list X) (v : list Y), combine u v = map2 pair u v). { intros X Y u. induction u as [|x u IH]; intros [|y v]; cbn; try reflexivity. rewrite IH. reflexivity. }
  rewrite !X. revert HP HQ. apply pairs_map2; [|exact E]. auto.
Qed.
Lemma pairs_same_length {A B C D} f (P : nat -> A -> B -> Prop) (l : list A) (l' : list B) (r : list C) (r' : list D) (Q : nat -> C -> D -> Prop) : pairs f P l l' -> length r = length l -> length r' = length l' ->
  (forall k y y', nth_error r k = Some y -> nth_error r' (f k) = Some y' -> Q k y y') -> pairs f Q r r'.
Proof.
  intros HP E E' H. pose proof HP as (L & Inj & _). destruct (pairs_bound f _ _ _ HP) as [Bd _]. split; [lia|]. rewrite E. split; [exact Inj|]. intros k y Hy.
  assert (Hk : (k < length l)%nat) by (rewrite <- E; apply nth_error_Some; congruence). destruct (nth_error r' (f k)) as [y'|] eqn:Ey; [exists y'; eauto|].
  apply nth_error_None in Ey. specialize (Bd k Hk). lia.
Qed.
Lemma zeros_nth n i v : nth_error (zeros n) i = Some v -> v = vzero.
Proof. intros H. apply nth_error_In in H. exact (repeat_spec _ _ _ H). Qed.

Lemma row_corners r : ring_consistent (rr_vortex r) -> rr_back_right r = rv_back_right (rr_vortex r) /\ rr_front_right r = rv_front_right (rr_vortex r) /\
  rr_front_left r = rv_front_left (rr_vortex r) /\ rr_back_left r = rv_back_left (rr_vortex r).
Proof. intros ((A1 & A2 & _) & (B1 & B2 & _) & (C1 & C2 & _) & (D1 & D2 & _) & _). unfold rr_back_right, rr_front_right, rr_front_left, rr_back_left. auto. Qed.
Lemma dot_scales j k u v : vdot (vscale j u) (vscale k v) = j * k * vdot u v. Proof. destruct u, v; unfold vdot, vscale; cbn; ring. Qed.
Lemma dot_scale_r k u v : vdot u (vscale k v) = k * vdot u v. Proof. destruct u, v; unfold vdot, vscale; cbn; ring. Qed.
Lemma dot_scale_l k u v : vdot (vscale k u) v = k * vdot u v. Proof. destruct u, v; unfold vdot, vscale; cbn; ring. Qed.
Lemma lin_flap m (u v : vec) dt : vdiv (vopp (mvmul m (vsub u v))) dt = mvmul m (vdiv (vopp (vsub u v)) dt).
Proof. rewrite <- lin_opp, lin_divide. reflexivity. Qed.

Section Rows.
Context (mirror : bool) (m : mat) (t : vec) (HI : isometric mirror m) (f : nat -> nat) (kp : nat -> bool).
Notation mv := (moved m t).
Notation lin := (mvmul m).
Notation sg := (sense mirror).
Notation sgk := (fun i => sg (kp i)).
Definition row_rel (k : bool) (r r' : ring_row) : Prop :=
  panel_image m t k (rr_panel r) (rr_panel r') /\ ring_image m t k (rr_vortex r) (rr_vortex r') /\ rr_ref r' = mv (rr_ref r).
Notation row_pairs := (pairs f (fun i => row_rel (kp i))).
Lemma row_collocation k r r' : row_rel k r r' -> rr_collocation r' = mv (rr_collocation r).
Proof. intros (H & _). exact (image_collocation _ _ _ _ _ H). Qed.
Lemma row_normal k r r' : row_rel k r r' -> rr_normal r' = vscale (sg k) (lin (rr_normal r)).
Proof. intros (H & _). exact (proj1 (image_normal mirror m t HI _ _ _ H)). Qed.
Lemma row_quad k r r' x g nu : row_rel k r r' -> quad_velocity (mv x) (rr_back_right r') (rr_front_right r') (rr_front_left r') (rr_back_left r') g 0 nu =
  vscale (sg k) (lin (quad_velocity x (rr_back_right r) (rr_front_right r) (rr_front_left r) (rr_back_left r) g 0 nu)).
Proof.
  intros (_ & H & _). destruct (row_corners r (proj1 H)) as (-> & -> & -> & ->). destruct (row_corners r' (proj1 (proj2 H))) as (-> & -> & -> & ->).
  exact (image_quad mirror m t HI k x _ _ g 0 nu H).
Qed.
Lemma signs_ok : signs sgk. Proof. intros i. apply sense_sq. Qed.
Lemma system_matrix rows rows' nu : row_pairs rows rows' -> matrix_pairs f sgk (step_matrix rows nu) (step_matrix rows' nu).
Proof.
  intros HR. rewrite !step_matrix_explicit. unfold matrix_pairs. apply pairs_map. apply (pairs_impl f _ _ _ _ HR). intros i r r' _ _ Hr. apply pairs_map.
  apply (pairs_impl f _ _ _ _ HR). intros j q q' _ _ Hq. rewrite (row_collocation _ _ _ Hr), (row_normal _ _ _ Hr), (row_quad _ _ _ _ _ _ Hq), dot_scales, (iso_dot mirror m HI). ring.
Qed.
(** The apparent velocity of the collocation points due to their motion. *)
Lemma points_image rows rows' : row_pairs rows rows' -> pairs f (fun _ v v' => v' = mv v) (map rr_collocation rows) (map rr_collocation rows').
Proof. intros HR. apply pairs_map. apply (pairs_impl f _ _ _ _ HR). intros i r r' _ _ H. exact (row_collocation _ _ _ H). Qed.
Lemma normals_image rows rows' : row_pairs rows rows' -> pairs f (fun i v v' => v' = vscale (sg (kp i)) (lin v)) (map rr_normal rows) (map rr_normal rows').
Proof. intros HR. apply pairs_map. apply (pairs_impl f _ _ _ _ HR). intros i r r' _ _ H. exact (row_normal _ _ _ H). Qed.
Lemma flapping_image n dt (rows rows' : list ring_row) last last' : row_pairs rows rows' ->
  match n with O => True | S _ => length last = length rows /\ pairs f (fun _ v v' => v' = mv v) last last' end ->
  pairs f (fun _ u u' => u' = lin u) (flapping_velocities n dt (map rr_collocation rows) last) (flapping_velocities n dt (map rr_collocation rows') last').
Proof.
  intros HR HN. destruct n as [|n]; cbn [flapping_velocities].
  - apply (pairs_same_length f _ rows rows' _ _ _ HR); [rewrite zeros_length; apply map_length | rewrite zeros_length; apply map_length|].
    intros k y y' Hy Hy'. apply zeros_nth in Hy, Hy'. subst. symmetry. apply lin_zero.
  - destruct HN as (L & HL). eapply pairs_map2; [| | exact (points_image _ _ HR) | exact HL]; cbn beta; [|rewrite map_length; lia].
    intros k x y x' y' _ _ -> ->. rewrite moved_sub. apply lin_flap.
Qed.
Lemma freestream_image n dt rows rows' la la' op op' : flow_image mirror m op op' -> length (la_collocations la) = length rows -> row_pairs rows rows' ->
  match n with O => True | S _ => pairs f (fun _ v v' => v' = mv v) (la_collocations la) (la_collocations la') end ->
  pairs f (scaled_by sgk) (step_freestream n dt rows la op) (step_freestream n dt rows' la' op').
Proof.
  intros HF L HR HN. unfold step_freestream, unsteady_freestream_influences, freestream_influences, row_dots.
  assert (HV : pairs f (fun _ u u' => u' = lin u) (flapping_velocities n dt (map rr_collocation rows) (la_collocations la)) (flapping_velocities n dt (map rr_collocation rows') (la_collocations la'))).
  { apply flapping_image; [exact HR|]. destruct n; auto. }
  assert (LV : length (flapping_velocities n dt (map rr_collocation rows) (la_collocations la)) = length rows) by (rewrite flapping_length; rewrite ?map_length; auto).
  eapply (pairs_map2 f Rplus Rplus (scaled_by sgk) (scaled_by sgk)).
  - unfold scaled_by. intros k x y x' y' _ _ -> ->. ring.
  - rewrite map_length, map2_length, !map_length, LV. lia.
  - apply pairs_map. apply (pairs_impl f _ _ _ _ (normals_image _ _ HR)). intros i v v' _ _ ->. unfold scaled_by.
    rewrite (image_freestream mirror m HI op op' HF), dot_scale_l, (iso_dot mirror m HI). reflexivity.
  - eapply pairs_map2; [| | exact (normals_image _ _ HR) | exact HV]; [|rewrite map_length; lia]. cbn beta. intros i x y x' y' _ _ -> ->. unfold scaled_by.
    rewrite dot_scale_l, (iso_dot mirror m HI). reflexivity.
Qed.
Lemma wake_rhs_image n rows rows' rings rings' op op' : op_nu op' = op_nu op -> (forall x, rings_velocity (op_nu op) (mv x) rings' = lin (rings_velocity (op_nu op) x rings)) ->
  row_pairs rows rows' -> pairs f (scaled_by sgk) (step_wake n rows (record_of rings) op) (step_wake n rows' (record_of rings') op').
Proof.
  intros En HV HR. unfold step_wake, unsteady_wake_influences. rewrite En. destruct n as [|n].
  - apply (pairs_same_length f _ rows rows' _ _ _ HR); [apply repeat_length | apply repeat_length|].
    intros k y y' Hy Hy'. apply nth_error_In, repeat_spec in Hy, Hy'. subst. unfold scaled_by. ring.
  - unfold row_dots. rewrite !wake_velocity, !map_map, !map2_map_map. apply pairs_map. apply (pairs_impl f _ _ _ _ HR). intros i r r' _ _ H. unfold scaled_by.
    rewrite (row_collocation _ _ _ H), (row_normal _ _ _ H). specialize (HV (rr_collocation r)). unfold rings_velocity in HV. rewrite HV, dot_scale_r, (iso_dot mirror m HI). reflexivity.
Qed.
Lemma rhs_image n dt rows rows' la la' rings rings' op op' : flow_image mirror m op op' -> length (la_collocations la) = length rows ->
  (forall x, rings_velocity (op_nu op) (mv x) rings' = lin (rings_velocity (op_nu op) x rings)) -> row_pairs rows rows' ->
  match n with O => True | S _ => pairs f (fun _ v v' => v' = mv v) (la_collocations la) (la_collocations la') end ->
  pairs f (scaled_by sgk) (map2 Rminus (map Ropp (step_wake n rows (record_of rings) op)) (step_freestream n dt rows la op))
                          (map2 Rminus (map Ropp (step_wake n rows' (record_of rings') op')) (step_freestream n dt rows' la' op')).
Proof.
  intros HF L HV HR HN. eapply (pairs_map2 f Rminus Rminus (scaled_by sgk) (scaled_by sgk)); [| | apply pairs_map | exact (freestream_image _ _ _ _ _ _ _ _ HF L HR HN)].
  - unfold scaled_by. intros k x y x' y' _ _ -> ->. ring.
  - rewrite map_length, step_wake_length, step_freestream_length by exact L. reflexivity.
  - apply (pairs_impl f _ _ _ _ (wake_rhs_image n rows rows' rings rings' op op' (proj1 (proj2 (proj2 HF))) HV HR)). unfold scaled_by. intros i x x' _ _ ->. ring.
Qed.
(** The velocity at a point. *)
Lemma velocity_image rows rows' xs xs' rings rings' op op' x : flow_image mirror m op op' -> length xs = length rows -> length xs' = length rows' ->
  (forall x, rings_velocity (op_nu op) (mv x) rings' = lin (rings_velocity (op_nu op) x rings)) -> row_pairs rows rows' -> pairs f (scaled_by sgk) xs xs' ->
  velocity_at rows' xs' (record_of rings') (op_nu op') (freestream_velocity op') (mv x) = lin (velocity_at rows xs (record_of rings) (op_nu op) (freestream_velocity op) x).
Proof.
  intros HF L L' HV HR HX. unfold velocity_at, unsteady_velocity_of. rewrite !wake_velocity, !bound_velocity by assumption. rewrite (proj1 (proj2 (proj2 HF))), (image_freestream mirror m HI op op' HF).
  cbn [map add_rows map2 hd]. unfold add_rows. cbn [map2 map hd]. rewrite !lin_add. specialize (HV x). unfold rings_velocity in HV. rewrite HV. f_equal. f_equal.
  apply (pairs_vsum f); [apply lin_zero | apply lin_add|]. apply pairs_map. apply (pairs_impl f _ _ _ _ (pairs_combine f _ _ _ _ _ _ (eq_sym L) HR HX)).
  intros i [r g] [r' g'] _ _ [Hr Hg]. cbn [fst snd] in *. unfold scaled_by in Hg. subst g'. rewrite quad_sense, (row_quad _ _ _ _ _ _ Hr). apply vscale_sense_twice.
Qed.
End Rows.
