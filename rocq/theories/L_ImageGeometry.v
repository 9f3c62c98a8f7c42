(** Isometries: panels, vortices, flows and loads. *)
From Coq Require Import List Lia Lra Reals Bool.
From Verif Require Import M_Unsteady S_Geometry S_Vortices S_Loads S_Mirror S_Rigid S_Unsteady S_UnsteadyRun S_Image
  L_Base L_Rotations L_Loads L_Aero L_Horseshoe L_SteadyRing L_Frames L_Mirror L_MirrorHorseshoe L_Rigid.
Import ListNotations.
Local Open Scope R_scope.
Local Open Scope list_scope.

Lemma sense_sq b k : sense b k * sense b k = 1.
Proof. unfold sense. destruct (xorb b k); lra. Qed.
Lemma sense_cases b k : sense b k = 1 \/ sense b k = - (1).
Proof. unfold sense. destruct (xorb b k); auto. Qed.
Lemma vscale_sense_twice b k v : vscale (sense b k) (vscale (sense b k) v) = v.
Proof. destruct (sense_cases b k) as [-> | ->]; vring. Qed.
Lemma quad_odd x a b c d g age nu : quad_velocity x a b c d (- g) age nu = vopp (quad_velocity x a b c d g age nu).
Proof. unfold quad_velocity. rewrite !line_velocity_odd. generalize (line_velocity x a b g age nu) (line_velocity x b c g age nu) (line_velocity x c d g age nu) (line_velocity x d a g age nu). intros. vring. Qed.
(** Left and right interchanged. *)
Lemma quad_swap x br fr fl bl g age nu : quad_velocity x bl fl fr br g age nu = vopp (quad_velocity x br fr fl bl g age nu).
Proof.
  unfold quad_velocity. rewrite (line_velocity_reverse x fl bl), (line_velocity_reverse x fr fl), (line_velocity_reverse x br fr), (line_velocity_reverse x bl br).
  generalize (line_velocity x fl bl g age nu) (line_velocity x fr fl g age nu) (line_velocity x br fr g age nu) (line_velocity x bl br g age nu). intros. vring.
Qed.
Lemma quad_sense b k x a1 a2 a3 a4 g age nu : quad_velocity x a1 a2 a3 a4 (sense b k * g) age nu = vscale (sense b k) (quad_velocity x a1 a2 a3 a4 g age nu).
Proof.
  destruct (sense_cases b k) as [-> | ->].
  - rewrite Rmult_1_l. vring.
  - replace (- (1) * g) with (- g) by ring. rewrite quad_odd. vring.
Qed.
Lemma swap_cross (u v : vec) : vcross v u = vopp (vcross u v). Proof. vring. Qed.
Lemma opp_scale k (v : vec) : vopp (vscale k v) = vscale (- k) v. Proof. vring. Qed.
Lemma scale_scale j k (v : vec) : vscale j (vscale k v) = vscale (j * k) v. Proof. vring. Qed.
Lemma scale_one (v : vec) : vscale 1 v = v. Proof. vring. Qed.
Lemma lin_opp m v : mvmul m (vopp v) = vopp (mvmul m v). Proof. vring. Qed.
Lemma scale_opp k v : vscale k (vopp v) = vopp (vscale k v). Proof. vring. Qed.
Lemma cross_scale_l k u v : vcross (vscale k u) v = vscale k (vcross u v). Proof. vring. Qed.
Lemma cross_scale_r k u v : vcross u (vscale k v) = vscale k (vcross u v). Proof. vring. Qed.
Lemma scale_add k (u v : vec) : vscale k (vadd u v) = vadd (vscale k u) (vscale k v). Proof. vring. Qed.
Lemma sense_norm b k v : vnorm (vscale (sense b k) v) = vnorm v.
Proof. unfold vnorm. f_equal. rewrite vdot_scale_l, vdot_scale_r. rewrite <- Rmult_assoc, sense_sq. ring. Qed.
Lemma scale_div k (v : vec) c : vdiv (vscale k v) c = vscale k (vdiv v c).
Proof. unfold vdiv, vscale. apply vec_ext; cbn [vx vy vz]; unfold Rdiv; ring. Qed.

(** A corner of the image: the image of the corner, or of the one on the other side. *)
Definition pick {A} (k : bool) (x y : A) : A := if k then x else y.
Lemma panel_image_corners m t k p p' : panel_image m t k p p' ->
  p_front_left p' = moved m t (pick k (p_front_left p) (p_front_right p)) /\ p_front_right p' = moved m t (pick k (p_front_right p) (p_front_left p)) /\
  p_back_left p' = moved m t (pick k (p_back_left p) (p_back_right p)) /\ p_back_right p' = moved m t (pick k (p_back_right p) (p_back_left p)).
Proof. unfold panel_image, pick. cbn zeta. destruct k; auto. Qed.
Lemma panel_image_same m t k p p' q q' : same_panel p q -> same_panel p' q' -> panel_image m t k p p' -> panel_image m t k q q'.
Proof.
  intros (S1 & S2 & S3 & S4 & _) (S1' & S2' & S3' & S4' & _) H. unfold panel_image in *. cbn zeta in *. rewrite S1, S2, S3, S4, S1', S2', S3', S4'. exact H.
Qed.
(** Vertices in the front legs of the vortices. *)
Lemma image_vertices m t k p p' : panel_image m t k p p' ->
  p_front_left_vortex_vertex p' = moved m t (pick k (p_front_left_vortex_vertex p) (p_front_right_vortex_vertex p)) /\
  p_front_right_vortex_vertex p' = moved m t (pick k (p_front_right_vortex_vertex p) (p_front_left_vortex_vertex p)).
Proof.
  intros H. apply panel_image_corners in H. destruct H as (H1 & H2 & H3 & H4). unfold p_front_left_vortex_vertex, p_front_right_vortex_vertex, p_left_leg, p_right_leg.
  rewrite H1, H2, H3, H4. unfold pick, moved. destruct k; split; vunfold; apply vec_ext; cbn; lra.
Qed.
Lemma image_collocation m t k p p' : panel_image m t k p p' -> p_collocation_point p' = moved m t (p_collocation_point p).
Proof.
  intros H. apply panel_image_corners in H. destruct H as (H1 & H2 & H3 & H4). unfold p_collocation_point, p_left_leg, p_right_leg. cbn zeta.
  rewrite H1, H2, H3, H4. unfold pick, moved. destruct k; vunfold; apply vec_ext; cbn; lra.
Qed.

(** Rings with corners so related. *)
Definition ring_image (m : mat) (t : vec) (k : bool) (r r' : ring_vortex) : Prop :=
  ring_consistent r /\ ring_consistent r' /\
  rv_front_left r' = moved m t (pick k (rv_front_left r) (rv_front_right r)) /\ rv_front_right r' = moved m t (pick k (rv_front_right r) (rv_front_left r)) /\
  rv_back_left r' = moved m t (pick k (rv_back_left r) (rv_back_right r)) /\ rv_back_right r' = moved m t (pick k (rv_back_right r) (rv_back_left r)).
Lemma moved_centers m t x y : midpoint (moved m t x) (moved m t y) = moved m t (midpoint x y).
Proof. apply moved_midpoint. Qed.
Lemma midpoint_comm x y : midpoint y x = midpoint x y.
Proof. unfold midpoint. vunfold. apply vec_ext; cbn; lra. Qed.
(** The legs of a ring. *)
Record leg_images (m : mat) (t : vec) (k : bool) (r r' : ring_vortex) : Prop := {
  li_right : lv_center (rv_right_leg r') = moved m t (lv_center (pick k (rv_right_leg r) (rv_left_leg r)));
  li_front : lv_center (rv_front_leg r') = moved m t (lv_center (rv_front_leg r));
  li_left : lv_center (rv_left_leg r') = moved m t (lv_center (pick k (rv_left_leg r) (rv_right_leg r)));
  li_right_vector : lv_vector (rv_right_leg r') = vscale (pick k 1 (- (1))) (mvmul m (lv_vector (pick k (rv_right_leg r) (rv_left_leg r))));
  li_front_vector : lv_vector (rv_front_leg r') = vscale (pick k 1 (- (1))) (mvmul m (lv_vector (rv_front_leg r)));
  li_left_vector : lv_vector (rv_left_leg r') = vscale (pick k 1 (- (1))) (mvmul m (lv_vector (pick k (rv_left_leg r) (rv_right_leg r)))) }.
Lemma leg_is_parts l a b g : leg_is l a b g -> lv_vector l = vsub b a /\ lv_center l = midpoint a b.
Proof. intros (_ & _ & _ & H1 & H2). auto. Qed.
Lemma image_legs m t k r r' : ring_image m t k r r' -> leg_images m t k r r'.
Proof.
  intros ((A2 & A3 & _ & A1 & _) & (B2 & B3 & _ & B1 & _) & E1 & E2 & E3 & E4).
  apply leg_is_parts in A1, A2, A3, B1, B2, B3. destruct A1 as [V1 C1], A2 as [V2 C2], A3 as [V3 C3], B1 as [V1' C1'], B2 as [V2' C2'], B3 as [V3' C3'].
  constructor; rewrite ?V1', ?V2', ?V3', ?C1', ?C2', ?C3', ?E1, ?E2, ?E3, ?E4; destruct k; cbn [pick];
    rewrite ?V1, ?V2, ?V3, ?C1, ?C2, ?C3, ?moved_midpoint, ?moved_sub; try reflexivity; try (rewrite midpoint_comm; reflexivity);
    rewrite ?scale_one; try reflexivity; generalize m; intros; vring.
Qed.

Section Isometry.
Context (mirror : bool) (m : mat) (t : vec) (HI : isometric mirror m).
Notation mv := (moved m t).
Notation lin := (mvmul m).
Notation sg := (sense mirror).
Lemma iso_orthogonal : orthogonal m. Proof. exact (proj1 HI). Qed.
Lemma sense_det k : sg k = pick k (mdet m) (- mdet m).
Proof. rewrite (proj2 HI). unfold sense, pick. destruct mirror, k; cbn; lra. Qed.
Lemma det_sq : mdet m * mdet m = 1.
Proof. rewrite (proj2 HI). destruct mirror; lra. Qed.
Lemma iso_cross u v : vcross (lin u) (lin v) = vscale (mdet m) (lin (vcross u v)).
Proof. exact (orthogonal_cross m u v iso_orthogonal). Qed.
Lemma iso_norm u : vnorm (lin u) = vnorm u. Proof. exact (orthogonal_norm m u iso_orthogonal). Qed.
Lemma iso_dot u v : vdot (lin u) (lin v) = vdot u v. Proof. apply (proj1 HI). Qed.
Lemma iso_quad x a b c d g age nu : quad_velocity (mv x) (mv a) (mv b) (mv c) (mv d) g age nu = vscale (mdet m) (lin (quad_velocity x a b c d g age nu)).
Proof.
  unfold quad_velocity, moved. rewrite !(line_velocity_isometry m t _ _ _ g age nu iso_orthogonal), !mvmul_add, !scale_add. reflexivity.
Qed.
Lemma image_quad k x r r' g age nu : ring_image m t k r r' ->
  quad_velocity (mv x) (rv_back_right r') (rv_front_right r') (rv_front_left r') (rv_back_left r') g age nu =
  vscale (sg k) (lin (quad_velocity x (rv_back_right r) (rv_front_right r) (rv_front_left r) (rv_back_left r) g age nu)).
Proof.
  intros (_ & _ & -> & -> & -> & ->). rewrite iso_quad, sense_det. destruct k; cbn [pick]; [reflexivity|]. rewrite quad_swap, <- opp_scale, lin_opp, scale_opp. reflexivity.
Qed.
Lemma image_quad_strength k x r r' g age nu : ring_image m t k r r' ->
  quad_velocity (mv x) (rv_back_right r') (rv_front_right r') (rv_front_left r') (rv_back_left r') (sg k * g) age nu =
  lin (quad_velocity x (rv_back_right r) (rv_front_right r) (rv_front_left r) (rv_back_left r) g age nu).
Proof. intros H. rewrite quad_sense, (image_quad k x r r' g age nu H). apply vscale_sense_twice. Qed.

Lemma image_normal k p p' : panel_image m t k p p' -> p_unit_normal p' = vscale (sg k) (lin (p_unit_normal p)) /\ p_area p' = p_area p.
Proof.
  intros H. assert (C : p_cross p' = vscale (sg k) (lin (p_cross p))).
  { apply panel_image_corners in H. destruct H as (H1 & H2 & H3 & H4). unfold p_cross, p_first_diagonal, p_second_diagonal. rewrite H1, H2, H3, H4, !moved_sub, sense_det.
    destruct k; cbn [pick]; [apply iso_cross|]. rewrite iso_cross, swap_cross, <- opp_scale, lin_opp, scale_opp. reflexivity. }
  split.
  - unfold p_unit_normal. rewrite C, sense_norm, iso_norm, scale_div, lin_divide. reflexivity.
  - unfold p_area. rewrite C, sense_norm, iso_norm. reflexivity.
Qed.

(** ** Flows *)
Section Flows.
Context (op op' : operating_point) (HF : flow_image mirror m op op').
Lemma image_freestream : freestream_velocity op' = lin (freestream_velocity op).
Proof.
  unfold freestream_velocity, freestream_direction. destruct HF as (_ & -> & _ & H). rewrite mvmul_scale. f_equal.
  specialize (H (mvmul (rotation_wind_to_geometry op) (mkvec (-1) 0 0))). rewrite (orthogonal_trans_l _ _ (proper_orthogonal _ (w2g_proper op))) in H.
  assert (E : wind_image mirror (mkvec (-1) 0 0) = mkvec (-1) 0 0) by (unfold wind_image; destruct mirror; [|reflexivity]; unfold across; cbn [vx vy vz]; apply vec_ext; cbn; lra).
  rewrite E in H. rewrite <- H at 1. rewrite (orthogonal_trans_r _ _ (proper_orthogonal _ (w2g_proper op'))). reflexivity.
Qed.
Lemma image_pressure : dynamic_pressure op' = dynamic_pressure op.
Proof. destruct HF as (H1 & H2 & _). unfold dynamic_pressure. rewrite H1, H2. reflexivity. Qed.
Lemma image_to_wind v : mvmul (mtrans (rotation_wind_to_geometry op')) (lin v) = wind_image mirror (mvmul (mtrans (rotation_wind_to_geometry op)) v).
Proof. apply HF. Qed.
Lemma image_to_wind_moment v : mvmul (mtrans (rotation_wind_to_geometry op')) (vscale (mdet m) (lin v)) = wind_image_moment mirror (mvmul (mtrans (rotation_wind_to_geometry op)) v).
Proof.
  rewrite mvmul_scale, image_to_wind, (proj2 HI). unfold wind_image, wind_image_moment. destruct mirror; [|apply scale_one].
  generalize (mvmul (mtrans (rotation_wind_to_geometry op)) v). clear. intros u. unfold across, across_moment, vscale. apply vec_ext; cbn [vx vy vz]; lra.
Qed.
Lemma image_loads_from k p p' f n : panel_image m t k p p' -> loads_from op p -> loads_from op' p' ->
  p_force_geometry p = Some f -> p_moment_geometry p = Some n ->
  p_force_geometry p' = Some (lin f) -> p_moment_geometry p' = Some (vscale (mdet m) (lin n)) -> loads_image mirror m p p'.
Proof.
  intros Hp (p0 & f0 & n0 & Hs & ->) (p0' & f0' & n0' & Hs' & ->) E1 E2 E3 E4.
  cbn in E1, E2, E3, E4. apply Some_eq' in E1, E2, E3, E4. subst f0 n0 f0' n0'.
  assert (Hp0 : panel_image m t k p0 p0') by exact Hp. destruct (image_normal k _ _ Hp0) as [_ Ar].
  exists f, n. do 2 eexists. repeat (split; [reflexivity|]).
  cbn [loaded p_set_loads fst snd p_force_geometry p_moment_geometry p_force_wind p_moment_wind p_induced_drag_coefficient p_side_force_coefficient p_lift_coefficient].
  rewrite image_to_wind_moment, image_to_wind, image_pressure, Ar. repeat (split; [reflexivity|]).
  generalize (mvmul (mtrans (rotation_wind_to_geometry op)) f). intros u. unfold wind_image. destruct mirror; [|auto]. unfold across. cbn [vx vy vz option_map].
  split; [reflexivity|]. split; [|reflexivity]. f_equal. unfold Rdiv. ring.
Qed.
Lemma image_totals_from a a' fs ms : totals_from op a -> totals_from op' a' ->
  a_s_ref a' = a_s_ref a -> a_c_ref a' = a_c_ref a -> a_b_ref a' = a_b_ref a ->
  map p_force_geometry (airplane_panels a) = map Some fs -> map p_moment_geometry (airplane_panels a) = map Some ms ->
  (forall fs' ms', map p_force_geometry (airplane_panels a') = map Some fs' -> map p_moment_geometry (airplane_panels a') = map Some ms' ->
     vsum fs' = lin (vsum fs) /\ vsum ms' = vscale (mdet m) (lin (vsum ms))) -> totals_image mirror a a'.
Proof.
  intros (fs0 & ms0 & E1 & E2 & T1 & T2 & T3 & T4) (fs' & ms' & E1' & E2' & T1' & T2' & T3' & T4') Hs Hc Hb Ef Em H.
  assert (Inj : forall (l k : list vec), map Some l = map Some k -> l = k).
  { intros l k E. apply (f_equal (map (fun o => match o with Some x => x | None => vzero end))) in E. rewrite !map_map, !map_id in E. exact E. }
  rewrite Ef in E1. rewrite Em in E2. apply Inj in E1, E2. subst fs0 ms0. destruct (H fs' ms' E1' E2') as [X1 X2].
  rewrite X1 in *. rewrite X2 in *. rewrite image_to_wind_moment in *. rewrite image_to_wind in *. rewrite image_pressure, Hs, Hc, Hb in *.
  do 4 eexists. do 4 (split; [eassumption|]). split; [exact T1'|]. split; [exact T2'|]. rewrite T3', T4'. clear.
  generalize (mvmul (mtrans (rotation_wind_to_geometry op)) (vsum fs)) (mvmul (mtrans (rotation_wind_to_geometry op)) (vsum ms)) (dynamic_pressure op). intros u v q.
  unfold wind_image, wind_image_moment. destruct mirror; [|auto].
  split; f_equal; unfold force_coefficients, moment_coefficients, across, across_moment; cbn [vx vy vz]; apply vec_ext; cbn [vx vy vz]; unfold Rdiv; ring.
Qed.
End Flows.
(** ** Loads of one panel *)
(** The force on a leg: [net] is the strength of the leg. *)
Lemma image_leg_force k rho net u vec : vscale (rho * (sg k * net)) (vcross (lin u) (vscale (pick k 1 (- (1))) (lin vec))) = lin (vscale (rho * net) (vcross u vec)).
Proof.
  rewrite cross_scale_r, iso_cross, sense_det, mvmul_scale, !scale_scale. f_equal.
  assert (E : pick k (mdet m) (- mdet m) * (pick k 1 (- (1)) * mdet m) = 1) by (pose proof det_sq; destruct k; cbn [pick]; lra).
  transitivity (rho * net * (pick k (mdet m) (- mdet m) * (pick k 1 (- (1)) * mdet m))); [ring|]. rewrite E. ring.
Qed.
Lemma image_moment c ref f : vcross (vsub (mv c) (mv ref)) (lin f) = vscale (mdet m) (lin (vcross (vsub c ref) f)).
Proof. rewrite moved_sub. apply iso_cross. Qed.
End Isometry.
