(** Unsteady runs with everything built larger or smaller: one step. *)
From Coq Require Import List ZArith Lia Lra Bool Reals.
From Verif Require Import M_Unsteady S_Solve S_Unsteady S_UnsteadyRun S_Loads S_Solvable S_Size S_SizeUnsteady L_Base L_Loads L_Aero L_Geometry L_Horseshoe L_RigidShift L_Similar L_Size L_AgainRun L_NoLoads L_Scaling L_Snapshots L_Unsteady.
Import ListNotations.
Local Open Scope R_scope.
Local Open Scope list_scope.

Section Size.
Context (k : R) (Hk : 0 < k).

(** ** The change of scale *)
Definition bg_line (l : line_vortex) : line_vortex :=
  mkline (vscale k (lv_origin l)) (vscale k (lv_termination l)) (k * lv_strength l) (vscale k (lv_vector l)) (vscale k (lv_center l)).
Definition bg_ring (v : ring_vortex) : ring_vortex :=
  mkring (vscale k (rv_front_left v)) (vscale k (rv_front_right v)) (vscale k (rv_back_left v)) (vscale k (rv_back_right v)) (k * rv_strength v)
         (bg_line (rv_front_leg v)) (bg_line (rv_left_leg v)) (bg_line (rv_back_leg v)) (bg_line (rv_right_leg v)) (vscale k (rv_center v)) (k * rv_age v).
Definition bg_force (o : option vec) : option vec := option_map (vscale (k ^ 2)) o.
Definition bg_moment (o : option vec) : option vec := option_map (vscale (k ^ 3)) o.
Definition bg_panel (p : panel) : panel :=
  mkpanel (vscale k (p_front_right p)) (vscale k (p_front_left p)) (vscale k (p_back_left p)) (vscale k (p_back_right p))
    (p_is_leading_edge p) (p_is_trailing_edge p) (p_is_right_edge p) (p_is_left_edge p)
    (p_local_chordwise p) (p_local_spanwise p)
    (option_map bg_ring (p_ring_vortex p)) (p_horseshoe_vortex p) (bg_force (p_force_geometry p)) (bg_moment (p_moment_geometry p))
    (bg_force (p_force_wind p)) (bg_moment (p_moment_wind p)) (p_induced_drag_coefficient p)
    (p_side_force_coefficient p) (p_lift_coefficient p).
Definition bg_grid : list (list vec) -> list (list vec) := map (map (vscale k)).
Definition bg_wing (w : wing) : wing :=
  mkwing (map (enlarged_section k) (w_sections w)) (w_name w) (k * w_x_le w) (k * w_y_le w) (k * w_z_le w) (w_unit_normal w)
    (w_symmetric w) (w_unit_chordwise w) (w_num_chordwise_panels w) (w_chordwise_spacing w) (w_num_spanwise_panels w) (w_num_panels w)
    (map (map bg_panel) (w_panels w)) (bg_grid (w_wake_vertices w)) (w_wake_rings w).
Definition bg_airplane (a : airplane) : airplane :=
  mkairplane (map bg_wing (a_wings a)) (a_name a) (k * a_x_ref a) (k * a_y_ref a) (k * a_z_ref a) (a_weight a)
    (k ^ 2 * a_s_ref a) (k * a_c_ref a) (k * a_b_ref a) (a_num_panels a)
    (bg_force (a_force_wind a)) (a_force_coefficients a) (bg_moment (a_moment_wind a)) (a_moment_coefficients a).
Definition bg_step (sp : steady_problem) : steady_problem := mksteady (map bg_airplane (sp_airplanes sp)) (thicker k (sp_operating_point sp)).
Definition bg_final (l : final_loads) : final_loads :=
  mkfinal (map (vscale (k ^ 2)) (fl_forces l)) (fl_force_coefficients l) (map (vscale (k ^ 3)) (fl_moments l)) (fl_moment_coefficients l).
Definition bg_wake (w : wake_arrays) : wake_arrays :=
  mkwake (map (Rmult k) (wk_strengths w)) (map (Rmult k) (wk_ages w)) (map (vscale k) (wk_front_right w)) (map (vscale k) (wk_front_left w))
         (map (vscale k) (wk_back_left w)) (map (vscale k) (wk_back_right w)).
Definition bg_row (x : ring_row) : ring_row :=
  mkringrow (bg_panel (rr_panel x)) (vscale k (rr_ref x)) (bg_ring (rr_vortex x)) (rr_hs_back_right x) (rr_hs_front_right x) (rr_hs_front_left x) (rr_hs_back_left x).
Definition bg_last (l : last_arrays) : last_arrays :=
  mklast (map (vscale k) (la_collocations l)) (map (Rmult k) (la_strengths l)) (map (vscale k) (la_right_centers l)) (map (vscale k) (la_front_centers l)) (map (vscale k) (la_left_centers l)).
Definition bg_current (u : current_step) : current_step :=
  mkcurrent (cu_step u) (thicker k (cu_op u)) (cu_freestream u) (map bg_row (cu_rows u)) (bg_last (cu_last u)) (map (vscale k) (cu_seeds u))
            (map (map (Rmult (/ k))) (cu_wing_influences u)) (cu_freestream_influences u) (cu_wake_influences u) (map (Rmult k) (cu_strengths u)) (bg_wake (cu_wake u)).

(** ** Points *)
Lemma bg_points p : p_front_right_vortex_vertex (bg_panel p) = vscale k (p_front_right_vortex_vertex p) /\
  p_front_left_vortex_vertex (bg_panel p) = vscale k (p_front_left_vortex_vertex p) /\
  p_collocation_point (bg_panel p) = vscale k (p_collocation_point p) /\ p_unit_normal (bg_panel p) = p_unit_normal p /\ p_area (bg_panel p) = k ^ 2 * p_area p.
Proof. apply (big_points k p (bg_panel p) Hk). repeat split. Qed.
Lemma bg_collocation x : rr_collocation (bg_row x) = vscale k (rr_collocation x).
Proof. apply (bg_points (rr_panel x)). Qed.
Lemma bg_normal x : rr_normal (bg_row x) = rr_normal x.
Proof. apply (bg_points (rr_panel x)). Qed.
Lemma bg_normals rows : map rr_normal (map bg_row rows) = map rr_normal rows.
Proof. rewrite map_map. apply map_ext, bg_normal. Qed.
Lemma bg_collocations rows : map rr_collocation (map bg_row rows) = map (vscale k) (map rr_collocation rows).
Proof. rewrite !map_map. apply map_ext, bg_collocation. Qed.

(** ** Velocities *)
Lemma bg_core g age nu : core_radius (k * g) (k * age) (k * nu) = k * core_radius g age nu.
Proof.
  unfold core_radius. rewrite Rabs_mult, (Rabs_right k) by lra.
  replace (lamb * (k * nu + squire * (k * Rabs g)) * (k * age)) with (k ^ 2 * (lamb * (nu + squire * Rabs g) * age)) by ring.
  rewrite sqrt_mult_alt by nra. rewrite sqrt_pow2 by lra. ring.
Qed.
Lemma bg_line_velocity x a b g age nu : (cut_off (vscale k x) (vscale k a, vscale k b) <-> cut_off x (a, b)) ->
  line_velocity (vscale k x) (vscale k a) (vscale k b) (k * g) (k * age) (k * nu) = line_velocity x a b g age nu.
Proof.
  intros H. rewrite !cut_off_singular in H. destruct (singular x a b) eqn:E.
  - rewrite !line_velocity_singular by tauto. reflexivity.
  - destruct (singular (vscale k x) (vscale k a) (vscale k b)) eqn:E'; [assert (false = true) by tauto; discriminate|].
    rewrite !line_velocity_regular by assumption. unfold line_coefficient. rewrite !bg_core, !big_sub, !big_cross, !big_dot.
    destruct (regular_nonzero x a b E) as (N1 & N2 & N3).
    rewrite !big_norm by (try lra; nra).
    generalize dependent (vnorm (vcross (vsub a x) (vsub b x))). intros r3 N3.
    generalize dependent (vnorm (vsub a x)). intros r1 N1.
    generalize dependent (vnorm (vsub b x)). intros r2 N2.
    generalize (vdot (vsub a x) (vsub b x)) (vcross (vsub a x) (vsub b x)) (vnorm (vsub b a)) (core_radius g age nu). intros c v r0 rc.
    rewrite !vscale_scale. f_equal.
    assert (P : 0 < r3 ^ 2) by (pose proof (pow2_ge_0 r3); lra).
    assert (D : r3 ^ 2 + r0 ^ 2 * rc ^ 2 <> 0) by (pose proof (pow2_ge_0 r0); pose proof (pow2_ge_0 rc); nra).
    pose proof PI_neq0.
    replace ((k ^ 2 * r3) ^ 2 + (k * r0) ^ 2 * (k * rc) ^ 2) with (k ^ 4 * (r3 ^ 2 + r0 ^ 2 * rc ^ 2)) by ring.
    generalize dependent (r3 ^ 2 + r0 ^ 2 * rc ^ 2). intros d D. field. repeat split; try assumption; lra.
Qed.
Definition bg_segment (s : segment) : segment := mkseg (vscale k (sg_origin s)) (vscale k (sg_termination s)) (k * sg_strength s) (k * sg_age s).
Lemma bg_segments_ages o t g ages : segments (map (vscale k) o) (map (vscale k) t) (map (Rmult k) g) (Some (map (Rmult k) ages)) = map bg_segment (segments o t g (Some ages)).
Proof. unfold segments. rewrite !combine_map_map. apply map2_both. reflexivity. Qed.
Lemma bg_segments o t g : segments (map (vscale k) o) (map (vscale k) t) (map (Rmult k) g) None = map bg_segment (segments o t g None).
Proof.
  change (segments o t g None) with (segments o t g (Some (repeat 0 (length o)))). rewrite <- bg_segments_ages, repeat_map, Rmult_0_r.
  unfold segments. rewrite map_length. reflexivity.
Qed.
Lemma segments_ends o t g ages s : In s (segments o t g ages) -> In (sg_origin s, sg_termination s) (combine o t).
Proof.
  unfold segments. generalize (combine g (match ages with Some a => a | None => repeat 0 (length o) end)) (combine o t). intros l m. revert l. induction m as [|[a b] m IH]; intros [|y l]; cbn; try tauto.
  intros [<-|H]; [left; reflexivity | right; exact (IH _ H)].
Qed.
Lemma bg_collapsed_line vs points o t g ages nu : In (combine o t) vs -> (forall x, In x points -> resolved k vs x) ->
  collapsed_line (map (vscale k) points) (map bg_segment (segments o t g ages)) (k * nu) = collapsed_line points (segments o t g ages) nu.
Proof.
  intros Hv HR. unfold collapsed_line. rewrite map_map. apply map_ext_in. intros x Hx. rewrite map_map. f_equal. apply map_ext_in. intros s Hs. apply bg_line_velocity.
  exact (HR x Hx _ _ Hv (segments_ends _ _ _ _ _ Hs)).
Qed.
Definition leg_lists (br fr fl bl : list vec) : list path := [combine br fr; combine fr fl; combine fl bl; combine bl br].
Lemma bg_collapsed points br fr fl bl g nu : (forall x, In x points -> resolved k (leg_lists br fr fl bl) x) ->
  collapsed_ring (map (vscale k) points) (map (vscale k) br) (map (vscale k) fr) (map (vscale k) fl) (map (vscale k) bl) (map (Rmult k) g) None (k * nu) = collapsed_ring points br fr fl bl g None nu.
Proof.
  intros H. unfold collapsed_ring. cbn [fold_left fst snd]. rewrite !bg_segments, map_length.
  rewrite !(bg_collapsed_line (leg_lists br fr fl bl)) by (exact H || (cbn; tauto)). reflexivity.
Qed.
Lemma bg_collapsed_ages points br fr fl bl g ages nu : (forall x, In x points -> resolved k (leg_lists br fr fl bl) x) ->
  collapsed_ring (map (vscale k) points) (map (vscale k) br) (map (vscale k) fr) (map (vscale k) fl) (map (vscale k) bl) (map (Rmult k) g) (Some (map (Rmult k) ages)) (k * nu) =
  collapsed_ring points br fr fl bl g (Some ages) nu.
Proof.
  intros H. unfold collapsed_ring. cbn [fold_left fst snd]. rewrite !bg_segments_ages, map_length.
  rewrite !(bg_collapsed_line (leg_lists br fr fl bl)) by (exact H || (cbn; tauto)). reflexivity.
Qed.
Definition row_legs (rows : list ring_row) : list path := leg_lists (map rr_back_right rows) (map rr_front_right rows) (map rr_front_left rows) (map rr_back_left rows).
Lemma bg_corners rows : map rr_back_right (map bg_row rows) = map (vscale k) (map rr_back_right rows) /\ map rr_front_right (map bg_row rows) = map (vscale k) (map rr_front_right rows) /\
  map rr_front_left (map bg_row rows) = map (vscale k) (map rr_front_left rows) /\ map rr_back_left (map bg_row rows) = map (vscale k) (map rr_back_left rows).
Proof. rewrite !map_map. repeat split; apply map_ext; reflexivity. Qed.
Lemma bg_wake_velocities w nu points : (forall x, In x points -> resolved k (wake_legs w) x) ->
  wake_velocities (bg_wake w) (k * nu) (map (vscale k) points) = wake_velocities w nu points.
Proof. intros H. unfold wake_velocities. cbn [bg_wake wk_strengths wk_ages wk_back_right wk_front_right wk_front_left wk_back_left]. apply bg_collapsed_ages. exact H. Qed.
Lemma resolved_app vs ws x : resolved k (vs ++ ws) x <-> resolved k vs x /\ resolved k ws x.
Proof.
  unfold resolved. split; [intros H; split; intros v s Hv; apply H, in_or_app; auto|]. intros [H1 H2] v s Hv. apply in_app_or in Hv. destruct Hv; [apply H1 | apply H2]; assumption.
Qed.
Lemma bg_current_velocity u points : (forall x, In x points -> resolved k (row_legs (cu_rows u) ++ wake_legs (cu_wake u)) x) ->
  current_velocity (bg_current u) (map (vscale k) points) = current_velocity u points.
Proof.
  intros H. assert (H1 := fun x Hx => proj1 (proj1 (resolved_app _ _ x) (H x Hx))). assert (H2 := fun x Hx => proj2 (proj1 (resolved_app _ _ x) (H x Hx))).
  unfold current_velocity, unsteady_velocity_of. cbn [bg_current cu_rows cu_strengths cu_wake cu_op cu_freestream thicker op_nu].
  destruct (bg_corners (cu_rows u)) as (-> & -> & -> & ->). rewrite bg_collapsed by exact H1. rewrite bg_wake_velocities by exact H2. reflexivity.
Qed.
Lemma bg_zeros n : zeros n = map (vscale k) (zeros n).
Proof. unfold zeros. rewrite repeat_map. f_equal. vring. Qed.
Lemma bg_flapping step dt a b : flapping_velocities step (k * dt) (map (vscale k) a) (map (vscale k) b) = flapping_velocities step dt a b.
Proof.
  unfold flapping_velocities. destruct step; [rewrite map_length; reflexivity|].
  rewrite (map2_both (fun p q => vdiv (vopp (vsub p q)) dt) _ _ _ (fun v => v)); [apply map_id|]. intros x y.
  unfold vdiv, Rdiv. rewrite Rinv_mult. generalize (/ dt). intros. vdestruct. vunfold. apply vec_ext; cbn; field; lra.
Qed.

(** The matrix. *)
Lemma bg_line_unit x a b age nu nu' : (cut_off (vscale k x) (vscale k a, vscale k b) <-> cut_off x (a, b)) -> age = 0 ->
  line_velocity (vscale k x) (vscale k a) (vscale k b) 1 age nu' = vscale (/ k) (line_velocity x a b 1 age nu).
Proof.
  intros H ->. pose proof (big_line k x a b Hk H) as E. unfold line_velocity in *. rewrite !core_radius_age0 in *. exact E.
Qed.
Lemma unit_segments vs points o t n nu nu' : In (combine o t) vs -> (forall x, In x points -> resolved k vs x) ->
  expanded_line (map (vscale k) points) (segments (map (vscale k) o) (map (vscale k) t) (repeat 1 n) None) nu' = map (map (vscale (/ k))) (expanded_line points (segments o t (repeat 1 n) None) nu).
Proof.
  intros Hv HR. unfold expanded_line. rewrite !map_map. apply map_ext_in. intros x Hx.
  assert (HX : forall s, In s (combine o t) -> cut_off (vscale k x) (vscale k (fst s), vscale k (snd s)) <-> cut_off x s) by (intros s Hs; exact (HR x Hx _ _ Hv Hs)).
  unfold segments. rewrite map_length, combine_map_map. clear Hv HR Hx. revert HX. generalize (combine o t) (length o). intros l m HX. revert n m. induction l as [|[a b] l IH]; intros n m; [reflexivity|].
  destruct n; [reflexivity|]. destruct m; [reflexivity|]. cbn [repeat combine map map2 fst snd].
  apply (f_equal2 cons); [|apply IH; intros s Hs; apply HX; right; exact Hs].
  unfold segment_velocity. cbn [sg_origin sg_termination sg_strength sg_age]. apply bg_line_unit; [exact (HX (a, b) (or_introl eq_refl)) | reflexivity].
Qed.
Lemma scaled_grids c a b : add_grids (map (map (vscale c)) a) (map (map (vscale c)) b) = map (map (vscale c)) (add_grids a b).
Proof. unfold add_grids. apply map2_both. intros x y. unfold add_rows. apply map2_both. intros. vring. Qed.
Lemma scaled_zeros2 c n m : zeros2 n m = map (map (vscale c)) (zeros2 n m).
Proof. unfold zeros2, zeros. rewrite repeat_map, repeat_map. f_equal. f_equal. vring. Qed.
Lemma bg_influences rows n nu nu' : (forall x, In x (map rr_collocation rows) -> resolved k (row_legs rows) x) ->
  unsteady_wing_influences (map bg_row rows) (repeat 1 n) nu' = map (map (Rmult (/ k))) (unsteady_wing_influences rows (repeat 1 n) nu).
Proof.
  intros H. unfold unsteady_wing_influences. rewrite bg_normals, bg_collocations. destruct (bg_corners rows) as (-> & -> & -> & ->).
  unfold expanded_ring. cbn [fold_left fst snd]. rewrite !(unit_segments (row_legs rows) _ _ _ n nu nu') by (exact H || (cbn; tauto)). rewrite map_length, !repeat_length.
  rewrite (scaled_zeros2 (/ k)) at 1. rewrite !scaled_grids. unfold normal_components.
  rewrite <- (map_id (map rr_normal rows)) at 1. apply map2_both. intros row m. rewrite !map_map. apply map_ext. intros v. apply vdot_scale_l.
Qed.

(** ** Putting vortices on the wings *)
Lemma bg_centroid a b c d : centroid_of_quadrilateral (vscale k a) (vscale k b) (vscale k c) (vscale k d) = vscale k (centroid_of_quadrilateral a b c d).
Proof. unfold centroid_of_quadrilateral. apply vec_ext; cbn; field. Qed.
Lemma bg_new_line o t g : new_line_vortex (vscale k o) (vscale k t) (k * g) = bg_line (new_line_vortex o t g).
Proof. unfold new_line_vortex, bg_line. cbn zeta. cbn [lv_origin lv_termination lv_strength lv_vector lv_center]. rewrite big_sub. f_equal. vring. Qed.
Lemma bg_new_ring fl fr bl br g : new_ring (vscale k fl) (vscale k fr) (vscale k bl) (vscale k br) (k * g) = bg_ring (new_ring fl fr bl br g).
Proof.
  unfold new_ring, bg_ring. cbn [rv_front_left rv_front_right rv_back_left rv_back_right rv_strength rv_front_leg rv_left_leg rv_back_leg rv_right_leg rv_center rv_age].
  rewrite <- !bg_new_line, bg_centroid. f_equal. ring.
Qed.
Lemma bg_blank_ring fl fr bl br : new_ring (vscale k fl) (vscale k fr) (vscale k bl) (vscale k br) 0 = bg_ring (new_ring fl fr bl br 0).
Proof. rewrite <- bg_new_ring. f_equal. ring. Qed.
Lemma larger_points p : p_front_right_vortex_vertex (larger_panel k p) = vscale k (p_front_right_vortex_vertex p) /\
  p_front_left_vortex_vertex (larger_panel k p) = vscale k (p_front_left_vortex_vertex p).
Proof. destruct (big_points k p (larger_panel k p) Hk) as (A & B & _); [repeat split | split; assumption]. Qed.
Lemma bg_unloaded p v : panel_without_loads p -> p_set_ring (Some (bg_ring v)) (larger_panel k p) = bg_panel (p_set_ring (Some v) p).
Proof. intros (U1 & U2 & U3 & U4 & _). unfold bg_panel, p_set_ring, larger_panel. cbn. rewrite U1, U2, U3, U4. reflexivity. Qed.
Lemma larger_panel_at m i j : panel_at (map (map (larger_panel k)) m) i j = result_map (larger_panel k) (panel_at m i j).
Proof. unfold panel_at. rewrite index_map, bind_result_map, result_map_bind. apply bind_ext; intros row. apply index_map. Qed.
Lemma bg_init_panel drift m i j p : panel_without_loads p ->
  unsteady_init_panel 0 (vscale k drift) (map (map (larger_panel k)) m) i j (larger_panel k p) = result_map bg_panel (unsteady_init_panel 0 drift m i j p).
Proof.
  intros U. unfold unsteady_init_panel. cbn zeta. destruct (larger_points p) as [-> ->]. change (p_is_trailing_edge (larger_panel k p)) with (p_is_trailing_edge p). destruct (p_is_trailing_edge p) eqn:Et.
  - cbn [result_map]. f_equal. rewrite <- bg_unloaded by exact U. f_equal. f_equal. rewrite <- bg_blank_ring.
    cbn [larger_panel p_back_left p_front_left p_back_right p_front_right]. rewrite !big_sub, !big_add. reflexivity.
  - rewrite larger_panel_at, bind_result_map, result_map_bind. apply bind_ext; intros nx. cbn [result_map]. f_equal. rewrite <- bg_unloaded by exact U.
    destruct (larger_points nx) as [-> ->]. rewrite bg_blank_ring. reflexivity.
Qed.
Lemma mapM_both_in {A A' B B'} (f : A -> result B) (f' : A' -> result B') (h : A -> A') (g : B -> B') l : (forall x, In x l -> f' (h x) = result_map g (f x)) -> mapM f' (map h l) = result_map (map g) (mapM f l).
Proof.
  induction l as [|x l IH]; intros H; cbn [map mapM]; [reflexivity|]. rewrite H by (left; reflexivity). rewrite bind_result_map, result_map_bind. apply bind_ext; intros y.
  rewrite IH by (intros z Hz; apply H; right; exact Hz). rewrite bind_result_map, result_map_bind. apply bind_ext; intros z. reflexivity.
Qed.
Lemma mapiM_both_in {A A' B B'} (f : nat -> A -> result B) (f' : nat -> A' -> result B') (h : A -> A') (g : B -> B') l : (forall i x, In x l -> f' i (h x) = result_map g (f i x)) -> mapiM f' (map h l) = result_map (map g) (mapiM f l).
Proof.
  intros H. unfold mapiM. rewrite map_length.
  replace (combine (seq 0 (length l)) (map h l)) with (map (fun x : nat * A => (fst x, h (snd x))) (combine (seq 0 (length l)) l)) by (rewrite <- (map_id (seq 0 (length l))) at 2; rewrite combine_map_map; reflexivity).
  apply mapM_both_in. intros [i x] Hx. cbn [fst snd]. apply H. apply in_combine_r in Hx. exact Hx.
Qed.
Lemma bg_init_airplane drift a : airplane_without_loads a -> unsteady_init_airplane 0 (vscale k drift) (larger_airplane k a) = result_map bg_airplane (unsteady_init_airplane 0 drift a).
Proof.
  intros (U1 & _ & U2 & _ & U). unfold unsteady_init_airplane. change (a_wings (larger_airplane k a)) with (map (larger_wing k) (a_wings a)).
  rewrite (mapM_both_in (unsteady_init_wing 0 drift) _ _ bg_wing).
  - rewrite bind_result_map, result_map_bind. apply bind_ext; intros ws. cbn [result_map]. unfold bg_airplane, a_set_wings, larger_airplane. cbn. rewrite U1, U2. reflexivity.
  - intros w Hw. unfold unsteady_init_wing. cbn zeta. change (w_panels (larger_wing k w)) with (map (map (larger_panel k)) (w_panels w)).
    rewrite (mapiM_both_in (fun i row => mapiM (fun j p => unsteady_init_panel 0 drift (w_panels w) i j p) row) _ _ (map bg_panel)).
    + rewrite bind_result_map, result_map_bind. apply bind_ext; intros m. reflexivity.
    + intros i row Hrow. apply mapiM_both_in. intros j p Hp. apply bg_init_panel. exact (U w row p Hw Hrow Hp).
Qed.
Lemma bg_init_step dt sp : Forall airplane_without_loads (sp_airplanes sp) ->
  unsteady_init_step 0 (k * dt) (mksteady (map (larger_airplane k) (sp_airplanes sp)) (thicker k (sp_operating_point sp))) = result_map bg_step (unsteady_init_step 0 dt sp).
Proof.
  intros U. unfold unsteady_init_step. cbn [sp_airplanes sp_operating_point]. rewrite Forall_forall in U. cbn zeta.
  change (freestream_velocity (thicker k (sp_operating_point sp))) with (freestream_velocity (sp_operating_point sp)).
  replace (vscale (25 / 100) (vscale (k * dt) (freestream_velocity (sp_operating_point sp)))) with (vscale k (vscale (25 / 100) (vscale dt (freestream_velocity (sp_operating_point sp))))) by (rewrite !vscale_scale; f_equal; ring).
  rewrite (mapM_both_in (unsteady_init_airplane 0 (vscale (25 / 100) (vscale dt (freestream_velocity (sp_operating_point sp))))) _ _ bg_airplane) by (intros a Ha; apply bg_init_airplane, U, Ha).
  rewrite bind_result_map, result_map_bind. apply bind_ext. reflexivity.
Qed.

(** ** Collapsing *)
Lemma bg_flat airplanes : flat_panels (map bg_airplane airplanes) = map (fun x => (bg_airplane (fst (fst x)), bg_wing (snd (fst x)), bg_panel (snd x))) (flat_panels airplanes).
Proof.
  unfold flat_panels. rewrite concat_map, !map_map. f_equal. apply map_ext. intros a. rewrite concat_map. change (a_wings (bg_airplane a)) with (map bg_wing (a_wings a)). rewrite !map_map. f_equal. apply map_ext. intros w.
  change (w_panels (bg_wing w)) with (map (map bg_panel) (w_panels w)). unfold ravel. rewrite <- concat_map, !map_map. reflexivity.
Qed.
Lemma bg_ref a : a_xyz_ref (bg_airplane a) = vscale k (a_xyz_ref a).
Proof. reflexivity. Qed.
Lemma bg_collapse airplanes : unsteady_collapse (map bg_airplane airplanes) = result_map (map bg_row) (unsteady_collapse airplanes).
Proof.
  unfold unsteady_collapse. rewrite bg_flat. apply mapM_both. intros [[a w] p]. cbn [fst snd]. unfold unsteady_make_row. change (p_ring_vortex (bg_panel p)) with (option_map bg_ring (p_ring_vortex p)). destruct (p_ring_vortex p); reflexivity.
Qed.
Lemma bg_wake_references airplanes : wake_references (map bg_airplane airplanes) = wake_references airplanes.
Proof.
  unfold wake_references. rewrite map_map. f_equal. apply map_ext. intros a. change (a_wings (bg_airplane a)) with (map bg_wing (a_wings a)). rewrite map_map. reflexivity.
Qed.
Lemma bg_collapse_wake heap airplanes w : collapse_wake (map bg_ring heap) (map bg_airplane airplanes) (bg_wake w) = result_map bg_wake (collapse_wake heap airplanes w).
Proof.
  unfold collapse_wake. rewrite bg_wake_references. rewrite (mapM_commute (index heap) (index (map bg_ring heap)) bg_ring) by (intros i _; apply index_map).
  rewrite bind_result_map, result_map_bind. apply bind_ext; intros rings. cbn [bg_wake wk_strengths wk_ages wk_front_right wk_front_left wk_back_left wk_back_right].
  rewrite !map_map. change (map (fun x => rv_strength (bg_ring x)) rings) with (map (fun x => k * rv_strength x) rings). change (map (fun x => rv_age (bg_ring x)) rings) with (map (fun x => k * rv_age x) rings).
  change (map (fun x => rv_front_right (bg_ring x)) rings) with (map (fun x => vscale k (rv_front_right x)) rings). change (map (fun x => rv_front_left (bg_ring x)) rings) with (map (fun x => vscale k (rv_front_left x)) rings).
  change (map (fun x => rv_back_right (bg_ring x)) rings) with (map (fun x => vscale k (rv_back_right x)) rings). change (map (fun x => rv_back_left (bg_ring x)) rings) with (map (fun x => vscale k (rv_back_left x)) rings).
  rewrite <- (map_map rv_strength (Rmult k)), overwrite_map, bind_result_map, result_map_bind. apply bind_ext; intros x1.
  rewrite <- (map_map rv_age (Rmult k)), overwrite_map, bind_result_map, result_map_bind. apply bind_ext; intros x2.
  rewrite <- (map_map rv_front_right (vscale k)), overwrite_map, bind_result_map, result_map_bind. apply bind_ext; intros x3.
  rewrite <- (map_map rv_front_left (vscale k)), overwrite_map, bind_result_map, result_map_bind. apply bind_ext; intros x4.
  rewrite <- (map_map rv_back_left (vscale k)), overwrite_map, bind_result_map, result_map_bind. apply bind_ext; intros x5.
  rewrite <- (map_map rv_back_right (vscale k)), overwrite_map, bind_result_map, result_map_bind. apply bind_ext; intros x6. reflexivity.
Qed.
Lemma bg_nothing n : repeat 0 n = map (Rmult k) (repeat 0 n).
Proof. rewrite repeat_map, Rmult_0_r. reflexivity. Qed.
Lemma bg_last_arrays n step steps : last_step_arrays n step (map bg_step steps) = result_map bg_last (last_step_arrays n step steps).
Proof.
  unfold last_step_arrays. destruct step as [|i].
  - cbn [result_map]. unfold bg_last. cbn [la_strengths la_collocations la_right_centers la_front_centers la_left_centers]. rewrite <- bg_nothing, <- bg_zeros. reflexivity.
  - rewrite index_map, bind_result_map, result_map_bind. apply bind_ext; intros sp. change (sp_airplanes (bg_step sp)) with (map bg_airplane (sp_airplanes sp)).
    rewrite bg_collapse, bind_result_map, result_map_bind. apply bind_ext; intros rows. rewrite bg_collocations, !map_map.
    change (map (fun x => rv_strength (rr_vortex (bg_row x))) rows) with (map (fun x => k * rv_strength (rr_vortex x)) rows). rewrite <- (map_map (fun x => rv_strength (rr_vortex x)) (Rmult k)).
    change (map (fun x => rr_right_center (bg_row x)) rows) with (map (fun x => vscale k (rr_right_center x)) rows). rewrite <- (map_map rr_right_center (vscale k)).
    change (map (fun x => rr_front_center (bg_row x)) rows) with (map (fun x => vscale k (rr_front_center x)) rows). rewrite <- (map_map rr_front_center (vscale k)).
    change (map (fun x => rr_left_center (bg_row x)) rows) with (map (fun x => vscale k (rr_left_center x)) rows). rewrite <- (map_map rr_left_center (vscale k)).
    rewrite <- (map_map rr_collocation (vscale k)).
    do 5 (lazymatch goal with |- bind (overwrite (zeros n) _) _ = _ => rewrite (bg_zeros n) at 1 | _ => rewrite (bg_nothing n) at 1 end;
          rewrite overwrite_map, bind_result_map, result_map_bind; apply bind_ext; intros ?). reflexivity.
Qed.

(** ** The right hand side *)
Lemma bg_freestream_influences step dt rows la v : unsteady_freestream_influences step (k * dt) (map bg_row rows) (bg_last la) v = unsteady_freestream_influences step dt rows la v.
Proof. unfold unsteady_freestream_influences. rewrite bg_normals, bg_collocations. cbn [bg_last la_collocations]. rewrite bg_flapping. reflexivity. Qed.
Lemma bg_wake_influences step n rows w nu : (forall x, In x (map rr_collocation rows) -> resolved k (wake_legs w) x) ->
  unsteady_wake_influences step n (map bg_row rows) (bg_wake w) (k * nu) = unsteady_wake_influences step n rows w nu.
Proof. intros H. unfold unsteady_wake_influences. destruct step; [reflexivity|]. rewrite bg_normals, bg_collocations, bg_wake_velocities by exact H. reflexivity. Qed.

(** ** Walks over the panels *)
Lemma bg_update {B B'} (g : panel -> B -> result panel) (g' : panel -> B' -> result panel) (h : B -> B') airplanes bs :
  (forall p b, g' (bg_panel p) (h b) = result_map bg_panel (g p b)) ->
  update_panels g' (map bg_airplane airplanes) (map h bs) = result_map (map bg_airplane) (update_panels g airplanes bs).
Proof.
  intros H. unfold update_panels. rewrite (sc_consume (consume_airplane g) (consume_airplane g') bg_airplane h bg_airplane).
  - rewrite bind_result_map, result_map_bind. apply bind_ext. reflexivity.
  - intros a xs. unfold consume_airplane. change (a_wings (bg_airplane a)) with (map bg_wing (a_wings a)). rewrite (sc_consume (consume_wing g) (consume_wing g') bg_wing h bg_wing).
    + rewrite bind_result_map, result_map_bind. apply bind_ext. reflexivity.
    + intros w ys. unfold consume_wing. change (w_panels (bg_wing w)) with (map (map bg_panel) (w_panels w)). rewrite (sc_consume (consume (consume_panel g)) (consume (consume_panel g')) (map bg_panel) h (map bg_panel)).
      * rewrite bind_result_map, result_map_bind. apply bind_ext. reflexivity.
      * intros row zs. apply sc_consume. intros p ts. unfold consume_panel. destruct ts as [|t ts]; [reflexivity|]. cbn [map]. rewrite H, bind_result_map, result_map_bind. apply bind_ext. reflexivity.
Qed.
Lemma bg_set_strength p g : unsteady_set_strength (bg_panel p) (k * g) = result_map bg_panel (unsteady_set_strength p g).
Proof. unfold unsteady_set_strength. change (p_ring_vortex (bg_panel p)) with (option_map bg_ring (p_ring_vortex p)). destruct (p_ring_vortex p); reflexivity. Qed.

(** ** Loads *)
Lemma bg_panel_at m i j : panel_at (map (map bg_panel) m) i j = result_map bg_panel (panel_at m i j).
Proof. unfold panel_at. rewrite index_map, bind_result_map, result_map_bind. apply bind_ext; intros row. apply index_map. Qed.
Lemma bg_strength_at m i j : ring_strength_at (map (map bg_panel) m) i j = result_map (Rmult k) (ring_strength_at m i j).
Proof.
  unfold ring_strength_at. rewrite bg_panel_at, bind_result_map, result_map_bind. apply bind_ext; intros p. change (p_ring_vortex (bg_panel p)) with (option_map bg_ring (p_ring_vortex p)). destruct (p_ring_vortex p); reflexivity.
Qed.
Definition bg_three (g : R * R * R) : R * R * R := (k * fst (fst g), k * snd (fst g), k * snd g).
Lemma bg_effective a w p g : effective_strengths ((bg_airplane a, bg_wing w, bg_panel p), k * g) = result_map bg_three (effective_strengths ((a, w, p), g)).
Proof.
  assert (X : forall x, k * g - k * x = k * (g - x)) by (intros; ring).
  unfold effective_strengths. cbn zeta. change (w_panels (bg_wing w)) with (map (map bg_panel) (w_panels w)).
  change (p_is_right_edge (bg_panel p)) with (p_is_right_edge p). change (p_is_leading_edge (bg_panel p)) with (p_is_leading_edge p). change (p_is_left_edge (bg_panel p)) with (p_is_left_edge p).
  change (p_local_chordwise (bg_panel p)) with (p_local_chordwise p). change (p_local_spanwise (bg_panel p)) with (p_local_spanwise p). rewrite map_length.
  assert (S1 : forall (b : bool) (c c' : result R), c' = result_map (Rmult k) c -> (if b then Ok (k * g) else c') = result_map (Rmult k) (if b then Ok g else c)) by (intros [] c c' H; [reflexivity | exact H]).
  rewrite (S1 _ (let* i := position_of (p_local_chordwise p) in let* j := position_of (p_local_spanwise p) in let* n := ring_strength_at (w_panels w) i (S j) in Ok (g - n))).
  2: { do 2 (rewrite result_map_bind; apply bind_ext; intros ?). rewrite bg_strength_at, bind_result_map, result_map_bind. apply bind_ext; intros y. cbn [result_map]. rewrite X. reflexivity. }
  rewrite bind_result_map, result_map_bind. apply bind_ext; intros g1.
  rewrite (S1 _ (let* i := position_of (p_local_chordwise p) in let* j := position_of (p_local_spanwise p) in let* n := ring_strength_at (w_panels w) (py_pred i (length (w_panels w))) j in Ok (g - n))).
  2: { do 2 (rewrite result_map_bind; apply bind_ext; intros ?). rewrite bg_strength_at, bind_result_map, result_map_bind. apply bind_ext; intros y. cbn [result_map]. rewrite X. reflexivity. }
  rewrite bind_result_map, result_map_bind. apply bind_ext; intros g2.
  rewrite (S1 _ (let* i := position_of (p_local_chordwise p) in let* j := position_of (p_local_spanwise p) in let* row := index (w_panels w) i in let* n := ring_strength_at (w_panels w) i (py_pred j (length row)) in Ok (g - n))).
  2: { do 2 (rewrite result_map_bind; apply bind_ext; intros ?). rewrite index_map, bind_result_map, result_map_bind. apply bind_ext; intros row. rewrite map_length, bg_strength_at, bind_result_map, result_map_bind. apply bind_ext; intros y. cbn [result_map]. rewrite X. reflexivity. }
  rewrite bind_result_map, result_map_bind. apply bind_ext; intros g3. reflexivity.
Qed.
Definition bg_pair (l : vec * vec) : vec * vec := (vscale (k ^ 2) (fst l), vscale (k ^ 3) (snd l)).
Lemma bg_leg density g v l : leg_force density (k * g) v (vscale k l) = vscale (k ^ 2) (leg_force density g v l).
Proof. unfold leg_force. vring. Qed.
Lemma bg_ring_loads density x g v1 v2 v3 : ring_panel_loads density (bg_row x) (bg_three g) v1 v2 v3 = bg_pair (ring_panel_loads density x g v1 v2 v3).
Proof.
  destruct g as [[g1 g2] g3]. unfold ring_panel_loads, bg_three, bg_pair. cbn [fst snd].
  change (rr_right_vector (bg_row x)) with (vscale k (rr_right_vector x)). change (rr_front_vector (bg_row x)) with (vscale k (rr_front_vector x)). change (rr_left_vector (bg_row x)) with (vscale k (rr_left_vector x)).
  change (rr_right_center (bg_row x)) with (vscale k (rr_right_center x)). change (rr_front_center (bg_row x)) with (vscale k (rr_front_center x)). change (rr_left_center (bg_row x)) with (vscale k (rr_left_center x)). change (rr_ref (bg_row x)) with (vscale k (rr_ref x)).
  rewrite !bg_leg, !big_sub.
  generalize (leg_force density g1 v1 (rr_right_vector x)) (leg_force density g2 v2 (rr_front_vector x)) (leg_force density g3 v3 (rr_left_vector x)) (vsub (rr_front_center x) (rr_ref x)) (vsub (rr_left_center x) (rr_ref x)) (vsub (rr_right_center x) (rr_ref x)).
  intros. f_equal; vring.
Qed.
Lemma bg_panel_loads density dt x g l : unsteady_panel_loads density (k * dt) (bg_row x) (k * g) (bg_pair l) = bg_pair (unsteady_panel_loads density dt x g l).
Proof.
  unfold unsteady_panel_loads. cbn zeta. rewrite bg_normal, bg_collocation. change (rr_ref (bg_row x)) with (vscale k (rr_ref x)). change (rr_panel (bg_row x)) with (bg_panel (rr_panel x)). destruct (bg_points (rr_panel x)) as (_ & _ & _ & _ & ->).
  assert (E : vdiv (vscale (density * (k * g) * (k ^ 2 * p_area (rr_panel x))) (rr_normal x)) (k * dt) = vscale (k ^ 2) (vdiv (vscale (density * g * p_area (rr_panel x)) (rr_normal x)) dt)).
  { generalize (rr_normal x) (p_area (rr_panel x)). intros n a. unfold vdiv, Rdiv. rewrite Rinv_mult. generalize (/ dt). intros d. vdestruct. vunfold. apply vec_ext; cbn; field; lra. }
  rewrite E, big_sub. destruct l as [l1 l2]. unfold bg_pair. cbn [fst snd]. generalize (vdiv (vscale (density * g * p_area (rr_panel x)) (rr_normal x)) dt) (vsub (rr_collocation x) (rr_ref x)). intros. f_equal; vring.
Qed.
Lemma bg_loads density dt step velocity velocity' airplanes rows la g :
  (forall x, In x [rr_right_center; rr_front_center; rr_left_center] -> velocity' (map (vscale k) (map x rows)) = velocity (map x rows)) ->
  unsteady_loads density (k * dt) step velocity' (map bg_airplane airplanes) (map bg_row rows) (bg_last la) (map (Rmult k) g) =
  result_map (map bg_pair) (unsteady_loads density dt step velocity airplanes rows la g).
Proof.
  intros HV. unfold unsteady_loads. rewrite bg_flat, combine_map_map.
  rewrite (mapM_both effective_strengths effective_strengths (fun x => (bg_airplane (fst (fst (fst x))), bg_wing (snd (fst (fst x))), bg_panel (snd (fst x)), k * snd x)) bg_three).
  2: { intros [[[a w] p] x]. cbn [fst snd]. apply bg_effective. }
  rewrite bind_result_map, result_map_bind. apply bind_ext; intros e. cbn [result_map]. f_equal. cbn zeta. cbn [bg_last la_strengths la_front_centers la_left_centers la_right_centers].
  replace (map rr_front_center (map bg_row rows)) with (map (vscale k) (map rr_front_center rows)) by (rewrite !map_map; reflexivity).
  replace (map rr_left_center (map bg_row rows)) with (map (vscale k) (map rr_left_center rows)) by (rewrite !map_map; reflexivity).
  replace (map rr_right_center (map bg_row rows)) with (map (vscale k) (map rr_right_center rows)) by (rewrite !map_map; reflexivity).
  rewrite !bg_flapping. rewrite (HV rr_front_center), (HV rr_left_center), (HV rr_right_center) by (cbn; tauto).
  rewrite combine_map_map.
  rewrite (map2_both Rminus Rminus (Rmult k) (Rmult k) (Rmult k)) by (intros; ring). rewrite combine_map_map.
  rewrite <- (map_id (combine (combine _ _) _)) at 1.
  erewrite (map2_both (fun re vs => ring_panel_loads density (fst re) (snd re) (fst (fst vs)) (snd (fst vs)) (snd vs)) _ _ _ bg_pair).
  2: { intros [x g'] [[v1 v2] v3]. cbn [fst snd]. apply bg_ring_loads. }
  apply map2_both. intros [x g'] l. cbn [fst snd]. apply bg_panel_loads.
Qed.
Lemma bg_over x a q : k ^ 2 * x / (k ^ 2 * a) / q = x / a / q.
Proof. unfold Rdiv. rewrite Rinv_mult. generalize (/ a) (/ q). intros. field. lra. Qed.
Lemma bg_set_loads f m fw mw q p : p_set_loads (vscale (k ^ 2) f) (vscale (k ^ 3) m) (vscale (k ^ 2) fw) (vscale (k ^ 3) mw) q (bg_panel p) = bg_panel (p_set_loads f m fw mw q p).
Proof.
  unfold p_set_loads. destruct (bg_points p) as (_ & _ & _ & _ & ->). unfold bg_panel.
  cbn [vscale vx vy vz p_front_right p_front_left p_back_left p_back_right p_is_leading_edge p_is_trailing_edge p_is_right_edge p_is_left_edge p_local_chordwise p_local_spanwise p_ring_vortex p_horseshoe_vortex p_force_geometry p_moment_geometry p_force_wind p_moment_wind p_induced_drag_coefficient p_side_force_coefficient p_lift_coefficient].
  rewrite !Ropp_mult_distr_r. rewrite !bg_over. reflexivity.
Qed.
Lemma bg_coefficients f q s : force_coefficients (vscale (k ^ 2) f) q (k ^ 2 * s) = force_coefficients f q s.
Proof.
  assert (X : forall x a, k ^ 2 * x / q / (k ^ 2 * a) = x / q / a) by (intros x a; unfold Rdiv; rewrite Rinv_mult; generalize (/ a) (/ q); intros; field; lra).
  unfold force_coefficients. cbn [vscale vx vy vz]. rewrite !Ropp_mult_distr_r, !X. reflexivity.
Qed.
Lemma bg_moment_coefficients f q s b ch : moment_coefficients (vscale (k ^ 3) f) q (k ^ 2 * s) (k * b) (k * ch) = moment_coefficients f q s b ch.
Proof.
  assert (X : forall x a b, k ^ 3 * x / q / (k ^ 2 * a) / (k * b) = x / q / a / b) by (intros x a b'; unfold Rdiv; rewrite !Rinv_mult; generalize (/ a) (/ q) (/ b'); intros; field; lra).
  unfold moment_coefficients. cbn [vscale vx vy vz]. rewrite !X. reflexivity.
Qed.
Lemma bg_airplane_panels a : airplane_panels (bg_airplane a) = map bg_panel (airplane_panels a).
Proof.
  unfold airplane_panels. change (a_wings (bg_airplane a)) with (map bg_wing (a_wings a)). rewrite concat_map, !map_map. f_equal. apply map_ext. intros w. unfold ravel. rewrite concat_map. reflexivity.
Qed.
Lemma bg_totals rotation q a : airplane_totals rotation q (bg_airplane a) = result_map bg_airplane (airplane_totals rotation q a).
Proof.
  unfold airplane_totals. rewrite bg_airplane_panels.
  rewrite (mapM_both force_of force_of bg_panel (vscale (k ^ 2))) by (intros p; unfold force_of; change (p_force_geometry (bg_panel p)) with (bg_force (p_force_geometry p)); destruct (p_force_geometry p); reflexivity).
  rewrite (mapM_both moment_of moment_of bg_panel (vscale (k ^ 3))) by (intros p; unfold moment_of; change (p_moment_geometry (bg_panel p)) with (bg_moment (p_moment_geometry p)); destruct (p_moment_geometry p); reflexivity).
  rewrite bind_result_map, result_map_bind. apply bind_ext; intros fs. rewrite bind_result_map, result_map_bind. apply bind_ext; intros ms. cbn zeta.
  cbn [bg_airplane a_s_ref a_b_ref a_c_ref]. rewrite !vsum_scale, !mvmul_scale, bg_coefficients, bg_moment_coefficients. reflexivity.
Qed.
Lemma bg_process op loads airplanes :
  process_forces (thicker k op) (map fst (map bg_pair loads)) (map snd (map bg_pair loads)) (map bg_airplane airplanes) = result_map (map bg_airplane) (process_forces op (map fst loads) (map snd loads) airplanes).
Proof.
  unfold process_forces. cbn zeta. change (dynamic_pressure (thicker k op)) with (dynamic_pressure op). change (rotation_wind_to_geometry (thicker k op)) with (rotation_wind_to_geometry op). set (M := mtrans (rotation_wind_to_geometry op)).
  assert (X : combine (map fst (map bg_pair loads)) (map snd (map bg_pair loads)) = map bg_pair (combine (map fst loads) (map snd loads))) by (clear; induction loads; cbn [map combine]; [reflexivity | rewrite <- IHloads; reflexivity]).
  rewrite X. rewrite (bg_update (fun p fm => Ok (p_set_loads (fst fm) (snd fm) (mvmul M (fst fm)) (mvmul M (snd fm)) (dynamic_pressure op) p))).
  - rewrite bind_result_map, result_map_bind. apply bind_ext; intros l. apply mapM_both. intros a. apply bg_totals.
  - intros p [f m]. cbn [bg_pair fst snd result_map]. rewrite !mvmul_scale, bg_set_loads. reflexivity.
Qed.

(** ** Shedding *)
Lemma bg_back_vertex side m i j : (forall v, side (bg_ring v) = vscale k (side v)) -> back_vertex side (map (map bg_panel) m) i j = result_map (vscale k) (back_vertex side m i j).
Proof.
  intros H. unfold back_vertex. rewrite bg_panel_at, bind_result_map, result_map_bind. apply bind_ext; intros p. change (p_ring_vortex (bg_panel p)) with (option_map bg_ring (p_ring_vortex p)). destruct (p_ring_vortex p); cbn [option_map]; [rewrite H|]; reflexivity.
Qed.
Lemma bg_trailing_row t n : trailing_edge_row (bg_wing t) (bg_wing n) = result_map (map (vscale k)) (trailing_edge_row t n).
Proof.
  unfold trailing_edge_row. cbn zeta. change (w_num_chordwise_panels (bg_wing t)) with (w_num_chordwise_panels t). change (w_num_spanwise_panels (bg_wing t)) with (w_num_spanwise_panels t). change (w_panels (bg_wing n)) with (map (map bg_panel) (w_panels n)).
  rewrite (mapM_commute (back_vertex rv_back_left (w_panels n) (w_num_chordwise_panels t - 1)) (back_vertex rv_back_left (map (map bg_panel) (w_panels n)) (w_num_chordwise_panels t - 1)) (vscale k)) by (intros j _; apply bg_back_vertex; reflexivity).
  rewrite bind_result_map, result_map_bind. apply bind_ext; intros l. destruct (w_num_spanwise_panels t) as [|m].
  - cbn [bind result_map]. rewrite map_app. cbn [map]. do 3 f_equal. vring.
  - rewrite bg_back_vertex by reflexivity. rewrite bind_result_map, result_map_bind. apply bind_ext; intros v. cbn [result_map]. rewrite map_app. reflexivity.
Qed.
Definition moved_alike (convect convect' : vec -> vec) (v : vec) : Prop := convect' (vscale k v) = vscale k (convect v).
Lemma bg_next_vertices step convect convect' t n w : next_wake_vertices step convect t n = Ok w ->
  (step = O -> forall v, In v (hd [] (w_wake_vertices w)) -> moved_alike convect convect' v) ->
  (step <> O -> forall row v, In row (w_wake_vertices t) -> In v row -> moved_alike convect convect' v) ->
  next_wake_vertices step convect' (bg_wing t) (bg_wing n) = Ok (bg_wing w).
Proof.
  intros E H0 H1. unfold next_wake_vertices in *. apply bind_Ok in E. destruct E as (first & Ef & E). apply bind_Ok in E. destruct E as (vs & Ev & E). apply Ok_eq in E. subst w.
  rewrite bg_trailing_row, Ef. cbn [result_map bind]. change (w_wake_vertices (bg_wing t)) with (map (map (vscale k)) (w_wake_vertices t)). change (w_wake_rings (bg_wing n)) with (w_wake_rings n).
  destruct step as [|i].
  - specialize (H0 eq_refl). cbn [w_set_wake w_wake_vertices] in H0. assert (hd [] vs = first). { unfold vstack in Ev. apply bind_Ok in Ev. destruct Ev as (_ & _ & Ev). apply Ok_eq in Ev. subst vs. reflexivity. } rewrite H in H0.
    change [map convect' (map (vscale k) first)] with (map (fun l => map convect' (map (vscale k) l)) [first]).
    replace (map (fun l => map convect' (map (vscale k) l)) [first]) with (map (map (vscale k)) [map convect first]).
    + rewrite vstack_map, Ev. reflexivity.
    + cbn [map]. f_equal. rewrite !map_map. apply map_ext_in. intros v Hv. symmetry. exact (H0 v Hv).
  - specialize (H1 ltac:(discriminate)).
    replace (map (map convect') (map (map (vscale k)) (w_wake_vertices t))) with (map (map (vscale k)) (map (map convect) (w_wake_vertices t))).
    + rewrite vstack_map, Ev. reflexivity.
    + rewrite !map_map. apply map_ext_in. intros row Hr. rewrite !map_map. apply map_ext_in. intros v Hv. symmetry. exact (H1 row v Hr Hv).
Qed.
Lemma bg_for_wings {S} (g : S -> S) (f f' : S -> wing -> wing -> result (S * wing)) these nexts st st' out :
  (forall st t n y, In t these -> f st t n = Ok y -> In (snd y) out -> f' (g st) (bg_wing t) (bg_wing n) = Ok (g (fst y), bg_wing (snd y))) ->
  for_wings f st these nexts = Ok (st', out) -> for_wings f' (g st) (map bg_wing these) (map bg_wing nexts) = Ok (g st', map bg_wing out).
Proof.
  intros H E. unfold for_wings in *. rewrite !map_length. apply bind_Ok in E. destruct E as (u & Eu & E). rewrite Eu. cbn [bind]. clear u Eu. revert st nexts st' out H E. induction these as [|t these IH]; intros st nexts st' out H E.
  - apply Ok_eq in E. injection E as <- <-. reflexivity.
  - destruct nexts as [|n nexts]; [apply Ok_eq in E; injection E as <- <-; reflexivity|]. cbn [map]. apply bind_Ok in E. destruct E as (y & Ey & E). apply bind_Ok in E. destruct E as ([st1 l] & El & E). apply Ok_eq in E. cbn [fst snd] in E. injection E as <- <-.
    rewrite (H _ _ _ _ (or_introl eq_refl) Ey (or_introl eq_refl)). cbn [bind fst snd]. rewrite (IH (fst y) nexts st1 l); [reflexivity | | exact El]. intros st2 t2 n2 y2 Ht E2 Hy. apply H; [right; exact Ht | exact E2 | right; exact Hy].
Qed.
Lemma bg_for_airplanes {S} (g : S -> S) (f f' : S -> wing -> wing -> result (S * wing)) these nexts st st' out :
  (forall st a b t n y, In a these -> In t (a_wings a) -> f st t n = Ok y -> In b out -> In (snd y) (a_wings b) -> f' (g st) (bg_wing t) (bg_wing n) = Ok (g (fst y), bg_wing (snd y))) ->
  for_airplanes f st these nexts = Ok (st', out) -> for_airplanes f' (g st) (map bg_airplane these) (map bg_airplane nexts) = Ok (g st', map bg_airplane out).
Proof.
  intros H E. unfold for_airplanes in *. rewrite !map_length. apply bind_Ok in E. destruct E as (u & Eu & E). rewrite Eu. cbn [bind]. clear u Eu. revert st nexts st' out H E. induction these as [|t these IH]; intros st nexts st' out H E.
  - apply Ok_eq in E. injection E as <- <-. reflexivity.
  - destruct nexts as [|n nexts]; [apply Ok_eq in E; injection E as <- <-; reflexivity|]. cbn [map]. apply bind_Ok in E. destruct E as ([st0 ws] & Ey & E). apply bind_Ok in E. destruct E as ([st1 l] & El & E). apply Ok_eq in E. cbn [fst snd] in E. injection E as <- <-.
    change (a_wings (bg_airplane t)) with (map bg_wing (a_wings t)). change (a_wings (bg_airplane n)) with (map bg_wing (a_wings n)).
    rewrite (bg_for_wings g f f' (a_wings t) (a_wings n) st st0 ws); [| |exact Ey].
    + cbn [bind fst snd]. rewrite (IH st0 nexts st1 l); [reflexivity | | exact El]. intros st2 a2 b2 t2 n2 y2 Ha Ht E2 Hb Hy. apply (H st2 a2 b2); [right; exact Ha | exact Ht | exact E2 | right; exact Hb | exact Hy].
    + intros st2 t2 n2 y2 Ht E2 Hy. apply (H st2 t (a_set_wings ws n)); [left; reflexivity | exact Ht | exact E2 | left; reflexivity | exact Hy].
Qed.
Definition bg_cell (x : vec * vec * vec * vec) : vec * vec * vec * vec := let '(fl, fr, bl, br) := x in (vscale k fl, vscale k fr, vscale k bl, vscale k br).
Lemma bg_cell_at vs i j : cell (map (map (vscale k)) vs) i j = result_map bg_cell (cell vs i j).
Proof. unfold cell. do 6 (rewrite index_map, bind_result_map, result_map_bind; apply bind_ext; intros ?). reflexivity. Qed.
Lemma bg_moved fl fr bl br v a : ring_set_age (k * a) (ring_update_position (vscale k fl) (vscale k fr) (vscale k bl) (vscale k br) (bg_ring v)) = bg_ring (ring_set_age a (ring_update_position fl fr bl br v)).
Proof.
  unfold ring_set_age, ring_update_position, bg_ring. cbn [rv_front_left rv_front_right rv_back_left rv_back_right rv_strength rv_front_leg rv_left_leg rv_back_leg rv_right_leg rv_center rv_age].
  rewrite !bg_new_line, bg_centroid. reflexivity.
Qed.
Lemma bg_move_ring step dt vertices ids heap ij : move_ring step (k * dt) (map (map (vscale k)) vertices) ids (map bg_ring heap) ij = result_map (map bg_ring) (move_ring step dt vertices ids heap ij).
Proof.
  unfold move_ring. destruct ij as [i j]. rewrite bg_cell_at, bind_result_map, result_map_bind. apply bind_ext; intros [[[fl fr] bl] br]. cbn [bg_cell]. rewrite result_map_bind. apply bind_ext; intros row. rewrite result_map_bind. apply bind_ext; intros id.
  rewrite index_map, bind_result_map, result_map_bind. apply bind_ext; intros v. cbn [result_map]. rewrite <- set_at_map, <- bg_moved.
  destruct step; [reflexivity|]. cbn [rv_age ring_update_position bg_ring]. do 3 f_equal. ring.
Qed.
Lemma bg_next_rings step dt heap t n : next_wake_rings step (k * dt) (map bg_ring heap) (bg_wing t) (bg_wing n) = result_map (fun y => (map bg_ring (fst y), bg_wing (snd y))) (next_wake_rings step dt heap t n).
Proof.
  unfold next_wake_rings. cbn zeta. change (w_wake_vertices (bg_wing n)) with (map (map (vscale k)) (w_wake_vertices n)). change (w_wake_rings (bg_wing t)) with (w_wake_rings t). rewrite !map_length.
  replace (length (hd [] (map (map (vscale k)) (w_wake_vertices n)))) with (length (hd [] (w_wake_vertices n))) by (destruct (w_wake_vertices n); cbn [map hd]; [reflexivity | rewrite map_length; reflexivity]).
  rewrite result_map_bind. apply bind_ext; intros ids.
  rewrite (mapM_commute (shed_ring (w_wake_vertices n) t) (shed_ring (map (map (vscale k)) (w_wake_vertices n)) (bg_wing t)) bg_ring).
  2: { intros j _. unfold shed_ring. rewrite bg_cell_at, bind_result_map, result_map_bind. apply bind_ext; intros [[[fl fr] bl] br]. cbn [bg_cell]. change (w_panels (bg_wing t)) with (map (map bg_panel) (w_panels t)). change (w_num_chordwise_panels (bg_wing t)) with (w_num_chordwise_panels t).
       rewrite bg_strength_at, bind_result_map, result_map_bind. apply bind_ext; intros g. rewrite bg_new_ring. reflexivity. }
  rewrite bind_result_map, result_map_bind. apply bind_ext; intros shed. rewrite <- map_app, (sc_foldM (map bg_ring) (move_ring step dt (w_wake_vertices n) ids)) by (intros; apply bg_move_ring).
  rewrite bind_result_map, result_map_bind. apply bind_ext; intros h. reflexivity.
Qed.
(** The second pass leaves the vertices of the first as they are. *)
Lemma rings_keep_vertices step dt heap these nexts r a w : for_airplanes (next_wake_rings step dt) heap these nexts = Ok r ->
  In a nexts -> In w (a_wings a) -> exists b v, In b (snd r) /\ In v (a_wings b) /\ w_wake_vertices v = w_wake_vertices w.
Proof.
  intros E Ha Hw. destruct (Forall2_in_l _ _ _ _ (for_airplanes_kept true (fun n v => w_wake_vertices v = w_wake_vertices n) (next_wake_rings step dt) ltac:(intros st t n y Ey;
    unfold next_wake_rings in Ey; apply bind_Ok in Ey; destruct Ey as (x & _ & Ey); apply bind_Ok in Ey; destruct Ey as (z & _ & Ey); apply bind_Ok in Ey; destruct Ey as (h & _ & Ey); apply Ok_eq in Ey; subst y; reflexivity) ltac:(reflexivity) these nexts heap r E) Ha) as (b & Hb & W & _).
  destruct (Forall2_in_l _ _ _ _ W Hw) as (v & Hv & Ev). exists b, v. auto.
Qed.
Lemma bg_populate step dt convect convect' heap these nexts r : populate_wake step dt convect heap these nexts = Ok r ->
  (step = O -> forall b v x, In b (snd r) -> In v (a_wings b) -> In x (hd [] (w_wake_vertices v)) -> moved_alike convect convect' x) ->
  (step <> O -> forall a t row x, In a these -> In t (a_wings a) -> In row (w_wake_vertices t) -> In x row -> moved_alike convect convect' x) ->
  populate_wake step (k * dt) convect' (map bg_ring heap) (map bg_airplane these) (map bg_airplane nexts) = Ok (map bg_ring (fst r), map bg_airplane (snd r)).
Proof.
  intros E H0 H1. unfold populate_wake in *. apply bind_Ok in E. destruct E as ([u1 mid] & E1 & E2). cbn [snd] in E2.
  rewrite (bg_for_airplanes (fun u : unit => u) (fun st t n => let* w := next_wake_vertices step convect t n in Ok (st, w)) _ these nexts tt u1 mid); [| |exact E1].
  - cbn [bind snd]. destruct r as [h out]. apply (bg_for_airplanes (map bg_ring) (next_wake_rings step dt)); [|exact E2].
    intros st a b t n y _ _ Ey _ _. rewrite bg_next_rings, Ey. reflexivity.
  - intros st a b t n y Ha Ht Ey Hb Hy. apply bind_Ok in Ey. destruct Ey as (w & Ew & Ey). apply Ok_eq in Ey. subst y. cbn [snd fst] in *.
    rewrite (bg_next_vertices step convect convect' t n w Ew); [reflexivity | |].
    + intros Es x Hx. destruct (rings_keep_vertices _ _ _ _ _ _ b w E2 Hb Hy) as (b' & v & Hb' & Hv & Ev). apply (H0 Es b' v x Hb' Hv). rewrite Ev. exact Hx.
    + intros Es row x Hr Hx. exact (H1 Es a t row x Ha Ht Hr Hx).
Qed.
Lemma bg_convect prescribed dt op u v : (prescribed = false -> resolved k (row_legs (cu_rows u) ++ wake_legs (cu_wake u)) v) ->
  moved_alike (convect_vertex prescribed (freestream_velocity op) (current_velocity u) dt) (convect_vertex prescribed (freestream_velocity (thicker k op)) (current_velocity (bg_current u)) (k * dt)) v.
Proof.
  intros H. unfold moved_alike, convect_vertex. change (freestream_velocity (thicker k op)) with (freestream_velocity op).
  assert (X : forall V, vadd (vscale k v) (vscale (k * dt) V) = vscale k (vadd v (vscale dt V))) by (intros; vring).
  destruct prescribed; [apply X|]. change [vscale k v] with (map (vscale k) [v]). rewrite bg_current_velocity; [apply X|]. intros x [<-|[]]. exact (H eq_refl).
Qed.

(** ** What a step leaves in place *)
Definition stays (p q : panel) : Prop := panel_legs q = panel_legs p /\ p_collocation_point q = p_collocation_point p /\ leg_centers q = leg_centers p.
Definition wing_stays (w v : wing) : Prop := Forall2 (Forall2 stays) (w_panels w) (w_panels v) /\ w_wake_vertices v = w_wake_vertices w.
Definition airplane_stays (a b : airplane) : Prop := Forall2 wing_stays (a_wings a) (a_wings b).
Lemma update_stays {B} (g : panel -> B -> result panel) l xs l' : (forall p x q, g p x = Ok q -> stays p q) -> update_panels g l xs = Ok l' -> Forall2 airplane_stays l l'.
Proof.
  intros Hg E. unfold update_panels in E. apply bind_Ok in E. destruct E as (r & E & E'). apply Ok_eq in E'. subst l'. revert E. apply consume_kept.
  intros a bs [a' rest] E. unfold consume_airplane in E. apply bind_Ok in E. destruct E as (r1 & E & E'). apply Ok_eq in E'. injection E' as <- _. cbn [fst].
  unfold airplane_stays. cbn [a_set_wings a_wings]. revert E. apply consume_kept. intros w cs [w' rest'] E. unfold consume_wing in E. apply bind_Ok in E. destruct E as (r2 & E & E'). apply Ok_eq in E'. injection E' as <- _. cbn [fst].
  split; [|reflexivity]. cbn [w_set_panels w_panels]. revert E. apply consume_kept. intros row ds r3. apply consume_kept. intros p es [q rest''] E. unfold consume_panel in E. destruct es as [|x es]; [discriminate|].
  apply bind_Ok in E. destruct E as (q' & E & E'). apply Ok_eq in E'. injection E' as <- _. apply (Hg _ _ _ E).
Qed.
Lemma strength_stays p g q : unsteady_set_strength p g = Ok q -> stays p q.
Proof.
  unfold unsteady_set_strength, stays, panel_legs, leg_centers. destruct (p_ring_vortex p) as [v|] eqn:E; [|discriminate]. intros Eq. apply Ok_eq in Eq. subst q. repeat split.
Qed.
Lemma stays_trans p q r : stays p q -> stays q r -> stays p r.
Proof. unfold stays. intros (A & B & C) (A' & B' & C'). repeat split; congruence. Qed.
Lemma compose_F2 {A} (P : A -> A -> Prop) l m n : (forall x y z, P x y -> P y z -> P x z) -> Forall2 P l m -> Forall2 P m n -> Forall2 P l n.
Proof. intros HT F. revert n. induction F; intros n G; inversion G; subst; constructor; eauto. Qed.
Lemma airplane_stays_trans a b c : airplane_stays a b -> airplane_stays b c -> airplane_stays a c.
Proof.
  unfold airplane_stays. apply compose_F2. intros u v w [A1 A2] [B1 B2]. split; [|congruence]. revert A1 B1. apply compose_F2. intros ? ? ?. apply compose_F2. apply stays_trans.
Qed.
Lemma airplane_stays_refl a : airplane_stays a a.
Proof.
  assert (X : forall A (P : A -> A -> Prop) l, (forall x, P x x) -> Forall2 P l l) by (intros A P l H; induction l; constructor; auto).
  apply X. intros w. split; [|reflexivity]. apply X. intros row. apply X. intros p. repeat split.
Qed.
Lemma process_stays op forces moments l l' : process_forces op forces moments l = Ok l' -> Forall2 airplane_stays l l'.
Proof.
  unfold process_forces. cbn zeta. intros E. apply bind_Ok in E. destruct E as (m & E1 & E2). eapply compose_F2; [exact airplane_stays_trans | |].
  - eapply update_stays; [|exact E1]. intros p x q Eq. apply Ok_eq in Eq. subst q. repeat split.
  - apply mapM_Forall2 in E2. clear E1. revert l' E2. induction m as [|a m IH]; intros l' F; inversion F as [|? b ? m' Ea Fm]; subst; constructor; [|apply IH; exact Fm].
    unfold airplane_totals in Ea. apply bind_Ok in Ea. destruct Ea as (x & _ & Ea). apply bind_Ok in Ea. destruct Ea as (y & _ & Ea). apply Ok_eq in Ea. subst b. exact (airplane_stays_refl a).
Qed.
Lemma stays_panel l l' p : Forall2 airplane_stays l l' -> In p (all_panels l) -> exists q, In q (all_panels l') /\ stays p q.
Proof.
  intros F H. apply in_all_panels in H. destruct H as (a & Ha & Hp). apply in_airplane_panels in Hp. destruct Hp as (w & Hw & Hp). unfold ravel in Hp. apply in_concat in Hp. destruct Hp as (row & Hr & Hp).
  destruct (Forall2_in_l _ _ _ _ F Ha) as (b & Hb & FW). destruct (Forall2_in_l _ _ _ _ FW Hw) as (v & Hv & FP & _). destruct (Forall2_in_l _ _ _ _ FP Hr) as (row' & Hr' & FR). destruct (Forall2_in_l _ _ _ _ FR Hp) as (q & Hq & S).
  exists q. split; [|exact S]. apply in_all_panels. exists b. split; [exact Hb|]. apply in_airplane_panels. exists v. split; [exact Hv|]. unfold ravel. apply in_concat. eauto.
Qed.
(** The rows of a step and the panels they were made of. *)
Lemma row_panel airplanes rows x : unsteady_collapse airplanes = Ok rows -> In x rows -> In (rr_panel x) (all_panels airplanes) /\ p_ring_vortex (rr_panel x) = Some (rr_vortex x).
Proof.
  unfold unsteady_collapse. intros E Hx. apply mapM_Forall2 in E. destruct (Forall2_in_r _ _ _ _ E Hx) as ([[a w] p] & H & Ex). unfold unsteady_make_row in Ex. destruct (p_ring_vortex p) as [v|] eqn:Ev; [|discriminate]. apply Ok_eq in Ex. subst x. cbn [rr_panel rr_vortex].
  split; [|exact Ev]. apply in_flat in H. destruct H as (Ha & Hw & Hp). apply in_all_panels. exists a. split; [exact Ha|]. apply in_airplane_panels. exists w. auto.
Qed.
Lemma in_combine_maps {A B C} (f : A -> B) (g : A -> C) l y : In y (combine (map f l) (map g l)) -> exists x, In x l /\ y = (f x, g x).
Proof. induction l as [|a l IH]; cbn; [tauto|]. intros [<-|H]; [eauto|]. destruct (IH H) as (x & Hx & E). eauto. Qed.
Lemma row_legs_resolved airplanes rows airplanes' wake x : unsteady_collapse airplanes = Ok rows -> Forall2 airplane_stays airplanes airplanes' ->
  resolved k (map panel_legs (all_panels airplanes') ++ wake_legs wake) x -> resolved k (row_legs rows ++ wake_legs wake) x.
Proof.
  intros E F H. apply resolved_app in H. destruct H as [H1 H2]. apply resolved_app. split; [|exact H2]. intros v s Hv Hs.
  assert (X : exists y, In y rows /\ In s (panel_legs (rr_panel y))).
  { cbn [row_legs leg_lists In] in Hv. destruct Hv as [<-|[<-|[<-|[<-|[]]]]]; apply in_combine_maps in Hs; destruct Hs as (y & Hy & ->); exists y; (split; [exact Hy|]); unfold panel_legs; rewrite (proj2 (row_panel _ _ _ E Hy)); cbn; tauto. }
  destruct X as (y & Hy & Hl). destruct (stays_panel _ _ _ F (proj1 (row_panel _ _ _ E Hy))) as (q & Hq & S). apply (H1 (panel_legs q)); [apply in_map; exact Hq | rewrite (proj1 S); exact Hl].
Qed.
End Size.
