(** The same flight at another speed: every part of a time step commutes with the change of scale. *)
From Coq Require Import List ZArith Lia Lra Bool Reals.
From Verif Require Import M_Unsteady S_Solve S_Unsteady S_UnsteadyRun S_Similar L_Base L_Loads L_Scaling L_Aero L_RigidShift.
Import ListNotations.
Local Open Scope R_scope.
Local Open Scope list_scope.

(** ** Lists and results *)
Lemma index_map {A B} (f : A -> B) l i : index (map f l) i = result_map f (index l i).
Proof. unfold index. rewrite nth_error_map. destruct (nth_error l i); reflexivity. Qed.
Lemma mapM_map {A B C} (f : B -> result C) (g : A -> B) l : mapM f (map g l) = mapM (fun x => f (g x)) l.
Proof. induction l as [|x l IH]; cbn [map mapM]; [reflexivity|]. apply bind_ext; intros y. rewrite IH. reflexivity. Qed.
Lemma mapM_commute {A B} (f : A -> result B) (f' : A -> result B) (g : B -> B) l : (forall x, In x l -> f' x = result_map g (f x)) -> mapM f' l = result_map (map g) (mapM f l).
Proof.
  induction l as [|x l IH]; intros H; cbn [mapM]; [reflexivity|]. rewrite (H x (or_introl eq_refl)), bind_result_map, result_map_bind. apply bind_ext; intros y.
  rewrite IH by (intros; apply H; right; assumption). rewrite bind_result_map, result_map_bind. apply bind_ext; intros ys. reflexivity.
Qed.
Lemma mapM_both {A A' B B'} (f : A -> result B) (f' : A' -> result B') (h : A -> A') (g : B -> B') l : (forall x, f' (h x) = result_map g (f x)) -> mapM f' (map h l) = result_map (map g) (mapM f l).
Proof.
  intros H. induction l as [|x l IH]; cbn [map mapM]; [reflexivity|]. rewrite H, bind_result_map, result_map_bind. apply bind_ext; intros y.
  rewrite IH, bind_result_map, result_map_bind. apply bind_ext; intros ys. reflexivity.
Qed.
Lemma set_at_map {A B} (f : A -> B) i x l : set_at i (f x) (map f l) = map f (set_at i x l).
Proof. unfold set_at. rewrite map_app, firstn_map. cbn [map]. rewrite skipn_map. reflexivity. Qed.
Lemma overwrite_map {A B} (f : A -> B) a v : overwrite (map f a) (map f v) = result_map (map f) (overwrite a v).
Proof. unfold overwrite. rewrite !map_length. destruct (Nat.leb _ _); [|reflexivity]. cbn [result_map]. rewrite map_app, skipn_map. reflexivity. Qed.
Lemma combine_map_map {A B C D} (f : A -> C) (g : B -> D) l m : combine (map f l) (map g m) = map (fun x => (f (fst x), g (snd x))) (combine l m).
Proof. revert m; induction l as [|x l IH]; intros [|y m]; cbn; try reflexivity. rewrite IH. reflexivity. Qed.
Lemma map2_both {A B C A' B' C'} (f : A -> B -> C) (f' : A' -> B' -> C') (ga : A -> A') (gb : B -> B') (gc : C -> C') :
  (forall x y, f' (ga x) (gb y) = gc (f x y)) -> forall l m, map2 f' (map ga l) (map gb m) = map gc (map2 f l m).
Proof. intros H l. induction l as [|x l IH]; intros [|y m]; cbn [map]; try reflexivity. cbn. rewrite H, IH. reflexivity. Qed.
Lemma vstack_map {A B} (f : A -> B) row m : vstack (map f row) (map (map f) m) = result_map (map (map f)) (vstack row m).
Proof.
  unfold vstack. rewrite result_map_bind. replace (forallb (fun r => Nat.eqb (length r) (length (map f row))) (map (map f) m)) with (forallb (fun r => Nat.eqb (length r) (length row)) m); [reflexivity|].
  rewrite map_length. induction m as [|r m IH]; cbn [map forallb]; [reflexivity|]. rewrite map_length, IH. reflexivity.
Qed.
Lemma repeat_map {A B} (f : A -> B) x n : map f (repeat x n) = repeat (f x) n.
Proof. induction n; cbn; congruence. Qed.

Section Similar.
Context (c r : R) (Hc : 0 < c) (Hr : 0 < r).
Definition load_factor : R := r * c ^ 2.
Lemma load_factor_pos : 0 < load_factor.
Proof. unfold load_factor. apply Rmult_lt_0_compat; [lra|]. apply pow_lt; lra. Qed.

(** ** The change of scale *)
Definition sc_line (l : line_vortex) : line_vortex := line_set_strength (c * lv_strength l) l.
Definition sc_ring (v : ring_vortex) : ring_vortex :=
  mkring (rv_front_left v) (rv_front_right v) (rv_back_left v) (rv_back_right v) (c * rv_strength v)
         (sc_line (rv_front_leg v)) (sc_line (rv_left_leg v)) (sc_line (rv_back_leg v)) (sc_line (rv_right_leg v)) (rv_center v) (rv_age v / c).
Definition sc_load (o : option vec) : option vec := option_map (vscale load_factor) o.
Definition sc_panel (p : panel) : panel :=
  mkpanel (p_front_right p) (p_front_left p) (p_back_left p) (p_back_right p)
    (p_is_leading_edge p) (p_is_trailing_edge p) (p_is_right_edge p) (p_is_left_edge p)
    (p_local_chordwise p) (p_local_spanwise p)
    (option_map sc_ring (p_ring_vortex p)) (p_horseshoe_vortex p) (sc_load (p_force_geometry p)) (sc_load (p_moment_geometry p))
    (sc_load (p_force_wind p)) (sc_load (p_moment_wind p)) (p_induced_drag_coefficient p)
    (p_side_force_coefficient p) (p_lift_coefficient p).
Definition sc_wing (w : wing) : wing := w_set_panels (map (map sc_panel) (w_panels w)) w.
Definition sc_airplane (a : airplane) : airplane :=
  mkairplane (map sc_wing (a_wings a)) (a_name a) (a_x_ref a) (a_y_ref a) (a_z_ref a) (a_weight a) (a_s_ref a) (a_c_ref a)
             (a_b_ref a) (a_num_panels a) (sc_load (a_force_wind a)) (a_force_coefficients a) (sc_load (a_moment_wind a)) (a_moment_coefficients a).
Definition sc_step (sp : steady_problem) : steady_problem := mksteady (map sc_airplane (sp_airplanes sp)) (faster c r (sp_operating_point sp)).
Definition sc_final (l : final_loads) : final_loads :=
  mkfinal (map (vscale load_factor) (fl_forces l)) (fl_force_coefficients l) (map (vscale load_factor) (fl_moments l)) (fl_moment_coefficients l).
Definition sc_wake (w : wake_arrays) : wake_arrays :=
  mkwake (map (Rmult c) (wk_strengths w)) (map (fun a => a / c) (wk_ages w)) (wk_front_right w) (wk_front_left w) (wk_back_left w) (wk_back_right w).
Definition sc_row (x : ring_row) : ring_row :=
  mkringrow (sc_panel (rr_panel x)) (rr_ref x) (sc_ring (rr_vortex x)) (rr_hs_back_right x) (rr_hs_front_right x) (rr_hs_front_left x) (rr_hs_back_left x).
Definition sc_last (l : last_arrays) : last_arrays :=
  mklast (la_collocations l) (map (Rmult c) (la_strengths l)) (la_right_centers l) (la_front_centers l) (la_left_centers l).
Definition sc_current (u : current_step) : current_step :=
  mkcurrent (cu_step u) (faster c r (cu_op u)) (vscale c (cu_freestream u)) (map sc_row (cu_rows u)) (sc_last (cu_last u)) (cu_seeds u)
            (cu_wing_influences u) (map (Rmult c) (cu_freestream_influences u)) (map (Rmult c) (cu_wake_influences u)) (map (Rmult c) (cu_strengths u)) (sc_wake (cu_wake u)).

(** ** Velocities *)
Lemma sc_core g age nu : core_radius (c * g) (age / c) (c * nu) = core_radius g age nu.
Proof. unfold core_radius. rewrite Rabs_mult, (Rabs_right c) by lra. do 2 f_equal. field. lra. Qed.
Lemma sc_line_velocity x a b g age nu : line_velocity x a b (c * g) (age / c) (c * nu) = vscale c (line_velocity x a b g age nu).
Proof.
  unfold line_velocity. cbv zeta. rewrite sc_core. destruct (_ || _); [vring|]. rewrite vscale_scale. f_equal. unfold Rdiv. ring.
Qed.
Definition sc_segment (s : segment) : segment := mkseg (sg_origin s) (sg_termination s) (c * sg_strength s) (sg_age s / c).
Lemma sc_segments_ages o t g ages : segments o t (map (Rmult c) g) (Some (map (fun a => a / c) ages)) = map sc_segment (segments o t g (Some ages)).
Proof.
  unfold segments. rewrite combine_map_map. rewrite <- (map_id (combine o t)) at 1. apply map2_both. reflexivity.
Qed.
Lemma sc_segments o t g : segments o t (map (Rmult c) g) None = map sc_segment (segments o t g None).
Proof.
  change (segments o t g None) with (segments o t g (Some (repeat 0 (length o)))). rewrite <- sc_segments_ages, repeat_map. replace (0 / c) with 0 by (field; lra). reflexivity.
Qed.
Lemma sc_collapsed_line points segs nu : collapsed_line points (map sc_segment segs) (c * nu) = map (vscale c) (collapsed_line points segs nu).
Proof.
  unfold collapsed_line. rewrite map_map. apply map_ext. intros x. rewrite <- vsum_scale, !map_map. f_equal. apply map_ext. intros s. apply sc_line_velocity.
Qed.
Lemma sc_add_rows a b : add_rows (map (vscale c) a) (map (vscale c) b) = map (vscale c) (add_rows a b).
Proof. apply map2_both. intros. vring. Qed.
Lemma sc_zeros n : zeros n = map (vscale c) (zeros n).
Proof. unfold zeros. rewrite repeat_map. f_equal. vring. Qed.
Lemma sc_collapsed points br fr fl bl g nu : collapsed_ring points br fr fl bl (map (Rmult c) g) None (c * nu) = map (vscale c) (collapsed_ring points br fr fl bl g None nu).
Proof.
  unfold collapsed_ring. cbn [fold_left fst snd]. rewrite !sc_segments, !sc_collapsed_line. rewrite (sc_zeros (length points)) at 1. rewrite !sc_add_rows. reflexivity.
Qed.
Lemma sc_collapsed_ages points br fr fl bl g ages nu : collapsed_ring points br fr fl bl (map (Rmult c) g) (Some (map (fun a => a / c) ages)) (c * nu) = map (vscale c) (collapsed_ring points br fr fl bl g (Some ages) nu).
Proof.
  unfold collapsed_ring. cbn [fold_left fst snd]. rewrite !sc_segments_ages, !sc_collapsed_line. rewrite (sc_zeros (length points)) at 1. rewrite !sc_add_rows. reflexivity.
Qed.
Lemma still_expanded points o t g nu nu' : expanded_line points (segments o t g None) nu = expanded_line points (segments o t g None) nu'.
Proof.
  unfold expanded_line. apply map_ext. intros x. apply map_ext_in. intros s Hs. unfold segment_velocity.
  assert (E : sg_age s = 0).
  { unfold segments in Hs. clear -Hs. revert Hs. generalize (combine o t) (length o). intros l. revert g. induction l as [|y l IH]; intros g n Hs; [destruct Hs|].
    destruct g as [|z g]; [destruct Hs|]. destruct n; [destruct Hs|]. cbn [repeat combine] in Hs. destruct Hs as [<-|Hs]; [reflexivity|]. exact (IH _ _ Hs). }
  rewrite E. unfold line_velocity. rewrite !core_radius_age0. reflexivity.
Qed.
Lemma sc_influences rows g nu nu' : unsteady_wing_influences (map sc_row rows) g nu' = unsteady_wing_influences rows g nu.
Proof.
  unfold unsteady_wing_influences. rewrite !map_map. unfold expanded_ring. cbn [fold_left fst snd]. rewrite !(still_expanded _ _ _ _ nu' nu), map_length, map_length. reflexivity.
Qed.
Lemma sc_wake_velocities w nu points : wake_velocities (sc_wake w) (c * nu) points = map (vscale c) (wake_velocities w nu points).
Proof. unfold wake_velocities. cbn [sc_wake wk_strengths wk_ages wk_back_right wk_front_right wk_front_left wk_back_left]. apply sc_collapsed_ages. Qed.
Lemma sc_current_velocity u points : current_velocity (sc_current u) points = map (vscale c) (current_velocity u points).
Proof.
  unfold current_velocity, unsteady_velocity_of. cbn [sc_current cu_rows cu_strengths cu_wake cu_op cu_freestream faster op_nu].
  rewrite !map_map. change (fun x => rr_back_right (sc_row x)) with rr_back_right. change (fun x => rr_front_right (sc_row x)) with rr_front_right.
  change (fun x => rr_front_left (sc_row x)) with rr_front_left. change (fun x => rr_back_left (sc_row x)) with rr_back_left.
  rewrite sc_collapsed, sc_wake_velocities, sc_add_rows, map_map. apply map_ext. intros v. vring.
Qed.
Lemma sc_flapping step dt a b : flapping_velocities step (dt / c) a b = map (vscale c) (flapping_velocities step dt a b).
Proof.
  unfold flapping_velocities. destruct step; [apply sc_zeros|]. rewrite <- (map_id a) at 1. rewrite <- (map_id b) at 1. apply map2_both. intros x y.
  unfold vdiv, Rdiv. rewrite Rinv_mult, Rinv_inv. generalize (/ dt). intros. vdestruct. vunfold. apply vec_ext; cbn; ring.
Qed.

(** ** Starting *)
Lemma sc_drift dt op : vscale (dt / c) (freestream_velocity (faster c r op)) = vscale dt (freestream_velocity op).
Proof.
  unfold freestream_velocity. change (freestream_direction (faster c r op)) with (freestream_direction op). cbn [faster op_velocity]. rewrite !vscale_scale. f_equal. field. lra.
Qed.
Lemma sc_freestream op : freestream_velocity (faster c r op) = vscale c (freestream_velocity op).
Proof. unfold freestream_velocity. change (freestream_direction (faster c r op)) with (freestream_direction op). cbn [faster op_velocity]. rewrite vscale_scale. reflexivity. Qed.
Lemma sc_new_line o t g : new_line_vortex o t (c * g) = sc_line (new_line_vortex o t g).
Proof. reflexivity. Qed.
Lemma sc_new_ring fl fr bl br g : new_ring fl fr bl br (c * g) = sc_ring (new_ring fl fr bl br g).
Proof. unfold new_ring, sc_ring. cbn [rv_front_left rv_front_right rv_back_left rv_back_right rv_strength rv_front_leg rv_left_leg rv_back_leg rv_right_leg rv_center rv_age]. rewrite <- !sc_new_line. f_equal. field. lra. Qed.
Lemma sc_blank_ring fl fr bl br : sc_ring (new_ring fl fr bl br 0) = new_ring fl fr bl br 0.
Proof. rewrite <- sc_new_ring. f_equal. ring. Qed.
Lemma mapiM_commute {A B} (f f' : nat -> A -> result B) (g : B -> B) l : (forall i x, In x l -> f' i x = result_map g (f i x)) -> mapiM f' l = result_map (map g) (mapiM f l).
Proof. intros H. unfold mapiM. apply mapM_commute. intros [i x] Hx. cbn [fst snd]. apply H. apply in_combine_r in Hx. exact Hx. Qed.
Lemma sc_init_panel drift m i j p : panel_without_loads p -> unsteady_init_panel 0 drift m i j p = result_map sc_panel (unsteady_init_panel 0 drift m i j p).
Proof.
  intros (U1 & U2 & U3 & U4 & _). unfold unsteady_init_panel. destruct (p_is_trailing_edge p) eqn:Et.
  - cbn [result_map]. f_equal. unfold sc_panel, p_set_ring. cbn. rewrite U1, U2, U3, U4, sc_blank_ring. reflexivity.
  - rewrite result_map_bind. apply bind_ext; intros nx. cbn [result_map]. f_equal. unfold sc_panel, p_set_ring. cbn. rewrite U1, U2, U3, U4, sc_blank_ring. reflexivity.
Qed.
Lemma sc_init_airplane drift a : airplane_without_loads a -> unsteady_init_airplane 0 drift a = result_map sc_airplane (unsteady_init_airplane 0 drift a).
Proof.
  intros (U1 & _ & U2 & _ & U). unfold unsteady_init_airplane. rewrite (mapM_commute (unsteady_init_wing 0 drift) (unsteady_init_wing 0 drift) sc_wing (a_wings a)) at 1.
  - rewrite bind_result_map, result_map_bind. apply bind_ext; intros ws. cbn [result_map]. unfold sc_airplane, a_set_wings. cbn. rewrite U1, U2. reflexivity.
  - intros w Hw. unfold unsteady_init_wing. cbn zeta.
    rewrite (mapiM_commute (fun i row => mapiM (fun j p => unsteady_init_panel 0 drift (w_panels w) i j p) row) (fun i row => mapiM (fun j p => unsteady_init_panel 0 drift (w_panels w) i j p) row) (map sc_panel) (w_panels w)) at 1.
    + rewrite bind_result_map, result_map_bind. apply bind_ext; intros m. reflexivity.
    + intros i row Hrow. apply mapiM_commute. intros j p Hp. apply sc_init_panel. exact (U w row p Hw Hrow Hp).
Qed.
Lemma sc_init_step dt sp : Forall airplane_without_loads (sp_airplanes sp) ->
  unsteady_init_step 0 (dt / c) (mksteady (sp_airplanes sp) (faster c r (sp_operating_point sp))) = result_map sc_step (unsteady_init_step 0 dt sp).
Proof.
  intros U. unfold unsteady_init_step. cbn [sp_airplanes sp_operating_point]. rewrite sc_drift. rewrite Forall_forall in U.
  rewrite (mapM_commute (unsteady_init_airplane 0 (vscale (25/100) (vscale dt (freestream_velocity (sp_operating_point sp))))) (unsteady_init_airplane 0 (vscale (25/100) (vscale dt (freestream_velocity (sp_operating_point sp))))) sc_airplane) at 1 by (intros a Ha; apply sc_init_airplane, U, Ha).
  rewrite bind_result_map, result_map_bind. apply bind_ext. reflexivity.
Qed.

(** ** Collapsing *)
Lemma sc_flat airplanes : flat_panels (map sc_airplane airplanes) = map (fun x => (sc_airplane (fst (fst x)), sc_wing (snd (fst x)), sc_panel (snd x))) (flat_panels airplanes).
Proof.
  unfold flat_panels. rewrite concat_map, !map_map. f_equal. apply map_ext. intros a. rewrite concat_map. change (a_wings (sc_airplane a)) with (map sc_wing (a_wings a)). rewrite !map_map. f_equal. apply map_ext. intros w.
  change (w_panels (sc_wing w)) with (map (map sc_panel) (w_panels w)). unfold ravel. rewrite <- concat_map, !map_map. reflexivity.
Qed.
Lemma sc_collapse airplanes : unsteady_collapse (map sc_airplane airplanes) = result_map (map sc_row) (unsteady_collapse airplanes).
Proof.
  unfold unsteady_collapse. rewrite sc_flat. apply mapM_both. intros [[a w] p]. cbn [fst snd]. unfold unsteady_make_row. change (p_ring_vortex (sc_panel p)) with (option_map sc_ring (p_ring_vortex p)). destruct (p_ring_vortex p); reflexivity.
Qed.
Lemma sc_wake_references airplanes : wake_references (map sc_airplane airplanes) = wake_references airplanes.
Proof.
  unfold wake_references. rewrite map_map. f_equal. apply map_ext. intros a. change (a_wings (sc_airplane a)) with (map sc_wing (a_wings a)). rewrite map_map. reflexivity.
Qed.
Lemma sc_collapse_wake heap airplanes w : collapse_wake (map sc_ring heap) (map sc_airplane airplanes) (sc_wake w) = result_map sc_wake (collapse_wake heap airplanes w).
Proof.
  unfold collapse_wake. rewrite sc_wake_references. rewrite (mapM_commute (index heap) (index (map sc_ring heap)) sc_ring) by (intros i _; apply index_map).
  rewrite bind_result_map, result_map_bind. apply bind_ext; intros rings. cbn [sc_wake wk_strengths wk_ages wk_front_right wk_front_left wk_back_left wk_back_right].
  rewrite !map_map. change (map (fun x => rv_strength (sc_ring x)) rings) with (map (fun x => c * rv_strength x) rings). change (map (fun x => rv_age (sc_ring x)) rings) with (map (fun x => rv_age x / c) rings).
  rewrite <- (map_map rv_strength (Rmult c)), overwrite_map, bind_result_map, result_map_bind. apply bind_ext; intros x1.
  rewrite <- (map_map rv_age (fun a => a / c)), overwrite_map, bind_result_map, result_map_bind. apply bind_ext; intros x2.
  change (map (fun x => rv_front_right (sc_ring x)) rings) with (map rv_front_right rings). change (map (fun x => rv_front_left (sc_ring x)) rings) with (map rv_front_left rings).
  change (map (fun x => rv_back_right (sc_ring x)) rings) with (map rv_back_right rings). change (map (fun x => rv_back_left (sc_ring x)) rings) with (map rv_back_left rings).
  do 4 (rewrite result_map_bind; apply bind_ext; intros ?). reflexivity.
Qed.
Lemma sc_last_arrays n step steps : last_step_arrays n step (map sc_step steps) = result_map sc_last (last_step_arrays n step steps).
Proof.
  unfold last_step_arrays. destruct step as [|k].
  - cbn [result_map]. unfold sc_last. cbn [la_strengths la_collocations la_right_centers la_front_centers la_left_centers]. rewrite repeat_map, Rmult_0_r. reflexivity.
  - rewrite index_map, bind_result_map, result_map_bind. apply bind_ext; intros sp. change (sp_airplanes (sc_step sp)) with (map sc_airplane (sp_airplanes sp)).
    rewrite sc_collapse, bind_result_map, result_map_bind. apply bind_ext; intros rows. rewrite !map_map.
    change (map (fun x => rr_collocation (sc_row x)) rows) with (map rr_collocation rows). rewrite result_map_bind. apply bind_ext; intros x1.
    change (map (fun x => rv_strength (rr_vortex (sc_row x))) rows) with (map (fun x => c * rv_strength (rr_vortex x)) rows). rewrite <- (map_map (fun x => rv_strength (rr_vortex x)) (Rmult c)).
    replace (repeat 0 n) with (map (Rmult c) (repeat 0 n)) at 1 by (rewrite repeat_map, Rmult_0_r; reflexivity).
    rewrite overwrite_map, bind_result_map, result_map_bind. apply bind_ext; intros x2.
    change (map (fun x => rr_right_center (sc_row x)) rows) with (map rr_right_center rows). change (map (fun x => rr_front_center (sc_row x)) rows) with (map rr_front_center rows). change (map (fun x => rr_left_center (sc_row x)) rows) with (map rr_left_center rows).
    do 3 (rewrite result_map_bind; apply bind_ext; intros ?). reflexivity.
Qed.

(** ** The right hand side *)
Lemma sc_freestream_influences step dt rows la v : unsteady_freestream_influences step (dt / c) (map sc_row rows) (sc_last la) (vscale c v) = map (Rmult c) (unsteady_freestream_influences step dt rows la v).
Proof.
  unfold unsteady_freestream_influences. rewrite !map_map. change (map (fun x => rr_normal (sc_row x)) rows) with (map rr_normal rows). change (map (fun x => rr_collocation (sc_row x)) rows) with (map rr_collocation rows).
  cbn [sc_last la_collocations]. rewrite sc_flapping.
  replace (freestream_influences (map rr_normal rows) (vscale c v)) with (map (Rmult c) (freestream_influences (map rr_normal rows) v)).
  2: { unfold freestream_influences. rewrite !map_map. apply map_ext. intros x. rewrite vdot_scale_r. reflexivity. }
  replace (row_dots (map rr_normal rows) (map (vscale c) (flapping_velocities step dt (map rr_collocation rows) (la_collocations la)))) with (map (Rmult c) (row_dots (map rr_normal rows) (flapping_velocities step dt (map rr_collocation rows) (la_collocations la)))).
  2: { unfold row_dots. symmetry. rewrite <- (map_id (map rr_normal rows)) at 1. apply map2_both. intros. apply vdot_scale_r. }
  apply map2_both. intros. ring.
Qed.
Lemma sc_wake_influences step n rows w nu : unsteady_wake_influences step n (map sc_row rows) (sc_wake w) (c * nu) = map (Rmult c) (unsteady_wake_influences step n rows w nu).
Proof.
  unfold unsteady_wake_influences. destruct step; [rewrite repeat_map, Rmult_0_r; reflexivity|]. rewrite !map_map. change (map (fun x => rr_normal (sc_row x)) rows) with (map rr_normal rows). change (map (fun x => rr_collocation (sc_row x)) rows) with (map rr_collocation rows).
  rewrite sc_wake_velocities. unfold row_dots. rewrite <- (map_id (map rr_normal rows)) at 1. apply map2_both. intros. apply vdot_scale_l.
Qed.
Lemma sc_rhs wk fs : map2 Rminus (map Ropp (map (Rmult c) wk)) (map (Rmult c) fs) = map (Rmult c) (map2 Rminus (map Ropp wk) fs).
Proof. rewrite map_map. replace (map (fun x => - (c * x)) wk) with (map (Rmult c) (map Ropp wk)) by (rewrite map_map; apply map_ext; intros; ring). apply map2_both. intros. ring. Qed.

(** ** Walks over the panels *)
Lemma sc_consume {A B C A' B' C'} (f : A -> list B -> result (C * list B)) (f' : A' -> list B' -> result (C' * list B')) (ga : A -> A') (gb : B -> B') (gc : C -> C') :
  (forall x bs, f' (ga x) (map gb bs) = result_map (fun y => (gc (fst y), map gb (snd y))) (f x bs)) ->
  forall l bs, consume f' (map ga l) (map gb bs) = result_map (fun y => (map gc (fst y), map gb (snd y))) (consume f l bs).
Proof.
  intros H l. induction l as [|x l IH]; intros bs; cbn [map consume]; [reflexivity|]. rewrite H, bind_result_map, result_map_bind. apply bind_ext; intros y. cbn [fst snd].
  rewrite IH, bind_result_map, result_map_bind. apply bind_ext; intros z. reflexivity.
Qed.
Lemma sc_update {B B'} (g : panel -> B -> result panel) (g' : panel -> B' -> result panel) (h : B -> B') airplanes bs :
  (forall p b, g' (sc_panel p) (h b) = result_map sc_panel (g p b)) ->
  update_panels g' (map sc_airplane airplanes) (map h bs) = result_map (map sc_airplane) (update_panels g airplanes bs).
Proof.
  intros H. unfold update_panels. rewrite (sc_consume (consume_airplane g) (consume_airplane g') sc_airplane h sc_airplane).
  - rewrite bind_result_map, result_map_bind. apply bind_ext. reflexivity.
  - intros a xs. unfold consume_airplane. change (a_wings (sc_airplane a)) with (map sc_wing (a_wings a)). rewrite (sc_consume (consume_wing g) (consume_wing g') sc_wing h sc_wing).
    + rewrite bind_result_map, result_map_bind. apply bind_ext. reflexivity.
    + intros w ys. unfold consume_wing. change (w_panels (sc_wing w)) with (map (map sc_panel) (w_panels w)). rewrite (sc_consume (consume (consume_panel g)) (consume (consume_panel g')) (map sc_panel) h (map sc_panel)).
      * rewrite bind_result_map, result_map_bind. apply bind_ext. reflexivity.
      * intros row zs. apply sc_consume. intros p ts. unfold consume_panel. destruct ts as [|t ts]; [reflexivity|]. cbn [map]. rewrite H, bind_result_map, result_map_bind. apply bind_ext. reflexivity.
Qed.
Lemma sc_set_strength p g : unsteady_set_strength (sc_panel p) (c * g) = result_map sc_panel (unsteady_set_strength p g).
Proof. unfold unsteady_set_strength. change (p_ring_vortex (sc_panel p)) with (option_map sc_ring (p_ring_vortex p)). destruct (p_ring_vortex p); reflexivity. Qed.

(** ** Loads *)
Lemma sc_panel_at m i j : panel_at (map (map sc_panel) m) i j = result_map sc_panel (panel_at m i j).
Proof. unfold panel_at. rewrite index_map, bind_result_map, result_map_bind. apply bind_ext; intros row. apply index_map. Qed.
Lemma sc_strength_at m i j : ring_strength_at (map (map sc_panel) m) i j = result_map (Rmult c) (ring_strength_at m i j).
Proof.
  unfold ring_strength_at. rewrite sc_panel_at, bind_result_map, result_map_bind. apply bind_ext; intros p. change (p_ring_vortex (sc_panel p)) with (option_map sc_ring (p_ring_vortex p)). destruct (p_ring_vortex p); reflexivity.
Qed.
Definition sc_three (g : R * R * R) : R * R * R := (c * fst (fst g), c * snd (fst g), c * snd g).
Lemma sc_effective a w p g : effective_strengths ((sc_airplane a, sc_wing w, sc_panel p), c * g) = result_map sc_three (effective_strengths ((a, w, p), g)).
Proof.
  assert (X : forall x, c * g - c * x = c * (g - x)) by (intros; ring).
  unfold effective_strengths. cbn zeta. change (w_panels (sc_wing w)) with (map (map sc_panel) (w_panels w)).
  change (p_is_right_edge (sc_panel p)) with (p_is_right_edge p). change (p_is_leading_edge (sc_panel p)) with (p_is_leading_edge p). change (p_is_left_edge (sc_panel p)) with (p_is_left_edge p).
  change (p_local_chordwise (sc_panel p)) with (p_local_chordwise p). change (p_local_spanwise (sc_panel p)) with (p_local_spanwise p). rewrite map_length.
  assert (S1 : forall (b : bool) (k k' : result R), k' = result_map (Rmult c) k -> (if b then Ok (c * g) else k') = result_map (Rmult c) (if b then Ok g else k)) by (intros [] k k' H; [reflexivity | exact H]).
  rewrite (S1 _ (let* i := position_of (p_local_chordwise p) in let* j := position_of (p_local_spanwise p) in let* n := ring_strength_at (w_panels w) i (S j) in Ok (g - n))).
  2: { do 2 (rewrite result_map_bind; apply bind_ext; intros ?). rewrite sc_strength_at, bind_result_map, result_map_bind. apply bind_ext; intros y. cbn [result_map]. rewrite X. reflexivity. }
  rewrite bind_result_map, result_map_bind. apply bind_ext; intros g1.
  rewrite (S1 _ (let* i := position_of (p_local_chordwise p) in let* j := position_of (p_local_spanwise p) in let* n := ring_strength_at (w_panels w) (py_pred i (length (w_panels w))) j in Ok (g - n))).
  2: { do 2 (rewrite result_map_bind; apply bind_ext; intros ?). rewrite sc_strength_at, bind_result_map, result_map_bind. apply bind_ext; intros y. cbn [result_map]. rewrite X. reflexivity. }
  rewrite bind_result_map, result_map_bind. apply bind_ext; intros g2.
  rewrite (S1 _ (let* i := position_of (p_local_chordwise p) in let* j := position_of (p_local_spanwise p) in let* row := index (w_panels w) i in let* n := ring_strength_at (w_panels w) i (py_pred j (length row)) in Ok (g - n))).
  2: { do 2 (rewrite result_map_bind; apply bind_ext; intros ?). rewrite index_map, bind_result_map, result_map_bind. apply bind_ext; intros row. rewrite map_length, sc_strength_at, bind_result_map, result_map_bind. apply bind_ext; intros y. cbn [result_map]. rewrite X. reflexivity. }
  rewrite bind_result_map, result_map_bind. apply bind_ext; intros g3. reflexivity.
Qed.
Definition sc_pair (l : vec * vec) : vec * vec := (vscale load_factor (fst l), vscale load_factor (snd l)).
Lemma sc_leg density g v l : leg_force (r * density) (c * g) (vscale c v) l = vscale load_factor (leg_force density g v l).
Proof. unfold leg_force, load_factor. vring. Qed.
Lemma sc_ring_loads density x g v1 v2 v3 : ring_panel_loads (r * density) (sc_row x) (sc_three g) (vscale c v1) (vscale c v2) (vscale c v3) = sc_pair (ring_panel_loads density x g v1 v2 v3).
Proof.
  destruct g as [[g1 g2] g3]. unfold ring_panel_loads, sc_three, sc_pair. cbn [fst snd]. rewrite !sc_leg.
  change (rr_right_vector (sc_row x)) with (rr_right_vector x). change (rr_front_vector (sc_row x)) with (rr_front_vector x). change (rr_left_vector (sc_row x)) with (rr_left_vector x).
  change (rr_right_center (sc_row x)) with (rr_right_center x). change (rr_front_center (sc_row x)) with (rr_front_center x). change (rr_left_center (sc_row x)) with (rr_left_center x). change (rr_ref (sc_row x)) with (rr_ref x).
  generalize (leg_force density g1 v1 (rr_right_vector x)) (leg_force density g2 v2 (rr_front_vector x)) (leg_force density g3 v3 (rr_left_vector x)) (vsub (rr_front_center x) (rr_ref x)) (vsub (rr_left_center x) (rr_ref x)) (vsub (rr_right_center x) (rr_ref x)).
  generalize load_factor. intros. f_equal; vring.
Qed.
Lemma sc_panel_loads density dt x g l : unsteady_panel_loads (r * density) (dt / c) (sc_row x) (c * g) (sc_pair l) = sc_pair (unsteady_panel_loads density dt x g l).
Proof.
  unfold unsteady_panel_loads. cbn zeta. change (p_area (rr_panel (sc_row x))) with (p_area (rr_panel x)). change (rr_normal (sc_row x)) with (rr_normal x). change (rr_collocation (sc_row x)) with (rr_collocation x). change (rr_ref (sc_row x)) with (rr_ref x).
  assert (E : vdiv (vscale (r * density * (c * g) * p_area (rr_panel x)) (rr_normal x)) (dt / c) = vscale load_factor (vdiv (vscale (density * g * p_area (rr_panel x)) (rr_normal x)) dt)).
  { generalize (rr_normal x) (p_area (rr_panel x)). intros n a. unfold vdiv, load_factor, Rdiv. rewrite Rinv_mult, Rinv_inv. generalize (/ dt). intros d. vdestruct. vunfold. apply vec_ext; cbn; ring. }
  rewrite E. destruct l as [l1 l2]. unfold sc_pair. cbn [fst snd]. generalize (vdiv (vscale (density * g * p_area (rr_panel x)) (rr_normal x)) dt) (vsub (rr_collocation x) (rr_ref x)). generalize load_factor. intros. f_equal; vring.
Qed.
Lemma sc_loads density dt step velocity velocity' airplanes rows la g :
  (forall points, velocity' points = map (vscale c) (velocity points)) ->
  unsteady_loads (r * density) (dt / c) step velocity' (map sc_airplane airplanes) (map sc_row rows) (sc_last la) (map (Rmult c) g) =
  result_map (map sc_pair) (unsteady_loads density dt step velocity airplanes rows la g).
Proof.
  intros HV. unfold unsteady_loads. rewrite sc_flat, combine_map_map.
  rewrite (mapM_both effective_strengths effective_strengths (fun x => (sc_airplane (fst (fst (fst x))), sc_wing (snd (fst (fst x))), sc_panel (snd (fst x)), c * snd x)) sc_three).
  2: { intros [[[a w] p] x]. cbn [fst snd]. apply sc_effective. }
  rewrite bind_result_map, result_map_bind. apply bind_ext; intros e. cbn [result_map]. f_equal. cbn zeta. cbn [sc_last la_strengths la_front_centers la_left_centers la_right_centers].
  rewrite !map_map, !HV, !sc_flapping, !sc_add_rows.
  change (map (fun x => rr_front_center (sc_row x)) rows) with (map rr_front_center rows). change (map (fun x => rr_left_center (sc_row x)) rows) with (map rr_left_center rows). change (map (fun x => rr_right_center (sc_row x)) rows) with (map rr_right_center rows).
  rewrite !combine_map_map.
  rewrite (map2_both Rminus Rminus (Rmult c) (Rmult c) (Rmult c)) by (intros; ring). rewrite combine_map_map.
  erewrite (map2_both (fun re vs => ring_panel_loads density (fst re) (snd re) (fst (fst vs)) (snd (fst vs)) (snd vs)) _ _ _ sc_pair).
  2: { intros [x g'] [[v1 v2] v3]. cbn [fst snd]. apply sc_ring_loads. }
  apply map2_both. intros [x g'] l. cbn [fst snd]. apply sc_panel_loads.
Qed.
Lemma sc_pressure op : dynamic_pressure (faster c r op) = load_factor * dynamic_pressure op.
Proof. unfold dynamic_pressure, load_factor. cbn [faster op_density op_velocity]. ring. Qed.
Lemma sc_rotated m v : mvmul m (vscale load_factor v) = vscale load_factor (mvmul m v).
Proof. apply mvmul_scale. Qed.
Lemma sc_over x a q : load_factor * x / a / (load_factor * q) = x / a / q.
Proof. assert (load_factor <> 0) by (pose proof load_factor_pos; lra). unfold Rdiv. rewrite Rinv_mult. generalize (/ a) (/ q). intros. field. assumption. Qed.
Lemma sc_set_loads f m fw mw q p : p_set_loads (vscale load_factor f) (vscale load_factor m) (vscale load_factor fw) (vscale load_factor mw) (load_factor * q) (sc_panel p) = sc_panel (p_set_loads f m fw mw q p).
Proof.
  unfold p_set_loads, sc_panel. cbn [vscale vx vy vz p_front_right p_front_left p_back_left p_back_right p_is_leading_edge p_is_trailing_edge p_is_right_edge p_is_left_edge p_local_chordwise p_local_spanwise p_ring_vortex p_horseshoe_vortex p_force_geometry p_moment_geometry p_force_wind p_moment_wind p_induced_drag_coefficient p_side_force_coefficient p_lift_coefficient].
  replace (p_area (sc_panel p)) with (p_area p) by reflexivity. unfold sc_panel.
  rewrite !Ropp_mult_distr_r. rewrite !sc_over. reflexivity.
Qed.
Lemma sc_coefficients f q s : force_coefficients (vscale load_factor f) (load_factor * q) s = force_coefficients f q s.
Proof.
  assert (X : forall x a, load_factor * x / (load_factor * q) / a = x / q / a).
  { intros x a. assert (load_factor <> 0) by (pose proof load_factor_pos; lra). unfold Rdiv. rewrite Rinv_mult. generalize (/ a) (/ q). intros. field. assumption. }
  unfold force_coefficients. cbn [vscale vx vy vz]. rewrite !Ropp_mult_distr_r, !X. reflexivity.
Qed.
Lemma sc_moment_coefficients f q s b ch : moment_coefficients (vscale load_factor f) (load_factor * q) s b ch = moment_coefficients f q s b ch.
Proof.
  assert (X : forall x a, load_factor * x / (load_factor * q) / a = x / q / a).
  { intros x a. assert (load_factor <> 0) by (pose proof load_factor_pos; lra). unfold Rdiv. rewrite Rinv_mult. generalize (/ a) (/ q). intros. field. assumption. }
  unfold moment_coefficients. cbn [vscale vx vy vz]. rewrite !X. reflexivity.
Qed.
Lemma sc_airplane_panels a : airplane_panels (sc_airplane a) = map sc_panel (airplane_panels a).
Proof.
  unfold airplane_panels. change (a_wings (sc_airplane a)) with (map sc_wing (a_wings a)). rewrite concat_map, !map_map. f_equal. apply map_ext. intros w. unfold ravel. rewrite concat_map. reflexivity.
Qed.
Lemma sc_totals rotation q a : airplane_totals rotation (load_factor * q) (sc_airplane a) = result_map sc_airplane (airplane_totals rotation q a).
Proof.
  unfold airplane_totals. rewrite sc_airplane_panels.
  rewrite (mapM_both force_of force_of sc_panel (vscale load_factor)) by (intros p; unfold force_of; change (p_force_geometry (sc_panel p)) with (sc_load (p_force_geometry p)); destruct (p_force_geometry p); reflexivity).
  rewrite (mapM_both moment_of moment_of sc_panel (vscale load_factor)) by (intros p; unfold moment_of; change (p_moment_geometry (sc_panel p)) with (sc_load (p_moment_geometry p)); destruct (p_moment_geometry p); reflexivity).
  rewrite bind_result_map, result_map_bind. apply bind_ext; intros fs. rewrite bind_result_map, result_map_bind. apply bind_ext; intros ms. cbn zeta.
  rewrite !vsum_scale, !sc_rotated, sc_coefficients, sc_moment_coefficients. reflexivity.
Qed.
Lemma sc_process op loads airplanes :
  process_forces (faster c r op) (map fst (map sc_pair loads)) (map snd (map sc_pair loads)) (map sc_airplane airplanes) = result_map (map sc_airplane) (process_forces op (map fst loads) (map snd loads) airplanes).
Proof.
  unfold process_forces. cbn zeta. rewrite sc_pressure. change (rotation_wind_to_geometry (faster c r op)) with (rotation_wind_to_geometry op). set (M := mtrans (rotation_wind_to_geometry op)).
  assert (X : combine (map fst (map sc_pair loads)) (map snd (map sc_pair loads)) = map sc_pair (combine (map fst loads) (map snd loads))) by (clear; induction loads; cbn [map combine]; [reflexivity | rewrite <- IHloads; reflexivity]).
  rewrite X. rewrite (sc_update (fun p fm => Ok (p_set_loads (fst fm) (snd fm) (mvmul M (fst fm)) (mvmul M (snd fm)) (dynamic_pressure op) p))).
  - rewrite bind_result_map, result_map_bind. apply bind_ext; intros l. apply mapM_both. intros a. apply sc_totals.
  - intros p [f m]. cbn [sc_pair fst snd result_map]. rewrite !sc_rotated, sc_set_loads. reflexivity.
Qed.

(** ** Shedding *)
Lemma sc_back_vertex side m i j : (forall v, side (sc_ring v) = side v) -> back_vertex side (map (map sc_panel) m) i j = back_vertex side m i j.
Proof.
  intros H. unfold back_vertex. rewrite sc_panel_at, bind_result_map. apply bind_ext; intros p. change (p_ring_vortex (sc_panel p)) with (option_map sc_ring (p_ring_vortex p)). destruct (p_ring_vortex p); cbn [option_map]; [rewrite H|]; reflexivity.
Qed.
Lemma sc_trailing_row t n : trailing_edge_row (sc_wing t) (sc_wing n) = trailing_edge_row t n.
Proof.
  unfold trailing_edge_row. cbn zeta. change (w_num_chordwise_panels (sc_wing t)) with (w_num_chordwise_panels t). change (w_num_spanwise_panels (sc_wing t)) with (w_num_spanwise_panels t). change (w_panels (sc_wing n)) with (map (map sc_panel) (w_panels n)).
  rewrite (mapM_commute (back_vertex rv_back_left (w_panels n) (w_num_chordwise_panels t - 1)) (back_vertex rv_back_left (map (map sc_panel) (w_panels n)) (w_num_chordwise_panels t - 1)) (fun v => v)).
  2: { intros j _. rewrite sc_back_vertex by reflexivity. destruct (back_vertex _ _ _ _); reflexivity. }
  rewrite bind_result_map. apply bind_ext; intros l. rewrite map_id. destruct (w_num_spanwise_panels t); [reflexivity|]. rewrite sc_back_vertex by reflexivity. reflexivity.
Qed.
Lemma sc_next_vertices step convect convect' t n : (forall v, convect' v = convect v) ->
  next_wake_vertices step convect' (sc_wing t) (sc_wing n) = result_map sc_wing (next_wake_vertices step convect t n).
Proof.
  intros H. unfold next_wake_vertices. rewrite sc_trailing_row, result_map_bind. apply bind_ext; intros first.
  change (w_wake_vertices (sc_wing t)) with (w_wake_vertices t). change (w_wake_rings (sc_wing n)) with (w_wake_rings n).
  replace (map convect' first) with (map convect first) by (apply map_ext; intros; symmetry; apply H).
  replace (map (map convect') (w_wake_vertices t)) with (map (map convect) (w_wake_vertices t)) by (apply map_ext; intros; apply map_ext; intros; symmetry; apply H).
  rewrite result_map_bind. apply bind_ext; intros vs. reflexivity.
Qed.
Lemma sc_for_wings {S} (k : S -> S) (f f' : S -> wing -> wing -> result (S * wing)) :
  (forall st t n, f' (k st) (sc_wing t) (sc_wing n) = result_map (fun y => (k (fst y), sc_wing (snd y))) (f st t n)) ->
  forall st these nexts, for_wings f' (k st) (map sc_wing these) (map sc_wing nexts) = result_map (fun y => (k (fst y), map sc_wing (snd y))) (for_wings f st these nexts).
Proof.
  intros H st these nexts. unfold for_wings. rewrite !map_length, result_map_bind. apply bind_ext; intros _. revert st nexts. induction these as [|t these IH]; intros st nexts; [reflexivity|].
  destruct nexts as [|n nexts]; [reflexivity|]. cbn [map]. rewrite H, bind_result_map, result_map_bind. apply bind_ext; intros y. cbn [fst snd]. rewrite IH, bind_result_map, result_map_bind. apply bind_ext; intros z. reflexivity.
Qed.
Lemma sc_for_airplanes {S} (k : S -> S) (f f' : S -> wing -> wing -> result (S * wing)) :
  (forall st t n, f' (k st) (sc_wing t) (sc_wing n) = result_map (fun y => (k (fst y), sc_wing (snd y))) (f st t n)) ->
  forall st these nexts, for_airplanes f' (k st) (map sc_airplane these) (map sc_airplane nexts) = result_map (fun y => (k (fst y), map sc_airplane (snd y))) (for_airplanes f st these nexts).
Proof.
  intros H st these nexts. unfold for_airplanes. rewrite !map_length, result_map_bind. apply bind_ext; intros _. revert st nexts. induction these as [|t these IH]; intros st nexts; [reflexivity|].
  destruct nexts as [|n nexts]; [reflexivity|]. cbn [map]. change (a_wings (sc_airplane t)) with (map sc_wing (a_wings t)). change (a_wings (sc_airplane n)) with (map sc_wing (a_wings n)).
  rewrite (sc_for_wings k f f' H), bind_result_map, result_map_bind. apply bind_ext; intros y. cbn [fst snd]. rewrite IH, bind_result_map, result_map_bind. apply bind_ext; intros z. reflexivity.
Qed.
Lemma sc_moved fl fr bl br v a : ring_set_age (a / c) (ring_update_position fl fr bl br (sc_ring v)) = sc_ring (ring_set_age a (ring_update_position fl fr bl br v)).
Proof. reflexivity. Qed.
Lemma sc_move_ring step dt vertices ids heap ij : move_ring step (dt / c) vertices ids (map sc_ring heap) ij = result_map (map sc_ring) (move_ring step dt vertices ids heap ij).
Proof.
  unfold move_ring. destruct ij as [i j]. rewrite result_map_bind. apply bind_ext; intros [[[fl fr] bl] br]. rewrite result_map_bind. apply bind_ext; intros row. rewrite result_map_bind. apply bind_ext; intros id.
  rewrite index_map, bind_result_map, result_map_bind. apply bind_ext; intros v. cbn [result_map]. rewrite <- set_at_map, <- sc_moved.
  destruct step; [reflexivity|]. cbn [rv_age ring_update_position sc_ring]. do 3 f_equal. field. lra.
Qed.
Lemma sc_foldM {A S} (k : S -> S) (f f' : S -> A -> result S) : (forall st x, f' (k st) x = result_map k (f st x)) -> forall l st, foldM f' (k st) l = result_map k (foldM f st l).
Proof. intros H l. induction l as [|x l IH]; intros st; cbn [foldM]; [reflexivity|]. rewrite H, bind_result_map, result_map_bind. apply bind_ext; intros y. apply IH. Qed.
Lemma sc_next_rings step dt heap t n : next_wake_rings step (dt / c) (map sc_ring heap) (sc_wing t) (sc_wing n) = result_map (fun y => (map sc_ring (fst y), sc_wing (snd y))) (next_wake_rings step dt heap t n).
Proof.
  unfold next_wake_rings. cbn zeta. change (w_wake_vertices (sc_wing n)) with (w_wake_vertices n). change (w_wake_rings (sc_wing t)) with (w_wake_rings t). rewrite map_length, result_map_bind. apply bind_ext; intros ids.
  rewrite (mapM_commute (shed_ring (w_wake_vertices n) t) (shed_ring (w_wake_vertices n) (sc_wing t)) sc_ring).
  2: { intros j _. unfold shed_ring. rewrite result_map_bind. apply bind_ext; intros [[[fl fr] bl] br]. change (w_panels (sc_wing t)) with (map (map sc_panel) (w_panels t)). change (w_num_chordwise_panels (sc_wing t)) with (w_num_chordwise_panels t).
       rewrite sc_strength_at, bind_result_map, result_map_bind. apply bind_ext; intros g. rewrite sc_new_ring. reflexivity. }
  rewrite bind_result_map, result_map_bind. apply bind_ext; intros shed. rewrite <- map_app, (sc_foldM (map sc_ring) (move_ring step dt (w_wake_vertices n) ids)) by (intros; apply sc_move_ring).
  rewrite bind_result_map, result_map_bind. apply bind_ext; intros h. reflexivity.
Qed.
Lemma sc_populate step dt convect convect' heap these nexts : (forall v, convect' v = convect v) ->
  populate_wake step (dt / c) convect' (map sc_ring heap) (map sc_airplane these) (map sc_airplane nexts) =
  result_map (fun y => (map sc_ring (fst y), map sc_airplane (snd y))) (populate_wake step dt convect heap these nexts).
Proof.
  intros H. unfold populate_wake. rewrite (sc_for_airplanes (fun u : unit => u) (fun st t n => let* w := next_wake_vertices step convect t n in Ok (st, w))).
  2: { intros st t n. rewrite (sc_next_vertices step convect convect' t n H), bind_result_map, result_map_bind. apply bind_ext. reflexivity. }
  rewrite bind_result_map, result_map_bind. apply bind_ext; intros y. cbn [snd]. apply sc_for_airplanes. intros st t n. apply sc_next_rings.
Qed.
Lemma sc_convect prescribed dt op u v : convect_vertex prescribed (freestream_velocity (faster c r op)) (current_velocity (sc_current u)) (dt / c) v = convect_vertex prescribed (freestream_velocity op) (current_velocity u) dt v.
Proof.
  unfold convect_vertex. f_equal. destruct prescribed; [apply sc_drift|]. rewrite sc_current_velocity.
  replace (nth 0 (map (vscale c) (current_velocity u [v])) vzero) with (vscale c (nth 0 (current_velocity u [v]) vzero)).
  - rewrite vscale_scale. f_equal. field. lra.
  - destruct (current_velocity u [v]); cbn [map nth]; [vring | reflexivity].
Qed.
End Similar.
