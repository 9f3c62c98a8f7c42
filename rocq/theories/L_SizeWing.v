(** Wings and airplanes built larger or smaller. *)
From Coq Require Import List Reals Lra Lia Bool.
From Verif Require Import M_Geometry M_Loads S_Geometry S_Mirror S_Loads S_Rigid S_Size
  L_Base L_Loads L_Rotations L_Geometry L_Rigid L_RigidShift L_Size L_SizeSolvers.
Import ListNotations.
Local Open Scope R_scope.

Definition big_panel (k : R) (p : panel) : panel :=
  mkpanel (vscale k (p_front_right p)) (vscale k (p_front_left p)) (vscale k (p_back_left p)) (vscale k (p_back_right p))
    (p_is_leading_edge p) (p_is_trailing_edge p) (p_is_right_edge p) (p_is_left_edge p)
    (p_local_chordwise p) (p_local_spanwise p)
    (p_ring_vortex p) (p_horseshoe_vortex p) (p_force_geometry p) (p_moment_geometry p)
    (p_force_wind p) (p_moment_wind p) (p_induced_drag_coefficient p)
    (p_side_force_coefficient p) (p_lift_coefficient p).
Definition big_grid (k : R) (g : list (list vec)) : list (list vec) := map (map (vscale k)) g.
Definition big_panels (k : R) (g : list (list panel)) : list (list panel) := map (map (big_panel k)) g.

Lemma big_mcl k le s mcl : section_mcl (vscale k le) (enlarged_section k s) mcl = result_map (map (vscale k)) (section_mcl le s mcl).
Proof.
  unfold section_mcl. change (cs_unit_up (enlarged_section k s)) with (cs_unit_up s). change (cs_unit_chordwise (enlarged_section k s)) with (cs_unit_chordwise s).
  rewrite result_map_bind. apply bind_ext; intros c. rewrite result_map_bind. apply bind_ext; intros u.
  cbn [result_map]. f_equal. rewrite map_map. apply map_ext. intros [x y].
  change (cs_leading_edge (enlarged_section k s)) with (vscale k (cs_leading_edge s)). cbn [enlarged_section cs_chord fst snd]. generalize (cs_leading_edge s) (cs_chord s). intros e h. vring.
Qed.
Lemma big_interp k a b ks : interp_between_points (map (vscale k) a) (map (vscale k) b) ks = big_grid k (interp_between_points a b ks).
Proof.
  unfold interp_between_points, big_grid. revert b. induction a as [|x a IH]; intros [|y b]; cbn [map map2]; try reflexivity.
  f_equal; [|apply IH]. rewrite map_map. apply map_ext. intros j. vring.
Qed.
Definition big_vertices k (v : vertices) : vertices :=
  mkvertices (big_grid k (v_front_inner v)) (big_grid k (v_front_outer v)) (big_grid k (v_back_inner v)) (big_grid k (v_back_outer v)).
Lemma big_split k g : split_vertices (big_grid k g) = big_vertices k (split_vertices g).
Proof.
  unfold split_vertices, big_vertices, big_grid, but_last. cbn. rewrite !removelast_map, !tl_map, !map_map.
  f_equal; apply map_ext; intros row; rewrite ?removelast_map, ?tl_map; reflexivity.
Qed.
Lemma big_section_vertices k le i o mi mo ks :
  section_vertices (vscale k le) (enlarged_section k i) (enlarged_section k o) mi mo ks = result_map (big_vertices k) (section_vertices le i o mi mo ks).
Proof.
  unfold section_vertices. rewrite !big_mcl, bind_result_map, result_map_bind. apply bind_ext; intros a.
  rewrite bind_result_map, result_map_bind. apply bind_ext; intros b. cbn [result_map]. rewrite big_interp, big_split. reflexivity.
Qed.
Lemma big_section_panels k fl fr bl br :
  section_panels (big_grid k fl) (big_grid k fr) (big_grid k bl) (big_grid k br) = big_panels k (section_panels fl fr bl br).
Proof.
  unfold section_panels, big_panels, big_grid, mapi. rewrite !combine_map, !map_length, mapi_from_map, map_mapi_from.
  apply mapi_from_ext. intros i [[[a b] c] e]. cbn [fst snd]. rewrite !combine_map, !map_map. apply map_ext.
  intros [[[x y] z] u]. reflexivity.
Qed.
Definition big_spec (k : R) (w : mesh_spec) : mesh_spec :=
  mkmesh (vscale k (ms_leading_edge w)) (ms_unit_normal w) (ms_symmetric w) (ms_num_chordwise w) (ms_chordwise_spacing w).
Lemma big_right k w i o : right_section (big_spec k w) (enlarged_section k i) (enlarged_section k o) = result_map (big_panels k) (right_section w i o).
Proof.
  unfold right_section. cbn [big_spec ms_leading_edge ms_num_chordwise ms_chordwise_spacing].
  change (flapped_camber (spaced (ms_chordwise_spacing w) (S (ms_num_chordwise w))) (enlarged_section k i) (enlarged_section k o) (cs_control_surface_deflection (enlarged_section k i)))
    with (flapped_camber (spaced (ms_chordwise_spacing w) (S (ms_num_chordwise w))) i o (cs_control_surface_deflection i)).
  change (cs_spanwise_spacing (enlarged_section k i)) with (cs_spanwise_spacing i). change (cs_num_spanwise_panels (enlarged_section k i)) with (cs_num_spanwise_panels i).
  rewrite result_map_bind. apply bind_ext; intros mcls. rewrite big_section_vertices, bind_result_map, result_map_bind.
  apply bind_ext; intros v. rewrite result_map_bind. apply bind_ext; intros _. cbn [result_map]. f_equal. apply big_section_panels.
Qed.
Lemma big_reflect k w g : reflect_grid (big_spec k w) (big_grid k g) = big_grid k (reflect_grid w g).
Proof.
  unfold reflect_grid, big_grid. rewrite !map_map. apply map_ext. intros row. rewrite !map_map. apply map_ext. intros x.
  cbn [big_spec ms_unit_normal ms_leading_edge]. generalize (ms_unit_normal w) (ms_leading_edge w). intros n l. unfold reflect_point_across_plane. vring.
Qed.
Lemma big_left k w i o : left_section (big_spec k w) (enlarged_section k i) (enlarged_section k o) = result_map (big_panels k) (left_section w i o).
Proof.
  unfold left_section. cbn [big_spec ms_leading_edge ms_chordwise_spacing ms_num_chordwise].
  change (cs_control_surface_deflection (enlarged_section k i)) with (cs_control_surface_deflection i). change (cs_control_surface_type (enlarged_section k i)) with (cs_control_surface_type i).
  set (dl := if String.eqb _ _ then _ else _).
  change (flapped_camber (spaced (ms_chordwise_spacing w) (S (ms_num_chordwise w))) (enlarged_section k i) (enlarged_section k o) dl)
    with (flapped_camber (spaced (ms_chordwise_spacing w) (S (ms_num_chordwise w))) i o dl).
  change (cs_spanwise_spacing (enlarged_section k i)) with (cs_spanwise_spacing i). change (cs_num_spanwise_panels (enlarged_section k i)) with (cs_num_spanwise_panels i).
  rewrite result_map_bind. apply bind_ext; intros mcls. rewrite big_section_vertices, bind_result_map, result_map_bind.
  apply bind_ext; intros v. rewrite result_map_bind. apply bind_ext; intros _. cbn [result_map big_vertices v_front_inner v_front_outer v_back_inner v_back_outer]. f_equal.
  fold (big_spec k w). rewrite !big_reflect, big_section_panels. unfold big_panels. rewrite !map_map. apply map_ext. intros row. symmetry. apply map_rev.
Qed.
Lemma big_hstack k a b : hstack (big_panels k a) (big_panels k b) = big_panels k (hstack a b).
Proof.
  unfold big_panels. revert b; induction a as [|x a IH]; intros [|y b]; cbn; try reflexivity. rewrite IH, map_app. reflexivity.
Qed.
Lemma big_mesh_sections k w l acc : mesh_sections (big_spec k w) (map (enlarged_section k) l) (big_panels k acc) = result_map (big_panels k) (mesh_sections w l acc).
Proof.
  revert acc. induction l as [|i l IH]; intros acc; [reflexivity|]. destruct l as [|o l]; [reflexivity|].
  cbn [map]. rewrite !mesh_sections_step, big_right, bind_result_map, result_map_bind. apply bind_ext; intros r.
  cbv zeta. rewrite big_hstack. change (ms_symmetric (big_spec k w)) with (ms_symmetric w).
  destruct (ms_symmetric w); [|exact (IH _)].
  rewrite big_left, bind_result_map. destruct (left_section w i o) as [lp|]; [|reflexivity].
  etransitivity; [|exact (IH (hstack lp (hstack acc r)))]. rewrite <- (big_hstack k lp). reflexivity.
Qed.
Lemma big_positions k n m : set_positions n (big_panels k m) = big_panels k (set_positions n m).
Proof.
  unfold set_positions, big_panels, mapi. rewrite mapi_from_map, map_mapi_from. apply mapi_from_ext. intros c row.
  rewrite mapi_from_map, map_mapi_from. apply mapi_from_ext. intros s p. reflexivity.
Qed.
Lemma big_mesh k w n l : mesh_wing (big_spec k w) n (map (enlarged_section k) l) = result_map (big_panels k) (mesh_wing w n l).
Proof.
  unfold mesh_wing. cbn [big_spec ms_num_chordwise]. fold (big_spec k w).
  assert (E : big_panels k (repeat [] (ms_num_chordwise w)) = repeat [] (ms_num_chordwise w)).
  { unfold big_panels. induction (ms_num_chordwise w) as [|j IH]; [reflexivity|]. cbn. rewrite IH. reflexivity. }
  rewrite <- E at 1.
  rewrite big_mesh_sections, bind_result_map, result_map_bind. apply bind_ext; intros m. cbn [result_map]. f_equal. apply big_positions.
Qed.
Lemma big_is_enlarged k p : enlarged_panel k p (big_panel k p).
Proof. repeat split. Qed.
Lemma big_panels_enlarged k m : Forall2 (Forall2 (enlarged_panel k)) m (big_panels k m).
Proof.
  unfold big_panels. induction m as [|row m IH]; constructor; [|exact IH].
  induction row as [|p row IHr]; constructor; [apply big_is_enlarged | exact IHr].
Qed.
Lemma big_projected k p n : p_projected_area (big_panel k p) n = k ^ 2 * p_projected_area p n.
Proof.
  unfold p_projected_area.
  assert (E1 : p_first_diagonal (big_panel k p) = vscale k (p_first_diagonal p)) by (unfold p_first_diagonal, big_panel; cbn; vring).
  assert (E2 : p_second_diagonal (big_panel k p) = vscale k (p_second_diagonal p)) by (unfold p_second_diagonal, big_panel; cbn; vring).
  cbv zeta. rewrite E1, E2. generalize (p_first_diagonal p) (p_second_diagonal p). intros u v.
  assert (E : forall u : vec, vsub (vscale k u) (vscale (vdot (vscale k u) n) n) = vscale k (vsub u (vscale (vdot u n) n))) by (intros [a b c]; destruct n; vunfold; apply vec_ext; cbn; ring).
  rewrite !E, big_cross, big_norm by nra. unfold Rdiv. ring.
Qed.
Lemma map_chordwise k v l : map (cs_set_wing_chordwise v) (map (enlarged_section k) l) = map (enlarged_section k) (map (cs_set_wing_chordwise v) l).
Proof. rewrite !map_map. reflexivity. Qed.
Lemma big_nth_le k l i : nth_leading_edge (map (enlarged_section k) l) i = vscale k (nth_leading_edge l i).
Proof.
  unfold nth_leading_edge. rewrite nth_error_map. destruct (nth_error l i) as [s|]; cbn [option_map]; [reflexivity | rewrite vscale_0_r; reflexivity].
Qed.
Lemma map2_step {A B C} (f : A -> B -> C) x a y b : map2 f (x :: a) (y :: b) = f x y :: map2 f a b. Proof. reflexivity. Qed.
Lemma big_along n k (d : vec) : 0 <= k -> vnorm (vscale (vdot (vscale k d) n) n) = k * vnorm (vscale (vdot d n) n).
Proof. intros Hk. rewrite <- big_norm by exact Hk. f_equal. vring. Qed.
Lemma big_mac n k l : 0 < k -> rsum (map2 (mac_term n) (map (enlarged_section k) l) (tl (map (enlarged_section k) l))) = k ^ 3 * rsum (map2 (mac_term n) l (tl l)).
Proof.
  intros Hk. destruct l as [|a l]; [cbn; ring|]. cbn [map tl]. revert a. induction l as [|b l IH]; intros a; [cbn; ring|]. cbn [map].
  rewrite !map2_step, !rsum_cons, IH.
  assert (E : mac_term n (enlarged_section k a) (enlarged_section k b) = k ^ 3 * mac_term n a b); [|rewrite E; ring].
  unfold mac_term. cbv zeta. change (cs_leading_edge (enlarged_section k a)) with (vscale k (cs_leading_edge a)). change (cs_leading_edge (enlarged_section k b)) with (vscale k (cs_leading_edge b)).
  rewrite big_sub, big_along by lra. cbn [enlarged_section cs_chord]. unfold Rdiv. ring.
Qed.

Lemma big_same k v : 0 < k -> vscale k v = vzero <-> v = vzero.
Proof.
  intros Hk. split; [|intros ->; apply vscale_0_r]. intros E. pose proof (f_equal vx E) as E1. pose proof (f_equal vy E) as E2. pose proof (f_equal vz E) as E3. destruct v as [a b c]. cbn in E1, E2, E3.
  apply vec_ext; cbn; nra.
Qed.
Lemma big_count k l sym : count_spanwise (map (enlarged_section k) l) sym = count_spanwise l sym.
Proof.
  unfold count_spanwise. rewrite removelast_map. assert (E : forall l n, fold_left (fun n s => n + cs_num_spanwise_panels s)%nat (map (enlarged_section k) l) n = fold_left (fun n s => n + cs_num_spanwise_panels s)%nat l n).
  { clear. intros l. induction l as [|s l IH]; intros n; [reflexivity|]. cbn [map fold_left]. apply IH. }
  rewrite E. reflexivity.
Qed.
Lemma wing_enlarged k sections name x y z n sym c nc sp w : 0 < k ->
  new_wing sections name x y z n sym c nc sp = Ok w ->
  exists w', new_wing (map (enlarged_section k) sections) name (k * x) (k * y) (k * z) n sym c nc sp = Ok w' /\
    enlarged_wing k (enlarged_panel k) w w' /\
    w_projected_area w' = k ^ 2 * w_projected_area w /\ w_mean_aerodynamic_chord w' = k * w_mean_aerodynamic_chord w /\
    (well_meshed (w_panels w) /\ well_meshed (w_panels w')).
Proof.
  intros Hk H. pose proof (proj1 (wing_shape _ _ _ _ _ _ _ _ _ _ _ H)) as HM.
  pose proof (big_mesh k (mkmesh (mkvec x y z) n sym nc sp)) as HS.
  unfold big_spec in HS. cbn [ms_leading_edge ms_unit_normal ms_symmetric ms_num_chordwise ms_chordwise_spacing] in HS.
  change (vscale k (mkvec x y z)) with (mkvec (k * x) (k * y) (k * z)) in HS.
  assert (H' : exists w', new_wing (map (enlarged_section k) sections) name (k * x) (k * y) (k * z) n sym c nc sp = Ok w' /\
     w' = mkwing (map (enlarged_section k) (w_sections w)) (w_name w) (k * x) (k * y) (k * z) (w_unit_normal w) (w_symmetric w) (w_unit_chordwise w)
            (w_num_chordwise_panels w) (w_chordwise_spacing w) (w_num_spanwise_panels w) (w_num_panels w)
            (big_panels k (w_panels w)) [] []).
  { unfold new_wing in H |- *. cbv zeta in H |- *. rewrite map_length, big_count, map_chordwise.
    do 2 (apply bind_Ok in H; destruct H as (? & E & H); rewrite E; cbn [bind]; clear E).
    apply bind_Ok in H; destruct H as (root & E & H). unfold index in E |- *. rewrite nth_error_map. destruct (nth_error sections 0) as [r|]; [|discriminate]. apply Ok_eq in E. subst r. cbn [option_map bind].
    change (cs_unit_normal (enlarged_section k root)) with (cs_unit_normal root).
    apply bind_Ok in H; destruct H as (? & E & H); rewrite E; cbn [bind]; clear E.
    apply bind_Ok in H; destruct H as (? & E & H). change (cs_leading_edge (enlarged_section k root)) with (vscale k (cs_leading_edge root)).
    unfold check in E. destruct (veqb (cs_leading_edge root) vzero) eqn:EV; [|discriminate]. apply veqb_true in EV. rewrite EV, vscale_0_r.
    replace (veqb vzero vzero) with true by (symmetry; apply veqb_true; reflexivity). cbn [check bind].
    apply bind_Ok in H; destruct H as (? & E' & H); rewrite E'; cbn [bind]; clear E'.
    apply bind_Ok in H; destruct H as (? & E' & H).
    assert (EF : forall l, forallb (fun s => veqb (vcross (vcross n (cs_unit_normal s)) c) vzero) (map (enlarged_section k) l) = forallb (fun s => veqb (vcross (vcross n (cs_unit_normal s)) c) vzero) l).
    { clear. induction l as [|s l IH]; [reflexivity|]. cbn [map forallb]. rewrite IH. reflexivity. }
    rewrite EF, E'. cbn [bind]. clear E' EF.
    apply bind_Ok in H; destruct H as (m & E' & H). rewrite HS, E'. cbn [bind result_map].
    apply Ok_eq in H. subst w. eexists. split; reflexivity. }
  destruct H' as (w' & E & Ew). exists w'. split; [exact E|].
  pose proof (proj1 (wing_shape _ _ _ _ _ _ _ _ _ _ _ E)) as HM'.
  assert (EA : w_projected_area w' = k ^ 2 * w_projected_area w).
  { unfold w_projected_area. rewrite Ew. unfold w_unit_up. cbn [w_panels w_unit_chordwise w_unit_normal].
    unfold ravel, big_panels. rewrite <- concat_map, map_map. generalize (vcross (w_unit_chordwise w) (w_unit_normal w)) (concat (w_panels w)). clear. intros u l.
    induction l as [|p l IH]; cbn [map]; rewrite ?rsum_cons, ?rsum_nil; [ring|]. rewrite IH, big_projected. ring. }
  split; [split|].
  - rewrite Ew. unfold w_span. cbn [w_sections w_symmetric w_unit_normal]. rewrite map_length, !big_nth_le, big_sub, big_along by lra. destruct (w_symmetric w); ring.
  - rewrite Ew. cbn [w_panels]. apply big_panels_enlarged.
  - split; [exact EA|]. split; [|split; assumption].
    unfold w_mean_aerodynamic_chord. rewrite EA. rewrite Ew. cbn [w_sections w_unit_normal w_symmetric]. rewrite big_mac by exact Hk.
    unfold Rdiv. rewrite Rinv_mult. generalize (/ w_projected_area w). intros A. destruct (w_symmetric w); field; lra.
Qed.
Lemma airplane_enlarged k wings wings' name name' x y z weight weight' s c b a a' :
  new_airplane wings name x y z weight s c b = Ok a ->
  new_airplane wings' name' (k * x) (k * y) (k * z) weight' (option_map (Rmult (k ^ 2)) s) (option_map (Rmult k) c) (option_map (Rmult k) b) = Ok a' ->
  Forall2 (fun w w' => enlarged_wing k (enlarged_panel k) w w' /\ w_projected_area w' = k ^ 2 * w_projected_area w /\
             w_mean_aerodynamic_chord w' = k * w_mean_aerodynamic_chord w) wings wings' ->
  enlarged_airplane k (enlarged_panel k) a a'.
Proof.
  intros H H' HF. destruct HF as [|w w' ws ws' (Hw & HA & HC) HF]; [discriminate|].
  unfold new_airplane in H, H'. apply Ok_eq in H, H'. subst a a'. unfold enlarged_airplane.
  cbn [a_s_ref a_c_ref a_b_ref a_wings]. rewrite HA, HC, (proj1 Hw).
  split; [destruct s; reflexivity|]. split; [destruct c; reflexivity|]. split; [destruct b; reflexivity|]. split; [reflexivity|]. constructor; [exact Hw|].
  clear Hw HA HC. induction HF as [|v v' vs vs' (Hv & _) HF IH]; constructor; auto.
Qed.
