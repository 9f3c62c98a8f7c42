(** Rigid motions of particular kinds: shifts, turns of the flow, another reference point;
    wings built elsewhere. *)
From Coq Require Import Lra Lia.
From Verif Require Import M_Geometry M_Loads S_Geometry S_Mirror S_Loads S_Rigid
  L_Base L_Loads L_Rotations L_Geometry L_Rigid.

Lemma mid_id v : mvmul mid v = v. Proof. vring. Qed.
Lemma mid_proper : proper_rotation mid.
Proof. split; [intros u v; rewrite !mid_id; reflexivity | unfold mid; vunfold; ring]. Qed.
Lemma same_flow op : turned_flow mid op op.
Proof. split; [reflexivity|]. split; [reflexivity|]. intros v. rewrite mid_id. reflexivity. Qed.
Lemma mid_moved t x : moved mid t x = vadd x t. Proof. unfold moved. rewrite mid_id. reflexivity. Qed.
Lemma not_moved x : moved mid vzero x = x. Proof. rewrite mid_moved. vring. Qed.

Lemma mmul_proper a b : proper_rotation a -> proper_rotation b -> proper_rotation (mmul a b).
Proof.
  intros [HA DA] [HB DB]. split.
  - intros u v. rewrite !mvmul_mmul, HA. apply HB.
  - transitivity (mdet a * mdet b); [vring | rewrite DA, DB; ring].
Qed.
Lemma mtrans_proper a : proper_rotation a -> proper_rotation (mtrans a).
Proof. intros H. split; [exact (orthogonal_trans a (proj1 H)) | rewrite mdet_trans; apply H]. Qed.

Lemma turn_between op op' : op_density op' = op_density op -> op_velocity op' = op_velocity op ->
  proper_rotation (turn op op') /\ turned_flow (turn op op') op op'.
Proof.
  intros Hd Hv. split; [apply mmul_proper; [apply w2g_proper | apply mtrans_proper, w2g_proper]|].
  split; [exact Hd|]. split; [exact Hv|]. intros v. unfold turn. rewrite mvmul_mmul.
  apply orthogonal_trans_l, proper_orthogonal, w2g_proper.
Qed.

Lemma radians_plus x y : radians (x + y) = radians x + radians y.
Proof. unfold radians. field. Qed.
Lemma pitch_is_turn d v alpha beta thrust thrust' nu nu' theta :
  proper_rotation (pitch theta) /\
  turned_flow (pitch theta) (mkop d v alpha beta thrust nu) (mkop d v (alpha + theta) beta thrust' nu').
Proof.
  pose proof (sc2 (radians theta)) as Ht. unfold pitch.
  split.
  - split.
    + intros [x y z] [x' y' z']. set (s := sin (radians theta)) in *. set (c := cos (radians theta)) in *. clearbody s c.
      vunfold. transitivity ((s * s + c * c) * (x * x' + z * z') + y * y'); [ring | rewrite Ht; ring].
    + set (s := sin (radians theta)) in *. set (c := cos (radians theta)) in *. clearbody s c.
      vunfold. transitivity (s * s + c * c); [ring | exact Ht].
  - split; [reflexivity|]. split; [reflexivity|]. intros u. rewrite !w2g_explicit. cbn [op_alpha op_beta].
    rewrite radians_plus, cos_plus, sin_plus.
    set (s := sin (radians theta)) in *. set (c := cos (radians theta)) in *.
    set (sa := sin (radians alpha)). set (ca := cos (radians alpha)). set (sb := sin (radians beta)). set (cb := cos (radians beta)).
    clearbody s c sa ca sb cb. destruct u as [x y z]. vunfold.
    assert (E : forall k, k = (s * s + c * c) * k) by (intros k; rewrite Ht; ring).
    apply vec_ext; cbn.
    + rewrite (E (- (ca * cb) * x)), (E (- (sa * cb) * z)). ring.
    + rewrite (E (ca * sb * x)), (E (sa * sb * z)). ring.
    + rewrite (E (sa * x)), (E (- ca * z)). ring.
Qed.

Lemma other_reference_moved l l' : Forall2 other_reference l l' -> moved_airplanes mid vzero l l'.
Proof.
  intros H. unfold moved_airplanes. induction H as [|a a' l l' Ha H IH]; constructor; [|exact IH].
  destruct Ha as (Hw & Hs & Hc & Hb). split; [exact Hs|]. split; [exact Hc|]. split; [exact Hb|]. rewrite Hw. clear Hw.
  induction (a_wings a) as [|w ws IHw]; constructor; [|exact IHw]. split; [reflexivity|]. clear IHw.
  induction (w_panels w) as [|row rows IHr]; constructor; [|exact IHr]. clear IHr.
  induction row as [|p ps IHp]; constructor; [|exact IHp].
  unfold moved_panel. rewrite !not_moved. auto.
Qed.

(** ** Wings built elsewhere *)
Definition shift (d x : vec) : vec := vadd x d.
Definition shift_panel (d : vec) (p : panel) : panel :=
  mkpanel (shift d (p_front_right p)) (shift d (p_front_left p)) (shift d (p_back_left p)) (shift d (p_back_right p))
    (p_is_leading_edge p) (p_is_trailing_edge p) (p_is_right_edge p) (p_is_left_edge p)
    (p_local_chordwise p) (p_local_spanwise p)
    (p_ring_vortex p) (p_horseshoe_vortex p) (p_force_geometry p) (p_moment_geometry p)
    (p_force_wind p) (p_moment_wind p) (p_induced_drag_coefficient p)
    (p_side_force_coefficient p) (p_lift_coefficient p).
Definition shift_grid (d : vec) (g : list (list vec)) : list (list vec) := map (map (shift d)) g.
Definition shift_panels (d : vec) (g : list (list panel)) : list (list panel) := map (map (shift_panel d)) g.
Definition result_map {A B} (f : A -> B) (r : result A) : result B :=
  match r with Ok x => Ok (f x) | Err e => Err e end.
Lemma bind_result_map {A B C} (f : A -> B) (r : result A) (k : B -> result C) :
  bind (result_map f r) k = bind r (fun x => k (f x)).
Proof. destruct r; reflexivity. Qed.
Lemma result_map_bind {A B C} (f : B -> C) (r : result A) (k : A -> result B) :
  result_map f (bind r k) = bind r (fun x => result_map f (k x)).
Proof. destruct r; reflexivity. Qed.
Lemma bind_ext {A B} (r : result A) (k k' : A -> result B) : (forall x, k x = k' x) -> bind r k = bind r k'.
Proof. destruct r; cbn; auto. Qed.

Lemma shift_mcl d le s mcl : section_mcl (shift d le) s mcl = result_map (map (shift d)) (section_mcl le s mcl).
Proof.
  unfold section_mcl. rewrite result_map_bind. apply bind_ext; intros c. rewrite result_map_bind. apply bind_ext; intros u.
  cbn [result_map]. f_equal. rewrite map_map. apply map_ext. intros [x y]. unfold shift. vring.
Qed.
Lemma shift_interp d a b ks : interp_between_points (map (shift d) a) (map (shift d) b) ks = shift_grid d (interp_between_points a b ks).
Proof.
  unfold interp_between_points, shift_grid. revert b. induction a as [|x a IH]; intros [|y b]; cbn [map map2]; try reflexivity.
  f_equal; [|apply IH]. rewrite map_map. apply map_ext. intros k. unfold shift. vring.
Qed.
Lemma tl_map {A B} (f : A -> B) l : tl (map f l) = map f (tl l). Proof. destruct l; reflexivity. Qed.
Lemma removelast_map {A B} (f : A -> B) l : removelast (map f l) = map f (removelast l).
Proof. induction l as [|x l IH]; [reflexivity|]. cbn. destruct l; [reflexivity|]. cbn in *. rewrite IH. reflexivity. Qed.
Definition shift_vertices d (v : vertices) : vertices :=
  mkvertices (shift_grid d (v_front_inner v)) (shift_grid d (v_front_outer v)) (shift_grid d (v_back_inner v)) (shift_grid d (v_back_outer v)).
Lemma shift_split d g : split_vertices (shift_grid d g) = shift_vertices d (split_vertices g).
Proof.
  unfold split_vertices, shift_vertices, shift_grid, but_last. cbn. rewrite !removelast_map, !tl_map, !map_map.
  f_equal; apply map_ext; intros row; rewrite ?removelast_map, ?tl_map; reflexivity.
Qed.
Lemma shift_section_vertices d le i o mi mo ks :
  section_vertices (shift d le) i o mi mo ks = result_map (shift_vertices d) (section_vertices le i o mi mo ks).
Proof.
  unfold section_vertices. rewrite !shift_mcl, bind_result_map, result_map_bind. apply bind_ext; intros a.
  rewrite bind_result_map, result_map_bind. apply bind_ext; intros b. cbn [result_map]. rewrite shift_interp, shift_split. reflexivity.
Qed.
Lemma combine_map {A B C D} (f : A -> C) (g : B -> D) a b : combine (map f a) (map g b) = map (fun p => (f (fst p), g (snd p))) (combine a b).
Proof. revert b; induction a as [|x a IH]; intros [|y b]; cbn; try reflexivity. rewrite IH. reflexivity. Qed.
Lemma mapi_from_map {A B C} (f : A -> B) (g : nat -> B -> C) l k : mapi_from k g (map f l) = mapi_from k (fun i x => g i (f x)) l.
Proof. revert k; induction l as [|x l IH]; intros k; cbn; [reflexivity|]. rewrite IH. reflexivity. Qed.
Lemma map_mapi_from {A B C} (f : B -> C) (g : nat -> A -> B) l k : map f (mapi_from k g l) = mapi_from k (fun i x => f (g i x)) l.
Proof. revert k; induction l as [|x l IH]; intros k; cbn; [reflexivity|]. rewrite IH. reflexivity. Qed.
Lemma mapi_from_ext {A B} (f g : nat -> A -> B) l k : (forall i x, f i x = g i x) -> mapi_from k f l = mapi_from k g l.
Proof. intros H. revert k; induction l as [|x l IH]; intros k; cbn; [reflexivity|]. rewrite IH, H. reflexivity. Qed.
Lemma shift_section_panels d fl fr bl br :
  section_panels (shift_grid d fl) (shift_grid d fr) (shift_grid d bl) (shift_grid d br) = shift_panels d (section_panels fl fr bl br).
Proof.
  unfold section_panels, shift_panels, shift_grid, mapi. rewrite !combine_map, !map_length, mapi_from_map, map_mapi_from.
  apply mapi_from_ext. intros i [[[a b] c] e]. cbn [fst snd]. rewrite !combine_map, !map_map. apply map_ext.
  intros [[[x y] z] u]. reflexivity.
Qed.
Definition shift_spec (d : vec) (w : mesh_spec) : mesh_spec :=
  mkmesh (shift d (ms_leading_edge w)) (ms_unit_normal w) (ms_symmetric w) (ms_num_chordwise w) (ms_chordwise_spacing w).
Lemma shift_right d w i o : right_section (shift_spec d w) i o = result_map (shift_panels d) (right_section w i o).
Proof.
  unfold right_section. cbn [shift_spec ms_leading_edge ms_num_chordwise ms_chordwise_spacing].
  rewrite result_map_bind. apply bind_ext; intros mcls. rewrite shift_section_vertices, bind_result_map, result_map_bind.
  apply bind_ext; intros v. rewrite result_map_bind. apply bind_ext; intros _. cbn [result_map]. f_equal. apply shift_section_panels.
Qed.
Lemma shift_reflect d w g : reflect_grid (shift_spec d w) (shift_grid d g) = shift_grid d (reflect_grid w g).
Proof.
  unfold reflect_grid, shift_grid. rewrite !map_map. apply map_ext. intros row. rewrite !map_map. apply map_ext. intros x.
  cbn [shift_spec ms_unit_normal ms_leading_edge]. unfold shift, reflect_point_across_plane. vring.
Qed.
Lemma shift_left d w i o : left_section (shift_spec d w) i o = result_map (shift_panels d) (left_section w i o).
Proof.
  unfold left_section. cbn [shift_spec ms_leading_edge ms_chordwise_spacing ms_num_chordwise].
  rewrite result_map_bind. apply bind_ext; intros mcls. rewrite shift_section_vertices, bind_result_map, result_map_bind.
  apply bind_ext; intros v. rewrite result_map_bind. apply bind_ext; intros _. cbn [result_map shift_vertices v_front_inner v_front_outer v_back_inner v_back_outer]. f_equal.
  fold (shift_spec d w). rewrite !shift_reflect, shift_section_panels. unfold shift_panels. rewrite !map_map. apply map_ext. intros row. symmetry. apply map_rev.
Qed.
Lemma shift_hstack d a b : hstack (shift_panels d a) (shift_panels d b) = shift_panels d (hstack a b).
Proof.
  unfold shift_panels. revert b; induction a as [|x a IH]; intros [|y b]; cbn; try reflexivity. rewrite IH, map_app. reflexivity.
Qed.
Lemma mesh_sections_step w inner outer l acc : mesh_sections w (inner :: outer :: l) acc =
  let* right_panels := right_section w inner outer in
  let acc := hstack acc right_panels in
  let* acc := if ms_symmetric w
              then let* left_panels := left_section w inner outer in Ok (hstack left_panels acc)
              else Ok acc in
  mesh_sections w (outer :: l) acc.
Proof. reflexivity. Qed.
Lemma shift_mesh_sections d w l acc : mesh_sections (shift_spec d w) l (shift_panels d acc) = result_map (shift_panels d) (mesh_sections w l acc).
Proof.
  revert acc. induction l as [|i l IH]; intros acc; [reflexivity|]. destruct l as [|o l]; [reflexivity|].
  rewrite !mesh_sections_step, shift_right, bind_result_map, result_map_bind. apply bind_ext; intros r.
  cbv zeta. rewrite shift_hstack. change (ms_symmetric (shift_spec d w)) with (ms_symmetric w).
  destruct (ms_symmetric w); [|exact (IH _)].
  rewrite shift_left, bind_result_map. destruct (left_section w i o) as [lp|]; [|reflexivity].
  etransitivity; [|exact (IH (hstack lp (hstack acc r)))]. rewrite <- (shift_hstack d lp). reflexivity.
Qed.
Lemma shift_positions d n m : set_positions n (shift_panels d m) = shift_panels d (set_positions n m).
Proof.
  unfold set_positions, shift_panels, mapi. rewrite mapi_from_map, map_mapi_from. apply mapi_from_ext. intros c row.
  rewrite mapi_from_map, map_mapi_from. apply mapi_from_ext. intros s p. reflexivity.
Qed.
Lemma shift_mesh d w n l : mesh_wing (shift_spec d w) n l = result_map (shift_panels d) (mesh_wing w n l).
Proof.
  unfold mesh_wing. cbn [shift_spec ms_num_chordwise]. fold (shift_spec d w).
  assert (E : shift_panels d (repeat [] (ms_num_chordwise w)) = repeat [] (ms_num_chordwise w)).
  { unfold shift_panels. induction (ms_num_chordwise w) as [|k IH]; [reflexivity|]. cbn. rewrite IH. reflexivity. }
  rewrite <- E at 1.
  rewrite shift_mesh_sections, bind_result_map, result_map_bind. apply bind_ext; intros m. cbn [result_map]. f_equal. apply shift_positions.
Qed.
Lemma shift_is_moved d p : moved_panel mid d p (shift_panel d p).
Proof. unfold moved_panel. rewrite !mid_moved. cbn. auto. Qed.
Lemma shift_panels_moved d m : Forall2 (Forall2 (moved_panel mid d)) m (shift_panels d m).
Proof.
  unfold shift_panels. induction m as [|row m IH]; constructor; [|exact IH].
  induction row as [|p row IHr]; constructor; [apply shift_is_moved | exact IHr].
Qed.
Lemma shift_projected d p n : p_projected_area (shift_panel d p) n = p_projected_area p n.
Proof.
  unfold p_projected_area.
  assert (E1 : p_first_diagonal (shift_panel d p) = p_first_diagonal p) by (unfold p_first_diagonal, shift_panel, shift; cbn; vring).
  assert (E2 : p_second_diagonal (shift_panel d p) = p_second_diagonal p) by (unfold p_second_diagonal, shift_panel, shift; cbn; vring).
  rewrite E1, E2. reflexivity.
Qed.

Lemma wing_elsewhere sections name x y z n sym c nc sp dx dy dz w :
  new_wing sections name x y z n sym c nc sp = Ok w ->
  exists w', new_wing sections name (x + dx) (y + dy) (z + dz) n sym c nc sp = Ok w' /\
    moved_wing (moved_panel mid (mkvec dx dy dz)) w w' /\
    w_projected_area w' = w_projected_area w /\ w_mean_aerodynamic_chord w' = w_mean_aerodynamic_chord w /\
    (well_meshed (w_panels w) /\ well_meshed (w_panels w')).
Proof.
  intros H. pose proof (proj1 (wing_shape _ _ _ _ _ _ _ _ _ _ _ H)) as HM.
  pose proof (shift_mesh (mkvec dx dy dz) (mkmesh (mkvec x y z) n sym nc sp)) as HS.
  unfold shift_spec in HS. cbn [ms_leading_edge ms_unit_normal ms_symmetric ms_num_chordwise ms_chordwise_spacing] in HS.
  change (shift (mkvec dx dy dz) (mkvec x y z)) with (mkvec (x + dx) (y + dy) (z + dz)) in HS.
  assert (H' : exists w', new_wing sections name (x + dx) (y + dy) (z + dz) n sym c nc sp = Ok w' /\
     w' = mkwing (w_sections w) (w_name w) (x + dx) (y + dy) (z + dz) (w_unit_normal w) (w_symmetric w) (w_unit_chordwise w)
            (w_num_chordwise_panels w) (w_chordwise_spacing w) (w_num_spanwise_panels w) (w_num_panels w)
            (shift_panels (mkvec dx dy dz) (w_panels w)) [] []).
  { unfold new_wing in H |- *. cbv zeta in H |- *.
    do 7 (apply bind_Ok in H; destruct H as (? & E & H); rewrite E; cbn [bind]; clear E).
    apply bind_Ok in H; destruct H as (m & E & H). rewrite HS, E. cbn [bind result_map].
    apply Ok_eq in H. subst w. eexists. split; reflexivity. }
  destruct H' as (w' & E & Ew). exists w'. split; [exact E|].
  pose proof (proj1 (wing_shape _ _ _ _ _ _ _ _ _ _ _ E)) as HM'.
  assert (EA : w_projected_area w' = w_projected_area w).
  { unfold w_projected_area. rewrite Ew. unfold w_unit_up. cbn [w_panels w_unit_chordwise w_unit_normal]. f_equal.
    unfold ravel, shift_panels. rewrite <- concat_map, map_map. apply map_ext. intros p. apply shift_projected. }
  split; [split|].
  - rewrite Ew. reflexivity.
  - rewrite Ew. cbn [w_panels]. apply shift_panels_moved.
  - split; [exact EA|]. split; [|split; assumption].
    unfold w_mean_aerodynamic_chord. rewrite EA. rewrite Ew. reflexivity.
Qed.

Lemma airplane_elsewhere wings wings' name name' x y z x' y' z' weight weight' s c b a a' (m : mat) (t : vec) :
  new_airplane wings name x y z weight s c b = Ok a -> new_airplane wings' name' x' y' z' weight' s c b = Ok a' ->
  Forall2 (fun w w' => moved_wing (moved_panel m t) w w' /\ w_projected_area w' = w_projected_area w /\
             w_mean_aerodynamic_chord w' = w_mean_aerodynamic_chord w) wings wings' ->
  moved_airplane (fun _ _ => moved_panel m t) a a'.
Proof.
  intros H H' HF. destruct HF as [|w w' ws ws' (Hw & HA & HC) HF]; [discriminate|].
  unfold new_airplane in H, H'. apply Ok_eq in H, H'. subst a a'. unfold moved_airplane.
  cbn [a_s_ref a_c_ref a_b_ref a_wings]. rewrite HA, HC, (proj1 Hw).
  split; [reflexivity|]. split; [reflexivity|]. split; [reflexivity|]. constructor; [exact Hw|].
  clear Hw HA HC. induction HF as [|v v' vs vs' (Hv & _) HF IH]; constructor; auto.
Qed.
