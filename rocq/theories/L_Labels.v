(** Labels of airplanes: the parts that all solvers share and the two steady solvers. *)
From Coq Require Import List ZArith Lia Lra Bool Reals String.
From Verif Require Import M_Horseshoe M_Unsteady S_Loads S_Labels L_Base L_Loads L_Horseshoe L_RigidShift L_Rigid L_Similar L_Again L_Reference.
Import ListNotations.
Local Open Scope R_scope.
Local Open Scope list_scope.

Section Labels.
Variable op : operating_point.
Notation wl := wing_renamed.
Notation al := (solved_with_labels op).

Lemma label_fresh lb a : without_coefficients a -> al lb a = with_labels lb a.
Proof. intros [E1 E2]. unfold solved_with_labels, with_labels. rewrite E1, E2. destruct (a_force_wind a), (a_moment_wind a); reflexivity. Qed.
Lemma label_fresh_all lbs l : Forall without_coefficients l -> map2 al lbs l = map2 with_labels lbs l.
Proof. intros F. revert lbs. induction F as [|a l Ha F IH]; intros [|v vs]; cbn [map2]; try reflexivity. rewrite IH, (label_fresh _ _ Ha). reflexivity. Qed.
Lemma label_wings lb a : a_wings (al lb a) = map (wl (lb_wing_name lb)) (a_wings a).
Proof. reflexivity. Qed.
Lemma label_set_wings lb a ws : al lb (a_set_wings ws a) = a_set_wings (map (wl (lb_wing_name lb)) ws) (al lb a).
Proof. reflexivity. Qed.
Lemma label_panels lb a : airplane_panels (al lb a) = airplane_panels a.
Proof. unfold airplane_panels. rewrite label_wings, map_map. reflexivity. Qed.

Lemma label_through (F : wing -> result wing) lb a : (forall f w, F (wl f w) = result_map (wl f) (F w)) ->
  (let* ws := mapM F (a_wings (al lb a)) in Ok (a_set_wings ws (al lb a))) = result_map (al lb) (let* ws := mapM F (a_wings a) in Ok (a_set_wings ws a)).
Proof.
  intros H. rewrite label_wings, (mapM_both F F (wl (lb_wing_name lb)) (wl (lb_wing_name lb))) by (intros; apply H).
  rewrite bind_result_map, result_map_bind. apply bind_ext; intros ws. reflexivity.
Qed.
Lemma label_hs_init u lb a : hs_init_airplane u (al lb a) = al lb (hs_init_airplane u a).
Proof. unfold hs_init_airplane. rewrite label_set_wings, label_wings. f_equal. rewrite !map_map. reflexivity. Qed.
Lemma label_ring_init u lb a : ring_init_airplane u (al lb a) = result_map (al lb) (ring_init_airplane u a).
Proof.
  apply label_through. intros f w. unfold ring_init_wing. change (w_panels (wl f w)) with (w_panels w). change (w_span (wl f w)) with (w_span w).
  rewrite result_map_bind. apply bind_ext; intros m. reflexivity.
Qed.
Lemma label_unsteady_init b drift lb a : unsteady_init_airplane b drift (al lb a) = result_map (al lb) (unsteady_init_airplane b drift a).
Proof.
  apply label_through. intros f w. unfold unsteady_init_wing. change (w_panels (wl f w)) with (w_panels w).
  rewrite result_map_bind. apply bind_ext; intros m. reflexivity.
Qed.
(** ** Rows *)
Definition flat_labelled (x y : airplane * wing * panel) : Prop :=
  a_xyz_ref (fst (fst y)) = a_xyz_ref (fst (fst x)) /\ (exists f, snd (fst y) = wl f (snd (fst x))) /\ snd y = snd x.
Lemma flat_labels lbs l : List.length lbs = List.length l -> Forall2 flat_labelled (flat_panels l) (flat_panels (map2 al lbs l)).
Proof.
  revert lbs. induction l as [|a l IH]; intros [|v vs] E; try discriminate; [constructor|]. cbn in E.
  change (Forall2 flat_labelled (flat_of a ++ flat_panels l) (flat_of (al v a) ++ flat_panels (map2 al vs l))).
  apply Forall2_app; [|apply IH; lia]. unfold flat_of. rewrite label_wings, map_map. induction (a_wings a) as [|w ws IHw]; [constructor|]. cbn [map concat]. apply Forall2_app; [|exact IHw].
  change (w_panels (wl (lb_wing_name v) w)) with (w_panels w). induction (ravel (w_panels w)) as [|p ps IHp]; constructor; [|exact IHp]. split; [reflexivity|]. split; [exists (lb_wing_name v)|]; reflexivity.
Qed.
Lemma label_rows {B} (make : airplane * wing * panel -> result B) lbs l : (forall x y, flat_labelled x y -> make y = make x) -> List.length lbs = List.length l ->
  mapM make (flat_panels (map2 al lbs l)) = mapM make (flat_panels l).
Proof.
  intros H E. generalize (flat_labels lbs l E). generalize (flat_panels (map2 al lbs l)) as ys. generalize (flat_panels l) as xs. intros xs ys F.
  induction F as [|x y xs ys Hx F IH]; [reflexivity|]. cbn [mapM]. rewrite IH, (H x y Hx). reflexivity.
Qed.
Lemma label_hs_collapse lbs l : List.length lbs = List.length l -> hs_collapse (map2 al lbs l) = hs_collapse l.
Proof. apply label_rows. intros [[a w] p] [[a' w'] p'] (H1 & _ & H3). cbn in H1, H3. subst p'. unfold hs_make_row. rewrite H1. reflexivity. Qed.
Lemma label_ring_collapse lbs l : List.length lbs = List.length l -> ring_collapse (map2 al lbs l) = ring_collapse l.
Proof. apply label_rows. intros [[a w] p] [[a' w'] p'] (H1 & _ & H3). cbn in H1, H3. subst p'. unfold ring_make_row. rewrite H1. reflexivity. Qed.
Lemma label_unsteady_collapse lbs l : List.length lbs = List.length l -> unsteady_collapse (map2 al lbs l) = unsteady_collapse l.
Proof. apply label_rows. intros [[a w] p] [[a' w'] p'] (H1 & _ & H3). cbn in H1, H3. subst p'. unfold unsteady_make_row. rewrite H1. reflexivity. Qed.
Lemma label_effectives lbs l gs : List.length lbs = List.length l -> mapM effective_strengths (combine (flat_panels (map2 al lbs l)) gs) = mapM effective_strengths (combine (flat_panels l) gs).
Proof.
  intros E. generalize (flat_labels lbs l E). generalize (flat_panels (map2 al lbs l)) as ys. generalize (flat_panels l) as xs. intros xs ys F. revert gs.
  induction F as [|x y xs ys Hx F IH]; intros [|g gs]; try reflexivity. cbn [combine mapM]. rewrite IH. destruct x as [[a w] p], y as [[b w'] p'], Hx as (_ & (f & Hw) & Hp). cbn in Hw, Hp. subst w' p'. reflexivity.
Qed.
(** ** Strengths and loads *)
Lemma label_update {B} (g : panel -> B -> result panel) lbs l bs : List.length lbs = List.length l ->
  update_panels g (map2 al lbs l) bs = result_map (map2 al lbs) (update_panels g l bs).
Proof.
  intros E. unfold update_panels. rewrite (consume_map2 (consume_airplane g) (consume_airplane g) al al); [| |exact E].
  - rewrite bind_result_map, result_map_bind. apply bind_ext. reflexivity.
  - intros v a xs. unfold consume_airplane. rewrite label_wings. rewrite <- (map_id xs) at 1. rewrite (sc_consume (consume_wing g) (consume_wing g) (wl (lb_wing_name v)) (fun b => b) (wl (lb_wing_name v))).
    + rewrite bind_result_map, result_map_bind. apply bind_ext; intros r. cbn [fst snd result_map]. rewrite map_id. reflexivity.
    + intros w ys. rewrite map_id. unfold consume_wing. change (w_panels (wl (lb_wing_name v) w)) with (w_panels w). rewrite result_map_bind. apply bind_ext; intros r. cbn [fst snd result_map]. rewrite map_id. reflexivity.
Qed.
Lemma label_totals lb a : airplane_totals (mtrans (rotation_wind_to_geometry op)) (dynamic_pressure op) (al lb a) =
  result_map (al lb) (airplane_totals (mtrans (rotation_wind_to_geometry op)) (dynamic_pressure op) a).
Proof.
  unfold airplane_totals. rewrite label_panels, result_map_bind. apply bind_ext; intros fs. rewrite result_map_bind. apply bind_ext; intros ms. cbn [result_map]. f_equal.
  generalize (mvmul (mtrans (rotation_wind_to_geometry op)) (vsum fs)) (mvmul (mtrans (rotation_wind_to_geometry op)) (vsum ms)). intros f m.
  unfold solved_with_labels, a_set_loads. cbn. unfold force_coefficients, force_over, moment_coefficients, moment_over. f_equal; f_equal; f_equal; unfold Rdiv; rewrite !Rinv_mult; ring.
Qed.
Lemma label_process forces moments lbs l : List.length lbs = List.length l -> process_forces op forces moments (map2 al lbs l) = result_map (map2 al lbs) (process_forces op forces moments l).
Proof.
  intros E. unfold process_forces. rewrite label_update by exact E. destruct (update_panels _ l _) as [l'|e] eqn:EU; cbn [bind result_map]; [|reflexivity].
  apply mapM_map2; [exact label_totals|]. rewrite (update_length _ _ _ _ EU). exact E.
Qed.
Lemma label_num lbs l : List.length lbs = List.length l -> num_panels_of (map2 al lbs l) = num_panels_of l.
Proof.
  unfold num_panels_of. generalize 0%nat. revert lbs. induction l as [|a l IH]; intros [|v vs] k E; try discriminate; [reflexivity|]. cbn in E. cbn [map2 fold_left]. apply IH. lia.
Qed.
Lemma label_ring_loads density velocity lbs l rows gs : List.length lbs = List.length l -> ring_loads density velocity (map2 al lbs l) rows gs = ring_loads density velocity l rows gs.
Proof. intros E. unfold ring_loads. rewrite label_effectives by exact E. reflexivity. Qed.
Lemma label_unsteady_loads density dt step velocity lbs l rows last gs : List.length lbs = List.length l ->
  unsteady_loads density dt step velocity (map2 al lbs l) rows last gs = unsteady_loads density dt step velocity l rows last gs.
Proof. intros E. unfold unsteady_loads. rewrite label_effectives by exact E. reflexivity. Qed.
End Labels.

(** ** The steady solvers *)
Lemma label_process_op op thrust nu forces moments lbs l : List.length lbs = List.length l ->
  process_forces (with_nu nu (with_thrust thrust op)) forces moments (map2 (solved_with_labels op) lbs l) = result_map (map2 (solved_with_labels op) lbs) (process_forces op forces moments l).
Proof. exact (label_process op forces moments lbs l). Qed.
Lemma hs_labelled solve op thrust nu lbs l : List.length lbs = List.length l ->
  hs_run solve (hs_new (map2 (solved_with_labels op) lbs l) (with_nu nu (with_thrust thrust op))) = result_map (hs_with_labels lbs thrust nu) (hs_run solve (hs_new l op)).
Proof.
  intros E. unfold hs_run. cbn [hso_op hso_airplanes hso_freestream hso_seed_points hs_new].
  change (hs_init (with_nu nu (with_thrust thrust op))) with (hs_init op). change (freestream_velocity (with_nu nu (with_thrust thrust op))) with (freestream_velocity op). change (op_density (with_nu nu (with_thrust thrust op))) with (op_density op).
  assert (EI : hs_init op (map2 (solved_with_labels op) lbs l) = map2 (solved_with_labels op) lbs (hs_init op l)).
  { unfold hs_init. rewrite map_map2, L_Reference.map2_map_r. apply map2_ext. intros v a. apply label_hs_init. }
  rewrite EI. assert (EN : List.length lbs = List.length (hs_init op l)) by (unfold hs_init; rewrite map_length; exact E). revert EN. generalize (hs_init op l) as l1. intros l1 EN.
  rewrite label_hs_collapse by exact EN. destruct (hs_collapse l1) as [rows|e]; cbn [bind result_map]; [|reflexivity].
  destruct (solve _ _) as [g|e]; cbn [bind result_map]; [|reflexivity]. rewrite label_update by exact EN.
  destruct (update_panels hs_set_strength l1 g) as [l2|e] eqn:Eu; cbn [bind result_map]; [|reflexivity].
  rewrite label_process_op by (rewrite (update_length _ _ _ _ Eu); exact EN).
  destruct (process_forces _ _ _ l2) as [l3|e]; reflexivity.
Qed.
Lemma ring_labelled solve op thrust nu lbs l : List.length lbs = List.length l ->
  ring_run solve (ring_new (map2 (solved_with_labels op) lbs l) (with_nu nu (with_thrust thrust op))) = result_map (ring_with_labels lbs thrust nu) (ring_run solve (ring_new l op)).
Proof.
  intros E. unfold ring_run. cbn [rso_op rso_airplanes rso_freestream rso_seed_points rso_strengths rso_hs_strengths ring_new]. rewrite label_num by exact E.
  change (ring_init (with_nu nu (with_thrust thrust op))) with (ring_init op). change (freestream_velocity (with_nu nu (with_thrust thrust op))) with (freestream_velocity op). change (op_density (with_nu nu (with_thrust thrust op))) with (op_density op).
  assert (EI : ring_init op (map2 (solved_with_labels op) lbs l) = result_map (map2 (solved_with_labels op) lbs) (ring_init op l)) by (apply mapM_map2; [apply label_ring_init | exact E]).
  rewrite EI. destruct (ring_init op l) as [l1|e] eqn:Ei; cbn [bind result_map]; [|reflexivity]. assert (EN : List.length lbs = List.length l1) by (rewrite (mapM_same_length _ _ _ Ei); exact E). clear EI Ei.
  rewrite label_ring_collapse by exact EN. destruct (ring_collapse l1) as [rows|e]; cbn [bind result_map]; [|reflexivity].
  destruct (solve _ _) as [g|e]; cbn [bind result_map]; [|reflexivity]. rewrite label_update by exact EN.
  destruct (update_panels ring_set_strength l1 g) as [l2|e] eqn:Eu; cbn [bind result_map]; [|reflexivity].
  assert (EN2 : List.length lbs = List.length l2) by (rewrite (update_length _ _ _ _ Eu); exact EN).
  rewrite label_ring_loads by exact EN2. destruct (ring_loads _ _ l2 rows g) as [loads|e]; cbn [bind result_map]; [|reflexivity].
  rewrite label_process_op by exact EN2. destruct (process_forces _ _ _ l2) as [l3|e]; reflexivity.
Qed.
