(** Moving the reference point: the parts that all solvers share. *)
From Coq Require Import List ZArith Lia Lra Bool Reals.
From Verif Require Import M_Horseshoe M_Unsteady S_Loads S_Reference L_Base L_Loads L_Horseshoe L_RigidShift L_Rigid L_Similar L_Again.
Import ListNotations.
Local Open Scope R_scope.
Local Open Scope list_scope.

(** ** Lists *)
Lemma mapM_map2 {A B C} (f : B -> result C) (f' : B -> result C) (g : A -> B -> B) (h : A -> C -> C) vs l :
  (forall v x, f' (g v x) = result_map (h v) (f x)) -> length vs = length l ->
  mapM f' (map2 g vs l) = result_map (map2 h vs) (mapM f l).
Proof.
  intros H. revert vs. induction l as [|x l IH]; intros [|v vs] E; try discriminate; [reflexivity|]. cbn [map2 mapM]. cbn in E.
  rewrite H, bind_result_map, result_map_bind. apply bind_ext; intros y. rewrite IH by lia. rewrite bind_result_map, result_map_bind. apply bind_ext; intros ys. reflexivity.
Qed.
Lemma map2_map_r {A B C D} (f : A -> C -> D) (g : B -> C) vs l : map2 f vs (map g l) = map2 (fun v x => f v (g x)) vs l.
Proof. revert vs. induction l as [|x l IH]; intros [|v vs]; cbn; try reflexivity. rewrite IH. reflexivity. Qed.
Lemma map_map2 {A B C D} (f : C -> D) (g : A -> B -> C) vs l : map f (map2 g vs l) = map2 (fun v x => f (g v x)) vs l.
Proof. revert vs. induction l as [|x l IH]; intros [|v vs]; cbn; try reflexivity. rewrite IH. reflexivity. Qed.
Lemma map2_ext {A B C} (f g : A -> B -> C) vs l : (forall v x, f v x = g v x) -> map2 f vs l = map2 g vs l.
Proof. intros H. revert vs. induction l as [|x l IH]; intros [|v vs]; cbn; try reflexivity. rewrite IH, H. reflexivity. Qed.
Lemma map2_same_length {A B C} (f : A -> B -> C) vs l : length vs = length l -> length (map2 f vs l) = length l.
Proof. intros E. rewrite map2_length. lia. Qed.
Lemma consume_length {A B C} (f : A -> list B -> result (C * list B)) l bs r : consume f l bs = Ok r -> length (fst r) = length l.
Proof.
  revert bs r. induction l as [|x l IH]; intros bs r H; cbn [consume] in H; [inversion H; reflexivity|].
  apply bind_Ok in H. destruct H as (y & _ & H). apply bind_Ok in H. destruct H as (z & Ez & H). inversion H. cbn. rewrite (IH _ _ Ez). reflexivity.
Qed.
Lemma update_length {B} (g : panel -> B -> result panel) l bs l' : update_panels g l bs = Ok l' -> length l' = length l.
Proof. unfold update_panels. intros H. apply bind_Ok in H. destruct H as (r & E & H). inversion H. apply (consume_length _ _ _ _ E). Qed.
Lemma mapM_same_length {A B} (f : A -> result B) l l' : mapM f l = Ok l' -> length l' = length l.
Proof.
  revert l'. induction l as [|x l IH]; intros l' H; cbn [mapM] in H; [inversion H; reflexivity|].
  apply bind_Ok in H. destruct H as (y & _ & H). apply bind_Ok in H. destruct H as (z & Ez & H). inversion H. cbn. rewrite (IH _ Ez). reflexivity.
Qed.

Lemma bind_both {A B} (a b : result A) (f g : A -> result B) : a = b -> (forall x, f x = g x) -> bind a f = bind b g.
Proof. intros -> H. apply bind_ext. exact H. Qed.

Section Reference.
Variable op : operating_point.
Notation pa := (panel_about op).
Notation wa := (wing_about op).
Notation aa := (airplane_about op).
Definition lever (v : vec) (a : airplane) : vec := vsub v (a_xyz_ref a).

(** ** The airplane about another point *)
Lemma about_fresh v a : without_moments a -> aa v a = with_reference v a.
Proof.
  intros (E1 & E2 & F). unfold airplane_about, with_reference. rewrite E1, E2.
  assert (EW : forall d, map (wing_about op d) (a_wings a) = a_wings a).
  { intros d. rewrite <- (map_id (a_wings a)) at 2. apply map_ext_in. intros w Hw. rewrite Forall_forall in F. specialize (F w Hw).
    unfold wing_about. assert (EP : map (map (pa d)) (w_panels w) = w_panels w).
    { rewrite <- (map_id (w_panels w)) at 2. apply map_ext_in. intros row Hr. rewrite <- (map_id row) at 2. apply map_ext_in. intros p Hp.
      rewrite Forall_forall in F. specialize (F row Hr). rewrite Forall_forall in F. destruct (F p Hp) as [M1 M2].
      unfold panel_about. rewrite M1, M2. destruct p as [? ? ? ? ? ? ? ? ? ? ? ? f m fw mw ? ? ?]. cbn in M1, M2 |- *. subst m mw. destruct f, fw; reflexivity. }
    rewrite EP. destruct w; reflexivity. }
  rewrite EW. destruct (a_force_wind a); reflexivity.
Qed.
Lemma about_fresh_all vs l : Forall without_moments l -> map2 aa vs l = map2 with_reference vs l.
Proof. intros F. revert vs. induction F as [|a l Ha F IH]; intros [|v vs]; cbn; try reflexivity. rewrite IH, (about_fresh _ _ Ha). reflexivity. Qed.
Lemma about_ref v a : a_xyz_ref (aa v a) = v.
Proof. destruct v; reflexivity. Qed.
Lemma about_set_wings v a ws : aa v (a_set_wings ws a) = a_set_wings (map (wa (lever v a)) ws) (aa v a).
Proof. reflexivity. Qed.
Lemma about_wings v a : a_wings (aa v a) = map (wa (lever v a)) (a_wings a).
Proof. reflexivity. Qed.
Lemma about_panels v a : airplane_panels (aa v a) = map (pa (lever v a)) (airplane_panels a).
Proof.
  unfold airplane_panels. rewrite about_wings, map_map, concat_map, map_map. f_equal. apply map_ext. intros w. unfold ravel, wing_about. cbn [w_panels w_set_panels]. rewrite concat_map. reflexivity.
Qed.
Lemma about_wing_panels d w : w_panels (wa d w) = map (map (pa d)) (w_panels w).
Proof. reflexivity. Qed.
Lemma about_geometry d p : p_collocation_point (pa d p) = p_collocation_point p /\ p_unit_normal (pa d p) = p_unit_normal p /\ p_area (pa d p) = p_area p /\
  p_front_left_vortex_vertex (pa d p) = p_front_left_vortex_vertex p /\ p_front_right_vortex_vertex (pa d p) = p_front_right_vortex_vertex p.
Proof. repeat split. Qed.

(** ** Functions that go through the wings *)
Lemma about_through (F : wing -> result wing) v a :
  (forall d w, F (wa d w) = result_map (wa d) (F w)) ->
  (let* ws := mapM F (a_wings (aa v a)) in Ok (a_set_wings ws (aa v a))) = result_map (aa v) (let* ws := mapM F (a_wings a) in Ok (a_set_wings ws a)).
Proof.
  intros H. rewrite about_wings, (mapM_both F F (wa (lever v a)) (wa (lever v a))) by (intros; apply H).
  rewrite bind_result_map, result_map_bind. apply bind_ext; intros ws. reflexivity.
Qed.
Lemma mapiM_both {A B A' B'} (f : nat -> A -> result B) (f' : nat -> A' -> result B') (h : A -> A') (g : B -> B') l :
  (forall i x, f' i (h x) = result_map g (f i x)) -> mapiM f' (map h l) = result_map (map g) (mapiM f l).
Proof.
  intros H. unfold mapiM. rewrite map_length. replace (combine (seq 0 (length l)) (map h l)) with (map (fun ix : nat * A => (fst ix, h (snd ix))) (combine (seq 0 (length l)) l)).
  - apply mapM_both. intros [i x]. apply H.
  - rewrite <- (map_id (seq 0 (length l))) at 2. rewrite combine_map_map. reflexivity.
Qed.
Lemma about_at d m i j : panel_at (map (map (pa d)) m) i j = result_map (pa d) (panel_at m i j).
Proof. unfold panel_at. rewrite index_map, bind_result_map, result_map_bind. apply bind_ext; intros row. apply index_map. Qed.
Lemma about_strength_at d m i j : ring_strength_at (map (map (pa d)) m) i j = ring_strength_at m i j.
Proof. unfold ring_strength_at. rewrite about_at, bind_result_map. apply bind_ext; intros p. reflexivity. Qed.

Lemma about_hs_init u v a : hs_init_airplane u (aa v a) = aa v (hs_init_airplane u a).
Proof.
  unfold hs_init_airplane. rewrite about_set_wings, about_wings. f_equal. rewrite !map_map. apply map_ext. intros w. unfold hs_init_wing, wing_about. cbn [w_panels w_set_panels].
  unfold w_set_panels. cbn. f_equal. rewrite !map_map. apply map_ext. intros row. rewrite !map_map. apply map_ext. intros p. reflexivity.
Qed.
Lemma about_ring_init u v a : ring_init_airplane u (aa v a) = result_map (aa v) (ring_init_airplane u a).
Proof.
  apply about_through. intros d w. unfold ring_init_wing. rewrite about_wing_panels.
  rewrite (mapiM_both (fun c row => mapiM (fun s p => ring_init_panel u (w_span w * 20) (w_panels w) c s p) row) _ (map (pa d)) (map (pa d))).
  - rewrite bind_result_map, result_map_bind. apply bind_ext; intros m. reflexivity.
  - intros c row. apply mapiM_both. intros s p. unfold ring_init_panel. change (p_is_trailing_edge (pa d p)) with (p_is_trailing_edge p). destruct (p_is_trailing_edge p); [reflexivity|].
    rewrite about_at, bind_result_map, result_map_bind. apply bind_ext; intros next. reflexivity.
Qed.
Lemma about_unsteady_init b drift v a : unsteady_init_airplane b drift (aa v a) = result_map (aa v) (unsteady_init_airplane b drift a).
Proof.
  apply about_through. intros d w. unfold unsteady_init_wing. rewrite about_wing_panels.
  rewrite (mapiM_both (fun c row => mapiM (fun s p => unsteady_init_panel b drift (w_panels w) c s p) row) _ (map (pa d)) (map (pa d))).
  - rewrite bind_result_map, result_map_bind. apply bind_ext; intros m. reflexivity.
  - intros c row. apply mapiM_both. intros s p. unfold unsteady_init_panel. change (p_is_trailing_edge (pa d p)) with (p_is_trailing_edge p). destruct (p_is_trailing_edge p); [reflexivity|].
    rewrite about_at, bind_result_map, result_map_bind. apply bind_ext; intros next. reflexivity.
Qed.

(** ** Walking over the panels *)
Definition flat_about (x y : airplane * wing * panel) : Prop := exists d, snd (fst y) = wa d (snd (fst x)) /\ snd y = pa d (snd x).
Definition flat_of (a : airplane) : list (airplane * wing * panel) := concat (map (fun w => map (fun p => (a, w, p)) (ravel (w_panels w))) (a_wings a)).
Lemma flat_of_about v a : flat_of (aa v a) = map (fun x => (aa v a, wa (lever v a) (snd (fst x)), pa (lever v a) (snd x))) (flat_of a).
Proof.
  unfold flat_of. rewrite about_wings, map_map, concat_map, map_map. f_equal. apply map_ext. intros w. rewrite about_wing_panels. unfold ravel. rewrite <- concat_map, !map_map. reflexivity.
Qed.
Lemma flat_of_length a : length (flat_of a) = length (airplane_panels a).
Proof. unfold flat_of, airplane_panels. induction (a_wings a) as [|w ws IH]; [reflexivity|]. cbn [map concat]. rewrite !app_length, map_length, IH. reflexivity. Qed.
Lemma flat_of_own a x : In x (flat_of a) -> fst (fst x) = a.
Proof.
  unfold flat_of. intros H. apply in_concat in H. destruct H as (l & Hl & Hx). apply in_map_iff in Hl. destruct Hl as (w & <- & _). apply in_map_iff in Hx. destruct Hx as (p & <- & _). reflexivity.
Qed.
Lemma flat_abouts vs l : length vs = length l -> Forall2 flat_about (flat_panels l) (flat_panels (map2 aa vs l)).
Proof.
  revert vs. induction l as [|a l IH]; intros [|v vs] E; try discriminate; [constructor|]. cbn in E. change (Forall2 flat_about (flat_of a ++ flat_panels l) (flat_of (aa v a) ++ flat_panels (map2 aa vs l))).
  apply Forall2_app; [|apply IH; lia]. rewrite flat_of_about. generalize (flat_of a) as xs. induction xs as [|x xs IHx]; [constructor|]. cbn [map]. constructor; [|exact IHx]. exists (lever v a). split; reflexivity.
Qed.
(** The levers of all panels. *)
Definition levers (vs : list vec) (l : list airplane) : list vec :=
  concat (map2 (fun v a => repeat (lever v a) (length (airplane_panels a))) vs l).
Lemma map2_repeat {A B C} (f : A -> B -> C) d l : map2 f (repeat d (length l)) l = map (f d) l.
Proof. induction l as [|x l IH]; [reflexivity|]. cbn. rewrite IH. reflexivity. Qed.
Lemma map2_app2 {A B C} (f : A -> B -> C) l1 l2 m1 m2 : length l1 = length m1 -> map2 f (l1 ++ l2) (m1 ++ m2) = map2 f l1 m1 ++ map2 f l2 m2.
Proof. revert m1. induction l1 as [|x l1 IH]; intros [|y m1] E; try discriminate; [reflexivity|]. cbn. cbn in E. rewrite IH by lia. reflexivity. Qed.
Lemma mapM_append {A B} (f : A -> result B) l m : mapM f (l ++ m) = (let* x := mapM f l in let* y := mapM f m in Ok (x ++ y)).
Proof.
  induction l as [|x l IH]; cbn [app mapM bind]; [destruct (mapM f m); reflexivity|]. destruct (f x); cbn [bind]; [|reflexivity]. rewrite IH. destruct (mapM f l); cbn [bind]; [|reflexivity]. destruct (mapM f m); reflexivity.
Qed.
Lemma flat_rows {B} (make : airplane * wing * panel -> result B) (shift : vec -> B -> B) vs l :
  (forall v a w p, make (aa v a, wa (lever v a) w, pa (lever v a) p) = result_map (shift (lever v a)) (make (a, w, p))) -> length vs = length l ->
  mapM make (flat_panels (map2 aa vs l)) = result_map (map2 shift (levers vs l)) (mapM make (flat_panels l)).
Proof.
  intros H. revert vs. induction l as [|a l IH]; intros [|v vs] E; try discriminate; [reflexivity|]. cbn in E.
  change (flat_panels (map2 aa (v :: vs) (a :: l))) with (flat_of (aa v a) ++ flat_panels (map2 aa vs l)). change (flat_panels (a :: l)) with (flat_of a ++ flat_panels l).
  rewrite !mapM_append, flat_of_about.
  assert (EM : mapM make (map (fun x => (aa v a, wa (lever v a) (snd (fst x)), pa (lever v a) (snd x))) (flat_of a)) = result_map (map (shift (lever v a))) (mapM make (flat_of a))).
  { rewrite mapM_map. apply mapM_commute. intros [[b w] p] Hx. apply flat_of_own in Hx. cbn [fst snd] in Hx |- *. subst b. apply H. }
  rewrite EM, IH by lia. destruct (mapM make (flat_of a)) as [xs|e] eqn:Ex; cbn [bind result_map]; [|reflexivity]. destruct (mapM make (flat_panels l)) as [ys|e]; cbn [bind result_map]; [|reflexivity].
  apply mapM_same_length in Ex. unfold levers. cbn [map2 concat]. rewrite map2_app2 by (rewrite repeat_length, Ex; symmetry; apply flat_of_length). rewrite <- flat_of_length, <- Ex, map2_repeat. reflexivity.
Qed.
Lemma levers_length vs l : length vs = length l -> length (levers vs l) = length (flat_panels l).
Proof.
  revert vs. induction l as [|a l IH]; intros [|v vs] E; try discriminate; [reflexivity|]. cbn in E. unfold levers. cbn [map2 concat]. change (flat_panels (a :: l)) with (flat_of a ++ flat_panels l).
  rewrite !app_length, repeat_length, flat_of_length. f_equal. apply IH. lia.
Qed.
Definition hs_shift (d : vec) (r : hs_row) : hs_row := mkhsrow (pa d (hr_panel r)) (vadd d (hr_ref r)) (hr_vortex r).
Definition ring_shift (d : vec) (r : ring_row) : ring_row :=
  mkringrow (pa d (rr_panel r)) (vadd d (rr_ref r)) (rr_vortex r) (rr_hs_back_right r) (rr_hs_front_right r) (rr_hs_front_left r) (rr_hs_back_left r).
Lemma lever_ref v a : a_xyz_ref (aa v a) = vadd (lever v a) (a_xyz_ref a).
Proof. rewrite about_ref. unfold lever. vring. Qed.
Lemma about_hs_collapse vs l : length vs = length l -> hs_collapse (map2 aa vs l) = result_map (map2 hs_shift (levers vs l)) (hs_collapse l).
Proof.
  apply flat_rows. intros v a w p. unfold hs_make_row. rewrite lever_ref. change (p_horseshoe_vortex (pa (lever v a) p)) with (p_horseshoe_vortex p). destruct (p_horseshoe_vortex p); reflexivity.
Qed.
Lemma about_ring_collapse vs l : length vs = length l -> ring_collapse (map2 aa vs l) = result_map (map2 ring_shift (levers vs l)) (ring_collapse l).
Proof.
  apply flat_rows. intros v a w p. unfold ring_make_row. rewrite lever_ref. change (p_horseshoe_vortex (pa (lever v a) p)) with (p_horseshoe_vortex p).
  change (p_ring_vortex (pa (lever v a) p)) with (p_ring_vortex p). change (p_is_trailing_edge (pa (lever v a) p)) with (p_is_trailing_edge p).
  destruct (p_ring_vortex p); [|reflexivity]. destruct (p_is_trailing_edge p); [|reflexivity]. destruct (p_horseshoe_vortex p); reflexivity.
Qed.
Lemma about_unsteady_collapse vs l : length vs = length l -> unsteady_collapse (map2 aa vs l) = result_map (map2 ring_shift (levers vs l)) (unsteady_collapse l).
Proof.
  apply flat_rows. intros v a w p. unfold unsteady_make_row. rewrite lever_ref. change (p_ring_vortex (pa (lever v a) p)) with (p_ring_vortex p). destruct (p_ring_vortex p); reflexivity.
Qed.
(** What the rows give apart from the reference points. *)
Lemma shift_map {A B} (f : B -> A) (shift : vec -> B -> B) ds rows : (forall d r, f (shift d r) = f r) -> length ds = length rows -> map f (map2 shift ds rows) = map f rows.
Proof. intros H. revert ds. induction rows as [|r rows IH]; intros [|d ds] E; try discriminate; [reflexivity|]. cbn in E |- *. rewrite H, IH by lia. reflexivity. Qed.
Lemma shift_seeds {B} (f : B -> panel) (shift : vec -> B -> B) ds rows : (forall d r, f (shift d r) = pa d (f r)) -> length ds = length rows ->
  seeds_of (map f (map2 shift ds rows)) = seeds_of (map f rows).
Proof.
  intros H. unfold seeds_of. revert ds. induction rows as [|r rows IH]; intros [|d ds] E; try discriminate; [reflexivity|]. cbn in E. cbn [map2 map filter]. rewrite H.
  change (p_is_trailing_edge (pa d (f r))) with (p_is_trailing_edge (f r)). destruct (p_is_trailing_edge (f r)); cbn [map]; rewrite IH by lia; reflexivity.
Qed.

(** ** Strengths *)
Lemma consume_map2 {A B C V} (f : A -> list B -> result (C * list B)) (f' : A -> list B -> result (C * list B)) (ga : V -> A -> A) (gc : V -> C -> C) vs l :
  (forall v x bs, f' (ga v x) bs = result_map (fun r => (gc v (fst r), snd r)) (f x bs)) -> length vs = length l ->
  forall bs, consume f' (map2 ga vs l) bs = result_map (fun r => (map2 gc vs (fst r), snd r)) (consume f l bs).
Proof.
  intros H. revert vs. induction l as [|x l IH]; intros [|v vs] E bs; try discriminate; [reflexivity|]. cbn in E. cbn [map2 consume].
  rewrite H, bind_result_map, result_map_bind. apply bind_ext; intros r. cbn [fst snd]. rewrite IH by lia. rewrite bind_result_map, result_map_bind. apply bind_ext; intros rs. reflexivity.
Qed.
Lemma about_update {B} (g : panel -> B -> result panel) vs l bs :
  (forall d p b, g (pa d p) b = result_map (pa d) (g p b)) -> length vs = length l ->
  update_panels g (map2 aa vs l) bs = result_map (map2 aa vs) (update_panels g l bs).
Proof.
  intros H E. unfold update_panels. rewrite (consume_map2 (consume_airplane g) (consume_airplane g) aa aa); [| |exact E].
  - rewrite bind_result_map, result_map_bind. apply bind_ext. reflexivity.
  - intros v a xs. unfold consume_airplane. rewrite about_wings. rewrite <- (map_id xs) at 1. rewrite (sc_consume (consume_wing g) (consume_wing g) (wa (lever v a)) (fun b => b) (wa (lever v a))).
    + rewrite bind_result_map, result_map_bind. apply bind_ext; intros r. cbn [fst snd result_map]. rewrite map_id. reflexivity.
    + intros w ys. rewrite map_id. unfold consume_wing. rewrite about_wing_panels. rewrite <- (map_id ys) at 1. rewrite (sc_consume (consume (consume_panel g)) (consume (consume_panel g)) (map (pa (lever v a))) (fun b => b) (map (pa (lever v a)))).
      * rewrite bind_result_map, result_map_bind. apply bind_ext; intros r. cbn [fst snd result_map]. rewrite !map_id. reflexivity.
      * intros row zs. apply sc_consume. intros p ts. rewrite map_id. unfold consume_panel. destruct ts as [|t ts]; [reflexivity|]. rewrite H, bind_result_map, result_map_bind. apply bind_ext; intros q. cbn [fst snd result_map]. rewrite map_id. reflexivity.
Qed.
Lemma about_hs_set d p g : hs_set_strength (pa d p) g = result_map (pa d) (hs_set_strength p g).
Proof. unfold hs_set_strength. change (p_horseshoe_vortex (pa d p)) with (p_horseshoe_vortex p). destruct (p_horseshoe_vortex p); reflexivity. Qed.
Lemma about_ring_set d p g : ring_set_strength (pa d p) g = result_map (pa d) (ring_set_strength p g).
Proof.
  unfold ring_set_strength. change (p_ring_vortex (pa d p)) with (p_ring_vortex p). destruct (p_ring_vortex p); [|reflexivity].
  cbn [p_horseshoe_vortex p_set_ring panel_about]. destruct (p_horseshoe_vortex p); reflexivity.
Qed.
Lemma about_unsteady_set d p g : unsteady_set_strength (pa d p) g = result_map (pa d) (unsteady_set_strength p g).
Proof. unfold unsteady_set_strength. change (p_ring_vortex (pa d p)) with (p_ring_vortex p). destruct (p_ring_vortex p); reflexivity. Qed.
Lemma about_effective a b d w p g : effective_strengths ((b, wa d w, pa d p), g) = effective_strengths ((a, w, p), g).
Proof.
  unfold effective_strengths. rewrite about_wing_panels, map_length.
  change (p_is_right_edge (pa d p)) with (p_is_right_edge p). change (p_is_left_edge (pa d p)) with (p_is_left_edge p). change (p_is_leading_edge (pa d p)) with (p_is_leading_edge p).
  change (p_local_chordwise (pa d p)) with (p_local_chordwise p). change (p_local_spanwise (pa d p)) with (p_local_spanwise p).
  apply bind_both.
  { destruct (truthy (p_is_right_edge p)); [reflexivity|]. apply bind_ext; intros c. apply bind_ext; intros s. rewrite about_strength_at. reflexivity. }
  intros g1. apply bind_both.
  { destruct (p_is_leading_edge p); [reflexivity|]. apply bind_ext; intros c. apply bind_ext; intros s. rewrite about_strength_at. reflexivity. }
  intros g2. apply bind_both; [|reflexivity].
  destruct (truthy (p_is_left_edge p)); [reflexivity|]. apply bind_ext; intros c. apply bind_ext; intros s. rewrite index_map, bind_result_map. apply bind_ext; intros row. rewrite about_strength_at, map_length. reflexivity.
Qed.
Lemma about_effectives vs l gs : length vs = length l -> mapM effective_strengths (combine (flat_panels (map2 aa vs l)) gs) = mapM effective_strengths (combine (flat_panels l) gs).
Proof.
  intros E. generalize (flat_abouts vs l E). generalize (flat_panels (map2 aa vs l)) as ys. generalize (flat_panels l) as xs. intros xs ys F. revert gs.
  induction F as [|x y xs ys (d & E1 & E2) F IH]; intros [|g gs]; try reflexivity. cbn [combine mapM]. rewrite IH. destruct x as [[a w] p], y as [[b w'] p']. cbn in E1, E2. subst w' p'. rewrite (about_effective a b). reflexivity.
Qed.

(** ** Loads *)
Definition moved_pair (d : vec) (fm : vec * vec) : vec * vec := (fst fm, moved_moment d (fst fm) (snd fm)).
Definition moved_pairs : list vec -> list (vec * vec) -> list (vec * vec) := map2 moved_pair.
Lemma moved_loads density d r g v1 v2 v3 : ring_panel_loads density (ring_shift d r) g v1 v2 v3 = moved_pair d (ring_panel_loads density r g v1 v2 v3).
Proof.
  destruct g as [[g1 g2] g3]. unfold ring_panel_loads, moved_pair, moved_moment. cbn [fst snd].
  change (rr_right_vector (ring_shift d r)) with (rr_right_vector r). change (rr_front_vector (ring_shift d r)) with (rr_front_vector r). change (rr_left_vector (ring_shift d r)) with (rr_left_vector r).
  change (rr_right_center (ring_shift d r)) with (rr_right_center r). change (rr_front_center (ring_shift d r)) with (rr_front_center r). change (rr_left_center (ring_shift d r)) with (rr_left_center r).
  change (rr_ref (ring_shift d r)) with (vadd d (rr_ref r)).
  f_equal. generalize (leg_force density g1 v1 (rr_right_vector r)) (leg_force density g2 v2 (rr_front_vector r)) (leg_force density g3 v3 (rr_left_vector r)). generalize (rr_right_center r) (rr_front_center r) (rr_left_center r) (rr_ref r).
  clear. intros. vring.
Qed.
Lemma moved_ring_loads density velocity vs l rows ds gs : length vs = length l -> length ds = length rows ->
  ring_loads density velocity (map2 aa vs l) (map2 ring_shift ds rows) gs = result_map (moved_pairs ds) (ring_loads density velocity l rows gs).
Proof.
  intros E ED. unfold ring_loads. rewrite about_effectives by exact E. rewrite !(shift_map _ ring_shift) by (assumption || reflexivity). rewrite result_map_bind. apply bind_ext; intros eff. cbn [result_map]. f_equal.
  generalize (combine (combine (velocity (map rr_right_center rows)) (velocity (map rr_front_center rows))) (velocity (map rr_left_center rows))) as us.
  revert ds ED eff. induction rows as [|r rows IH]; intros [|d ds] ED [|e eff] us; try discriminate; try reflexivity. cbn in ED. cbn [map2 combine]. destruct us as [|u us]; [reflexivity|].
  cbn [map2 moved_pairs fst snd]. rewrite moved_loads. unfold moved_pairs. cbn [map2]. f_equal. apply IH. lia.
Qed.
Lemma moved_unsteady_loads density dt step velocity vs l rows ds last gs : length vs = length l -> length ds = length rows ->
  unsteady_loads density dt step velocity (map2 aa vs l) (map2 ring_shift ds rows) last gs = result_map (moved_pairs ds) (unsteady_loads density dt step velocity l rows last gs).
Proof.
  intros E ED. unfold unsteady_loads. rewrite about_effectives by exact E. rewrite !(shift_map _ ring_shift) by (assumption || reflexivity). rewrite result_map_bind. apply bind_ext; intros eff. cbn [result_map]. f_equal.
  match goal with |- context [combine (combine ?a ?b) ?c] => generalize (combine (combine a b) c) as us end. generalize (map2 Rminus gs (la_strengths last)) as cs.
  revert ds ED eff. induction rows as [|r rows IH]; intros [|d ds] ED [|e eff] [|c cs] [|u us]; try discriminate; try reflexivity. cbn in ED. cbn [map2 combine fst snd]. rewrite moved_loads. unfold moved_pairs. cbn [map2]. f_equal; [|apply IH; lia].
  unfold unsteady_panel_loads, moved_pair, moved_moment. cbn [fst snd]. change (rr_normal (ring_shift d r)) with (rr_normal r). change (rr_collocation (ring_shift d r)) with (rr_collocation r). change (p_area (rr_panel (ring_shift d r))) with (p_area (rr_panel r)).
  change (rr_ref (ring_shift d r)) with (vadd d (rr_ref r)). f_equal. generalize (ring_panel_loads density r e (fst (fst u)) (snd (fst u)) (snd u)) (vdiv (vscale (density * c * p_area (rr_panel r)) (rr_normal r)) dt) (rr_collocation r) (rr_ref r). clear. intros [f m] y z t. cbn [fst snd]. vring.
Qed.
Lemma moved_hs_loads rows ds forces : length ds = length rows ->
  combine forces (hs_moments (map2 hs_shift ds rows) forces) = moved_pairs ds (combine forces (hs_moments rows forces)).
Proof.
  unfold hs_moments, moved_pairs. revert ds forces. induction rows as [|r rows IH]; intros [|d ds] [|f forces] ED; try discriminate; try reflexivity. cbn in ED. cbn [map2 combine]. f_equal; [|apply IH; lia].
  unfold moved_pair, moved_moment. cbn [fst snd]. f_equal. change (hr_bound_center (hs_shift d r)) with (hr_bound_center r). change (hr_ref (hs_shift d r)) with (vadd d (hr_ref r)). generalize (hr_bound_center r) (hr_ref r). clear. intros. vring.
Qed.
Lemma combine_split' {A B} (l : list (A * B)) : combine (map fst l) (map snd l) = l.
Proof. induction l as [|[x y] l IH]; [reflexivity|]. cbn. rewrite IH. reflexivity. Qed.

(** ** Storing and adding up the loads *)
Definition set_loads (p : panel) (fm : vec * vec) : result panel :=
  Ok (p_set_loads (fst fm) (snd fm) (in_wind_axes op (fst fm)) (in_wind_axes op (snd fm)) (dynamic_pressure op) p).
Lemma wind_sub u v : in_wind_axes op (vsub u v) = vsub (in_wind_axes op u) (in_wind_axes op v).
Proof. unfold in_wind_axes. generalize (mtrans (rotation_wind_to_geometry op)). clear. intros m. vring. Qed.
Lemma moved_wind d f m : in_wind_axes op (moved_moment d f m) = moved_moment (in_wind_axes op d) (in_wind_axes op f) (in_wind_axes op m).
Proof. unfold moved_moment. rewrite wind_sub. f_equal. apply wind_cross. Qed.
Lemma about_set_loads d p fm : set_loads (pa d p) (moved_pair d fm) = result_map (pa d) (set_loads p fm).
Proof. destruct fm as [f m]. unfold set_loads, moved_pair. cbn [fst snd result_map]. rewrite moved_wind. reflexivity. Qed.
(** A walk whose values are moved together with what is walked over. *)
Lemma consume_moved {A C V} (f f' : A -> list (vec * vec) -> result (C * list (vec * vec))) (ga : V -> A -> A) (gc : V -> C -> C) (dv : V -> A -> list vec) vs l :
  (forall v x ds bs, f' (ga v x) (moved_pairs (dv v x ++ ds) bs) = result_map (fun r => (gc v (fst r), moved_pairs ds (snd r))) (f x bs)) -> length vs = length l ->
  forall ds bs, consume f' (map2 ga vs l) (moved_pairs (concat (map2 dv vs l) ++ ds) bs) = result_map (fun r => (map2 gc vs (fst r), moved_pairs ds (snd r))) (consume f l bs).
Proof.
  intros H. revert vs. induction l as [|x l IH]; intros [|v vs] E ds bs; try discriminate; [reflexivity|]. cbn in E. cbn [map2 concat consume].
  rewrite <- app_assoc, H, bind_result_map, result_map_bind. apply bind_ext; intros r. cbn [fst snd]. rewrite IH by lia. rewrite bind_result_map, result_map_bind. apply bind_ext; intros rs. reflexivity.
Qed.
Lemma consume_moved_same {A C} (f f' : A -> list (vec * vec) -> result (C * list (vec * vec))) (ga : A -> A) (gc : C -> C) (d : vec) (count : A -> nat) l :
  (forall x ds bs, f' (ga x) (moved_pairs (repeat d (count x) ++ ds) bs) = result_map (fun r => (gc (fst r), moved_pairs ds (snd r))) (f x bs)) ->
  forall ds bs, consume f' (map ga l) (moved_pairs (repeat d (list_sum (map count l)) ++ ds) bs) = result_map (fun r => (map gc (fst r), moved_pairs ds (snd r))) (consume f l bs).
Proof.
  intros H. induction l as [|x l IH]; intros ds bs; [reflexivity|]. cbn [map consume]. change (list_sum (count x :: map count l)) with (count x + list_sum (map count l))%nat.
  rewrite repeat_app, <- app_assoc, H, bind_result_map, result_map_bind. apply bind_ext; intros r. cbn [fst snd]. rewrite IH. rewrite bind_result_map, result_map_bind. apply bind_ext; intros rs. reflexivity.
Qed.
Lemma count_rows {A} (m : list (list A)) : length (concat m) = list_sum (map (fun r => list_sum (map (fun _ => 1%nat) r)) m).
Proof.
  induction m as [|r m IH]; [reflexivity|]. cbn [concat map]. rewrite app_length, IH. change (list_sum (?x :: ?y)) with (x + list_sum y)%nat. f_equal. induction r as [|x r IHr]; [reflexivity|]. cbn. rewrite IHr at 1. reflexivity.
Qed.
Lemma count_panels a : length (airplane_panels a) = list_sum (map (fun w => list_sum (map (fun r => list_sum (map (fun _ => 1%nat) r)) (w_panels w))) (a_wings a)).
Proof.
  unfold airplane_panels. induction (a_wings a) as [|w ws IH]; [reflexivity|]. cbn [concat map]. rewrite app_length, IH. unfold ravel. rewrite count_rows. reflexivity.
Qed.
Lemma about_update_loads vs l bs : length vs = length l ->
  update_panels set_loads (map2 aa vs l) (moved_pairs (levers vs l) bs) = result_map (map2 aa vs) (update_panels set_loads l bs).
Proof.
  intros E. unfold update_panels. rewrite <- (app_nil_r (levers vs l)). unfold levers. rewrite (consume_moved (consume_airplane set_loads) (consume_airplane set_loads) aa aa); [| |exact E].
  - rewrite bind_result_map, result_map_bind. apply bind_ext. reflexivity.
  - intros v a ds xs. unfold consume_airplane. rewrite about_wings, count_panels.
    rewrite (consume_moved_same (consume_wing set_loads) (consume_wing set_loads) (wa (lever v a)) (wa (lever v a)) (lever v a)).
    + rewrite bind_result_map, result_map_bind. apply bind_ext; intros r. reflexivity.
    + intros w es ys. unfold consume_wing. rewrite about_wing_panels.
      rewrite (consume_moved_same (consume (consume_panel set_loads)) (consume (consume_panel set_loads)) (map (pa (lever v a))) (map (pa (lever v a))) (lever v a)).
      * rewrite bind_result_map, result_map_bind. apply bind_ext; intros r. reflexivity.
      * intros row fs zs. apply (consume_moved_same (consume_panel set_loads) (consume_panel set_loads) (pa (lever v a)) (pa (lever v a)) (lever v a) (fun _ => 1%nat)).
        intros p gs ts. destruct ts as [|t ts]; [reflexivity|]. cbn [repeat app moved_pairs map2 consume_panel]. rewrite about_set_loads, bind_result_map, result_map_bind. apply bind_ext; intros q. reflexivity.
Qed.
Lemma about_forces d ps : mapM force_of (map (pa d) ps) = mapM force_of ps.
Proof. rewrite mapM_map. reflexivity. Qed.
Lemma about_moments d ps fs : mapM force_of ps = Ok fs -> mapM moment_of (map (pa d) ps) = result_map (map2 (moved_moment d) fs) (mapM moment_of ps).
Proof.
  revert fs. induction ps as [|p ps IH]; intros fs H; [inversion H; reflexivity|]. cbn [mapM map] in H |- *. apply bind_Ok in H. destruct H as (f & Ef & H). apply bind_Ok in H. destruct H as (gs & Eg & H). inversion H. subst fs.
  rewrite (IH _ Eg). unfold force_of in Ef. unfold moment_of at 1 3. cbn [p_moment_geometry panel_about]. destruct (p_force_geometry p) as [f'|]; [|discriminate]. inversion Ef. subst f'.
  cbn [moved_moment_opt]. destruct (p_moment_geometry p) as [m|]; [|reflexivity]. cbn [bind]. destruct (mapM moment_of ps); reflexivity.
Qed.
Lemma moved_sum d fs ms : length fs = length ms -> vsum (map2 (moved_moment d) fs ms) = moved_moment d (vsum fs) (vsum ms).
Proof.
  revert ms. induction fs as [|f fs IH]; intros [|m ms] E; try discriminate.
  - unfold moved_moment. cbn. apply vec_ext; cbn; ring.
  - cbn in E. cbn [map2]. rewrite !vsum_cons, IH by lia. unfold moved_moment. generalize (vsum fs) (vsum ms). clear. intros. vring.
Qed.
Lemma over_product x q s b : x / q / s / b = x / (q * s * b).
Proof. unfold Rdiv. rewrite !Rinv_mult. ring. Qed.
Lemma about_coefficients a m n : moment_coefficients (vsub m n) (dynamic_pressure op) (a_s_ref a) (a_b_ref a) (a_c_ref a) =
  vsub (moment_coefficients m (dynamic_pressure op) (a_s_ref a) (a_b_ref a) (a_c_ref a)) (coefficients_of op a n).
Proof. unfold moment_coefficients, coefficients_of. rewrite !over_product. apply vec_ext; cbn; unfold Rdiv; ring. Qed.
Lemma about_totals v a : airplane_totals (mtrans (rotation_wind_to_geometry op)) (dynamic_pressure op) (aa v a) =
  result_map (aa v) (airplane_totals (mtrans (rotation_wind_to_geometry op)) (dynamic_pressure op) a).
Proof.
  unfold airplane_totals. rewrite about_panels, about_forces. destruct (mapM force_of (airplane_panels a)) as [fs|e] eqn:Ef; cbn [bind result_map]; [|reflexivity]. rewrite (about_moments _ _ _ Ef).
  destruct (mapM moment_of (airplane_panels a)) as [ms|e] eqn:Em; cbn [bind result_map]; [|reflexivity]. apply mapM_same_length in Ef. apply mapM_same_length in Em. rewrite moved_sum by congruence.
  fold (in_wind_axes op (moved_moment (lever v a) (vsum fs) (vsum ms))). rewrite moved_wind. f_equal. fold (in_wind_axes op (vsum fs)) (in_wind_axes op (vsum ms)).
  generalize (in_wind_axes op (vsum fs)) (in_wind_axes op (vsum ms)). intros f m. unfold a_set_loads. cbn [a_s_ref a_b_ref a_c_ref airplane_about]. unfold moved_moment. rewrite about_coefficients. reflexivity.
Qed.
Lemma about_process forces moments forces' moments' vs l : length vs = length l -> combine forces' moments' = moved_pairs (levers vs l) (combine forces moments) ->
  process_forces op forces' moments' (map2 aa vs l) = result_map (map2 aa vs) (process_forces op forces moments l).
Proof.
  intros E EC. unfold process_forces. rewrite EC. fold (in_wind_axes op).
  change (fun p fm => Ok (p_set_loads (fst fm) (snd fm) (mvmul (mtrans (rotation_wind_to_geometry op)) (fst fm)) (mvmul (mtrans (rotation_wind_to_geometry op)) (snd fm)) (dynamic_pressure op) p)) with set_loads.
  rewrite about_update_loads by exact E. destruct (update_panels set_loads l (combine forces moments)) as [l'|e] eqn:EU; cbn [bind result_map]; [|reflexivity].
  apply mapM_map2; [exact about_totals|]. rewrite (update_length _ _ _ _ EU). exact E.
Qed.
(** The levers only depend on the reference points and the number of panels. *)
Lemma levers_same vs l l' : Forall2 (fun a b => a_xyz_ref b = a_xyz_ref a /\ length (airplane_panels b) = length (airplane_panels a)) l l' -> levers vs l' = levers vs l.
Proof. intros F. unfold levers. f_equal. revert vs. induction F as [|a b l l' [E1 E2] F IH]; intros [|v vs]; try reflexivity. cbn [map2]. unfold lever at 1. rewrite E1, E2, IH. reflexivity. Qed.
End Reference.
