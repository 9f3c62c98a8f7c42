(** Running the unsteady solver again: the parts of a time step do not depend on what
    earlier runs left behind. *)
From Coq Require Import List ZArith Lia Lra Bool Reals.
From Verif Require Import M_Unsteady S_Loads S_Unsteady S_UnsteadyRun S_Again L_Base L_Loads L_Horseshoe L_SteadyRing L_Geometry L_RigidShift L_Wake L_WakeWings L_Unsteady L_OnlyFinal L_Similar.
Import ListNotations.
Local Open Scope R_scope.
Local Open Scope list_scope.

(** ** Related results *)
Definition rrel {A B} (P : A -> B -> Prop) (r : result A) (r' : result B) : Prop :=
  match r, r' with Ok x, Ok y => P x y | Err e, Err e' => e = e' | _, _ => False end.
Lemma rrel_bind {A B C D} (P : A -> B -> Prop) (Q : C -> D -> Prop) a b f g :
  rrel P a b -> (forall x y, a = Ok x -> b = Ok y -> P x y -> rrel Q (f x) (g y)) -> rrel Q (bind a f) (bind b g).
Proof. destruct a, b; cbn; intros H HF; try contradiction; auto. Qed.
Lemma rrel_eq {A} (r r' : result A) : r' = r -> rrel eq r r'.
Proof. intros ->. destruct r; reflexivity. Qed.
Lemma rrel_eq_inv {A} (r r' : result A) : rrel eq r r' -> r' = r.
Proof. destruct r, r'; cbn; intros; try contradiction; congruence. Qed.
Lemma rrel_impl {A B} (P Q : A -> B -> Prop) r r' : (forall x y, P x y -> Q x y) -> rrel P r r' -> rrel Q r r'.
Proof. destruct r, r'; cbn; auto. Qed.
Lemma rrel_mapM {A B A' B'} (P : A -> A' -> Prop) (Q : B -> B' -> Prop) f f' l l' :
  (forall x y, P x y -> rrel Q (f x) (f' y)) -> Forall2 P l l' -> rrel (Forall2 Q) (mapM f l) (mapM f' l').
Proof.
  intros H HF. induction HF as [|x y l l' Hx HF IH]; cbn [mapM]; [constructor|].
  eapply rrel_bind; [apply H; exact Hx|]. intros u v _ _ Huv. eapply rrel_bind; [exact IH|]. intros us vs _ _ Hus. cbn. constructor; assumption.
Qed.
Lemma rrel_index {A B} (P : A -> B -> Prop) l l' i : Forall2 P l l' -> rrel P (index l i) (index l' i).
Proof. intros HF. revert i. induction HF as [|x y l l' H HF IH]; intros [|i]; cbn; auto. apply IH. Qed.
Lemma rrel_consume {A A' B C C'} (PA : A -> A' -> Prop) (PC : C -> C' -> Prop) (f : A -> list B -> result (C * list B)) f' :
  (forall x y bs, PA x y -> rrel (fun r r' => PC (fst r) (fst r') /\ snd r' = snd r) (f x bs) (f' y bs)) ->
  forall l l', Forall2 PA l l' -> forall bs, rrel (fun r r' => Forall2 PC (fst r) (fst r') /\ snd r' = snd r) (consume f l bs) (consume f' l' bs).
Proof.
  intros H l l' HF. induction HF as [|x y l l' Hx HF IH]; intros bs; cbn [consume]; [split; [constructor | reflexivity]|].
  eapply rrel_bind; [apply H; exact Hx|]. intros r r' _ _ [H1 H2]. rewrite H2. eapply rrel_bind; [apply IH|]. intros rs rs' _ _ [H3 H4]. cbn. split; [constructor; assumption | exact H4].
Qed.

Section Again.
(** The rings that are there already. *)
Variable H : list ring_vortex.
Notation L := (length H).

(** [b]: loads may differ; [m]: the wakes are the same but for the rings' numbers. *)
Definition pn (b : bool) (p q : panel) : Prop := if b then alike_panel p q else q = p.
Definition wn (b m : bool) (w v : wing) : Prop :=
  v = w_set_wake (w_wake_vertices v) (w_wake_rings v) (w_set_panels (w_panels v) w) /\
  Forall2 (Forall2 (pn b)) (w_panels w) (w_panels v) /\
  (m = true -> w_wake_vertices v = w_wake_vertices w /\ w_wake_rings v = map (map (Nat.add L)) (w_wake_rings w)).
Definition anr (b : bool) (PW : wing -> wing -> Prop) (a c : airplane) : Prop :=
  Forall2 PW (a_wings a) (a_wings c) /\
  c = mkairplane (a_wings c) (a_name a) (a_x_ref a) (a_y_ref a) (a_z_ref a) (a_weight a) (a_s_ref a) (a_c_ref a) (a_b_ref a) (a_num_panels a)
                 (a_force_wind c) (a_force_coefficients c) (a_moment_wind c) (a_moment_coefficients c) /\
  (b = false -> a_force_wind c = a_force_wind a /\ a_force_coefficients c = a_force_coefficients a /\ a_moment_wind c = a_moment_wind a /\ a_moment_coefficients c = a_moment_coefficients a).
Definition anx (b bp m : bool) : airplane -> airplane -> Prop := anr b (wn bp m).
Definition an (b m : bool) : airplane -> airplane -> Prop := anx b b m.
Definition sn (b m : bool) (sp sp' : steady_problem) : Prop :=
  sp_operating_point sp' = sp_operating_point sp /\ Forall2 (an b m) (sp_airplanes sp) (sp_airplanes sp').

Lemma pn_alike b p q : pn b p q -> alike_panel p q.
Proof. destruct b; cbn; intros Hp; [exact Hp | subst; apply alike_panel_refl]. Qed.
Lemma pn_refl b p : pn b p p.
Proof. destruct b; [apply alike_panel_refl | reflexivity]. Qed.
Lemma wn_weak b w v : wn b true w v -> wn b false w v.
Proof. intros (E & F & _). split; [exact E|]. split; [exact F | discriminate]. Qed.
Lemma Forall2_eq {A} (l l' : list A) : Forall2 (fun x y => y = x) l l' -> l' = l.
Proof. intros F. induction F as [|x y l l' -> F ->]; reflexivity. Qed.
Lemma Forall2_eq2 {A} (l l' : list (list A)) : Forall2 (Forall2 (fun x y => y = x)) l l' -> l' = l.
Proof. intros F. apply Forall2_eq. eapply Forall2_impl; [|exact F]. intros x y. apply Forall2_eq. Qed.
Lemma wn_exact w v : wn false true w v -> v = renumber_wing L w.
Proof.
  intros (E & F & M). destruct (M eq_refl) as [M1 M2]. pose proof (Forall2_eq2 _ _ F) as EP. rewrite M1, M2, EP in E. rewrite E. destruct w; reflexivity.
Qed.
Lemma an_exact a c : an false true a c -> c = renumber_airplane L a.
Proof.
  intros (FW & E & HL). destruct (HL eq_refl) as (E1 & E2 & E3 & E4).
  assert (EW : a_wings c = map (renumber_wing L) (a_wings a)). { clear E HL E1 E2 E3 E4. induction FW as [|w v ws vs Hw FW IH]; [reflexivity|]. cbn [map]. rewrite <- IH, (wn_exact _ _ Hw). reflexivity. }
  rewrite E1, E2, E3, E4, EW in E. exact E.
Qed.
Lemma sn_exact sp sp' : sn false true sp sp' -> sp' = renumber_step L sp.
Proof.
  intros [E F]. unfold renumber_step. assert (EA : sp_airplanes sp' = map (renumber_airplane L) (sp_airplanes sp)). { induction F as [|a c l l' Ha F IH]; [reflexivity|]. cbn [map]. rewrite <- IH, (an_exact _ _ Ha). reflexivity. }
  rewrite <- EA, <- E. destruct sp'; reflexivity.
Qed.

(** ** Panels and rows *)
Definition rowrel (r r' : ring_row) : Prop := alike_panel (rr_panel r) (rr_panel r') /\ rr_ref r' = rr_ref r /\ rr_vortex r' = rr_vortex r.
Lemma an_flat b m l l' : Forall2 (an b m) l l' ->
  Forall2 (fun x y => an b m (fst (fst x)) (fst (fst y)) /\ wn b m (snd (fst x)) (snd (fst y)) /\ pn b (snd x) (snd y)) (flat_panels l) (flat_panels l').
Proof. apply flat_rel; [intros a c Ha; apply Ha | intros w v Hw; apply Hw]. Qed.
Lemma an_ref b m a c : an b m a c -> a_xyz_ref c = a_xyz_ref a.
Proof. intros (_ & E & _). rewrite E. reflexivity. Qed.
Lemma again_collapse b m l l' : Forall2 (an b m) l l' -> rrel (Forall2 rowrel) (unsteady_collapse l) (unsteady_collapse l').
Proof.
  intros F. apply an_flat in F. unfold unsteady_collapse. eapply rrel_mapM; [|exact F]. intros [[a w] p] [[c v] q] (Ha & _ & Hp). cbn [fst snd] in *. unfold unsteady_make_row.
  apply pn_alike in Hp. pose proof Hp as (_ & E & _). rewrite E. destruct (p_ring_vortex p) as [r|]; cbn; [|reflexivity]. split; [exact Hp|]. split; [apply (an_ref _ _ _ _ Ha) | reflexivity].
Qed.
Lemma again_collapse_exact m l l' : Forall2 (an false m) l l' -> unsteady_collapse l' = unsteady_collapse l.
Proof.
  intros F. apply an_flat in F. unfold unsteady_collapse. apply rrel_eq_inv. eapply rrel_impl; [|eapply rrel_mapM; [|exact F]].
  - intros x y HF. symmetry. apply Forall2_eq. exact HF.
  - intros [[a w] p] [[c v] q] (Ha & _ & Hp). cbn [fst snd] in *. unfold unsteady_make_row. cbn in Hp. subst q. rewrite (an_ref _ _ _ _ Ha). destruct (p_ring_vortex p); reflexivity.
Qed.
Lemma rows_map {A} (f : ring_row -> A) rows rows' : (forall r r', rowrel r r' -> f r' = f r) -> Forall2 rowrel rows rows' -> map f rows' = map f rows.
Proof. intros Hf F. induction F as [|r r' l l' Hr F IH]; cbn [map]; [reflexivity|]. rewrite IH, (Hf _ _ Hr). reflexivity. Qed.
Lemma alike_vertices p q : alike_panel p q -> p_front_right q = p_front_right p /\ p_front_left q = p_front_left p /\ p_back_left q = p_back_left p /\ p_back_right q = p_back_right p /\ p_is_trailing_edge q = p_is_trailing_edge p.
Proof. intros [Hs _]. unfold same_panel in Hs. tauto. Qed.
Lemma alike_geometry p q : alike_panel p q -> p_collocation_point q = p_collocation_point p /\ p_unit_normal q = p_unit_normal p /\ p_area q = p_area p.
Proof.
  intros HA. destruct (alike_vertices _ _ HA) as (E1 & E2 & E3 & E4 & _).
  assert (EC : p_cross q = p_cross p) by (unfold p_cross, p_first_diagonal, p_second_diagonal; rewrite E1, E2, E3, E4; reflexivity).
  unfold p_collocation_point, p_unit_normal, p_area, p_right_leg, p_left_leg. rewrite EC, E1, E2, E3, E4. auto.
Qed.
Lemma row_collocation r r' : rowrel r r' -> rr_collocation r' = rr_collocation r.
Proof. intros [HA _]. apply (alike_geometry _ _ HA). Qed.
Lemma row_normal r r' : rowrel r r' -> rr_normal r' = rr_normal r.
Proof. intros [HA _]. apply (alike_geometry _ _ HA). Qed.
Lemma rows_all rows rows' : Forall2 rowrel rows rows' ->
  map rr_collocation rows' = map rr_collocation rows /\ map rr_normal rows' = map rr_normal rows /\
  map rr_back_right rows' = map rr_back_right rows /\ map rr_front_right rows' = map rr_front_right rows /\
  map rr_front_left rows' = map rr_front_left rows /\ map rr_back_left rows' = map rr_back_left rows /\
  map rr_right_center rows' = map rr_right_center rows /\ map rr_front_center rows' = map rr_front_center rows /\ map rr_left_center rows' = map rr_left_center rows.
Proof.
  intros F. assert (E : forall {A} (f : ring_row -> A), (forall r r', rowrel r r' -> f r' = f r) -> map f rows' = map f rows) by (intros; apply rows_map; assumption).
  repeat split; apply E; first [exact row_collocation | exact row_normal | intros ? ? (_ & _ & EE); unfold rr_back_right, rr_front_right, rr_front_left, rr_back_left, rr_right_center, rr_front_center, rr_left_center; rewrite EE; reflexivity].
Qed.
Ltac rows HF := let E1 := fresh in let E2 := fresh in let E3 := fresh in let E4 := fresh in let E5 := fresh in let E6 := fresh in let E7 := fresh in let E8 := fresh in let E9 := fresh in
  destruct (rows_all _ _ HF) as (E1 & E2 & E3 & E4 & E5 & E6 & E7 & E8 & E9); rewrite ?E1, ?E2, ?E3, ?E4, ?E5, ?E6, ?E7, ?E8, ?E9; clear E1 E2 E3 E4 E5 E6 E7 E8 E9.
Lemma again_seeds rows rows' : Forall2 rowrel rows rows' -> seeds_of (map rr_panel rows') = seeds_of (map rr_panel rows).
Proof.
  intros F. unfold seeds_of. induction F as [|r r' l l' [HA _] F IH]; [reflexivity|]. cbn [map filter]. destruct (alike_vertices _ _ HA) as (_ & _ & E3 & E4 & E5). rewrite E5.
  destruct (p_is_trailing_edge (rr_panel r)); cbn [map]; rewrite IH, ?E3, ?E4; reflexivity.
Qed.
Lemma again_influences rows rows' g nu : Forall2 rowrel rows rows' -> unsteady_wing_influences rows' g nu = unsteady_wing_influences rows g nu.
Proof. intros F. unfold unsteady_wing_influences. rows F. reflexivity. Qed.
Lemma again_freestream_influences step dt rows rows' la v : Forall2 rowrel rows rows' -> unsteady_freestream_influences step dt rows' la v = unsteady_freestream_influences step dt rows la v.
Proof. intros F. unfold unsteady_freestream_influences. rows F. reflexivity. Qed.
Lemma again_wake_influences step n rows rows' w nu : Forall2 rowrel rows rows' -> unsteady_wake_influences step n rows' w nu = unsteady_wake_influences step n rows w nu.
Proof. intros F. unfold unsteady_wake_influences. rows F. reflexivity. Qed.
(** Two steps with the same flow. *)
Definition currel (c c' : current_step) : Prop :=
  Forall2 rowrel (cu_rows c) (cu_rows c') /\
  c' = mkcurrent (cu_step c) (cu_op c) (cu_freestream c) (cu_rows c') (cu_last c) (cu_seeds c) (cu_wing_influences c) (cu_freestream_influences c) (cu_wake_influences c) (cu_strengths c) (cu_wake c).
Lemma again_velocity c c' points : currel c c' -> current_velocity c' points = current_velocity c points.
Proof. intros [F E]. rewrite E. unfold current_velocity, unsteady_velocity_of. cbn [cu_rows cu_strengths cu_wake cu_op cu_freestream]. rows F. reflexivity. Qed.

(** ** Numbers, wakes and the step before *)
Lemma again_num b m l l' : Forall2 (an b m) l l' -> num_panels_of l' = num_panels_of l.
Proof.
  intros F. unfold num_panels_of. generalize 0%nat. induction F as [|a c l l' (_ & E & _) F IH]; intros k; cbn [fold_left]; [reflexivity|].
  rewrite IH. f_equal. rewrite E. reflexivity.
Qed.
Lemma again_spanwise b m l l' : Forall2 (an b m) l l' -> total_spanwise l' = total_spanwise l.
Proof.
  intros F. rewrite !total_spanwise_flat. f_equal. induction F as [|a c l l' (FW & _) F IH]; [reflexivity|]. cbn [map concat]. rewrite !map_app, IH. f_equal.
  clear -FW. induction FW as [|w v ws vs (E & _) FW IH]; [reflexivity|]. cbn [map]. rewrite IH. f_equal. rewrite E. reflexivity.
Qed.
Lemma again_references b l l' : Forall2 (an b true) l l' -> wake_references l' = map (Nat.add L) (wake_references l).
Proof.
  intros F. rewrite !wake_references_flat. induction F as [|a c l l' (FW & _) F IH]; [reflexivity|]. cbn [map concat]. rewrite !map_app, !concat_app, map_app, IH. f_equal.
  clear -FW. induction FW as [|w v ws vs (_ & _ & M) FW IH]; [reflexivity|]. cbn [map concat]. rewrite map_app, IH. f_equal. unfold wing_ids, ravel. destruct (M eq_refl) as [_ ->]. rewrite concat_map. reflexivity.
Qed.
Lemma index_after {A} (l l' : list A) i : index (l ++ l') (length l + i) = index l' i.
Proof. unfold index. rewrite nth_error_app2 by lia. replace (length l + i - length l)%nat with i by lia. reflexivity. Qed.
Lemma again_rings heap ids : mapM (index (H ++ heap)) (map (Nat.add L) ids) = mapM (index heap) ids.
Proof. rewrite mapM_map. induction ids as [|i ids IH]; cbn [mapM]; [reflexivity|]. rewrite index_after, IH. reflexivity. Qed.
Definition sized_wake (n : nat) (w : wake_arrays) : Prop :=
  length (wk_strengths w) = n /\ length (wk_ages w) = n /\ length (wk_front_right w) = n /\ length (wk_front_left w) = n /\ length (wk_back_left w) = n /\ length (wk_back_right w) = n.
Lemma again_collapse_wake b heap l l' al al' : Forall2 (an b true) l l' -> sized_wake (length (wake_references l)) al -> sized_wake (length (wake_references l)) al' ->
  collapse_wake (H ++ heap) l' al' = collapse_wake heap l al /\ forall w, collapse_wake heap l al = Ok w -> sized_wake (length (wake_references l)) w.
Proof.
  intros F (S1 & S2 & S3 & S4 & S5 & S6) (T1 & T2 & T3 & T4 & T5 & T6). unfold collapse_wake. rewrite (again_references _ _ _ F), again_rings.
  destruct (mapM (index heap) (wake_references l)) as [rings|e] eqn:E; cbn [bind]; [|split; [reflexivity | discriminate]]. apply mapM_Ok_length in E.
  rewrite !overwrite_all by (rewrite map_length; congruence). cbn [bind]. split; [reflexivity|]. intros w Ew. apply Ok_eq in Ew. subst w.
  unfold sized_wake. cbn [wk_strengths wk_ages wk_front_right wk_front_left wk_back_left wk_back_right]. rewrite !map_length. auto 7.
Qed.
Lemma again_last n step steps steps' : (forall j, (j < step)%nat -> rrel (sn false true) (index steps j) (index steps' j)) ->
  last_step_arrays n step steps' = last_step_arrays n step steps.
Proof.
  intros HR. destruct step as [|j]; [reflexivity|]. cbn [last_step_arrays]. specialize (HR j ltac:(lia)). destruct (index steps j) as [sp|e], (index steps' j) as [sp'|e']; cbn in HR; try contradiction; cbn [bind]; [|congruence].
  rewrite (again_collapse_exact _ _ _ (proj2 HR)). reflexivity.
Qed.

(** ** Strengths and loads *)
Lemma again_update {B} b bp bp' m (g : panel -> B -> result panel) l l' xs :
  (forall p q x, pn bp p q -> rrel (pn bp') (g p x) (g q x)) ->
  Forall2 (anx b bp m) l l' -> rrel (Forall2 (anx b bp' m)) (update_panels g l xs) (update_panels g l' xs).
Proof.
  intros Hg F. unfold update_panels. eapply rrel_bind; [eapply (rrel_consume (anx b bp m) (anx b bp' m)); [|exact F]|].
  - intros a c bs (FW & E & HL). unfold consume_airplane. eapply rrel_bind; [eapply (rrel_consume (wn bp m) (wn bp' m)); [|exact FW]|].
    + intros w v cs (E1 & FP & M). unfold consume_wing. eapply rrel_bind; [eapply (rrel_consume (Forall2 (pn bp)) (Forall2 (pn bp'))); [|exact FP]|].
      * intros row row' ds FR. eapply (rrel_consume (pn bp) (pn bp')); [|exact FR]. intros p q es Hp. unfold consume_panel. destruct es as [|x es]; [reflexivity|].
        eapply rrel_bind; [apply Hg; exact Hp|]. intros p' q' _ _ Hpq. cbn. auto.
      * intros r r' _ _ [H1 H2]. cbn [rrel fst snd]. split; [|exact H2]. split; [rewrite E1 at 1; reflexivity|]. split; [exact H1 | exact M].
    + intros r r' _ _ [H1 H2]. cbn [rrel fst snd]. split; [|exact H2]. split; [exact H1|]. split; [rewrite E at 1; reflexivity | exact HL].
  - intros r r' _ _ [H1 _]. exact H1.
Qed.
Lemma again_set_strength b p q g : pn b p q -> rrel (pn b) (unsteady_set_strength p g) (unsteady_set_strength q g).
Proof.
  intros Hp. unfold unsteady_set_strength. destruct (pn_alike _ _ _ Hp) as (HS & -> & HH). destruct (p_ring_vortex p); [|reflexivity].
  destruct b; cbn in Hp |- *; [|subst q; reflexivity]. split; [exact HS|]. split; [reflexivity | exact HH].
Qed.
Lemma again_strength_at b m n i j : Forall2 (Forall2 (pn b)) m n -> ring_strength_at n i j = ring_strength_at m i j.
Proof. intros F. apply ring_strength_alike. eapply Forall2_impl; [|exact F]. intros x y; apply Forall2_impl. intros p q; apply pn_alike. Qed.
Lemma again_effective b m a c w v p q g : wn b m w v -> pn b p q -> effective_strengths ((c, v, q), g) = effective_strengths ((a, w, p), g).
Proof.
  intros (_ & F & _) Hp. apply pn_alike in Hp. destruct Hp as [Hs _]. unfold same_panel in Hs. destruct Hs as (_ & _ & _ & _ & E1 & _ & E2 & E3 & E4 & E5).
  unfold effective_strengths. rewrite E1, E2, E3, E4, E5.
  assert (EI : forall i, rrel (fun r r' => length r' = length r) (index (w_panels w) i) (index (w_panels v) i)).
  { intros i. eapply rrel_impl; [|apply rrel_index; exact F]. intros r r' FR. symmetry. eapply Forall2_length. exact FR. }
  rewrite <- (Forall2_length _ _ _ F).
  set (pc := position_of (p_local_chordwise p)). set (ps := position_of (p_local_spanwise p)). apply rrel_eq_inv.
  eapply (rrel_bind eq).
  { destruct (truthy (p_is_right_edge p)); [reflexivity|]. apply rrel_eq. destruct pc; [cbn [bind]|reflexivity]. destruct ps; [cbn [bind]|reflexivity]. rewrite (again_strength_at _ _ _ _ _ F). reflexivity. }
  intros g1 ? _ _ <-. eapply (rrel_bind eq).
  { destruct (p_is_leading_edge p); [reflexivity|]. apply rrel_eq. destruct pc; [cbn [bind]|reflexivity]. destruct ps; [cbn [bind]|reflexivity]. rewrite (again_strength_at _ _ _ _ _ F). reflexivity. }
  intros g2 ? _ _ <-. eapply (rrel_bind eq).
  { destruct (truthy (p_is_left_edge p)); [reflexivity|]. destruct pc; [cbn [bind]|reflexivity]. destruct ps; [cbn [bind]|reflexivity]. eapply rrel_bind; [apply EI|]. intros r r' _ _ ER. rewrite ER, (again_strength_at _ _ _ _ _ F). apply rrel_eq. reflexivity. }
  intros g3 ? _ _ <-. reflexivity.
Qed.
Lemma again_leg_loads density r r' g v1 v2 v3 : rowrel r r' -> ring_panel_loads density r' g v1 v2 v3 = ring_panel_loads density r g v1 v2 v3.
Proof. intros (_ & E1 & E2). unfold ring_panel_loads, rr_right_vector, rr_front_vector, rr_left_vector, rr_front_center, rr_left_center, rr_right_center. rewrite E1, E2. reflexivity. Qed.
Lemma again_panel_loads density dt r r' g l : rowrel r r' -> unsteady_panel_loads density dt r' g l = unsteady_panel_loads density dt r g l.
Proof.
  intros HR. pose proof HR as (HA & E1 & E2). unfold unsteady_panel_loads. rewrite (row_collocation _ _ HR), (row_normal _ _ HR), E1. destruct (alike_geometry _ _ HA) as (_ & _ & ->). reflexivity.
Qed.
Lemma map2_rel {A A' B C} (P : A -> A' -> Prop) (f : A -> B -> C) (f' : A' -> B -> C) : (forall x y z, P x y -> f' y z = f x z) ->
  forall l l', Forall2 P l l' -> forall m, map2 f' l' m = map2 f l m.
Proof. intros Hf l l' F. induction F as [|x y l l' Hx F IH]; intros [|z m]; cbn; try reflexivity. rewrite (Hf _ _ _ Hx), IH. reflexivity. Qed.
Lemma combine_rel {A A' B} (P : A -> A' -> Prop) l l' (m : list B) : Forall2 P l l' -> Forall2 (fun x y => P (fst x) (fst y) /\ snd y = snd x) (combine l m) (combine l' m).
Proof. intros F. revert m. induction F as [|x y l l' Hx F IH]; intros [|z m]; cbn; constructor; auto. Qed.
Lemma again_loads b m density dt step velocity velocity' l l' rows rows' la g : Forall2 (an b m) l l' -> Forall2 rowrel rows rows' -> (forall points, velocity' points = velocity points) ->
  unsteady_loads density dt step velocity' l' rows' la g = unsteady_loads density dt step velocity l rows la g.
Proof.
  intros FA FR HV. unfold unsteady_loads. apply rrel_eq_inv. eapply (rrel_bind eq).
  - eapply rrel_impl; [|eapply rrel_mapM; [|apply combine_rel, (an_flat _ _ _ _ FA)]]; [intros x y F; symmetry; apply Forall2_eq; exact F|].
    intros [[[a w] p] x] [[[c v] q] y] [(_ & Hw & Hp) Hy]. cbn [fst snd] in *. subst y. eapply rrel_impl; [|apply rrel_eq; apply (again_effective _ _ a c _ _ _ _ x Hw Hp)]. intros; congruence.
  - intros eff ? _ _ <-. cbn zeta. rows FR. rewrite !HV. cbn [rrel].
    rewrite (map2_rel (fun x y => rowrel (fst x) (fst y) /\ snd y = snd x) (fun re vs => ring_panel_loads density (fst re) (snd re) (fst (fst vs)) (snd (fst vs)) (snd vs)) (fun re vs => ring_panel_loads density (fst re) (snd re) (fst (fst vs)) (snd (fst vs)) (snd vs)))
      with (l := combine rows eff) (l' := combine rows' eff); [|intros x y z [Hx Ey]; rewrite Ey; apply again_leg_loads; exact Hx | apply combine_rel; exact FR].
    symmetry. apply (map2_rel (fun x y => rowrel (fst x) (fst y) /\ snd y = snd x)); [|apply combine_rel; exact FR].
    intros x y z [Hx Ey]. rewrite Ey. apply again_panel_loads. exact Hx.
Qed.
Lemma again_set_loads b f mo fw mw q p p' : pn b p p' -> p_set_loads f mo fw mw q p' = p_set_loads f mo fw mw q p.
Proof.
  intros Hp. apply pn_alike in Hp. destruct (alike_geometry _ _ Hp) as (_ & _ & EA). destruct Hp as (Hs & E1 & E2). unfold same_panel in Hs. destruct Hs as (S1 & S2 & S3 & S4 & S5 & S6 & S7 & S8 & S9 & S10).
  unfold p_set_loads. rewrite EA, E1, E2, S1, S2, S3, S4, S5, S6, S7, S8, S9, S10. reflexivity.
Qed.
Lemma again_airplane_panels b m a c : anx b false m a c -> airplane_panels c = airplane_panels a.
Proof.
  intros (FW & _). unfold airplane_panels. f_equal. induction FW as [|w v ws vs (_ & F & _) FW IH]; [reflexivity|]. cbn [map]. rewrite IH, (Forall2_eq2 _ _ F). reflexivity.
Qed.
Lemma again_process b m op forces moments l l' : Forall2 (an b m) l l' -> rrel (Forall2 (an false m)) (process_forces op forces moments l) (process_forces op forces moments l').
Proof.
  intros F. unfold process_forces. eapply rrel_bind; [eapply (again_update b b false m); [|exact F]|].
  - intros p q x Hp. cbn. apply (again_set_loads b). exact Hp.
  - intros x y _ _ FX. eapply rrel_mapM; [|exact FX]. intros a c Ha. unfold airplane_totals. rewrite (again_airplane_panels _ _ _ _ Ha). destruct Ha as (FW & E & _).
    assert (E1 : a_s_ref c = a_s_ref a) by (rewrite E; reflexivity). assert (E2 : a_b_ref c = a_b_ref a) by (rewrite E; reflexivity). assert (E3 : a_c_ref c = a_c_ref a) by (rewrite E; reflexivity).
    destruct (mapM force_of (airplane_panels a)); [cbn [bind]|reflexivity]. destruct (mapM moment_of (airplane_panels a)); [cbn [bind]|reflexivity]. cbn [rrel]. rewrite E1, E2, E3.
    split; [exact FW|]. split; [rewrite E at 1; reflexivity | intros _; auto].
Qed.

(** ** The next wake *)
Lemma again_back_vertex b side m n i j : Forall2 (Forall2 (pn b)) m n -> back_vertex side n i j = back_vertex side m i j.
Proof.
  intros F. apply rrel_eq_inv. unfold back_vertex, panel_at. eapply (rrel_bind (pn b)).
  - eapply rrel_bind; [apply rrel_index; exact F|]. intros r r' _ _ FR. apply rrel_index. exact FR.
  - intros p q _ _ Hp. apply pn_alike in Hp. destruct Hp as (_ & -> & _). destruct (p_ring_vortex p); reflexivity.
Qed.
Lemma rewaked vs rs n n' : n' = w_set_wake (w_wake_vertices n') (w_wake_rings n') (w_set_panels (w_panels n') n) -> w_set_wake vs rs n' = w_set_wake vs rs (w_set_panels (w_panels n') n).
Proof. intros E. transitivity (w_set_wake vs rs (w_set_wake (w_wake_vertices n') (w_wake_rings n') (w_set_panels (w_panels n') n))); [f_equal; exact E | reflexivity]. Qed.
Lemma wn_counts b m w v : wn b m w v -> w_num_chordwise_panels v = w_num_chordwise_panels w /\ w_num_spanwise_panels v = w_num_spanwise_panels w.
Proof. intros (E & _). rewrite E. auto. Qed.
Lemma again_next_vertices b b' m step convect convect' t t' n n' : (forall v, convect' v = convect v) -> wn b true t t' -> wn b' m n n' ->
  rrel (fun w w' => wn b' false w w' /\ w_wake_vertices w' = w_wake_vertices w) (next_wake_vertices step convect t n) (next_wake_vertices step convect' t' n').
Proof.
  intros HV Ht Hn. destruct (wn_counts _ _ _ _ Ht) as [C1 C2]. unfold next_wake_vertices.
  assert (ER : trailing_edge_row t' n' = trailing_edge_row t n).
  { unfold trailing_edge_row. rewrite C1, C2. cbn zeta. pose proof (proj1 (proj2 Hn)) as F. apply rrel_eq_inv. eapply (rrel_bind eq).
    - apply rrel_eq. induction (seq 0 (w_num_spanwise_panels t)) as [|s l IH]; cbn [mapM]; [reflexivity|]. rewrite IH, (again_back_vertex b' _ _ _ _ _ F). reflexivity.
    - intros x ? _ _ <-. eapply (rrel_bind eq); [destruct (w_num_spanwise_panels t); [reflexivity | apply rrel_eq; apply (again_back_vertex b' _ _ _ _ _ F)]|]. intros y ? _ _ <-. reflexivity. }
  rewrite ER. destruct (trailing_edge_row t n) as [first|e]; [cbn [bind]|reflexivity].
  assert (EV : w_wake_vertices t' = w_wake_vertices t) by (apply Ht; reflexivity).
  assert (EM : forall vs, map convect' vs = map convect vs) by (intros; apply map_ext; exact HV).
  assert (EMM : forall vs, map (map convect') vs = map (map convect) vs) by (intros; apply map_ext; exact EM).
  rewrite EV, EM, EMM. eapply (rrel_bind eq); [apply rrel_eq; reflexivity|]. intros vs ? _ _ <-. cbn [rrel]. split; [|reflexivity].
  destruct Hn as (E & F & _). split; [apply (rewaked _ _ _ _ E)|]. split; [exact F | discriminate].
Qed.
Lemma vstack_ids {A B} (f : A -> B) row m : vstack (map f row) (map (map f) m) = result_map (map (map f)) (vstack row m).
Proof. apply vstack_map. Qed.
Lemma seq_shift k a n : seq (k + a) n = map (Nat.add k) (seq a n).
Proof. revert a; induction n as [|n IH]; intros a; cbn; [reflexivity|]. rewrite <- IH. f_equal. f_equal. lia. Qed.
Lemma set_after {A} (l l' : list A) i x : set_at (length l + i) x (l ++ l') = l ++ set_at i x l'.
Proof. unfold set_at. rewrite firstn_app_2. replace (S (length l + i)) with (length l + S i)%nat by lia. rewrite skipn_app, skipn_all2 by lia. replace (length l + S i - length l)%nat with (S i) by lia. cbn [app]. rewrite <- app_assoc. reflexivity. Qed.
Lemma again_move_ring step dt vertices ids heap ij : move_ring step dt vertices (map (map (Nat.add L)) ids) (H ++ heap) ij = result_map (app H) (move_ring step dt vertices ids heap ij).
Proof.
  unfold move_ring. destruct ij as [i j]. rewrite result_map_bind. apply bind_ext; intros [[[fl fr] bl] br]. rewrite index_map, bind_result_map, result_map_bind. apply bind_ext; intros row.
  rewrite index_map, bind_result_map, result_map_bind. apply bind_ext; intros id. rewrite index_after, result_map_bind. apply bind_ext; intros r. cbn [result_map]. rewrite set_after. reflexivity.
Qed.
Lemma again_next_rings b b' step dt heap t t' n n' : wn b true t t' -> wn b' false n n' -> w_wake_vertices n' = w_wake_vertices n ->
  rrel (fun r r' => fst r' = H ++ fst r /\ wn b' true (snd r) (snd r')) (next_wake_rings step dt heap t n) (next_wake_rings step dt (H ++ heap) t' n').
Proof.
  intros Ht Hn EV. destruct (wn_counts _ _ _ _ Ht) as [C1 C2]. unfold next_wake_rings. rewrite EV. cbn zeta. pose proof Ht as (_ & F & M). destruct (M eq_refl) as [_ ER]. rewrite ER.
  rewrite app_length, seq_shift, vstack_ids. destruct (vstack _ (w_wake_rings t)) as [ids|e]; [cbn [bind result_map]|reflexivity].
  assert (ES : forall l, mapM (shed_ring (w_wake_vertices n) t') l = mapM (shed_ring (w_wake_vertices n) t) l).
  { intros l. induction l as [|j l IH]; cbn [mapM]; [reflexivity|]. rewrite IH. unfold shed_ring at 1 3. rewrite C1, (again_strength_at _ _ _ _ _ F). reflexivity. }
  rewrite ES. destruct (mapM (shed_ring (w_wake_vertices n) t) _) as [sh|e]; [cbn [bind]|reflexivity]. rewrite <- app_assoc.
  rewrite (sc_foldM (app H) (move_ring step dt (w_wake_vertices n) ids)) by (intros; apply again_move_ring).
  destruct (foldM _ (heap ++ sh) _) as [heap'|e]; [cbn [bind result_map rrel fst snd]|reflexivity]. split; [reflexivity|].
  destruct Hn as (E & FP & _). split; [apply (rewaked _ _ _ _ E)|]. split; [exact FP | intros _; split; reflexivity].
Qed.
Lemma again_for_wings {S} (PS : S -> S -> Prop) (PT PN PR : wing -> wing -> Prop) (f f' : S -> wing -> wing -> result (S * wing)) :
  (forall st st' t t' n n', PS st st' -> PT t t' -> PN n n' -> rrel (fun r r' => PS (fst r) (fst r') /\ PR (snd r) (snd r')) (f st t n) (f' st' t' n')) ->
  forall these these', Forall2 PT these these' -> forall nexts nexts', Forall2 PN nexts nexts' -> forall st st', PS st st' ->
  rrel (fun r r' => PS (fst r) (fst r') /\ Forall2 PR (snd r) (snd r')) (for_wings f st these nexts) (for_wings f' st' these' nexts').
Proof.
  intros Hf these these' FT nexts nexts' FN st st' HP. unfold for_wings. rewrite <- (Forall2_length _ _ _ FT), <- (Forall2_length _ _ _ FN). destruct (Nat.eqb_spec (length nexts) (length these)) as [EL|]; [cbn [check bind]|reflexivity].
  revert nexts nexts' FN EL st st' HP. induction FT as [|t t' l l' Ht FT IH]; intros nexts nexts' FN EL st st' HP.
  - destruct nexts; [|discriminate]. inversion FN; subst. cbn. auto.
  - destruct FN as [|n n' ns ns' Hn FN]; [discriminate|]. eapply rrel_bind; [apply Hf; eassumption|]. intros r r' _ _ [H1 H2]. eapply rrel_bind; [apply IH; [exact FN | cbn in EL; lia | exact H1]|].
    intros rs rs' _ _ [H3 H4]. cbn. split; [exact H3 | constructor; assumption].
Qed.
Lemma again_for_airplanes {S} (PS : S -> S -> Prop) bt b (PT PN PR : wing -> wing -> Prop) (f f' : S -> wing -> wing -> result (S * wing)) :
  (forall st st' t t' n n', PS st st' -> PT t t' -> PN n n' -> rrel (fun r r' => PS (fst r) (fst r') /\ PR (snd r) (snd r')) (f st t n) (f' st' t' n')) ->
  forall these these', Forall2 (anr bt PT) these these' -> forall nexts nexts', Forall2 (anr b PN) nexts nexts' -> forall st st', PS st st' ->
  rrel (fun r r' => PS (fst r) (fst r') /\ Forall2 (anr b PR) (snd r) (snd r')) (for_airplanes f st these nexts) (for_airplanes f' st' these' nexts').
Proof.
  intros Hf these these' FT nexts nexts' FN st st' HP. unfold for_airplanes. rewrite <- (Forall2_length _ _ _ FT), <- (Forall2_length _ _ _ FN). destruct (Nat.leb_spec (length nexts) (length these)) as [EL|]; [cbn [check bind]|reflexivity].
  revert nexts nexts' FN EL st st' HP. induction FT as [|t t' l l' Ht FT IH]; intros nexts nexts' FN EL st st' HP.
  - destruct nexts; [|cbn in EL; lia]. inversion FN; subst. cbn. auto.
  - destruct FN as [|n n' ns ns' Hn FN]; [cbn; auto|]. destruct Hn as (FW & E & HL).
    eapply rrel_bind; [eapply (again_for_wings PS PT PN PR f f' Hf); [apply Ht | exact FW | exact HP]|]. intros r r' _ _ [H1 H2]. eapply rrel_bind; [apply IH; [exact FN | cbn in EL; lia | exact H1]|].
    intros rs rs' _ _ [H3 H4]. cbn. split; [exact H3 | constructor; [|assumption]]. split; [exact H2|]. split; [rewrite E at 1; reflexivity | exact HL].
Qed.
Lemma again_populate bt b step dt convect convect' heap these these' nexts nexts' : (forall v, convect' v = convect v) ->
  Forall2 (an bt true) these these' -> Forall2 (an b false) nexts nexts' ->
  rrel (fun r r' => fst r' = H ++ fst r /\ Forall2 (an b true) (snd r) (snd r')) (populate_wake step dt convect heap these nexts) (populate_wake step dt convect' (H ++ heap) these' nexts').
Proof.
  intros HV FT FN. unfold populate_wake. eapply rrel_bind.
  - apply (again_for_airplanes (fun _ _ => True) bt b (wn bt true) (wn b false) (fun w w' => wn b false w w' /\ w_wake_vertices w' = w_wake_vertices w)); [|exact FT | exact FN | exact I].
    intros st st' t t' n n' _ Ht Hn. eapply rrel_bind; [eapply (again_next_vertices bt b false step convect convect'); eassumption|]. intros w w' _ _ Hw. cbn. split; [exact I | exact Hw].
  - intros r r' _ _ [_ FR]. apply (again_for_airplanes (fun h h' => h' = H ++ h) bt b (wn bt true) (fun w w' => wn b false w w' /\ w_wake_vertices w' = w_wake_vertices w) (wn b true)); [|exact FT | exact FR | reflexivity].
    intros h h' t t' n n' -> Ht [Hn EV]. apply (again_next_rings bt b); assumption.
Qed.
Lemma again_convect prescribed freestream velocity velocity' dt v : (forall points, velocity' points = velocity points) -> convect_vertex prescribed freestream velocity' dt v = convect_vertex prescribed freestream velocity dt v.
Proof. intros HV. unfold convect_vertex. rewrite HV. reflexivity. Qed.
End Again.
