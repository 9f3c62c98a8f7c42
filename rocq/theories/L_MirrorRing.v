(** The steady ring vortex solver commutes with mirror images. *)
From Coq Require Import Lra Lia Permutation.
From Verif Require Import M_Loads M_SteadyRing S_Geometry S_Vortices S_Solve S_Loads S_Mirror
  L_Base L_Rotations L_Loads L_Aero L_Horseshoe L_SteadyRing L_RingLegs L_Scaling L_Meshing L_Mirror L_MirrorHorseshoe.

Lemma Ok_eq {A} (x y : A) : Ok x = Ok y -> x = y. Proof. congruence. Qed.
(** ** Positions in mirrored meshes *)
Notation rows_mirror k P := (Forall2 (fun row row' => Forall2 P row (if k then row' else rev row'))).
(** The column of the image of column [s] of [n]. *)
Definition column_of (k : bool) (n s : nat) : nat := if k then s else (n - 1 - s)%nat.
Lemma nth_error_row {A} (k : bool) (l : list A) i : (i < length l)%nat -> nth_error (if k then l else rev l) i = nth_error l (column_of k (length l) i).
Proof. destruct k; [reflexivity | apply nth_error_rev]. Qed.
Lemma rows_mirror_pos (k : bool) (P : panel -> panel -> Prop) m m' c row : rows_mirror k P m m' -> nth_error m c = Some row ->
  exists row', nth_error m' c = Some row' /\ length row' = length row /\
    forall s p, nth_error row s = Some p -> exists p', nth_error row' (column_of k (length row) s) = Some p' /\ P p p'.
Proof.
  intros F Hc. destruct (Forall2_nth_l _ _ _ F c row Hc) as (row' & Hc' & Fr). exists row'. split; [exact Hc'|].
  pose proof (Forall2_length _ _ _ Fr) as L. rewrite row_length in L. split; [lia|]. intros s p Hs.
  destruct (Forall2_nth_l _ _ _ Fr s p Hs) as (p' & Hs' & HP). exists p'. split; [|exact HP].
  assert (s < length row)%nat by (apply nth_error_Some; congruence). rewrite nth_error_row in Hs' by lia. rewrite L. exact Hs'.
Qed.
Lemma rows_mirror_intro (k : bool) (P : panel -> panel -> Prop) m m' : length m = length m' ->
  (forall c row row', nth_error m c = Some row -> nth_error m' c = Some row' -> length row' = length row /\
     forall s p p', nth_error row s = Some p -> nth_error row' (column_of k (length row) s) = Some p' -> P p p') ->
  rows_mirror k P m m'.
Proof.
  intros L H. apply Forall2_from_nth; [exact L|]. intros c row row' Hc Hc'. destruct (H c row row' Hc Hc') as [Lr HP].
  apply Forall2_from_nth; [rewrite row_length; lia|]. intros s p p' Hs Hs'. apply (HP s); [exact Hs|].
  assert (s < length row)%nat by (apply nth_error_Some; congruence). rewrite nth_error_row in Hs' by lia. rewrite <- Lr. exact Hs'.
Qed.

(** ** What a panel contributes to the flow *)
Record core : Type := mkcore {
  k_coll : vec; k_normal : vec;
  k_br : vec; k_fr : vec; k_fl : vec; k_bl : vec;
  k_hbr : vec; k_hfr : vec; k_hfl : vec; k_hbl : vec }.
Definition core_of (p : panel) : core :=
  let '(br, fr, fl, bl) := match p_ring_vortex p with
    | Some r => (lv_origin (rv_right_leg r), lv_termination (rv_right_leg r), lv_origin (rv_left_leg r), lv_termination (rv_left_leg r))
    | None => (vzero, vzero, vzero, vzero) end in
  let '(hbr, hfr, hfl, hbl) := if p_is_trailing_edge p then match p_horseshoe_vortex p with
    | Some h => (lv_origin (hs_right_leg h), lv_termination (hs_right_leg h), lv_origin (hs_left_leg h), lv_termination (hs_left_leg h))
    | None => (vzero, vzero, vzero, vzero) end else (vzero, vzero, vzero, vzero) in
  mkcore (p_collocation_point p) (p_unit_normal p) br fr fl bl hbr hfr hfl hbl.
Definition core_of_row (r : ring_row) : core :=
  mkcore (rr_collocation r) (rr_normal r) (rr_back_right r) (rr_front_right r) (rr_front_left r) (rr_back_left r)
         (rr_hs_back_right r) (rr_hs_front_right r) (rr_hs_front_left r) (rr_hs_back_left r).
Definition core_velocity (x : vec) (k : core) : vec :=
  vadd (quad_velocity x (k_br k) (k_fr k) (k_fl k) (k_bl k) 1 0 0)
       (shoe_velocity x (k_hbr k) (k_hfr k) (k_hfl k) (k_hbl k) 1 0 0).
Notation core_sys := (sys_matrix k_coll k_normal core_velocity).
Notation core_matched := (matched k_coll k_normal core_velocity).
Definition mirrored_core (k : bool) (c c' : core) : Prop :=
  k_coll c' = across (k_coll c) /\ k_normal c' = turned k (across (k_normal c)) /\
  k_br c' = across (if k then k_br c else k_bl c) /\ k_fr c' = across (if k then k_fr c else k_fl c) /\
  k_fl c' = across (if k then k_fl c else k_fr c) /\ k_bl c' = across (if k then k_bl c else k_br c) /\
  k_hbr c' = across (if k then k_hbr c else k_hbl c) /\ k_hfr c' = across (if k then k_hfr c else k_hfl c) /\
  k_hfl c' = across (if k then k_hfl c else k_hfr c) /\ k_hbl c' = across (if k then k_hbl c else k_hbr c).
Lemma quad_velocity_across x br fr fl bl g age nu :
  quad_velocity (across x) (across bl) (across fl) (across fr) (across br) g age nu = across (quad_velocity x br fr fl bl g age nu).
Proof. unfold quad_velocity. rewrite !across_add, <- !line_velocity_across. vring. Qed.
Lemma quad_velocity_across_kept x br fr fl bl g age nu :
  quad_velocity (across x) (across br) (across fr) (across fl) (across bl) g age nu = vopp (across (quad_velocity x br fr fl bl g age nu)).
Proof. unfold quad_velocity. rewrite !line_velocity_across_kept, !across_add. vring. Qed.
Lemma mirrored_core_sys k c c' : mirrored_core k c c' -> sys_mirror k_coll k_normal core_velocity k c c'.
Proof.
  intros (H1 & H2 & H3 & H4 & H5 & H6 & H7 & H8 & H9 & H10). split; [exact H1|]. split; [exact H2|]. intros x. unfold core_velocity.
  rewrite H3, H4, H5, H6, H7, H8, H9, H10. destruct k; cbn [turned].
  - rewrite quad_velocity_across_kept, shoe_velocity_across_kept, across_add. vring.
  - rewrite quad_velocity_across, shoe_velocity_across, across_add. reflexivity.
Qed.

Lemma ring_make_row_core a w p r : ring_make_row (a, w, p) = Ok r -> core_of_row r = core_of p.
Proof.
  unfold ring_make_row, core_of, core_of_row. destruct (p_ring_vortex p) as [v|]; [|discriminate].
  destruct (p_is_trailing_edge p).
  - destruct (p_horseshoe_vortex p) as [h|]; [|discriminate]. intros E. apply Ok_eq in E. subst r. reflexivity.
  - intros E. apply Ok_eq in E. subst r. reflexivity.
Qed.
Lemma ring_collapse_core l rows : ring_collapse l = Ok rows -> map core_of_row rows = map core_of (all_panels l).
Proof.
  unfold ring_collapse. intros E. apply mapM_Forall2 in E. rewrite <- flat_panels_snd.
  induction E as [|[[a w] p] r xs rs H _ IH]; cbn [map]; [reflexivity|]. rewrite IH, (ring_make_row_core _ _ _ _ H). reflexivity.
Qed.
Lemma core_row_velocity x r : ring_row_velocity x r 1 1 = core_velocity x (core_of_row r).
Proof. reflexivity. Qed.
Lemma ring_sys_matrix rows n : Forall row_ok rows -> n = length rows ->
  ring_influences rows (repeat 1 n) (ring_collapse_hs_strengths rows (repeat 0 n)) = core_sys (map core_of_row rows).
Proof.
  intros H L. rewrite ring_influences_explicit by assumption. unfold sys_matrix. rewrite !map_map. apply map_ext. intros r.
  rewrite map_map. reflexivity.
Qed.
Lemma ring_sys_rhs rows v : map Ropp (freestream_influences (map rr_normal rows) v) = sys_rhs k_normal (map core_of_row rows) v.
Proof. unfold freestream_influences, sys_rhs. rewrite !map_map. reflexivity. Qed.
Lemma ring_sys_velocity rows xs v x :
  vadd (vsum (map (fun rg => ring_row_velocity x (fst rg) (snd rg) (snd rg)) (combine rows xs))) v =
  sys_velocity core_velocity (map core_of_row rows) xs v x.
Proof.
  unfold sys_velocity. f_equal. f_equal. revert xs; induction rows as [|r rows IH]; intros [|g xs]; cbn [map combine]; try reflexivity.
  rewrite IH. f_equal. cbn [fst snd]. rewrite <- core_row_velocity, <- ring_row_velocity_linear. f_equal; ring.
Qed.

(** ** Rings of a mirrored wing *)
Definition ringed (k : bool) (p p' : panel) : Prop :=
  mirrored_panel k p p' /\ p_ring_vortex p <> None /\ p_ring_vortex p' <> None /\ mirrored_core k (core_of p) (core_of p').
Lemma mirrored_init d len m m' k c s s' p p' q q' : mirrored_panel k p p' -> p_is_trailing_edge p' = p_is_trailing_edge p ->
  (forall n n', panel_at m (S c) s = Ok n -> panel_at m' (S c) s' = Ok n' -> mirrored_panel k n n') ->
  ring_init_panel d len m c s p = Ok q -> ring_init_panel (across d) len m' c s' p' = Ok q' -> ringed k q q'.
Proof.
  intros Hp Ht Hn E E'. destruct (mirrored_panel_points k p p' Hp) as (V1 & V2 & V3 & V4 & _).
  unfold ring_init_panel in E, E'. rewrite Ht in E'. destruct (p_is_trailing_edge p) eqn:T.
  - apply Ok_eq in E, E'. subst q q'. split; [exact Hp|]. split; [discriminate|]. split; [discriminate|].
    unfold mirrored_core, core_of. cbn [p_ring_vortex p_set_ring p_set_horseshoe p_is_trailing_edge p_horseshoe_vortex]. rewrite T, Ht.
    cbn [k_coll k_normal k_br k_fr k_fl k_bl k_hbr k_hfr k_hfl k_hbl new_ring new_horseshoe rv_right_leg rv_left_leg hs_right_leg hs_left_leg
         new_line_vortex lv_origin lv_termination].
    split; [exact V3|]. split; [exact V4|]. destruct k; destruct Hp as (C1 & C2 & C3 & C4);
      rewrite V1, V2, C1, C2, C3, C4, !across_add, !across_sub, !across_scale; auto 12.
  - apply bind_Ok in E, E'. destruct E as (n & En & E), E' as (n' & En' & E'). apply Ok_eq in E, E'. subst q q'.
    destruct (mirrored_panel_points k n n' (Hn _ _ En En')) as (W1 & W2 & _).
    split; [exact Hp|]. split; [discriminate|]. split; [discriminate|].
    unfold mirrored_core, core_of. cbn [p_ring_vortex p_set_ring p_is_trailing_edge p_horseshoe_vortex]. rewrite T, Ht.
    cbn [k_coll k_normal k_br k_fr k_fl k_bl k_hbr k_hfr k_hfl k_hbl new_ring rv_right_leg rv_left_leg new_line_vortex lv_origin lv_termination].
    split; [exact V3|]. split; [exact V4|]. rewrite V1, V2, W1, W2. destruct k; rewrite !across_zero; auto 12.
Qed.
Lemma mapiM_length {A B} (f : nat -> A -> result B) l m : mapiM f l = Ok m -> length m = length l.
Proof. intros E. apply mapiM_Forall2, Forall2_length in E. rewrite combine_length, seq_length in E. lia. Qed.
Lemma mirrored_init_wing d w w' v v' : mirrored_wing mirrored_panel w w' -> well_meshed (w_panels w) -> well_meshed (w_panels w') ->
  ring_init_wing d w = Ok v -> ring_init_wing (across d) w' = Ok v' -> mirrored_wing ringed v v'.
Proof.
  intros (Hs & k & F) [U1 U2] [U1' U2'] E E'. unfold ring_init_wing in E, E'. cbv zeta in E, E'. rewrite Hs in E'.
  apply bind_Ok in E, E'. destruct E as (m & Em & E), E' as (m' & Em' & E'). apply Ok_eq in E, E'. subst v v'.
  split; [exact Hs|]. exists k. cbn [w_set_panels w_panels]. pose proof (Forall2_length _ _ _ F) as L.
  apply rows_mirror_intro; [rewrite (mapiM_length _ _ _ Em), (mapiM_length _ _ _ Em'); exact L|].
  intros c row row' Hc Hc'.
  destruct (mapiM_nth _ _ _ _ _ Em Hc) as (row0 & Hc0 & Er). destruct (mapiM_nth _ _ _ _ _ Em' Hc') as (row0' & Hc0' & Er').
  pose proof (mapiM_length _ _ _ Er) as Lr. pose proof (mapiM_length _ _ _ Er') as Lr'.
  destruct (rows_mirror_pos _ _ _ _ _ _ F Hc0) as (x & Hx & Lx & Px). rewrite Hc0' in Hx. apply Some_eq' in Hx. subst x.
  split; [lia|]. intros s q q' Hq Hq'.
  destruct (mapiM_nth _ _ _ _ _ Er Hq) as (p & Hp & Ep). destruct (mapiM_nth _ _ _ _ _ Er' Hq') as (p' & Hp' & Ep').
  destruct (Px s p Hp) as (y & Hy & Hm). rewrite <- Lr in Hy. rewrite Hp' in Hy. apply Some_eq' in Hy. subst y.
  refine (mirrored_init _ _ _ _ _ _ _ _ _ _ _ _ Hm _ _ Ep Ep').
  - rewrite (proj1 (proj2 (U2 _ _ _ _ Hc0 Hp))), (proj1 (proj2 (U2' _ _ _ _ Hc0' Hp'))), L. reflexivity.
  - intros n n' Hn Hn'. apply panel_at_spec in Hn, Hn'. destruct Hn as (rn & Hrn & Hn), Hn' as (rn' & Hrn' & Hn').
    destruct (rows_mirror_pos _ _ _ _ _ _ F Hrn) as (x & Hx & Ln & Pn). rewrite Hrn' in Hx. apply Some_eq' in Hx. subst x.
    destruct (Pn s n Hn) as (y & Hy & Hmn).
    assert (Eq : length rn = length row0).
    { rewrite (U1 rn), (U1 row0); [reflexivity| |]; eapply nth_error_In; eauto. }
    rewrite Eq, <- Lr, Hn' in Hy. apply Some_eq' in Hy. subst y. exact Hmn.
Qed.
Lemma mirrored_init_all f op op' l l' l0 l0' : mirrored_flow op op' -> mirrored f l l' ->
  (forall a, In a l -> well_meshed_airplane a) -> (forall a, In a l' -> well_meshed_airplane a) ->
  ring_init op l = Ok l0 -> ring_init op' l' = Ok l0' -> paired f (mirrored_airplane ringed) l0 l0'.
Proof.
  intros Hop HM W W' E E'. unfold ring_init in E, E'. rewrite (mirrored_direction op op' Hop) in E'. apply mapM_Forall2 in E, E'.
  assert (M1 : paired f (fun a a' => mirrored_airplane mirrored_panel a a' /\ well_meshed_airplane a /\ well_meshed_airplane a') l l').
  { apply (paired_impl f _ _ _ _ HM). auto. }
  assert (M2 : paired f (fun a0 a' => exists a, ring_init_airplane (freestream_direction op) a = Ok a0 /\
                mirrored_airplane mirrored_panel a a' /\ well_meshed_airplane a /\ well_meshed_airplane a') l0 l').
  { apply (paired_left f _ _ _ _ _ _ E M1). eauto. }
  apply (paired_right f _ _ _ _ _ _ E' M2). clear. intros a0 a' a0' E' (a & E & (H1 & H2 & H3 & H4 & g & Hg) & W & W').
  unfold ring_init_airplane in E, E'. apply bind_Ok in E, E'. destruct E as (ws & Ew & E), E' as (ws' & Ew' & E').
  apply Ok_eq in E, E'. subst a0 a0'. cbn [a_set_wings a_xyz_ref a_s_ref a_c_ref a_b_ref a_wings]. repeat (split; [assumption|]). exists g.
  apply mapM_Forall2 in Ew, Ew'.
  assert (G1 : paired g (fun w w' => mirrored_wing mirrored_panel w w' /\ well_meshed (w_panels w) /\ well_meshed (w_panels w')) (a_wings a) (a_wings a')).
  { apply (paired_impl g _ _ _ _ Hg). intros w w' Hw Hw' H. split; [exact H|]. split; [apply W, Hw | apply W', Hw']. }
  assert (G2 : paired g (fun v w' => exists w, ring_init_wing (freestream_direction op) w = Ok v /\
                mirrored_wing mirrored_panel w w' /\ well_meshed (w_panels w) /\ well_meshed (w_panels w')) ws (a_wings a')).
  { apply (paired_left g _ _ _ _ _ _ Ew G1). eauto. }
  apply (paired_right g _ _ _ _ _ _ Ew' G2). intros v w' v' E' (w & E & Hm & U & U'). eapply mirrored_init_wing; eauto.
Qed.

(** ** Strengths *)
Notation same_core := (fun p q => core_of q = core_of p /\ (p_ring_vortex p <> None -> p_ring_vortex q <> None)).
Lemma same_points p q : same_panel p q -> p_collocation_point q = p_collocation_point p /\ p_unit_normal q = p_unit_normal p.
Proof.
  intros (S1 & S2 & S3 & S4 & _). unfold p_collocation_point, p_unit_normal, p_cross, p_first_diagonal, p_second_diagonal, p_left_leg, p_right_leg.
  rewrite S1, S2, S3, S4. split; reflexivity.
Qed.
Lemma set_strength_core p g q : ring_set_strength p g = Ok q -> same_core p q.
Proof.
  unfold ring_set_strength. destruct (p_ring_vortex p) as [r|] eqn:Er; [|discriminate]. cbv zeta.
  change (p_horseshoe_vortex (p_set_ring (Some (ring_update_strength g r)) p)) with (p_horseshoe_vortex p).
  destruct (p_horseshoe_vortex p) as [h|] eqn:Eh; intros E; apply Ok_eq in E; subst q; (split; [|discriminate]);
    unfold core_of; cbn [p_ring_vortex p_set_ring p_set_horseshoe p_is_trailing_edge p_horseshoe_vortex]; rewrite Er, ?Eh; reflexivity.
Qed.
Lemma kept_core p q : vortices_kept p q -> same_core p q.
Proof.
  intros (Hs & H1 & H2). destruct (same_points _ _ Hs) as [P1 P2]. split; [|rewrite H1; auto]. unfold core_of. rewrite H1, H2, P1, P2.
  destruct Hs as (_ & _ & _ & _ & _ & -> & _). reflexivity.
Qed.
Lemma kept_all op fs ms l l' : process_forces op fs ms l = Ok l' -> Forall2 vortices_kept (all_panels l) (all_panels l').
Proof.
  intros E. apply process_forces_sound in E. destruct E as (us & rest & _ & F).
  assert (K : Forall2 airplane_kept l l') by (revert F; apply Forall3_13'; intros a u b; apply totalled_kept).
  apply (rel_all_panels vortices_kept). eapply Forall2_impl; [|exact K]. intros a b [A B]. split; [exact A | exact B].
Qed.
Lemma final_core solve s s' : ring_run solve s = Ok s' -> exists l0, ring_init (rso_op s) (rso_airplanes s) = Ok l0 /\
  ring_collapse l0 = Ok (rso_rows s') /\ Forall2 (rel_airplane same_core) l0 (rso_airplanes s').
Proof.
  intros E. apply ring_run_inv in E. destruct E as (l0 & l1 & loads & Ei & Ec & _ & _ & _ & _ & _ & Eu & _ & Ep). exists l0.
  split; [exact Ei|]. split; [exact Ec|].
  pose proof (kept_all _ _ _ _ _ Ep) as K. pose proof Eu as Eu'. apply update_panels_sound in Eu. destruct Eu as (us & rest & _ & F).
  pose proof (airplanes_updated_panels _ _ _ _ F) as F1. apply airplanes_updated_same in F; [|apply ring_set_strength_same].
  apply rel_airplanes_flat.
  - eapply same_airplanes_trans; [exact F|]. apply process_forces_sound in Ep. destruct Ep as (us' & rest' & _ & G).
    revert G. apply Forall3_13'. intros a u b H. apply totalled_kept in H. apply H.
  - assert (F2 : Forall2 same_core (all_panels l0) (all_panels l1)).
    { revert F1. apply Forall3_13'. intros p g q. apply set_strength_core. }
    exact (Forall2_replace_r _ _ _ _ _ _ K F2 (fun p q z Hz Hpq => conj (eq_trans (proj1 (kept_core _ _ Hz)) (proj1 Hpq))
                                                                   (fun N => proj2 (kept_core _ _ Hz) (proj2 Hpq N)))).
Qed.

Lemma ringed_known k p p' : ringed k p p' -> ring_strength p' <> None.
Proof. intros (_ & _ & H & _). unfold ring_strength. destruct (p_ring_vortex p'); [discriminate | congruence]. Qed.
Lemma core_matched_rows f l1 l2 xs1 xs2 :
  paired f (mirrored_airplane (fun k p p' => ringed k p p' /\ ring_strength p' = option_map (mirrored_strength k) (ring_strength p))) l1 l2 ->
  map ring_strength (all_panels l1) = map Some xs1 -> map ring_strength (all_panels l2) = map Some xs2 ->
  core_matched (map core_of (all_panels l1)) xs1 (map core_of (all_panels l2)) xs2.
Proof.
  intros HP E1 E2. pose proof (f_equal (@length _) E1) as L1. pose proof (f_equal (@length _) E2) as L2. rewrite !map_length in L1, L2.
  split; [rewrite map_length; congruence|]. split; [rewrite map_length; congruence|].
  destruct (mirror_flat f _ l1 l2 HP) as (c & Hc & F).
  pose (val (p : panel) := match ring_strength p with Some g => g | None => 0 end).
  assert (V : forall (l : list airplane) xs, map ring_strength (all_panels l) = map Some xs ->
    combine (map core_of (all_panels l)) xs = map (fun x => (core_of (snd x), val (snd x))) (flat_panels l)).
  { intros l xs. rewrite <- flat_panels_snd, !map_map. generalize (flat_panels l). intros k. revert xs.
    induction k as [|x k IH]; intros [|g xs]; cbn [map combine]; try discriminate; auto. intros E. apply cons_eq' in E. destruct E as [E Es].
    f_equal; [|apply IH; exact Es]. unfold val. change (ring_strength (snd x) = Some g) in E. rewrite E. reflexivity. }
  exists (map (fun x => (core_of (snd x), val (snd x))) c). rewrite !V by assumption. split; [apply Permutation_map, Hc|].
  assert (Kn : forall x, In x (flat_panels l1) -> ring_strength (snd x) <> None).
  { intros x Hx. apply (strengths_known ring_strength (all_panels l1) xs1); [exact E1|]. rewrite <- flat_panels_snd. apply in_map. exact Hx. }
  clear -F Kn. revert Kn. induction F as [|x x' l l' ((k & H & Hg) & _) _ IH]; cbn [map]; intros Kn; constructor; [|apply IH; intros y Hy; apply Kn; right; exact Hy].
  cbn [fst snd]. exists k. split; [apply mirrored_core_sys, H|]. unfold val. rewrite Hg.
  specialize (Kn x (or_introl eq_refl)). destruct (ring_strength (snd x)); [reflexivity | congruence].
Qed.

(** ** Nets and legs *)
Lemma circulation_strength m c row s p : nth_error m c = Some row -> nth_error row s = Some p ->
  circulation m c s = match ring_strength p with Some g => g | None => 0 end.
Proof. intros Hc Hs. unfold circulation, ring_strength. rewrite Hc, Hs. destruct (p_ring_vortex p); reflexivity. Qed.
Lemma circulation_outside m c row s : nth_error m c = Some row -> (length row <= s)%nat -> circulation m c s = 0.
Proof. intros Hc L. unfold circulation. rewrite Hc. apply nth_error_None in L. rewrite L. reflexivity. Qed.
Notation strengths_mirror k := (rows_mirror k (fun p p' => ring_strength p' = option_map (mirrored_strength k) (ring_strength p))).
Lemma turned_nothing k : mirrored_strength k 0 = 0. Proof. destruct k; cbn; lra. Qed.
Lemma turned_minus k x y : mirrored_strength k x - mirrored_strength k y = mirrored_strength k (x - y). Proof. destruct k; cbn; lra. Qed.
Lemma circulation_mirror (k : bool) m m' c row s : strengths_mirror k m m' ->
  nth_error m c = Some row -> (s < length row)%nat -> circulation m' c (column_of k (length row) s) = mirrored_strength k (circulation m c s).
Proof.
  intros F Hc L. destruct (rows_mirror_pos _ _ _ _ _ _ F Hc) as (row' & Hc' & L' & H).
  destruct (nth_error row s) as [p|] eqn:Hp; [|apply nth_error_None in Hp; lia]. destruct (H s p Hp) as (p' & Hp' & E).
  rewrite (circulation_strength _ _ _ _ _ Hc Hp), (circulation_strength _ _ _ _ _ Hc' Hp'), E.
  destruct (ring_strength p); [reflexivity | symmetry; apply turned_nothing].
Qed.
Lemma nets_mirror (k : bool) m m' c row s : strengths_mirror k m m' ->
  (forall row, In row m -> length row = length (hd [] m)) -> nth_error m c = Some row -> (s < length row)%nat ->
  let j := column_of k (length row) s in
  net_front m' c j = mirrored_strength k (net_front m c s) /\
  net_left m' c j = mirrored_strength k (if k then net_left m c s else net_right m c s) /\
  net_right m' c j = mirrored_strength k (if k then net_right m c s else net_left m c s).
Proof.
  intros F U Hc L j. pose proof (circulation_mirror _ _ _ _ _ _ F Hc L) as E. destruct (rows_mirror_pos _ _ _ _ _ _ F Hc) as (row' & Hc' & L' & _).
  fold j in E. assert (N1 : net_front m' c j = mirrored_strength k (net_front m c s)).
  { unfold net_front. rewrite E, <- turned_minus. f_equal. destruct c as [|c]; [symmetry; apply turned_nothing|]. assert (c < length m)%nat.
    { assert (S c < length m)%nat by (apply nth_error_Some; congruence). lia. }
    destruct (nth_error m c) as [r|] eqn:Hr; [|apply nth_error_None in Hr; lia].
    assert (Lr : length r = length row) by (rewrite (U r), (U row); [reflexivity| |]; eapply nth_error_In; eauto).
    unfold j. rewrite <- Lr. apply circulation_mirror; [exact F | exact Hr | lia]. }
  split; [exact N1|]. unfold j in *. clear N1 j. destruct k; cbn [column_of] in *; unfold net_left, net_right; rewrite E; rewrite <- !turned_minus.
  - split; f_equal.
    + destruct s as [|s]; [symmetry; apply turned_nothing|]. apply (circulation_mirror true _ _ _ _ s F Hc). lia.
    + destruct (Nat.eq_dec (S s) (length row)) as [X|X].
      * rewrite (circulation_outside _ _ _ _ Hc), (circulation_outside _ _ _ _ Hc') by lia. symmetry; apply turned_nothing.
      * apply (circulation_mirror true _ _ _ _ (S s) F Hc). lia.
  - split; f_equal.
    + destruct (Nat.eq_dec (S s) (length row)) as [X|X].
      * replace (length row - 1 - s)%nat with 0%nat by lia. rewrite (circulation_outside _ _ _ _ Hc) by lia. reflexivity.
      * pose proof (circulation_mirror false _ _ _ _ (S s) F Hc ltac:(lia)) as Y. cbn [column_of] in Y. destruct (length row - 1 - s)%nat as [|i] eqn:Z; [lia|].
        replace (length row - 1 - S s)%nat with i in Y by lia. exact Y.
    + destruct s as [|s].
      * apply (circulation_outside _ _ _ _ Hc'). lia.
      * replace (S (length row - 1 - S s)) with (length row - 1 - s)%nat by lia. apply (circulation_mirror false _ _ _ _ s F Hc). lia.
Qed.
Lemma core_ring p r : p_ring_vortex p = Some r ->
  k_br (core_of p) = lv_origin (rv_right_leg r) /\ k_fr (core_of p) = lv_termination (rv_right_leg r) /\
  k_fl (core_of p) = lv_origin (rv_left_leg r) /\ k_bl (core_of p) = lv_termination (rv_left_leg r).
Proof.
  intros E. unfold core_of. rewrite E. destruct (p_is_trailing_edge p); [|cbn; auto]. destruct (p_horseshoe_vortex p); cbn; auto.
Qed.
Lemma mirrored_rings k p p' r r' : mirrored_core k (core_of p) (core_of p') -> p_ring_vortex p = Some r -> p_ring_vortex p' = Some r' ->
  ring_consistent r -> ring_consistent r' ->
  mirrored_leg k (rv_front_leg r) (rv_front_leg r') /\
  mirrored_leg k (if k then rv_left_leg r else rv_right_leg r) (rv_left_leg r') /\
  mirrored_leg k (if k then rv_right_leg r else rv_left_leg r) (rv_right_leg r').
Proof.
  intros (_ & _ & H1 & H2 & H3 & H4 & _) Er Er' (Lf & Ll & _ & Lr & _) (Lf' & Ll' & _ & Lr' & _).
  destruct (core_ring p r Er) as (K1 & K2 & K3 & K4). destruct (core_ring p' r' Er') as (K1' & K2' & K3' & K4').
  pose proof Ll as (A1 & A2 & _). pose proof Lr as (B1 & B2 & _). pose proof Ll' as (A1' & A2' & _). pose proof Lr' as (B1' & B2' & _).
  rewrite K1, K2, K3, K4, K1', K2', K3', K4', A1, A2, B1, B2, A1', A2', B1', B2' in *.
  split; [|split].
  - apply (mirrored_leg_intro k _ _ _ _ _ _ _ _ Lf Lf'); destruct k; assumption.
  - destruct k; [apply (mirrored_leg_intro true _ _ _ _ _ _ _ _ Ll Ll') | apply (mirrored_leg_intro false _ _ _ _ _ _ _ _ Lr Ll')]; assumption.
  - destruct k; [apply (mirrored_leg_intro true _ _ _ _ _ _ _ _ Lr Lr') | apply (mirrored_leg_intro false _ _ _ _ _ _ _ _ Ll Lr')]; assumption.
Qed.

Lemma ring_mirrored solve f l l' op op' s : SolveSpec solve -> mirrored_flow op op' -> mirrored f l l' ->
  (forall a, In a l -> well_meshed_airplane a) -> (forall a, In a l' -> well_meshed_airplane a) ->
  ring_run solve (ring_new l op) = Ok s ->
  exists s', ring_run solve (ring_new l' op') = Ok s' /\
    (forall x v, ring_solution_velocity s [x] = [v] -> ring_solution_velocity s' [across x] = [across v]) /\
    paired f (mirrored_solution ring_strength) (rso_airplanes s) (rso_airplanes s').
Proof.
  intros HS Hop HM W W' E.
  assert (Fr : fresh_ring (ring_new l op)) by (apply ring_new_fresh; intros a Ha; apply W, Ha).
  assert (Fr' : fresh_ring (ring_new l' op')) by (apply ring_new_fresh; intros a Ha; apply W', Ha).
  assert (Wm : forall a w, In a l -> In w (a_wings a) -> well_meshed (w_panels w)) by (intros a w Ha Hw; exact (proj1 (W a Ha) w Hw)).
  assert (Wm' : forall a w, In a l' -> In w (a_wings a) -> well_meshed (w_panels w)) by (intros a w Ha Hw; exact (proj1 (W' a Ha) w Hw)).
  pose proof (ring_final_strengths _ _ _ HS (fresh_sized _ Fr) E) as X1. change (map ring_strength (all_panels (rso_airplanes s)) = map Some (rso_strengths s)) in X1.
  destruct (final_core _ _ _ E) as (l0 & Ei & Ec & Rc). cbn [ring_new rso_op rso_airplanes] in Ei.
  destruct (ring_run_total solve (ring_new l' op') HS (fresh_sized _ Fr') Wm') as (l0' & rows' & Ei' & Ec' & K). cbn [ring_new rso_op rso_airplanes] in Ei'.
  pose proof (mirrored_init_all f op op' l l' l0 l0' Hop HM W W' Ei Ei') as M0.
  set (l1 := rso_airplanes s) in *. set (xs1 := rso_strengths s) in *.
  assert (M1 : paired f (mirrored_airplane ringed) l1 l0').
  { apply (mirror_left _ f _ _ _ _ _ Rc M0). intros k p p1 p' Hs [Hc Hr] (A & B & C & D). split; [exact (mirrored_same _ _ _ _ Hs A)|].
    split; [exact (Hr B)|]. split; [exact C|]. rewrite Hc. exact D. }
  destruct (mirror_choice f same_core _ (fun k p p' => ringed k p p' /\ ring_strength p' = option_map (mirrored_strength k) (ring_strength p)) _ _ M1) as (l2 & R2 & M2).
  { intros k p p' (A & B & C & D). destruct (p_ring_vortex p) as [r|] eqn:Er; [|congruence]. destruct (p_ring_vortex p') as [r'|] eqn:Er'; [|congruence].
    exists (p_set_ring (Some (ring_update_strength (mirrored_strength k (rv_strength r)) r')) p').
    assert (Hk : core_of (p_set_ring (Some (ring_update_strength (mirrored_strength k (rv_strength r)) r')) p') = core_of p').
    { unfold core_of. cbn [p_ring_vortex p_set_ring]. rewrite Er'. reflexivity. }
    split; [split; [unfold same_panel; cbn; auto 12 | split; [exact Hk | discriminate]]|].
    split; [|unfold ring_strength; rewrite Er; reflexivity].
    split; [exact A|]. split; [congruence|]. split; [discriminate|]. rewrite Hk. exact D. }
  destruct (strengths_listed ring_strength (all_panels l2)) as (xs2 & X2).
  { intros q Hq. destruct (mirror_flat _ _ _ _ M2) as (c & Hc & Fc). rewrite <- flat_panels_snd in Hq. apply in_map_iff in Hq.
    destruct Hq as (x & <- & Hx). eapply Permutation_in in Hx; [|apply Permutation_sym, Hc].
    destruct (Forall2_In_r _ _ _ _ Fc Hx) as (x1 & _ & (k & H1 & _) & _). exact (ringed_known _ _ _ H1). }
  pose proof (core_matched_rows f l1 l2 xs1 xs2 M2 X1 X2) as Mt.
  assert (Same : forall la lb, Forall2 (rel_airplane same_core) la lb -> map core_of (all_panels lb) = map core_of (all_panels la)).
  { intros la lb R. apply rel_all_panels in R. induction R as [|p q ps qs [H _] _ IH]; cbn [map]; [reflexivity|]. rewrite H, IH. reflexivity. }
  assert (K1 : map core_of_row (rso_rows s) = map core_of (all_panels l1)) by (rewrite (ring_collapse_core _ _ Ec); symmetry; apply Same, Rc).
  assert (K2 : map core_of_row rows' = map core_of (all_panels l2)) by (rewrite (ring_collapse_core _ _ Ec'); symmetry; apply Same, R2).
  assert (Ok' : Forall row_ok rows').
  { apply ring_collapse_ok in Ec'. apply Forall_forall. intros r Hr. destruct (Forall2_In_r _ _ _ _ Ec' Hr) as (x & _ & Hx & _). exact Hx. }
  assert (N' : length (all_panels l') = length rows').
  { rewrite (Forall2_length _ _ _ (same_all_panels _ _ (ring_init_same _ _ _ Ei'))). rewrite <- (ring_collapse_panels _ _ Ec'), map_length. reflexivity. }
  pose proof E as E0. apply ring_run_inv in E0. cbv zeta in E0. destruct E0 as (z0 & z1 & loads & _ & _ & Eo & Ev & _ & Es & _ & _ & _ & Ep).
  rewrite (proj1 Fr), (proj2 Fr) in Es. cbn [ring_new rso_op rso_airplanes rso_freestream] in Es, Eo, Ev.
  assert (Es2 : solve (ring_influences rows' (rso_strengths (ring_new l' op')) (ring_collapse_hs_strengths rows' (rso_hs_strengths (ring_new l' op'))))
          (map Ropp (freestream_influences (map rr_normal rows') (rso_freestream (ring_new l' op')))) = Ok xs2).
  { rewrite (proj1 Fr'), (proj2 Fr'). cbn [ring_new rso_airplanes rso_freestream].
    rewrite ring_sys_matrix, ring_sys_rhs, K2, (mirrored_freestream op op' Hop) by assumption.
    apply (mirrored_system _ _ _ solve _ xs1 _ xs2 _ HS Mt). rewrite <- K1, <- ring_sys_rhs.
    rewrite <- (ring_sys_matrix (rso_rows s) (length (all_panels l))); [exact Es | exact (ring_rows_ok _ _ _ E)|].
    symmetry. exact (ring_rows_count _ _ _ E). }
  destruct (K xs2 Es2) as (s' & E' & Ex'). exists s'. split; [exact E'|].
  pose proof (ring_final_strengths _ _ _ HS (fresh_sized _ Fr') E') as X3. change (map ring_strength (all_panels (rso_airplanes s')) = map Some (rso_strengths s')) in X3.
  rewrite Ex' in X3. destruct (final_core _ _ _ E') as (l0'' & Ei'' & Ec'' & Rc'). cbn [ring_new rso_op rso_airplanes] in Ei''.
  rewrite Ei' in Ei''. apply Ok_eq in Ei''. subst l0''. rewrite Ec' in Ec''. apply Ok_eq in Ec''.
  pose proof E' as E0'. apply ring_run_inv in E0'. cbv zeta in E0'. destruct E0' as (z0' & z1' & loads' & _ & _ & Eo' & Ev' & _ & _ & _ & _ & _ & Ep').
  cbn [ring_new rso_op rso_airplanes rso_freestream] in Eo', Ev', Ep, Ep'.
  destruct (ring_solution _ _ _ HS Fr E) as (_ & _ & Vs & _). destruct (ring_solution _ _ _ HS Fr' E') as (_ & _ & Vs' & _).
  assert (V : forall x v, ring_solution_velocity s [x] = [v] -> ring_solution_velocity s' [across x] = [across v]).
  { intros x v. rewrite Vs, Vs', !ring_sys_velocity. intros H. apply cons_eq' in H. destruct H as [<- _]. f_equal.
    rewrite <- Ec'', K1, K2, Ex', Ev, Ev', (mirrored_freestream op op' Hop). apply (matched_velocity _ _ _ _ _ _ _ _ _ Mt). }
  split; [exact V|]. set (l3 := rso_airplanes s') in *.
  assert (M3 : paired f (mirrored_airplane (fun k p p' => ringed k p p' /\ ring_strength p' = option_map (mirrored_strength k) (ring_strength p))) l1 l3).
  { assert (R23 : Forall2 (rel_airplane (fun p q => core_of q = core_of p /\ (p_ring_vortex p <> None -> p_ring_vortex q <> None) /\ ring_strength q = ring_strength p)) l2 l3).
    { apply rel_airplanes_flat.
      - eapply same_airplanes_trans; [apply same_airplanes_sym; exact (rel_same _ _ _ R2) | exact (rel_same _ _ _ Rc')].
      - pose proof (strengths_same _ _ _ _ X2 X3) as Y. pose proof (Same _ _ R2) as Y2. rewrite <- (Same _ _ Rc') in Y2. clear -Y Y2.
        revert Y2. induction Y as [|p q ps qs H _ IH]; cbn [map]; intros Y2; constructor.
        + apply cons_eq' in Y2. destruct Y2 as [Y2 _]. split; [congruence|]. split; [|exact H]. unfold ring_strength in H.
          destruct (p_ring_vortex p), (p_ring_vortex q); try discriminate; congruence.
        + apply IH. apply cons_eq' in Y2. apply Y2. }
    apply (mirror_right _ f _ _ _ _ _ R23 M2). intros k p p' q Hs (G1 & G2 & G3) ((A & B & C & D) & T).
    split; [|congruence]. split; [exact (mirrored_same_r _ _ _ _ Hs A)|]. split; [exact B|]. split; [exact (G2 C)|]. rewrite G1. exact D. }
  assert (M4 : paired f (mirrored_airplane (fun k p p' => mirrored_panel k p p' /\ mirrored_loads p p' /\ ring_strength p <> None /\
                                                       ring_strength p' = option_map (mirrored_strength k) (ring_strength p))) l1 l3).
  { apply (mirror_impl _ _ _ _ _ M3). intros a a' w w' Ha Ha' Hw Hw' Href (Hs & k & HF). split; [exact Hs|]. exists k.
    assert (Um : well_meshed (w_panels w)).
    { exact (well_meshed_airplanes_same _ _ (ring_run_same _ _ _ E) Wm a w Ha Hw). }
    assert (HG : strengths_mirror k (w_panels w) (w_panels w')).
    { eapply Forall2_impl; [|exact HF]. intros r r' Hr. eapply Forall2_impl; [|exact Hr]. intros p p' H. apply H. }
    apply rows_mirror_intro; [exact (Forall2_length _ _ _ HF)|]. intros c row row' Hc Hc'.
    destruct (rows_mirror_pos _ _ _ _ _ _ HF Hc) as (z & Hz & Lz & Pz). rewrite Hc' in Hz. apply Some_eq' in Hz. subst z.
    split; [exact Lz|]. intros j p p' Hp Hp'. destruct (Pz j p Hp) as (z & Hz & (A & B & C & D) & T). rewrite Hp' in Hz. apply Some_eq' in Hz. subst z.
    split; [exact A|]. split; [|split; [unfold ring_strength; destruct (p_ring_vortex p); [discriminate | congruence] | exact T]].
    assert (Lj : (j < length row)%nat) by (apply nth_error_Some; congruence).
    assert (Hq : at_position (w_panels w) c j p) by (exists row; auto).
    assert (Hq' : at_position (w_panels w') c (column_of k (length row) j) p') by (exists row'; auto).
    destruct (ring_kutta_joukowski _ _ _ HS (fresh_sized _ Fr) Wm E a w c j p Ha Hw Hq) as (r & vr & vf & vl & Hr & Cr & V1 & V2 & V3 & G1 & G2 & _).
    destruct (ring_kutta_joukowski _ _ _ HS (fresh_sized _ Fr') Wm' E' a' w' c _ p' Ha' Hw' Hq') as (r' & vr' & vf' & vl' & Hr' & Cr' & V1' & V2' & V3' & G1' & G2' & _).
    destruct (mirrored_rings k p p' r r' D Hr Hr' Cr Cr') as (Lf & Ll & Lr).
    destruct (nets_mirror k _ _ _ _ _ HG (proj1 Um) Hc Lj) as (N1 & N2 & N3).
    assert (Er : op_density (rso_op s') = op_density (rso_op s)) by (rewrite Eo, Eo'; apply Hop).
    assert (Ip : In p (airplane_panels a)).
    { apply in_airplane_panels. exists w. split; [exact Hw|]. apply in_ravel_position. eauto. }
    assert (Ip' : In p' (airplane_panels a')).
    { apply in_airplane_panels. exists w'. split; [exact Hw'|]. apply in_ravel_position. eauto. }
    cbv zeta in G1, G2, G1', G2'. apply V in V1, V2, V3.
    apply (mirrored_loads_from op op' k p p' _ _ Hop A (proj2 (processed _ _ _ _ _ Ep a Ha) p Ip) (proj2 (processed _ _ _ _ _ Ep' a' Ha') p' Ip') G1 G2);
      [rewrite G1' | rewrite G2']; f_equal; clear G1 G2 G1' G2'.
    - rewrite (proj1 Lf), V2 in V2'. apply cons_eq' in V2'. destruct V2' as [Q2 _]. symmetry in Q2.
      rewrite (mirrored_leg_force _ _ k _ _ _ _ _ _ Er N1 Q2 Lf), !across_add.
      destruct k; rewrite (proj1 Ll) in V3'; rewrite (proj1 Lr) in V1'.
      + rewrite V3 in V3'. rewrite V1 in V1'. apply cons_eq' in V1', V3'. destruct V1' as [Q1 _], V3' as [Q3 _]. symmetry in Q1, Q3.
        rewrite (mirrored_leg_force _ _ true _ _ _ _ _ _ Er N2 Q3 Ll), (mirrored_leg_force _ _ true _ _ _ _ _ _ Er N3 Q1 Lr). reflexivity.
      + rewrite V1 in V3'. rewrite V3 in V1'. apply cons_eq' in V1', V3'. destruct V1' as [Q1 _], V3' as [Q3 _]. symmetry in Q1, Q3.
        rewrite (mirrored_leg_force _ _ false _ _ _ _ _ _ Er N2 Q3 Ll), (mirrored_leg_force _ _ false _ _ _ _ _ _ Er N3 Q1 Lr). clear. vring.
    - rewrite (proj1 Lf), V2 in V2'. apply cons_eq' in V2'. destruct V2' as [Q2 _]. symmetry in Q2.
      rewrite (mirrored_leg_moment _ _ _ _ _ _ (proj1 Lf) Href (mirrored_leg_force _ _ k _ _ _ _ _ _ Er N1 Q2 Lf)).
      destruct k; rewrite (proj1 Ll) in V3'; rewrite (proj1 Lr) in V1'.
      + rewrite V3 in V3'. rewrite V1 in V1'. apply cons_eq' in V1', V3'. destruct V1' as [Q1 _], V3' as [Q3 _]. symmetry in Q1, Q3.
        rewrite (mirrored_leg_moment _ _ _ _ _ _ (proj1 Ll) Href (mirrored_leg_force _ _ true _ _ _ _ _ _ Er N2 Q3 Ll)),
          (mirrored_leg_moment _ _ _ _ _ _ (proj1 Lr) Href (mirrored_leg_force _ _ true _ _ _ _ _ _ Er N3 Q1 Lr)). clear. unfold across_moment. vring.
      + rewrite V1 in V3'. rewrite V3 in V1'. apply cons_eq' in V1', V3'. destruct V1' as [Q1 _], V3' as [Q3 _]. symmetry in Q1, Q3.
        rewrite (mirrored_leg_moment _ _ _ _ _ _ (proj1 Ll) Href (mirrored_leg_force _ _ false _ _ _ _ _ _ Er N2 Q3 Ll)),
          (mirrored_leg_moment _ _ _ _ _ _ (proj1 Lr) Href (mirrored_leg_force _ _ false _ _ _ _ _ _ Er N3 Q1 Lr)). clear. unfold across_moment. vring. }
  apply (paired_impl f _ _ _ _ M4). intros a a' Ha Ha' Hm. split; [|exact Hm].
  apply (mirrored_totals_from op op' _ a a' Hop (fun k p p' H => proj1 (proj2 H)) Hm);
    [exact (proj1 (processed _ _ _ _ _ Ep a Ha)) | exact (proj1 (processed _ _ _ _ _ Ep' a' Ha'))].
Qed.
