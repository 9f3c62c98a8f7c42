(** Lemmas about the steady ring vortex solver. *)
From Coq Require Import Lra Lia.
From Verif Require Import M_SteadyRing S_Geometry S_Vortices S_Solve S_Loads
  L_Base L_Rotations L_Aero L_Loads L_Horseshoe.

Lemma mapiM_Forall2 {A B} (f : nat -> A -> result B) l m : mapiM f l = Ok m ->
  Forall2 (fun ix y => f (fst ix) (snd ix) = Ok y) (combine (seq 0 (length l)) l) m.
Proof. apply mapM_Forall2. Qed.
Lemma Forall2_combine_seq {A B} (P : A -> B -> Prop) (l : list A) (m : list B) k :
  Forall2 (fun ix y => P (snd ix) y) (combine (seq k (length l)) l) m -> Forall2 P l m.
Proof.
  revert m k; induction l as [|x l IH]; cbn; intros m k F; inversion F; subst; constructor; eauto.
Qed.
Lemma mapiM_Forall2' {A B} (P : A -> B -> Prop) (f : nat -> A -> result B) l m :
  (forall i x y, f i x = Ok y -> P x y) -> mapiM f l = Ok m -> Forall2 P l m.
Proof.
  intros H E. apply mapiM_Forall2 in E. apply (Forall2_combine_seq P l m 0).
  eapply Forall2_impl; [|exact E]. intros [i x] y; cbn; apply H.
Qed.

(** ** Initialisation *)
Definition ring_initialised (p q : panel) : Prop :=
  same_panel p q /\ (exists r, p_ring_vortex q = Some r /\ ring_consistent r /\
    rv_front_left r = p_front_left_vortex_vertex p /\ rv_front_right r = p_front_right_vortex_vertex p) /\
  (p_is_trailing_edge p = true -> exists h, p_horseshoe_vortex q = Some h).
Lemma ring_init_panel_ok d w m c s p q : ring_init_panel d (w_span w * 20) m c s p = Ok q -> ring_initialised p q.
Proof.
  unfold ring_init_panel. destruct (p_is_trailing_edge p) eqn:Et; intros E.
  - injection E as <-. split; [unfold same_panel; cbn; auto 12|].
    split; [eexists; split; [reflexivity | split; [apply new_ring_consistent | split; reflexivity]]|].
    intros _; eexists; reflexivity.
  - inv_ok E. injection E as <-. split; [unfold same_panel; cbn; auto 12|].
    split; [eexists; split; [reflexivity | split; [apply new_ring_consistent | split; reflexivity]]|].
    intros X; rewrite Et in X; discriminate.
Qed.
Lemma ring_init_wing_ok d w v : ring_init_wing d w = Ok v ->
  v = w_set_panels (w_panels v) w /\ Forall2 (Forall2 ring_initialised) (w_panels w) (w_panels v).
Proof.
  unfold ring_init_wing. intros E. inv_ok E. injection E as <-. split; [reflexivity|]. cbn.
  eapply mapiM_Forall2'; [|exact E0]. intros c row row' E. eapply mapiM_Forall2'; [|exact E].
  intros s p q. apply ring_init_panel_ok.
Qed.
Lemma ring_init_wing_same d w v : ring_init_wing d w = Ok v -> same_wing w v.
Proof.
  intros E. apply ring_init_wing_ok in E. destruct E as [E F]. split; [exact E|].
  eapply Forall2_impl; [|exact F]. intros r r' H. eapply Forall2_impl; [|exact H]. intros p q (Hs & _); exact Hs.
Qed.
Lemma ring_init_same op airplanes airplanes' : ring_init op airplanes = Ok airplanes' ->
  Forall2 same_airplane airplanes airplanes'.
Proof.
  unfold ring_init. intros E. apply mapM_Forall2 in E. eapply Forall2_impl; [|exact E].
  intros a a' Ea. unfold ring_init_airplane in Ea. inv_ok Ea. injection Ea as <-.
  split; [|cbn; auto 8]. cbn. apply mapM_Forall2 in E0. eapply Forall2_impl; [|exact E0].
  intros w v'. apply ring_init_wing_same.
Qed.

(** ** Rows *)
Definition row_ok (r : ring_row) : Prop :=
  p_ring_vortex (rr_panel r) = Some (rr_vortex r) /\
  if p_is_trailing_edge (rr_panel r) then exists h, p_horseshoe_vortex (rr_panel r) = Some h
  else rr_hs_back_right r = vzero /\ rr_hs_front_right r = vzero /\ rr_hs_front_left r = vzero /\ rr_hs_back_left r = vzero.
Lemma ring_make_row_ok a w p r : ring_make_row (a, w, p) = Ok r -> row_ok r /\ rr_panel r = p /\ rr_ref r = a_xyz_ref a.
Proof.
  cbn. destruct (p_ring_vortex p) as [rv|] eqn:Er; [|discriminate].
  destruct (p_is_trailing_edge p) eqn:Et; [destruct (p_horseshoe_vortex p) as [h|] eqn:Eh; [|discriminate]|];
    intros E; injection E as <-; unfold row_ok; cbn; rewrite Er, Et, ?Eh; eauto 8.
Qed.
Lemma ring_collapse_ok airplanes rows : ring_collapse airplanes = Ok rows ->
  Forall2 (fun awp r => row_ok r /\ rr_panel r = snd awp /\ rr_ref r = a_xyz_ref (fst (fst awp))) (flat_panels airplanes) rows.
Proof.
  unfold ring_collapse. intros E. apply mapM_Forall2 in E. eapply Forall2_impl; [|exact E].
  intros [[a w] p] r. apply ring_make_row_ok.
Qed.
Lemma ring_collapse_panels airplanes rows : ring_collapse airplanes = Ok rows -> map rr_panel rows = all_panels airplanes.
Proof.
  intros E. apply ring_collapse_ok in E. rewrite <- flat_panels_snd. apply Forall2_map_eq.
  eapply Forall2_impl; [|exact E]. cbn. tauto.
Qed.

(** ** Velocities as sums over rows *)
Definition ring_row_velocity (x : vec) (r : ring_row) (g h : R) : vec :=
  vadd (quad_velocity x (rr_back_right r) (rr_front_right r) (rr_front_left r) (rr_back_left r) g 0 0)
       (shoe_velocity x (rr_hs_back_right r) (rr_hs_front_right r) (rr_hs_front_left r) (rr_hs_back_left r) h 0 0).
Lemma ring_row_velocity_linear x r k g h : ring_row_velocity x r (k * g) (k * h) = vscale k (ring_row_velocity x r g h).
Proof. unfold ring_row_velocity. rewrite quad_velocity_linear, shoe_velocity_linear, vscale_add. reflexivity. Qed.
Lemma ring_row_velocity_notTE x r g h h' : row_ok r -> p_is_trailing_edge (rr_panel r) = false ->
  ring_row_velocity x r g h = ring_row_velocity x r g h'.
Proof.
  intros [_ H] E. rewrite E in H. destruct H as (H1 & H2 & H3 & H4).
  unfold ring_row_velocity. rewrite H1, H2, H3, H4, !shoe_velocity_degenerate. reflexivity.
Qed.
Lemma ring_velocity_explicit rows xs hs v points : length xs = length rows -> length hs = length rows ->
  ring_velocity_of rows xs hs v points =
  map (fun x => vadd (vsum (map (fun rgh => ring_row_velocity x (fst rgh) (fst (snd rgh)) (snd (snd rgh)))
                                (combine rows (combine xs hs)))) v) points.
Proof.
  intros L1 L2. unfold ring_velocity_of.
  assert (L : length (combine xs hs) = length rows) by (rewrite combine_length; lia).
  rewrite (map_fst_combine' rr_back_right rows _ L), (map_fst_combine' rr_front_right rows _ L),
    (map_fst_combine' rr_front_left rows _ L), (map_fst_combine' rr_back_left rows _ L),
    (map_fst_combine' rr_hs_back_right rows _ L), (map_fst_combine' rr_hs_front_right rows _ L),
    (map_fst_combine' rr_hs_front_left rows _ L), (map_fst_combine' rr_hs_back_left rows _ L).
  set (l := combine rows (combine xs hs)).
  assert (Ex : xs = map (fun rgh => fst (snd rgh)) l).
  { rewrite <- (map_map snd fst). unfold l. rewrite map_snd_combine by exact L.
    symmetry; apply map_fst_combine; lia. }
  assert (Eh : hs = map (fun rgh => snd (snd rgh)) l).
  { rewrite <- (map_map snd snd). unfold l. rewrite map_snd_combine by exact L.
    symmetry; apply map_snd_combine; lia. }
  clearbody l. rewrite Ex, Eh. clear.
  rewrite (collapsed_ring_map_None (fun rg => rr_back_right (fst rg)) (fun rg => rr_front_right (fst rg))
             (fun rg => rr_front_left (fst rg)) (fun rg => rr_back_left (fst rg)) (fun rgh => fst (snd rgh))).
  rewrite (collapsed_horseshoe_map_None (fun rg => rr_hs_back_right (fst rg)) (fun rg => rr_hs_front_right (fst rg))
             (fun rg => rr_hs_front_left (fst rg)) (fun rg => rr_hs_back_left (fst rg)) (fun rgh => snd (snd rgh))).
  unfold add_rows. rewrite map2_map_map, map_map. apply map_ext; intros x.
  unfold ring_row_velocity. rewrite vsum_map_add. reflexivity.
Qed.
Definition ring_velocity_at (rows : list ring_row) (xs hs : list R) (v x : vec) : vec :=
  vadd (vsum (map (fun rgh => ring_row_velocity x (fst rgh) (fst (snd rgh)) (snd (snd rgh)))
                  (combine rows (combine xs hs)))) v.

(** The horseshoes have their ring's strength; other entries do not matter. *)
Lemma ring_solved_velocity rows xs old v x : Forall row_ok rows ->
  length xs = length rows -> length old = length rows ->
  ring_velocity_at rows xs (ring_solved_hs_strengths rows xs old) v x =
  vadd (vsum (map (fun rg => ring_row_velocity x (fst rg) (snd rg) (snd rg)) (combine rows xs))) v.
Proof.
  intros F L1 L2. unfold ring_velocity_at. do 2 f_equal.
  revert xs old L1 L2; induction F as [|r rows Hr _ IH]; intros [|g xs] [|o old]; cbn; try discriminate; intros L1 L2; [reflexivity|].
  f_equal; [|apply IH; lia].
  destruct (p_is_trailing_edge (rr_panel r)) eqn:Et.
  - destruct Hr as [_ Hr]. rewrite Et in Hr. destruct Hr as [h ->]. reflexivity.
  - apply ring_row_velocity_notTE; auto.
Qed.
Lemma ring_solved_length rows xs old : length xs = length rows -> length old = length rows ->
  length (ring_solved_hs_strengths rows xs old) = length rows.
Proof. intros L1 L2. unfold ring_solved_hs_strengths. rewrite map2_length, combine_length. lia. Qed.

Lemma ring_influences_explicit rows n : Forall row_ok rows -> n = length rows ->
  ring_influences rows (repeat 1 n) (ring_collapse_hs_strengths rows (repeat 0 n)) =
  map (fun r => map (fun s => vdot (ring_row_velocity (rr_collocation r) s 1 1) (rr_normal r)) rows) rows.
Proof.
  intros F ->. unfold ring_influences, normal_components, ring_collapse_hs_strengths.
  rewrite (repeat_map 1 rows), (repeat_map 0 rows).
  rewrite <- (map_id rows) at 12. rewrite map2_map_map.
  rewrite (expanded_ring_map_None rr_back_right rr_front_right rr_front_left rr_back_left (fun _ => 1)).
  rewrite (expanded_horseshoe_map_None rr_hs_back_right rr_hs_front_right rr_hs_front_left rr_hs_back_left
             (fun x => if p_is_trailing_edge (rr_panel x) then 1 else 0)).
  unfold add_grids, add_rows. rewrite !map_map, map2_map_map, map2_map_map. apply map_ext; intros r.
  rewrite map2_map_map, map_map. apply map_ext_in; intros s Hs.
  f_equal. fold (ring_row_velocity (rr_collocation r) s 1 (if p_is_trailing_edge (rr_panel s) then 1 else 0)).
  destruct (p_is_trailing_edge (rr_panel s)) eqn:Et; [reflexivity|].
  apply ring_row_velocity_notTE; auto. rewrite Forall_forall in F; auto.
Qed.

(** ** The whole run *)
Lemma ring_run_inv solve s s' : ring_run solve s = Ok s' ->
  exists airplanes0 airplanes1 loads,
  let op := rso_op s in
  let v := rso_freestream s in
  let rows := rso_rows s' in
  let xs := rso_strengths s' in
  let ones := ring_collapse_hs_strengths rows (rso_hs_strengths s) in
  ring_init op (rso_airplanes s) = Ok airplanes0 /\
  ring_collapse airplanes0 = Ok rows /\
  rso_op s' = op /\ rso_freestream s' = v /\
  rso_seed_points s' = rso_seed_points s ++ seeds_of (map rr_panel rows) /\
  solve (ring_influences rows (rso_strengths s) ones)
        (map Ropp (freestream_influences (map rr_normal rows) v)) = Ok xs /\
  rso_hs_strengths s' = ring_solved_hs_strengths rows xs ones /\
  update_panels ring_set_strength airplanes0 xs = Ok airplanes1 /\
  ring_loads (op_density op) (ring_velocity_of rows xs (rso_hs_strengths s') v) airplanes1 rows xs = Ok loads /\
  process_forces op (map fst loads) (map snd loads) airplanes1 = Ok (rso_airplanes s').
Proof.
  unfold ring_run. intros E.
  inv_ok E. inv_ok E. inv_ok E. inv_ok E. inv_ok E. inv_ok E. injection E as <-.
  cbn. exists v, v2, v3. repeat split; assumption || reflexivity.
Qed.
Lemma ring_set_strength_same p g q : ring_set_strength p g = Ok q -> same_panel p q.
Proof.
  unfold ring_set_strength. destruct (p_ring_vortex p); [|discriminate]. cbn.
  destruct (p_horseshoe_vortex p); intros E; injection E as <-; unfold same_panel; cbn; auto 12.
Qed.
Lemma ring_run_same solve s s' : ring_run solve s = Ok s' ->
  Forall2 same_airplane (rso_airplanes s) (rso_airplanes s').
Proof.
  intros E. apply ring_run_inv in E.
  destruct E as (a0 & a1 & loads & Ei & _ & _ & _ & _ & _ & _ & Eu & _ & Ep).
  apply ring_init_same in Ei.
  apply update_panels_sound in Eu. destruct Eu as (us & rest & _ & Fu).
  apply airplanes_updated_same in Fu; [|apply ring_set_strength_same].
  apply process_forces_sound in Ep. destruct Ep as (us' & rest' & _ & Fp).
  eapply same_airplanes_trans; [exact Ei|]. eapply same_airplanes_trans; [exact Fu|].
  revert Fp; apply Forall3_13; intros a u a' H; apply H.
Qed.
Lemma ring_rows_count solve s s' : ring_run solve s = Ok s' -> length (rso_rows s') = length (all_panels (rso_airplanes s)).
Proof.
  intros E. apply ring_run_inv in E. destruct E as (a0 & a1 & loads & Ei & Ec & _).
  apply ring_init_same, same_all_panels, Forall2_length in Ei. rewrite Ei.
  rewrite <- (ring_collapse_panels _ _ Ec), map_length. reflexivity.
Qed.
Lemma ring_rows_ok solve s s' : ring_run solve s = Ok s' -> Forall row_ok (rso_rows s').
Proof.
  intros E. apply ring_run_inv in E. destruct E as (a0 & a1 & loads & Ei & Ec & _).
  apply ring_collapse_ok in Ec. apply Forall_forall. intros r Hr. apply In_nth_error in Hr.
  destruct Hr as [i Hi]. destruct (Forall2_nth _ _ _ Ec i r Hi) as (awp & _ & H & _). exact H.
Qed.

(** The state a new solver starts from. *)
Definition fresh_ring (s : ring_solver) : Prop :=
  let n := length (all_panels (rso_airplanes s)) in
  rso_strengths s = repeat 1 n /\ rso_hs_strengths s = repeat 0 n.
Lemma fold_num_panels l n0 : fold_left (fun n a => n + a_num_panels a)%nat l n0 = (n0 + list_sum (map a_num_panels l))%nat.
Proof.
  revert n0; induction l as [|a l IH]; intros n0; cbn; [lia|]. rewrite IH. unfold list_sum; cbn. lia.
Qed.
Lemma num_panels_all l : (forall a, In a l -> a_num_panels a = length (airplane_panels a)) ->
  num_panels_of l = length (all_panels l).
Proof.
  intros H. unfold num_panels_of. rewrite fold_num_panels. cbn.
  unfold all_panels. rewrite length_concat, map_map. f_equal. apply map_ext_in; exact H.
Qed.
Lemma ring_new_fresh airplanes op : (forall a, In a airplanes -> a_num_panels a = length (airplane_panels a)) ->
  fresh_ring (ring_new airplanes op).
Proof. intros H. unfold fresh_ring; cbn. rewrite num_panels_all by exact H. auto. Qed.

Lemma ring_solution solve s s' : SolveSpec solve -> fresh_ring s -> ring_run solve s = Ok s' ->
  length (rso_strengths s') = length (rso_rows s') /\ length (rso_hs_strengths s') = length (rso_rows s') /\
  (forall x, ring_solution_velocity s' [x] =
     [vadd (vsum (map (fun rg => ring_row_velocity x (fst rg) (snd rg) (snd rg))
                      (combine (rso_rows s') (rso_strengths s')))) (rso_freestream s')]) /\
  forall r, In r (rso_rows s') ->
  rsum (map (fun rg => snd rg * vdot (ring_row_velocity (rr_collocation r) (fst rg) 1 1) (rr_normal r))
            (combine (rso_rows s') (rso_strengths s'))) = - vdot (rr_normal r) (rso_freestream s').
Proof.
  intros HS [F1 F2] E. pose proof (ring_rows_count _ _ _ E) as Lc. pose proof (ring_rows_ok _ _ _ E) as Fr.
  apply ring_run_inv in E. destruct E as (a0 & a1 & loads & Ei & Ec & _ & Ev & _ & Ex & Eh & _).
  rewrite F1, F2 in Ex. rewrite F2 in Eh.
  rewrite ring_influences_explicit in Ex by auto.
  set (rows := rso_rows s') in *. set (xs := rso_strengths s') in *.
  apply HS in Ex; [|apply square_map_map | unfold freestream_influences; rewrite !map_length; reflexivity].
  destruct Ex as [[Lx M] _]. rewrite map_length in Lx.
  assert (Lo : length (ring_collapse_hs_strengths rows (repeat 0 (length (all_panels (rso_airplanes s))))) = length rows).
  { unfold ring_collapse_hs_strengths. rewrite map2_length, repeat_length. lia. }
  assert (Lh : length (rso_hs_strengths s') = length rows).
  { rewrite Eh. apply ring_solved_length; auto. }
  split; [exact Lx|]. split; [exact Lh|]. split.
  - intros x. unfold ring_solution_velocity. fold rows xs.
    rewrite ring_velocity_explicit by auto. cbn [map]. f_equal.
    change (ring_velocity_at rows xs (rso_hs_strengths s') (rso_freestream s') x = 
       vadd (vsum (map (fun rg => ring_row_velocity x (fst rg) (snd rg) (snd rg)) (combine rows xs))) (rso_freestream s')).
    rewrite Eh. apply ring_solved_velocity; auto.
  - intros r Hin. unfold matvec, freestream_influences in M. rewrite !map_map in M.
    rewrite <- (rsum_map2_combine (fun q => vdot (ring_row_velocity (rr_collocation r) q 1 1) (rr_normal r))) by exact Lx.
    rewrite Ev. exact (ext_in_map M r Hin).
Qed.

Lemma ring_no_penetration solve s s' : SolveSpec solve -> fresh_ring s -> ring_run solve s = Ok s' ->
  forall p, In p (all_panels (rso_airplanes s')) ->
  exists u, ring_solution_velocity s' [p_collocation_point p] = [u] /\ vdot u (p_unit_normal p) = 0.
Proof.
  intros HS Hf E p Hp. destruct (ring_solution _ _ _ HS Hf E) as (Lx & Lh & Hv & Hs).
  assert (Hr : exists r, In r (rso_rows s') /\ same_panel (rr_panel r) p).
  { apply ring_run_inv in E. destruct E as (a0 & a1 & loads & Ei & Ec & _ & _ & _ & _ & _ & Eu & _ & Ep).
    apply update_panels_sound in Eu. destruct Eu as (us & rest & _ & Fu).
    apply airplanes_updated_same in Fu; [|apply ring_set_strength_same].
    apply process_forces_sound in Ep. destruct Ep as (us' & rest' & _ & Fp).
    assert (Fp' : Forall2 same_airplane a1 (rso_airplanes s')).
    { revert Fp; apply Forall3_13; intros a u a' H; apply H. }
    pose proof (same_all_panels _ _ (same_airplanes_trans _ _ _ Fu Fp')) as FS.
    rewrite <- (ring_collapse_panels _ _ Ec) in FS.
    apply In_nth_error in Hp. destruct Hp as [i Hi].
    destruct (Forall2_nth _ _ _ FS i p Hi) as (q & Hq & Hqs). apply nth_error_In in Hq.
    apply in_map_iff in Hq. destruct Hq as (r & <- & Hr). eauto. }
  destruct Hr as (r & Hr & Hsp). destruct (same_panel_collocation _ _ Hsp) as [-> ->].
  eexists; split; [apply Hv|]. specialize (Hs r Hr). fold (rr_collocation r) (rr_normal r).
  rewrite vdot_add_l, vdot_comm, vdot_vsum, map_map.
  transitivity (rsum (map (fun rg => snd rg * vdot (ring_row_velocity (rr_collocation r) (fst rg) 1 1) (rr_normal r))
                          (combine (rso_rows s') (rso_strengths s'))) + vdot (rr_normal r) (rso_freestream s')).
  - f_equal; [|apply vdot_comm]. apply rsum_map_ext. intros [q g] _. cbn [fst snd].
    rewrite <- (Rmult_1_r g) at 1 2. rewrite ring_row_velocity_linear, vdot_scale_r, vdot_comm. reflexivity.
  - rewrite Hs. ring.
Qed.

(** ** Leg loads *)
Definition wing_strengths_ok (m : list (list panel)) : Prop :=
  forall row p, In row m -> In p row -> exists r, p_ring_vortex p = Some r.
Lemma circulation_index m c s p r : panel_at m c s = Ok p -> p_ring_vortex p = Some r ->
  ring_strength_at m c s = Ok (circulation m c s) /\ circulation m c s = rv_strength r.
Proof.
  intros E Er. unfold ring_strength_at. rewrite E; cbn [bind]. rewrite Er.
  unfold panel_at in E. inv_ok E. unfold circulation. apply index_Some in E0. apply index_Some in E.
  rewrite E0, E, Er. auto.
Qed.
Lemma panel_at_spec m c s p : panel_at m c s = Ok p <-> at_position m c s p.
Proof.
  unfold panel_at, at_position. split.
  - intros E. inv_ok E. apply index_Some in E0, E. eauto.
  - intros (row & E1 & E2). apply index_Some in E1, E2. rewrite E1; cbn. exact E2.
Qed.
Lemma ring_strength_at_Ok m c s x : ring_strength_at m c s = Ok x -> x = circulation m c s.
Proof.
  unfold ring_strength_at. intros E. inv_ok E. destruct (p_ring_vortex v) as [r|] eqn:Er; [|discriminate].
  injection E as <-. symmetry. eapply circulation_index; eauto.
Qed.
Lemma effective_is_net a w p c s g gr gf gl : well_meshed (w_panels w) -> at_position (w_panels w) c s p ->
  effective_strengths ((a, w, p), g) = Ok (gr, gf, gl) -> g = circulation (w_panels w) c s ->
  gr = net_right (w_panels w) c s /\ gf = net_front (w_panels w) c s /\ gl = net_left (w_panels w) c s.
Proof.
  intros [Hrect Hm] (row & Hc & Hs) E Hg.
  destruct (Hm _ _ _ _ Hc Hs) as (Ele & _ & El & Er & Ec & Es).
  unfold effective_strengths in E. rewrite Ele, El, Er, Ec, Es in E. cbn [truthy position_of bind] in E.
  inv_ok E. inv_ok E. inv_ok E. injection E as -> -> ->.
  assert (Lr : (s < length row)%nat) by (apply nth_error_Some; rewrite Hs; discriminate).
  split; [|split].
  - unfold net_right. destruct (Nat.eqb_spec (S s) (length row)) as [X|X].
    + injection E0 as <-. rewrite Hg. unfold circulation at 3. rewrite Hc.
      assert (N : nth_error row (S s) = None) by (apply nth_error_None; lia). rewrite N. ring.
    + inv_ok E0. injection E0 as <-. apply ring_strength_at_Ok in E. rewrite Hg, E. reflexivity.
  - unfold net_front. destruct c as [|c]; cbn [Nat.eqb] in E1.
    + injection E1 as <-. rewrite Hg. ring.
    + inv_ok E1. injection E1 as <-. apply ring_strength_at_Ok in E. cbn in E. rewrite Hg, E. reflexivity.
  - unfold net_left. destruct s as [|s]; cbn [Nat.eqb] in E2.
    + injection E2 as <-. rewrite Hg. ring.
    + inv_ok E2. inv_ok E2. injection E2 as <-. apply ring_strength_at_Ok in E3. cbn in E3. rewrite Hg, E3. reflexivity.
Qed.

(** ** Nested relations from flat ones *)
Lemma Forall2_unconcat {A B} (P : A -> B -> Prop) l m :
  Forall2 (fun x y => length x = length y) l m -> Forall2 P (concat l) (concat m) -> Forall2 (Forall2 P) l m.
Proof.
  intros F; induction F as [|x y l m H _ IH]; cbn; intros G; [constructor|].
  assert (X : Forall2 P x y /\ Forall2 P (concat l) (concat m)).
  { revert y H G; clear; induction x as [|a x IHx]; intros [|b y]; cbn; try discriminate; intros H G; [auto|].
    inversion G; subst. destruct (IHx y) as [? ?]; auto. }
  destruct X; constructor; auto.
Qed.
Definition vortices_kept (p q : panel) : Prop :=
  same_panel p q /\ p_ring_vortex q = p_ring_vortex p /\ p_horseshoe_vortex q = p_horseshoe_vortex p.
Definition wing_kept (w v : wing) : Prop :=
  same_wing w v /\ Forall2 (Forall2 vortices_kept) (w_panels w) (w_panels v).
Definition airplane_kept (a b : airplane) : Prop :=
  same_airplane a b /\ Forall2 wing_kept (a_wings a) (a_wings b).
Lemma same_wing_lengths w v : same_wing w v -> Forall2 (fun x y => length x = length y) (w_panels w) (w_panels v).
Proof. intros [_ F]. eapply Forall2_impl; [|exact F]. intros x y; apply Forall2_length. Qed.
Lemma airplane_kept_flat a b : same_airplane a b -> Forall2 vortices_kept (airplane_panels a) (airplane_panels b) ->
  airplane_kept a b.
Proof.
  intros Hs F. split; [exact Hs|]. destruct Hs as (Fw & _).
  unfold airplane_panels in F. apply Forall2_unconcat in F.
  - revert F. induction Fw as [|w v ws vs Hw _ IH]; cbn; intros F; inversion F; subst; constructor; auto.
    split; [exact Hw|]. apply Forall2_unconcat; [apply same_wing_lengths; exact Hw | assumption].
  - clear F. induction Fw as [|w v ws vs Hw _ IH]; cbn; constructor; auto.
    destruct Hw as [_ Hw]. apply Forall2_concat, Forall2_length in Hw. exact Hw.
Qed.
Lemma map2_Forall2 {A B C} (f : A -> B -> C) (P : A -> C -> Prop) l m : length m = length l ->
  (forall x y, P x (f x y)) -> Forall2 P l (map2 f l m).
Proof.
  intros L H. revert m L; induction l as [|x l IH]; intros [|y m]; cbn; try discriminate; intros L; constructor; auto.
Qed.
Lemma totalled_kept op a u a' : totalled op a u a' -> airplane_kept a a'.
Proof.
  intros (Hs & Hp & L & _). apply airplane_kept_flat; [exact Hs|]. rewrite Hp. apply map2_Forall2; [exact L|].
  intros p fm. split; [apply loaded_same | cbn; auto].
Qed.
Lemma flat_rel (RA : airplane -> airplane -> Prop) (RW : wing -> wing -> Prop) (RP : panel -> panel -> Prop) l m :
  (forall a b, RA a b -> Forall2 RW (a_wings a) (a_wings b)) ->
  (forall w v, RW w v -> Forall2 (Forall2 RP) (w_panels w) (w_panels v)) ->
  Forall2 RA l m ->
  Forall2 (fun x y => RA (fst (fst x)) (fst (fst y)) /\ RW (snd (fst x)) (snd (fst y)) /\ RP (snd x) (snd y))
          (flat_panels l) (flat_panels m).
Proof.
  intros HA HW F. unfold flat_panels. apply Forall2_concat.
  induction F as [|a b l m Hab _ IH]; cbn; constructor; auto. clear IH.
  apply Forall2_concat. pose proof (HA _ _ Hab) as Fw.
  induction Fw as [|w v ws vs Hw _ IH]; cbn; constructor; auto. clear IH.
  pose proof (HW _ _ Hw) as Fm.
  apply Forall2_concat in Fm. unfold ravel. revert Fm.
  generalize (concat (w_panels w)) (concat (w_panels v)). intros l1 l2 Fm.
  induction Fm; cbn; constructor; auto.
Qed.
Lemma circulation_kept w v c s : wing_kept w v -> circulation (w_panels v) c s = circulation (w_panels w) c s.
Proof.
  intros [_ F]. unfold circulation. destruct (nth_error (w_panels v) c) as [row|] eqn:Ec.
  - destruct (Forall2_nth _ _ _ F c row Ec) as (row0 & -> & Fr).
    destruct (nth_error row s) as [p|] eqn:Es.
    + destruct (Forall2_nth _ _ _ Fr s p Es) as (p0 & -> & _ & -> & _). reflexivity.
    + apply nth_error_None in Es. rewrite <- (Forall2_length _ _ _ Fr) in Es. apply nth_error_None in Es. rewrite Es. reflexivity.
  - apply nth_error_None in Ec. rewrite <- (Forall2_length _ _ _ F) in Ec. apply nth_error_None in Ec. rewrite Ec. reflexivity.
Qed.
Lemma well_meshed_same w v : same_wing w v -> well_meshed (w_panels w) -> well_meshed (w_panels v).
Proof.
  intros [_ F] [H1 H2]. split.
  - intros row Hin. apply In_nth_error in Hin. destruct Hin as [i Hi].
    destruct (Forall2_nth _ _ _ F i row Hi) as (row0 & H0 & Fr).
    rewrite <- (Forall2_length _ _ _ Fr), (H1 row0) by (eapply nth_error_In; eauto).
    destruct F as [|r r' l l' Fh _]; [reflexivity|]. cbn. apply (Forall2_length _ _ _ Fh).
  - intros c row s p Hc Hs.
    destruct (Forall2_nth _ _ _ F c row Hc) as (row0 & Hc0 & Fr).
    destruct (Forall2_nth _ _ _ Fr s p Hs) as (p0 & Hs0 & Hp).
    specialize (H2 _ _ _ _ Hc0 Hs0).
    rewrite <- (Forall2_length _ _ _ F), <- (Forall2_length _ _ _ Fr).
    destruct Hp as (_ & _ & _ & _ & -> & -> & -> & -> & -> & ->). exact H2.
Qed.
Lemma well_meshed_airplanes_same l m : Forall2 same_airplane l m ->
  (forall a w, In a l -> In w (a_wings a) -> well_meshed (w_panels w)) ->
  forall a w, In a m -> In w (a_wings a) -> well_meshed (w_panels w).
Proof.
  intros F H b v Hb Hv. apply In_nth_error in Hb. destruct Hb as [i Hi].
  destruct (Forall2_nth _ _ _ F i b Hi) as (a & Ha & (Fw & _)).
  apply In_nth_error in Hv. destruct Hv as [j Hj].
  destruct (Forall2_nth _ _ _ Fw j v Hj) as (w & Hw & Hs).
  eapply well_meshed_same; [exact Hs|]. apply (H a w); eapply nth_error_In; eauto.
Qed.
Lemma in_ravel_position (m : list (list panel)) p : In p (ravel m) <-> exists c s, at_position m c s p.
Proof.
  unfold ravel, at_position. rewrite in_concat. split.
  - intros (row & Hr & Hp). apply In_nth_error in Hr, Hp. destruct Hr as [c Hc], Hp as [s Hs]. eauto 6.
  - intros (c & s & row & Hc & Hs). apply nth_error_In in Hc, Hs. eauto.
Qed.

(** ** Final panels of the ring solver *)
Definition sized_ring (s : ring_solver) : Prop :=
  let n := length (all_panels (rso_airplanes s)) in
  length (rso_strengths s) = n /\ length (rso_hs_strengths s) = n.
Lemma fresh_sized s : fresh_ring s -> sized_ring s.
Proof. intros [E1 E2]. unfold sized_ring. rewrite E1, E2, !repeat_length; auto. Qed.
Lemma ring_influences_general rows xs hs : length xs = length rows -> length hs = length rows ->
  ring_influences rows xs hs =
  map (fun r => map (fun sgh => vdot (ring_row_velocity (rr_collocation r) (fst sgh) (fst (snd sgh)) (snd (snd sgh)))
                                     (rr_normal r)) (combine rows (combine xs hs))) rows.
Proof.
  intros L1 L2. unfold ring_influences, normal_components.
  assert (L : length (combine xs hs) = length rows) by (rewrite combine_length; lia).
  rewrite (map_fst_combine' rr_back_right rows _ L), (map_fst_combine' rr_front_right rows _ L),
    (map_fst_combine' rr_front_left rows _ L), (map_fst_combine' rr_back_left rows _ L),
    (map_fst_combine' rr_hs_back_right rows _ L), (map_fst_combine' rr_hs_front_right rows _ L),
    (map_fst_combine' rr_hs_front_left rows _ L), (map_fst_combine' rr_hs_back_left rows _ L).
  set (l := combine rows (combine xs hs)).
  assert (Ex : xs = map (fun rgh => fst (snd rgh)) l).
  { rewrite <- (map_map snd fst). unfold l. rewrite map_snd_combine by exact L.
    symmetry; apply map_fst_combine; lia. }
  assert (Eh : hs = map (fun rgh => snd (snd rgh)) l).
  { rewrite <- (map_map snd snd). unfold l. rewrite map_snd_combine by exact L.
    symmetry; apply map_snd_combine; lia. }
  clearbody l. rewrite Ex, Eh. clear.
  rewrite (expanded_ring_map_None (fun rg => rr_back_right (fst rg)) (fun rg => rr_front_right (fst rg))
             (fun rg => rr_front_left (fst rg)) (fun rg => rr_back_left (fst rg)) (fun rgh => fst (snd rgh))).
  rewrite (expanded_horseshoe_map_None (fun rg => rr_hs_back_right (fst rg)) (fun rg => rr_hs_front_right (fst rg))
             (fun rg => rr_hs_front_left (fst rg)) (fun rg => rr_hs_back_left (fst rg)) (fun rgh => snd (snd rgh))).
  unfold add_grids, add_rows. rewrite !map_map, map2_map_map, map2_map_map. apply map_ext; intros r.
  rewrite map2_map_map, map_map. reflexivity.
Qed.
Lemma ring_sized_run solve s s' : SolveSpec solve -> sized_ring s -> ring_run solve s = Ok s' ->
  length (rso_strengths s') = length (rso_rows s') /\ length (rso_hs_strengths s') = length (rso_rows s') /\
  sized_ring s'.
Proof.
  intros HS [L1 L2] E. pose proof (ring_rows_count _ _ _ E) as Lc.
  pose proof (same_all_panels _ _ (ring_run_same _ _ _ E)) as Fs. apply Forall2_length in Fs.
  apply ring_run_inv in E. destruct E as (a0 & a1 & loads & Ei & Ec & _ & Ev & _ & Ex & Eh & _).
  assert (Lo : length (ring_collapse_hs_strengths (rso_rows s') (rso_hs_strengths s)) = length (rso_rows s')).
  { unfold ring_collapse_hs_strengths. rewrite map2_length. lia. }
  rewrite ring_influences_general in Ex by lia.
  assert (Lx : length (rso_strengths s') = length (rso_rows s')).
  { apply HS in Ex.
    - destruct Ex as [[Lx _] _]. rewrite map_length in Lx. exact Lx.
    - intros row Hin. apply in_map_iff in Hin. destruct Hin as (r & <- & _).
      rewrite !map_length, !combine_length. lia.
    - unfold freestream_influences. rewrite !map_length. reflexivity. }
  assert (Lh : length (rso_hs_strengths s') = length (rso_rows s')).
  { rewrite Eh. apply ring_solved_length; auto. }
  split; [exact Lx|]. split; [exact Lh|]. unfold sized_ring. lia.
Qed.

Lemma ring_strength_set p g q : ring_set_strength p g = Ok q ->
  exists r, p_ring_vortex p = Some r /\ p_ring_vortex q = Some (ring_update_strength g r).
Proof.
  unfold ring_set_strength. destruct (p_ring_vortex p) as [r|]; [|discriminate]. cbn.
  destruct (p_horseshoe_vortex p); intros E; injection E as <-; cbn; eauto.
Qed.

Lemma ring_kutta_joukowski solve s s' : SolveSpec solve -> sized_ring s ->
  (forall a w, In a (rso_airplanes s) -> In w (a_wings a) -> well_meshed (w_panels w)) ->
  ring_run solve s = Ok s' ->
  forall a w c j p, In a (rso_airplanes s') -> In w (a_wings a) -> at_position (w_panels w) c j p ->
  exists r vr vf vl,
    p_ring_vortex p = Some r /\ ring_consistent r /\
    ring_solution_velocity s' [lv_center (rv_right_leg r)] = [vr] /\
    ring_solution_velocity s' [lv_center (rv_front_leg r)] = [vf] /\
    ring_solution_velocity s' [lv_center (rv_left_leg r)] = [vl] /\
    let rho := op_density (rso_op s') in
    let fr := vscale (rho * net_right (w_panels w) c j) (vcross vr (lv_vector (rv_right_leg r))) in
    let ff := vscale (rho * net_front (w_panels w) c j) (vcross vf (lv_vector (rv_front_leg r))) in
    let fl := vscale (rho * net_left (w_panels w) c j) (vcross vl (lv_vector (rv_left_leg r))) in
    p_force_geometry p = Some (vadd (vadd ff fl) fr) /\
    p_moment_geometry p =
      Some (vadd (vadd (vcross (vsub (lv_center (rv_front_leg r)) (a_xyz_ref a)) ff)
                       (vcross (vsub (lv_center (rv_left_leg r)) (a_xyz_ref a)) fl))
                 (vcross (vsub (lv_center (rv_right_leg r)) (a_xyz_ref a)) fr)) /\
    vdot fr vr = 0 /\ vdot fr (lv_vector (rv_right_leg r)) = 0 /\
    vdot ff vf = 0 /\ vdot ff (lv_vector (rv_front_leg r)) = 0 /\
    vdot fl vl = 0 /\ vdot fl (lv_vector (rv_left_leg r)) = 0.
Proof.
  intros HS Hsz Hwm E a w c j p Ha Hw Hpos.
  destruct (ring_sized_run _ _ _ HS Hsz E) as (Lx & Lh & _).
  assert (Hwm' : well_meshed (w_panels w)).
  { eapply (well_meshed_airplanes_same _ _ (ring_run_same _ _ _ E) Hwm); eauto. }
  apply ring_run_inv in E.
  destruct E as (a0 & a1 & loads & Ei & Ec & Eo & Ev & _ & Ex & Eh & Eu & El & Ep).
  set (rows := rso_rows s') in *. set (xs := rso_strengths s') in *.
  (* position of the panel in the flattened walk *)
  assert (Hin : In (a, w, p) (flat_panels (rso_airplanes s'))).
  { apply in_flat. split; [exact Ha|]. split; [exact Hw|]. apply in_ravel_position; eauto. }
  apply In_nth_error in Hin. destruct Hin as [i Hi].
  apply process_forces_sound in Ep. destruct Ep as (us & rest & Ecm & Fp).
  assert (Fk : Forall2 airplane_kept a1 (rso_airplanes s')).
  { revert Fp; apply Forall3_13. intros; eapply totalled_kept; eauto. }
  pose proof (flat_rel airplane_kept wing_kept vortices_kept _ _ (fun _ _ H => proj2 H) (fun _ _ H => proj2 H) Fk) as FF.
  destruct (Forall2_nth _ _ _ FF i _ Hi) as ([[a1' w1] p1] & Hi1 & Hka & Hkw & Hkp). cbn [fst snd] in Hka, Hkw, Hkp.
  (* strengths *)
  apply update_panels_sound in Eu. destruct Eu as (ux & rx & Exs & Fu).
  pose proof (airplanes_updated_same _ _ _ _ ring_set_strength_same Fu) as Fs01.
  apply airplanes_updated_panels in Fu.
  assert (N : length (all_panels a0) = length rows).
  { rewrite <- (ring_collapse_panels _ _ Ec), map_length; reflexivity. }
  destruct (app_length_nil _ _ _ Exs) as [-> Exs'].
  { destruct (Forall3_length _ _ _ _ Fu) as [-> _]. rewrite N, Lx; reflexivity. }
  rewrite <- Exs' in Fu. clear ux Exs Exs'.
  destruct (Forall2_nth _ _ _ (same_flat _ _ Fs01) i _ Hi1) as ([[a0' w0] p0] & Hi0 & Hsa & Hsw & Hsp).
  cbn [fst snd] in Hsa, Hsw, Hsp.
  assert (Hp1 : nth_error (all_panels a1) i = Some p1) by (rewrite <- flat_panels_snd, nth_error_map, Hi1; reflexivity).
  assert (Hp0 : nth_error (all_panels a0) i = Some p0) by (rewrite <- flat_panels_snd, nth_error_map, Hi0; reflexivity).
  assert (Hg : exists g, nth_error xs i = Some g).
  { destruct (nth_error xs i) eqn:X; [eauto|]. apply nth_error_None in X.
    assert (i < length (all_panels a0))%nat by (apply nth_error_Some; rewrite Hp0; discriminate). lia. }
  destruct Hg as [g Hg].
  pose proof (Forall3_nth _ _ _ _ i _ _ _ Fu Hp0 Hg Hp1) as Hset.
  apply ring_strength_set in Hset. destruct Hset as (r0 & Hr0 & Hr1).
  (* row *)
  apply ring_collapse_ok in Ec. destruct (Forall2_nth_l _ _ _ Ec i _ Hi0) as (row & Hrow & Hok & Hrp & Href).
  cbn [fst snd] in Hrp, Href.
  assert (Hvx : rr_vortex row = r0) by (destruct Hok as [Hok _]; rewrite Hrp, Hr0 in Hok; congruence).
  (* effective strengths *)
  unfold ring_loads in El. inv_ok El. injection El as El. apply mapM_Forall2 in E.
  assert (Hcomb : nth_error (combine (flat_panels a1) xs) i = Some ((a1', w1, p1), g)) by (rewrite nth_error_combine, Hi1, Hg; reflexivity).
  destruct (Forall2_nth_l _ _ _ E i _ Hcomb) as ([[gr gf] gl] & Hv & Heff).
  assert (Hpos1 : at_position (w_panels w1) c j p1).
  { assert (Hin1 : In p1 (ravel (w_panels w1))).
    { apply nth_error_In in Hi1. apply in_flat in Hi1. tauto. }
    apply in_ravel_position in Hin1. destruct Hin1 as (c1 & j1 & Hpos1).
    assert (Hm1 : well_meshed (w_panels w1)).
    { destruct Hkw as [Hkw _]. clear -Hkw Hwm'.
      destruct Hwm' as [H1 H2]. destruct Hkw as [_ F]. split.
      - intros row Hin. apply In_nth_error in Hin. destruct Hin as [i Hi].
        destruct (Forall2_nth_l _ _ _ F i row Hi) as (row0 & H0 & Fr).
        rewrite (Forall2_length _ _ _ Fr), (H1 row0) by (eapply nth_error_In; eauto).
        destruct F as [|r r' l l' Fh _]; [reflexivity|]. cbn. symmetry; apply (Forall2_length _ _ _ Fh).
      - intros c row s p Hc Hs.
        destruct (Forall2_nth_l _ _ _ F c row Hc) as (row0 & Hc0 & Fr).
        destruct (Forall2_nth_l _ _ _ Fr s p Hs) as (p0 & Hs0 & Hp).
        specialize (H2 _ _ _ _ Hc0 Hs0).
        rewrite (Forall2_length _ _ _ F), (Forall2_length _ _ _ Fr).
        destruct Hp as (_ & _ & _ & _ & E1 & E2 & E3 & E4 & E5 & E6).
        rewrite E1, E2, E3, E4, E5, E6 in H2. exact H2. }
    destruct Hpos as (rw & Hc & Hj). destruct Hpos1 as (rw1 & Hc1 & Hj1).
    destruct Hwm' as [_ Hwm']. destruct Hm1 as [_ Hm1].
    specialize (Hwm' _ _ _ _ Hc Hj). specialize (Hm1 _ _ _ _ Hc1 Hj1).
    destruct Hkp as ((_ & _ & _ & _ & _ & _ & _ & _ & E1 & E2) & _).
    destruct Hwm' as (_ & _ & _ & _ & X1 & X2). destruct Hm1 as (_ & _ & _ & _ & Y1 & Y2).
    assert (c1 = c) by congruence. assert (j1 = j) by congruence. subst. exists rw1; auto. }
  assert (Hm1 : well_meshed (w_panels w1)).
  { eapply (well_meshed_airplanes_same (rso_airplanes s) a1).
    - eapply same_airplanes_trans; [eapply ring_init_same; exact Ei | exact Fs01].
    - exact Hwm.
    - apply nth_error_In in Hi1. apply in_flat in Hi1. destruct Hi1 as (X & _). exact X.
    - apply nth_error_In in Hi1. apply in_flat in Hi1. tauto. }
  assert (Hcirc : g = circulation (w_panels w1) c j).
  { destruct Hpos1 as (rw1 & Hc1 & Hj1). unfold circulation. rewrite Hc1, Hj1, Hr1. reflexivity. }
  destruct (effective_is_net _ _ _ _ _ _ _ _ _ Hm1 Hpos1 Heff Hcirc) as (-> & -> & ->).
  assert (Enr : net_right (w_panels w) c j = net_right (w_panels w1) c j).
  { unfold net_right. rewrite !(circulation_kept w1 w) by exact Hkw. reflexivity. }
  assert (Enf : net_front (w_panels w) c j = net_front (w_panels w1) c j).
  { unfold net_front. destruct c; rewrite !(circulation_kept w1 w) by exact Hkw; reflexivity. }
  assert (Enl : net_left (w_panels w) c j = net_left (w_panels w1) c j).
  { unfold net_left. destruct j; rewrite !(circulation_kept w1 w) by exact Hkw; reflexivity. }
  (* loads of this panel *)
  set (vel := ring_velocity_at rows xs (rso_hs_strengths s') (rso_freestream s')).
  assert (Hload : nth_error loads i = Some (ring_panel_loads (op_density (rso_op s)) row
            (net_right (w_panels w1) c j, net_front (w_panels w1) c j, net_left (w_panels w1) c j)
            (vel (rr_right_center row)) (vel (rr_front_center row)) (vel (rr_left_center row)))).
  { rewrite <- El, nth_error_map2, !nth_error_combine, Hrow, Hv.
    rewrite !ring_velocity_explicit by auto. rewrite !nth_error_map, Hrow. cbn. unfold vel.
    rewrite Ev. reflexivity. }
  assert (Hfin : p = loaded (rso_op s) p1 (ring_panel_loads (op_density (rso_op s)) row
            (net_right (w_panels w1) c j, net_front (w_panels w1) c j, net_left (w_panels w1) c j)
            (vel (rr_right_center row)) (vel (rr_front_center row)) (vel (rr_left_center row)))).
  { assert (P2 : all_panels (rso_airplanes s') = map2 (loaded (rso_op s)) (all_panels a1) (concat us) /\
               length (concat us) = length (all_panels a1)).
    { clear -Fp. revert Fp. generalize (rso_airplanes s'). intros l' Fp.
      induction Fp as [|x u x' l us l' H _ [IH1 IH2]]; cbn; [auto|]. unfold all_panels in *; cbn.
      destruct H as (_ & Hp & Lu & _). rewrite Hp, IH1, !app_length, IH2, Lu. split; [|reflexivity].
      symmetry. apply map2_app. auto. }
    destruct P2 as [P2 L2].
    assert (Hp : nth_error (all_panels (rso_airplanes s')) i = Some p) by (rewrite <- flat_panels_snd, nth_error_map, Hi; reflexivity).
    rewrite P2, nth_error_map2, Hp1 in Hp.
    assert (Hu : nth_error (concat us) i = nth_error loads i).
    { assert (Ecm' : combine (map fst loads) (map snd loads) = loads).
      { clear. induction loads as [|[f m] l IH]; cbn; congruence. }
      rewrite Ecm' in Ecm. rewrite Ecm, nth_error_app1; [reflexivity|].
      rewrite L2. apply nth_error_Some. rewrite Hp1; discriminate. }
    rewrite Hu, Hload in Hp. injection Hp as <-. reflexivity. }
  assert (Hcons : ring_consistent r0).
  { assert (Fi : Forall2 (fun a b => Forall2 (fun w v => Forall2 (Forall2 ring_initialised) (w_panels w) (w_panels v)) (a_wings a) (a_wings b)) (rso_airplanes s) a0).
    { unfold ring_init in Ei. apply mapM_Forall2 in Ei. eapply Forall2_impl; [|exact Ei].
      intros x x' Ea. unfold ring_init_airplane in Ea. inv_ok Ea. injection Ea as <-. cbn.
      apply mapM_Forall2 in E0. eapply Forall2_impl; [|exact E0]. intros y y' Ey.
      apply ring_init_wing_ok in Ey. tauto. }
    pose proof (flat_rel _ (fun w v => Forall2 (Forall2 ring_initialised) (w_panels w) (w_panels v))
        ring_initialised _ _ (fun _ _ H => H) (fun _ _ H => H) Fi) as FI.
    destruct (Forall2_nth _ _ _ FI i _ Hi0) as (x & _ & _ & _ & _ & (r & Hr & Hrc & _) & _).
    cbn [snd] in Hr. rewrite Hr0 in Hr. injection Hr as <-. exact Hrc. }
  set (r := ring_update_strength g r0).
  assert (Hrp' : p_ring_vortex p = Some r) by (rewrite Hfin; exact Hr1).
  assert (Hvel : forall x, ring_solution_velocity s' [x] = [vel x]).
  { intros x. unfold ring_solution_velocity. fold rows xs. rewrite ring_velocity_explicit by auto. reflexivity. }
  exists r, (vel (lv_center (rv_right_leg r))), (vel (lv_center (rv_front_leg r))), (vel (lv_center (rv_left_leg r))).
  split; [exact Hrp'|].
  split; [apply (ring_step_consistent r0 (RStrength g)); exact Hcons|].
  split; [apply Hvel|]. split; [apply Hvel|]. split; [apply Hvel|].
  assert (Eref : a_xyz_ref a = rr_ref row).
  { rewrite Href. destruct Hka as [(_ & _ & -> & _) _]. apply Hsa. }
  rewrite Eo, Enr, Enf, Enl. cbv zeta.
  split; [rewrite Hfin; cbn; unfold rr_right_center, rr_front_center, rr_left_center, rr_right_vector, rr_front_vector, rr_left_vector; rewrite Hvx; reflexivity|].
  split; [rewrite Hfin, Eref; cbn; unfold rr_right_center, rr_front_center, rr_left_center, rr_right_vector, rr_front_vector, rr_left_vector; rewrite Hvx; reflexivity|].
  repeat split; apply leg_force_perp.
Qed.

(** The run succeeds exactly when the linear solve does. *)
Lemma mapM_nth_ok {A B} (f : nat -> A -> result B) (l : list A) :
  (forall i x, nth_error l i = Some x -> exists y, f i x = Ok y) -> exists m, mapiM f l = Ok m.
Proof.
  intros H. unfold mapiM. apply mapM_ok. intros [i x] Hin. apply In_nth_error in Hin. destruct Hin as [k Hk].
  rewrite nth_error_combine in Hk. rewrite nth_error_seq0 in Hk.
  destruct (Nat.ltb k (length l)); [|discriminate].
  destruct (nth_error l k) eqn:E; [|discriminate]. injection Hk as <- <-. cbn. eauto.
Qed.
Lemma well_meshed_next m c s row p : well_meshed m -> nth_error m c = Some row -> nth_error row s = Some p ->
  p_is_trailing_edge p = false -> exists q, panel_at m (S c) s = Ok q.
Proof.
  intros [Hrect Hm] Hc Hs Ht. destruct (Hm _ _ _ _ Hc Hs) as (_ & Hte & _).
  rewrite Ht in Hte. symmetry in Hte. apply Nat.eqb_neq in Hte.
  assert (c < length m)%nat by (apply nth_error_Some; congruence).
  destruct (nth_error m (S c)) as [row'|] eqn:E; [|apply nth_error_None in E; lia].
  assert (Hl : length row' = length row).
  { rewrite (Hrect row'), (Hrect row); [reflexivity | eapply nth_error_In; eassumption | eapply nth_error_In; eassumption]. }
  assert (s < length row)%nat by (apply nth_error_Some; congruence).
  destruct (nth_error row' s) as [q|] eqn:Eq; [|apply nth_error_None in Eq; lia].
  exists q. apply panel_at_spec. exists row'; auto.
Qed.
Lemma ring_init_total op airplanes :
  (forall a w, In a airplanes -> In w (a_wings a) -> well_meshed (w_panels w)) ->
  exists airplanes', ring_init op airplanes = Ok airplanes'.
Proof.
  intros H. unfold ring_init. apply mapM_ok. intros a Ha. unfold ring_init_airplane.
  destruct (mapM_ok (ring_init_wing (freestream_direction op)) (a_wings a)) as [ws E].
  - intros w Hw. unfold ring_init_wing.
    match goal with |- context [mapiM ?f ?l] => destruct (mapM_nth_ok f l) as [m E] end.
    + intros c row Hc. apply mapM_nth_ok. intros s p Hs. unfold ring_init_panel.
      destruct (p_is_trailing_edge p) eqn:Ht; [eauto|].
      destruct (well_meshed_next _ _ _ _ _ (H _ _ Ha Hw) Hc Hs Ht) as [q ->]. cbn. eauto.
    + rewrite E; cbn; eauto.
  - rewrite E; cbn; eauto.
Qed.
Lemma ring_initialised_all op l l' : ring_init op l = Ok l' ->
  forall a w row p, In a l' -> In w (a_wings a) -> In row (w_panels w) -> In p row -> exists p0, ring_initialised p0 p.
Proof.
  intros E a w row p Ha Hw Hrow Hp. unfold ring_init in E. apply mapM_Forall2 in E.
  apply In_nth_error in Ha. destruct Ha as [i Ha].
  destruct (Forall2_nth _ _ _ E _ _ Ha) as (a0 & _ & Ea). unfold ring_init_airplane in Ea. inv_ok Ea. injection Ea as <-.
  cbn [a_set_wings a_wings] in Hw. apply mapM_Forall2 in E0.
  apply In_nth_error in Hw. destruct Hw as [j Hw]. destruct (Forall2_nth _ _ _ E0 _ _ Hw) as (w0 & _ & Ew).
  apply ring_init_wing_ok in Ew. destruct Ew as [_ F].
  apply In_nth_error in Hrow. destruct Hrow as [c Hrow]. destruct (Forall2_nth _ _ _ F _ _ Hrow) as (row0 & _ & F').
  apply In_nth_error in Hp. destruct Hp as [k Hp]. destruct (Forall2_nth _ _ _ F' _ _ Hp) as (p0 & _ & Hi).
  eauto.
Qed.
Lemma ring_collapse_total op l l' : ring_init op l = Ok l' -> exists rows, ring_collapse l' = Ok rows.
Proof.
  intros E. unfold ring_collapse. apply mapM_ok. intros [[a w] p] Hin. apply in_flat in Hin.
  destruct Hin as (Ha & Hw & Hp). unfold ravel in Hp. apply in_concat in Hp. destruct Hp as (row & Hrow & Hp).
  destruct (ring_initialised_all _ _ _ E _ _ _ _ Ha Hw Hrow Hp) as (p0 & Hs & (r & Hr & _) & Hh).
  unfold ring_make_row. rewrite Hr. destruct (p_is_trailing_edge p) eqn:Ht; [|eauto].
  destruct Hh as [h ->]; [|eauto]. destruct Hs as (_ & _ & _ & _ & _ & Hte & _). congruence.
Qed.
Lemma effective_total a w p c s g : well_meshed (w_panels w) -> wing_strengths_ok (w_panels w) ->
  at_position (w_panels w) c s p -> exists t, effective_strengths ((a, w, p), g) = Ok t.
Proof.
  intros Hm Hr (row & Hc & Hs). pose proof Hm as [Hrect Hpos].
  destruct (Hpos _ _ _ _ Hc Hs) as (Hle & Hte & Hl & Hright & Hpc & Hps).
  assert (Lc : (c < length (w_panels w))%nat) by (apply nth_error_Some; congruence).
  assert (Ls : (s < length row)%nat) by (apply nth_error_Some; congruence).
  assert (G : forall c' s', (c' < length (w_panels w))%nat -> (s' < length row)%nat ->
              exists x, ring_strength_at (w_panels w) c' s' = Ok x).
  { intros c' s' Lc' Ls'. destruct (nth_error (w_panels w) c') as [row'|] eqn:E; [|apply nth_error_None in E; lia].
    assert (Hlen : length row' = length row).
    { rewrite (Hrect row'), (Hrect row); [reflexivity | eapply nth_error_In; eassumption | eapply nth_error_In; eassumption]. }
    destruct (nth_error row' s') as [q|] eqn:Eq; [|apply nth_error_None in Eq; lia].
    destruct (Hr row' q) as [r Er]; [eapply nth_error_In; eassumption | eapply nth_error_In; eassumption|].
    unfold ring_strength_at, panel_at, index. rewrite E. cbn. rewrite Eq. cbn. rewrite Er. eauto. }
  unfold effective_strengths. rewrite Hpc, Hps, Hle, Hl, Hright. cbn [truthy position_of bind].
  unfold index at 1. rewrite Hc. cbn [bind].
  assert (X1 : exists x, (if Nat.eqb (S s) (length row) then Ok g
                else let* n := ring_strength_at (w_panels w) c (S s) in Ok (g - n)) = Ok x).
  { destruct (Nat.eqb_spec (S s) (length row)); [eauto|]. destruct (G c (S s)) as [x ->]; [lia | lia|]. cbn; eauto. }
  assert (X2 : exists x, (if Nat.eqb c 0 then Ok g
                else let* n := ring_strength_at (w_panels w) (py_pred c (length (w_panels w))) s in Ok (g - n)) = Ok x).
  { destruct (Nat.eqb_spec c 0); [eauto|]. destruct (G (py_pred c (length (w_panels w))) s) as [x ->]; [destruct c; cbn; lia | lia|]. cbn; eauto. }
  assert (X3 : exists x, (if Nat.eqb s 0 then Ok g
                else let* n := ring_strength_at (w_panels w) c (py_pred s (length row)) in Ok (g - n)) = Ok x).
  { destruct (Nat.eqb_spec s 0); [eauto|]. destruct (G c (py_pred s (length row))) as [x ->]; [lia | destruct s; cbn; lia|]. cbn; eauto. }
  destruct X1 as [x1 ->], X2 as [x2 ->], X3 as [x3 ->]. cbn. eauto.
Qed.
Lemma ring_updated_rings l xs l' : update_panels ring_set_strength l xs = Ok l' ->
  forall a w row p, In a l' -> In w (a_wings a) -> In row (w_panels w) -> In p row -> exists r, p_ring_vortex p = Some r.
Proof.
  intros E a w row p Ha Hw Hrow Hp. apply update_panels_sound in E. destruct E as (us & rest & _ & F).
  apply airplanes_updated_panels in F.
  assert (Hin : In p (all_panels l')).
  { apply in_all_panels. exists a; split; [exact Ha|]. apply in_airplane_panels. exists w; split; [exact Hw|].
    unfold ravel. apply in_concat. eauto. }
  clear -F Hin. induction F as [|x y z xs ys zs H F IH]; [destruct Hin|]. destruct Hin as [<-|Hin]; [|auto].
  apply ring_strength_set in H. destruct H as (r & _ & ->). eauto.
Qed.
Lemma ring_run_total solve s : SolveSpec solve -> sized_ring s ->
  (forall a w, In a (rso_airplanes s) -> In w (a_wings a) -> well_meshed (w_panels w)) ->
  exists airplanes0 rows,
    ring_init (rso_op s) (rso_airplanes s) = Ok airplanes0 /\ ring_collapse airplanes0 = Ok rows /\
    forall xs,
    solve (ring_influences rows (rso_strengths s) (ring_collapse_hs_strengths rows (rso_hs_strengths s)))
          (map Ropp (freestream_influences (map rr_normal rows) (rso_freestream s))) = Ok xs ->
    exists s', ring_run solve s = Ok s' /\ rso_strengths s' = xs.
Proof.
  intros HS [Z1 Z2] HM. destruct (ring_init_total (rso_op s) (rso_airplanes s) HM) as [l0 E0].
  destruct (ring_collapse_total _ _ _ E0) as [rows Er]. exists l0, rows. split; [exact E0|]. split; [exact Er|].
  intros xs Ex. unfold ring_run. rewrite E0; cbn [bind]. rewrite Er; cbn [bind]. rewrite Ex; cbn [bind].
  pose proof (ring_init_same _ _ _ E0) as Hs0.
  assert (L0 : length (all_panels l0) = length (all_panels (rso_airplanes s))).
  { symmetry. eapply Forall2_length, same_all_panels, Hs0. }
  assert (Lr : length rows = length (all_panels (rso_airplanes s))).
  { rewrite <- L0, <- (ring_collapse_panels _ _ Er), map_length. reflexivity. }
  set (ones := ring_collapse_hs_strengths rows (rso_hs_strengths s)) in *.
  assert (Lo : length ones = length rows) by (unfold ones, ring_collapse_hs_strengths; rewrite map2_length; lia).
  apply HS in Ex.
  2:{ rewrite ring_influences_general by lia. intros r Hin. apply in_map_iff in Hin. destruct Hin as (x & <- & _).
      rewrite !map_length, combine_length, combine_length. lia. }
  2:{ rewrite ring_influences_general by lia. unfold freestream_influences. rewrite !map_length. reflexivity. }
  destruct Ex as [[Lx _] _]. rewrite ring_influences_general, map_length in Lx by lia.
  destruct (update_panels_complete ring_set_strength l0 xs) as [l1 E1].
  { intros a w row p b Ha Hw Hrow Hp. destruct (ring_initialised_all _ _ _ E0 _ _ _ _ Ha Hw Hrow Hp) as (p0 & _ & (r & Hr & _) & _).
    unfold ring_set_strength. rewrite Hr. cbn. destruct (p_horseshoe_vortex p); eauto. }
  { lia. }
  rewrite E1; cbn [bind].
  pose proof E1 as F1. apply update_panels_sound in F1. destruct F1 as (us & rest & _ & F1).
  apply airplanes_updated_same in F1; [|apply ring_set_strength_same].
  assert (L1 : length (all_panels l1) = length (all_panels (rso_airplanes s))).
  { rewrite <- L0. symmetry. eapply Forall2_length, same_all_panels, F1. }
  assert (HM1 : forall a w, In a l1 -> In w (a_wings a) -> well_meshed (w_panels w)).
  { eapply well_meshed_airplanes_same; [exact F1|]. eapply well_meshed_airplanes_same; [exact Hs0 | exact HM]. }
  unfold ring_loads.
  destruct (mapM_ok effective_strengths (combine (flat_panels l1) xs)) as [eff Ee].
  { intros [[[a w] p] g] Hin. apply in_combine_l in Hin. apply in_flat in Hin. destruct Hin as (Ha & Hw & Hp).
    apply in_ravel_position in Hp. destruct Hp as (c & j & Hp).
    eapply effective_total; [eapply HM1; eassumption| |exact Hp].
    intros row q Hrow Hq. eapply ring_updated_rings; eassumption. }
  rewrite Ee; cbn [bind].
  pose proof (mapM_Ok_length _ _ _ Ee) as Le. rewrite combine_length, flat_panels_length in Le.
  match goal with |- context [process_forces ?o ?f ?m ?l] => destruct (proj2 (process_forces_complete o f m l)) as [l2 E2] end.
  { rewrite !map_length, map2_length, !combine_length.
    assert (Lh : length (ring_solved_hs_strengths rows xs ones) = length rows) by (apply ring_solved_length; lia).
    rewrite !ring_velocity_explicit by lia. rewrite !map_length. lia. }
  rewrite E2; cbn [bind]. eexists; split; [reflexivity|]. reflexivity.
Qed.
