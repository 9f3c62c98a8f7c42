(** Problems that are their own mirror images, and how symmetric airplanes are built. *)
From Coq Require Import Lra Lia.
From Verif Require Import M_Geometry M_Horseshoe M_SteadyRing S_Solve S_Loads S_Geometry S_Wing S_Mirror.
From Verif Require Import L_Base L_Loads L_Meshing L_Geometry L_Horseshoe L_SteadyRing L_Frames L_Mirror L_MirrorHorseshoe L_MirrorRing.

Lemma own_flow op : no_sideslip op -> mirrored_flow op op.
Proof. intros H. unfold no_sideslip in H. repeat split. rewrite H. lra. Qed.
Lemma own_totals a : mirrored_totals a a ->
  a_force_wind a <> None -> a_moment_wind a <> None -> a_force_coefficients a <> None -> a_moment_coefficients a <> None ->
  no_lateral_loads a.
Proof.
  intros (H1 & H2 & H3 & H4) N1 N2 N3 N4. unfold no_lateral_loads.
  destruct (a_force_wind a) as [f|]; [|congruence]. destruct (a_moment_wind a) as [m|]; [|congruence].
  destruct (a_force_coefficients a) as [cf|]; [|congruence]. destruct (a_moment_coefficients a) as [cm|]; [|congruence].
  exists f, m, cf, cm. do 4 (split; [reflexivity|]). cbn [option_map] in *.
  apply Some_eq in H1, H2, H3, H4.
  apply (f_equal vy) in H1. apply (f_equal vy) in H3.
  pose proof (f_equal vx H2) as H2x. pose proof (f_equal vz H2) as H2z. pose proof (f_equal vx H4) as H4x. pose proof (f_equal vz H4) as H4z.
  cbn in H1, H3, H2x, H2z, H4x, H4z. repeat split; lra.
Qed.
Lemma own_loads op fs ms l l' strength f : process_forces op fs ms l = Ok l' ->
  paired f (mirrored_solution strength) l' l' ->
  forall k a, f k = k -> nth_error l' k = Some a -> no_lateral_loads a.
Proof.
  intros E (_ & _ & HP) k a Hk Ha. destruct (HP k a Ha) as (a' & Ha' & Hm). rewrite Hk, Ha in Ha'. apply Some_eq in Ha'. subst a'.
  destruct (processed _ _ _ _ _ E a (nth_error_In _ _ Ha)) as [(fs' & ms' & _ & _ & H1 & H2 & H3 & H4) _].
  apply own_totals; [exact (proj1 Hm) | | | |]; congruence.
Qed.

Lemma hs_symmetric solve f l op s : SolveSpec solve -> no_sideslip op -> mirrored f l l -> hs_run solve (hs_new l op) = Ok s ->
  (forall x v, hs_solution_velocity s [x] = [v] -> hs_solution_velocity s [across x] = [across v]) /\
  paired f (mirrored_solution horseshoe_strength) (hso_airplanes s) (hso_airplanes s) /\
  forall k a, f k = k -> nth_error (hso_airplanes s) k = Some a -> no_lateral_loads a.
Proof.
  intros HS Hop Hm E. destruct (hs_mirrored solve f l l op op s HS (own_flow _ Hop) Hm E) as (s' & E' & HV & HP).
  rewrite E in E'. apply Ok_eq in E'. subst s'. split; [exact HV|]. split; [exact HP|].
  apply hs_run_inv in E. cbv zeta in E. destruct E as (_ & _ & _ & _ & _ & _ & l1 & _ & E). exact (own_loads _ _ _ _ _ _ _ E HP).
Qed.
Lemma ring_symmetric solve f l op s : SolveSpec solve -> no_sideslip op -> mirrored f l l ->
  (forall a, In a l -> well_meshed_airplane a) -> ring_run solve (ring_new l op) = Ok s ->
  (forall x v, ring_solution_velocity s [x] = [v] -> ring_solution_velocity s [across x] = [across v]) /\
  paired f (mirrored_solution ring_strength) (rso_airplanes s) (rso_airplanes s) /\
  forall k a, f k = k -> nth_error (rso_airplanes s) k = Some a -> no_lateral_loads a.
Proof.
  intros HS Hop Hm HW E. destruct (ring_mirrored solve f l l op op s HS (own_flow _ Hop) Hm HW HW E) as (s' & E' & HV & HP).
  rewrite E in E'. apply Ok_eq in E'. subst s'. split; [exact HV|]. split; [exact HP|].
  apply ring_run_inv in E. cbv zeta in E. destruct E as (l0 & l1 & loads & _ & _ & _ & _ & _ & _ & _ & _ & _ & E). exact (own_loads _ _ _ _ _ _ _ E HP).
Qed.

(** ** Building symmetric airplanes *)
Lemma symmetric_mirrored l : (forall a, In a l -> symmetric_airplane a) -> mirrored (fun k => k) l l.
Proof.
  intros H. split; [reflexivity|]. split; [auto|]. intros k x Hk. exists x. split; [exact Hk|]. apply H, (nth_error_In _ _ Hk).
Qed.
Lemma mirror_across n q v : vx n = 0 -> vz n = 0 -> vnorm n = 1 -> vy q = 0 -> mirror n q v = across v.
Proof.
  intros Hx Hz Hn Hq. pose proof (vnorm_sqr n) as Q. rewrite Hn in Q.
  destruct n as [nx ny nz], q as [qx qy qz], v as [x y z]. cbn in Hx, Hz, Hq. subst. unfold vdot in Q; cbn in Q.
  unfold mirror, across. vunfold. apply vec_ext; cbn; [ring | | ring].
  replace (y - 2 * (0 * (x - qx) + ny * (y - 0) + 0 * (z - qz)) * ny) with (y - 2 * y * (ny * ny)) by ring.
  replace (ny * ny) with 1 by lra. ring.
Qed.
Lemma mirror_image_panel n q p p' : vx n = 0 -> vz n = 0 -> vnorm n = 1 -> vy q = 0 -> mirror_image n q p p' -> mirrored_panel false p p'.
Proof. intros Hx Hz Hn Hq (H1 & H2 & H3 & H4). rewrite mirror_across in H1, H2, H3, H4 by assumption. cbn. auto. Qed.
Lemma mirrored_panel_sym p p' : mirrored_panel false p p' -> mirrored_panel false p' p.
Proof. cbn. intros (H1 & H2 & H3 & H4). rewrite H1, H2, H3, H4. repeat split; apply vec_ext; cbn; ring. Qed.

Lemma wing_lengths sections name x y z n sym c nc sp w r row : new_wing sections name x y z n sym c nc sp = Ok w ->
  nth_error (w_panels w) r = Some row -> length row = w_num_spanwise_panels w.
Proof. intros H Hr. destruct (wing_shape _ _ _ _ _ _ _ _ _ _ _ H) as (_ & _ & HL & _). apply HL, (nth_error_In _ _ Hr). Qed.

Lemma symmetric_wing_mirrored sections name x z n c nc sp w :
  new_wing sections name x 0 z n true c nc sp = Ok w -> vx n = 0 -> vz n = 0 -> vnorm n = 1 ->
  (forall s, In s (removelast sections) -> cs_control_surface_type s = "symmetric"%string \/ cs_control_surface_deflection s = 0) ->
  mirrored_wing mirrored_panel w w.
Proof.
  intros H Hx Hz Hn HO. split; [reflexivity|]. exists false. apply (rows_mirror_intro false); [reflexivity|].
  intros r row row' Hr Hr'. rewrite Hr in Hr'. apply Some_eq in Hr'. subst row'. split; [reflexivity|].
  intros s p p' Hp Hp'. pose proof (wing_lengths _ _ _ _ _ _ _ _ _ _ _ _ _ H Hr) as L. cbn [column_of] in Hp'. rewrite L in Hp'.
  assert (Hs : (s < length row)%nat) by (apply nth_error_Some; congruence). rewrite L in Hs.
  apply mirrored_panel_sym, (mirror_image_panel n (mkvec x 0 z)); auto.
  apply (wing_mirror _ _ _ _ _ _ _ _ _ _ H Hn HO r s p' p Hs); [exists row; auto | exists row; auto].
Qed.

Lemma nth_leading_edge_map l l' i : map cs_leading_edge l = map cs_leading_edge l' -> nth_leading_edge l i = nth_leading_edge l' i.
Proof.
  intros H. apply (f_equal (fun m => nth_error m i)) in H. rewrite !nth_error_map in H. unfold nth_leading_edge.
  destruct (nth_error l i), (nth_error l' i); cbn in H; congruence.
Qed.
Lemma opposed_wing_mirrored sections name x z n c nc sp w w' : vx n = 0 -> vz n = 0 -> vnorm n = 1 ->
  new_wing sections name x 0 z n true c nc sp = Ok w -> new_wing (map opposed sections) name x 0 z n true c nc sp = Ok w' ->
  mirrored_wing mirrored_panel w w'.
Proof.
  intros Hx Hz Hn H H'.
  assert (EO : map opposed (map opposed sections) = sections).
  { rewrite map_map, <- (map_id sections) at 1. rewrite map_id. transitivity (map (fun s => s) sections); [|apply map_id].
    apply map_ext. intros s. destruct s. unfold opposed, port_deflection; cbn. f_equal.
    destruct (String.eqb _ _); lra. }
  assert (EN : w_num_spanwise_panels w' = w_num_spanwise_panels w).
  { destruct (wing_shape _ _ _ _ _ _ _ _ _ _ _ H) as (_ & _ & _ & -> & _). destruct (wing_shape _ _ _ _ _ _ _ _ _ _ _ H') as (_ & _ & _ & -> & _).
    f_equal. f_equal. clear. induction sections as [|a [|b l] IH]; [reflexivity..|]. cbn [map removelast] in *. f_equal. exact IH. }
  assert (EL : length (w_panels w) = length (w_panels w')).
  { destruct (wing_shape _ _ _ _ _ _ _ _ _ _ _ H) as (_ & -> & _). destruct (wing_shape _ _ _ _ _ _ _ _ _ _ _ H') as (_ & -> & _). reflexivity. }
  split.
  - apply wing_mesh in H. destruct H as (m0 & _ & ->). apply wing_mesh in H'. destruct H' as (m1 & _ & ->). clear. unfold w_span. cbn [w_sections w_unit_normal w_symmetric].
    rewrite !map_length. cbv zeta.
    assert (E : map cs_leading_edge (map (cs_set_wing_chordwise c) (map opposed sections)) = map cs_leading_edge (map (cs_set_wing_chordwise c) sections))
      by (rewrite !map_map; apply map_ext; reflexivity).
    rewrite !(nth_leading_edge_map _ _ _ E). reflexivity.
  - exists false. apply (rows_mirror_intro false); [exact EL|]. intros r row row' Hr Hr'.
    pose proof (wing_lengths _ _ _ _ _ _ _ _ _ _ _ _ _ H Hr) as L. pose proof (wing_lengths _ _ _ _ _ _ _ _ _ _ _ _ _ H' Hr') as L'.
    split; [congruence|]. intros s p p' Hp Hp'. cbn [column_of] in Hp'. rewrite L in Hp'.
    assert (Hs : (s < w_num_spanwise_panels w)%nat) by (rewrite <- L; apply nth_error_Some; congruence).
    assert (Ha : at_position (w_panels w) r s p) by (exists row; auto).
    assert (Ha' : at_position (w_panels w') r (w_num_spanwise_panels w - 1 - s) p') by (exists row'; auto).
    destruct (Nat.lt_ge_cases (2 * s) (w_num_spanwise_panels w)) as [C|C].
    + apply mirrored_panel_sym, (mirror_image_panel n (mkvec x 0 z)); auto.
      exact (wing_mirror_opposed _ _ _ _ _ _ _ _ _ _ _ Hn H H' r s p' p C Ha Ha').
    + apply (mirror_image_panel n (mkvec x 0 z)); auto.
      rewrite <- EO in H. refine (wing_mirror_opposed _ _ _ _ _ _ _ _ _ _ _ Hn H' H r (w_num_spanwise_panels w - 1 - s)%nat p p' _ Ha' _); [lia|].
      rewrite EN. replace (w_num_spanwise_panels w - 1 - (w_num_spanwise_panels w - 1 - s))%nat with s by lia. exact Ha.
Qed.

(** A fin in the plane of symmetry. *)
Lemma fin_mirrored w :
  (forall p, In p (concat (w_panels w)) -> vy (p_front_left p) = 0 /\ vy (p_front_right p) = 0 /\ vy (p_back_left p) = 0 /\ vy (p_back_right p) = 0) ->
  mirrored_wing mirrored_panel w w.
Proof.
  intros H. split; [reflexivity|]. exists true. apply (rows_mirror_intro true); [reflexivity|].
  intros r row row' Hr Hr'. rewrite Hr in Hr'. apply Some_eq in Hr'. subst row'. split; [reflexivity|].
  intros s p p' Hp Hp'. cbn [column_of] in Hp'. rewrite Hp in Hp'. apply Some_eq in Hp'. subst p'.
  destruct (H p) as (H1 & H2 & H3 & H4); [apply in_concat; exists row; split; eapply nth_error_In; eauto|].
  assert (G : forall v, vy v = 0 -> v = across v) by (intros v Hv; unfold across; rewrite Hv; apply vec_ext; cbn; lra).
  cbn. repeat split; apply G; assumption.
Qed.
(** Two wings that are each other's mirror image, and any number of wings and fins that are their own. *)
Lemma airplane_mirrored wings wings' name name' x z weight weight' s c b s' c' b' a a' f :
  new_airplane wings name x 0 z weight s c b = Ok a -> new_airplane wings' name' x 0 z weight' s' c' b' = Ok a' ->
  a_s_ref a' = a_s_ref a -> a_c_ref a' = a_c_ref a -> a_b_ref a' = a_b_ref a ->
  paired f (mirrored_wing mirrored_panel) wings wings' -> mirrored_airplane mirrored_panel a a'.
Proof.
  intros H H' Es Ec Eb HP. split; [|split; [exact Es | split; [exact Ec | split; [exact Eb|]]]].
  - unfold new_airplane in H, H'. destruct wings, wings'; try discriminate. apply Ok_eq in H, H'. subst a a'. unfold a_xyz_ref, across; cbn. apply vec_ext; cbn; lra.
  - exists f. unfold new_airplane in H, H'. destruct wings, wings'; try discriminate. apply Ok_eq in H, H'. subst a a'. exact HP.
Qed.
Lemma airplane_symmetric wings name x z weight s c b a f :
  new_airplane wings name x 0 z weight s c b = Ok a -> paired f (mirrored_wing mirrored_panel) wings wings -> symmetric_airplane a.
Proof. intros H HP. exact (airplane_mirrored _ _ _ _ _ _ _ _ _ _ _ _ _ _ _ _ f H H eq_refl eq_refl eq_refl HP). Qed.
Lemma own_wings wings : (forall w, In w wings -> mirrored_wing mirrored_panel w w) -> paired (fun k => k) (mirrored_wing mirrored_panel) wings wings.
Proof. intros H. split; [reflexivity|]. split; [auto|]. intros k w Hk. exists w. split; [exact Hk|]. apply H, (nth_error_In _ _ Hk). Qed.
