(** Inserting a section changes no panel. *)
From Coq Require Import List Reals Lra Lia String.
From Verif Require Import M_Geometry S_Wing S_Planform S_Divide L_Base L_Frames L_Meshing L_Geometry.
Import ListNotations.
Local Open Scope R_scope.

(** ** A row of points *)
Lemma seq_from k : forall j, seq j k = map (fun i => (j + i)%nat) (seq 0 k).
Proof.
  induction k as [|k IH]; intros j; [reflexivity|]. cbn [seq map]. f_equal; [lia|]. rewrite IH, <- seq_shift, map_map. apply map_ext. intros i. lia.
Qed.
Lemma row_divided (p q : vec) (j k : nat) : (1 <= j)%nat -> (1 <= k)%nat ->
  let row s e n := map (fun t => vadd s (vscale t (vsub e s))) (linspace 0 1 (S n)) in
  let m := vadd p (vscale (INR j / INR (j + k)) (vsub q p)) in
  row p q (j + k)%nat = row p m j ++ tl (row m q k) /\ last (row p m j) vzero = m /\ hd vzero (row m q k) = m.
Proof.
  intros Hj Hk row m. assert (Pj : 0 < INR j) by (apply lt_0_INR; lia). assert (Pk : 0 < INR k) by (apply lt_0_INR; lia). assert (Pn : INR (j + k) = INR j + INR k) by apply plus_INR.
  unfold row, linspace. rewrite !map_map. replace (S (j + k) - 1)%nat with (j + k)%nat by lia. replace (S j - 1)%nat with j by lia. replace (S k - 1)%nat with k by lia. split; [|split].
  - replace (S (j + k)) with (S j + k)%nat by lia. rewrite seq_app, map_app. f_equal.
    + apply map_ext_in. intros i _. unfold m. rewrite Pn. generalize (INR i). intros t. replace (0 + t * ((1 - 0) / (INR j + INR k))) with ((0 + t * ((1 - 0) / INR j)) * (INR j / (INR j + INR k))) by (field; lra).
      generalize (0 + t * ((1 - 0) / INR j)) (INR j / (INR j + INR k)). intros c d. vring.
    + cbn [seq map tl]. rewrite Nat.add_0_l, <- (seq_shift k 0), <- (seq_shift k j), !map_map.
      rewrite (seq_from k j).
      rewrite map_map. apply map_ext_in. intros i _. unfold m. rewrite Pn. replace (S (j + i))%nat with (j + S i)%nat by lia. rewrite plus_INR. generalize (INR (S i)). intros t.
      replace (0 + (INR j + t) * ((1 - 0) / (INR j + INR k))) with (INR j / (INR j + INR k) + t / INR k * (1 - INR j / (INR j + INR k))) by (field; lra).
      replace (0 + t * ((1 - 0) / INR k)) with (t / INR k) by (field; lra). generalize (t / INR k) (INR j / (INR j + INR k)). intros c d. vring.
  - rewrite seq_S, map_app. cbn [map Nat.add]. rewrite last_last. replace (0 + INR j * ((1 - 0) / INR j)) with 1 by (field; lra). vring.
  - cbn [seq map hd]. replace (0 + INR 0 * ((1 - 0) / INR k)) with 0 by (cbn; ring). vring.
Qed.
(** ** Rows side by side *)
Lemma removelast_joined {A} (r1 r2 : list A) d : r1 <> [] -> (2 <= List.length r2)%nat -> last r1 d = hd d r2 -> removelast (r1 ++ tl r2) = removelast r1 ++ removelast r2.
Proof.
  intros H1 H2 E. destruct r2 as [|x [|y t]]; cbn in H2; try lia. cbn [hd tl] in *. rewrite removelast_app by discriminate.
  rewrite (app_removelast_last d H1) at 1. rewrite E, <- app_assoc. reflexivity.
Qed.
Lemma tl_joined {A} (r1 r2 : list A) : r1 <> [] -> tl (r1 ++ r2) = tl r1 ++ r2.
Proof. destruct r1; [contradiction | reflexivity]. Qed.
Lemma combine_app {A B} (a1 a2 : list A) (b1 b2 : list B) : List.length a1 = List.length b1 -> combine (a1 ++ a2) (b1 ++ b2) = combine a1 b1 ++ combine a2 b2.
Proof. revert b1. induction a1 as [|x a1 IH]; intros [|y b1] L; cbn in *; try discriminate; [reflexivity|]. f_equal. apply IH. lia. Qed.
Lemma panel_row_app le te a1 a2 b1 b2 d1 d2 e1 e2 : List.length b1 = List.length a1 -> List.length d1 = List.length a1 -> List.length e1 = List.length a1 ->
  panel_row le te (a1 ++ a2) (b1 ++ b2) (d1 ++ d2) (e1 ++ e2) = panel_row le te a1 b1 d1 e1 ++ panel_row le te a2 b2 d2 e2.
Proof. intros L1 L2 L3. unfold panel_row. rewrite !combine_app, map_app; [reflexivity|..]; rewrite ?combine_length; lia. Qed.

(** Two grids that share a line of points. *)
Definition share (r1 r2 : list vec) : Prop := r1 <> [] /\ (2 <= List.length r2)%nat /\ last r1 vzero = hd vzero r2.
Lemma grid_joined n j k (g g1 g2 : list (list vec)) : rect (S n) (S j) g1 -> rect (S n) (S k) g2 -> (1 <= k)%nat ->
  (forall c r1 r2, nth_error g1 c = Some r1 -> nth_error g2 c = Some r2 -> nth_error g c = Some (r1 ++ tl r2) /\ share r1 r2) -> List.length g = S n ->
  grid_panels g = hstack (grid_panels g1) (grid_panels g2).
Proof.
  intros R1 R2 Hk H L.
  assert (RG : rect (S n) (S (j + k)) g).
  { apply rect_intro; [exact L|]. intros c row Hr. assert (Hc : (c < S n)%nat) by (rewrite <- L; apply nth_error_Some; congruence).
    destruct (rect_nth _ _ _ c R1 Hc) as (r1 & H1 & L1). destruct (rect_nth _ _ _ c R2 Hc) as (r2 & H2 & L2). destruct (H c r1 r2 H1 H2) as [E _]. rewrite Hr in E. injection E as ->. rewrite app_length. destruct r2; cbn in *; lia. }
  apply L_Base.nth_error_ext. intros c. rewrite nth_error_hstack. destruct (Nat.lt_ge_cases c n) as [Hc|Hc].
  - destruct (cell_split _ _ _ RG c Hc) as (r & r' & Hr & Hr' & _ & _ & ->). destruct (cell_split _ _ _ R1 c Hc) as (s & s' & Hs & Hs' & Ls & Ls' & ->). destruct (cell_split _ _ _ R2 c Hc) as (t & t' & Ht & Ht' & Lt & Lt' & ->).
    destruct (H c s t Hs Ht) as [E1 (N1 & M1 & J1)]. destruct (H (S c) s' t' Hs' Ht') as [E2 (N2 & M2 & J2)]. rewrite E1 in Hr. rewrite E2 in Hr'. injection Hr as <-. injection Hr' as <-.
    f_equal. rewrite (removelast_joined s t vzero), (removelast_joined s' t' vzero), !tl_joined by assumption. apply panel_row_app; rewrite ?removelast_length; destruct s, s'; cbn in *; try discriminate; lia.
  - pose proof (grid_rect _ _ _ RG) as [A _]. pose proof (grid_rect _ _ _ R1) as [B _].
    rewrite (proj2 (nth_error_None (grid_panels g) c)) by lia. rewrite (proj2 (nth_error_None (grid_panels g1) c)) by lia. reflexivity.
Qed.

(** ** One part of a wing *)
Lemma flapped_alike fr a b d : cs_airfoil b = cs_airfoil a -> flapped_camber fr a b d =
  let* f := add_control_surface (cs_airfoil a) d (cs_control_surface_hinge_point a) in
  let* mcl := get_downsampled_mcl fr (af_mcl_coordinates f) in Ok (mcl, mcl).
Proof.
  intros E. unfold flapped_camber. rewrite E. destruct (add_control_surface _ _ _) as [f|e]; [|reflexivity]. cbn [bind]. destruct (get_downsampled_mcl _ _); reflexivity.
Qed.
Lemma chordwise_alike a b : cs_unit_normal b = cs_unit_normal a -> cs_twist b = cs_twist a -> cs_wing_unit_chordwise b = cs_wing_unit_chordwise a -> cs_unit_chordwise b = cs_unit_chordwise a.
Proof. intros H1 H2 H3. unfold cs_unit_chordwise. rewrite H1, H2, H3. reflexivity. Qed.
Definition camber_point (le : vec) (s : section) (c u : vec) (p : R * R) : vec :=
  vadd (vadd (vadd le (cs_leading_edge s)) (vscale (cs_chord s * fst p) c)) (vscale (cs_chord s * snd p) u).
Lemma section_mcl_eq le s mcl : section_mcl le s mcl = let* c := cs_unit_chordwise s in Ok (map (camber_point le s c (vcross c (cs_unit_normal s))) mcl).
Proof. unfold section_mcl, cs_unit_up. destruct (cs_unit_chordwise s); reflexivity. Qed.
Lemma between_point j k le a b c u p : let f := INR j / INR (j + k) in
  camber_point le (section_between j k a b) c u p = vadd (camber_point le a c u p) (vscale f (vsub (camber_point le b c u p) (camber_point le a c u p))).
Proof.
  intros f. unfold camber_point, section_between, cs_leading_edge, part_way. cbn [cs_x_le cs_y_le cs_z_le cs_chord]. fold f. generalize (cs_x_le a) (cs_y_le a) (cs_z_le a) (cs_x_le b) (cs_y_le b) (cs_z_le b) (cs_chord a) (cs_chord b) (fst p) (snd p). clearbody f. intros. vring.
Qed.
Lemma strip_divided w a b j k d : (1 <= j)%nat -> (1 <= k)%nat -> cs_num_spanwise_panels a = (j + k)%nat -> cs_spanwise_spacing a = "uniform"%string ->
  alike a b -> cs_wing_unit_chordwise b = cs_wing_unit_chordwise a ->
  strip w a b d = let* p1 := strip w (with_panels j a) (section_between j k a b) d in let* p2 := strip w (section_between j k a b) b d in Ok (hstack p1 p2).
Proof.
  intros Hj Hk Hn Hs (A1 & A2 & A3) A4. unfold strip. rewrite (flapped_alike _ a b) by exact A1. rewrite (flapped_alike _ (with_panels j a) (section_between j k a b)) by reflexivity. rewrite (flapped_alike _ (section_between j k a b) b) by exact A1.
  change (cs_airfoil (with_panels j a)) with (cs_airfoil a). change (cs_airfoil (section_between j k a b)) with (cs_airfoil a).
  change (cs_control_surface_hinge_point (with_panels j a)) with (cs_control_surface_hinge_point a). change (cs_control_surface_hinge_point (section_between j k a b)) with (cs_control_surface_hinge_point a).
  destruct (add_control_surface _ _ _) as [f|e]; [|reflexivity]. cbn [bind]. destruct (get_downsampled_mcl _ _) as [mcl|e] eqn:Em; [|reflexivity]. cbn [bind fst snd].
  rewrite !section_mcl_eq. rewrite (chordwise_alike a b A2 A3 A4), (chordwise_alike a (with_panels j a) eq_refl eq_refl eq_refl), (chordwise_alike a (section_between j k a b) eq_refl eq_refl eq_refl).
  destruct (cs_unit_chordwise a) as [c|e]; [|reflexivity]. cbn [bind]. f_equal. rewrite A2.
  change (cs_unit_normal (with_panels j a)) with (cs_unit_normal a). change (cs_unit_normal (section_between j k a b)) with (cs_unit_normal a).
  change (cs_spanwise_spacing (with_panels j a)) with (cs_spanwise_spacing a). change (cs_spanwise_spacing (section_between j k a b)) with (cs_spanwise_spacing a).
  change (cs_num_spanwise_panels (with_panels j a)) with j. change (cs_num_spanwise_panels (section_between j k a b)) with k. rewrite Hn, Hs. unfold spaced at 1 2 3. cbn [String.eqb Ascii.eqb Bool.eqb].
  set (u := vcross c (cs_unit_normal a)). apply downsampled_length in Em. rewrite spaced_length in Em.
  change (camber_point (ms_leading_edge w) (with_panels j a) c u) with (camber_point (ms_leading_edge w) a c u).
  assert (LL : forall n, List.length (linspace 0 1 n) = n) by (intros; unfold linspace; rewrite map_length, seq_length; reflexivity).
  apply (grid_joined (ms_num_chordwise w) j k).
  - rewrite <- (LL (S j)) at 1. apply interp_rect; rewrite map_length; exact Em.
  - rewrite <- (LL (S k)) at 1. apply interp_rect; rewrite map_length; exact Em.
  - exact Hk.
  - intros i r1 r2 H1 H2. unfold interp_between_points in *. rewrite nth_error_map2, !nth_error_map in *. destruct (nth_error mcl i) as [p|]; [|discriminate]. cbn [option_map] in *. apply Some_eq in H1. apply Some_eq in H2. subst r1 r2.
    rewrite between_point. cbv zeta. destruct (row_divided (camber_point (ms_leading_edge w) a c u p) (camber_point (ms_leading_edge w) b c u p) j k Hj Hk) as (E & E1 & E2). cbv beta zeta in *. split; [f_equal; exact E|].
    split; [|split]; [|rewrite map_length, LL; lia | rewrite E1, E2; reflexivity]. intros X. apply (f_equal (@List.length vec)) in X. rewrite map_length, LL in X. discriminate X.
  - unfold interp_between_points. rewrite map2_length, !map_length. lia.
Qed.
Lemma strip_both w a b j k d : alike a b -> cs_wing_unit_chordwise b = cs_wing_unit_chordwise a ->
  (exists p1 p2, strip w (with_panels j a) (section_between j k a b) d = Ok p1 /\ strip w (section_between j k a b) b d = Ok p2) \/
  (exists e, strip w (with_panels j a) (section_between j k a b) d = Err e /\ strip w (section_between j k a b) b d = Err e).
Proof.
  intros (A1 & A2 & A3) A4. unfold strip. rewrite (flapped_alike _ (with_panels j a) (section_between j k a b)) by reflexivity. rewrite (flapped_alike _ (section_between j k a b) b) by exact A1.
  change (cs_airfoil (with_panels j a)) with (cs_airfoil a). change (cs_airfoil (section_between j k a b)) with (cs_airfoil a).
  change (cs_control_surface_hinge_point (with_panels j a)) with (cs_control_surface_hinge_point a). change (cs_control_surface_hinge_point (section_between j k a b)) with (cs_control_surface_hinge_point a).
  destruct (add_control_surface _ _ _) as [f|e]; [|right; exists e; split; reflexivity]. cbn [bind]. destruct (get_downsampled_mcl _ _) as [mcl|e]; [|right; exists e; split; reflexivity]. cbn [bind fst snd].
  rewrite !section_mcl_eq. rewrite (chordwise_alike a b A2 A3 A4), (chordwise_alike a (with_panels j a) eq_refl eq_refl eq_refl), (chordwise_alike a (section_between j k a b) eq_refl eq_refl eq_refl).
  destruct (cs_unit_chordwise a) as [c|e]; [|right; exists e; split; reflexivity]. left. eexists _, _. split; reflexivity.
Qed.

(** ** The mesh *)
Lemma right_outer w i j a : right_section w i (with_panels j a) = right_section w i a.
Proof. destruct a. reflexivity. Qed.
Lemma left_outer w i j a : left_section w i (with_panels j a) = left_section w i a.
Proof. destruct a. reflexivity. Qed.
Lemma mesh_divided w pre a b post j k : (1 <= j)%nat -> (1 <= k)%nat -> cs_num_spanwise_panels a = (j + k)%nat -> cs_spanwise_spacing a = "uniform"%string ->
  alike a b -> cs_wing_unit_chordwise b = cs_wing_unit_chordwise a ->
  forall acc, mesh_sections w (divided pre j k a b post) acc = mesh_sections w (pre ++ a :: b :: post) acc.
Proof.
  intros Hj Hk Hn Hs HA HB. unfold divided. induction pre as [|p pre IH]; intros acc.
  - cbn [app mesh_sections]. rewrite !right_strip, !left_strip. change (cs_control_surface_deflection (with_panels j a)) with (cs_control_surface_deflection a). change (cs_control_surface_deflection (section_between j k a b)) with (cs_control_surface_deflection a).
    change (port_deflection (with_panels j a)) with (port_deflection a). change (port_deflection (section_between j k a b)) with (port_deflection a).
    change (cs_num_spanwise_panels (with_panels j a)) with j. change (cs_num_spanwise_panels (section_between j k a b)) with k. rewrite Hn.
    rewrite !(strip_divided w a b j k _ Hj Hk Hn Hs HA HB). rewrite (proj2 (Nat.leb_le 1 j) Hj), (proj2 (Nat.leb_le 1 k) Hk), (proj2 (Nat.leb_le 1 (j + k)) ltac:(lia)).
    destruct (strip_both w a b j k (cs_control_surface_deflection a) HA HB) as [(p1 & p2 & -> & ->)|(e & -> & ->)]; [|reflexivity]. cbn [bind].
    destruct (check (Nat.leb 1 (ms_num_chordwise w)) EValueError) as [[]|e]; [|reflexivity]. cbn [bind]. destruct (ms_symmetric w).
    + destruct (strip_both w a b j k (port_deflection a) HA HB) as [(q1 & q2 & -> & ->)|(e & -> & ->)]; [|reflexivity]. cbn [bind check]. rewrite flip_hstack, !hstack_assoc. reflexivity.
    + cbn [bind]. rewrite !hstack_assoc. reflexivity.
  - destruct pre as [|q pre]; cbn [app mesh_sections] in *.
    + rewrite right_outer, left_outer. destruct (right_section w p a); [|reflexivity]. cbn [bind]. destruct (ms_symmetric w); [destruct (left_section w p a); [|reflexivity]|]; cbn [bind]; apply IH.
    + destruct (right_section w p q); [|reflexivity]. cbn [bind]. destruct (ms_symmetric w); [destruct (left_section w p q); [|reflexivity]|]; cbn [bind]; apply IH.
Qed.

(** ** The wing *)
Lemma count_divided pre a b post j k : cs_num_spanwise_panels a = (j + k)%nat -> forall sym, count_spanwise (divided pre j k a b post) sym = count_spanwise (pre ++ a :: b :: post) sym.
Proof.
  intros Hn sym. unfold count_spanwise, divided. rewrite !fold_left_count. rewrite !removelast_app by discriminate. cbn [removelast]. rewrite !map_app, !list_sum_app. cbn [map list_sum fold_right].
  change (cs_num_spanwise_panels (with_panels j a)) with j. change (cs_num_spanwise_panels (section_between j k a b)) with k. rewrite Hn. destruct sym; lia.
Qed.
Lemma wing_divided pre a b post j k name x y z n sym c nc sp : (1 <= j)%nat -> (1 <= k)%nat -> cs_num_spanwise_panels a = (j + k)%nat -> cs_spanwise_spacing a = "uniform"%string -> alike a b ->
  new_wing (divided pre j k a b post) name x y z n sym c nc sp =
  match new_wing (pre ++ a :: b :: post) name x y z n sym c nc sp with
  | Ok w => Ok (with_sections (map (cs_set_wing_chordwise c) (divided pre j k a b post)) w)
  | Err e => Err e
  end.
Proof.
  intros Hj Hk Hn Hs HA. unfold new_wing. rewrite (count_divided pre a b post j k Hn).
  assert (E1 : Nat.leb 2 (List.length (divided pre j k a b post)) = Nat.leb 2 (List.length (pre ++ a :: b :: post))) by (rewrite (proj2 (Nat.leb_le _ _)), (proj2 (Nat.leb_le _ _)); unfold divided; rewrite ?app_length; cbn [List.length]; try lia; reflexivity).
  rewrite E1. clear E1. destruct (check (Nat.leb 2 _) _) as [[]|e]; [|reflexivity]. cbn [bind]. destruct (check (_ || _) _) as [[]|e]; [|reflexivity]. cbn [bind].
  assert (ER : exists r r', index (divided pre j k a b post) 0 = Ok r' /\ index (pre ++ a :: b :: post) 0 = Ok r /\ cs_unit_normal r' = cs_unit_normal r /\ cs_leading_edge r' = cs_leading_edge r).
  { destruct pre as [|p pre]; [exists a, (with_panels j a) | exists p, p]; repeat split. }
  destruct ER as (r & r' & -> & -> & R1 & R2). cbn [bind]. rewrite R1, R2. destruct (check (veqb _ (cs_unit_normal r)) _) as [[]|e]; [|reflexivity]. cbn [bind]. destruct (check (veqb _ vzero) _) as [[]|e]; [|reflexivity]. cbn [bind].
  destruct (check (Reqb _ _) _) as [[]|e]; [|reflexivity]. cbn [bind].
  set (ok := fun s => veqb (vcross (vcross n (cs_unit_normal s)) c) vzero).
  assert (EF : forallb ok (divided pre j k a b post) = forallb ok (pre ++ a :: b :: post)).
  { unfold divided. rewrite !forallb_app. cbn [forallb]. change (ok (with_panels j a)) with (ok a). change (ok (section_between j k a b)) with (ok a). destruct (forallb ok pre), (ok a); reflexivity. }
  rewrite EF. destruct (check (forallb ok _) _) as [[]|e]; [|reflexivity]. cbn [bind].
  set (spec := mkmesh _ _ _ _ _). set (f := cs_set_wing_chordwise c).
  assert (EM : mesh_wing spec (count_spanwise (pre ++ a :: b :: post) sym) (map f (divided pre j k a b post)) = mesh_wing spec (count_spanwise (pre ++ a :: b :: post) sym) (map f (pre ++ a :: b :: post))).
  { unfold mesh_wing. assert (ED : map f (divided pre j k a b post) = divided (map f pre) j k (f a) (f b) (map f post)) by (unfold divided; rewrite map_app; reflexivity).
    rewrite ED, map_app. cbn [map]. rewrite (mesh_divided spec (map f pre) (f a) (f b) (map f post) j k Hj Hk Hn Hs); [reflexivity | exact HA | reflexivity]. }
  rewrite EM. clear EM. destruct (mesh_wing _ _ _) as [m|e]; reflexivity.
Qed.

(** ** Its dimensions *)
Lemma projected_part f d n : 0 <= f -> vnorm (vscale (vdot (vscale f d) n) n) = f * vnorm (vscale (vdot d n) n).
Proof. intros Hf. replace (vscale (vdot (vscale f d) n) n) with (vscale f (vscale (vdot d n) n)) by vring. rewrite vnorm_scale, Rabs_pos_eq by exact Hf. reflexivity. Qed.
Lemma mac_divided n a b j k : (1 <= j)%nat -> (1 <= k)%nat -> mac_term n (with_panels j a) (section_between j k a b) + mac_term n (section_between j k a b) b = mac_term n a b.
Proof.
  intros Hj Hk. assert (Pj : 0 < INR j) by (apply lt_0_INR; lia). assert (Pk : 0 < INR k) by (apply lt_0_INR; lia). assert (Pn : INR (j + k) = INR j + INR k) by apply plus_INR.
  unfold mac_term. change (cs_chord (with_panels j a)) with (cs_chord a). change (cs_leading_edge (with_panels j a)) with (cs_leading_edge a).
  change (cs_chord (section_between j k a b)) with (part_way (INR j / INR (j + k)) (cs_chord a) (cs_chord b)).
  set (f := INR j / INR (j + k)). assert (Hf : 0 <= f <= 1).
  { unfold f. rewrite Pn. split; [left; apply Rdiv_lt_0_compat; lra|]. apply (Rmult_le_reg_r (INR j + INR k)); [lra|]. unfold Rdiv. rewrite Rmult_assoc, Rinv_l; lra. }
  replace (vsub (cs_leading_edge (section_between j k a b)) (cs_leading_edge a)) with (vscale f (vsub (cs_leading_edge b) (cs_leading_edge a))) by (unfold section_between, cs_leading_edge, part_way; cbn [cs_x_le cs_y_le cs_z_le]; fold f; generalize (cs_x_le a) (cs_y_le a) (cs_z_le a) (cs_x_le b) (cs_y_le b) (cs_z_le b); clearbody f; intros; vring).
  replace (vsub (cs_leading_edge b) (cs_leading_edge (section_between j k a b))) with (vscale (1 - f) (vsub (cs_leading_edge b) (cs_leading_edge a))) by (unfold section_between, cs_leading_edge, part_way; cbn [cs_x_le cs_y_le cs_z_le]; fold f; generalize (cs_x_le a) (cs_y_le a) (cs_z_le a) (cs_x_le b) (cs_y_le b) (cs_z_le b); clearbody f; intros; vring).
  rewrite !projected_part by lra. generalize (vnorm (vscale (vdot (vsub (cs_leading_edge b) (cs_leading_edge a)) n) n)). intros L. unfold part_way. field.
Qed.
Lemma pairs_divided (g : section -> section -> R) a b j k : (forall x, g x (with_panels j a) = g x a) -> g (with_panels j a) (section_between j k a b) + g (section_between j k a b) b = g a b ->
  forall pre post, rsum (map2 g (divided pre j k a b post) (tl (divided pre j k a b post))) = rsum (map2 g (pre ++ a :: b :: post) (tl (pre ++ a :: b :: post))).
Proof.
  intros H1 H2 pre post. unfold divided. induction pre as [|p pre IH].
  - cbn [app tl map2]. rewrite !rsum_cons. lra.
  - destruct pre as [|q pre]; cbn [app tl map2] in *; rewrite !rsum_cons in *; [rewrite H1|]; rewrite IH; reflexivity.
Qed.
Lemma map_divided f pre j k a b post : (forall s, f (with_panels j s) = with_panels j (f s)) -> f (section_between j k a b) = section_between j k (f a) (f b) -> map f (divided pre j k a b post) = divided (map f pre) j k (f a) (f b) (map f post).
Proof. intros H1 H2. unfold divided. rewrite map_app. cbn [map]. rewrite H1, H2. reflexivity. Qed.
Lemma ends_divided pre j k a b post : let l := divided pre j k a b post in let l' := pre ++ a :: b :: post in
  nth_leading_edge l 0 = nth_leading_edge l' 0 /\ nth_leading_edge l (List.length l - 1) = nth_leading_edge l' (List.length l' - 1).
Proof.
  cbv zeta. unfold divided, nth_leading_edge. split.
  - destruct pre; reflexivity.
  - rewrite !app_length. cbn [List.length]. rewrite !nth_error_app2 by lia. replace (List.length pre + S (S (S (List.length post))) - 1 - List.length pre)%nat with (S (S (List.length post))) by lia. replace (List.length pre + S (S (List.length post)) - 1 - List.length pre)%nat with (S (List.length post)) by lia. reflexivity.
Qed.
Lemma dimensions_divided pre a b post j k name x y z n sym c nc sp w w' : (1 <= j)%nat -> (1 <= k)%nat -> cs_num_spanwise_panels a = (j + k)%nat -> cs_spanwise_spacing a = "uniform"%string -> alike a b ->
  new_wing (pre ++ a :: b :: post) name x y z n sym c nc sp = Ok w -> new_wing (divided pre j k a b post) name x y z n sym c nc sp = Ok w' ->
  w_panels w' = w_panels w /\ w_span w' = w_span w /\ w_projected_area w' = w_projected_area w /\ w_wetted_area w' = w_wetted_area w /\
  w_standard_mean_chord w' = w_standard_mean_chord w /\ w_mean_aerodynamic_chord w' = w_mean_aerodynamic_chord w.
Proof.
  intros Hj Hk Hn Hs HA E E'. rewrite (wing_divided _ _ _ _ _ _ _ _ _ _ _ _ _ _ _ Hj Hk Hn Hs HA), E in E'. apply Ok_eq in E'.
  destruct (wing_attributes _ _ _ _ _ _ _ _ _ _ _ E) as (_ & _ & _ & _ & _ & _ & _ & S1 & _).
  assert (HW : w_panels w' = w_panels w /\ w_projected_area w' = w_projected_area w /\ w_wetted_area w' = w_wetted_area w /\ w_unit_normal w' = w_unit_normal w /\ w_symmetric w' = w_symmetric w) by (rewrite <- E'; repeat split).
  destruct HW as (P1 & P2 & P3 & P4 & P5). assert (SE : w_sections w' = divided (map (cs_set_wing_chordwise c) pre) j k (cs_set_wing_chordwise c a) (cs_set_wing_chordwise c b) (map (cs_set_wing_chordwise c) post)) by (rewrite <- E'; cbn [with_sections w_sections]; apply map_divided; reflexivity).
  rewrite map_app in S1. cbn [map] in S1.
  assert (HS : w_span w' = w_span w).
  { unfold w_span. rewrite P4, P5, SE, S1. destruct (ends_divided (map (cs_set_wing_chordwise c) pre) j k (cs_set_wing_chordwise c a) (cs_set_wing_chordwise c b) (map (cs_set_wing_chordwise c) post)) as [-> ->]. reflexivity. }
  split; [exact P1|]. split; [exact HS|]. split; [exact P2|]. split; [exact P3|]. split; [unfold w_standard_mean_chord; rewrite P2, HS; reflexivity|].
  unfold w_mean_aerodynamic_chord. rewrite P2, P4, P5, SE, S1. rewrite pairs_divided; [reflexivity | reflexivity | apply mac_divided; assumption].
Qed.
