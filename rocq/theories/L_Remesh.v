(** The remeshed copies of the convergence searches. *)
From Coq Require Import Lra Lia.
From Verif Require Import M_Convergence S_Convergence S_Airfoil S_Geometry.
From Verif Require Import L_Base L_Loads L_Geometry L_Frames L_Functions L_Airfoil L_Camber L_SteadyRing L_Horseshoe L_Search L_Convergence.

(** ** Rounding *)
Lemma py_round_nearest x : nearest x (py_round x).
Proof.
  unfold nearest, py_round. destruct (base_Int_part x) as [H1 H2]. cbn zeta. destruct (Rltb _ (1 / 2)) eqn:E1.
  - apply Rltb_true in E1. left. apply Rabs_def1; lra.
  - apply Rltb_false in E1. destruct (Rltb (1 / 2) _) eqn:E2.
    + apply Rltb_true in E2. left. rewrite plus_IZR. apply Rabs_def1; lra.
    + apply Rltb_false in E2. right. destruct (Z.even (Int_part x)) eqn:E3; (split; [|]).
      * rewrite Rabs_pos_eq; lra.
      * exact E3.
      * rewrite plus_IZR, Rabs_left; lra.
      * rewrite Z.even_add, E3. reflexivity.
Qed.
Lemma nearest_within x k : nearest x k -> Rabs (x - IZR k) <= 1 / 2.
Proof. intros [H|[H _]]; lra. Qed.
Lemma nearest_unique x j k : nearest x j -> nearest x k -> j = k.
Proof.
  intros Hj Hk. pose proof (nearest_within _ _ Hj) as Wj. pose proof (nearest_within _ _ Hk) as Wk.
  destruct (Z.eq_dec j k) as [E|N]; [exact E|]. exfalso.
  assert (B : forall i, Rabs (x - IZR i) <= 1 / 2 -> IZR i - 1 / 2 <= x <= IZR i + 1 / 2) by (intros i; unfold Rabs; destruct (Rcase_abs _); lra).
  pose proof (B j Wj) as Bj. pose proof (B k Wk) as Bk.
  assert (D : (j = k + 1 \/ k = j + 1)%Z).
  { assert (IZR j <= IZR k + 1) by lra. assert (IZR k <= IZR j + 1) by lra. rewrite <- plus_IZR in *. apply le_IZR in H, H0. lia. }
  assert (G : forall i, nearest x (i + 1) -> nearest x i -> False).
  { intros i H1 H2. pose proof (B _ (nearest_within _ _ H1)) as B1. pose proof (B _ (nearest_within _ _ H2)) as B2. rewrite plus_IZR in B1.
    destruct H1 as [H1|[H1 V1]]; [rewrite plus_IZR in H1; unfold Rabs in H1; destruct (Rcase_abs _) in H1; lra|].
    destruct H2 as [H2|[H2 V2]]; [unfold Rabs in H2; destruct (Rcase_abs _) in H2; lra|]. rewrite Z.even_add, V2 in V1. discriminate V1. }
  destruct D as [->| ->]; eauto.
Qed.

(** ** Airfoils *)
Lemma with_mcl_fields name rp np c a : with_mcl name rp np c = Ok a -> af_name a = name /\ af_repanel a = rp /\ af_n_points_per_side a = np /\ af_coordinates a = c.
Proof. unfold with_mcl. intros H. repeat inv_ok H. subst a. repeat split. Qed.
Lemma combine_map {A B} (f : A -> B) l : combine l (map f l) = map (fun x => (x, f x)) l.
Proof. induction l as [|x l IH]; cbn; congruence. Qed.
Lemma repanel_again pchip n c c' : interpolating pchip -> (2 <= n)%nat -> balanced n c ->
  (exists f g, c = combine (rev (cosspace 0 1 n true) ++ tl (cosspace 0 1 n true))
                           (map f (rev (cosspace 0 1 n true)) ++ map g (tl (cosspace 0 1 n true)))) ->
  repanel pchip n c = Ok c' -> c' = c.
Proof.
  intros HI Hn HB (f & g & EC) H. unfold repanel, upper_coordinates, lower_coordinates in H. rewrite (balanced_index n c HB) in H. cbn [bind] in H.
  set (xs := cosspace 0 1 n true) in *. assert (Lx : length xs = n) by apply cosspace_length.
  apply bind_Ok in H. destruct H as (f' & Ef & H). apply bind_Ok in H. destruct H as (g' & Eg & H). apply Ok_eq in H. subst c'.
  rewrite combine_app' in EC by (rewrite map_length; reflexivity). rewrite !combine_map in EC.
  rewrite combine_app' by (rewrite map_length; reflexivity). rewrite !combine_map, EC.
  assert (EU : firstn (S (n - 1)) c = map (fun x => (x, f x)) (rev xs)).
  { rewrite EC, firstn_app, map_length, rev_length, Lx. replace (S (n - 1) - n)%nat with 0%nat by lia. rewrite firstn_O, app_nil_r.
    apply firstn_all2. rewrite map_length, rev_length. lia. }
  rewrite EU in Ef. f_equal; apply map_ext_in; intros x Hx; f_equal.
  - apply (HI _ _ _ _ Ef). apply in_rev. rewrite rev_involutive. apply in_map_iff. exists x. auto.
  - apply (HI _ _ _ _ Eg). rewrite EC, skipn_app, map_length, rev_length, Lx. replace (n - 1 - n)%nat with 0%nat by lia. rewrite skipn_O.
    apply in_or_app. right. apply in_map_iff. exists x. auto.
Qed.
Lemma copied_airfoil pchip database a b : interpolating pchip -> built_airfoil pchip database a ->
  new_airfoil pchip database (af_name a) (Some (af_coordinates a)) (af_repanel a) (af_n_points_per_side a) = Ok b -> b = a.
Proof.
  intros HI HB H. unfold new_airfoil in H. cbn [bind] in H. apply bind_Ok in H. destruct H as (c & Ec & H).
  assert (HW : with_mcl (af_name a) (af_repanel a) (af_n_points_per_side a) (af_coordinates a) = Ok a).
  { destruct HB as [(name & co & rp & n & _ & HB)|(a0 & d & h & HB)].
    - unfold new_airfoil in HB. do 2 (apply bind_Ok in HB; destruct HB as (? & _ & HB)). destruct (with_mcl_fields _ _ _ _ _ HB) as (-> & -> & -> & ->). exact HB.
    - unfold add_control_surface in HB. do 3 (apply bind_Ok in HB; destruct HB as (? & _ & HB)). cbn zeta in HB.
      destruct (with_mcl_fields _ _ _ _ _ HB) as (-> & -> & -> & ->). exact HB. }
  assert (EC : c = af_coordinates a); [|subst c; rewrite HW in H; injection H; auto].
  destruct (af_repanel a) eqn:ER; [|injection Ec; auto].
  destruct HB as [(name & co & rp & n & Hn & HB)|(a0 & d & h & HB)].
  - pose proof HB as HB'. unfold new_airfoil in HB'. apply bind_Ok in HB'. destruct HB' as (c0 & _ & HB'). apply bind_Ok in HB'. destruct HB' as (c1 & E1 & HB').
    destruct (with_mcl_fields _ _ _ _ _ HB') as (_ & EP & EN & EC). rewrite ER in EP. subst rp. rewrite EN in Ec. specialize (Hn eq_refl).
    apply (repanel_again pchip n); [exact HI | exact Hn | exact (repanelled_balanced _ _ _ _ _ _ Hn HB) | | exact Ec].
    unfold repanel in E1. do 4 (apply bind_Ok in E1; destruct E1 as (? & _ & E1)). apply Ok_eq in E1. rewrite EC, <- E1. eauto.
  - unfold add_control_surface in HB. do 3 (apply bind_Ok in HB; destruct HB as (? & _ & HB)). cbn zeta in HB.
    destruct (with_mcl_fields _ _ _ _ _ HB) as (_ & EP & _). rewrite ER in EP. discriminate EP.
Qed.

(** ** Sections, wings and airplanes *)
Section Copies.
Variable pchip : list (R * R) -> result (R -> R).
Variable database : list ascii -> option (list R).
Notation built := (fun s => built_airfoil pchip database (cs_airfoil s)).
Hypothesis HI : interpolating pchip.
Lemma count_Z z k : count z = Ok k -> Z.of_nat k = z.
Proof. unfold count. destruct (Z.leb_spec 0 z); [|discriminate]. intros H'. apply Ok_eq in H'. lia. Qed.
Lemma copy_section_recounted s z s' : built s -> copy_section pchip database s z = Ok s' ->
  exists k, Z.of_nat k = z /\ recounted s s' k /\ s' = mksection (cs_airfoil s) (cs_x_le s) (cs_y_le s) (cs_z_le s) (cs_chord s) default_unit_normal (cs_twist s)
              (cs_control_surface_type s) (cs_control_surface_hinge_point s) (cs_control_surface_deflection s) k (cs_spanwise_spacing s) None.
Proof.
  intros HB H. unfold copy_section in H. apply bind_Ok in H. destruct H as (a & Ea & H). apply bind_Ok in H. destruct H as (k & Ek & H).
  apply (copied_airfoil _ _ _ _ HI HB) in Ea. subst a. unfold new_section in H. do 3 (apply bind_Ok in H; destruct H as (? & _ & H)). apply Ok_eq in H. subst s'.
  exists k. split; [exact (count_Z _ _ Ek)|]. repeat split.
Qed.
Lemma section_spanwise_spec s t n ar z : section_spanwise s t n ar = Ok z -> cs_y_le t <> cs_y_le s /\ nearest (wanted_across n ar s t) z.
Proof.
  unfold section_spanwise. destruct (Reqb _ 0) eqn:E; [discriminate|]. apply Reqb_false in E. destruct (Reqb (_ * IZR ar) 0) eqn:E2; [discriminate|]. apply Reqb_false in E2.
  intros H. apply Ok_eq in H. subst z. split; [lra|]. unfold wanted_across.
  replace ((cs_chord s + cs_chord t) / 2) with ((cs_y_le t - cs_y_le s) * (cs_chord s + cs_chord t) / 2 / (cs_y_le t - cs_y_le s)) by (field; lra).
  apply py_round_nearest.
Qed.
Lemma same_y_fails s t n ar : cs_y_le t = cs_y_le s -> section_spanwise s t n ar = Err EZeroDivision.
Proof. intros E. unfold section_spanwise. cbn zeta. replace (Reqb (cs_y_le t - cs_y_le s) 0) with true by (symmetry; apply Reqb_true; lra). reflexivity. Qed.
Lemma copy_sections_spec n ar l : forall l', Forall built l -> copy_sections pchip database n ar l = Ok l' -> recounted_sections n ar l l'.
Proof.
  induction l as [|s rest IH]; intros l' HB H.
  - apply Ok_eq in H. subst l'. split; [reflexivity|]. intros [|i] s s' Hs; discriminate Hs.
  - cbn [copy_sections] in H. apply bind_Ok in H. destruct H as (z & Ez & H). apply bind_Ok in H. destruct H as (s' & Es & H).
    apply bind_Ok in H. destruct H as (rest' & Er & H). apply Ok_eq in H. subst l'. apply Forall_cons_iff in HB. destruct HB as [HB1 HB2].
    destruct (IH _ HB2 Er) as [HL HN]. split; [cbn [length]; congruence|]. intros [|i] x x' Hx Hx'; [|exact (HN i x x' Hx Hx')].
    cbn [nth_error] in Hx, Hx'. apply Some_eq in Hx, Hx'. subst x x'. destruct (copy_section_recounted _ _ _ HB1 Es) as (k & Ek & HR & _).
    exists k. split; [exact HR|]. cbn [nth_error]. destruct rest as [|t rest]; cbn [spanwise_after] in Ez; cbn [nth_error].
    + apply Ok_eq in Ez. lia.
    + apply section_spanwise_spec in Ez. rewrite Ek. apply Ez.
Qed.
Lemma recounted_placed v n ar l l' : recounted_sections n ar l l' -> recounted_sections n ar l (map (cs_set_wing_chordwise v) l').
Proof.
  intros [HL HN]. split; [rewrite map_length; exact HL|]. intros i s s' Hs Hs'. rewrite nth_error_map in Hs'.
  destruct (nth_error l' i) as [x|] eqn:Ex; [|discriminate Hs']. apply Some_eq in Hs'. subst s'. destruct (HN i s x Hs Ex) as (k & HR & HM). exists k. split; [exact HR | exact HM].
Qed.
Lemma copied_wing n w sections w' : copy_wing_with w n sections = Ok w' ->
  w_name w' = w_name w /\ w_leading_edge w' = w_leading_edge w /\ w_symmetric w' = w_symmetric w /\ w_chordwise_spacing w' = w_chordwise_spacing w /\
  w_unit_normal w' = mkvec 0 1 0 /\ w_unit_chordwise w' = mkvec 1 0 0 /\ Z.of_nat (w_num_chordwise_panels w') = n /\
  w_sections w' = map (cs_set_wing_chordwise (mkvec 1 0 0)) sections.
Proof.
  intros H. unfold copy_wing_with in H. apply bind_Ok in H. destruct H as (k & Ek & H). apply wing_attributes in H.
  destruct H as (H1 & H2 & H3 & H4 & H5 & H6 & H7 & H8 & _). rewrite H6. repeat split; try assumption. exact (count_Z _ _ Ek).
Qed.
Lemma copy_wing_remeshed n ar w w' : Forall built (w_sections w) -> copy_wing pchip database n ar w = Ok w' -> remeshed_wing n ar w w'.
Proof.
  intros HB H. unfold copy_wing in H. apply bind_Ok in H. destruct H as (l & El & H). apply copied_wing in H.
  destruct H as (H1 & H2 & H3 & H4 & H5 & H6 & H7 & H8). repeat (split; [assumption|]). rewrite H8. apply recounted_placed. exact (copy_sections_spec _ _ _ _ HB El).
Qed.
Lemma copied_airplane a ws a' : copy_airplane_with a ws = Ok a' -> a_name a' = a_name a /\ a_x_ref a' = a_x_ref a /\ a_y_ref a' = a_y_ref a /\ a_z_ref a' = a_z_ref a /\
  a_weight a' = a_weight a /\ a_wings a' = ws.
Proof. unfold copy_airplane_with, new_airplane. destruct ws; [discriminate|]. intros H. apply Ok_eq in H. subst a'. repeat split. Qed.
Lemma mapM_Forall2_in {A B} (f : A -> result B) (P : A -> Prop) (Q : A -> B -> Prop) l l' : Forall P l -> (forall x y, P x -> f x = Ok y -> Q x y) -> mapM f l = Ok l' -> Forall2 Q l l'.
Proof.
  intros HP HQ H. apply mapM_Forall2 in H. induction H; constructor; apply Forall_cons_iff in HP; destruct HP; auto.
Qed.
Lemma copy_airplane_remeshed n ar a a' : Forall (fun w => Forall built (w_sections w)) (a_wings a) -> copy_airplane pchip database n ar a = Ok a' -> remeshed_airplane n ar a a'.
Proof.
  intros HB H. unfold copy_airplane in H. apply bind_Ok in H. destruct H as (ws & Ews & H). apply copied_airplane in H. destruct H as (H1 & H2 & H3 & H4 & H5 & H6).
  repeat (split; [assumption|]). rewrite H6. refine (mapM_Forall2_in _ _ _ _ _ HB _ Ews). intros w w' Hw. apply copy_wing_remeshed, Hw.
Qed.
(** ** Movements *)
Lemma copy_section_movements_spec n ar l : forall l', Forall (fun m => built (sm_base m)) l -> copy_section_movements pchip database n ar l = Ok l' ->
  recounted_sections n ar (map sm_base l) (map sm_base l') /\
  Forall2 (fun s s' => sm_sweeping s' = sm_sweeping s /\ sm_custom_sweep s' = sm_custom_sweep s /\ sm_pitching s' = sm_pitching s /\ sm_custom_pitch s' = sm_custom_pitch s /\
                       sm_heaving s' = sm_heaving s /\ sm_custom_heave s' = sm_custom_heave s) l l'.
Proof.
  induction l as [|m rest IH]; intros l' HB H.
  - apply Ok_eq in H. subst l'. split; [|constructor]. split; [reflexivity|]. intros [|i] s s' Hs; discriminate Hs.
  - cbn [copy_section_movements] in H. apply bind_Ok in H. destruct H as (z & Ez & H). apply bind_Ok in H. destruct H as (s' & Es & H).
    apply bind_Ok in H. destruct H as (rest' & Er & H). apply Ok_eq in H. subst l'. apply Forall_cons_iff in HB. destruct HB as [HB1 HB2].
    destruct (IH _ HB2 Er) as [[HL HN] HF]. split; [|constructor; [repeat split | exact HF]]. split; [cbn [map length]; congruence|].
    intros [|i] x x' Hx Hx'; [|exact (HN i x x' Hx Hx')].
    cbn [map nth_error sm_base] in Hx, Hx'. apply Some_eq in Hx, Hx'. subst x x'. destruct (copy_section_recounted _ _ _ HB1 Es) as (k & Ek & HR & _).
    exists k. split; [exact HR|]. cbn [map nth_error]. destruct rest as [|t rest]; cbn [map spanwise_after] in Ez; cbn [map nth_error].
    + apply Ok_eq in Ez. lia.
    + apply section_spanwise_spec in Ez. rewrite Ek. apply Ez.
Qed.
Lemma set_base_bases v l : map sm_base (map2 sm_set_base l (map v (map sm_base l))) = map v (map sm_base l).
Proof. induction l as [|m l IH]; cbn; congruence. Qed.
Lemma copy_wing_movement_remeshed n ar m m' : Forall (fun s => built (sm_base s)) (wm_sections m) -> copy_wing_movement pchip database n ar m = Ok m' -> remeshed_wing_movement n ar m m'.
Proof.
  intros HB H. unfold copy_wing_movement in H. apply bind_Ok in H. destruct H as (l & El & H). apply bind_Ok in H. destruct H as (w & Ew & H). apply Ok_eq in H. subst m'.
  apply copied_wing in Ew. destruct Ew as (H1 & H2 & H3 & H4 & H5 & H6 & H7 & H8). apply copy_section_movements_spec in El; [|exact HB]. destruct El as [E1 E2].
  unfold remeshed_wing_movement. cbn [wm_x_le wm_y_le wm_z_le wm_sections wm_base]. rewrite H8, set_base_bases. repeat (split; [reflexivity|]). split; [|split; [apply recounted_placed, E1 | repeat split; assumption]].
  clear - E2. induction E2; cbn [map map2]; constructor; assumption.
Qed.
Lemma copy_airplane_movement_remeshed n ar m m' : Forall (fun w => Forall (fun s => built (sm_base s)) (wm_sections w)) (am_wings m) ->
  copy_airplane_movement pchip database n ar m = Ok m' -> remeshed_airplane_movement n ar m m'.
Proof.
  intros HB H. unfold copy_airplane_movement in H. apply bind_Ok in H. destruct H as (ws & Ews & H). apply bind_Ok in H. destruct H as (a & Ea & H). apply Ok_eq in H. subst m'.
  apply copied_airplane in Ea. destruct Ea as (H1 & H2 & H3 & H4 & H5 & H6). unfold remeshed_airplane_movement. cbn [am_x_ref am_y_ref am_z_ref am_base am_wings].
  repeat (split; [first [reflexivity | assumption]|]). refine (mapM_Forall2_in _ _ _ _ _ HB _ Ews). intros w w' Hw. apply copy_wing_movement_remeshed, Hw.
Qed.
End Copies.

(** ** The runs *)
Lemma norms_spec a p : coefficient_norms a = Ok p <-> exists f m, a_force_coefficients a = Some f /\ a_moment_coefficients a = Some m /\ p = (vnorm f, vnorm m).
Proof.
  unfold coefficient_norms. destruct (a_force_coefficients a) as [f|], (a_moment_coefficients a) as [m|]; (split; [intros H; try discriminate H | intros (f' & m' & H1 & H2 & H3); try discriminate H1; try discriminate H2]).
  - apply Ok_eq in H. subst p. eauto.
  - apply Some_eq in H1, H2. subst. reflexivity.
Qed.
Lemma run_steady_count solve st p l : run_steady solve st p = Ok l -> length l = length (sp_airplanes p).
Proof.
  unfold run_steady. destruct (String.eqb st "steady horseshoe vortex lattice method"); [|destruct (String.eqb st "steady ring vortex lattice method"); [|discriminate]]; intros H; apply bind_Ok in H; destruct H as (s & E & H); apply Ok_eq in H; subst l.
  - apply hs_run_same in E. apply Forall2_length in E. symmetry. exact E.
  - apply ring_run_same in E. apply Forall2_length in E. symmetry. exact E.
Qed.
Lemma steady_trial_count pchip database solve st ref ar n v : steady_trial pchip database solve st ref ar n = Ok v -> length v = length (sp_airplanes ref).
Proof.
  unfold steady_trial. intros H. apply bind_Ok in H. destruct H as (l & El & H). apply bind_Ok in H. destruct H as (s & Es & H).
  apply mapM_Forall2, Forall2_length in H. apply mapM_Forall2, Forall2_length in El. apply run_steady_count in Es. cbn [sp_airplanes] in Es. congruence.
Qed.
Lemma masked_length mask l r : masked mask l = Ok r -> length r = length (filter (fun b => b) mask).
Proof.
  unfold masked. destruct (Nat.eqb_spec (length mask) (length l)) as [E|]; [|discriminate]. intros H. apply Ok_eq in H. subst r. rewrite map_length.
  revert l E; induction mask as [|b mask IH]; intros [|x l] E; try discriminate E; [reflexivity|]. cbn. destruct b; cbn; rewrite (IH l) by (injection E; auto); reflexivity.
Qed.
Lemma concat_length k (l : list (list R)) : Forall (fun r => length r = k) l -> length (concat l) = (length l * k)%nat.
Proof. induction 1 as [|r l Hr Hl IH]; [reflexivity|]. cbn [concat length]. rewrite app_length, IH, Hr. lia. Qed.
Lemma unsteady_trial_count pchip database solve mask static ref w l ar n v : unsteady_trial pchip database solve mask static ref w l ar n = Ok v ->
  length (concat v) = (length (mv_airplane_movements ref) * length (filter (fun b => b) mask))%nat.
Proof.
  unfold unsteady_trial. intros H. apply bind_Ok in H. destruct H as (ams & El & H). do 4 (apply bind_Ok in H; destruct H as (? & _ & H)).
  apply mapM_Forall2 in H. apply mapM_Forall2, Forall2_length in El.
  assert (HF : Forall (fun r => length r = length (filter (fun b => b) mask)) v).
  { revert H. generalize (seq 0 (length ams)). intros q H. induction H as [|i r q v Hr _ IH]; constructor; [|exact IH]. unfold final_coefficients in Hr. cbn zeta in Hr.
    apply bind_Ok in Hr. destruct Hr as (f & _ & Hr). apply bind_Ok in Hr. destruct Hr as (m & _ & Hr). exact (masked_length _ _ _ Hr). }
  rewrite (concat_length _ _ HF). apply Forall2_length in H. rewrite seq_length in H. congruence.
Qed.
