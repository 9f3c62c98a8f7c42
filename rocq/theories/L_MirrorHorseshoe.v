(** The horseshoe solver commutes with mirror images. *)
From Coq Require Import Lra Permutation.
From Verif Require Import M_Loads M_Horseshoe S_Geometry S_Vortices S_Solve S_Loads S_Mirror
  L_Base L_Rotations L_Loads L_Aero L_Horseshoe L_SteadyRing L_RingLegs L_Scaling L_Mirror.

Notation hs_unit := (fun x r => hs_row_velocity x r 1).
Notation hs_sys := (sys_matrix hr_collocation hr_normal hs_unit).
Notation hs_matched := (matched hr_collocation hr_normal hs_unit).
Lemma hs_sys_matrix rows : hs_influences rows = hs_sys rows.
Proof. apply hs_influences_explicit. Qed.
Lemma hs_sys_rhs rows v : map Ropp (freestream_influences (map hr_normal rows) v) = sys_rhs hr_normal rows v.
Proof. unfold freestream_influences, sys_rhs. rewrite !map_map. reflexivity. Qed.
Lemma hs_sys_velocity rows xs v x : hs_velocity_at rows xs v x = sys_velocity hs_unit rows xs v x.
Proof.
  unfold hs_velocity_at, sys_velocity. f_equal. apply vsum_map_ext. intros [r g] _. apply hs_row_velocity_linear.
Qed.
Lemma hs_row_mirror d d' k x x' : d' = across d -> mirrored_panel k (snd x) (snd x') -> w_span (snd (fst x')) = w_span (snd (fst x)) ->
  sys_mirror hr_collocation hr_normal hs_unit k (hs_row_of d x) (hs_row_of d' x').
Proof.
  destruct x as [[a w] p], x' as [[a' w'] p']. intros -> Hp Hw. cbn [fst snd] in *.
  destruct (mirrored_panel_points k p p' Hp) as (V1 & V2 & V3 & V4 & _).
  split; [exact V3|]. split; [exact V4|]. intros y.
  unfold hs_row_velocity, hr_back_right, hr_front_right, hr_front_left, hr_back_left. cbn. rewrite V1, V2, Hw.
  destruct k; cbn [turned]; [rewrite <- shoe_velocity_across_kept | rewrite <- shoe_velocity_across]; rewrite !across_add, !across_scale; reflexivity.
Qed.

Lemma strengths_listed (st : panel -> option R) ps : (forall p, In p ps -> st p <> None) -> exists xs, map st ps = map Some xs.
Proof.
  induction ps as [|p ps IH]; intros H; [exists []; reflexivity|]. destruct IH as (xs & E); [intros q Hq; apply H; right; exact Hq|].
  destruct (st p) as [x|] eqn:Ex; [|exfalso; apply (H p); [left; reflexivity | exact Ex]]. exists (x :: xs). cbn. rewrite Ex, E. reflexivity.
Qed.
Lemma strengths_known (st : panel -> option R) ps xs p : map st ps = map Some xs -> In p ps -> st p <> None.
Proof.
  revert xs; induction ps as [|q ps IH]; [intros _ _ []|]. intros [|x xs]; cbn; [discriminate|]. intros E. apply cons_eq' in E. destruct E as [E Es].
  intros [<-|H]; [congruence | eauto].
Qed.
Lemma hs_matched_rows f op op' st l1 l2 xs1 xs2 : freestream_direction op' = across (freestream_direction op) ->
  paired f (mirrored_airplane (fun k p p' => mirrored_panel k p p' /\ st p' = option_map (mirrored_strength k) (st p))) l1 l2 ->
  map st (all_panels l1) = map Some xs1 -> map st (all_panels l2) = map Some xs2 ->
  hs_matched (hs_rows_of op l1) xs1 (hs_rows_of op' l2) xs2.
Proof.
  intros Hd HP E1 E2. pose proof (f_equal (@length _) E1) as L1. pose proof (f_equal (@length _) E2) as L2. rewrite !map_length in L1, L2.
  unfold hs_rows_of. split; [rewrite map_length, flat_panels_length; congruence|]. split; [rewrite map_length, flat_panels_length; congruence|].
  destruct (mirror_flat f _ l1 l2 HP) as (c & Hc & F).
  pose (val (x : airplane * wing * panel) := match st (snd x) with Some g => g | None => 0 end).
  assert (V : forall op (l : list airplane) xs, map st (all_panels l) = map Some xs ->
    combine (map (hs_row_of (freestream_direction op)) (flat_panels l)) xs = map (fun x => (hs_row_of (freestream_direction op) x, val x)) (flat_panels l)).
  { intros o l xs. rewrite <- flat_panels_snd, map_map. generalize (flat_panels l). intros k. revert xs.
    induction k as [|x k IH]; intros [|g xs]; cbn [map combine]; try discriminate; auto. intros E. apply cons_eq' in E. destruct E as [E Es].
    f_equal; [|apply IH; exact Es]. unfold val. change (st (snd x) = Some g) in E. rewrite E. reflexivity. }
  exists (map (fun x => (hs_row_of (freestream_direction op') x, val x)) c). rewrite !V by assumption. split; [apply Permutation_map, Hc|].
  assert (Kn : forall x, In x (flat_panels l1) -> st (snd x) <> None).
  { intros x Hx. apply (strengths_known st (all_panels l1) xs1); [exact E1|]. rewrite <- flat_panels_snd. apply in_map. exact Hx. }
  clear -F Hd Kn. revert Kn. induction F as [|x x' l l' ((k & H & Hg) & Hs & _) _ IH]; cbn [map]; intros Kn; constructor; [|apply IH; intros y Hy; apply Kn; right; exact Hy].
  cbn [fst snd]. exists k. split; [apply hs_row_mirror; assumption|]. unfold val. rewrite Hg.
  specialize (Kn x (or_introl eq_refl)). destruct (st (snd x)); [reflexivity | congruence].
Qed.

Lemma hs_final_strengths solve s s' : SolveSpec solve -> hs_run solve s = Ok s' ->
  map horseshoe_strength (all_panels (hso_airplanes s')) = map Some (hso_strengths s').
Proof.
  intros HS E. rewrite (hs_final_panels _ _ _ HS E). destruct (hs_solution_length _ _ _ HS E) as [L _].
  apply hs_run_inv in E. destruct E as (_ & _ & Er & _). rewrite Er in L. unfold hs_rows_of in L. rewrite map_length in L.
  rewrite map_map. revert L. generalize (hs_velocity_at (hso_rows s') (hso_strengths s') (hso_freestream s')). intros vel.
  generalize (flat_panels (hso_airplanes s)) (hso_strengths s'). intros l xs. revert xs.
  induction l as [|[[a w] p] l IH]; intros [|x xs]; cbn [combine map length]; try discriminate; auto. intros L. f_equal. apply IH. lia.
Qed.
Lemma hs_processed solve s s' : hs_run solve s = Ok s' -> forall a, In a (hso_airplanes s') ->
  totals_from (hso_op s) a /\ forall p, In p (airplane_panels a) -> loads_from (hso_op s) p.
Proof.
  intros E. apply hs_run_inv in E. cbv zeta in E. destruct E as (_ & _ & _ & _ & _ & _ & l & _ & E). exact (processed _ _ _ _ _ E).
Qed.
Lemma true_rel_airplanes l l' : Forall2 same_airplane l l' -> Forall2 (rel_airplane (fun _ _ => True)) l l'.
Proof.
  intros F. apply rel_airplanes_flat; [exact F|]. apply same_all_panels in F. eapply Forall2_impl; [|exact F]. auto.
Qed.
Lemma strengths_same (st : panel -> option R) l m xs : map st l = map Some xs -> map st m = map Some xs -> Forall2 (fun p q => st q = st p) l m.
Proof.
  revert m xs; induction l as [|p l IH]; intros [|q m] [|x xs]; cbn; try discriminate; [constructor|]. intros E E'.
  apply cons_eq' in E, E'. destruct E, E'. constructor; [congruence | eauto].
Qed.
Lemma mirrored_same k p p1 p' : same_panel p p1 -> mirrored_panel k p p' -> mirrored_panel k p1 p'.
Proof. intros (S1 & S2 & S3 & S4 & _) H. unfold mirrored_panel in *. rewrite S1, S2, S3, S4. exact H. Qed.
Lemma mirrored_same_r k p p' q : same_panel p' q -> mirrored_panel k p p' -> mirrored_panel k p q.
Proof. intros (S1 & S2 & S3 & S4 & _) H. unfold mirrored_panel in *. rewrite S1, S2, S3, S4. exact H. Qed.
Lemma same_airplanes_sym l m : Forall2 same_airplane l m -> Forall2 same_airplane m l.
Proof. intros F; induction F; constructor; auto using same_airplane_sym. Qed.

Lemma rows_impl (k : bool) (P Q : panel -> panel -> Prop) m m' : Forall2 (fun row row' => Forall2 P row (row_of k row')) m m' ->
  (forall p p', In p (ravel m) -> In p' (ravel m') -> P p p' -> Q p p') -> Forall2 (fun row row' => Forall2 Q row (row_of k row')) m m'.
Proof.
  unfold ravel. intros F. induction F as [|r r' m m' Hr _ IH]; cbn [concat]; intros H; constructor.
  - assert (H' : forall p p', In p r -> In p' (row_of k r') -> P p p' -> Q p p').
    { intros p p' Hp Hp'. apply H; apply in_or_app; left; [exact Hp|]. eapply Permutation_in; [apply (row_perm k) | exact Hp']. }
    clear -Hr H'. revert Hr H'. generalize (row_of k r'). clear r'. intros r' Hr H'. induction Hr as [|p p' r r' Hp _ IH]; constructor; [apply H'; auto; left; reflexivity|].
    apply IH. intros q q' Hq Hq'. apply H'; right; assumption.
  - apply IH. intros p p' Hp Hp'. apply H; apply in_or_app; right; assumption.
Qed.
Lemma mirror_panels_impl f (P Q : bool -> panel -> panel -> Prop) l l' : paired f (mirrored_airplane P) l l' ->
  (forall a a' k p p', In a l -> In a' l' -> In p (airplane_panels a) -> In p' (airplane_panels a') -> a_xyz_ref a' = across (a_xyz_ref a) -> P k p p' -> Q k p p') ->
  paired f (mirrored_airplane Q) l l'.
Proof.
  intros M H. apply (mirror_impl _ _ _ _ _ M). intros a a' w w' Ha Ha' Hw Hw' Hr (Hs & k & HF). split; [exact Hs|]. exists k.
  apply (rows_impl _ _ _ _ _ HF). intros p p' Hp Hp'. apply (H a a' k p p' Ha Ha'); [| |exact Hr]; apply in_airplane_panels; [exists w | exists w']; auto.
Qed.

(** Strengths of the mirror image: [give] sets a panel's strength. *)
Lemma mirrored_strengths f (st : panel -> option R) (give : R -> panel -> panel) l l1 l' xs :
  (forall g p', same_panel p' (give g p') /\ st (give g p') = Some g) ->
  Forall2 same_airplane l l1 -> map st (all_panels l1) = map Some xs -> mirrored f l l' ->
  exists l2 xs2, Forall2 same_airplane l' l2 /\ map st (all_panels l2) = map Some xs2 /\
    paired f (mirrored_airplane (fun k p p' => mirrored_panel k p p' /\ st p <> None /\ st p' = option_map (mirrored_strength k) (st p))) l1 l2.
Proof.
  intros HG F E HM.
  assert (M1 : paired f (mirrored_airplane mirrored_panel) l1 l').
  { eapply mirror_left; [apply true_rel_airplanes, F | exact HM|]. intros k p p1 p' Hs _ H. exact (mirrored_same _ _ _ _ Hs H). }
  assert (M1' : paired f (mirrored_airplane (fun k p p' => mirrored_panel k p p' /\ st p <> None)) l1 l').
  { apply (mirror_panels_impl _ _ _ _ _ M1). intros a a' k p p' Ha _ Hp _ _ H. split; [exact H|].
    apply (strengths_known st _ _ p E). apply in_all_panels. exists a. auto. }
  destruct (mirror_choice f (fun _ _ => True) _ (fun k p p' => mirrored_panel k p p' /\ st p <> None /\ st p' = option_map (mirrored_strength k) (st p)) _ _ M1') as (l2 & F2 & M2).
  { intros k p p' [Hp Hn]. destruct (st p) as [g|] eqn:Eg; [|congruence]. exists (give (mirrored_strength k g) p'). destruct (HG (mirrored_strength k g) p') as [G1 G2].
    split; [auto|]. split; [|split; [congruence | exact G2]]. exact (mirrored_same_r _ _ _ _ G1 Hp). }
  destruct (strengths_listed st (all_panels l2)) as (xs2 & E2).
  { intros q Hq. destruct (mirror_flat _ _ _ _ M2) as (c & Hc & Fc). rewrite <- flat_panels_snd in Hq. apply in_map_iff in Hq.
    destruct Hq as (x & <- & Hx). eapply Permutation_in in Hx; [|apply Permutation_sym, Hc].
    destruct (Forall2_In_r _ _ _ _ Fc Hx) as (x1 & _ & (k & _ & H1 & H2) & _). rewrite H2. destruct (st (snd x1)); [discriminate | congruence]. }
  exists l2, xs2. split; [exact (rel_same _ _ _ F2)|]. auto.
Qed.

Lemma Some_eq' {A} (x y : A) : Some x = Some y -> x = y. Proof. congruence. Qed.
Lemma across_midpoint a b : midpoint (across b) (across a) = across (midpoint a b).
Proof. unfold midpoint, across. vunfold. apply vec_ext; cbn; lra. Qed.
Lemma midpoint_across a b : midpoint (across a) (across b) = across (midpoint a b).
Proof. unfold midpoint, across. vunfold. apply vec_ext; cbn; lra. Qed.
(** The image of the leg from [a] to [b]. *)
Definition mirrored_leg (k : bool) (leg leg' : line_vortex) : Prop :=
  lv_center leg' = across (lv_center leg) /\ lv_vector leg' = if k then across (lv_vector leg) else vopp (across (lv_vector leg)).
Lemma mirrored_leg_intro (k : bool) l l' a b g a' b' g' : leg_is l a b g -> leg_is l' a' b' g' ->
  a' = across (if k then a else b) -> b' = across (if k then b else a) -> mirrored_leg k l l'.
Proof.
  intros (_ & _ & _ & V & C) (_ & _ & _ & V' & C') -> ->. unfold mirrored_leg. rewrite V, C, V', C'.
  destruct k; [rewrite midpoint_across | rewrite across_midpoint]; (split; [reflexivity|]); unfold across; vring.
Qed.
Lemma mirrored_leg_force rho rho' k g g' v v' leg leg' : rho' = rho -> g' = mirrored_strength k g -> v' = across v -> mirrored_leg k leg leg' ->
  vscale (rho' * g') (vcross v' (lv_vector leg')) = across (vscale (rho * g) (vcross v (lv_vector leg))).
Proof. intros -> -> -> [_ ->]. destruct k; cbn [mirrored_strength]; unfold across; vring. Qed.
Lemma mirrored_leg_moment c c' r r' f f' : c' = across c -> r' = across r -> f' = across f ->
  vcross (vsub c' r') f' = across_moment (vcross (vsub c r) f).
Proof. intros -> -> ->. unfold across, across_moment; vring. Qed.
Lemma hs_mirrored solve f l l' op op' s : SolveSpec solve -> mirrored_flow op op' -> mirrored f l l' ->
  hs_run solve (hs_new l op) = Ok s ->
  exists s', hs_run solve (hs_new l' op') = Ok s' /\
    (forall x v, hs_solution_velocity s [x] = [v] -> hs_solution_velocity s' [across x] = [across v]) /\
    paired f (mirrored_solution horseshoe_strength) (hso_airplanes s) (hso_airplanes s').
Proof.
  intros HS Hop HM E. pose proof (hs_run_same _ _ _ E) as F1. cbn [hs_new hso_airplanes] in F1.
  pose proof (hs_final_strengths _ _ _ HS E) as X1. set (l1 := hso_airplanes s) in *. set (xs1 := hso_strengths s) in *.
  destruct (mirrored_strengths f horseshoe_strength (fun g p' => p_set_horseshoe (Some (new_horseshoe vzero vzero g vzero 0)) p') l l1 l' xs1) as (l2 & xs2 & F2 & X2 & M2);
    auto.
  { intros g p'. split; [|reflexivity]. unfold same_panel; cbn; auto 12. }
  pose proof (mirrored_direction op op' Hop) as Hd.
  assert (M2' : paired f (mirrored_airplane (fun k p p' => mirrored_panel k p p' /\ horseshoe_strength p' = option_map (mirrored_strength k) (horseshoe_strength p))) l1 l2).
  { apply (mirror_panels_impl _ _ _ _ _ M2). intros a a' k p p' _ _ _ _ _ (H1 & _ & H3). auto. }
  pose proof (hs_matched_rows f op op' _ l1 l2 xs1 xs2 Hd M2' X1 X2) as Mt.
  pose proof (hs_rows_same op l l1 F1) as R1. pose proof (hs_rows_same op' l' l2 F2) as R2.
  pose proof E as E0. apply hs_run_inv in E0. cbv zeta in E0. cbn [hs_new hso_op hso_airplanes hso_freestream] in E0.
  destruct E0 as (Eo & Ev & Er & Es & _). fold xs1 in Es.
  assert (Es2 : solve (hs_influences (hs_rows_of op' l')) (map Ropp (freestream_influences (map hr_normal (hs_rows_of op' l')) (freestream_velocity op'))) = Ok xs2).
  { rewrite <- (same_rows_influences _ _ R2). destruct (same_rows_maps _ _ R2) as (_ & Hn & _). rewrite <- Hn.
    rewrite hs_sys_matrix, hs_sys_rhs, (mirrored_freestream op op' Hop).
    apply (mirrored_system _ _ _ solve _ xs1 _ xs2 _ HS Mt). rewrite <- hs_sys_matrix, <- hs_sys_rhs.
    rewrite (same_rows_influences _ _ R1). destruct (same_rows_maps _ _ R1) as (_ & Hn1 & _). rewrite Hn1. exact Es. }
  destruct (hs_run_total solve (hs_new l' op') xs2 HS Es2) as (s' & E' & Ex'). exists s'. split; [exact E'|].
  pose proof (hs_run_same _ _ _ E') as F3. cbn [hs_new hso_airplanes] in F3. pose proof (hs_final_strengths _ _ _ HS E') as X3. rewrite Ex' in X3.
  pose proof E' as E0'. apply hs_run_inv in E0'. cbv zeta in E0'. cbn [hs_new hso_op hso_airplanes hso_freestream] in E0'.
  destruct E0' as (Eo' & Ev' & Er' & _).
  destruct (hs_solution_length _ _ _ HS E) as [L1 _]. destruct (hs_solution_length _ _ _ HS E') as [L3 _].
  assert (V : forall x, hs_velocity_at (hso_rows s') (hso_strengths s') (hso_freestream s') (across x) =
                        across (hs_velocity_at (hso_rows s) (hso_strengths s) (hso_freestream s) x)).
  { intros x. rewrite Er, Er', Ev, Ev', Ex'. rewrite <- (same_rows_velocity _ _ _ _ _ R1), <- (same_rows_velocity _ _ _ _ _ R2).
    rewrite !hs_sys_velocity, (mirrored_freestream op op' Hop). apply (matched_velocity _ _ _ _ _ _ _ _ _ Mt). }
  split.
  { intros x v. rewrite !hs_velocity_at_spec by assumption. intros H. injection H as <-. rewrite V. reflexivity. }
  set (l3 := hso_airplanes s') in *.
  assert (F23 : Forall2 same_airplane l2 l3) by (eapply same_airplanes_trans; [apply same_airplanes_sym, F2 | exact F3]).
  assert (M3 : paired f (mirrored_airplane (fun k p p' => mirrored_panel k p p' /\ horseshoe_strength p <> None /\ horseshoe_strength p' = option_map (mirrored_strength k) (horseshoe_strength p))) l1 l3).
  { eapply mirror_right; [apply (rel_airplanes_flat (fun p q => horseshoe_strength q = horseshoe_strength p)); [exact F23 | exact (strengths_same _ _ _ _ X2 X3)] | exact M2|].
    intros k p p' q Hs Hg (H1 & H2 & H3). split; [exact (mirrored_same_r _ _ _ _ Hs H1)|]. split; [exact H2 | congruence]. }
  assert (M4 : paired f (mirrored_airplane (fun k p p' => mirrored_panel k p p' /\ mirrored_loads p p' /\ horseshoe_strength p <> None /\ horseshoe_strength p' = option_map (mirrored_strength k) (horseshoe_strength p))) l1 l3).
  { apply (mirror_panels_impl _ _ _ _ _ M3). intros a a' k p p' Ha Ha' Hp Hp' Href (Hm & Hn & Hst). split; [exact Hm|]. split; [|auto].
    destruct (horseshoe_kutta_joukowski _ _ _ HS E a p Ha Hp) as (h & v & g & Hh & (_ & Lg & _) & O1 & O2 & Hv & Hf & G1 & G2 & _).
    destruct (horseshoe_kutta_joukowski _ _ _ HS E' a' p' Ha' Hp') as (h' & v' & g' & Hh' & (_ & Lg' & _) & O1' & O2' & Hv' & Hf' & G1' & G2' & _).
    unfold horseshoe_strength in Hst. rewrite Hh, Hh' in Hst. cbn [option_map] in Hst. apply Some_eq' in Hst.
    destruct (mirrored_panel_points k p p' Hm) as (V1 & V2 & _).
    assert (ML : mirrored_leg k (hs_finite_leg h) (hs_finite_leg h')).
    { apply (mirrored_leg_intro _ _ _ _ _ _ _ _ _ Lg Lg'); rewrite O1, O2, ?O1', ?O2', ?V1, ?V2; destruct k; reflexivity. }
    pose proof ML as [Hc _].
    rewrite hs_velocity_at_spec in Hv, Hv' by assumption. apply cons_eq' in Hv, Hv'. destruct Hv as [Hv _], Hv' as [Hv' _].
    assert (Hvv : v' = across v) by (rewrite <- Hv, <- Hv', Hc; apply V).
    assert (Hg : g' = across g).
    { rewrite Hf, Hf'. apply (mirrored_leg_force _ _ k); auto. rewrite Eo', Eo. apply Hop. }
    apply (mirrored_loads_from op op' k p p' _ _ Hop Hm (proj2 (hs_processed _ _ _ E a Ha) p Hp) (proj2 (hs_processed _ _ _ E' a' Ha') p' Hp') G1 G2).
    - rewrite G1', Hg. reflexivity.
    - rewrite G2'. f_equal. apply mirrored_leg_moment; auto. }
  apply (paired_impl f _ _ _ _ M4). intros a a' Ha Ha' Hm. split; [|exact Hm].
  apply (mirrored_totals_from op op' _ a a' Hop (fun k p p' H => proj1 (proj2 H)) Hm);
    [exact (proj1 (hs_processed _ _ _ E a Ha)) | exact (proj1 (hs_processed _ _ _ E' a' Ha'))].
Qed.
