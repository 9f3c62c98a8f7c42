(** Lemmas about the steady horseshoe solver. *)
From Coq Require Import Lra Lia.
From Verif Require Import M_Horseshoe S_Geometry S_Vortices S_Solve S_Loads
  L_Base L_Rotations L_Aero L_Loads.

(** ** Flattened walks *)
Lemma flat_panels_snd airplanes : map snd (flat_panels airplanes) = all_panels airplanes.
Proof.
  unfold flat_panels, all_panels, airplane_panels. rewrite concat_map, map_map. f_equal.
  apply map_ext; intros a. rewrite concat_map, map_map. f_equal.
  apply map_ext; intros w. rewrite map_map. cbn. apply map_id.
Qed.
Lemma flat_panels_length airplanes : length (flat_panels airplanes) = length (all_panels airplanes).
Proof. rewrite <- flat_panels_snd, map_length; reflexivity. Qed.
Lemma in_flat airplanes a w p :
  In (a, w, p) (flat_panels airplanes) <-> In a airplanes /\ In w (a_wings a) /\ In p (ravel (w_panels w)).
Proof.
  unfold flat_panels. rewrite in_concat. setoid_rewrite in_map_iff. split.
  - intros (l & (a' & <- & Ha) & Hin). rewrite in_concat in Hin. destruct Hin as (l' & Hl' & Hin).
    apply in_map_iff in Hl'. destruct Hl' as (w' & <- & Hw). apply in_map_iff in Hin.
    destruct Hin as (p' & E & Hp). injection E as -> -> ->. auto.
  - intros (Ha & Hw & Hp). eexists; split; [exists a; split; [reflexivity | exact Ha]|].
    rewrite in_concat. eexists; split; [apply in_map_iff; exists w; split; [reflexivity | exact Hw]|].
    apply in_map_iff. exists p; auto.
Qed.
Lemma in_airplane_panels a p : In p (airplane_panels a) <-> exists w, In w (a_wings a) /\ In p (ravel (w_panels w)).
Proof.
  unfold airplane_panels. rewrite in_concat. setoid_rewrite in_map_iff. split.
  - intros (l & (w & <- & Hw) & Hp); eauto.
  - intros (w & Hw & Hp); eauto 6.
Qed.
Lemma in_all_panels airplanes p : In p (all_panels airplanes) <-> exists a, In a airplanes /\ In p (airplane_panels a).
Proof.
  unfold all_panels. rewrite in_concat. setoid_rewrite in_map_iff. split.
  - intros (l & (a & <- & Ha) & Hp); eauto.
  - intros (a & Ha & Hp); eauto 6.
Qed.
Lemma same_flat l m : Forall2 same_airplane l m ->
  Forall2 (fun x y => same_airplane (fst (fst x)) (fst (fst y)) /\ same_wing (snd (fst x)) (snd (fst y)) /\
                      same_panel (snd x) (snd y)) (flat_panels l) (flat_panels m).
Proof.
  intros F. unfold flat_panels. apply Forall2_concat.
  induction F as [|a b l m Hab _ IH]; cbn; constructor; auto. clear IH.
  apply Forall2_concat. destruct Hab as (Fw & Hab').
  assert (Hab : same_airplane a b) by (split; assumption). clear Hab'.
  induction Fw as [|w v ws vs Hw _ IH]; cbn; constructor; auto. clear IH.
  destruct Hw as [E Fm]. assert (Hw : same_wing w v) by (split; assumption).
  apply Forall2_concat in Fm. unfold ravel. revert Fm.
  generalize (concat (w_panels w)) (concat (w_panels v)). intros l1 l2 Fm.
  induction Fm; cbn; constructor; auto.
Qed.
Lemma flat_panels_map (fa : airplane -> list wing) (fw : airplane -> wing -> list (list panel))
      (ga : airplane -> airplane) (gw : wing -> wing) (gp : wing -> panel -> panel) airplanes :
  (forall a, a_wings (ga a) = map gw (a_wings a)) ->
  (forall w, ravel (w_panels (gw w)) = map (gp w) (ravel (w_panels w))) ->
  flat_panels (map ga airplanes) =
  map (fun awp => (ga (fst (fst awp)), gw (snd (fst awp)), gp (snd (fst awp)) (snd awp))) (flat_panels airplanes).
Proof.
  intros Ha Hw. unfold flat_panels. rewrite concat_map, !map_map. f_equal.
  apply map_ext; intros a. rewrite concat_map, Ha, !map_map. f_equal.
  apply map_ext; intros w. rewrite Hw, !map_map. reflexivity.
Qed.

(** Equality of airplane lists from equality of their panels and loads. *)
Lemma concat_inj_lengths {A} (l m : list (list A)) :
  Forall2 (fun x y => length x = length y) l m -> concat l = concat m -> l = m.
Proof.
  intros F; induction F as [|x y l m H _ IH]; cbn; intros E; [reflexivity|].
  assert (x = y /\ concat l = concat m) as [-> Ec].
  { revert y H E; induction x as [|a x IHx]; intros [|b y]; cbn; try discriminate; intros H E; [auto|].
    injection E as -> E. destruct (IHx y) as [-> ?]; auto. }
  f_equal; auto.
Qed.
Lemma same_wing_eq w v : same_wing w v -> ravel (w_panels w) = ravel (w_panels v) -> w = v.
Proof.
  intros [E F] H. rewrite E. apply concat_inj_lengths in H; [rewrite <- H; destruct w; reflexivity|].
  revert F; clear. intros F; induction F as [|r r' l l' H _ IH]; constructor; auto.
  induction H; cbn; congruence.
Qed.
Lemma same_airplane_wings_eq a b : same_airplane a b -> airplane_panels a = airplane_panels b -> a_wings a = a_wings b.
Proof.
  intros (F & _) H. unfold airplane_panels in H. apply concat_inj_lengths in H.
  - revert H; induction F as [|w v ws vs Hw _ IH]; cbn; intros H; [reflexivity|].
    injection H as H1 H2. f_equal; [apply same_wing_eq; auto | apply IH, H2].
  - clear H. induction F as [|w v ws vs [_ Hw] _ IH]; cbn; constructor; auto.
    apply Forall2_concat in Hw. apply Forall2_length in Hw. exact Hw.
Qed.
Lemma same_airplane_eq a b : same_airplane a b -> airplane_panels a = airplane_panels b ->
  a_force_wind a = a_force_wind b -> a_moment_wind a = a_moment_wind b ->
  a_force_coefficients a = a_force_coefficients b -> a_moment_coefficients a = a_moment_coefficients b -> a = b.
Proof.
  intros Hs Hp H1 H2 H3 H4. pose proof (same_airplane_wings_eq a b Hs Hp) as Hw.
  destruct Hs as (_ & Hn & Hx & Hs). destruct a, b; cbn in *. injection Hx as -> -> ->.
  intuition congruence.
Qed.

(** ** Rows of the horseshoe solver *)
Definition hs_vortex_of (d : vec) (w : wing) (p : panel) : horseshoe_vortex :=
  new_horseshoe (p_front_right_vortex_vertex p) (p_front_left_vortex_vertex p) 0 d (w_span w * 20).
Definition hs_row_of (d : vec) (awp : airplane * wing * panel) : hs_row :=
  let '(a, w, p) := awp in
  mkhsrow (hs_init_panel d (w_span w * 20) p) (a_xyz_ref a) (hs_vortex_of d w p).
Lemma hs_collapse_init op airplanes :
  hs_collapse (hs_init op airplanes) = Ok (map (hs_row_of (freestream_direction op)) (flat_panels airplanes)).
Proof.
  unfold hs_collapse, hs_init.
  rewrite (flat_panels_map (fun a => a_wings a) (fun _ w => w_panels w)
             (hs_init_airplane (freestream_direction op)) (hs_init_wing (freestream_direction op))
             (fun w => hs_init_panel (freestream_direction op) (w_span w * 20))).
  - rewrite mapM_map, <- mapM_total. apply mapM_ext. intros [[a w] p] _. reflexivity.
  - reflexivity.
  - intros w. cbn. unfold ravel. symmetry; apply concat_map.
Qed.
Lemma hs_init_same op airplanes : Forall2 same_airplane airplanes (hs_init op airplanes).
Proof.
  unfold hs_init. apply Forall2_map_r, Forall2_refl. intros a. split; [|cbn; auto 8].
  cbn. apply Forall2_map_r, Forall2_refl. intros w. split; [reflexivity|]. cbn.
  apply Forall2_map_r, Forall2_refl. intros r. apply Forall2_map_r, Forall2_refl. intros p.
  unfold same_panel; cbn; auto 12.
Qed.
Lemma hs_set_strength_same p g q : hs_set_strength p g = Ok q -> same_panel p q.
Proof.
  unfold hs_set_strength. destruct (p_horseshoe_vortex p); [|discriminate].
  intros E; injection E as <-. unfold same_panel; cbn; auto 12.
Qed.

Lemma nth_error_combine {A B} (l : list A) (m : list B) i :
  nth_error (combine l m) i =
  match nth_error l i, nth_error m i with Some x, Some y => Some (x, y) | _, _ => None end.
Proof.
  revert m i; induction l as [|x l IH]; intros [|y m] [|i]; cbn; auto.
  destruct (nth_error l i); reflexivity.
Qed.
Lemma map_fst_combine' {A B C} (f : A -> C) (l : list A) (m : list B) : length m = length l ->
  map f l = map (fun xy => f (fst xy)) (combine l m).
Proof. intros L. rewrite <- (map_fst_combine l m L) at 1. apply map_map. Qed.

(** ** Velocity as a sum over rows *)
Definition hs_row_velocity (x : vec) (r : hs_row) (g : R) : vec :=
  shoe_velocity x (hr_back_right r) (hr_front_right r) (hr_front_left r) (hr_back_left r) g 0 0.
Lemma hs_velocity_explicit rows xs v points : length xs = length rows ->
  hs_velocity_of rows xs v points =
  map (fun x => vadd (vsum (map (fun rg => hs_row_velocity x (fst rg) (snd rg)) (combine rows xs))) v) points.
Proof.
  intros L. unfold hs_velocity_of.
  rewrite (map_fst_combine' hr_back_right rows xs), (map_fst_combine' hr_front_right rows xs),
    (map_fst_combine' hr_front_left rows xs), (map_fst_combine' hr_back_left rows xs) by exact L.
  rewrite <- (map_snd_combine rows xs L) at 5.
  rewrite (collapsed_horseshoe_map_None (fun rg => hr_back_right (fst rg)) (fun rg => hr_front_right (fst rg))
             (fun rg => hr_front_left (fst rg)) (fun rg => hr_back_left (fst rg)) snd).
  rewrite map_map. reflexivity.
Qed.
Lemma hs_influences_explicit rows :
  hs_influences rows =
  map (fun r => map (fun s => vdot (hs_row_velocity (hr_collocation r) s 1) (hr_normal r)) rows) rows.
Proof.
  unfold hs_influences, normal_components.
  rewrite (expanded_horseshoe_map_None hr_back_right hr_front_right hr_front_left hr_back_left (fun _ => 1)).
  rewrite !map_map, map2_map_map. apply map_ext; intros r. rewrite map_map. reflexivity.
Qed.
Lemma hs_row_velocity_linear x r g : hs_row_velocity x r g = vscale g (hs_row_velocity x r 1).
Proof. unfold hs_row_velocity. rewrite <- shoe_velocity_linear, Rmult_1_r. reflexivity. Qed.

(** Row i of the system is the normal velocity at collocation point i. *)
Lemma rsum_map2_combine {A} (h : A -> R) rows xs : length xs = length rows ->
  rsum (map2 Rmult (map h rows) xs) = rsum (map (fun rg => snd rg * h (fst rg)) (combine rows xs)).
Proof.
  revert xs; induction rows as [|r rows IH]; intros [|x xs]; cbn [length map map2 combine]; try discriminate; intros L; [reflexivity|].
  rewrite !rsum_cons, IH by (cbn in L; lia). cbn; ring.
Qed.
Lemma square_map_map {A} (h : A -> A -> R) (l : list A) : square (map (fun r => map (h r) l) l).
Proof. intros row Hin. apply in_map_iff in Hin. destruct Hin as (r & <- & _). rewrite !map_length; reflexivity. Qed.

Lemma hs_no_penetration rows xs v : length xs = length rows ->
  matvec (hs_influences rows) xs = map Ropp (freestream_influences (map hr_normal rows) v) ->
  forall r, In r rows ->
  exists u, hs_velocity_of rows xs v [hr_collocation r] = [u] /\ vdot u (hr_normal r) = 0.
Proof.
  intros L E r Hin. rewrite hs_velocity_explicit by exact L. cbn [map].
  eexists; split; [reflexivity|].
  unfold matvec, freestream_influences in E. rewrite hs_influences_explicit, !map_map in E.
  assert (Er : rsum (map2 Rmult (map (fun s => vdot (hs_row_velocity (hr_collocation r) s 1) (hr_normal r)) rows) xs)
               = - vdot (hr_normal r) v).
  { apply in_split in Hin. destruct Hin as (l1 & l2 & ->).
    rewrite !map_app in E. cbn [map] in E.
    apply (f_equal (fun l => nth_error l (length l1))) in E.
    rewrite !nth_error_app2 in E by (rewrite map_length; lia).
    rewrite !map_length, Nat.sub_diag in E. cbn in E. injection E as E. exact E. }
  rewrite rsum_map2_combine in Er by exact L.
  rewrite vdot_add_l, vdot_comm, vdot_vsum, map_map, (vdot_comm v).
  transitivity (rsum (map (fun rg => snd rg * vdot (hs_row_velocity (hr_collocation r) (fst rg) 1) (hr_normal r))
                          (combine rows xs)) + vdot (hr_normal r) v).
  - f_equal. apply rsum_map_ext. intros [s g] _. cbn [fst snd].
    rewrite hs_row_velocity_linear, vdot_scale_r, vdot_comm. reflexivity.
  - rewrite Er. ring.
Qed.

(** ** The whole run *)
Definition hs_rows_of (op : operating_point) (airplanes : list airplane) : list hs_row :=
  map (hs_row_of (freestream_direction op)) (flat_panels airplanes).
Lemma hs_run_inv solve s s' : hs_run solve s = Ok s' ->
  let rows := hs_rows_of (hso_op s) (hso_airplanes s) in
  let v := hso_freestream s in
  let forces := hs_forces (op_density (hso_op s)) rows (hso_strengths s') v in
  hso_op s' = hso_op s /\ hso_freestream s' = v /\ hso_rows s' = rows /\
  solve (hs_influences rows) (map Ropp (freestream_influences (map hr_normal rows) v)) = Ok (hso_strengths s') /\
  hso_seed_points s' = hso_seed_points s ++ seeds_of (map hr_panel rows) /\
  hso_streamline_points s' =
    Some (calculate_streamlines (hs_velocity_of rows (hso_strengths s') v) (hso_seed_points s') 25 (2 / 100)) /\
  exists airplanes1,
    update_panels hs_set_strength (hs_init (hso_op s) (hso_airplanes s)) (hso_strengths s') = Ok airplanes1 /\
    process_forces (hso_op s) forces (hs_moments rows forces) airplanes1 = Ok (hso_airplanes s').
Proof.
  unfold hs_run. rewrite hs_collapse_init. cbn [bind]. fold (hs_rows_of (hso_op s) (hso_airplanes s)).
  intros E. inv_ok E. inv_ok E. inv_ok E. injection E as <-.
  cbn [hso_op hso_freestream hso_rows hso_strengths hso_seed_points hso_streamline_points hso_airplanes].
  repeat (split; [solve [reflexivity | assumption]|]). exists v0; auto.
Qed.
Lemma hs_solution_length solve s s' : SolveSpec solve -> hs_run solve s = Ok s' ->
  length (hso_strengths s') = length (hso_rows s') /\
  matvec (hs_influences (hso_rows s')) (hso_strengths s') =
  map Ropp (freestream_influences (map hr_normal (hso_rows s')) (hso_freestream s')).
Proof.
  intros HS E. apply hs_run_inv in E. destruct E as (_ & -> & -> & E & _).
  apply HS in E.
  - destruct E as [[L M] _]. split; [|exact M].
    rewrite L, hs_influences_explicit, map_length. reflexivity.
  - rewrite hs_influences_explicit. apply square_map_map.
  - rewrite hs_influences_explicit. unfold freestream_influences. rewrite !map_length. reflexivity.
Qed.
Lemma hs_run_same solve s s' : hs_run solve s = Ok s' -> Forall2 same_airplane (hso_airplanes s) (hso_airplanes s').
Proof.
  intros E. apply hs_run_inv in E. destruct E as (_ & _ & _ & _ & _ & _ & airplanes1 & Eu & Ep).
  apply update_panels_sound in Eu. destruct Eu as (us & rest & _ & Fu).
  apply airplanes_updated_same in Fu; [|apply hs_set_strength_same].
  apply process_forces_sound in Ep. destruct Ep as (us' & rest' & _ & Fp).
  eapply same_airplanes_trans; [apply hs_init_same|]. eapply same_airplanes_trans; [exact Fu|].
  revert Fp; apply Forall3_13; intros a u a' H; apply H.
Qed.
Lemma same_panel_collocation p q : same_panel p q ->
  p_collocation_point q = p_collocation_point p /\ p_unit_normal q = p_unit_normal p.
Proof.
  intros (H1 & H2 & H3 & H4 & _).
  unfold p_collocation_point, p_unit_normal, p_cross, p_first_diagonal, p_second_diagonal, p_right_leg, p_left_leg.
  rewrite H1, H2, H3, H4; auto.
Qed.

Lemma horseshoe_no_penetration solve s s' : SolveSpec solve -> hs_run solve s = Ok s' ->
  forall p, In p (all_panels (hso_airplanes s')) ->
  exists u, hs_solution_velocity s' [p_collocation_point p] = [u] /\ vdot u (p_unit_normal p) = 0.
Proof.
  intros HS E p Hp. destruct (hs_solution_length _ _ _ HS E) as [L M].
  pose proof (same_all_panels _ _ (hs_run_same _ _ _ E)) as F.
  apply In_nth_error in Hp. destruct Hp as [i Hi].
  destruct (Forall2_nth _ _ _ F i p Hi) as (p0 & Hi0 & Hs).
  destruct (same_panel_collocation _ _ Hs) as [-> ->].
  pose proof E as E'. apply hs_run_inv in E'. destruct E' as (_ & _ & Er & _).
  rewrite <- flat_panels_snd, nth_error_map in Hi0.
  destruct (nth_error (flat_panels (hso_airplanes s)) i) as [[[a w] p1]|] eqn:Ef; [|discriminate].
  cbn in Hi0. injection Hi0 as ->.
  assert (Hr : In (hs_row_of (freestream_direction (hso_op s)) (a, w, p0)) (hso_rows s')).
  { rewrite Er. unfold hs_rows_of. apply in_map. eapply nth_error_In; eauto. }
  destruct (hs_no_penetration _ _ _ L M _ Hr) as (u & Hu & Hd).
  exists u. split; [exact Hu | exact Hd].
Qed.

(** ** Final panels of a run *)
Definition hs_velocity_at (rows : list hs_row) (xs : list R) (v x : vec) : vec :=
  vadd (vsum (map (fun rg => hs_row_velocity x (fst rg) (snd rg)) (combine rows xs))) v.
Definition hs_row_force (rho : R) (vel : vec -> vec) (r : hs_row) (g : R) : vec :=
  leg_force rho g (vel (hr_bound_center r)) (hr_bound_vector r).
Definition hs_row_moment (rho : R) (vel : vec -> vec) (r : hs_row) (g : R) : vec :=
  vcross (vsub (hr_bound_center r) (hr_ref r)) (hs_row_force rho vel r g).
Lemma map2_combine_l {A B C} (f : A * B -> A -> C) (l : list A) (m : list B) : length m = length l ->
  map2 f (combine l m) l = map (fun xy => f xy (fst xy)) (combine l m).
Proof. revert m; induction l as [|x l IH]; intros [|y m]; cbn; try discriminate; intros H; f_equal; auto. Qed.
Lemma map2_map_r {A B C D} (f : A -> C -> D) (g : B -> C) l m : map2 f l (map g m) = map2 (fun x y => f x (g y)) l m.
Proof. revert m; induction l as [|x l IH]; intros [|y m]; cbn; congruence. Qed.
Lemma hs_forces_explicit rho rows xs v : length xs = length rows ->
  hs_forces rho rows xs v =
  map (fun rg => hs_row_force rho (hs_velocity_at rows xs v) (fst rg) (snd rg)) (combine rows xs).
Proof.
  intros L. unfold hs_forces. rewrite hs_velocity_explicit by exact L. rewrite map_map, map2_map_r.
  rewrite map2_combine_l by exact L. reflexivity.
Qed.
Lemma hs_moments_explicit rho rows xs v : length xs = length rows ->
  hs_moments rows (hs_forces rho rows xs v) =
  map (fun rg => hs_row_moment rho (hs_velocity_at rows xs v) (fst rg) (snd rg)) (combine rows xs).
Proof.
  intros L. rewrite hs_forces_explicit by exact L. unfold hs_moments, hs_row_moment.
  rewrite <- (map_fst_combine rows xs L) at 1. rewrite map2_map_map. reflexivity.
Qed.

Definition hs_final (op : operating_point) (rho : R) (vel : vec -> vec) (awpg : (airplane * wing * panel) * R) : panel :=
  let '((a, w, p), g) := awpg in
  let r := hs_row_of (freestream_direction op) (a, w, p) in
  loaded op (p_set_horseshoe (Some (hs_update_strength g (hr_vortex r))) p)
         (hs_row_force rho vel r g, hs_row_moment rho vel r g).

Lemma combine_map_l {A B C} (f : A -> C) (l : list A) (m : list B) :
  combine (map f l) m = map (fun xy => (f (fst xy), snd xy)) (combine l m).
Proof. revert m; induction l as [|x l IH]; intros [|y m]; cbn; congruence. Qed.
Lemma app_length_nil {A} (l m n : list A) : l = m ++ n -> length m = length l -> n = [] /\ l = m.
Proof.
  intros E L. assert (length n = 0)%nat by (apply (f_equal (@length _)) in E; rewrite app_length in E; lia).
  destruct n; [|discriminate]. rewrite app_nil_r in E; auto.
Qed.

Lemma hs_final_panels solve s s' : SolveSpec solve -> hs_run solve s = Ok s' ->
  all_panels (hso_airplanes s') =
  map (hs_final (hso_op s) (op_density (hso_op s)) (hs_velocity_at (hso_rows s') (hso_strengths s') (hso_freestream s')))
      (combine (flat_panels (hso_airplanes s)) (hso_strengths s')).
Proof.
  intros HS E. destruct (hs_solution_length _ _ _ HS E) as [L _].
  apply hs_run_inv in E. destruct E as (_ & -> & Er & _ & _ & _ & airplanes1 & Eu & Ep).
  set (xs := hso_strengths s') in *. set (op := hso_op s) in *. set (v := hso_freestream s) in *.
  rewrite Er in L |- *. set (rows := hs_rows_of op (hso_airplanes s)) in *.
  assert (Lf : length xs = length (flat_panels (hso_airplanes s))).
  { rewrite L. unfold rows, hs_rows_of. apply map_length. }
  set (vel := hs_velocity_at rows xs v).
  (* strengths *)
  apply update_panels_sound in Eu. destruct Eu as (us & rest & Ex & Fu).
  pose proof (airplanes_updated_same _ _ _ _ hs_set_strength_same Fu) as Fs.
  apply airplanes_updated_panels in Fu.
  assert (Li : all_panels (hs_init op (hso_airplanes s)) = map hr_panel rows).
  { rewrite <- flat_panels_snd. pose proof (hs_collapse_init op (hso_airplanes s)) as Ec.
    fold (hs_rows_of op (hso_airplanes s)) in Ec. fold rows in Ec.
    unfold hs_collapse in Ec. apply mapM_Forall2 in Ec. symmetry. apply Forall2_map_eq.
    revert Ec; generalize (flat_panels (hs_init op (hso_airplanes s))) rows. clear.
    intros l m F; induction F as [|[[a w] p] r l m H _ IH]; constructor; auto.
    cbn in H. destruct (p_horseshoe_vortex p); [|discriminate]. injection H as <-. reflexivity. }
  destruct (app_length_nil _ _ _ Ex) as [-> Ex'].
  { apply Forall3_length in Fu. destruct Fu as [Fu _]. rewrite Fu, Li, map_length. auto. }
  rewrite <- Ex' in Fu. clear us Ex Ex'.
  assert (P1 : all_panels airplanes1 =
    map (fun awpg => p_set_horseshoe (Some (hs_update_strength (snd awpg)
              (hr_vortex (hs_row_of (freestream_direction op) (fst awpg))))) (snd (fst awpg)))
        (combine (flat_panels (hso_airplanes s)) xs)).
  { rewrite Li in Fu. unfold rows, hs_rows_of in Fu. rewrite map_map in Fu.
    revert Lf Fu. generalize (flat_panels (hso_airplanes s)) xs (all_panels airplanes1). clear.
    intros l; induction l as [|[[a w] p] l IH]; intros [|x xs] qs; cbn; try discriminate; intros L F.
    - inversion F; reflexivity.
    - inversion F as [|? ? q ? ? qs' H F']; subst. unfold hs_set_strength in H. cbn in H. injection H as <-.
      f_equal. apply IH; auto. }
  (* loads *)
  rewrite hs_moments_explicit, hs_forces_explicit in Ep by exact L. fold vel in Ep.
  apply process_forces_sound in Ep. destruct Ep as (us & rest & Ec & Fp).
  assert (P2 : all_panels (hso_airplanes s') = map2 (loaded op) (all_panels airplanes1) (concat us) /\
               length (concat us) = length (all_panels airplanes1)).
  { clear -Fp. revert Fp. generalize (hso_airplanes s'). intros l' Fp.
    induction Fp as [|a u a' l us l' H _ [IH1 IH2]]; cbn; [auto|]. unfold all_panels in *; cbn.
    destruct H as (_ & Hp & Lu & _). rewrite Hp, IH1, !app_length, IH2, Lu. split; [|reflexivity].
    symmetry. apply map2_app. auto. }
  destruct P2 as [P2 L2]. rewrite P2.
  assert (Lc : length (combine rows xs) = length (combine (flat_panels (hso_airplanes s)) xs)).
  { rewrite !combine_length. lia. }
  rewrite combine_map in Ec.
  destruct (app_length_nil _ _ _ Ec) as [-> Ec'].
  { rewrite L2, P1, !map_length. auto. }
  rewrite <- Ec', P1. unfold rows, hs_rows_of. rewrite combine_map_l, map_map, map2_map_map.
  apply map_ext. intros [[[a w] p] g]. reflexivity.
Qed.

(** Panels with the airplane they belong to. *)
Lemma flat_final airplanes airplanes' {B} (f : (airplane * wing * panel) * B -> panel) (xs : list B) a' p' :
  Forall2 same_airplane airplanes airplanes' ->
  all_panels airplanes' = map f (combine (flat_panels airplanes) xs) ->
  In a' airplanes' -> In p' (airplane_panels a') ->
  exists a w p g, In (a, w, p, g) (combine (flat_panels airplanes) xs) /\ same_airplane a a' /\
                  In a airplanes /\ p' = f (a, w, p, g).
Proof.
  intros F E Ha Hp. apply in_airplane_panels in Hp. destruct Hp as (w' & Hw & Hp).
  assert (Hin : In (a', w', p') (flat_panels airplanes')) by (apply in_flat; auto).
  apply In_nth_error in Hin. destruct Hin as [i Hi].
  destruct (Forall2_nth _ _ _ (same_flat _ _ F) i _ Hi) as ([[a w] p] & Hi0 & Hs & _).
  cbn [fst snd] in Hs.
  assert (Hi' : nth_error (all_panels airplanes') i = Some p').
  { rewrite <- flat_panels_snd, nth_error_map, Hi. reflexivity. }
  rewrite E, nth_error_map, nth_error_combine, Hi0 in Hi'.
  destruct (nth_error xs i) as [g|] eqn:Eg; [|discriminate]. cbn in Hi'. injection Hi' as <-.
  exists a, w, p, g. split; [|split; [exact Hs | split; [|reflexivity]]].
  - eapply nth_error_In with (n := i). rewrite nth_error_combine, Hi0, Eg. reflexivity.
  - apply nth_error_In in Hi0. apply in_flat in Hi0. tauto.
Qed.

Lemma hs_velocity_at_spec s x : length (hso_strengths s) = length (hso_rows s) ->
  hs_solution_velocity s [x] = [hs_velocity_at (hso_rows s) (hso_strengths s) (hso_freestream s) x].
Proof. intros L. unfold hs_solution_velocity. rewrite hs_velocity_explicit by exact L. reflexivity. Qed.

Lemma leg_force_perp rho g v l :
  vdot (leg_force rho g v l) v = 0 /\ vdot (leg_force rho g v l) l = 0.
Proof. unfold leg_force. split; vring. Qed.
Lemma leg_force_zero rho v l : leg_force rho 0 v l = vzero.
Proof. unfold leg_force. vring. Qed.

Lemma horseshoe_kutta_joukowski solve s s' : SolveSpec solve -> hs_run solve s = Ok s' ->
  forall a p, In a (hso_airplanes s') -> In p (airplane_panels a) ->
  exists h v f,
    p_horseshoe_vortex p = Some h /\ horseshoe_consistent h /\
    hs_finite_leg_origin h = p_front_right_vortex_vertex p /\
    hs_finite_leg_termination h = p_front_left_vortex_vertex p /\
    hs_solution_velocity s' [lv_center (hs_finite_leg h)] = [v] /\
    f = vscale (op_density (hso_op s') * hs_strength h) (vcross v (lv_vector (hs_finite_leg h))) /\
    p_force_geometry p = Some f /\
    p_moment_geometry p = Some (vcross (vsub (lv_center (hs_finite_leg h)) (a_xyz_ref a)) f) /\
    vdot f v = 0 /\ vdot f (lv_vector (hs_finite_leg h)) = 0.
Proof.
  intros HS E a p Ha Hp. destruct (hs_solution_length _ _ _ HS E) as [L _].
  pose proof (hs_run_same _ _ _ E) as Fs.
  pose proof (hs_final_panels _ _ _ HS E) as Ef.
  destruct (flat_final _ _ _ _ _ _ Fs Ef Ha Hp) as (a0 & w & p0 & g & Hin & Hs & _ & ->).
  apply hs_run_inv in E. destruct E as (-> & _).
  set (h := hs_update_strength g (hs_vortex_of (freestream_direction (hso_op s)) w p0)).
  set (v := hs_velocity_at (hso_rows s') (hso_strengths s') (hso_freestream s') (lv_center (hs_finite_leg h))).
  exists h, v, (leg_force (op_density (hso_op s)) g v (lv_vector (hs_finite_leg h))).
  split; [reflexivity|].
  split; [apply hs_update_consistent, new_horseshoe_consistent|].
  split; [reflexivity|]. split; [reflexivity|].
  split; [apply hs_velocity_at_spec; exact L|].
  split; [reflexivity|]. split; [reflexivity|].
  split; [cbn; unfold hs_row_moment; cbn; destruct Hs as (_ & _ & -> & _); reflexivity|].
  apply leg_force_perp.
Qed.

(** ** Running twice *)
Lemma same_wing_span w v : same_wing w v -> w_span v = w_span w.
Proof. intros [-> _]. reflexivity. Qed.
Lemma same_panel_vertices p q : same_panel p q ->
  p_front_right_vortex_vertex q = p_front_right_vortex_vertex p /\
  p_front_left_vortex_vertex q = p_front_left_vortex_vertex p.
Proof.
  intros (H1 & H2 & H3 & H4 & _).
  unfold p_front_right_vortex_vertex, p_front_left_vortex_vertex, p_right_leg, p_left_leg.
  rewrite H1, H2, H3, H4; auto.
Qed.
Definition same_row (r r' : hs_row) : Prop :=
  hr_vortex r' = hr_vortex r /\ hr_ref r' = hr_ref r /\ same_panel (hr_panel r) (hr_panel r').
Lemma hs_rows_same op l m : Forall2 same_airplane l m -> Forall2 same_row (hs_rows_of op l) (hs_rows_of op m).
Proof.
  intros F. apply same_flat in F. unfold hs_rows_of. apply Forall2_map_r.
  induction F as [|[[a w] p] [[b v] q] l' m' (Ha & Hw & Hp) _ IH]; cbn [map]; constructor; auto.
  cbn [fst snd] in *. unfold same_row, hs_row_of; cbn. unfold hs_vortex_of.
  rewrite (same_wing_span _ _ Hw). destruct (same_panel_vertices _ _ Hp) as [-> ->].
  split; [reflexivity|]. split; [apply Ha|]. unfold same_panel in *; cbn; intuition congruence.
Qed.
Lemma same_rows_maps l m : Forall2 same_row l m ->
  map hr_collocation m = map hr_collocation l /\ map hr_normal m = map hr_normal l /\
  map hr_vortex m = map hr_vortex l /\ map hr_ref m = map hr_ref l /\
  seeds_of (map hr_panel m) = seeds_of (map hr_panel l).
Proof.
  intros F; induction F as [|r r' l m (H1 & H2 & H3) _ (I1 & I2 & I3 & I4 & I5)]; cbn; [auto 6|].
  destruct (same_panel_collocation _ _ H3) as [Hc Hn].
  unfold hr_collocation at 1 3, hr_normal at 1 3. rewrite H1, H2, Hc, Hn, I1, I2, I3, I4.
  repeat (split; [reflexivity|]). unfold seeds_of in *; cbn.
  destruct H3 as (_ & _ & Hbl & Hbr & _ & -> & _).
  destruct (p_is_trailing_edge (hr_panel r)); cbn; [rewrite Hbl, Hbr|]; congruence.
Qed.
Lemma same_rows_influences l m : Forall2 same_row l m -> hs_influences m = hs_influences l.
Proof.
  intros F. destruct (same_rows_maps _ _ F) as (H1 & H2 & H3 & _).
  unfold hs_influences. rewrite H1, H2.
  assert (X : forall f, map (fun r => f (hr_vortex r)) m = map (fun r => f (hr_vortex r)) l :> list vec).
  { intros f. rewrite <- (map_map hr_vortex f), H3, map_map. reflexivity. }
  unfold hr_back_right, hr_front_right, hr_front_left, hr_back_left.
  rewrite (X (fun h => lv_origin (hs_right_leg h))), (X (fun h => lv_termination (hs_right_leg h))),
    (X (fun h => lv_origin (hs_left_leg h))), (X (fun h => lv_termination (hs_left_leg h))).
  do 2 f_equal. rewrite <- !(map_map hr_vortex (fun _ => 1)), H3. reflexivity.
Qed.
Lemma same_rows_velocity l m xs v x : Forall2 same_row l m -> hs_velocity_at m xs v x = hs_velocity_at l xs v x.
Proof.
  intros F. unfold hs_velocity_at. f_equal. f_equal. revert xs.
  induction F as [|r r' l m (H & _) _ IH]; intros [|g xs]; cbn; auto. f_equal; [|apply IH].
  unfold hs_row_velocity, hr_back_right, hr_front_right, hr_front_left, hr_back_left. rewrite H; reflexivity.
Qed.

Lemma totals_eq op l us l1 m us' l1' :
  Forall3 (totalled op) l us l1 -> Forall3 (totalled op) m us' l1' ->
  Forall2 same_airplane l1 m -> us = us' -> all_panels l1 = all_panels l1' -> l1 = l1'.
Proof.
  intros F; revert m us' l1'. induction F as [|a u a1 l us l1 H _ IH]; intros m us' l1' F' S Eu Ep.
  - inversion S; subst. inversion F'; reflexivity.
  - inversion S as [|? b ? m' Sb Sm]; subst. inversion F' as [|? ? b1 ? ? l1'' H' F'']; subst.
    assert (S1 : same_airplane a1 b1) by (eapply same_airplane_trans; [exact Sb | apply H']).
    assert (L1 : length (airplane_panels a1) = length (airplane_panels b1)).
    { eapply Forall2_length, same_airplane_panels; exact S1. }
    unfold all_panels in Ep; cbn in Ep.
    assert (X : airplane_panels a1 = airplane_panels b1 /\ all_panels l1 = all_panels l1'').
    { fold (all_panels l1) in Ep. fold (all_panels l1'') in Ep. revert L1 Ep.
      generalize (airplane_panels a1) (airplane_panels b1). intros x; induction x as [|c x IHx]; intros [|d y]; cbn; try discriminate; intros L E; [auto|].
      injection E as -> E. destruct (IHx y) as [-> ?]; auto. }
    destruct X as [X1 X2]. f_equal.
    + apply same_airplane_eq; auto.
      * destruct H as (_ & _ & _ & -> & _), H' as (_ & _ & _ & -> & _); reflexivity.
      * destruct H as (_ & _ & _ & _ & -> & _), H' as (_ & _ & _ & _ & -> & _); reflexivity.
      * destruct H as (Ha & _ & _ & _ & _ & -> & _), H' as (_ & _ & _ & _ & _ & -> & _).
        do 2 f_equal. destruct Sb as (_ & _ & _ & _ & -> & _). symmetry; apply Ha.
      * destruct H as (Ha & _ & _ & _ & _ & _ & ->), H' as (_ & _ & _ & _ & _ & _ & ->).
        destruct Sb as (_ & _ & _ & _ & -> & -> & -> & _). destruct Ha as (_ & _ & _ & _ & -> & -> & -> & _).
        reflexivity.
    + eapply IH; eauto.
Qed.

Lemma chunks_eq {B} (P : airplane -> list B -> airplane -> Prop) l us l1 m us' l1' rest rest' :
  (forall a u a', P a u a' -> length u = length (airplane_panels a)) ->
  Forall3 P l us l1 -> Forall3 P m us' l1' -> Forall2 same_airplane l m ->
  concat us ++ rest = concat us' ++ rest' -> us = us'.
Proof.
  intros HP F; revert m us' l1'. induction F as [|a u a1 l us l1 H _ IH]; intros m us' l1' F' S E.
  - inversion S; subst. inversion F'; reflexivity.
  - inversion S as [|? b ? m' Sb Sm]; subst. inversion F' as [|? u' b1 ? us'' l1'' H' F'']; subst.
    assert (Lu : length u = length u').
    { rewrite (HP _ _ _ H), (HP _ _ _ H'). eapply Forall2_length, same_airplane_panels; exact Sb. }
    cbn in E. rewrite <- !app_assoc in E.
    assert (X : u = u' /\ concat us ++ rest = concat us'' ++ rest').
    { clear -Lu E. revert u' Lu E. induction u as [|c u IHx]; intros [|d y]; cbn; try discriminate; intros L E; [auto|].
      injection E as -> E. destruct (IHx y) as [-> ?]; auto. }
    destruct X as [-> X]. f_equal. eapply IH; eauto.
Qed.

Lemma hs_run_twice solve s s1 s2 : SolveSpec solve -> hs_run solve s = Ok s1 -> hs_run solve s1 = Ok s2 ->
  hso_strengths s2 = hso_strengths s1 /\ hso_airplanes s2 = hso_airplanes s1 /\
  (forall points, hs_solution_velocity s2 points = hs_solution_velocity s1 points) /\
  exists fresh, hso_seed_points s1 = hso_seed_points s ++ fresh /\ hso_seed_points s2 = hso_seed_points s1 ++ fresh.
Proof.
  intros HS E1 E2.
  pose proof (hs_solution_length _ _ _ HS E1) as [L1 _]. pose proof (hs_solution_length _ _ _ HS E2) as [L2 _].
  pose proof (hs_final_panels _ _ _ HS E1) as P1. pose proof (hs_final_panels _ _ _ HS E2) as P2.
  pose proof (hs_run_same _ _ _ E1) as S1. pose proof (hs_run_same _ _ _ E2) as S2.
  apply hs_run_inv in E1. destruct E1 as (O1 & V1 & R1 & X1 & D1 & _ & a1 & U1 & T1).
  apply hs_run_inv in E2. destruct E2 as (O2 & V2 & R2 & X2 & D2 & _ & a2 & U2 & T2).
  rewrite O1, V1 in *.
  pose proof (hs_rows_same (hso_op s) _ _ S1) as SR.
  destruct (same_rows_maps _ _ SR) as (Hc & Hn & Hv & Hr & Hsd).
  rewrite (same_rows_influences _ _ SR), Hn in X2. rewrite X1 in X2. injection X2 as X2.
  assert (HV : forall x, hs_velocity_at (hso_rows s2) (hso_strengths s2) (hso_freestream s2) x =
                         hs_velocity_at (hso_rows s1) (hso_strengths s1) (hso_freestream s) x).
  { intros x. rewrite <- X2, V2, R1, R2. apply same_rows_velocity; exact SR. }
  assert (HP : all_panels (hso_airplanes s1) = all_panels (hso_airplanes s2)).
  { rewrite P1, P2, <- X2. pose proof (same_flat _ _ S1) as F.
    assert (FP : map snd (flat_panels (hso_airplanes s1)) =
                 map (hs_final (hso_op s) (op_density (hso_op s))
                         (hs_velocity_at (hso_rows s1) (hso_strengths s1) (hso_freestream s)))
                     (combine (flat_panels (hso_airplanes s)) (hso_strengths s1))).
    { rewrite flat_panels_snd. exact P1. }
    assert (LL : length (hso_strengths s1) = length (flat_panels (hso_airplanes s))).
    { rewrite L1, R1. apply map_length. }
    assert (HV' : forall x, hs_velocity_at (hso_rows s2) (hso_strengths s1) (hso_freestream s2) x =
                         hs_velocity_at (hso_rows s1) (hso_strengths s1) (hso_freestream s) x).
    { intros x. rewrite X2 at 1. apply HV. }
    set (vel1 := hs_velocity_at (hso_rows s1) (hso_strengths s1) (hso_freestream s)) in *.
    set (vel2 := hs_velocity_at (hso_rows s2) (hso_strengths s1) (hso_freestream s2)) in *.
    clearbody vel1 vel2. revert F FP LL. clear -HV'.
    generalize (flat_panels (hso_airplanes s)) (flat_panels (hso_airplanes s1)) (hso_strengths s1).
    intros l m xs F. revert xs.
    induction F as [|[[a w] p] [[b v] q] l m (Ha & Hw & Hp) _ IH]; intros [|g xs]; cbn [combine map]; intros E L; try discriminate; [reflexivity|].
    injection E as Eq Em. f_equal; [|apply IH; [exact Em | injection L; auto]].
    cbn [fst snd] in *.
    unfold hs_final, hs_row_moment, hs_row_force, hs_row_of, hr_bound_center, hr_bound_vector, hs_vortex_of.
    cbn [hr_vortex hr_ref hr_panel]. rewrite !HV', (same_wing_span _ _ Hw).
    destruct (same_panel_vertices _ _ Hp) as [-> ->].
    destruct Ha as (_ & _ & -> & _). rewrite Eq. reflexivity. }
  assert (HA : hso_airplanes s1 = hso_airplanes s2).
  { assert (L1' := L1). assert (L2' := L2). rewrite R1 in L1'. rewrite R2 in L2'.
    rewrite hs_moments_explicit, hs_forces_explicit in T1 by exact L1'.
    rewrite hs_moments_explicit, hs_forces_explicit in T2 by exact L2'.
    apply process_forces_sound in T1. destruct T1 as (us1 & r1 & C1 & F1).
    apply process_forces_sound in T2. destruct T2 as (us2 & r2 & C2 & F2).
    assert (Sa : Forall2 same_airplane (hso_airplanes s1) a2).
    { apply update_panels_sound in U2. destruct U2 as (us & rest & _ & Fu).
      apply airplanes_updated_same in Fu; [|apply hs_set_strength_same].
      eapply same_airplanes_trans; [apply hs_init_same | exact Fu]. }
    assert (Sb : Forall2 same_airplane a1 (hso_airplanes s1)).
    { revert F1; apply Forall3_13; intros a u a' H; apply H. }
    eapply totals_eq; [exact F1 | exact F2 | exact Sa | | exact HP].
    eapply chunks_eq with (rest := r1) (rest' := r2); [|exact F1 | exact F2 | |].
    - intros a u a' H; apply H.
    - eapply same_airplanes_trans; eauto.
    - rewrite <- C1, <- C2, <- X2. rewrite !combine_map.
      assert (HV' : forall x, hs_velocity_at (hs_rows_of (hso_op s) (hso_airplanes s1)) (hso_strengths s1) (hso_freestream s) x =
                              hs_velocity_at (hs_rows_of (hso_op s) (hso_airplanes s)) (hso_strengths s1) (hso_freestream s) x).
      { intros x. apply same_rows_velocity; exact SR. }
      set (vel1 := hs_velocity_at (hs_rows_of (hso_op s) (hso_airplanes s)) (hso_strengths s1) (hso_freestream s)) in *.
      set (vel2 := hs_velocity_at (hs_rows_of (hso_op s) (hso_airplanes s1)) (hso_strengths s1) (hso_freestream s)) in *.
      clearbody vel1 vel2. revert SR. clear -HV'. generalize (hso_strengths s1).
      generalize (hs_rows_of (hso_op s) (hso_airplanes s)) (hs_rows_of (hso_op s) (hso_airplanes s1)).
      intros l m xs F; revert xs; induction F as [|r r' l m (H1 & H2 & H3) _ IH]; intros [|g xs]; cbn [combine map]; auto.
      f_equal; [|apply IH]. cbn [fst snd].
      unfold hs_row_moment, hs_row_force, hr_bound_center, hr_bound_vector. rewrite H1, H2, !HV'. reflexivity. }
  split; [auto|]. split; [auto|]. split.
  - intros points. unfold hs_solution_velocity. rewrite !hs_velocity_explicit by assumption.
    apply map_ext. intros x. pose proof (HV x) as Hx. rewrite <- V1 in Hx. exact Hx.
  - exists (seeds_of (map hr_panel (hs_rows_of (hso_op s) (hso_airplanes s)))).
    split; [exact D1|]. rewrite D2, Hsd. reflexivity.
Qed.

(** The run succeeds exactly when the linear solve does. *)
Lemma hs_system_square rows : square (hs_influences rows).
Proof. rewrite hs_influences_explicit. apply square_map_map. Qed.
Lemma hs_system_length rows v :
  length (map Ropp (freestream_influences (map hr_normal rows) v)) = length (hs_influences rows).
Proof. rewrite hs_influences_explicit. unfold freestream_influences. rewrite !map_length. reflexivity. Qed.
Lemma hs_run_total solve s xs : SolveSpec solve ->
  let rows := hs_rows_of (hso_op s) (hso_airplanes s) in
  solve (hs_influences rows) (map Ropp (freestream_influences (map hr_normal rows) (hso_freestream s))) = Ok xs ->
  exists s', hs_run solve s = Ok s' /\ hso_strengths s' = xs.
Proof.
  intros HS rows E. unfold hs_run. rewrite hs_collapse_init. cbn [bind]. fold (hs_rows_of (hso_op s) (hso_airplanes s)).
  fold rows. rewrite E. cbn [bind].
  pose proof E as E'. apply HS in E'; [|apply hs_system_square | apply hs_system_length].
  destruct E' as [[L _] _]. rewrite hs_influences_explicit, map_length in L.
  assert (Lr : length rows = length (all_panels (hso_airplanes s)))
    by (unfold rows, hs_rows_of; rewrite map_length, flat_panels_length; reflexivity).
  assert (Li : length (all_panels (hs_init (hso_op s) (hso_airplanes s))) = length (all_panels (hso_airplanes s))).
  { symmetry. eapply Forall2_length, same_all_panels, hs_init_same. }
  destruct (update_panels_complete hs_set_strength (hs_init (hso_op s) (hso_airplanes s)) xs) as [airplanes1 E1].
  - intros a w row p b Ha Hw Hrow Hp. unfold hs_init in Ha. apply in_map_iff in Ha. destruct Ha as (a0 & <- & _).
    cbn [hs_init_airplane a_set_wings a_wings] in Hw. apply in_map_iff in Hw. destruct Hw as (w0 & <- & _).
    cbn [hs_init_wing w_set_panels w_panels] in Hrow. apply in_map_iff in Hrow. destruct Hrow as (row0 & <- & _).
    apply in_map_iff in Hp. destruct Hp as (p0 & <- & _). cbn. eauto.
  - lia.
  - rewrite E1. cbn [bind].
    assert (L1 : length (all_panels airplanes1) = length (all_panels (hso_airplanes s))).
    { rewrite <- Li. symmetry. eapply Forall2_length, same_all_panels.
      apply update_panels_sound in E1. destruct E1 as (us & rest & _ & F).
      apply airplanes_updated_same in F; [exact F | apply hs_set_strength_same]. }
    destruct (proj2 (process_forces_complete (hso_op s)
      (hs_forces (op_density (hso_op s)) rows xs (hso_freestream s))
      (hs_moments rows (hs_forces (op_density (hso_op s)) rows xs (hso_freestream s))) airplanes1)) as [airplanes2 E2].
    + rewrite hs_moments_explicit, hs_forces_explicit by lia. rewrite !map_length, combine_length. lia.
    + rewrite E2. cbn [bind]. eexists; split; [reflexivity|]. reflexivity.
Qed.
Lemma hs_run_succeeds_iff solve s : SolveSpec solve ->
  let rows := hs_rows_of (hso_op s) (hso_airplanes s) in
  ((exists s', hs_run solve s = Ok s') <->
   exists xs, solve (hs_influences rows) (map Ropp (freestream_influences (map hr_normal rows) (hso_freestream s))) = Ok xs).
Proof.
  intros HS rows. split.
  - intros [s' E]. apply hs_run_inv in E. destruct E as (_ & _ & _ & E & _). eauto.
  - intros [xs E]. destruct (hs_run_total _ _ _ HS E) as (s' & E' & _). eauto.
Qed.
