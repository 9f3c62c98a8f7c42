(** Changing the speed and the density at fixed angles. *)
From Coq Require Import Lra Lia.
From Verif Require Import M_Loads M_Horseshoe M_SteadyRing S_Geometry S_Vortices S_Solve S_Loads
  L_Base L_Rotations L_Aero L_Loads L_Horseshoe L_SteadyRing.

(** ** The linear system *)
Lemma matvec_scale a k x : matvec a (map (Rmult k) x) = map (Rmult k) (matvec a x).
Proof.
  unfold matvec. rewrite map_map. apply map_ext. intros row. revert x; induction row as [|c row IH]; intros [|y x]; cbn [map map2];
    rewrite ?rsum_cons, ?rsum_nil; try ring. rewrite IH. ring.
Qed.
Lemma matvec_add a x y : length x = length y ->
  matvec a (map2 Rplus x y) = map2 Rplus (matvec a x) (matvec a y).
Proof.
  intros L. unfold matvec. rewrite map2_map_map. apply map_ext. intros row. revert x y L; induction row as [|c row IH]; intros [|u x] [|v y]; cbn [length map map2]; try discriminate;
    rewrite ?rsum_cons, ?rsum_nil; intros L; try ring. rewrite IH by lia. ring.
Qed.
Lemma solve_scale solve a b x k : SolveSpec solve -> square a -> length b = length a ->
  solve a b = Ok x -> solve a (map (Rmult k) b) = Ok (map (Rmult k) x).
Proof.
  intros HS Sq Lb E. apply (HS a b Sq Lb) in E. destruct E as [[Lx Ex] U].
  apply (HS a _ Sq); [rewrite map_length; exact Lb|]. split; [split|].
  - rewrite map_length; exact Lx.
  - rewrite matvec_scale, Ex. reflexivity.
  - intros y [Ly Ey].
    pose (z := map2 Rplus x (map2 Rplus y (map (Rmult (- k)) x))).
    assert (Lz : length (map2 Rplus y (map (Rmult (- k)) x)) = length a) by (rewrite map2_length, map_length, Ly, Lx; lia).
    assert (Hz : z = x).
    { apply U. split; unfold z.
      - rewrite map2_length, Lz, Lx. lia.
      - rewrite matvec_add by lia. rewrite matvec_add by (rewrite map_length; lia). rewrite matvec_scale, Ey, Ex.
        clear. induction b as [|c b IH]; cbn; [reflexivity|]. rewrite IH. f_equal. ring. }
    unfold z in Hz. clear -Hz Ly Lx. assert (L : length y = length x) by lia. clear Ly Lx. revert y Hz L.
    induction x as [|c x IH]; intros [|d y] Hz L; cbn in *; try discriminate; [reflexivity|].
    injection Hz as H1 H2. f_equal; [lra | apply IH; [exact H2 | lia]].
Qed.

(** ** Loads *)
Definition scale2 (c : R) (fm : vec * vec) : vec * vec := (vscale c (fst fm), vscale c (snd fm)).
Lemma combine_scale2 c fs ms : combine (map (vscale c) fs) (map (vscale c) ms) = map (scale2 c) (combine fs ms).
Proof. revert ms; induction fs as [|f fs IH]; intros [|m ms]; cbn; [reflexivity..|]. rewrite IH. reflexivity. Qed.
Lemma vsum_scale c l : vsum (map (vscale c) l) = vscale c (vsum l).
Proof. rewrite <- (map_id l) at 2. rewrite <- vsum_map_scale. reflexivity. Qed.
Lemma loaded_scaled op op' c p p' fm : rotation_wind_to_geometry op' = rotation_wind_to_geometry op ->
  dynamic_pressure op' = c * dynamic_pressure op -> c <> 0 -> dynamic_pressure op <> 0 -> same_panel p p' ->
  scaled_panel c (loaded op p fm) (loaded op' p' (scale2 c fm)).
Proof.
  intros Er Eq Hc Hq Hp. unfold scaled_panel.
  split. { unfold same_panel in *. cbn. exact Hp. }
  unfold loaded, p_set_loads, scale2; cbn [fst snd p_force_geometry p_moment_geometry p_force_wind p_moment_wind p_induced_drag_coefficient p_side_force_coefficient p_lift_coefficient option_map].
  rewrite Er, Eq, !mvmul_scale.
  assert (Ea : p_area p' = p_area p).
  { unfold p_area, p_cross, p_first_diagonal, p_second_diagonal. destruct Hp as (-> & -> & -> & -> & _). reflexivity. }
  rewrite Ea. unfold Rdiv. rewrite Rinv_mult. generalize (/ p_area p). intros A.
  repeat split; f_equal; cbn [vscale vx vy vz]; field; auto.
Qed.
Lemma same_panel_sym p q : same_panel p q -> same_panel q p.
Proof. unfold same_panel. intuition congruence. Qed.
Lemma same_wing_sym w v : same_wing w v -> same_wing v w.
Proof.
  intros [E F]. split.
  - rewrite E. destruct w; reflexivity.
  - clear E. induction F as [|r1 r2 l m H _ IH]; constructor; auto. induction H; constructor; auto using same_panel_sym.
Qed.
Lemma same_airplane_sym a b : same_airplane a b -> same_airplane b a.
Proof.
  intros (F & H). split; [|intuition congruence]. clear H. induction F; constructor; auto using same_wing_sym.
Qed.
Lemma process_scaled op op' c fs ms l l' m m' : rotation_wind_to_geometry op' = rotation_wind_to_geometry op ->
  dynamic_pressure op' = c * dynamic_pressure op -> c <> 0 -> dynamic_pressure op <> 0 ->
  Forall2 same_airplane l l' ->
  process_forces op fs ms l = Ok m -> process_forces op' (map (vscale c) fs) (map (vscale c) ms) l' = Ok m' ->
  Forall2 (scaled_airplane c) m m'.
Proof.
  intros Er Eq Hc Hq S E E'. apply process_forces_sound in E, E'.
  destruct E as (us & rest & C & F), E' as (us' & rest' & C' & F').
  rewrite combine_scale2, C in C'. revert l' us' m' S F' C'. clear C.
  induction F as [|a u a1 l us l1 H _ IH]; intros l' us' m' S F' C'.
  - inversion S; subst. inversion F'; subst. constructor.
  - inversion S as [|? b ? l2 Sb Sl]; subst. inversion F' as [|? u' b1 ? us'' l1'' H' F'']; subst.
    cbn [concat] in C'. rewrite map_app, <- app_assoc in C'. rewrite map_app in C'.
    assert (Lp : length (airplane_panels a) = length (airplane_panels b)) by (eapply Forall2_length, same_airplane_panels; exact Sb).
    assert (Hlen : length u = length u').
    { destruct H as (_ & _ & -> & _), H' as (_ & _ & -> & _). exact Lp. }
    rewrite <- !app_assoc in C'.
    assert (X : u' = map (scale2 c) u /\ map (scale2 c) (concat us ++ rest) = concat us'' ++ rest').
    { rewrite map_app. clear -Hlen C'. revert u' Hlen C'. induction u as [|x u IHx]; intros [|d y]; cbn; try discriminate; intros L E; [auto|].
      injection E as E0 E. destruct (IHx y) as [-> ?]; [lia | exact E|]. rewrite E0. auto. }
    destruct X as [-> X]. constructor; [|eapply IH; eauto].
    destruct H as (H1 & H2 & H3 & H4 & H5 & H6 & H7), H' as (G1 & G2 & G3 & G4 & G5 & G6 & G7).
    split. { eapply same_airplane_trans; [apply same_airplane_sym; exact H1 | eapply same_airplane_trans; eassumption]. }
    split.
    { rewrite H2, G2. apply same_airplane_panels in Sb. clear -Er Eq Hc Hq Sb H3. revert u H3.
      induction Sb as [|p q ps qs Hp _ IH]; intros [|x u] L; cbn in *; try discriminate; constructor.
      - apply loaded_scaled; assumption.
      - apply IH; lia. }
    rewrite map_map in G4, G5, G6, G7.
    assert (K1 : forall w : list (vec * vec), map (fun x => fst (scale2 c x)) w = map (vscale c) (map fst w)) by (intros w; rewrite map_map; reflexivity).
    assert (K2 : forall w : list (vec * vec), map (fun x => snd (scale2 c x)) w = map (vscale c) (map snd w)) by (intros w; rewrite map_map; reflexivity).
    rewrite K1, vsum_scale, Er, mvmul_scale in G4, G6. rewrite K2, vsum_scale, Er, mvmul_scale in G5, G7.
    rewrite H4, H5, H6, H7, G4, G5, G6, G7, Eq.
    assert (Es : a_s_ref b = a_s_ref a /\ a_b_ref b = a_b_ref a /\ a_c_ref b = a_c_ref a) by (clear -Sb; unfold same_airplane in Sb; intuition).
    destruct Es as (-> & -> & ->).
    split; [reflexivity|]. split; [reflexivity|].
    unfold force_coefficients, moment_coefficients, Rdiv. rewrite Rinv_mult.
    generalize (/ a_s_ref a) (/ a_b_ref a) (/ a_c_ref a). intros Z1 Z2 Z3.
    split; f_equal; cbn [vscale vx vy vz]; apply vec_ext; cbn [vx vy vz]; field; auto.
Qed.

(** ** Operating points at the same angles *)
Definition same_angles (op op' : operating_point) : Prop := op_alpha op' = op_alpha op /\ op_beta op' = op_beta op.
Lemma same_angles_rotation op op' : same_angles op op' -> rotation_wind_to_geometry op' = rotation_wind_to_geometry op.
Proof. intros [Ha Hb]. unfold rotation_wind_to_geometry. rewrite Ha, Hb. reflexivity. Qed.
Lemma same_angles_direction op op' : same_angles op op' -> freestream_direction op' = freestream_direction op.
Proof. intros H. unfold freestream_direction. rewrite (same_angles_rotation _ _ H). reflexivity. Qed.
Lemma same_angles_velocity op op' k : same_angles op op' -> op_velocity op' = k * op_velocity op ->
  freestream_velocity op' = vscale k (freestream_velocity op).
Proof. intros H E. unfold freestream_velocity. rewrite (same_angles_direction _ _ H), E, vscale_scale. reflexivity. Qed.
Lemma rhs_scale (ns : list vec) v k :
  map Ropp (freestream_influences ns (vscale k v)) = map (Rmult k) (map Ropp (freestream_influences ns v)).
Proof. unfold freestream_influences. rewrite !map_map. apply map_ext. intros n. rewrite vdot_scale_r. ring. Qed.

(** ** Horseshoe solver *)
Lemma hs_velocity_at_scale rows xs v k x : length xs = length rows ->
  hs_velocity_at rows (map (Rmult k) xs) (vscale k v) x = vscale k (hs_velocity_at rows xs v x).
Proof.
  intros L. unfold hs_velocity_at. rewrite vscale_add. f_equal. clear L. revert xs; induction rows as [|r rows IH]; intros [|g xs]; cbn [map combine]; rewrite ?vsum_nil, ?vsum_cons; try (clear; vring).
  cbn [fst snd]. rewrite IH, vscale_add. f_equal. rewrite hs_row_velocity_linear, (hs_row_velocity_linear x r g), vscale_scale. reflexivity.
Qed.
Lemma hs_row_force_scale rho vel vel' r k g row : (forall x, vel' x = vscale k (vel x)) ->
  hs_row_force (r * rho) vel' row (k * g) = vscale (r * (k * k)) (hs_row_force rho vel row g).
Proof. intros H. unfold hs_row_force, leg_force. rewrite H, vcross_scale_l, !vscale_scale. f_equal. ring. Qed.
Lemma hs_scaled solve airplanes op op' k r s : SolveSpec solve -> same_angles op op' ->
  op_velocity op' = k * op_velocity op -> op_density op' = r * op_density op ->
  op_velocity op <> 0 -> op_density op <> 0 -> k <> 0 -> r <> 0 ->
  hs_run solve (hs_new airplanes op) = Ok s ->
  exists s', hs_run solve (hs_new airplanes op') = Ok s' /\
    hso_strengths s' = map (Rmult k) (hso_strengths s) /\
    (forall x v, hs_solution_velocity s [x] = [v] -> hs_solution_velocity s' [x] = [vscale k v]) /\
    Forall2 (scaled_airplane (r * (k * k))) (hso_airplanes s) (hso_airplanes s').
Proof.
  intros HS Ha Ev Er Hv Hd Hk Hr E. pose proof (hs_solution_length _ _ _ HS E) as [L _].
  apply hs_run_inv in E. cbn [hs_new hso_op hso_airplanes hso_freestream hso_seed_points] in E.
  destruct E as (O1 & V1 & R1 & X1 & _ & _ & a1 & U1 & T1).
  assert (Rows : hs_rows_of op' airplanes = hs_rows_of op airplanes).
  { unfold hs_rows_of. rewrite (same_angles_direction _ _ Ha). reflexivity. }
  destruct (hs_run_total solve (hs_new airplanes op') (map (Rmult k) (hso_strengths s)) HS) as (s' & E' & Es').
  { cbn [hs_new hso_op hso_airplanes hso_freestream]. rewrite Rows, (same_angles_velocity _ _ _ Ha Ev), rhs_scale.
    apply solve_scale; auto using hs_system_square, hs_system_length. }
  exists s'. split; [exact E'|]. split; [exact Es'|].
  apply hs_run_inv in E'. cbn [hs_new hso_op hso_airplanes hso_freestream hso_seed_points] in E'.
  destruct E' as (O2 & V2 & R2 & _ & _ & _ & a2 & U2 & T2).
  rewrite Rows in *. rewrite (same_angles_velocity _ _ _ Ha Ev) in V2, T2. rewrite Es' in T2, U2.
  rewrite R1 in L. set (rows := hs_rows_of op airplanes) in *. set (v := freestream_velocity op) in *. set (xs := hso_strengths s) in *.
  assert (L' : length (map (Rmult k) xs) = length rows) by (rewrite map_length; exact L).
  assert (Hvel : forall x, hs_velocity_at rows (map (Rmult k) xs) (vscale k v) x = vscale k (hs_velocity_at rows xs v x)) by (intros x; apply hs_velocity_at_scale, L).
  split.
  { intros x u. unfold hs_solution_velocity. rewrite R1, R2, V1, V2, Es'. rewrite !hs_velocity_explicit by assumption. cbn [map].
    intros X. injection X as <-. f_equal. apply Hvel. }
  rewrite hs_moments_explicit, hs_forces_explicit in T1 by exact L. rewrite hs_moments_explicit, hs_forces_explicit in T2 by exact L'.
  eapply process_scaled; [apply same_angles_rotation; exact Ha | | | | | exact T1 |].
  - unfold dynamic_pressure. rewrite Ev, Er. ring.
  - repeat apply Rmult_integral_contrapositive_currified; assumption.
  - unfold dynamic_pressure. repeat apply Rmult_integral_contrapositive_currified; try lra; try assumption; apply pow_nonzero; assumption.
  - apply update_panels_sound in U1, U2. destruct U1 as (? & ? & _ & F1), U2 as (? & ? & _ & F2).
    apply airplanes_updated_same in F1; [|apply hs_set_strength_same]. apply airplanes_updated_same in F2; [|apply hs_set_strength_same].
    assert (Hi : hs_init op' airplanes = hs_init op airplanes) by (unfold hs_init; rewrite (same_angles_direction _ _ Ha); reflexivity).
    rewrite Hi in F2. eapply same_airplanes_trans; [|exact F2]. clear -F1. induction F1; constructor; auto using same_airplane_sym.
  - rewrite Er in T2. rewrite <- T2. f_equal; rewrite map_map; clear -Hvel L.
    + assert (G : forall l zs (vel vel' : vec -> vec), (forall x, vel' x = vscale k (vel x)) -> length zs = length l ->
        map (fun x => vscale (r * (k * k)) (hs_row_force (op_density op) vel (fst x) (snd x))) (combine l zs) =
        map (fun rg => hs_row_force (r * op_density op) vel' (fst rg) (snd rg)) (combine l (map (Rmult k) zs))).
      { clear. intros l; induction l as [|y l IH]; intros [|z zs] vel vel' Hv L; cbn in *; try discriminate; [reflexivity|].
        f_equal; [|apply IH; [exact Hv | lia]]. symmetry. apply hs_row_force_scale, Hv. }
      apply G; assumption.
    + assert (G : forall l zs (vel vel' : vec -> vec), (forall x, vel' x = vscale k (vel x)) -> length zs = length l ->
        map (fun x => vscale (r * (k * k)) (hs_row_moment (op_density op) vel (fst x) (snd x))) (combine l zs) =
        map (fun rg => hs_row_moment (r * op_density op) vel' (fst rg) (snd rg)) (combine l (map (Rmult k) zs))).
      { clear. intros l; induction l as [|y l IH]; intros [|z zs] vel vel' Hv L; cbn in *; try discriminate; [reflexivity|].
        f_equal; [|apply IH; [exact Hv | lia]]. unfold hs_row_moment. rewrite (hs_row_force_scale _ _ _ _ _ _ _ Hv), vcross_scale_r. reflexivity. }
      apply G; assumption.
Qed.

(** ** Ring solver *)
Section ConsumeRel.
  Context {A B C : Type} (h : B -> B) (RC : C -> C -> Prop) (f : A -> list B -> result (C * list B)).
  Lemma consume_rel :
    (forall x bs c rest c' rest', f x bs = Ok (c, rest) -> f x (map h bs) = Ok (c', rest') -> RC c c' /\ rest' = map h rest) ->
    forall l bs cs rest cs' rest', consume f l bs = Ok (cs, rest) -> consume f l (map h bs) = Ok (cs', rest') ->
    Forall2 RC cs cs' /\ rest' = map h rest.
  Proof.
    intros H l; induction l as [|x l IH]; cbn; intros bs cs rest cs' rest' E E'.
    - injection E as <- <-. injection E' as <- <-. split; [constructor | reflexivity].
    - inv_ok E. destruct v as [c1 r1]. cbn [fst snd] in E. inv_ok E. destruct v as [cs2 r2]. injection E as <- <-.
      inv_ok E'. destruct v as [c1' r1']. cbn [fst snd] in E'. inv_ok E'. destruct v as [cs2' r2']. injection E' as <- <-.
      destruct (H _ _ _ _ _ _ E0 E) as [H1 ->]. destruct (IH _ _ _ _ _ E1 E2) as [H2 ->]. split; [constructor; assumption | reflexivity].
  Qed.
End ConsumeRel.
Definition wing_rel (RP : panel -> panel -> Prop) (w v : wing) : Prop :=
  v = w_set_panels (w_panels v) w /\ Forall2 (Forall2 RP) (w_panels w) (w_panels v).
Definition airplane_rel (RP : panel -> panel -> Prop) (a b : airplane) : Prop :=
  b = a_set_wings (a_wings b) a /\ Forall2 (wing_rel RP) (a_wings a) (a_wings b).
Lemma update_rel {B} (g : panel -> B -> result panel) (h : B -> B) (RP : panel -> panel -> Prop) l bs m m' :
  (forall p b q q', g p b = Ok q -> g p (h b) = Ok q' -> RP q q') ->
  update_panels g l bs = Ok m -> update_panels g l (map h bs) = Ok m' -> Forall2 (airplane_rel RP) m m'.
Proof.
  intros H E E'. unfold update_panels in *. inv_ok E. destruct v as [x r]. injection E as <-. inv_ok E'. destruct v as [x' r']. injection E' as <-. cbn [fst].
  refine (proj1 (consume_rel h _ _ _ _ _ _ _ _ _ E0 E)). clear -H. intros a bs a1 r a2 r' E E'.
  unfold consume_airplane in *. inv_ok E. destruct v as [x y]. injection E as <- <-. inv_ok E'. destruct v as [x' y']. injection E' as <- <-. cbn [fst snd].
  assert (K : Forall2 (wing_rel RP) x x' /\ y' = map h y).
  { refine (consume_rel h _ _ _ _ _ _ _ _ _ E0 E). clear -H. intros w bs w1 r w2 r' E E'.
    unfold consume_wing in *. inv_ok E. destruct v as [x y]. injection E as <- <-. inv_ok E'. destruct v as [x' y']. injection E' as <- <-. cbn [fst snd].
    assert (K : Forall2 (Forall2 RP) x x' /\ y' = map h y).
    { refine (consume_rel h _ _ _ _ _ _ _ _ _ E0 E). clear -H. intros row bs row1 r row2 r' E E'.
      refine (consume_rel h _ _ _ _ _ _ _ _ _ E E'). clear -H. intros p bs q r q' r' E E'.
      destruct bs as [|b bs]; cbn in *; [discriminate|]. inv_ok E. injection E as <- <-. inv_ok E'. injection E' as <- <-.
      split; [eapply H; eassumption | reflexivity]. }
    destruct K as [K ->]. split; [|reflexivity]. split; [destruct w; reflexivity | exact K]. }
  destruct K as [K ->]. split; [|reflexivity]. split; [destruct a; reflexivity | exact K].
Qed.

Definition ring_scaled (k : R) (p q : panel) : Prop :=
  same_panel p q /\
  option_map rv_strength (p_ring_vortex q) = option_map (fun r => k * rv_strength r) (p_ring_vortex p).
Lemma ring_set_scaled k p g q q' : ring_set_strength p g = Ok q -> ring_set_strength p (k * g) = Ok q' -> ring_scaled k q q'.
Proof.
  intros E E'. split.
  - eapply same_panel_trans; [apply same_panel_sym; eapply ring_set_strength_same; exact E | eapply ring_set_strength_same; exact E'].
  - apply ring_strength_set in E, E'. destruct E as (r & Hr & ->), E' as (r' & Hr' & ->). reflexivity.
Qed.
Lemma index_rel {A B} (P : A -> B -> Prop) l m i x : Forall2 P l m -> index l i = Ok x -> exists y, index m i = Ok y /\ P x y.
Proof.
  intros F E. apply index_Some in E. destruct (Forall2_nth_l _ _ _ F _ _ E) as (y & Hy & Hp).
  exists y. split; [apply index_Some; exact Hy | exact Hp].
Qed.
Lemma ring_strength_at_rel k m m' c s x : Forall2 (Forall2 (ring_scaled k)) m m' ->
  ring_strength_at m c s = Ok x -> ring_strength_at m' c s = Ok (k * x).
Proof.
  intros F E. unfold ring_strength_at, panel_at in *. inv_ok E. inv_ok E0.
  destruct (index_rel _ _ _ _ _ F E1) as (row' & -> & Fr). cbn [bind].
  destruct (index_rel _ _ _ _ _ Fr E0) as (p' & -> & _ & Hs). cbn [bind].
  destruct (p_ring_vortex v); [|discriminate]. injection E as <-. destruct (p_ring_vortex p'); cbn in Hs; [|discriminate]. injection Hs as ->. reflexivity.
Qed.
Ltac strengths F :=
  repeat match goal with H : position_of _ = Ok _ |- _ => rewrite H; clear H; cbn [bind] end;
  match goal with H : ring_strength_at _ _ _ = Ok _ |- _ => rewrite (ring_strength_at_rel _ _ _ _ _ _ F H); cbn [bind] end.
Lemma effective_scaled k a a' w w' p p' g x y z : Forall2 (Forall2 (ring_scaled k)) (w_panels w) (w_panels w') -> ring_scaled k p p' ->
  effective_strengths ((a, w, p), g) = Ok (x, y, z) ->
  effective_strengths ((a', w', p'), k * g) = Ok (k * x, k * y, k * z).
Proof.
  intros F [Sp _] E. unfold effective_strengths in *. destruct Sp as (_ & _ & _ & _ & -> & _ & -> & -> & -> & ->).
  rewrite <- (Forall2_length _ _ _ F).
  inv_ok E. rename v into x0. inv_ok E. rename v into y0. inv_ok E. rename v into z0. injection E as <- <- <-.
  assert (X : (if truthy (p_is_right_edge p) then Ok (k * g)
      else bind (position_of (p_local_chordwise p)) (fun c => bind (position_of (p_local_spanwise p)) (fun s =>
           bind (ring_strength_at (w_panels w') c (S s)) (fun n => Ok (k * g - n))))) = Ok (k * x0)).
  { destruct (truthy (p_is_right_edge p)); [injection E0 as <-; reflexivity|]. inv_ok E0. inv_ok E0. inv_ok E0. injection E0 as <-. cbn [bind].
    strengths F. f_equal. ring. }
  rewrite X. cbn [bind].
  assert (Y : (if p_is_leading_edge p then Ok (k * g)
      else bind (position_of (p_local_chordwise p)) (fun c => bind (position_of (p_local_spanwise p)) (fun s =>
           bind (ring_strength_at (w_panels w') (py_pred c (length (w_panels w))) s) (fun n => Ok (k * g - n))))) = Ok (k * y0)).
  { destruct (p_is_leading_edge p); [injection E1 as <-; reflexivity|]. inv_ok E1. inv_ok E1. inv_ok E1. injection E1 as <-. cbn [bind].
    strengths F. f_equal. ring. }
  rewrite Y. cbn [bind].
  destruct (truthy (p_is_left_edge p)); [injection E2 as <-; reflexivity|]. inv_ok E2. inv_ok E2. inv_ok E2. inv_ok E2. injection E2 as <-.
  repeat match goal with H : position_of _ = Ok _ |- _ => rewrite H; clear H; cbn [bind] end.
  match goal with H : index (w_panels w) _ = Ok _ |- _ => destruct (index_rel _ _ _ _ _ F H) as (row' & -> & Fr) end. cbn [bind]. rewrite <- (Forall2_length _ _ _ Fr).
  strengths F. do 2 f_equal. ring.
Qed.
Lemma ring_loads_scaled r k rho vel vel' l l' rows xs loads :
  Forall2 (airplane_rel (ring_scaled k)) l l' -> (forall pts, vel' pts = map (vscale k) (vel pts)) ->
  (forall pts, length (vel pts) = length pts) ->
  ring_loads rho vel l rows xs = Ok loads ->
  ring_loads (r * rho) vel' l' rows (map (Rmult k) xs) = Ok (map (scale2 (r * (k * k))) loads).
Proof.
  intros F Hv Hl E. unfold ring_loads in *. inv_ok E. rename v into eff. injection E as <-.
  assert (X : mapM effective_strengths (combine (flat_panels l') (map (Rmult k) xs)) =
              Ok (map (fun e => (k * fst (fst e), k * snd (fst e), k * snd e)) eff)).
  { apply mapM_Forall2 in E0. apply Forall2_mapM.
    assert (G : Forall2 (fun x y => True /\ Forall2 (Forall2 (ring_scaled k)) (w_panels (snd (fst x))) (w_panels (snd (fst y))) /\ ring_scaled k (snd x) (snd y))
                  (flat_panels l) (flat_panels l')).
    { eapply Forall2_impl; [|apply (flat_rel (airplane_rel (ring_scaled k)) (wing_rel (ring_scaled k)) (ring_scaled k))]; [| | |exact F].
      - intros x y (_ & (_ & H1) & H2). auto.
      - intros a b H; apply H.
      - intros a b H; apply H. }
    revert xs eff E0. induction G as [|[[a w] p] [[a' w'] p'] fl fl' (_ & Hw & Hp) _ IH]; intros [|g xs] eff E0; cbn [combine map] in *; inversion E0 as [|? [[x y] z] ? ? He Hr]; subst; cbn; constructor.
    - eapply effective_scaled; eassumption.
    - apply IH, Hr. }
  rewrite X. cbn [bind]. f_equal. rewrite !Hv.
  assert (L1 := Hl (map rr_front_center rows)). assert (L2 := Hl (map rr_left_center rows)). assert (L3 := Hl (map rr_right_center rows)).
  rewrite map_length in L1, L2, L3. clear -L1 L2 L3.
  revert L1 L2 L3. generalize (vel (map rr_front_center rows)) (vel (map rr_left_center rows)) (vel (map rr_right_center rows)). intros vf vl vr.
  revert eff vf vl vr. induction rows as [|row rows IH]; intros [|[[x y] z] eff] [|f vf] [|ll vl] [|rr vr]; cbn [length map combine map2]; intros; try discriminate; try reflexivity.
  f_equal; [|apply IH; lia]. unfold scale2, ring_panel_loads, leg_force. cbn [fst snd].
  rewrite !vcross_scale_l, !vscale_scale.
  assert (Z : forall t, r * rho * (k * t) * k = r * (k * k) * (rho * t)) by (intros; ring). rewrite !Z, <- !vscale_scale, !vcross_scale_r, <- !vscale_add. reflexivity.
Qed.
Lemma ring_velocity_scale rows xs old v k pts : Forall row_ok rows -> length xs = length rows -> length old = length rows ->
  ring_velocity_of rows (map (Rmult k) xs) (ring_solved_hs_strengths rows (map (Rmult k) xs) old) (vscale k v) pts =
  map (vscale k) (ring_velocity_of rows xs (ring_solved_hs_strengths rows xs old) v pts).
Proof.
  intros F L1 L2. assert (L1' : length (map (Rmult k) xs) = length rows) by (rewrite map_length; exact L1).
  rewrite !ring_velocity_explicit by (assumption || apply ring_solved_length; assumption).
  rewrite map_map. apply map_ext. intros x.
  pose proof (ring_solved_velocity rows (map (Rmult k) xs) old (vscale k v) x F L1' L2) as E1.
  pose proof (ring_solved_velocity rows xs old v x F L1 L2) as E2. unfold ring_velocity_at in E1, E2.
  rewrite E1, E2, vscale_add. f_equal. clear. revert xs; induction rows as [|r rows IH]; intros [|g xs]; cbn [map combine]; rewrite ?vsum_nil, ?vsum_cons; try (clear; vring).
  cbn [fst snd]. rewrite IH, vscale_add, ring_row_velocity_linear. reflexivity.
Qed.
Lemma ring_system_square rows xs hs : length xs = length rows -> length hs = length rows -> square (ring_influences rows xs hs).
Proof.
  intros L1 L2. rewrite ring_influences_general by assumption. intros row Hr. apply in_map_iff in Hr. destruct Hr as (r & <- & _).
  rewrite !map_length, !combine_length. lia.
Qed.
Lemma ring_scaled_run solve airplanes op op' k r s : SolveSpec solve ->
  (forall a, In a airplanes -> well_meshed_airplane a) -> same_angles op op' ->
  op_velocity op' = k * op_velocity op -> op_density op' = r * op_density op ->
  op_velocity op <> 0 -> op_density op <> 0 -> k <> 0 -> r <> 0 ->
  ring_run solve (ring_new airplanes op) = Ok s ->
  exists s', ring_run solve (ring_new airplanes op') = Ok s' /\
    rso_strengths s' = map (Rmult k) (rso_strengths s) /\
    (forall x v, ring_solution_velocity s [x] = [v] -> ring_solution_velocity s' [x] = [vscale k v]) /\
    Forall2 (scaled_airplane (r * (k * k))) (rso_airplanes s) (rso_airplanes s').
Proof.
  intros HS HM Ha Ev Er Hv Hd Hk Hr E.
  assert (Fr : forall o, fresh_ring (ring_new airplanes o)) by (intros o; apply ring_new_fresh; intros a H; apply HM, H).
  pose proof (ring_sized_run _ _ _ HS (fresh_sized _ (Fr op)) E) as (L & Lh & _).
  pose proof (ring_rows_ok _ _ _ E) as Fro. pose proof (ring_rows_count _ _ _ E) as Lc. cbn [ring_new rso_airplanes] in Lc.
  apply ring_run_inv in E. cbn [ring_new rso_op rso_airplanes rso_freestream rso_strengths rso_hs_strengths rso_seed_points] in E.
  destruct E as (a0 & a1 & loads & I1 & C1 & O1 & V1 & _ & X1 & H1 & U1 & D1 & T1).
  set (n := num_panels_of airplanes) in *. assert (Hn : n = length (rso_rows s)).
  { rewrite Lc. apply num_panels_all. intros a H; apply HM, H. }
  set (ones := ring_collapse_hs_strengths (rso_rows s) (repeat 0 n)) in *.
  assert (Lo : length ones = length (rso_rows s)) by (unfold ones, ring_collapse_hs_strengths; rewrite map2_length, repeat_length; lia).
  assert (Hi : ring_init op' airplanes = ring_init op airplanes) by (unfold ring_init; rewrite (same_angles_direction _ _ Ha); reflexivity).
  destruct (ring_run_total solve (ring_new airplanes op') HS (fresh_sized _ (Fr op'))) as (b0 & rows & I2 & C2 & Htot).
  { intros a w Hin. apply HM, Hin. }
  cbn [ring_new rso_op rso_airplanes] in I2. rewrite Hi, I1 in I2. injection I2 as <-. rewrite C1 in C2. injection C2 as <-.
  destruct (Htot (map (Rmult k) (rso_strengths s))) as (s' & E' & Es').
  { cbn [ring_new rso_freestream rso_strengths rso_hs_strengths]. fold n ones. rewrite (same_angles_velocity _ _ _ Ha Ev), rhs_scale.
    apply solve_scale; auto.
    - apply ring_system_square; [rewrite repeat_length; exact Hn | exact Lo].
    - rewrite ring_influences_general by (rewrite ?repeat_length; assumption). unfold freestream_influences. rewrite !map_length. reflexivity. }
  exists s'. split; [exact E'|]. split; [exact Es'|].
  apply ring_run_inv in E'. cbn [ring_new rso_op rso_airplanes rso_freestream rso_strengths rso_hs_strengths rso_seed_points] in E'.
  destruct E' as (b0 & b1 & loads' & I2 & C2 & O2 & V2 & _ & _ & H2 & U2 & D2 & T2).
  rewrite Hi, I1 in I2. injection I2 as <-. rewrite C1 in C2. injection C2 as C2. rewrite <- C2 in *. fold n in H2. fold ones in H2.
  rewrite (same_angles_velocity _ _ _ Ha Ev) in V2, D2. rewrite Es' in H2, U2, D2. rewrite Er in D2.
  rewrite H2 in D2. rewrite H1 in D1. set (xs := rso_strengths s) in *. set (v := freestream_velocity op) in *.
  assert (Hvel : forall pts, ring_velocity_of (rso_rows s) (map (Rmult k) xs) (ring_solved_hs_strengths (rso_rows s) (map (Rmult k) xs) ones) (vscale k v) pts =
     map (vscale k) (ring_velocity_of (rso_rows s) xs (ring_solved_hs_strengths (rso_rows s) xs ones) v pts)) by (intros pts; apply ring_velocity_scale; assumption).
  split.
  { intros x u. unfold ring_solution_velocity. rewrite V1, V2, Es', <- C2, H1, H2. fold xs. rewrite Hvel. intros ->. reflexivity. }
  pose proof (update_rel ring_set_strength (Rmult k) (ring_scaled k) _ _ _ _ (ring_set_scaled k) U1 U2) as F.
  erewrite (ring_loads_scaled r k _ _ _ _ _ _ _ _ F Hvel) in D2; [| |exact D1].
  2:{ intros pts. rewrite ring_velocity_explicit by (assumption || apply ring_solved_length; assumption). apply map_length. }
  injection D2 as <-.
  eapply process_scaled; [apply same_angles_rotation; exact Ha | | | | | exact T1 |].
  - unfold dynamic_pressure. rewrite Ev, Er. ring.
  - repeat apply Rmult_integral_contrapositive_currified; assumption.
  - unfold dynamic_pressure. repeat apply Rmult_integral_contrapositive_currified; try lra; try assumption; apply pow_nonzero; assumption.
  - apply update_panels_sound in U1, U2. destruct U1 as (? & ? & _ & F1), U2 as (? & ? & _ & F2).
    apply airplanes_updated_same in F1; [|apply ring_set_strength_same]. apply airplanes_updated_same in F2; [|apply ring_set_strength_same].
    eapply same_airplanes_trans; [|exact F2]. clear -F1. induction F1; constructor; auto using same_airplane_sym.
  - rewrite <- T2. f_equal; rewrite !map_map; reflexivity.
Qed.
