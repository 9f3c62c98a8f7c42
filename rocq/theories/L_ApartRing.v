(** The ring solver on two groups of airplanes that get farther and farther apart. *)
From Coq Require Import List Lia Lra Reals.
From Verif Require Import M_Loads M_Horseshoe M_SteadyRing S_Geometry S_Solve S_Loads S_Mirror S_Solvable S_Size S_Rigid S_Continuous S_Apart
  L_Base L_Rotations L_Loads L_Aero L_Horseshoe L_SteadyRing L_Mirror L_MirrorHorseshoe L_MirrorRing L_Rigid L_RigidShift L_RigidSolvers L_Solvable L_Divide L_Reference L_RingLegs L_Size L_SizeSolvers L_Limits L_Continuous L_ContinuousRun L_ContinuousRing L_Apart L_ApartRun L_ApartHorseshoe.
Import ListNotations.
Local Open Scope R_scope.

Definition meshed (l : list airplane) : Prop := forall a, In a l -> well_meshed_airplane a.
(** ** The initialised airplanes and their rows *)
Definition initialised (op : operating_point) (l : list airplane) : list airplane := match ring_init op l with Ok a => a | Err _ => [] end.
Definition rows_for (op : operating_point) (l : list airplane) : list ring_row := match ring_collapse (initialised op l) with Ok r => r | Err _ => [] end.
Definition cores (op : operating_point) (l : list airplane) : list core := map core_of (all_panels (initialised op l)).
Lemma meshed_init op l : meshed l -> ring_init op l = Ok (initialised op l) /\ ring_collapse (initialised op l) = Ok (rows_for op l) /\ Forall row_ok (rows_for op l) /\
  map core_of_row (rows_for op l) = cores op l /\ length (rows_for op l) = length (all_panels (initialised op l)) /\ length (all_panels (initialised op l)) = length (all_panels l).
Proof.
  intros W. destruct (ring_init_total op l (fun a w Ha Hw => proj1 (W a Ha) w Hw)) as (a0 & E). destruct (ring_collapse_total op l a0 E) as (rows & Ec).
  assert (E1 : initialised op l = a0) by (unfold initialised; rewrite E; reflexivity). assert (E2 : rows_for op l = rows) by (unfold rows_for; rewrite E1, Ec; reflexivity).
  unfold cores. rewrite E1, E2. split; [exact E|]. split; [exact Ec|]. split.
  { apply ring_collapse_ok in Ec. apply Forall_forall. intros r Hr. destruct (Forall2_In_r _ _ _ _ Ec Hr) as (x & _ & Hx & _). exact Hx. }
  split; [apply ring_collapse_core, Ec|]. split; [rewrite <- (ring_collapse_panels _ _ Ec), map_length; reflexivity|]. symmetry. exact (Forall2_length _ _ _ (same_all_panels _ _ (ring_init_same _ _ _ E))).
Qed.
Lemma meshed_app a b : meshed a -> meshed b -> meshed (a ++ b).
Proof. intros Ha Hb x Hx. apply in_app_or in Hx. destruct Hx; auto. Qed.
Lemma all_panels_app a b : all_panels (a ++ b) = all_panels a ++ all_panels b.
Proof. unfold all_panels. rewrite map_app, concat_app. reflexivity. Qed.
Lemma initialised_app op a b : meshed a -> meshed b -> initialised op (a ++ b) = initialised op a ++ initialised op b /\ rows_for op (a ++ b) = rows_for op a ++ rows_for op b /\ cores op (a ++ b) = cores op a ++ cores op b.
Proof.
  intros Wa Wb. destruct (meshed_init op a Wa) as (A1 & A2 & _). destruct (meshed_init op b Wb) as (B1 & B2 & _).
  assert (E1 : initialised op (a ++ b) = initialised op a ++ initialised op b).
  { unfold initialised at 1. unfold ring_init in *. rewrite mapM_append, A1, B1. reflexivity. }
  split; [exact E1|]. split; [|unfold cores; rewrite E1, all_panels_app, map_app; reflexivity].
  unfold rows_for at 1. rewrite E1. unfold ring_collapse in *. rewrite flat_app, mapM_append, A2, B2. reflexivity.
Qed.
Lemma cores_moved t op l l' : moved_airplanes mid t l l' -> meshed l -> meshed l' -> Forall2 (sys_moved mid t k_coll k_normal core_velocity) (cores op l) (cores op l').
Proof.
  intros HM W W'. destruct (meshed_init op l W) as (A1 & _). destruct (meshed_init op l' W') as (B1 & _).
  pose proof (moved_init_all mid t mid_proper op op l l' _ _ (same_flow op) HM W W' A1 B1) as M0. apply moved_panels_flat in M0. unfold cores.
  induction M0 as [|p p' ps ps' (_ & _ & _ & H) _ IH]; cbn [map]; constructor; auto. apply (moved_core_sys mid t mid_proper), H.
Qed.
Lemma core_fades c : fades (fun x => core_velocity x c).
Proof.
  intros X HX. eapply vtends_ext; [|exact (path_fades (closed_path (k_br c) (k_fr c) (k_fl c) (k_bl c) ++ open_path (k_hbr c) (k_hfr c) (k_hfl c) (k_hbl c)) X HX)].
  intros n. cbv beta. rewrite path_app, path_closed, path_open. reflexivity.
Qed.

(** ** Loads from strengths and a velocity field *)
Definition ring_fin (op : operating_point) (f : vec -> vec) (l : list airplane) (gs : list R) : result (list airplane) :=
  let* a1 := update_panels ring_set_strength (initialised op l) gs in
  let* loads := ring_loads (op_density op) (map f) a1 (rows_for op l) gs in
  process_forces op (map fst loads) (map snd loads) a1.
Lemma ring_fin_ext op f f' l g : (forall x, f x = f' x) -> ring_fin op f l g = ring_fin op f' l g.
Proof. intros E. unfold ring_fin. apply bind_ext. intros a1. unfold ring_loads. cbv zeta. rewrite !(map_ext _ _ E). reflexivity. Qed.
Lemma ring_facts solve l op s : SolveSpec solve -> meshed l -> ring_run solve (ring_new l op) = Ok s ->
  let v := freestream_velocity op in
  solve (sys_matrix k_coll k_normal core_velocity (cores op l)) (sys_rhs k_normal (cores op l) v) = Ok (rso_strengths s) /\ length (rso_strengths s) = length (cores op l) /\
  (forall x, ring_solution_velocity s [x] = [sys_velocity core_velocity (cores op l) (rso_strengths s) v x]) /\
  ring_fin op (sys_velocity core_velocity (cores op l) (rso_strengths s) v) l (rso_strengths s) = Ok (rso_airplanes s).
Proof.
  intros HS W E v. destruct (meshed_init op l W) as (I1 & I2 & I3 & I4 & I5 & I6).
  assert (Fr : fresh_ring (ring_new l op)) by (apply ring_new_fresh; intros a Ha; apply W, Ha).
  apply ring_run_inv in E. cbv zeta in E. destruct E as (z0 & z1 & loads & Z1 & Z2 & Eo & Ev & _ & Es & Eh & Eu & El & Ep). cbn [ring_new rso_op rso_airplanes] in Z1.
  rewrite I1 in Z1. apply Ok_eq in Z1. subst z0. rewrite I2 in Z2. apply Ok_eq in Z2. rewrite <- Z2 in *.
  rewrite (proj1 Fr), (proj2 Fr) in Es. rewrite (proj2 Fr) in Eh. cbn [ring_new rso_op rso_airplanes rso_freestream] in *. fold v in Ev, El, Es.
  rewrite ring_sys_matrix, ring_sys_rhs, I4 in Es; [|exact I3 | congruence].
  assert (L : length (rso_strengths s) = length (cores op l)).
  { pose proof Es as Es'. apply (HS _ _ (sys_square _ _ _ _) (sys_lengths _ _ _ _ _)) in Es'. destruct Es' as ((Lg & _) & _). unfold sys_matrix in Lg. rewrite map_length in Lg. exact Lg. }
  assert (LR : length (rso_strengths s) = length (rows_for op l)) by (rewrite L; unfold cores; rewrite map_length; congruence).
  assert (VF : forall ps, ring_velocity_of (rows_for op l) (rso_strengths s) (rso_hs_strengths s) v ps = map (sys_velocity core_velocity (cores op l) (rso_strengths s) v) ps).
  { intros ps. rewrite Eh, ring_velocity_form, I4; [reflexivity | exact I3 | exact LR | unfold ring_collapse_hs_strengths; rewrite map2_length, repeat_length; lia]. }
  split; [exact Es|]. split; [exact L|]. split.
  - intros x. unfold ring_solution_velocity. rewrite <- Z2, Ev. apply VF.
  - unfold ring_fin. rewrite Eu. cbn [bind]. unfold ring_loads in *. cbv zeta in *. rewrite !VF in El. rewrite El. cbn [bind]. exact Ep.
Qed.
Lemma ring_runs solve l op xs : SolveSpec solve -> meshed l ->
  solve (sys_matrix k_coll k_normal core_velocity (cores op l)) (sys_rhs k_normal (cores op l) (freestream_velocity op)) = Ok xs ->
  exists s, ring_run solve (ring_new l op) = Ok s /\ rso_strengths s = xs.
Proof.
  intros HS W Es. destruct (meshed_init op l W) as (I1 & I2 & I3 & I4 & I5 & I6).
  assert (Fr : fresh_ring (ring_new l op)) by (apply ring_new_fresh; intros a Ha; apply W, Ha).
  destruct (ring_run_total solve (ring_new l op) HS (fresh_sized _ Fr) (fun a w Ha Hw => proj1 (W a Ha) w Hw)) as (a0 & rows & E1 & E2 & K). cbn [ring_new rso_op rso_airplanes] in E1.
  rewrite I1 in E1. apply Ok_eq in E1. subst a0. rewrite I2 in E2. apply Ok_eq in E2. subst rows. apply K. rewrite (proj1 Fr), (proj2 Fr). cbn [ring_new rso_airplanes rso_freestream].
  rewrite ring_sys_matrix, ring_sys_rhs, I4; [exact Es | exact I3 | congruence].
Qed.
Lemma ring_loads_split d f b1 b2 r1 r2 g1 g2 lo : length g1 = length (flat_panels b1) -> length r1 = length (flat_panels b1) ->
  ring_loads d (map f) (b1 ++ b2) (r1 ++ r2) (g1 ++ g2) = Ok lo ->
  exists l1 l2, lo = l1 ++ l2 /\ ring_loads d (map f) b1 r1 g1 = Ok l1 /\ ring_loads d (map f) b2 r2 g2 = Ok l2 /\ length l1 = length (flat_panels b1).
Proof.
  intros L1 L2. unfold ring_loads. cbv zeta. rewrite flat_app, L_Divide.combine_app by congruence. rewrite mapM_append. intros E.
  apply bind_Ok in E. destruct E as (e & E & EL). apply bind_Ok in E. destruct E as (e1 & E1 & E). apply bind_Ok in E. destruct E as (e2 & E2 & E). apply Ok_eq in E. subst e. apply Ok_eq in EL. subst lo.
  assert (Le : length e1 = length r1) by (apply mapM_Forall2 in E1; apply Forall2_length in E1; rewrite combine_length in E1; lia).
  rewrite E1, E2. cbn [bind]. eexists _, _. split; [|split; [reflexivity | split; [reflexivity|]]].
  - rewrite !map_app. rewrite (L_Divide.combine_app r1 r2 e1 e2) by congruence. rewrite (L_Divide.combine_app (map f (map rr_right_center r1))) by (rewrite !map_length; reflexivity).
    rewrite L_Divide.combine_app by (rewrite combine_length, !map_length; lia). rewrite map2_app; [reflexivity|]. rewrite !combine_length, !map_length. lia.
  - rewrite map2_length, !combine_length, !map_length. lia.
Qed.
Lemma flat_count l : length (flat_panels l) = length (all_panels l).
Proof. rewrite <- flat_panels_snd, map_length. reflexivity. Qed.
Lemma ring_fin_split op f l1 l2 g1 g2 r : meshed l1 -> meshed l2 -> length g1 = length (all_panels l1) -> ring_fin op f (l1 ++ l2) (g1 ++ g2) = Ok r ->
  exists r1 r2, r = r1 ++ r2 /\ ring_fin op f l1 g1 = Ok r1 /\ ring_fin op f l2 g2 = Ok r2.
Proof.
  intros W1 W2 L H. unfold ring_fin in *. destruct (initialised_app op l1 l2 W1 W2) as (E1 & E2 & _). rewrite E1, E2 in H. destruct (meshed_init op l1 W1) as (_ & _ & _ & _ & I5 & I6).
  apply bind_Ok in H. destruct H as (a1 & HU & H). apply update_split in HU; [|rewrite I6; exact L]. destruct HU as (b1 & b2 & -> & U1 & U2). rewrite U1, U2. cbn [bind].
  apply bind_Ok in H. destruct H as (lo & HL & H). pose proof (updated_count _ _ _ _ U1) as CU.
  apply ring_loads_split in HL; [|rewrite flat_count; congruence | rewrite flat_count; congruence]. destruct HL as (lo1 & lo2 & -> & O1 & O2 & LL). rewrite O1, O2. cbn [bind].
  rewrite !map_app in H. apply process_split in H; [exact H | rewrite map_length, LL, flat_count; reflexivity | rewrite !map_length; reflexivity].
Qed.
Definition holds_ring (u : nat -> panel) (p : panel) : Prop :=
  approaching_panel u p /\ p_cross p <> vzero /\ exists R r, (forall n, p_ring_vortex (u n) = Some (R n)) /\ p_ring_vortex p = Some r.
Lemma init_holds op l : meshed l -> (forall p, In p (panels_of l) -> p_cross p <> vzero) -> each (approaching_airplane holds_ring) (fun _ => initialised op l) (initialised op l).
Proof.
  intros W HC. destruct (meshed_init op l W) as (I1 & I2 & I3 & _).
  assert (Q : forall p, In p (all_panels (initialised op l)) -> p_cross p <> vzero /\ exists r, p_ring_vortex p = Some r).
  { intros p Hp. split.
    - destruct (Forall2_In_r _ _ _ _ (same_all_panels _ _ (ring_init_same _ _ _ I1)) Hp) as (q & Hq & Sq). replace (p_cross p) with (p_cross q) by (unfold p_cross, p_first_diagonal, p_second_diagonal; destruct Sq as (-> & -> & -> & -> & _); reflexivity). apply HC, in_panels_of, Hq.
    - rewrite <- (ring_collapse_panels _ _ I2) in Hp. apply in_map_iff in Hp. destruct Hp as (r & <- & Hr). exists (rr_vortex r). exact (proj1 (proj1 (Forall_forall _ _) I3 r Hr)). }
  assert (HA : each (approaching_airplane (fun u p => (forall n, u n = p) /\ (p_cross p <> vzero /\ exists r, p_ring_vortex p = Some r))) (fun _ => initialised op l) (initialised op l)).
  { apply (airplane_in (fun u p => forall n, u n = p) (fun p => p_cross p <> vzero /\ exists r, p_ring_vortex p = Some r)); [exact Q|]. apply each_const. intros a _.
    split; [apply tends_const|]. split; [apply tends_const|]. split; [apply tends_const|]. split; [repeat split; apply tends_const|]. split; [reflexivity|].
    apply each_const. intros w _. split; [apply tends_const|]. apply each_const. intros row _. apply each_const. reflexivity. }
  eapply each_weaken; [|exact HA]. intros A a _ Ha. eapply airplane_weaken; [|exact Ha]. cbv beta. intros P p (E & HC' & r & Er). split; [|split; [exact HC'|]].
  - repeat split; try (eapply tends_ext; [intros n; rewrite E; reflexivity | apply tends_const]); rewrite E; reflexivity.
  - exists (fun _ => r), r. split; [intros n; rewrite E; exact Er | exact Er].
Qed.
Lemma ring_loads_const d F f L l rows G gs : each (approaching_airplane (with_strength ring_strength)) L l -> each tends G gs ->
  (forall x, vtends (fun n => F n x) (f x)) -> settles (each pair_tends) (fun n => ring_loads d (map (F n)) (L n) rows (G n)) (ring_loads d (map f) l rows gs).
Proof.
  intros HL HGs HV. unfold ring_loads. cbv zeta.
  apply (settles_bind (each three_tends) (each pair_tends) (fun n => mapM effective_strengths (combine (flat_panels (L n)) (G n))) _
    (fun n effective => Ok (map2 (fun re vs => ring_panel_loads d (fst re) (snd re) (fst (fst vs)) (snd (fst vs)) (snd vs)) (combine rows effective)
        (combine (combine (map (F n) (map rr_right_center rows)) (map (F n) (map rr_front_center rows))) (map (F n) (map rr_left_center rows)))))).
  - refine (settles_mapM _ three_tends (fun _ => effective_strengths) effective_strengths _ _ _ (each_combine _ _ _ _ _ _ (flat_tends _ _ _ HL) HGs)).
    intros W w _ (X & K & E & HX & HK). destruct w as [x g]. cbn [fst snd] in *. apply (settles_ext _ (fun n => effective_strengths (X n, K n))); [intros n; rewrite E; reflexivity|]. apply effective_settles; assumption.
  - intros EF ef _ HEF. apply (settles_Ok (each pair_tends) (fun n => map2 (fun re vs => ring_panel_loads d (fst re) (snd re) (fst (fst vs)) (snd (fst vs)) (snd vs)) (combine rows (EF n))
        (combine (combine (map (F n) (map rr_right_center rows)) (map (F n) (map rr_front_center rows))) (map (F n) (map rr_left_center rows))))).
    assert (CC : forall ps, each vtends (fun n => map (F n) ps) (map f ps)).
    { intros ps. refine (each_map (fun u x => forall n, u n = x) vtends (fun n => F n) f (fun _ => ps) ps _ (each_const (fun u x => forall n : nat, u n = x) ps (fun a _ _ => eq_refl))). intros X x _ E. eapply vtends_ext; [intros n; rewrite E; reflexivity | apply HV]. }
    refine (each_map2 _ _ pair_tends (fun n re vs => ring_panel_loads d (fst re) (snd re) (fst (fst vs)) (snd (fst vs)) (snd vs)) (fun re vs => ring_panel_loads d (fst re) (snd re) (fst (fst vs)) (snd (fst vs)) (snd vs)) _ _ _ _ _
       (each_combine _ _ _ _ _ _ (each_const (fun u x => forall n : nat, u n = x) rows (fun a _ _ => eq_refl)) HEF) (each_combine _ _ _ _ _ _ (each_combine _ _ _ _ _ _ (CC _) (CC _)) (CC _))).
    intros X x Y y _ _ (S & K & EX & HS & (k1 & k2 & k3 & EK & H1 & H2 & H3)) (YY & V3 & EY & (V1 & V2 & EYY & HV1 & HV2) & HV3).
    destruct x as [r [[g1 g2] g3]], y as [[v1 v2] v3]. cbn [fst snd] in *.
    assert (VC : forall c, vtends (fun _ => c) c) by (intros c; repeat split; apply tends_const).
    assert (FF : forall KK kk VV vv bb, tends KK kk -> vtends VV vv -> vtends (fun n => leg_force d (KK n) (VV n) bb) (leg_force d kk vv bb)).
    { intros. unfold leg_force. apply vtends_scale; [apply tends_mult; [apply tends_const | assumption]|]. apply vtends_cross; [assumption | apply VC]. }
    split; cbn [fst snd ring_panel_loads].
    + eapply vtends_ext; [intros n; rewrite EX, EY; cbn [fst snd]; rewrite EYY, EK, HS; reflexivity|]. cbn [fst snd ring_panel_loads]. apply vtends_add; [apply vtends_add|]; apply FF; assumption.
    + eapply vtends_ext; [intros n; rewrite EX, EY; cbn [fst snd]; rewrite EYY, EK, HS; reflexivity|]. cbn [fst snd ring_panel_loads].
      apply vtends_add; [apply vtends_add|]; (apply vtends_cross; [apply VC | apply FF; assumption]).
Qed.
Lemma ring_fin_settles op F f l G g : meshed l -> (forall p, In p (panels_of l) -> p_cross p <> vzero) -> each tends G g -> (forall x, vtends (fun n => F n x) (f x)) ->
  settles (each (approaching_solution (dynamic_pressure op) ring_strength)) (fun n => ring_fin op (F n) l (G n)) (ring_fin op f l g).
Proof.
  intros W HC HG HF. unfold ring_fin. pose proof (init_holds op l W HC) as HI.
  eapply (settles_bind (each (approaching_airplane (with_strength ring_strength)))).
  - apply (settles_update holds_ring (with_strength ring_strength) tends (fun _ => ring_set_strength) ring_set_strength); [|exact HI | exact HG].
    intros P p K k (HP & HC' & (R & r & E1 & E2)) HK.
    assert (F' : forall q x r, p_ring_vortex q = Some r -> ring_set_strength q x = Ok (p_set_horseshoe (option_map (hs_update_strength x) (p_horseshoe_vortex q)) (p_set_ring (Some (ring_update_strength x r)) q))).
    { intros q x r0 E. unfold ring_set_strength. rewrite E. change (p_horseshoe_vortex (p_set_ring (Some (ring_update_strength x r0)) q)) with (p_horseshoe_vortex q). destruct (p_horseshoe_vortex q) eqn:EH; [reflexivity|]. destruct q. cbn in EH. subst. reflexivity. }
    rewrite (F' _ _ _ E2). eapply settles_ext; [intros n; rewrite (F' _ _ _ (E1 n)); reflexivity|].
    eapply (settles_Ok (with_strength ring_strength)). split; [exact HP|]. split; [exact HC'|]. exists K, k. split; [reflexivity | split; [reflexivity | exact HK]].
  - intros L1 l1 _ HL1. cbv beta. eapply (settles_bind (each pair_tends)).
    + refine (ring_loads_const (op_density op) F f L1 l1 (rows_for op l) G g HL1 HG HF).
    + intros LO lo _ HLO. cbv beta. refine (settles_process ring_strength _ (fun _ => op) op _ _ _ _ _ _ (const_op op) _ _ HL1).
      * intros; reflexivity.
      * refine (each_map _ _ (fun _ => fst) fst _ _ _ HLO). intros X x _ Hx. apply Hx.
      * refine (each_map _ _ (fun _ => snd) snd _ _ _ HLO). intros X x _ Hx. apply Hx.
Qed.
(** ** The solver *)
Lemma ring_apart solve op near far ts fars s1 s2 : SolveSpec solve -> receding ts -> (forall n, Forall2 (shifted_airplane (ts n)) far (fars n)) ->
  (forall p, In p (panels_of (near ++ far)) -> p_cross p <> vzero) ->
  meshed near -> meshed far -> (forall n, meshed (fars n)) ->
  ring_run solve (ring_new near op) = Ok s1 -> ring_run solve (ring_new far op) = Ok s2 ->
  exists ss N, (forall n, (N <= n)%nat -> ring_run solve (ring_new (near ++ fars n) op) = Ok (ss n)) /\
    each_from N (approaching_results (dynamic_pressure op) ring_strength) (fun n => rso_airplanes (ss n)) (rso_airplanes s1 ++ rso_airplanes s2) /\
    (forall x, each_from N vtends (fun n => ring_solution_velocity (ss n) [x]) (ring_solution_velocity s1 [x])) /\
    (forall x, each_from N vtends (fun n => ring_solution_velocity (ss n) [vadd x (ts n)]) (ring_solution_velocity s2 [x])).
Proof.
  intros HS Hts HF HC W1 W2 Wn H1 H2. set (v := freestream_velocity op).
  set (rows1 := cores op near). set (rows2 := cores op far). set (U := fun n => cores op (fars n)).
  assert (HU : forall n, Forall2 (carried k_coll k_normal core_velocity (ts n)) rows2 (U n)).
  { intros n. apply moved_carried. apply cores_moved; [exact (proj1 (shifted_moved_all _ _ _ (HF n))) | exact W2 | apply Wn]. }
  assert (ER : forall n, cores op (near ++ fars n) = rows1 ++ U n) by (intros n; apply (initialised_app op near (fars n) W1 (Wn n))).
  assert (Wa : forall n, meshed (near ++ fars n)) by (intros n; apply meshed_app; auto).
  destruct (ring_facts solve near op s1 HS W1 H1) as (K1 & L1 & VL1 & FN1). destruct (ring_facts solve far op s2 HS W2 H2) as (K2 & L2 & VL2 & FN2). fold v in K1, K2, VL1, VL2, FN1, FN2.
  destruct (apart_solve k_coll k_normal core_velocity ts Hts rows1 rows2 U HU (fun r _ => core_fades r) (fun r _ => core_fades r) solve v _ _ HS K1 K2) as (G & N0 & HG & TG).
  destruct (each_split _ _ _ _ TG) as (G1 & G2 & EG & TG1 & TG2).
  (* the runs *)
  assert (Hrun : forall n, (N0 <= n)%nat -> exists s, ring_run solve (ring_new (near ++ fars n) op) = Ok s /\ rso_strengths s = G1 n ++ G2 n).
  { intros n Hn. apply (ring_runs solve (near ++ fars n) op (G1 n ++ G2 n) HS (Wa n)). rewrite ER, <- EG. exact (HG n Hn). }
  set (ss := fun n => match ring_run solve (ring_new (near ++ fars n) op) with Ok s => s | Err _ => s1 end).
  assert (Hss : forall n, (N0 <= n)%nat -> ring_run solve (ring_new (near ++ fars n) op) = Ok (ss n) /\ rso_strengths (ss n) = G1 n ++ G2 n).
  { intros n Hn. destruct (Hrun n Hn) as (s & E1 & E2). unfold ss. rewrite E1. auto. }
  assert (TV1 : forall x, vtends (fun n => sys_velocity core_velocity (rows1 ++ U n) (G1 n ++ G2 n) v x) (sys_velocity core_velocity rows1 (rso_strengths s1) v x)).
  { intros x. exact (apart_near k_coll k_normal core_velocity ts Hts rows1 rows2 U HU (fun r _ => core_fades r) G1 _ G2 _ v x L1 TG1 TG2). }
  assert (TV2 : forall x, vtends (fun n => sys_velocity core_velocity (rows1 ++ U n) (G1 n ++ G2 n) v (vadd x (ts n))) (sys_velocity core_velocity rows2 (rso_strengths s2) v x)).
  { intros x. exact (apart_far k_coll k_normal core_velocity ts Hts rows1 rows2 U HU (fun r _ => core_fades r) G1 _ G2 _ v x L1 TG1 TG2). }
  assert (HC1 : forall p, In p (panels_of near) -> p_cross p <> vzero) by (intros p Hp; apply HC; apply in_panels_of in Hp; apply in_panels_of; rewrite all_panels_app; apply in_or_app; auto).
  assert (HC2 : forall p, In p (panels_of far) -> p_cross p <> vzero) by (intros p Hp; apply HC; apply in_panels_of in Hp; apply in_panels_of; rewrite all_panels_app; apply in_or_app; auto).
  destruct (ring_fin_settles op (fun n => sys_velocity core_velocity (rows1 ++ U n) (G1 n ++ G2 n) v) _ near G1 _ W1 HC1 TG1 TV1 _ FN1) as (A & N1 & HA & TA).
  destruct (ring_fin_settles op (fun n x => sys_velocity core_velocity (rows1 ++ U n) (G1 n ++ G2 n) v (vadd x (ts n))) _ far G2 _ W2 HC2 TG2 TV2 _ FN2) as (B & N2 & HB & TB).
  assert (LC : forall l, meshed l -> length (cores op l) = length (all_panels l)) by (intros l W; unfold cores; rewrite map_length; apply (meshed_init op l W)).
  assert (LG1 : forall n, length (G1 n) = length (all_panels near)) by (intros n; rewrite (each_length _ _ _ TG1), L1; apply LC, W1).
  set (N := (N0 + N1 + N2)%nat).
  assert (HR : forall n, (N <= n)%nat -> exists r2, rso_airplanes (ss n) = A n ++ r2 /\ Forall2 (equal_results ring_strength) r2 (B n)).
  { intros n Hn. destruct (Hss n ltac:(unfold N in Hn; lia)) as (Er & Es). destruct (ring_facts solve _ op _ HS (Wa n) Er) as (Kn & _ & _ & Ef). fold v in Kn, Ef. rewrite ER, Es in Ef.
    apply ring_fin_split in Ef; [|exact W1 | apply Wn | apply LG1]. destruct Ef as (r1 & r2 & E & Ef1 & Ef2). rewrite (HA n ltac:(unfold N in Hn; lia)) in Ef1. apply Ok_eq in Ef1. subst r1.
    exists r2. split; [exact E|].
    set (near' := map (shift_plane (vopp (ts n))) near).
    assert (HM : moved_airplanes mid (vopp (ts n)) (near ++ fars n) (near' ++ far)).
    { apply Forall2_app; [apply shift_planes_moved | exact (proj2 (shifted_moved_all _ _ _ (HF n)))]. }
    assert (W1' : meshed near') by (intros a Ha; apply in_map_iff in Ha; destruct Ha as (a0 & <- & Ha0); apply shift_plane_meshed, W1, Ha0).
    assert (W' : meshed (near' ++ far)) by (apply meshed_app; assumption).
    destruct (L_RigidSolvers.ring_moved mid (vopp (ts n)) mid_proper solve _ _ op op (ss n) HS (same_flow op) HM (Wa n) W' Er) as (s' & Er' & _ & HMS).
    pose proof (cores_moved (vopp (ts n)) op _ _ HM (Wa n) W') as HRM. destruct (ring_facts solve _ op _ HS W' Er') as (K' & _ & _ & Ef). fold v in K', Ef.
    assert (Es' : rso_strengths s' = G1 n ++ G2 n).
    { rewrite (moved_matrix mid (vopp (ts n)) mid_proper _ _ _ _ _ HRM) in K'. rewrite <- (mid_id v), (moved_rhs mid (vopp (ts n)) mid_proper _ _ _ _ _ v HRM) in K'. rewrite Kn in K'. apply Ok_eq in K'. congruence. }
    rewrite Es' in Ef.
    assert (LN : length (all_panels near') = length (all_panels near)).
    { pose proof (cores_moved (vopp (ts n)) op _ _ (shift_planes_moved (vopp (ts n)) near) W1 W1') as HN'. apply Forall2_length in HN'. rewrite !LC in HN' by assumption. symmetry. exact HN'. }
    apply ring_fin_split in Ef; [|exact W1' | exact W2 | rewrite LN; apply LG1]. destruct Ef as (r1' & r2' & E' & Ef1' & Ef2').
    assert (EB : r2' = B n).
    { apply Ok_eq. rewrite <- Ef2', <- (HB n ltac:(unfold N in Hn; lia)). apply ring_fin_ext. intros x.
      pose proof (moved_velocity mid (vopp (ts n)) _ _ _ _ _ (G1 n ++ G2 n) v (vadd x (ts n)) HRM) as MV. rewrite !mid_id, mid_moved in MV. replace (vadd (vadd x (ts n)) (vopp (ts n))) with x in MV by vring. rewrite ER in MV. exact MV. }
    subst r2'. rewrite E, E' in HMS.
    pose proof (ring_run_same solve _ _ Er) as SA. pose proof (ring_run_same solve _ _ Er') as SB. cbn [ring_new rso_airplanes] in SA, SB. rewrite E in SA. rewrite E' in SB.
    assert (LA : length (A n) = length near).
    { pose proof (each_length _ _ _ TA n) as Z1. pose proof (Forall2_length _ _ _ (ring_run_same solve _ _ H1)) as Z2. cbn [ring_new rso_airplanes] in Z2. lia. }
    assert (LB : length (B n) = length far).
    { pose proof (each_length _ _ _ TB n) as Z1. pose proof (Forall2_length _ _ _ (ring_run_same solve _ _ H2)) as Z2. cbn [ring_new rso_airplanes] in Z2. lia. }
    assert (LC' : length r1' = length near).
    { apply Forall2_length in SB. rewrite !app_length in SB. unfold near' in SB. rewrite map_length in SB. lia. }
    apply (second_equal op ring_strength (ts n) far (fars n)); [apply HF | | |].
    - exact (Forall2_tail _ near _ (A n) _ ltac:(lia) SA).
    - exact (Forall2_tail _ near' _ r1' _ ltac:(unfold near'; rewrite map_length; lia) SB).
    - exact (Forall2_tail _ (A n) _ r1' _ ltac:(lia) HMS). }
  exists ss, N. split; [intros n Hn; apply Hss; unfold N in Hn; lia|]. split; [|split].
  - apply (assemble _ _ N _ A B (fun n => skipn (length (A n)) (rso_airplanes (ss n)))); [|exact TA | exact TB|].
    + intros n Hn. destruct (HR n Hn) as (r2 & E & _). rewrite E, skipn_app, skipn_all, Nat.sub_diag. reflexivity.
    + intros n Hn. destruct (HR n Hn) as (r2 & E & Q). rewrite E, skipn_app, skipn_all, Nat.sub_diag. exact Q.
  - intros x. rewrite VL1. apply (each_from_one N vtends (fun n => sys_velocity core_velocity (rows1 ++ U n) (G1 n ++ G2 n) v x)); [|apply TV1].
    intros n Hn. destruct (Hss n ltac:(unfold N in Hn; lia)) as (Er & Es). destruct (ring_facts solve _ op _ HS (Wa n) Er) as (_ & _ & VL & _). rewrite VL, Es, ER. reflexivity.
  - intros x. rewrite VL2. apply (each_from_one N vtends (fun n => sys_velocity core_velocity (rows1 ++ U n) (G1 n ++ G2 n) v (vadd x (ts n)))); [|apply TV2].
    intros n Hn. destruct (Hss n ltac:(unfold N in Hn; lia)) as (Er & Es). destruct (ring_facts solve _ op _ HS (Wa n) Er) as (_ & _ & VL & _). rewrite VL, Es, ER. reflexivity.
Qed.
