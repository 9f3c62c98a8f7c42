(** The loads of a time step of the unsteady solver. *)
From Coq Require Import List ZArith Lia Lra Bool Reals.
From Verif Require Import M_Unsteady S_Unsteady S_UnsteadyRun S_Geometry S_Vortices S_Loads S_Solve S_Movement L_Base L_Loads L_Horseshoe L_SteadyRing L_RingLegs L_Aero L_Frames
  L_Geometry L_Problems L_Wake L_WakeWings L_Unsteady L_UnsteadyStep L_UnsteadyRun L_UnsteadyFinal L_UnsteadyProps L_UnsteadyProps2 L_UnsteadyFlow L_UnsteadyStill.
Import ListNotations.
Local Open Scope R_scope.
Local Open Scope list_scope.

(** What processing the loads does to panel number [i]. *)
Lemma process_forces_nth op loads l l' i a w p : process_forces op (map fst loads) (map snd loads) l = Ok l' -> nth_error (flat_panels l') i = Some (a, w, p) ->
  exists a1 w1 p1 fm, nth_error (flat_panels l) i = Some (a1, w1, p1) /\ L_SteadyRing.airplane_kept a1 a /\ L_SteadyRing.wing_kept w1 w /\ vortices_kept p1 p /\
    nth_error loads i = Some fm /\ p = loaded op p1 fm.
Proof.
  intros Ep Hi. apply process_forces_sound in Ep. destruct Ep as (us & rest & Ecm & Fp).
  assert (Fk : Forall2 L_SteadyRing.airplane_kept l l').
  { revert Fp; apply Forall3_13. intros; eapply totalled_kept; eauto. }
  pose proof (flat_rel L_SteadyRing.airplane_kept L_SteadyRing.wing_kept vortices_kept _ _ (fun _ _ H => proj2 H) (fun _ _ H => proj2 H) Fk) as FF.
  destruct (Forall2_nth _ _ _ FF i _ Hi) as ([[a1 w1] p1] & Hi1 & Hka & Hkw & Hkp). cbn [fst snd] in Hka, Hkw, Hkp.
  exists a1, w1, p1.
  assert (P2 : all_panels l' = map2 (loaded op) (all_panels l) (concat us) /\ length (concat us) = length (all_panels l)).
  { clear -Fp. induction Fp as [|x u x' l us l' H _ [IH1 IH2]]; cbn; [auto|]. unfold all_panels in *; cbn.
    destruct H as (_ & Hp & Lu & _). rewrite Hp, IH1, !app_length, IH2, Lu. split; [|reflexivity]. symmetry. apply map2_app. auto. }
  destruct P2 as [P2 L2].
  assert (Hp1 : nth_error (all_panels l) i = Some p1) by (rewrite <- flat_panels_snd, nth_error_map, Hi1; reflexivity).
  assert (Hp : nth_error (all_panels l') i = Some p) by (rewrite <- flat_panels_snd, nth_error_map, Hi; reflexivity).
  rewrite P2, nth_error_map2, Hp1 in Hp.
  assert (Hu : nth_error (concat us) i = nth_error loads i).
  { assert (Ecm' : combine (map fst loads) (map snd loads) = loads).
    { clear. induction loads as [|[f m] l IH]; cbn; congruence. }
    rewrite Ecm' in Ecm. rewrite Ecm, nth_error_app1; [reflexivity|].
    rewrite L2. apply nth_error_Some. rewrite Hp1; discriminate. }
  rewrite Hu in Hp. destruct (nth_error loads i) as [fm|]; [|discriminate]. apply Some_eq in Hp. exists fm. repeat (split; [assumption || reflexivity|]). symmetry; exact Hp.
Qed.

(** A panel of a well meshed wing is where it says. *)
Lemma meshed_position w v c j p q : Forall2 (Forall2 same_panel) (w_panels w) (w_panels v) -> well_meshed (w_panels v) -> same_panel p q ->
  In p (ravel (w_panels w)) -> at_position (w_panels v) c j q -> at_position (w_panels w) c j p.
Proof.
  intros FS HM HP Hin Hq. apply in_ravel_position in Hin. destruct Hin as (c1 & j1 & H1).
  destruct (position_rel_l _ _ _ _ _ _ FS H1) as (q1 & Hq1 & HS).
  destruct Hq as (rw & Hc & Hj). destruct Hq1 as (rw1 & Hc1 & Hj1). destruct HM as [_ HM].
  pose proof (HM _ _ _ _ Hc Hj) as X. pose proof (HM _ _ _ _ Hc1 Hj1) as Y.
  destruct X as (_ & _ & _ & _ & X1 & X2). destruct Y as (_ & _ & _ & _ & Y1 & Y2).
  destruct HP as (_ & _ & _ & _ & _ & _ & _ & _ & E1 & E2). destruct HS as (_ & _ & _ & _ & _ & _ & _ & _ & E3 & E4).
  assert (c1 = c) by congruence. assert (j1 = j) by congruence. subst. exact H1.
Qed.
Lemma well_meshed_same m n : Forall2 (Forall2 same_panel) m n -> well_meshed m -> well_meshed n.
Proof.
  intros HF [H1 H2]. split.
  - intros row Hin. apply In_nth_error in Hin. destruct Hin as [i Hi]. destruct (Forall2_nth _ _ _ HF i row Hi) as (row0 & H0 & Fr).
    rewrite <- (Forall2_length _ _ _ Fr), (H1 row0) by (eapply nth_error_In; eauto). destruct HF as [|r r' l l' Fh _]; [reflexivity|]. cbn. apply (Forall2_length _ _ _ Fh).
  - intros c row s p Hc Hs. destruct (Forall2_nth _ _ _ HF c row Hc) as (row0 & Hc0 & Fr). destruct (Forall2_nth _ _ _ Fr s p Hs) as (p0 & Hs0 & Hp).
    specialize (H2 _ _ _ _ Hc0 Hs0). rewrite <- (Forall2_length _ _ _ HF), <- (Forall2_length _ _ _ Fr).
    destruct Hp as (_ & _ & _ & _ & E1 & E2 & E3 & E4 & E5 & E6). rewrite E1, E2, E3, E4, E5, E6. exact H2.
Qed.
Lemma Forall2_flip_same m n : Forall2 (Forall2 same_panel) m n -> Forall2 (Forall2 same_panel) n m.
Proof.
  intros HF. apply Forall2_flip. eapply Forall2_impl; [|exact HF]. intros a b H. apply Forall2_flip. eapply Forall2_impl; [|exact H]. intros. apply same_panel_sym. assumption.
Qed.

Section Loads.
  Variable solve : list (list R) -> list R -> result (list R).
  Hypothesis HS : SolveSpec solve.
  Variable prescribed : bool.

  Lemma step_meshed up n s k sp a w : created up -> has_run solve prescribed up n s -> step_at s k sp -> In a (sp_airplanes sp) -> In w (a_wings a) -> well_meshed (w_panels w).
  Proof.
    intros HC HR Hsp Ha Hw. destruct (has_run_history _ HS _ _ _ _ HC HR) as (F & up1 & conv & sa & HH). pose proof (hi_meshed _ _ _ _ _ _ _ _ _ HH) as HM.
    pose proof (steps_kept _ HS _ _ _ _ HC HR) as HK. destruct (Forall2_nth _ _ _ HK _ _ Hsp) as (sp0 & H0 & [_ HK0]).
    apply In_nth_error in Ha. destruct Ha as [ia Ha]. destruct (Forall2_nth _ _ _ HK0 _ _ Ha) as (a0 & Ha0 & [FW _]).
    apply In_nth_error in Hw. destruct Hw as [iw Hw]. destruct (Forall2_nth _ _ _ FW _ _ Hw) as (w0 & Hw0 & [_ FP]).
    eapply well_meshed_same; [exact FP|]. pose proof (proj1 (proj2 (mp_steps _ _ HM sp0 (nth_error_In _ _ H0)))) as FM. rewrite Forall_forall in FM. apply FM.
    unfold step_wings. apply in_concat. exists (a_wings a0). split; [apply in_map_iff; exists a0; split; [reflexivity | eapply nth_error_In; exact Ha0] | eapply nth_error_In; exact Hw0].
  Qed.

  Lemma unsteady_kutta_joukowski up n s i a w c j p : created up -> has_run solve prescribed up (S n) s -> up_delta_time up <> 0 ->
    (up_first_results_step up <= Z.of_nat n)%Z -> panel_place s n i a w c j p ->
    exists op r ur uf ul vr vf vl g,
      (exists sp, step_at s n sp /\ op = sp_operating_point sp) /\
      p_ring_vortex p = Some r /\ ring_consistent r /\
      unsteady_solution_velocity s [lv_center (rv_right_leg r)] = Ok [ur] /\ apparent_velocity right_center s n i vr /\
      unsteady_solution_velocity s [lv_center (rv_front_leg r)] = Ok [uf] /\ apparent_velocity front_center s n i vf /\
      unsteady_solution_velocity s [lv_center (rv_left_leg r)] = Ok [ul] /\ apparent_velocity left_center s n i vl /\
      last_circulation s n i g /\
      let rho := op_density op in
      let fr := vscale (rho * net_right (w_panels w) c j) (vcross (vadd ur vr) (lv_vector (rv_right_leg r))) in
      let ff := vscale (rho * net_front (w_panels w) c j) (vcross (vadd uf vf) (lv_vector (rv_front_leg r))) in
      let fl := vscale (rho * net_left (w_panels w) c j) (vcross (vadd ul vl) (lv_vector (rv_left_leg r))) in
      let fu := vscale (rho * ((rv_strength r - g) / up_delta_time up) * p_area p) (p_unit_normal p) in
      p_force_geometry p = Some (vadd (vadd (vadd ff fl) fr) fu) /\
      p_moment_geometry p =
        Some (vadd (vadd (vadd (vcross (vsub (lv_center (rv_front_leg r)) (a_xyz_ref a)) ff)
                               (vcross (vsub (lv_center (rv_left_leg r)) (a_xyz_ref a)) fl))
                         (vcross (vsub (lv_center (rv_right_leg r)) (a_xyz_ref a)) fr))
                   (vcross (vsub (p_collocation_point p) (a_xyz_ref a)) fu)).
  Proof.
    intros HC HR Hdt Hfirst (sp' & Hsp' & Hi & Hpos). destruct (newest_ok _ HS prescribed up n s HC HR) as (sp & rows & la & xs & grids & HN).
    destruct (has_run_history _ HS _ _ _ _ HC HR) as (F & up1 & conv & sa & HH). pose proof (hi_time _ _ _ _ _ _ _ _ _ HH) as Et. clear HH up1 conv sa F.
    assert (sp' = sp) by (pose proof (nw_step _ _ _ _ _ _ _ _ HN); unfold step_at in *; congruence). subst sp'.
    destruct (flapping_nth _ _ _ _ _ _ _ _ rr_right_center la_right_centers right_center HN Hdt Et) as [Lr Vr]; [right; left; reflexivity|].
    destruct (flapping_nth _ _ _ _ _ _ _ _ rr_front_center la_front_centers front_center HN Hdt Et) as [Lf Vf]; [right; right; left; reflexivity|].
    destruct (flapping_nth _ _ _ _ _ _ _ _ rr_left_center la_left_centers left_center HN Hdt Et) as [Ll Vl]; [right; right; right; left; reflexivity|].
    destruct HN as [N1 N2 N3 N4 N5 N6 N7 N8 N9].
    destruct (Z.leb_spec (up_first_results_step up) (Z.of_nat n)) as [_|X]; [|lia]. destruct N9 as (l1 & loads & El & Ep).
    destruct (process_forces_nth _ _ _ _ _ _ _ _ Ep Hi) as (a1 & w1 & p1 & fm & Hi1 & Ka & Kw & Kp & Hfm & Efm).
    assert (Hp : nth_error (step_panels sp) i = Some p) by (unfold step_panels; rewrite <- flat_panels_snd, nth_error_map, Hi; reflexivity).
    destruct (Forall2_nth _ _ _ N2 _ _ Hp) as (row & Hrow & HL). destruct HL as (HSP & r & Hr & Hcons & _ & _ & _ & _ & C1 & C2 & C3 & C4).
    destruct (Forall2_nth_l _ _ _ N8 _ _ Hrow) as (x & Hx & Href). rewrite Hi in Hx. apply Some_eq in Hx. subst x. cbn [fst snd] in Href.
    assert (Hxs : nth_error xs i = Some (rv_strength r)) by (rewrite <- N3, nth_error_map, Hp; cbn; unfold strength_of; rewrite Hr; reflexivity).
    pose proof (in_flat (sp_airplanes sp) a w p) as Hin. pose proof (proj1 Hin (nth_error_In _ _ Hi)) as (Ha & Hw & _).
    pose proof (step_meshed up (S n) s n sp a w HC HR Hsp' Ha Hw) as HMw.
    assert (FSw : Forall2 (Forall2 same_panel) (w_panels w1) (w_panels w)) by apply (proj1 Kw).
    assert (HMw1 : well_meshed (w_panels w1)) by (eapply well_meshed_same; [apply Forall2_flip_same; exact FSw | exact HMw]).
    assert (Hpos1 : at_position (w_panels w1) c j p1).
    { eapply meshed_position; [exact FSw | exact HMw | exact (proj1 Kp) | | exact Hpos]. apply nth_error_In in Hi1. apply in_flat in Hi1. apply Hi1. }
    unfold unsteady_loads in El. apply bind_Ok in El. destruct El as (eff & Eeff & El). cbn beta zeta in El. apply Ok_eq in El. apply mapM_Forall2 in Eeff.
    assert (Hcomb : nth_error (combine (flat_panels l1) xs) i = Some ((a1, w1, p1), rv_strength r)) by (rewrite nth_error_combine, Hi1, Hxs; reflexivity).
    destruct (Forall2_nth_l _ _ _ Eeff i _ Hcomb) as ([[gr gf] gl] & Hv & Heff).
    assert (Hcirc : rv_strength r = circulation (w_panels w1) c j).
    { destruct Hpos1 as (rw1 & Hc1 & Hj1). unfold circulation. rewrite Hc1, Hj1. destruct Kp as (_ & Kr & _). rewrite <- Kr, Hr. reflexivity. }
    destruct (effective_is_net _ _ _ _ _ _ _ _ _ HMw1 Hpos1 Heff Hcirc) as (-> & -> & ->).
    assert (Enr : net_right (w_panels w) c j = net_right (w_panels w1) c j).
    { unfold net_right. rewrite !(circulation_kept w1 w) by exact Kw. reflexivity. }
    assert (Enf : net_front (w_panels w) c j = net_front (w_panels w1) c j).
    { unfold net_front. destruct c; rewrite !(circulation_kept w1 w) by exact Kw; reflexivity. }
    assert (Enl : net_left (w_panels w) c j = net_left (w_panels w1) c j).
    { unfold net_left. destruct j; rewrite !(circulation_kept w1 w) by exact Kw; reflexivity. }
    rewrite Enr, Enf, Enl. clear Enr Enf Enl.
    set (cur := step_current n (up_delta_time up) (sp_operating_point sp) rows la (record_of (concat (map (@concat ring_vortex) grids))) xs) in *.
    assert (Hil : (i < length rows)%nat) by (apply nth_error_Some; congruence).
    destruct (nth_in_range (flapping_velocities n (up_delta_time up) (map rr_right_center rows) (la_right_centers la)) i ltac:(rewrite Lr; exact Hil)) as [vr Hvr].
    destruct (nth_in_range (flapping_velocities n (up_delta_time up) (map rr_front_center rows) (la_front_centers la)) i ltac:(rewrite Lf; exact Hil)) as [vf Hvf].
    destruct (nth_in_range (flapping_velocities n (up_delta_time up) (map rr_left_center rows) (la_left_centers la)) i ltac:(rewrite Ll; exact Hil)) as [vl Hvl].
    assert (exists vel, forall points, current_velocity cur points = map vel points) as [vel Hvel].
    { eexists. intros points. unfold current_velocity. apply velocity_pointwise. }
    assert (Hg : exists g, nth_error (la_strengths la) i = Some g /\ last_circulation s n i g).
    { destruct n as [|m].
      - subst la. cbn [no_last la_strengths]. destruct (nth_in_range (repeat 0 (length rows)) i ltac:(rewrite repeat_length; exact Hil)) as [g Hg]. exists g. split; [exact Hg|].
        cbn. apply nth_error_In in Hg. apply repeat_spec in Hg. exact Hg.
      - destruct N7 as (sp1 & rows1 & Hs1 & F1 & Ela & L1 & Est). rewrite Est.
        destruct (nth_in_range (step_panels sp1) i ltac:(rewrite <- (Forall2_length _ _ _ F1), L1; exact Hil)) as [q Hq]. exists (strength_of q). rewrite nth_error_map, Hq. split; [reflexivity|].
        exists q. split; [exists sp1; auto | reflexivity]. }
    destruct Hg as (g & Hg & Hlast).
    assert (Hsol : forall x, unsteady_solution_velocity s [x] = Ok [vel x]).
    { intros x. unfold unsteady_solution_velocity. rewrite N5. fold cur. rewrite Hvel. reflexivity. }
    assert (Hload : fm = unsteady_panel_loads (op_density (sp_operating_point sp)) (up_delta_time up) row (rv_strength r - g)
       (ring_panel_loads (op_density (sp_operating_point sp)) row (net_right (w_panels w1) c j, net_front (w_panels w1) c j, net_left (w_panels w1) c j)
          (vadd (vel (rr_right_center row)) vr) (vadd (vel (rr_front_center row)) vf) (vadd (vel (rr_left_center row)) vl))).
    { rewrite <- El in Hfm. rewrite nth_error_map2, nth_error_combine, !nth_error_map2, !nth_error_combine, Hrow, Hxs, Hg, Hv in Hfm. unfold add_rows in Hfm.
      rewrite !nth_error_map2, Hvr, Hvf, Hvl, !Hvel, !nth_error_map, Hrow in Hfm. cbn in Hfm. apply Some_eq in Hfm. symmetry. exact Hfm. }
    exists (sp_operating_point sp), r, (vel (lv_center (rv_right_leg r))), (vel (lv_center (rv_front_leg r))), (vel (lv_center (rv_left_leg r))), vr, vf, vl, g.
    split; [exists sp; auto|]. split; [exact Hr|]. split; [exact Hcons|]. split; [apply Hsol|]. split; [apply Vr, Hvr|]. split; [apply Hsol|]. split; [apply Vf, Hvf|].
    split; [apply Hsol|]. split; [apply Vl, Hvl|]. split; [exact Hlast|]. cbn zeta.
    assert (EP : p_collocation_point p = rr_collocation row /\ p_unit_normal p = rr_normal row) by apply (same_panel_collocation _ _ HSP). destruct EP as [EP1 EP2].
    assert (EA : p_area (rr_panel row) = p_area p).
    { clear -HSP. destruct HSP as (A1 & A2 & A3 & A4 & _). unfold p_area, p_cross, p_first_diagonal, p_second_diagonal. rewrite A1, A2, A3, A4. reflexivity. }
    assert (EU : vdiv (vscale (op_density (sp_operating_point sp) * (rv_strength r - g) * p_area (rr_panel row)) (rr_normal row)) (up_delta_time up) =
      vscale (op_density (sp_operating_point sp) * ((rv_strength r - g) / up_delta_time up) * p_area p) (p_unit_normal p)).
    { rewrite EA, EP2. apply vec_ext; unfold vdiv, vscale; cbn [vx vy vz]; field; exact Hdt. }
    assert (EF : p_force_geometry p = Some (fst fm) /\ p_moment_geometry p = Some (snd fm)) by (rewrite Efm; split; reflexivity). destruct EF as [-> ->].
    rewrite Hload. unfold unsteady_panel_loads, ring_panel_loads, leg_force. cbn [fst snd]. rewrite EU, C1, C2, C3, <- EP1, Href.
    destruct C4 as (-> & -> & ->). split; reflexivity.
  Qed.

  (** An earlier state of the same run. *)
  Lemma has_run_earlier up n s k : created up -> has_run solve prescribed up n s -> (k <= n)%nat -> exists s', has_run solve prescribed up k s'.
  Proof.
    intros HC HR Hk. destruct (has_run_history _ HS _ _ _ _ HC HR) as (F & up1 & conv & sa & HH).
    destruct (after_prefix _ _ _ _ _ _ (hi_after _ _ _ _ _ _ _ _ _ HH) Hk) as [sk HA]. exists sk. left. exact HA.
  Qed.
  Lemma unsteady_totals up n s k sp a : created up -> has_run solve prescribed up n s -> (k < n)%nat -> (up_first_results_step up <= Z.of_nat k)%Z ->
    step_at s k sp -> In a (sp_airplanes sp) ->
    let op := sp_operating_point sp in
    let q := op_density op * (op_velocity op * op_velocity op) / 2 in
    let S := a_s_ref a in let b := a_b_ref a in let c := a_c_ref a in
    exists fs ms fw mw cf cm,
      map p_force_geometry (airplane_panels a) = map Some fs /\ map p_moment_geometry (airplane_panels a) = map Some ms /\
      a_force_wind a = Some fw /\ a_moment_wind a = Some mw /\ a_force_coefficients a = Some cf /\ a_moment_coefficients a = Some cm /\
      mvmul (rotation_wind_to_geometry op) fw = vsum fs /\ mvmul (rotation_wind_to_geometry op) mw = vsum ms /\
      (q <> 0 -> S <> 0 -> vx cf * q * S = - vx fw /\ vy cf * q * S = vy fw /\ vz cf * q * S = - vz fw) /\
      (q <> 0 -> S <> 0 -> b <> 0 -> c <> 0 -> vx cm * q * S * b = vx mw /\ vy cm * q * S * c = vy mw /\ vz cm * q * S * b = vz mw).
  Proof.
    intros HC HR Hk Hfirst Hsp Ha. cbn zeta. destruct (has_run_earlier up n s (Datatypes.S k) HC HR Hk) as [s' HR'].
    apply (proj2 (record_kept _ HS _ _ _ _ _ _ k HC HR' HR (le_n _) Hk)) in Hsp.
    destruct (newest_ok _ HS prescribed up k s' HC HR') as (sp1 & rows & la & xs & grids & HN).
    assert (sp1 = sp) by (pose proof (nw_step _ _ _ _ _ _ _ _ HN); unfold step_at in *; congruence). subst sp1.
    pose proof (nw_loads _ _ _ _ _ _ _ _ HN) as HL. destruct (Z.leb_spec (up_first_results_step up) (Z.of_nat k)) as [_|X]; [|lia]. destruct HL as (l1 & loads & _ & Ep).
    apply In_nth_error in Ha. destruct Ha as [i Ha]. assert (L : length (map snd loads) = length (map fst loads)) by (rewrite !map_length; reflexivity).
    destruct (totals_frames _ _ _ _ _ L Ep i a Ha) as (fw & mw & cf & cm & E1 & E2 & E3 & E4 & E5 & E6 & _ & _ & _ & E7 & E8).
    destruct (proj2 (totals_of_own_panels _ _ _ _ _ L Ep) i a Ha) as (_ & _ & E9 & E10 & _).
    exists (own_entries l1 i (map fst loads)), (own_entries l1 i (map snd loads)), fw, mw, cf, cm. repeat (split; [assumption|]). exact E8.
  Qed.
End Loads.
