(** Loads in geometry and wind axes; totals reported by the steady solvers. *)
From Coq Require Import Lra Lia.
From Verif Require Import M_Loads M_Horseshoe M_SteadyRing S_Geometry S_Vortices S_Solve S_Loads L_Base L_Rotations L_Loads L_Horseshoe L_SteadyRing.

Lemma wind_axes op : proper_rotation (mtrans (rotation_wind_to_geometry op)).
Proof. apply proper_trans, w2g_proper. Qed.
Lemma wind_there_and_back op f : mvmul (rotation_wind_to_geometry op) (mvmul (mtrans (rotation_wind_to_geometry op)) f) = f.
Proof.
  pose proof (w2g_proper op) as [H _]. set (m := rotation_wind_to_geometry op) in *.
  assert (K : mtrans (mtrans m) = m) by (destruct m as [[a b c] [d e g] [h i j]]; reflexivity).
  pose proof (proper_trans _ (w2g_proper op)) as [H' _]. fold m in H'.
  assert (Z : forall u v, vdot (mvmul m u) v = vdot u (mvmul (mtrans m) v)).
  { intros u v. destruct m as [[a b c] [d e g] [h i j]]. unfold mtrans, mvmul. vunfold. ring. }
  assert (Y : forall u, vdot u (mvmul m (mvmul (mtrans m) f)) = vdot u f).
  { intros u. rewrite (vdot_comm u), Z, H', vdot_comm. reflexivity. }
  pose proof (Y (mkvec 1 0 0)) as A. pose proof (Y (mkvec 0 1 0)) as B. pose proof (Y (mkvec 0 0 1)) as C.
  clear -A B C. unfold vdot in *. cbn [vx vy vz] in *. apply vec_ext; lra.
Qed.

Lemma Some_eq {A} (x y : A) : Some x = Some y -> x = y.
Proof. congruence. Qed.

(** What the reported loads of one airplane satisfy. *)
Lemma totals_frames op forces moments airplanes airplanes' : length moments = length forces ->
  process_forces op forces moments airplanes = Ok airplanes' ->
  forall k a', nth_error airplanes' k = Some a' ->
  let fg := vsum (own_entries airplanes k forces) in
  let mg := vsum (own_entries airplanes k moments) in
  let q := op_density op * (op_velocity op * op_velocity op) / 2 in
  let S := a_s_ref a' in let b := a_b_ref a' in let c := a_c_ref a' in
  exists fw mw cf cm,
    a_force_wind a' = Some fw /\ a_moment_wind a' = Some mw /\
    a_force_coefficients a' = Some cf /\ a_moment_coefficients a' = Some cm /\
    mvmul (rotation_wind_to_geometry op) fw = fg /\ mvmul (rotation_wind_to_geometry op) mw = mg /\
    vnorm fw = vnorm fg /\ vnorm mw = vnorm mg /\ vdot fw mw = vdot fg mg /\
    (q <> 0 -> S <> 0 -> vx cf * q * S = - vx fw /\ vy cf * q * S = vy fw /\ vz cf * q * S = - vz fw) /\
    (q <> 0 -> S <> 0 -> b <> 0 -> c <> 0 ->
     vx cm * q * S * b = vx mw /\ vy cm * q * S * c = vy mw /\ vz cm * q * S * b = vz mw).
Proof.
  intros L E k a' Hk. pose proof (totals_of_own_panels _ _ _ _ _ L E) as [_ T]. specialize (T k a' Hk).
  cbv zeta in T. destruct T as (T1 & T2 & _).
  apply process_forces_sound in E. destruct E as (us & rest & _ & F).
  assert (G : exists a fms, a_s_ref a' = a_s_ref a /\ a_b_ref a' = a_b_ref a /\ a_c_ref a' = a_c_ref a /\ totalled op a fms a').
  { clear -F Hk. revert k Hk. induction F as [|a u b l us l' H _ IH]; intros [|k] Hk; cbn in Hk; try discriminate; [|eauto].
    injection Hk as <-. exists a, u. pose proof H as ((_ & _ & _ & _ & H1 & H2 & H3 & _) & _). auto. }
  destruct G as (a & fms & Es & Eb & Ec & (_ & _ & _ & F1 & F2 & F3 & F4)).
  rewrite T1 in F1. rewrite T2 in F2. apply Some_eq in F1. apply Some_eq in F2. rewrite <- F1, <- Es in F3. rewrite <- F2, <- Es, <- Eb, <- Ec in F4.
  intros fg mg q S b c. do 4 eexists. split; [exact T1|]. split; [exact T2|]. split; [exact F3|]. split; [exact F4|].
  split; [apply wind_there_and_back|]. split; [apply wind_there_and_back|].
  split; [apply orthogonal_norm; exact (proj1 (wind_axes op))|]. split; [apply orthogonal_norm; exact (proj1 (wind_axes op))|]. split; [exact (proj1 (wind_axes op) _ _)|].
  assert (Q : dynamic_pressure op = q) by (unfold dynamic_pressure, q; field).
  rewrite Q. fold S b c. clearbody q S b c.
  unfold force_coefficients, moment_coefficients; cbn [vx vy vz]. split; intros; repeat split; field; auto.
Qed.
(** The same for every panel. *)
Lemma panels_frames op forces moments airplanes airplanes' : length moments = length forces ->
  process_forces op forces moments airplanes = Ok airplanes' ->
  forall p, In p (all_panels airplanes') ->
  let q := op_density op * (op_velocity op * op_velocity op) / 2 in
  exists fg mg fw mw cd cy cl,
    In (fg, mg) (combine forces moments) /\
    p_force_geometry p = Some fg /\ p_moment_geometry p = Some mg /\ p_force_wind p = Some fw /\ p_moment_wind p = Some mw /\
    p_induced_drag_coefficient p = Some cd /\ p_side_force_coefficient p = Some cy /\ p_lift_coefficient p = Some cl /\
    mvmul (rotation_wind_to_geometry op) fw = fg /\ mvmul (rotation_wind_to_geometry op) mw = mg /\
    vnorm fw = vnorm fg /\ vnorm mw = vnorm mg /\ vdot fw mw = vdot fg mg /\
    (q <> 0 -> p_area p <> 0 -> cd * q * p_area p = - vx fw /\ cy * q * p_area p = vy fw /\ cl * q * p_area p = - vz fw).
Proof.
  intros L E p Hp. apply process_forces_sound in E. destruct E as (us & rest & Ec & F). intros q.
  assert (G : exists p0 fm, In fm (concat us) /\ p = loaded op p0 fm).
  { clear -F Hp. unfold all_panels in Hp. induction F as [|a u b l us l' H _ IH]; cbn in Hp; [contradiction|].
    apply in_app_or in Hp. destruct Hp as [Hp|Hp].
    - destruct H as (_ & Hb & Lu & _). rewrite Hb in Hp. cbn [concat].
      assert (K : exists p0 fm, In fm u /\ p = loaded op p0 fm).
      { clear -Hp. revert u Hp. induction (airplane_panels a) as [|x xs IH]; intros [|y ys] Hp; cbn in Hp; try contradiction.
        destruct Hp as [<-|Hp]; [exists x, y; cbn; auto|]. destruct (IH _ Hp) as (p0 & fm & H1 & H2). exists p0, fm; cbn; auto. }
      destruct K as (p0 & fm & H1 & H2). exists p0, fm. rewrite in_app_iff. auto.
    - destruct (IH Hp) as (p0 & fm & H1 & H2). exists p0, fm. cbn [concat]. rewrite in_app_iff. auto. }
  destruct G as (p0 & [fg mg] & Hin & ->).
  exists fg, mg, (mvmul (mtrans (rotation_wind_to_geometry op)) fg), (mvmul (mtrans (rotation_wind_to_geometry op)) mg). do 3 eexists.
  split. { rewrite Ec. apply in_or_app; auto. }
  unfold loaded, p_set_loads; cbn [fst snd p_force_geometry p_moment_geometry p_force_wind p_moment_wind p_induced_drag_coefficient p_side_force_coefficient p_lift_coefficient].
  repeat (split; [reflexivity|]).
  split; [apply wind_there_and_back|]. split; [apply wind_there_and_back|].
  split; [apply orthogonal_norm; exact (proj1 (wind_axes op))|]. split; [apply orthogonal_norm; exact (proj1 (wind_axes op))|]. split; [exact (proj1 (wind_axes op) _ _)|].
  match goal with |- _ -> p_area ?P <> 0 -> _ => change (p_area P) with (p_area p0) end.
  assert (Q : dynamic_pressure op = q) by (unfold dynamic_pressure, q; field). rewrite Q. clearbody q.
  intros; repeat split; field; auto.
Qed.

(** What a solver reports for an airplane: sums over its own panels. *)
Lemma process_totals op forces moments airplanes airplanes' :
  process_forces op forces moments airplanes = Ok airplanes' ->
  forall a, In a airplanes' -> exists fs ms,
    map p_force_geometry (airplane_panels a) = map Some fs /\
    map p_moment_geometry (airplane_panels a) = map Some ms /\
    a_force_wind a = Some (mvmul (mtrans (rotation_wind_to_geometry op)) (vsum fs)) /\
    a_moment_wind a = Some (mvmul (mtrans (rotation_wind_to_geometry op)) (vsum ms)).
Proof.
  intros E. apply process_forces_sound in E. destruct E as (us & rest & _ & F).
  induction F as [|a u b l us l' H _ IH]; intros x; [intros []|]. intros [<-|Hx]; [|apply IH, Hx].
  destruct H as (Hs & Hb & Lu & F1 & F2 & _). exists (map fst u), (map snd u).
  rewrite Hb, F1, F2. repeat split; clear -Lu; revert u Lu; induction (airplane_panels a) as [|x xs IH]; intros [|y ys] Lu; cbn in *; try discriminate; try reflexivity;
    f_equal; apply IH; lia.
Qed.
Lemma hs_run_totals solve s s' : hs_run solve s = Ok s' ->
  forall a, In a (hso_airplanes s') -> exists fs ms,
    map p_force_geometry (airplane_panels a) = map Some fs /\
    map p_moment_geometry (airplane_panels a) = map Some ms /\
    a_force_wind a = Some (mvmul (mtrans (rotation_wind_to_geometry (hso_op s))) (vsum fs)) /\
    a_moment_wind a = Some (mvmul (mtrans (rotation_wind_to_geometry (hso_op s))) (vsum ms)).
Proof.
  intros E. apply hs_run_inv in E. cbv zeta in E. destruct E as (_ & _ & _ & _ & _ & _ & l & _ & E). eapply process_totals, E.
Qed.
Lemma ring_run_totals solve s s' : ring_run solve s = Ok s' ->
  forall a, In a (rso_airplanes s') -> exists fs ms,
    map p_force_geometry (airplane_panels a) = map Some fs /\
    map p_moment_geometry (airplane_panels a) = map Some ms /\
    a_force_wind a = Some (mvmul (mtrans (rotation_wind_to_geometry (rso_op s))) (vsum fs)) /\
    a_moment_wind a = Some (mvmul (mtrans (rotation_wind_to_geometry (rso_op s))) (vsum ms)).
Proof.
  intros E. apply ring_run_inv in E. cbv zeta in E. destruct E as (l0 & l1 & loads & _ & _ & _ & _ & _ & _ & _ & _ & _ & E). eapply process_totals, E.
Qed.

(** No circulation, no load. *)
Lemma hs_no_load solve s s' : SolveSpec solve -> hs_run solve s = Ok s' ->
  forall a p h, In a (hso_airplanes s') -> In p (airplane_panels a) -> p_horseshoe_vortex p = Some h -> hs_strength h = 0 ->
  p_force_geometry p = Some vzero /\ p_moment_geometry p = Some vzero.
Proof.
  intros HS E a p h Ha Hp Hh Hz. destruct (horseshoe_kutta_joukowski _ _ _ HS E a p Ha Hp) as (h' & v & f & Hh' & _ & _ & _ & _ & Hf & -> & -> & _).
  rewrite Hh in Hh'. injection Hh' as <-. rewrite Hz in Hf. subst f. clear. split; f_equal; vring.
Qed.
Lemma ring_no_load solve s s' : SolveSpec solve -> sized_ring s ->
  (forall a w, In a (rso_airplanes s) -> In w (a_wings a) -> well_meshed (w_panels w)) ->
  ring_run solve s = Ok s' ->
  forall a w c j p, In a (rso_airplanes s') -> In w (a_wings a) -> at_position (w_panels w) c j p ->
  net_right (w_panels w) c j = 0 -> net_front (w_panels w) c j = 0 -> net_left (w_panels w) c j = 0 ->
  p_force_geometry p = Some vzero /\ p_moment_geometry p = Some vzero.
Proof.
  intros HS Hsz Hm E a w c j p Ha Hw Hp Z1 Z2 Z3.
  destruct (ring_kutta_joukowski _ _ _ HS Hsz Hm E a w c j p Ha Hw Hp) as (r & vr & vf & vl & _ & _ & _ & _ & _ & H).
  cbv zeta in H. rewrite Z1, Z2, Z3 in H. destruct H as (-> & -> & _). clear. split; f_equal; vring.
Qed.
