(** The time step of movements that are given none. *)
From Coq Require Import List ZArith Lia Lra Reals.
From Verif Require Import M_Movement S_Continuous S_ContinuousMovement S_ContinuousDefault L_Base L_Loads L_Geometry L_RigidShift L_Limits.
Import ListNotations.
Local Open Scope R_scope.

Definition panel_times (ams : list airplane_movement) (v : R) : result (list R) :=
  mapM (fun m => let* w := index (a_wings (am_base m)) 0 in Ok (a_c_ref (am_base m) / INR (w_num_chordwise_panels w) / v)) ams.
Lemma index_head {A} (l : list A) : index l 0 = match hd_error l with Some x => Ok x | None => Err EIndexError end.
Proof. destruct l; reflexivity. Qed.
Definition winged (am : airplane_movement) : Prop := main_chordwise_panels am <> None.
Lemma panel_times_ok ams v : Forall winged ams -> panel_times ams v = Ok (map (panel_time v) ams).
Proof.
  unfold panel_times. induction 1 as [|am ams H HF IH]; [reflexivity|]. cbn [mapM map]. rewrite IH. unfold winged, panel_time, main_chordwise_panels in *. rewrite index_head. destruct (hd_error (a_wings (am_base am))); [reflexivity | contradiction H; reflexivity].
Qed.
Lemma panel_times_winged ams v l : panel_times ams v = Ok l -> Forall winged ams.
Proof.
  unfold panel_times. revert l. induction ams as [|am ams IH]; intros l E; [constructor|]. cbn [mapM] in E. apply bind_Ok in E. destruct E as (x & Ex & E). apply bind_Ok in E. destruct E as (y & Ey & _). constructor; [|eauto].
  rewrite index_head in Ex. unfold winged, main_chordwise_panels. destruct (hd_error (a_wings (am_base am))); [discriminate | discriminate Ex].
Qed.
Lemma default_used ams om s cy ch : ams <> [] -> Forall winged ams -> new_movement ams om s cy ch None = new_movement ams om s cy ch (Some (default_time_step ams om)).
Proof.
  intros HN HW. unfold new_movement. fold (panel_times ams (op_velocity (om_base om))). rewrite (panel_times_ok _ _ HW).
  cbn [bind]. rewrite map_length. replace (Nat.eqb (length ams) 0) with false by (destruct ams; [contradiction HN; reflexivity | reflexivity]). reflexivity.
Qed.
Lemma default_winged ams om s cy ch m : new_movement ams om s cy ch None = Ok m -> ams <> [] /\ Forall winged ams.
Proof.
  unfold new_movement. fold (panel_times ams (op_velocity (om_base om))). intros E. do 2 (apply bind_Ok in E; destruct E as (? & _ & E)). cbn zeta in E. apply bind_Ok in E. destruct E as (dt & Ed & _).
  apply bind_Ok in Ed. destruct Ed as (dts & Et & Ed). split; [|exact (panel_times_winged _ _ _ Et)].
  intros ->. cbn in Et. apply Ok_eq in Et. subst dts. discriminate.
Qed.
Lemma given_step ams om s cy ch dt m : new_movement ams om s cy ch (Some dt) = Ok m -> mv_delta_time m = dt.
Proof.
  unfold new_movement. intros E. do 2 (apply bind_Ok in E; destruct E as (? & _ & E)). cbn [bind] in E. apply bind_Ok in E. destruct E as ([[n cy'] ch'] & _ & E). do 2 (apply bind_Ok in E; destruct E as (? & _ & E)). apply Ok_eq in E. subst m. reflexivity.
Qed.
Lemma approaching_winged AMS ams n : each approaching_base AMS ams -> Forall winged ams -> Forall winged (AMS n).
Proof.
  induction 1 as [u E | u x l a k E T H IH]; intros F; rewrite E; [constructor|]. inversion F; subst. constructor; [|auto]. unfold winged in *. rewrite (proj2 T n). assumption.
Qed.
Lemma default_tends AMS ams OM om : each approaching_base AMS ams -> tends (fun n => op_velocity (om_base (OM n))) (op_velocity (om_base om)) -> op_velocity (om_base om) <> 0 ->
  tends (fun n => default_time_step (AMS n) (OM n)) (default_time_step ams om).
Proof.
  intros HA HV H0. unfold default_time_step. pose proof (each_length _ _ _ HA) as EL.
  eapply tends_ext; [intros n; rewrite EL; reflexivity|]. unfold Rdiv. apply tends_mult; [|apply tends_const]. apply tends_rsum.
  apply (each_map approaching_base tends (fun n => panel_time (op_velocity (om_base (OM n)))) (panel_time (op_velocity (om_base om)))); [|exact HA].
  intros x a _ [T E]. unfold panel_time. destruct (main_chordwise_panels a) as [k|] eqn:Ek.
  - eapply tends_ext; [intros n; rewrite (E n); reflexivity|]. apply tends_div; [exact H0 | | exact HV]. unfold Rdiv. apply tends_mult; [exact T | apply tends_const].
  - eapply tends_ext; [intros n; rewrite (E n); reflexivity|]. apply tends_const.
Qed.
Lemma default_continuous AMS ams OM om s cy ch m : each approaching_base AMS ams -> approaching_op_movement OM om -> op_velocity (om_base om) <> 0 ->
  new_movement ams om s cy ch None = Ok m ->
  new_movement ams om s cy ch (Some (mv_delta_time m)) = Ok m /\ mv_delta_time m = default_time_step ams om /\
  tends (fun n => default_time_step (AMS n) (OM n)) (mv_delta_time m) /\
  forall n, new_movement (AMS n) (OM n) s cy ch None = new_movement (AMS n) (OM n) s cy ch (Some (default_time_step (AMS n) (OM n))).
Proof.
  intros HA [[_ [HV _]] _] H0 E. destruct (default_winged _ _ _ _ _ _ E) as [HN HW]. pose proof E as E'. rewrite (default_used _ _ _ _ _ HN HW) in E'.
  pose proof (given_step _ _ _ _ _ _ _ E') as Ed. rewrite Ed. split; [exact E'|]. split; [reflexivity|]. split; [exact (default_tends _ _ _ _ HA HV H0)|].
  intros n. apply default_used; [|exact (approaching_winged _ _ n HA HW)]. intros C. pose proof (each_length _ _ _ HA n) as L. rewrite C in L. destruct ams; [contradiction HN; reflexivity | discriminate L].
Qed.
