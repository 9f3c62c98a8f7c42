(** A run in calm air whose loads are averaged over its last two steps. *)
From Coq Require Import List ZArith Lia Lra Bool Reals String.
From Verif Require Import M_Unsteady S_UnsteadyRun S_Solve S_Movement S_Averages L_Base L_Loads L_Geometry L_Movement L_Snapshots L_Problems L_Example3 L_Example4 L_Gauss L_UnsteadyFinal L_UnsteadyStill
  L_Example L_FlapExample L_GrazingExample L_AnalysisExample L_AnalysisExample2 L_UnsteadyLoads.
Import ListNotations.
Local Open Scope R_scope.
Local Open Scope list_scope.

(** A wind that swings with a period of two seconds, by nothing. *)
Definition idle_wind : op_movement := mkopmove (om_base calm) (mkosc 0 2 "sine").
Lemma idle_averages (only prescribed lines : bool) : exists m up s,
  new_movement [wide_movement 0] idle_wind (Some 3%Z) None None (Some 1) = Ok m /\ new_unsteady_problem m only = Ok up /\ finished gauss_solve prescribed lines up s /\
  up_max_period up <> 0 /\ up_num_steps up = 3%Z /\ up_first_averaging_step up = 1%Z /\ same_scales up s 0 8 16 4 4.
Proof.
  assert (Hg : good_spacing resting) by (left; reflexivity). assert (HA : Forall airplane_movable [wide_movement 0]) by (constructor; [apply wide_movable | constructor]).
  destruct (proj2 (movement_succeeds [wide_movement 0] idle_wind (Some 3%Z) None None 1 3 eq_refl ltac:(lia))) as [mv Hm]; [split; [reflexivity|]; split; [reflexivity|]; split; [exact HA | left; reflexivity]|].
  destruct (movement_built _ _ _ _ _ _ _ Hm) as (B1 & B2 & HD & (HN & _) & EA & EO).
  destruct (unsteady_succeeds _ _ _ _ _ _ _ only Hm) as [up Hup]; [apply movable_populated; [discriminate | exact HA]|].
  destruct (unsteady_built _ _ _ Hup) as (_ & U1 & Edt & U3 & U4 & U5 & _ & _ & _ & _ & HL & HS).
  assert (HC : created up) by (do 7 eexists; exists only; split; [exact Hm | exact Hup]).
  assert (EP : up_max_period up = 2).
  { eapply largest_unique; [unfold mv_max_period in U4; rewrite B1, B2 in U4; apply max_period_largest; exact U4|].
    split; [unfold all_periods; apply in_or_app; right; left; reflexivity|]. intros x Hx. unfold all_periods in Hx. cbn in Hx. repeat (destruct Hx as [<-|Hx]; [lra|]). destruct Hx. }
  rewrite HN in *. rewrite HD in *.
  cbn [mapM] in EA. apply bind_Ok in EA. destruct EA as (l & El & EA). apply bind_Ok in EA. destruct EA as (nil' & E0 & EA). apply Ok_eq in E0. subst nil'. apply Ok_eq in EA.
  destruct (generated_airplanes _ _ _ _ El) as (Ll & _ & xs & ys & zs & hs & Ex & Ey & Ez & EH & HNa).
  cbn [am_wings wide_movement mapM] in EH. apply bind_Ok in EH. destruct EH as (ws & EW & EH). apply bind_Ok in EH. destruct EH as (nil' & E0 & EH). apply Ok_eq in E0. subst nil'. apply Ok_eq in EH. subst hs.
  pose proof (static_wings _ _ _ _ EW (wide_unmoving 0) (wide_plain 0)) as ->. cbn [wide_wing_movement wm_base] in *.
  assert (HU : unmoving resting) by (left; reflexivity).
  assert (HA1 : forall i a, nth_error l i = Some a -> a = wide_airplane 0).
  { intros i a Hi. destruct (HNa i a Hi) as (x & y' & z & wings & Hx & Hy & Hz & EC & Ea).
    apply (unmoving_value _ _ _ _ _ _ _ HU Ex) in Hx. apply (unmoving_value _ _ _ _ _ _ _ HU Ey) in Hy. apply (unmoving_value _ _ _ _ _ _ _ HU Ez) in Hz. cbn [wide_movement am_base wide_airplane a_x_ref a_y_ref a_z_ref] in Hx, Hy, Hz. subst x y' z.
    apply column_spec in EC. inversion EC as [|? w ? rest Hw Hr X1 X2]; subst. inversion Hr; subst. apply nth_error_In in Hw. assert (w = wide_wing 0) by (destruct Hw as [<-|[<-|[<-|[]]]]; reflexivity). subst w.
    cbn [wide_movement am_base wide_airplane a_name] in Ea. rewrite wide_airplane_ok in Ea. apply Ok_eq in Ea. symmetry. exact Ea. }
  assert (Hst : forall i sp, nth_error (up_steady_problems up) i = Some sp -> sp_airplanes sp = [wide_airplane 0] /\ sp_operating_point sp = level_op 4 (1506 / 100000000)).
  { intros i sp Hk. destruct (HS i sp Hk) as [FA FO]. rewrite <- EA in FA. inversion FA as [|? b ? rest Hb Hr X1 X2]; subst. inversion Hr; subst.
    split; [f_equal; exact (HA1 _ _ Hb)|]. assert (HU' : unmoving (om_velocity idle_wind)) by (left; reflexivity).
    destruct (generated_operating_points _ _ _ _ EO) as (_ & _ & vs & Evs & HNo). destruct (HNo _ _ FO) as (v & Hv & ->). rewrite (unmoving_value _ _ _ _ _ _ _ HU' Evs Hv). reflexivity. }
  destruct (wide_finished gauss_solve gauss_solve_spec prescribed up HC ltac:(rewrite Edt; lra) ltac:(rewrite HL; cbn; lia) Hst lines) as [s HF].
  exists mv, up, s. split; [exact Hm|]. split; [exact Hup|]. split; [exact HF|]. split; [rewrite EP; lra|]. split; [exact U1|]. split.
  - rewrite U5, EP. unfold first_averaging_step. rdec. replace (IZR 3 - 2 / 1) with (IZR 1) by lra. assert (py_floor (IZR 1) = 1%Z) as -> by (apply floor_unique; lra). reflexivity.
  - intros k sp a _ Hsp Ha. pose proof (steps_kept _ gauss_solve_spec _ _ _ _ HC (or_intror (conj (ex_intro _ lines HF) eq_refl))) as FK. destruct (Forall2_nth _ _ _ FK _ _ Hsp) as (sp0 & H0 & KO & KA).
    destruct (Hst _ _ H0) as [E1 E2]. rewrite KO, E2. destruct (Forall2_nth _ _ _ KA _ _ Ha) as (a0 & Ha0 & _ & _ & _ & _ & R1 & R2 & R3 & _). rewrite E1 in Ha0. injection Ha0 as <-.
    rewrite R1, R2, R3. cbn [level_op op_density op_velocity wide_airplane a_s_ref a_b_ref a_c_ref]. repeat split; try lra.
Qed.
