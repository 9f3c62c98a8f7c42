(** A wake that is not attached to the right ends of the trailing edge panels. *)
From Coq Require Import String List ZArith Lia Lra Reals Bool.
From Verif Require Import M_Unsteady S_Solve S_Unsteady S_UnsteadyRun L_Base L_Loads L_Gauss L_Movement L_Wake L_UnsteadyStep L_UnsteadyRun L_UnsteadyProps L_UnsteadyProps2 L_UnsteadyStill L_Example4 L_SymmetricExample L_FlapExample.
Import ListNotations.
Local Open Scope R_scope.
Local Open Scope list_scope.

Lemma wake_gap (only prescribed lines : bool) : exists am mv up s g w ring p,
  new_movement [am] calm (Some 3%Z) None None (Some 1) = Ok mv /\ new_unsteady_problem mv only = Ok up /\ finished gauss_solve prescribed lines up s /\
  wake_is s 1 [g] /\ wing_at s 1 0 w /\ entry g 0 2 ring /\ nth_error (trailing_panels w) 2 = Some p /\ rv_front_right ring <> back_right_of p.
Proof.
  destruct (flap_problem only) as (w & mv & up & Hm & Hup & Edt & L & EP & EN & Hst).
  assert (HC : created up) by (do 7 eexists; exists only; split; [exact Hm | exact Hup]).
  destruct (flap_run gauss_solve gauss_solve_spec prescribed up w HC Edt ltac:(lia) EP Hst lines) as [s Hs].
  assert (HR : has_run gauss_solve prescribed up 3 s) by (right; split; [exists lines; exact Hs | symmetry; exact L]).
  pose proof (steps_kept _ gauss_solve_spec _ _ _ _ HC HR) as FK. pose proof (Forall2_length _ _ _ FK) as LK. rewrite L in LK.
  destruct (nth_in_range (up_steady_problems (us_problem s)) 1 ltac:(lia)) as [sp Hsp].
  destruct (flap_flight gauss_solve gauss_solve_spec prescribed up w HC Edt EP Hst _ _ _ _ HR Hsp) as (w1 & ps & EW & EPs & FP & HV).
  assert (Hw1 : wing_at s 1 0 w1) by (exists sp; split; [exact Hsp | rewrite EW; reflexivity]).
  assert (ET : trailing_panels w1 = ps) by (unfold trailing_panels; rewrite EPs; reflexivity).
  assert (LP : List.length ps = 4%nat) by (rewrite <- (Forall2_length _ _ _ FP); reflexivity).
  destruct (wake_recorded _ gauss_solve_spec _ _ _ _ 1 HC HR ltac:(lia)) as (grids & Hg & _).
  assert (exists g, grids = [g] /\ grid 1 (w_num_spanwise_panels w1) g) as (g & -> & HG).
  { destruct Hg as (sp' & Hsp' & FG & _). assert (sp' = sp) by (unfold step_at in *; congruence). subst sp'. rewrite EW in FG. inversion FG as [|? g ? gs G FG' X1 X2]; subst. inversion FG'; subst. eauto. }
  assert (ES : w_num_spanwise_panels w1 = 4%nat).
  { destruct (Forall2_nth _ _ _ FK _ _ Hsp) as (sp0 & H0 & HK). destruct (Hst _ _ H0) as (EA & _). pose proof (kept_step_wings _ _ HK) as FW. rewrite EA, EW in FW. inversion FW as [|? ? ? ? [E _] _ X1 X2]; subst.
    rewrite E. exact EN. }
  destruct (entry_exists _ _ _ 0 2 HG ltac:(lia) ltac:(lia)) as [r Hr].
  destruct (nth_in_range ps 2 ltac:(lia)) as [p2 Hp2]. destruct (nth_in_range ps 3 ltac:(lia)) as [p3 Hp3].
  exists (still_airplane (flap_movement w)), mv, up, s, g, w1, r, p2. rewrite ET. repeat (split; [assumption|]).
  destruct (wake_attached _ gauss_solve_spec prescribed up 3 s 1 [g] 0 g w1 2 r p2 HC HR (le_n_S 0 2 (Nat.le_0_l 2)) Hg eq_refl Hr Hw1) as (_ & W2 & _); [rewrite ET; exact Hp2|].
  rewrite (W2 p3 ltac:(rewrite ET; exact Hp3)). destruct (HV _ _ Hp2) as (r2 & R2 & _ & _ & _ & _ & B2). destruct (HV _ _ Hp3) as (r3 & R3 & _ & _ & _ & B3 & _).
  unfold back_left_of, back_right_of. rewrite R2, R3, B2, B3. intros E. apply (f_equal vz) in E. cbn in E. lra.
Qed.
