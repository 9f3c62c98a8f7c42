(** The steady solvers on inputs that come closer and closer to given ones. *)
From Coq Require Import List Lia Lra Reals.
From Verif Require Import M_Loads M_Horseshoe M_SteadyRing S_Geometry S_Solve S_Mirror S_Solvable S_Size S_Continuous
  L_Base L_Rotations L_Loads L_Aero L_Horseshoe L_SteadyRing L_RingLegs L_Mirror L_MirrorHorseshoe L_MirrorRing L_RigidSolvers L_Solvable L_Size L_SizeSolvers L_Limits L_Continuous.
Import ListNotations.
Local Open Scope R_scope.

Lemma center_midpoint a b : vadd a (vscale (5 / 10) (vsub b a)) = midpoint a b.
Proof. unfold midpoint. apply vec_ext; cbn; lra. Qed.

(** ** The horseshoe solver *)
Section Horseshoe.
Context (Good : vec -> Prop).
Definition hrow_tends (u : nat -> hs_row) (r : hs_row) : Prop :=
  sys_tends Good hr_collocation hr_normal hs_unit u r /\ vtends (fun n => hr_ref (u n)) (hr_ref r) /\
  vtends (fun n => hr_bound_center (u n)) (hr_bound_center r) /\ Good (hr_bound_center r) /\ vtends (fun n => hr_bound_vector (u n)) (hr_bound_vector r).
Lemma hs_velocity_tends U rows G gs V v X x : each hrow_tends U rows -> each tends G gs -> length gs = length rows -> vtends V v -> vtends X x -> Good x ->
  vtends (fun n => hs_velocity_at (U n) (G n) (V n) (X n)) (hs_velocity_at rows gs v x).
Proof.
  intros HU HG _ HV HX Hx. rewrite hs_sys_velocity. eapply vtends_ext; [intros n; apply hs_sys_velocity|]. apply (velocity_tends Good hr_collocation hr_normal hs_unit); try assumption. eapply each_weaken; [|exact HU]. intros S s _ Hs. apply Hs.
Qed.
Lemma hs_loads_tends D d U rows G gs V v : tends D d -> each hrow_tends U rows -> each tends G gs -> length gs = length rows -> vtends V v ->
  each vtends (fun n => hs_forces (D n) (U n) (G n) (V n)) (hs_forces d rows gs v) /\
  each vtends (fun n => hs_moments (U n) (hs_forces (D n) (U n) (G n) (V n))) (hs_moments rows (hs_forces d rows gs v)).
Proof.
  intros HD HU HG Lg HV. assert (LU : forall n, length (G n) = length (U n)) by (intros n; rewrite (each_length _ _ _ HU), (each_length _ _ _ HG); exact Lg).
  assert (HF : each vtends (fun n => hs_forces (D n) (U n) (G n) (V n)) (hs_forces d rows gs v)).
  { rewrite hs_forces_explicit by exact Lg. eapply each_ext; [intros n; apply hs_forces_explicit, LU|].
    refine (each_map _ vtends (fun n rg => hs_row_force (D n) (hs_velocity_at (U n) (G n) (V n)) (fst rg) (snd rg)) (fun rg => hs_row_force d (hs_velocity_at rows gs v) (fst rg) (snd rg)) _ _ _ (each_combine _ _ _ _ _ _ HU HG)).
    intros W w _ (S & K & E & (_ & _ & Hc & Gc & Hv) & HK). apply (vtends_ext (fun n => hs_row_force (D n) (hs_velocity_at (U n) (G n) (V n)) (S n) (K n))); [intros n; rewrite E; reflexivity|].
    unfold hs_row_force, leg_force. apply vtends_scale; [apply tends_mult; assumption|]. apply vtends_cross; [|exact Hv]. apply hs_velocity_tends; assumption. }
  split; [exact HF|]. unfold hs_moments. refine (each_map2 hrow_tends vtends vtends (fun _ r f => vcross (vsub (hr_bound_center r) (hr_ref r)) f) (fun r f => vcross (vsub (hr_bound_center r) (hr_ref r)) f) _ _ _ _ _ HU HF).
  intros S s F f _ _ (_ & Hr & Hc & _ & _) Hf. apply vtends_cross; [apply vtends_sub; assumption | exact Hf].
Qed.
End Horseshoe.

Definition shod (u : nat -> panel) (p : panel) : Prop :=
  approaching_panel u p /\ p_cross p <> vzero /\ exists H h, (forall n, p_horseshoe_vortex (u n) = Some (H n)) /\ p_horseshoe_vortex p = Some h.
Lemma hs_init_tends O op L l : approaching_op O op -> each (approaching_airplane (fun P p => approaching_panel P p /\ p_cross p <> vzero)) L l ->
  each (approaching_airplane shod) (fun n => hs_init (O n) (L n)) (hs_init op l).
Proof.
  intros HO HL. unfold hs_init. refine (each_map _ _ (fun n => hs_init_airplane (freestream_direction (O n))) (hs_init_airplane (freestream_direction op)) _ _ _ HL). intros A a _ (H1 & H2 & H3 & H4 & H5 & HW). repeat (split; [assumption|]). cbn [a_wings hs_init_airplane a_set_wings].
  refine (each_map _ _ (fun n => hs_init_wing (freestream_direction (O n))) (hs_init_wing (freestream_direction op)) _ _ _ HW). intros W w _ (Hs & HR). split; [exact Hs|]. cbn [w_panels hs_init_wing w_set_panels].
  refine (each_map _ _ (fun n => map (hs_init_panel (freestream_direction (O n)) (w_span (W n) * 20))) (map (hs_init_panel (freestream_direction op) (w_span w * 20))) _ _ _ HR). intros R r _ Hr.
  refine (each_map _ _ (fun n => hs_init_panel (freestream_direction (O n)) (w_span (W n) * 20)) (hs_init_panel (freestream_direction op) (w_span w * 20)) _ _ _ Hr). intros P p _ (HP & HC).
  split; [exact HP|]. split; [exact HC|]. eexists _, _. split; [intros n; reflexivity | reflexivity].
Qed.
Lemma hs_rows_tends O op L l : approaching_op O op -> each (approaching_airplane (fun P p => approaching_panel P p /\ p_cross p <> vzero)) L l ->
  (forall p x, In p (panels_of l) -> In x (horseshoe_points p) -> off_edges (horseshoe_paths op l) x) ->
  each (hrow_tends (off_edges (horseshoe_paths op l))) (fun n => hs_rows_of (O n) (L n)) (hs_rows_of op l).
Proof.
  intros HO HL HG. pose proof (op_direction O op HO) as HD. unfold hs_rows_of. refine (each_map _ _ (fun n => hs_row_of (freestream_direction (O n))) (hs_row_of (freestream_direction op)) _ _ _ (flat_tends _ _ _ HL)).
  intros U x Hx (A & W & P & E & HA & HW & HP & HC). destruct x as [[a w] p]. cbn [fst snd] in *.
  assert (Hin : In p (panels_of l)) by (apply in_panels_of; rewrite <- flat_panels_snd; apply in_map_iff; exists (a, w, p); auto).
  assert (Hv : In (horseshoe_path (freestream_direction op) w p) (horseshoe_paths op l)) by (unfold horseshoe_paths; rewrite walk_flat; apply in_map_iff; exists (a, w, p); auto).
  destruct (panel_points P p HP) as (F1 & F2 & F3 & _). destruct HA as (_ & _ & _ & Href & _). destruct HW as (Hs & _).
  assert (S : each seg_tends (fun n => horseshoe_path (freestream_direction (O n)) (W n) (P n)) (horseshoe_path (freestream_direction op) w p)).
  { assert (F3' : forall Q q, vtends Q q -> vtends (fun n => vadd (Q n) (vscale (20 * w_span (W n)) (freestream_direction (O n)))) (vadd q (vscale (20 * w_span w) (freestream_direction op)))).
    { intros Q q HQ. apply vtends_add; [exact HQ|]. apply vtends_scale; [|exact HD]. apply tends_mult; [apply tends_const | exact Hs]. }
    unfold horseshoe_path, open_path. repeat (eapply each_cons; [intros n; reflexivity | split; cbn [fst snd]; auto |]). constructor. reflexivity. }
  split; [|split; [|split; [|split]]].
  - split; [eapply vtends_ext; [intros n; rewrite E; reflexivity | exact F3]|]. split; [apply (HG p); [exact Hin | left; reflexivity]|].
    split; [eapply vtends_ext; [intros n; rewrite E; reflexivity|]; exact (panel_normal P p HP HC)|].
    intros X x HX Hx'. rewrite horseshoe_path_unit. eapply vtends_ext; [intros n; rewrite E, horseshoe_path_unit; reflexivity|]. apply path_tends; [exact S | exact HX|]. intros s Hs'. exact (Hx' _ s Hv Hs').
  - eapply vtends_ext; [intros n; rewrite E; reflexivity | exact Href].
  - eapply vtends_ext; [intros n; rewrite E; reflexivity|]. cbn. apply vtends_add; [exact F2|]. apply vtends_scale; [apply tends_const|]. apply vtends_sub; assumption.
  - apply (HG p); [exact Hin|]. right; left. symmetry. apply center_midpoint.
  - eapply vtends_ext; [intros n; rewrite E; reflexivity|]. cbn. apply vtends_sub; assumption.
Qed.
Definition hs_settled (op : operating_point) (l : list airplane) (S : nat -> hs_solver) (s : hs_solver) : Prop :=
  each (approaching_solution (dynamic_pressure op) horseshoe_strength) (fun n => hso_airplanes (S n)) (hso_airplanes s) /\
  forall X x, vtends X x -> off_edges (horseshoe_paths op l) x -> each vtends (fun n => hs_solution_velocity (S n) [X n]) (hs_solution_velocity s [x]).
Lemma each_one {A} (T : (nat -> A) -> A -> Prop) u a : T u a -> each T (fun n => [u n]) [a].
Proof. intros H. eapply each_cons; [intros n; reflexivity | exact H | constructor; reflexivity]. Qed.
Lemma hs_continuous solve O op L l : SolveSpec solve -> approaching_op O op -> approaching L l -> (forall p, In p (panels_of l) -> p_cross p <> vzero) ->
  (forall p x, In p (panels_of l) -> In x (horseshoe_points p) -> off_edges (horseshoe_paths op l) x) ->
  settles (hs_settled op l) (fun n => hs_run solve (hs_new (L n) (O n))) (hs_run solve (hs_new l op)).
Proof.
  intros HS HO HL HC HG. assert (HL' := airplane_in _ (fun p => p_cross p <> vzero) _ _ (fun p Hp => HC p (proj2 (in_panels_of p l) Hp)) HL). cbv beta in HL'.
  pose proof (hs_rows_tends O op L l HO HL' HG) as HR. pose proof (op_stream O op HO) as HV. pose proof (hs_init_tends O op L l HO HL') as HI.
  unfold hs_run, hs_new. cbn [hso_op hso_freestream hso_airplanes hso_seed_points]. cbv zeta. rewrite hs_collapse_init. cbn [bind]. eapply settles_ext; [intros n; rewrite hs_collapse_init; cbn [bind]; fold (hs_rows_of (O n) (L n)); reflexivity|]. fold (hs_rows_of op l).
  set (rows := hs_rows_of op l) in *. set (U := fun n => hs_rows_of (O n) (L n)) in *. set (good := off_edges (horseshoe_paths op l)) in *.
  assert (HY : each (sys_tends good hr_collocation hr_normal hs_unit) U rows) by (eapply each_weaken; [|exact HR]; intros S s _ Hs; apply Hs).
  eapply (settles_bind (each tends)).
  - rewrite hs_sys_matrix, hs_sys_rhs. eapply settles_ext; [intros n; rewrite hs_sys_matrix, hs_sys_rhs; reflexivity|]. apply (system_settles good hr_collocation hr_normal hs_unit solve U rows (fun n => freestream_velocity (O n))); assumption.
  - intros G gs Egs HGs. rewrite hs_sys_matrix, hs_sys_rhs in Egs. apply (HS _ _ (sys_square _ _ _ _) (sys_lengths _ _ _ _ _)) in Egs. destruct Egs as ((Lg & _) & _). unfold sys_matrix in Lg. rewrite map_length in Lg.
    eapply (settles_bind (each (approaching_airplane (with_strength horseshoe_strength)))).
    + apply (settles_update shod (with_strength horseshoe_strength) tends (fun _ => hs_set_strength) hs_set_strength); [|exact HI | exact HGs].
      intros P p K k (HP & HC' & H & h & E1 & E2) HK. unfold hs_set_strength. rewrite E2. eapply settles_ext; [intros n; rewrite E1; reflexivity|].
      apply (settles_Ok (with_strength horseshoe_strength) (fun n => p_set_horseshoe (Some (hs_update_strength (K n) (H n))) (P n))). split; [exact HP|]. split; [exact HC'|]. exists K, k. split; [reflexivity | split; [reflexivity | exact HK]].
    + intros L1 l1 _ HL1. destruct (hs_loads_tends good (fun n => op_density (O n)) (op_density op) U rows G gs _ _ (proj1 HO) HR HGs Lg HV) as (HF & HM).
      eapply (settles_bind (each (approaching_solution (dynamic_pressure op) horseshoe_strength))).
      * apply (settles_process horseshoe_strength (fun _ _ _ _ _ _ => eq_refl) O op _ _ _ _ _ _ HO HF HM HL1).
      * intros L2 l2 _ HL2. eapply (settles_Ok (hs_settled op l)). split; [exact HL2|]. intros X x HX Hx.
        rewrite hs_velocity_at_spec by exact Lg. cbn [hso_rows hso_strengths hso_freestream].
        eapply each_ext; [intros n; rewrite hs_velocity_at_spec by (change (length (G n) = length (U n)); rewrite (each_length _ _ _ HGs), (each_length _ _ _ HR); exact Lg); reflexivity|]. cbn [hso_rows hso_strengths hso_freestream].
        apply each_one. apply (hs_velocity_tends good); assumption.
Qed.
