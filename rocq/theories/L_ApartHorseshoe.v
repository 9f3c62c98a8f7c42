(** The horseshoe solver on two groups of airplanes that get farther and farther apart. *)
From Coq Require Import List Lia Lra Reals.
From Verif Require Import M_Loads M_Horseshoe M_SteadyRing S_Geometry S_Solve S_Loads S_Mirror S_Solvable S_Size S_Rigid S_Continuous S_Apart
  L_Base L_Rotations L_Loads L_Aero L_Horseshoe L_SteadyRing L_Mirror L_MirrorHorseshoe L_MirrorRing L_Rigid L_RigidShift L_RigidSolvers L_Solvable L_Divide L_Reference L_Size L_SizeSolvers L_Limits L_Continuous L_ContinuousRun L_Apart L_ApartRun.
Import ListNotations.
Local Open Scope R_scope.

(** ** Putting results together *)
Lemma equal_results_refl strength a : equal_results strength a a.
Proof. repeat (split; [reflexivity|]). induction (airplane_panels a); constructor; [repeat split | assumption]. Qed.
Lemma assemble q strength N (R A B R2 : nat -> list airplane) res1 res2 : (forall n, (N <= n)%nat -> R n = A n ++ R2 n) ->
  each (approaching_solution q strength) A res1 -> each (approaching_solution q strength) B res2 -> (forall n, (N <= n)%nat -> Forall2 (equal_results strength) (R2 n) (B n)) ->
  each_from N (approaching_results q strength) R (res1 ++ res2).
Proof.
  intros HR HA HB HE. split.
  - intros n Hn. rewrite (HR n Hn), !app_length, (each_length _ _ _ HA), (Forall2_length _ _ _ (HE n Hn)), (each_length _ _ _ HB). reflexivity.
  - intros i a Hi. destruct (Nat.lt_ge_cases i (length res1)) as [Li|Li].
    + rewrite nth_error_app1 in Hi by exact Li. destruct (each_nth _ _ _ _ _ HA Hi) as (x & Hx & Tx). exists x. split; [|apply solution_results; exact Tx].
      intros n Hn. rewrite (HR n Hn), nth_error_app1 by (rewrite (each_length _ _ _ HA); exact Li). apply Hx.
    + rewrite nth_error_app2 in Hi by exact Li. destruct (each_nth _ _ _ _ _ HB Hi) as (b & Hb & Tb).
      set (j := (i - length res1)%nat) in *.
      exists (fun n => if Nat.leb N n then nth j (R2 n) (b n) else b n). split.
      * intros n Hn. rewrite (HR n Hn), nth_error_app2 by (rewrite (each_length _ _ _ HA); exact Li). rewrite (each_length _ _ _ HA). fold j. rewrite (proj2 (Nat.leb_le N n) Hn).
        apply nth_error_nth'. rewrite (Forall2_length _ _ _ (HE n Hn)). apply nth_error_Some. rewrite Hb. discriminate.
      * apply (results_transport q strength _ b); [|apply solution_results; exact Tb]. intros n. destruct (Nat.leb N n) eqn:E; [|apply equal_results_refl]. apply Nat.leb_le in E.
        assert (Hn : nth_error (R2 n) j = Some (nth j (R2 n) (b n))).
        { apply nth_error_nth'. rewrite (Forall2_length _ _ _ (HE n E)). apply nth_error_Some. rewrite Hb. discriminate. }
        destruct (Forall2_nth_l _ _ _ (HE n E) _ _ Hn) as (y & Hy & Ey). rewrite Hb in Hy. apply Some_eq' in Hy. subst y. exact Ey.
Qed.
Lemma second_equal op strength t far far' R2 B2 : Forall2 (shifted_airplane t) far far' -> Forall2 same_airplane far' R2 -> Forall2 same_airplane far B2 ->
  Forall2 (moved_solution mid (vopp t) op strength) R2 B2 -> Forall2 (equal_results strength) R2 B2.
Proof.
  intros HF. revert R2 B2. induction HF as [|a a' l l' Ha HF IH]; intros R2 B2 H1 H2 H3.
  - inversion H1; subst. inversion H2; subst. constructor.
  - inversion H1; subst. inversion H2; subst. inversion H3; subst. constructor; [|apply IH; assumption].
    apply (moved_results (vopp t) op); [assumption|]. destruct (shifted_back t a a' Ha) as (_ & HO). unfold ref_offset in *.
    match goal with U : same_airplane a' _, V : same_airplane a _ |- _ => destruct U as (_ & _ & -> & _); destruct V as (_ & _ & -> & _) end. exact HO.
Qed.
Lemma shifted_moved_all t far far' : Forall2 (shifted_airplane t) far far' -> moved_airplanes mid t far far' /\ moved_airplanes mid (vopp t) far' far.
Proof.
  intros HF. induction HF as [|a a' l l' Ha HF (IH1 & IH2)]; [split; constructor|]. split; constructor; try assumption; [apply (shifted_moved t a a' Ha) | apply (shifted_back t a a' Ha)].
Qed.
Lemma moved_carried {T} (coll normal : T -> vec) uv t l l' : Forall2 (sys_moved mid t coll normal uv) l l' -> Forall2 (carried coll normal uv t) l l'.
Proof.
  intros H. eapply Forall2_impl; [|exact H]. intros r r' (H1 & H2 & H3). unfold carried. rewrite H1, H2. rewrite mid_moved, mid_id. repeat (split; [reflexivity|]). intros x. specialize (H3 x). rewrite mid_moved, mid_id in H3. exact H3.
Qed.

(** ** Loads from strengths and a velocity field *)
Definition hs_fin (op : operating_point) (f : vec -> vec) (l : list airplane) (gs : list R) : result (list airplane) :=
  let rows := hs_rows_of op l in
  let F := map (fun rg => hs_row_force (op_density op) f (fst rg) (snd rg)) (combine rows gs) in
  let* a1 := update_panels hs_set_strength (hs_init op l) gs in
  process_forces op F (hs_moments rows F) a1.
Lemma hs_rows_length op l : length (hs_rows_of op l) = length (all_panels l).
Proof. unfold hs_rows_of. rewrite map_length, <- flat_panels_snd, map_length. reflexivity. Qed.
Lemma hs_init_length op l : length (all_panels (hs_init op l)) = length (all_panels l).
Proof. unfold hs_init. pose proof (hs_init_same op l) as H. symmetry. exact (Forall2_length _ _ _ (same_all_panels _ _ H)). Qed.
Lemma hs_strengths_length solve l op s : SolveSpec solve -> hs_run solve (hs_new l op) = Ok s -> length (hso_strengths s) = length (hs_rows_of op l).
Proof.
  intros HS Hs. destruct (hs_run_inv solve _ s Hs) as (_ & _ & _ & H & _). cbn [hso_op hso_airplanes hs_new hso_freestream] in H. rewrite hs_sys_matrix, hs_sys_rhs in H.
  apply (HS _ _ (sys_square _ _ _ _) (sys_lengths _ _ _ _ _)) in H. destruct H as ((L & _) & _). rewrite L. unfold sys_matrix. apply map_length.
Qed.
Lemma hs_fin_run solve l op s : SolveSpec solve -> hs_run solve (hs_new l op) = Ok s ->
  hs_fin op (hs_velocity_at (hs_rows_of op l) (hso_strengths s) (freestream_velocity op)) l (hso_strengths s) = Ok (hso_airplanes s).
Proof.
  intros HS Hs. pose proof (hs_strengths_length solve l op s HS Hs) as L. destruct (hs_run_inv solve _ s Hs) as (_ & _ & _ & _ & _ & _ & a1 & H1 & H2). cbn [hso_op hso_airplanes hs_new hso_freestream] in *.
  unfold hs_fin. cbv zeta. rewrite H1. cbn [bind]. rewrite <- hs_forces_explicit by exact L. exact H2.
Qed.
Lemma hs_fin_split op f l1 l2 g1 g2 r : length g1 = length (all_panels l1) -> hs_fin op f (l1 ++ l2) (g1 ++ g2) = Ok r ->
  exists r1 r2, r = r1 ++ r2 /\ hs_fin op f l1 g1 = Ok r1 /\ hs_fin op f l2 g2 = Ok r2.
Proof.
  intros L H. unfold hs_fin in *. cbv zeta in *. apply bind_Ok in H. destruct H as (a1 & H1 & H2).
  replace (hs_init op (l1 ++ l2)) with (hs_init op l1 ++ hs_init op l2) in H1 by (unfold hs_init; symmetry; apply map_app).
  apply update_split in H1; [|rewrite hs_init_length; exact L]. destruct H1 as (b1 & b2 & -> & E1 & E2). rewrite E1, E2. cbn [bind].
  assert (ER : hs_rows_of op (l1 ++ l2) = hs_rows_of op l1 ++ hs_rows_of op l2) by (unfold hs_rows_of; rewrite flat_app, map_app; reflexivity).
  rewrite ER in H2. rewrite L_Divide.combine_app in H2 by (rewrite hs_rows_length, L; reflexivity). rewrite map_app in H2. unfold hs_moments in H2.
  assert (LF : length (map (fun rg => hs_row_force (op_density op) f (fst rg) (snd rg)) (combine (hs_rows_of op l1) g1)) = length (hs_rows_of op l1)).
  { rewrite map_length, combine_length, hs_rows_length. lia. }
  rewrite map2_app in H2 by (rewrite LF; reflexivity).
  apply process_split in H2; [exact H2 | |].
  - rewrite LF, hs_rows_length, (updated_count _ _ _ _ E1), hs_init_length. reflexivity.
  - rewrite map2_length, LF. lia.
Qed.
Lemma const_op op : approaching_op (fun _ => op) op.
Proof. repeat split; apply tends_const. Qed.
Lemma const_panel p : approaching_panel (fun _ => p) p.
Proof. repeat split; apply tends_const. Qed.
Lemma const_airplanes l : (forall p, In p (panels_of l) -> p_cross p <> vzero) -> each (approaching_airplane (fun P p => approaching_panel P p /\ p_cross p <> vzero)) (fun _ => l) l.
Proof.
  intros HC. apply (airplane_in approaching_panel (fun p => p_cross p <> vzero)); [intros p Hp; apply HC, in_panels_of, Hp|]. apply each_const. intros a _.
  split; [apply tends_const|]. split; [apply tends_const|]. split; [apply tends_const|]. split; [repeat split; apply tends_const|]. split; [reflexivity|].
  apply each_const. intros w _. split; [apply tends_const|]. apply each_const. intros row _. apply each_const. intros p _. apply const_panel.
Qed.
Lemma hs_fin_settles op F f l G g : (forall p, In p (panels_of l) -> p_cross p <> vzero) -> each tends G g ->
  (forall r, In r (hs_rows_of op l) -> vtends (fun n => F n (hr_bound_center r)) (f (hr_bound_center r))) ->
  settles (each (approaching_solution (dynamic_pressure op) horseshoe_strength)) (fun n => hs_fin op (F n) l (G n)) (hs_fin op f l g).
Proof.
  intros HC HG HF. unfold hs_fin. cbv zeta. pose proof (hs_init_tends _ op _ l (const_op op) (const_airplanes l HC)) as HI. cbv beta in HI.
  eapply (settles_bind (each (approaching_airplane (with_strength horseshoe_strength)))).
  - apply (settles_update shod (with_strength horseshoe_strength) tends (fun _ => hs_set_strength) hs_set_strength); [|exact HI | exact HG].
    intros P p K k (HP & HC' & H & h & E1 & E2) HK. unfold hs_set_strength. rewrite E2. eapply settles_ext; [intros n; rewrite E1; reflexivity|].
    apply (settles_Ok (with_strength horseshoe_strength) (fun n => p_set_horseshoe (Some (hs_update_strength (K n) (H n))) (P n))). split; [exact HP|]. split; [exact HC'|]. exists K, k. split; [reflexivity | split; [reflexivity | exact HK]].
  - intros L1 l1 _ HL1. set (rows := hs_rows_of op l) in *.
    assert (HR : each (fun u r => (forall n, u n = r) /\ In r rows) (fun _ => rows) rows) by (apply each_const; intros a Ha; auto).
    assert (HFs : each vtends (fun n => map (fun rg => hs_row_force (op_density op) (F n) (fst rg) (snd rg)) (combine rows (G n))) (map (fun rg => hs_row_force (op_density op) f (fst rg) (snd rg)) (combine rows g))).
    { refine (each_map _ vtends (fun n rg => hs_row_force (op_density op) (F n) (fst rg) (snd rg)) (fun rg => hs_row_force (op_density op) f (fst rg) (snd rg)) _ _ _ (each_combine _ _ _ _ _ _ HR HG)).
      intros W w _ (S & K & E & (ES & HS) & HK). apply (vtends_ext (fun n => hs_row_force (op_density op) (F n) (fst w) (K n))); [intros n; rewrite E; cbn [fst snd]; rewrite ES; reflexivity|].
      unfold hs_row_force, leg_force. apply vtends_scale; [apply tends_mult; [apply tends_const | exact HK]|]. apply vtends_cross; [|repeat split; apply tends_const]. apply HF, HS. }
    apply (settles_process horseshoe_strength (fun _ _ _ _ _ _ => eq_refl) (fun _ => op) op _ _ _ _ _ _ (const_op op) HFs); [|exact HL1].
    unfold hs_moments. refine (each_map2 _ vtends vtends (fun _ r f => vcross (vsub (hr_bound_center r) (hr_ref r)) f) (fun r f => vcross (vsub (hr_bound_center r) (hr_ref r)) f) _ _ _ _ _ HR HFs).
    intros S s K k _ _ (ES & _) HK. apply (vtends_ext (fun n => vcross (vsub (hr_bound_center s) (hr_ref s)) (K n))); [intros n; rewrite ES; reflexivity|]. apply vtends_cross; [repeat split; apply tends_const | exact HK].
Qed.
Lemma hs_fin_ext op f f' l g : (forall x, f x = f' x) -> hs_fin op f l g = hs_fin op f' l g.
Proof.
  intros E. unfold hs_fin. cbv zeta. assert (EF : map (fun rg => hs_row_force (op_density op) f (fst rg) (snd rg)) (combine (hs_rows_of op l) g) = map (fun rg => hs_row_force (op_density op) f' (fst rg) (snd rg)) (combine (hs_rows_of op l) g)).
  { apply map_ext. intros rg. unfold hs_row_force. rewrite E. reflexivity. } rewrite EF. reflexivity.
Qed.
Lemma Ok_eq' {A} (x y : A) : Ok x = Ok y -> x = y.
Proof. intros H. congruence. Qed.
Lemma Forall2_tail {A B} (P : A -> B -> Prop) a1 a2 b1 b2 : length a1 = length b1 -> Forall2 P (a1 ++ a2) (b1 ++ b2) -> Forall2 P a2 b2.
Proof. revert b1. induction a1 as [|x a1 IH]; intros [|y b1] L H; try discriminate; [exact H|]. inversion H; subst. apply (IH b1); [cbn in L; lia | assumption]. Qed.
Lemma each_from_one {A} N (T : (nat -> A) -> A -> Prop) u U a : (forall n, (N <= n)%nat -> U n = [u n]) -> T u a -> each_from N T U [a].
Proof.
  intros E H. split; [intros n Hn; rewrite (E n Hn); reflexivity|]. intros [|i] b Hi; [|destruct i; discriminate]. apply Some_eq' in Hi. subst b. exists u. split; [intros n Hn; rewrite (E n Hn); reflexivity | exact H].
Qed.
(** ** The solver *)
Lemma hs_unit_fades op l r : In r (hs_rows_of op l) -> fades (fun x => hs_unit x r).
Proof.
  intros Hr. unfold hs_rows_of in Hr. apply in_map_iff in Hr. destruct Hr as ([[a w] p] & <- & _). intros X HX.
  eapply vtends_ext; [intros n; apply horseshoe_path_unit|]. exact (path_fades _ X HX).
Qed.
Lemma hs_apart solve op near far ts fars s1 s2 : SolveSpec solve -> receding ts -> (forall n, Forall2 (shifted_airplane (ts n)) far (fars n)) ->
  (forall p, In p (panels_of (near ++ far)) -> p_cross p <> vzero) ->
  hs_run solve (hs_new near op) = Ok s1 -> hs_run solve (hs_new far op) = Ok s2 ->
  exists ss N, (forall n, (N <= n)%nat -> hs_run solve (hs_new (near ++ fars n) op) = Ok (ss n)) /\
    each_from N (approaching_results (dynamic_pressure op) horseshoe_strength) (fun n => hso_airplanes (ss n)) (hso_airplanes s1 ++ hso_airplanes s2) /\
    (forall x, each_from N vtends (fun n => hs_solution_velocity (ss n) [x]) (hs_solution_velocity s1 [x])) /\
    (forall x, each_from N vtends (fun n => hs_solution_velocity (ss n) [vadd x (ts n)]) (hs_solution_velocity s2 [x])).
Proof.
  intros HS Hts HF HC H1 H2. set (v := freestream_velocity op).
  set (rows1 := hs_rows_of op near). set (rows2 := hs_rows_of op far). set (U := fun n => hs_rows_of op (fars n)).
  assert (HU : forall n, Forall2 (carried hr_collocation hr_normal hs_unit (ts n)) rows2 (U n)).
  { intros n. apply moved_carried. apply (hs_rows_moved mid (ts n) mid_proper op op far (fars n) (same_flow op)). exact (proj1 (shifted_moved_all _ _ _ (HF n))). }
  assert (ER : forall n, hs_rows_of op (near ++ fars n) = rows1 ++ U n) by (intros n; unfold rows1, U, hs_rows_of; rewrite flat_app, map_app; reflexivity).
  assert (K : forall l s, hs_run solve (hs_new l op) = Ok s -> solve (sys_matrix hr_collocation hr_normal hs_unit (hs_rows_of op l)) (sys_rhs hr_normal (hs_rows_of op l) v) = Ok (hso_strengths s)).
  { intros l s H. destruct (hs_run_inv solve _ s H) as (_ & _ & _ & E & _). cbn [hso_op hso_airplanes hs_new hso_freestream] in E. rewrite hs_sys_matrix, hs_sys_rhs in E. exact E. }
  assert (VL : forall l s, hs_run solve (hs_new l op) = Ok s -> forall x, hs_solution_velocity s [x] = [hs_velocity_at (hs_rows_of op l) (hso_strengths s) v x]).
  { intros l s H x. pose proof (hs_strengths_length solve l op s HS H) as L. destruct (hs_run_inv solve _ s H) as (_ & E1 & E2 & _). cbn [hso_op hso_airplanes hs_new hso_freestream] in E1, E2.
    rewrite hs_velocity_at_spec; rewrite E2; [rewrite E1; reflexivity | exact L]. }
  pose proof (hs_strengths_length solve near op s1 HS H1) as L1. pose proof (hs_strengths_length solve far op s2 HS H2) as L2.
  destruct (apart_solve hr_collocation hr_normal hs_unit ts Hts rows1 rows2 U HU (hs_unit_fades op near) (hs_unit_fades op far) solve v _ _ HS (K _ _ H1) (K _ _ H2)) as (G & N0 & HG & TG).
  destruct (each_split _ _ _ _ TG) as (G1 & G2 & EG & TG1 & TG2).
  (* the runs *)
  assert (Hrun : forall n, (N0 <= n)%nat -> exists s, hs_run solve (hs_new (near ++ fars n) op) = Ok s /\ hso_strengths s = G1 n ++ G2 n).
  { intros n Hn. apply (hs_run_total solve (hs_new (near ++ fars n) op) (G1 n ++ G2 n) HS). cbn [hso_op hso_airplanes hs_new hso_freestream]. rewrite hs_sys_matrix, hs_sys_rhs, ER, <- EG. exact (HG n Hn). }
  set (ss := fun n => match hs_run solve (hs_new (near ++ fars n) op) with Ok s => s | Err _ => s1 end).
  assert (Hss : forall n, (N0 <= n)%nat -> hs_run solve (hs_new (near ++ fars n) op) = Ok (ss n) /\ hso_strengths (ss n) = G1 n ++ G2 n).
  { intros n Hn. destruct (Hrun n Hn) as (s & E1 & E2). unfold ss. rewrite E1. auto. }
  (* the first group *)
  assert (TV1 : forall x, vtends (fun n => hs_velocity_at (rows1 ++ U n) (G1 n ++ G2 n) v x) (hs_velocity_at rows1 (hso_strengths s1) v x)).
  { intros x. rewrite hs_sys_velocity. eapply vtends_ext; [intros n; apply hs_sys_velocity|]. exact (apart_near hr_collocation hr_normal hs_unit ts Hts rows1 rows2 U HU (hs_unit_fades op far) G1 _ G2 _ v x L1 TG1 TG2). }
  assert (TV2 : forall x, vtends (fun n => hs_velocity_at (rows1 ++ U n) (G1 n ++ G2 n) v (vadd x (ts n))) (hs_velocity_at rows2 (hso_strengths s2) v x)).
  { intros x. rewrite hs_sys_velocity. eapply vtends_ext; [intros n; apply hs_sys_velocity|]. exact (apart_far hr_collocation hr_normal hs_unit ts Hts rows1 rows2 U HU (hs_unit_fades op near) G1 _ G2 _ v x L1 TG1 TG2). }
  assert (HC1 : forall p, In p (panels_of near) -> p_cross p <> vzero) by (intros p Hp; apply HC; apply in_panels_of in Hp; apply in_panels_of; unfold all_panels in *; rewrite map_app, concat_app; apply in_or_app; auto).
  assert (HC2 : forall p, In p (panels_of far) -> p_cross p <> vzero) by (intros p Hp; apply HC; apply in_panels_of in Hp; apply in_panels_of; unfold all_panels in *; rewrite map_app, concat_app; apply in_or_app; auto).
  destruct (hs_fin_settles op (fun n => hs_velocity_at (rows1 ++ U n) (G1 n ++ G2 n) v) (hs_velocity_at rows1 (hso_strengths s1) v) near G1 _ HC1 TG1 (fun r _ => TV1 _) _ (hs_fin_run solve near op s1 HS H1)) as (A & N1 & HA & TA).
  (* the second group, seen from there *)
  destruct (hs_fin_settles op (fun n x => hs_velocity_at (rows1 ++ U n) (G1 n ++ G2 n) v (vadd x (ts n))) (hs_velocity_at rows2 (hso_strengths s2) v) far G2 _ HC2 TG2 (fun r _ => TV2 _) _ (hs_fin_run solve far op s2 HS H2)) as (B & N2 & HB & TB).
  assert (LG1 : forall n, length (G1 n) = length (all_panels near)) by (intros n; rewrite (each_length _ _ _ TG1), L1; apply hs_rows_length).
  set (N := (N0 + N1 + N2)%nat).
  assert (HR : forall n, (N <= n)%nat -> exists r2, hso_airplanes (ss n) = A n ++ r2 /\ Forall2 (equal_results horseshoe_strength) r2 (B n)).
  { intros n Hn. destruct (Hss n ltac:(unfold N in Hn; lia)) as (Er & Es). pose proof (hs_fin_run solve _ op _ HS Er) as Ef. rewrite ER, Es in Ef.
    apply hs_fin_split in Ef; [|apply LG1]. destruct Ef as (r1 & r2 & E & Ef1 & Ef2). fold v in Ef1. rewrite (HA n ltac:(unfold N in Hn; lia)) in Ef1. apply Ok_eq' in Ef1. subst r1.
    exists r2. split; [exact E|].
    set (near' := map (shift_plane (vopp (ts n))) near).
    assert (HM : moved_airplanes mid (vopp (ts n)) (near ++ fars n) (near' ++ far)).
    { apply Forall2_app; [apply shift_planes_moved | exact (proj2 (shifted_moved_all _ _ _ (HF n)))]. }
    destruct (L_RigidSolvers.hs_moved mid (vopp (ts n)) mid_proper solve _ _ op op (ss n) HS (same_flow op) HM Er) as (s' & Er' & _ & HMS).
    pose proof (hs_rows_moved mid (vopp (ts n)) mid_proper op op _ _ (same_flow op) HM) as HRM.
    assert (Es' : hso_strengths s' = G1 n ++ G2 n).
    { pose proof (K _ _ Er') as K'. rewrite (moved_matrix mid (vopp (ts n)) mid_proper _ _ _ _ _ HRM) in K'. rewrite <- (mid_id v), (moved_rhs mid (vopp (ts n)) mid_proper _ _ _ _ _ v HRM) in K'. rewrite (K _ _ Er) in K'. apply Ok_eq' in K'. congruence. }
    pose proof (hs_fin_run solve _ op _ HS Er') as Ef. rewrite Es' in Ef.
    assert (LN : length (all_panels near') = length (all_panels near)).
    { pose proof (shift_planes_moved (vopp (ts n)) near) as HN. pose proof (hs_rows_moved mid (vopp (ts n)) mid_proper op op _ _ (same_flow op) HN) as HN'. apply Forall2_length in HN'. rewrite !hs_rows_length in HN'. symmetry. exact HN'. }
    apply hs_fin_split in Ef; [|rewrite LN; apply LG1]. destruct Ef as (r1' & r2' & E' & Ef1' & Ef2').
    assert (EB : r2' = B n).
    { apply Ok_eq'. rewrite <- Ef2', <- (HB n ltac:(unfold N in Hn; lia)). apply hs_fin_ext. intros x. rewrite !hs_sys_velocity.
      pose proof (moved_velocity mid (vopp (ts n)) _ _ _ _ _ (G1 n ++ G2 n) v (vadd x (ts n)) HRM) as MV. rewrite !mid_id, mid_moved in MV. replace (vadd (vadd x (ts n)) (vopp (ts n))) with x in MV by vring. rewrite ER in MV. exact MV. }
    subst r2'. rewrite E, E' in HMS.
    pose proof (hs_run_same solve _ _ Er) as SA. pose proof (hs_run_same solve _ _ Er') as SB. cbn [hs_new hso_airplanes] in SA, SB. rewrite E in SA. rewrite E' in SB.
    assert (LA : length (A n) = length near).
    { apply Forall2_length in SA. rewrite !app_length in SA. apply Forall2_length in HMS. rewrite !app_length in HMS. apply Forall2_length in SB. rewrite !app_length in SB. unfold near' in SB. rewrite map_length in SB.
      pose proof (each_length _ _ _ TA n) as Z1. pose proof (Forall2_length _ _ _ (hs_run_same solve _ _ H1)) as Z2. cbn [hs_new hso_airplanes] in Z2. lia. }
    assert (LB : length (B n) = length far).
    { pose proof (each_length _ _ _ TB n) as Z1. pose proof (Forall2_length _ _ _ (hs_run_same solve _ _ H2)) as Z2. cbn [hs_new hso_airplanes] in Z2. lia. }
    assert (LC : length r1' = length near).
    { apply Forall2_length in SB. rewrite !app_length in SB. unfold near' in SB. rewrite map_length in SB. lia. }
    apply (second_equal op horseshoe_strength (ts n) far (fars n)); [apply HF | | |].
    - exact (Forall2_tail _ near _ (A n) _ ltac:(lia) SA).
    - exact (Forall2_tail _ near' _ r1' _ ltac:(unfold near'; rewrite map_length; lia) SB).
    - exact (Forall2_tail _ (A n) _ r1' _ ltac:(lia) HMS). }
  exists ss, N. split; [intros n Hn; apply Hss; unfold N in Hn; lia|]. split; [|split].
  - apply (assemble _ _ N _ A B (fun n => skipn (length (A n)) (hso_airplanes (ss n)))); [|exact TA | exact TB|].
    + intros n Hn. destruct (HR n Hn) as (r2 & E & _). rewrite E, skipn_app, skipn_all, Nat.sub_diag. reflexivity.
    + intros n Hn. destruct (HR n Hn) as (r2 & E & Q). rewrite E, skipn_app, skipn_all, Nat.sub_diag. exact Q.
  - intros x. rewrite (VL _ _ H1). apply (each_from_one N vtends (fun n => hs_velocity_at (rows1 ++ U n) (G1 n ++ G2 n) v x)); [|apply TV1].
    intros n Hn. destruct (Hss n ltac:(unfold N in Hn; lia)) as (Er & Es). rewrite (VL _ _ Er), Es, ER. reflexivity.
  - intros x. rewrite (VL _ _ H2). apply (each_from_one N vtends (fun n => hs_velocity_at (rows1 ++ U n) (G1 n ++ G2 n) v (vadd x (ts n)))); [|apply TV2].
    intros n Hn. destruct (Hss n ltac:(unfold N in Hn; lia)) as (Er & Es). rewrite (VL _ _ Er), Es, ER. reflexivity.
Qed.
