(** Lemmas about movements, unsteady problems and static movements. *)
From Coq Require Import Lra Lia.
From Verif Require Import M_Movement S_Geometry S_Wing S_Movement L_Base L_Functions L_Loads L_Meshing L_Geometry L_Airfoil L_Camber L_Movement L_Snapshots L_Frames.

(** ** Airplanes and operating points *)
Lemma mapM_succeeds {A B} (f : A -> result B) l : succeeds (mapM f l) <-> Forall (fun x => succeeds (f x)) l.
Proof.
  rewrite Forall_forall. split; [intros [m H] x Hx; exact (mapM_In _ _ _ _ H Hx) | apply mapM_all_ok].
Qed.
Lemma airplanes_succeed m n dt : (1 <= n)%Z -> (succeeds (generate_airplanes m n dt) <-> airplane_movable m).
Proof.
  intros Hn. assert (H0 : (0 <= n)%Z) by lia. unfold airplane_movable, generate_airplanes.
  rewrite <- (oscillate_succeeds (am_x_ref m) (a_x_ref (am_base m)) n dt H0).
  rewrite <- (oscillate_succeeds (am_y_ref m) (a_y_ref (am_base m)) n dt H0).
  rewrite <- (oscillate_succeeds (am_z_ref m) (a_z_ref (am_base m)) n dt H0).
  assert (HW : Forall wing_movable (am_wings m) <-> succeeds (mapM (fun w => generate_wings w n dt) (am_wings m))).
  { rewrite mapM_succeeds, !Forall_forall. split; intros H w Hw; apply (wings_succeed w n dt Hn); auto. }
  rewrite HW. split.
  - intros [l H]. do 4 inv_ok H. split; [|split; [|split; [|split]]; eexists; eassumption].
    intros HN. rewrite HN in E2. injection E2 as <-. destruct (Z.to_nat n) as [|k] eqn:Ek; [lia|]. cbn [seq mapM] in H. inv_ok H. clear H.
    do 3 inv_ok E2. cbn [column mapM bind] in E2. discriminate E2.
  - intros (HN & [hs EH] & [xs E1] & [ys E2] & [zs E3]). rewrite E1. cbn [bind]. rewrite E2. cbn [bind]. rewrite E3. cbn [bind]. rewrite EH. cbn [bind].
    apply mapM_all_ok. intros i Hi. apply in_seq in Hi.
    destruct (oscillate_length _ _ _ _ _ E1) as [L1 _], (oscillate_length _ _ _ _ _ E2) as [L2 _], (oscillate_length _ _ _ _ _ E3) as [L3 _].
    destruct (index_succeeds xs i) as [x ->]; [lia|]. destruct (index_succeeds ys i) as [y ->]; [lia|]. destruct (index_succeeds zs i) as [z ->]; [lia|]. cbn [bind].
    assert (HL : Forall (fun h => length h = Z.to_nat n) hs).
    { apply mapM_Forall2 in EH. clear - EH. induction EH as [|w h l k H]; constructor; [|assumption]. destruct (generated_wings _ _ _ _ H) as [HL _]. exact HL. }
    destruct (column_succeeds hs (Z.to_nat n) i HL) as [l EC]; [lia|]. rewrite EC. cbn [bind]. unfold new_airplane.
    destruct l as [|w l]; [|apply succeeds_ok]. exfalso. apply (mapM_nonempty _ _ _ EC); [|reflexivity]. apply (mapM_nonempty _ _ _ EH). exact HN.
Qed.
Lemma operating_points_succeed m n dt : (0 <= n)%Z -> (succeeds (generate_operating_points m n dt) <-> good_spacing (om_velocity m)).
Proof.
  intros H0. rewrite <- (oscillate_succeeds (om_velocity m) (op_velocity (om_base m)) n dt H0). unfold generate_operating_points. split.
  - intros [l H]. inv_ok H. eexists; eassumption.
  - intros [vs E]. rewrite E. cbn [bind]. apply mapM_all_ok. intros i Hi. apply in_seq in Hi. destruct (oscillate_length _ _ _ _ _ E) as [L _].
    destruct (index_succeeds vs i) as [v ->]; [lia|]. cbn [bind]. apply succeeds_ok.
Qed.
Lemma movable_populated ams : ams <> [] -> Forall airplane_movable ams -> populated ams.
Proof.
  intros HN HF. split; [exact HN|]. rewrite Forall_forall in HF. intros a Ha. destruct (HF a Ha) as (H1 & H2 & _). split; [exact H1|].
  rewrite Forall_forall in H2. intros w Hw. destruct (H2 w Hw) as [H3 _]. intros E. rewrite E in H3. cbn in H3. lia.
Qed.

(** ** Movements *)
Lemma rule_cases rs : all_hold rs \/ exists e, first_violated rs e.
Proof.
  induction rs as [|[P e] rs IH]; [left; intros P e []|]. destruct (Classical_Prop.classic P) as [HP|HP].
  - destruct IH as [IH|(e' & before & Q & after & -> & HB & HQ)].
    + left. apply all_hold_cons. auto.
    + right. exists e', ((P, e) :: before), Q, after. split; [reflexivity|]. split; [apply all_hold_cons; auto | exact HQ].
  - right. exists e, [], P, rs. split; [reflexivity|]. split; [intros Q e' [] | exact HP].
Qed.
Lemma violated_cons P e rs x : first_violated ((P, e) :: rs) x <-> (~ P /\ x = e) \/ (P /\ first_violated rs x).
Proof.
  split.
  - intros (before & Q & after & E & HB & HQ). destruct before as [|b before].
    + cbn [app] in E. injection E as <- <- <-. left; auto.
    + cbn [app] in E. injection E as <- ->. apply all_hold_cons in HB. right. split; [apply HB|]. exists before, Q, after. tauto.
  - intros [[HP ->]|[HP (before & Q & after & -> & HB & HQ)]].
    + exists [], P, rs. split; [reflexivity|]. split; [intros ? ? [] | exact HP].
    + exists ((P, e) :: before), Q, after. split; [reflexivity|]. split; [apply all_hold_cons; auto | exact HQ].
Qed.
Lemma violated_nil x : ~ first_violated [] x.
Proof. intros (before & Q & after & E & _). destruct before; discriminate. Qed.
Lemma movement_rejected ams om s cy ch d p e : max_period ams om = Ok p -> first_violated (movement_rules p s cy ch) e ->
  new_movement ams om s cy ch d = Err e.
Proof.
  intros Hp. unfold movement_rules. rewrite !violated_cons. intros H. unfold new_movement. rewrite Hp.
  pose proof (violated_nil e) as HN.
  destruct s as [n|], cy as [c|], ch as [k|]; cbn [is_some bind negb check];
    try (destruct (Reqb p 0) eqn:E; [apply Reqb_true in E | apply Reqb_false in E]; cbn [negb bind]);
    decompose [or and] H; subst; try tauto; try discriminate; try reflexivity; try (exfalso; tauto); exfalso;
    repeat match goal with
    | H : ~ (_ \/ _) |- _ => apply Decidable.not_or in H; destruct H
    | H : ?x <> ?x |- _ => congruence
    end; try tauto; try congruence.
Qed.
Lemma movement_accepts_rules ams om s cy ch d p m : max_period ams om = Ok p -> new_movement ams om s cy ch d = Ok m -> all_hold (movement_rules p s cy ch).
Proof.
  intros Hp Hm. destruct (rule_cases (movement_rules p s cy ch)) as [H|(e & H)]; [exact H|]. rewrite (movement_rejected _ _ _ _ _ d _ _ Hp H) in Hm. discriminate Hm.
Qed.
Lemma movement_built ams om s cy ch d m : new_movement ams om s cy ch d = Ok m ->
  mv_airplane_movements m = ams /\ mv_op_movement m = om /\
  match d with
  | Some dt => mv_delta_time m = dt
  | None => exists dts, Forall2 (wing_step (op_velocity (om_base om))) ams dts /\ dts <> [] /\ mv_delta_time m = mean dts
  end /\
  match s with
  | Some n => mv_num_steps m = n /\ cy = None /\ ch = None /\ mv_num_cycles m = None /\ mv_num_chords m = None
  | None => exists p, max_period ams om = Ok p /\
      (p = 0 -> cy = None /\ mv_num_cycles m = None /\ mv_num_chords m = Some (given ch 10) /\
         exists c, largest (map (fun am => a_c_ref (am_base am)) ams) c /\
           mv_num_steps m = py_ceil (given ch 10 * c / (mv_delta_time m * op_velocity (om_base om)))) /\
      (p <> 0 -> ch = None /\ mv_num_chords m = None /\ mv_num_cycles m = Some (given cy 3) /\
         mv_num_steps m = py_ceil (given cy 3 * p / mv_delta_time m))
  end /\
  mapM (fun am => generate_airplanes am (mv_num_steps m) (mv_delta_time m)) ams = Ok (mv_airplanes m) /\
  generate_operating_points om (mv_num_steps m) (mv_delta_time m) = Ok (mv_operating_points m).
Proof.
  intros H. pose proof H as HM. unfold new_movement in H. apply bind_Ok in H. destruct H as (u1 & C1 & H). apply bind_Ok in H. destruct H as (u2 & C2 & H). cbn zeta in H. apply bind_Ok in H. destruct H as (dt & ED & H).
  apply bind_Ok in H. destruct H as ([[n cycles] chords] & ER & H). apply bind_Ok in H. destruct H as (la & EA & H). apply bind_Ok in H. destruct H as (lo & EO & H). apply Ok_eq in H. subst m.
  cbn [mv_airplane_movements mv_op_movement mv_delta_time mv_num_steps mv_num_cycles mv_num_chords mv_airplanes mv_operating_points].
  split; [reflexivity|]. split; [reflexivity|]. split; [|split; [|split; assumption]].
  - destruct d as [dt'|]; [apply Ok_eq in ED; auto|]. apply bind_Ok in ED. destruct ED as (l & EM & ED).
    destruct (Nat.eqb (length l) 0) eqn:EL; [discriminate ED|]. apply Nat.eqb_neq in EL. apply Ok_eq in ED. exists l. split.
    + apply mapM_Forall2 in EM. refine (Forall2_weaken _ _ _ _ _ EM). intros am x Hx. apply bind_Ok in Hx. destruct Hx as (w & E & Hx). apply Ok_eq in Hx. exists w. split; [apply index_Some; exact E | auto].
    + split; [intros ->; cbn in EL; lia | unfold mean; auto].
  - destruct s as [n'|].
    + apply Ok_eq in ER. injection ER as <- <- <-. destruct cy as [c|]; [cbn in C1; discriminate C1|]. destruct ch as [c|]; [cbn in C2; discriminate C2|]. auto.
    + apply bind_Ok in ER. destruct ER as (p & EP & ER). exists p. split; [exact EP|].
      pose proof (movement_accepts_rules _ _ _ _ _ _ _ _ EP HM) as HR. unfold movement_rules in HR. rewrite !all_hold_cons in HR. destruct HR as (_ & R2 & _ & R4 & _).
      destruct (Reqb p 0) eqn:E0; [apply Reqb_true in E0 | apply Reqb_false in E0].
      * apply bind_Ok in ER. destruct ER as (c & E & ER). apply Ok_eq in ER. apply py_max_spec in E. destruct E as [_ E]. injection ER as E1 E2 E3. split; [intros _ | intros HN; congruence].
        split; [tauto|]. split; [destruct R2; congruence|]. split; [symmetry; exact E3|]. exists c. split; [exact E | symmetry; exact E1].
      * apply Ok_eq in ER. injection ER as E1 E2 E3. split; [intros HN; congruence | intros _].
        split; [tauto|]. split; [destruct R4; congruence|]. split; [symmetry; exact E2 | symmetry; exact E1].
Qed.
(** Lengths. *)
Lemma movement_lengths ams om s cy ch d m : new_movement ams om s cy ch d = Ok m ->
  (0 <= mv_num_steps m)%Z /\ length (mv_operating_points m) = Z.to_nat (mv_num_steps m) /\
  Forall2 (fun am l => generate_airplanes am (mv_num_steps m) (mv_delta_time m) = Ok l /\ length l = Z.to_nat (mv_num_steps m)) ams (mv_airplanes m).
Proof.
  intros H. apply movement_built in H. destruct H as (_ & _ & _ & _ & HA & HO). destruct (generated_operating_points _ _ _ _ HO) as (L & H0 & _).
  split; [exact H0|]. split; [exact L|]. apply mapM_Forall2 in HA. refine (Forall2_weaken _ _ _ _ _ HA). intros am l Hl. split; [exact Hl|].
  destruct (generated_airplanes _ _ _ _ Hl) as [L' _]. exact L'.
Qed.
Lemma column_spec {A} (hs : list (list A)) i l : column hs i = Ok l <-> Forall2 (fun h x => nth_error h i = Some x) hs l.
Proof.
  revert l. induction hs as [|h hs IH]; intros l.
  - split; [intros [= <-]; constructor | intros H; inversion H; reflexivity].
  - rewrite column_cons. split.
    + intros (x & l' & -> & Hx & HC). constructor; [exact Hx | apply IH; exact HC].
    + intros H. inversion H; subst. eexists _, _. split; [reflexivity|]. split; [assumption | apply IH; assumption].
Qed.
Lemma mapM_seq {A} (f : nat -> result A) n l : mapM f (seq 0 n) = Ok l -> length l = n /\ forall i x, nth_error l i = Some x -> f i = Ok x.
Proof.
  intros H. apply mapM_Forall2 in H. assert (G : forall k a l, Forall2 (fun i x => f i = Ok x) (seq a k) l -> length l = k /\ forall i x, nth_error l i = Some x -> f (a + i)%nat = Ok x).
  { clear. induction k as [|k IH]; intros a l H; cbn [seq] in H; inversion H; subst; [split; [reflexivity | intros [|i] x Hx; discriminate]|].
    destruct (IH _ _ H4) as [L HN]. split; [cbn; lia|]. intros [|i] x Hx; [injection Hx as <-; rewrite Nat.add_0_r; assumption|].
    rewrite <- Nat.add_succ_comm. apply HN. exact Hx. }
  exact (G n 0%nat l H).
Qed.
Lemma unsteady_built m only up : new_unsteady_problem m only = Ok up ->
  up_movement up = m /\ up_num_steps up = mv_num_steps m /\ up_delta_time up = mv_delta_time m /\ up_only_final_results up = only /\
  mv_max_period m = Ok (up_max_period up) /\
  up_first_averaging_step up = first_averaging_step (mv_num_steps m) (mv_delta_time m) (up_max_period up) /\
  up_first_results_step up = (if only then up_first_averaging_step up else 0%Z) /\
  up_final up = no_final_loads /\ up_final_mean up = no_final_loads /\ up_final_rms up = no_final_loads /\
  length (up_steady_problems up) = Z.to_nat (mv_num_steps m) /\
  forall i sp, nth_error (up_steady_problems up) i = Some sp -> lines_up m i sp.
Proof.
  unfold new_unsteady_problem. intros H. inv_ok H. cbn zeta in H. inv_ok H. apply Ok_eq in H. subst up. cbn.
  apply mapM_seq in E0. destruct E0 as [L HN]. repeat (split; [first [reflexivity | assumption]|]). intros i sp Hi. specialize (HN i sp Hi).
  do 2 inv_ok HN. apply Ok_eq in HN. subst sp. split; cbn [sp_airplanes sp_operating_point]; [apply column_spec; assumption | apply index_Some; assumption].
Qed.
Lemma unsteady_succeeds ams om s cy ch d m only : new_movement ams om s cy ch d = Ok m -> populated ams -> exists up, new_unsteady_problem m only = Ok up.
Proof.
  intros H HP. destruct (movement_lengths _ _ _ _ _ _ _ H) as (H0 & LO & HF). apply movement_built in H. destruct H as (HA & HO & _).
  unfold new_unsteady_problem, mv_max_period. rewrite HA, HO. destruct (proj2 (max_period_total ams om) HP) as [p ->]. cbn [bind].
  match goal with |- exists up, (let* x := mapM ?f ?l in _) = _ => destruct (mapM_all_ok f l) as [sps ->] end; [|cbn [bind]; eauto].
  intros i Hi. apply in_seq in Hi. assert (HL : Forall (fun h => length h = Z.to_nat (mv_num_steps m)) (mv_airplanes m)).
  { clear - HF. induction HF as [|? ? ? ? [_ H]]; constructor; assumption. }
  destruct (column_succeeds _ _ i HL) as [l ->]; [lia|]. cbn [bind]. destruct (index_succeeds (mv_operating_points m) i) as [o ->]; [lia|]. cbn [bind]. eauto.
Qed.

(** ** When movements can be built *)
Lemma movement_succeeds ams om s cy ch dt n : s = Some n -> (1 <= n)%Z ->
  (succeeds (new_movement ams om s cy ch (Some dt)) <-> cy = None /\ ch = None /\ Forall airplane_movable ams /\ good_spacing (om_velocity om)).
Proof.
  intros -> Hn. assert (H0 : (0 <= n)%Z) by lia. split.
  - intros [m H]. apply movement_built in H. destruct H as (_ & _ & ED & (EN & EC & EH & _) & HA & HO). rewrite EN, ED in *.
    split; [exact EC|]. split; [exact EH|]. split; [|apply (operating_points_succeed om n dt H0); eexists; exact HO].
    apply Forall_forall. intros am Ham. apply (airplanes_succeed am n dt Hn). exact (mapM_In _ _ _ _ HA Ham).
  - intros (-> & -> & HF & HG). unfold new_movement. cbn [is_some bind]. cbn zeta.
    destruct (mapM_all_ok (fun m => generate_airplanes m n dt) ams) as [l ->].
    { intros am Ham. rewrite Forall_forall in HF. apply (airplanes_succeed am n dt Hn). auto. }
    cbn [bind]. apply (operating_points_succeed om n dt H0) in HG. destruct HG as [o ->]. cbn [bind]. apply succeeds_ok.
Qed.
Lemma rsum_pos l : l <> [] -> (forall x, In x l -> 0 < x) -> 0 < rsum l.
Proof.
  induction l as [|a l IH]; intros HN HP; [congruence|]. rewrite rsum_cons. assert (0 < a) by (apply HP; left; reflexivity).
  destruct l as [|b l]; [cbn [rsum fold_right]; unfold rsum; cbn; lra|]. assert (0 < rsum (b :: l)) by (apply IH; [discriminate | intros x Hx; apply HP; right; exact Hx]). lra.
Qed.
Lemma ceil_ge_1 y d : 0 < d -> 0 < y -> (1 <= py_ceil (y / d))%Z.
Proof.
  intros Hd Hy. destruct (ceil_least y d Hd) as [H _]. destruct (Z_lt_le_dec (py_ceil (y / d)) 1) as [L|L]; [|exact L].
  assert (IZR (py_ceil (y / d)) <= 0) by (apply IZR_le; lia). nra.
Qed.
Lemma movement_accepted ams om s cy ch d p :
  ams <> [] -> Forall airplane_movable ams -> good_spacing (om_velocity om) -> max_period ams om = Ok p -> 0 <= p ->
  all_hold (movement_rules p s cy ch) -> 0 < op_velocity (om_base om) ->
  (forall am, In am ams -> 0 < a_c_ref (am_base am) /\
     exists w, nth_error (a_wings (am_base am)) 0 = Some w /\ (1 <= w_num_chordwise_panels w)%nat) ->
  (forall dt, d = Some dt -> 0 < dt) -> (forall n, s = Some n -> (1 <= n)%Z) -> (forall k, cy = Some k -> 0 < k) -> (forall k, ch = Some k -> 0 < k) ->
  exists m, new_movement ams om s cy ch d = Ok m /\ (1 <= mv_num_steps m)%Z /\ 0 < mv_delta_time m.
Proof.
  intros HN HF HG Hp Hp0 HR HV HC Hd Hs Hcy Hch. unfold movement_rules in HR. rewrite !all_hold_cons in HR. destruct HR as (R1 & R2 & R3 & R4 & _).
  assert (HD : exists dt, 0 < dt /\ match d with
    | Some dt => Ok dt
    | None =>
        let* dts := mapM (fun m => let* w := index (a_wings (am_base m)) 0 in
                                   Ok (a_c_ref (am_base m) / INR (w_num_chordwise_panels w) / op_velocity (om_base om))) ams in
        if Nat.eqb (length dts) 0 then Err EZeroDivision else Ok (rsum dts / INR (length dts))
    end = Ok dt).
  { destruct d as [dt|]; [exists dt; auto|].
    match goal with |- exists dt, _ /\ (let* x := mapM ?f ?l in _) = _ => destruct (mapM_all_ok f l) as [dts ED] end.
    { intros am Ham. destruct (HC am Ham) as (_ & w & Hw & _). apply index_Some in Hw. rewrite Hw. cbn [bind]. eauto. }
    rewrite ED. cbn [bind]. pose proof (mapM_nonempty _ _ _ ED HN) as HNd. destruct (Nat.eqb (length dts) 0) eqn:EL.
    { apply Nat.eqb_eq in EL. destruct dts; [congruence | discriminate]. }
    apply Nat.eqb_neq in EL. eexists. split; [|reflexivity]. apply Rdiv_lt_0_compat; [|apply (lt_INR 0); lia]. apply rsum_pos; [exact HNd|].
    intros x Hx. apply mapM_Forall2 in ED. apply Forall2_sym in ED. destruct (Forall2_in_l _ _ _ _ ED Hx) as (am & Ham & E). destruct (HC am Ham) as (Hc & w & Hw & Hnc).
    apply index_Some in Hw. rewrite Hw in E. cbn [bind] in E. apply Ok_eq in E. subst x. assert (0 < INR (w_num_chordwise_panels w)) by (apply (lt_INR 0); lia).
    apply Rdiv_lt_0_compat; [apply Rdiv_lt_0_compat|]; assumption. }
  destruct HD as (dt & Hdt & ED). unfold new_movement. rewrite Hp.
  assert (HS : exists n cycles chords, (1 <= n)%Z /\ match s with
    | Some n => Ok (n, cy, ch)
    | None =>
        let* p := Ok p in
        if Reqb p 0 then
          let* c := py_max (map (fun m => a_c_ref (am_base m)) ams) in
          let chords := match ch with Some k => k | None => 10 end in
          Ok (py_ceil (chords * c / (dt * op_velocity (om_base om))), cy, Some chords)
        else
          let cycles := match cy with Some k => k | None => 3 end in
          Ok (py_ceil (cycles * p / dt), Some cycles, ch)
    end = Ok (n, cycles, chords)).
  { destruct s as [n|]; [exists n, cy, ch; auto|]. cbn [bind]. destruct (Reqb p 0) eqn:E0; [apply Reqb_true in E0 | apply Reqb_false in E0].
    - destruct (py_max (map (fun m => a_c_ref (am_base m)) ams)) as [c|e] eqn:EC.
      + cbn [bind]. eexists _, _, _. split; [|reflexivity]. apply py_max_spec in EC. destruct EC as [_ [Hc _]]. apply in_map_iff in Hc. destruct Hc as (am & <- & Ham).
        destruct (HC am Ham) as [Hc _]. apply ceil_ge_1; [apply Rmult_lt_0_compat; assumption|].
        apply Rmult_lt_0_compat; [|exact Hc]. destruct ch as [k|]; [apply Hch; reflexivity | lra].
      + exfalso. destruct ams; [congruence | cbn [map py_max] in EC; discriminate EC].
    - eexists _, _, _. split; [|reflexivity]. apply ceil_ge_1; [exact Hdt|]. apply Rmult_lt_0_compat; [|lra]. destruct cy as [k|]; [apply Hcy; reflexivity | lra]. }
  destruct HS as (n & cycles & chords & Hn & HS). assert (H0 : (0 <= n)%Z) by lia.
  assert (C1 : (if is_some cy then let* bad := if is_some s then Ok true else let* p := Ok p in Ok (Reqb p 0) in check (negb bad) (if is_some s then EStepsAndCycles else ECyclesStatic) else Ok tt) = Ok tt).
  { destruct cy as [k|]; cbn [is_some]; [|reflexivity]. destruct s as [n'|]; [destruct R1; discriminate|]. cbn [is_some bind]. destruct (Reqb p 0) eqn:E0; [|reflexivity].
    apply Reqb_true in E0. destruct R2; [discriminate | tauto]. }
  assert (C2 : (if is_some ch then let* bad := if is_some s then Ok true else let* p := Ok p in Ok (negb (Reqb p 0)) in check (negb bad) (if is_some s then EStepsAndChords else EChordsPeriodic) else Ok tt) = Ok tt).
  { destruct ch as [k|]; cbn [is_some]; [|reflexivity]. destruct s as [n'|]; [destruct R3; discriminate|]. cbn [is_some bind]. destruct (Reqb p 0) eqn:E0; [reflexivity|].
    apply Reqb_false in E0. destruct R4; [discriminate | tauto]. }
  rewrite C1, C2. cbn [bind]. cbn zeta. rewrite ED. cbn [bind] in HS |- *. rewrite HS. cbn [bind].
  destruct (mapM_all_ok (fun m => generate_airplanes m n dt) ams) as [l ->].
  { intros am Ham. rewrite Forall_forall in HF. apply (airplanes_succeed am n dt Hn). auto. }
  cbn [bind]. apply (operating_points_succeed om n dt H0) in HG. destruct HG as [o ->]. cbn [bind]. eexists. split; [reflexivity|]. cbn. auto.
Qed.

(** ** Averaging window *)
Lemma floor_shift n x : py_floor (IZR n - x) = (n - py_ceil x)%Z.
Proof.
  apply floor_unique. pose proof (ceil_spec x) as H. rewrite minus_IZR. lra.
Qed.
Lemma window_bounds n dt p : (0 < n)%Z -> 0 <= p -> 0 < dt -> (0 <= first_averaging_step n dt p < n)%Z.
Proof.
  intros Hn Hp Hd. unfold first_averaging_step. destruct (Reqb p 0) eqn:E; [lia|]. apply Reqb_false in E. rewrite floor_shift.
  pose proof (ceil_ge_1 p dt Hd). assert (1 <= py_ceil (p / dt))%Z by (apply H; lra). lia.
Qed.
Lemma window_static n dt : first_averaging_step n dt 0 = (n - 1)%Z.
Proof. unfold first_averaging_step. rewrite (proj2 (Reqb_true 0 0) eq_refl). reflexivity. Qed.
Lemma window_periodic n dt p : 0 < p -> 0 < dt -> lasts dt p n -> least (lasts dt p) (n - first_averaging_step n dt p).
Proof.
  intros Hp Hd HL. unfold first_averaging_step. destruct (Reqb p 0) eqn:E; [apply Reqb_true in E; lra|]. rewrite floor_shift.
  destruct (ceil_least p dt Hd) as [H1 H2]. assert (py_ceil (p / dt) <= n)%Z by (apply H2; exact HL).
  replace (n - Z.max 0 (n - py_ceil (p / dt)))%Z with (py_ceil (p / dt)) by lia. split; [exact H1 | exact H2].
Qed.
Lemma window_short n dt p : 0 < p -> 0 < dt -> ~ lasts dt p n -> first_averaging_step n dt p = 0%Z.
Proof.
  intros Hp Hd HL. unfold first_averaging_step. destruct (Reqb p 0) eqn:E; [apply Reqb_true in E; lra|]. rewrite floor_shift.
  destruct (ceil_least p dt Hd) as [H1 H2]. destruct (Z_le_gt_dec (py_ceil (p / dt)) n) as [G|G]; [|lia]. exfalso. apply HL. unfold lasts.
  apply IZR_le in G. nra.
Qed.

(** ** Static movements *)
Lemma unmoving_values o c base n dt l i v : unmoving o -> oscillate_custom o c base n dt = Ok l -> nth_error l i = Some v -> v = base.
Proof.
  intros HU H Hv. apply oscillate_custom_wave in H. destruct H as [[_ H]|[[_ H]|(_ & f & _ & H)]]; destruct H as (_ & _ & H); destruct (H _ _ Hv) as [H1 _]; apply H1; exact HU.
Qed.
Lemma unmoving_value o base n dt l i v : unmoving o -> oscillate o base n dt = Ok l -> nth_error l i = Some v -> v = base.
Proof.
  intros HU H Hv. apply oscillate_wave in H. destruct H as [[_ H]|[_ H]]; destruct H as (_ & _ & H); destruct (H _ _ Hv) as [H1 _]; apply H1; exact HU.
Qed.
Definition same_section (b s : section) : Prop :=
  section_kept b s /\ section_reset s /\ cs_leading_edge s = cs_leading_edge b /\ cs_twist s = cs_twist b.
Lemma same_section_set b s c : same_section b s -> cs_unit_normal b = mkvec 0 1 0 -> cs_set_wing_chordwise c s = cs_set_wing_chordwise c b.
Proof.
  intros ((K1 & K2 & K3 & K4 & K5 & K6 & K7) & HR & HE & HT) HN. unfold section_reset in HR. unfold cs_set_wing_chordwise.
  destruct b, s; cbn in *. unfold cs_leading_edge in HE. cbn in HE. injection HE as -> -> ->. subst. reflexivity.
Qed.
Lemma unmoving_sections m n dt last l0 span sweep heave vertical h :
  base_angles (cs_leading_edge (sm_base m)) l0 = (span, sweep, heave, vertical) ->
  generate_sections m n dt last vertical span sweep heave = Ok h -> length last = Z.to_nat n ->
  (forall i l, nth_error last i = Some l -> l = l0) -> section_unmoving m -> representable l0 (cs_leading_edge (sm_base m)) ->
  forall i s, nth_error h i = Some s -> same_section (sm_base m) s.
Proof.
  intros HB HG HL H0 (U1 & U2 & U3) HR i s Hs. apply generated_sections in HG; [|exact HL]. destruct HG as (_ & _ & sw & pi & he & E1 & E2 & E3 & HN).
  destruct (HN i s Hs) as (K1 & K2 & HN0). split; [exact K1|]. split; [exact K2|]. destruct vertical; [exact HN0|].
  destruct HN0 as (l & a & b & c & F1 & F2 & F3 & F4 & HE & HT). apply H0 in F1. subst l.
  pose proof (unmoving_values _ _ _ _ _ _ _ _ U1 E1 F2) as ->. pose proof (unmoving_values _ _ _ _ _ _ _ _ U2 E2 F3) as ->. pose proof (unmoving_values _ _ _ _ _ _ _ _ U3 E3 F4) as ->.
  split; [|exact HT]. rewrite HE. apply (swung_back _ _ _ _ _ HB). apply base_angles_y in HB. destruct HR as [HR|HR]; [congruence | exact HR].
Qed.
Lemma unmoving_outboard n dt ms : forall last l0 hs, section_histories n dt (Some last) ms = Ok hs -> length last = Z.to_nat n ->
  (forall i s, nth_error last i = Some s -> cs_leading_edge s = l0) -> Forall section_unmoving ms ->
  successive representable (l0 :: map (fun sm => cs_leading_edge (sm_base sm)) ms) ->
  Forall2 (fun m h => forall i s, nth_error h i = Some s -> same_section (sm_base m) s) ms hs.
Proof.
  induction ms as [|m ms IH]; intros last l0 hs H HL H0 HU HS; [injection H as <-; constructor|].
  cbn [section_histories] in H. inv_ok H. rename v into h, E into EH. inv_ok H. rename v into rest, E into ER. apply Ok_eq in H. subst hs.
  cbn zeta in EH. inv_ok EH. rename v into f, E into EI. apply index_Some in EI. rewrite nth_error_map in EI. destruct (nth_error last 0) as [s0|] eqn:E0; [|discriminate EI].
  apply Some_eq in EI. subst f. rewrite (H0 _ _ E0) in EH.
  destruct (base_angles (cs_leading_edge (sm_base m)) l0) as [[[span sweep] heave] vertical] eqn:EB.
  assert (LE : length (map cs_leading_edge last) = Z.to_nat n) by (rewrite map_length; exact HL).
  cbn [map] in HS. apply successive_cons in HS. destruct HS as [HS1 HS2]. apply Forall_cons_iff in HU. destruct HU as [H1 H2].
  assert (HH : forall i s, nth_error h i = Some s -> same_section (sm_base m) s).
  { refine (unmoving_sections m n dt _ _ _ _ _ _ h EB EH LE _ H1 HS1). intros i l Hl. rewrite nth_error_map in Hl. destruct (nth_error last i) eqn:El; [|discriminate Hl].
    apply Some_eq in Hl. subst l. apply (H0 i). exact El. }
  constructor; [exact HH|]. refine (IH h _ rest ER _ _ H2 HS2); [apply generated_sections in EH; [apply EH | exact LE]|]. intros i s Hs. apply (HH i s Hs).
Qed.
Lemma unmoving_histories n dt ms hs : section_histories n dt None ms = Ok hs -> Forall section_unmoving ms ->
  (forall root, nth_error ms 0 = Some root -> cs_leading_edge (sm_base root) = vzero) ->
  successive representable (map (fun sm => cs_leading_edge (sm_base sm)) ms) ->
  Forall2 (fun m h => forall i s, nth_error h i = Some s -> same_section (sm_base m) s) ms hs.
Proof.
  intros H HU HR HS. destruct ms as [|m ms]; [injection H as <-; constructor|].
  cbn [section_histories] in H. inv_ok H. rename v into h, E into EH. inv_ok H. rename v into rest, E into ER. apply Ok_eq in H. subst hs.
  do 2 inv_ok EH. apply count_spec in E0. destruct E0 as [_ E0]. destruct (root_history _ _ _ _ _ EH E0) as [LH HZ]. specialize (HR m eq_refl). subst v0. apply Forall_cons_iff in HU. destruct HU as [H1 H2].
  assert (HH : forall i s, nth_error h i = Some s -> same_section (sm_base m) s).
  { intros i s Hs. destruct H1 as (U1 & U2 & U3). apply generated_sections in EH; [|apply repeat_length]. destruct EH as (_ & _ & sw & pi & he & E1 & E2 & E3 & HN).
    destruct (HN i s Hs) as (K1 & K2 & l & a & b & c & F1 & F2 & F3 & F4 & HE & HT). split; [exact K1|]. split; [exact K2|]. split; [rewrite (HZ i s Hs); symmetry; exact HR|].
    rewrite HT. exact (unmoving_values _ _ _ _ _ _ _ _ U2 E2 F3). }
  constructor; [exact HH|]. cbn [map] in HS. rewrite HR in HS. exact (unmoving_outboard n dt ms h vzero rest ER LH HZ H2 HS).
Qed.
Lemma list_repeat {A} (l : list A) (x : A) : (forall i y, nth_error l i = Some y -> y = x) -> l = repeat x (length l).
Proof.
  induction l as [|a l IH]; intros H; [reflexivity|]. cbn [length repeat]. f_equal; [apply (H 0%nat); reflexivity | apply IH; intros i y Hy; apply (H (S i)); exact Hy].
Qed.
(** Wings are the same if their sections are once they know their wing's chordwise direction. *)
Lemma forallb_map {A B} (f : B -> bool) (g : A -> B) l : forallb f (map g l) = forallb (fun x => f (g x)) l.
Proof. induction l; cbn [map forallb]; congruence. Qed.
Lemma new_wing_set ss name x y z n sym c nc sp :
  new_wing (map (cs_set_wing_chordwise c) ss) name x y z n sym c nc sp = new_wing ss name x y z n sym c nc sp.
Proof.
  unfold new_wing. rewrite map_length, count_placed, forallb_map, map_map.
  assert (E : map (fun s => cs_set_wing_chordwise c (cs_set_wing_chordwise c s)) ss = map (cs_set_wing_chordwise c) ss) by (apply map_ext; reflexivity).
  cbn beta. rewrite E. destruct ss as [|s ss]; reflexivity.
Qed.
Lemma new_wing_same ss bs name x y z n sym c nc sp : Forall2 (fun s b => cs_set_wing_chordwise c s = cs_set_wing_chordwise c b) ss bs ->
  new_wing ss name x y z n sym c nc sp = new_wing bs name x y z n sym c nc sp.
Proof.
  intros HF. assert (HM : map (cs_set_wing_chordwise c) ss = map (cs_set_wing_chordwise c) bs) by (induction HF; cbn [map]; congruence).
  rewrite <- (new_wing_set ss), HM. apply new_wing_set.
Qed.
Lemma static_wings m n dt ws : generate_wings m n dt = Ok ws -> wing_unmoving m -> plain_base m -> ws = repeat (wm_base m) (Z.to_nat n).
Proof.
  intros H (U1 & U2 & U3 & U4) (HB & HN & HS). destruct (generated_wings _ _ _ _ H) as (HL & _ & xs & ys & zs & hs & E1 & E2 & E3 & EH & HG).
  rewrite <- HL. apply list_repeat. intros i w Hw. destruct (HG i w Hw) as (x & y & z & ss & F1 & F2 & F3 & EC & EW).
  rewrite (unmoving_value _ _ _ _ _ _ _ U2 E1 F1), (unmoving_value _ _ _ _ _ _ _ U3 E2 F2), (unmoving_value _ _ _ _ _ _ _ U4 E3 F3) in EW.
  assert (HR : forall root, nth_error (wm_sections m) 0 = Some root -> cs_leading_edge (sm_base root) = vzero).
  { intros root Hr. destruct (proj1 (wing_created_iff _ _ _ _ _ _ _ _ _ _ y_vec) (ex_intro _ _ HB)) as [HW _]. apply wing_rules_reset in HW.
    apply HW. rewrite nth_error_map, Hr. reflexivity. }
  pose proof (unmoving_histories n dt _ hs EH U1 HR HS) as HH.
  assert (HF : Forall2 (fun s b => cs_set_wing_chordwise default_unit_chordwise s = cs_set_wing_chordwise default_unit_chordwise b) ss (map sm_base (wm_sections m))).
  { apply column_spec in EC. clear - HH EC HN. revert ss EC HN. induction HH as [|sm h ms hs Hh HH IH]; intros ss EC HN; inversion EC; subst; [constructor|]. cbn [map].
    constructor; [|apply IH; [assumption | intros sm' Hs'; apply HN; right; exact Hs']].
    apply same_section_set; [eapply Hh; eassumption | apply HN; left; reflexivity]. }
  rewrite (new_wing_same _ _ _ _ _ _ _ _ _ _ _ HF) in EW. unfold default_unit_normal, default_unit_chordwise in EW. rewrite HB in EW. apply Ok_eq in EW. auto.
Qed.
