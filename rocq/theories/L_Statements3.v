(** The property theorems of P_Movement.v in the form stated there. *)
From Coq Require Import Lra Lia.
From Verif Require Import M_Movement S_Geometry S_Wing S_Movement L_Base L_Loads L_Geometry L_Example L_Movement L_Snapshots L_Problems L_Example3.

Lemma given_steps ams om n cy ch d m : new_movement ams om (Some n) cy ch d = Ok m ->
  mv_num_steps m = n /\ mv_num_cycles m = None /\ mv_num_chords m = None.
Proof. intros H. apply movement_built in H. destruct H as (_ & _ & _ & H & _). tauto. Qed.
Lemma static_steps ams om cy ch d m : new_movement ams om None cy ch d = Ok m -> largest (all_periods ams om) 0 ->
  exists c, largest (map (fun am => a_c_ref (am_base am)) ams) c /\ mv_num_chords m = Some (given ch 10) /\ mv_num_cycles m = None /\
    (0 < mv_delta_time m * op_velocity (om_base om) ->
     least (flies (mv_delta_time m) (op_velocity (om_base om)) (given ch 10 * c)) (mv_num_steps m)).
Proof.
  intros H HL. apply movement_built in H. destruct H as (_ & _ & _ & (p & Hp & H0 & _) & _).
  rewrite (largest_unique _ _ _ (max_period_largest _ _ _ Hp) HL) in H0. destruct (H0 eq_refl) as (_ & H1 & H2 & c & Hc & HN).
  exists c. split; [exact Hc|]. split; [exact H2|]. split; [exact H1|]. intros HV. rewrite HN. apply ceil_least. exact HV.
Qed.
Lemma periodic_steps ams om cy ch d m p : new_movement ams om None cy ch d = Ok m -> largest (all_periods ams om) p -> p <> 0 ->
  mv_num_cycles m = Some (given cy 3) /\ mv_num_chords m = None /\
  (0 < mv_delta_time m -> least (lasts (mv_delta_time m) (given cy 3 * p)) (mv_num_steps m)).
Proof.
  intros H HL HP. apply movement_built in H. destruct H as (_ & _ & _ & (p' & Hp & _ & H0) & _).
  rewrite (largest_unique _ _ _ (max_period_largest _ _ _ Hp) HL) in H0. destruct (H0 HP) as (_ & H1 & H2 & HN).
  split; [exact H2|]. split; [exact H1|]. intros HV. rewrite HN. apply ceil_least. exact HV.
Qed.
Lemma time_step ams om s cy ch d m : new_movement ams om s cy ch d = Ok m ->
  match d with
  | Some dt => mv_delta_time m = dt
  | None => exists dts, Forall2 (wing_step (op_velocity (om_base om))) ams dts /\ mv_delta_time m = mean dts
  end.
Proof. intros H. apply movement_built in H. destruct H as (_ & _ & H & _). destruct d; [exact H|]. destruct H as (dts & H1 & _ & H2). eauto. Qed.
Lemma flapping_three_cycles : exists m, new_movement [ex_airplane_movement 0 flap] ex_op_movement None None None None = Ok m /\
  mv_num_cycles m = Some 3 /\ mv_delta_time m = 4 /\ mv_num_steps m = 2%Z.
Proof.
  destruct (movement_accepted [ex_airplane_movement 0 flap] ex_op_movement None None None None 2) as (m & Hm & _ & _); try discriminate; try lra.
  - constructor; [apply ex_movable; left; reflexivity | constructor].
  - apply resting_good.
  - apply ex_periods.
  - unfold movement_rules. rewrite !all_hold_cons. repeat split; auto; intros P e [].
  - cbn. lra.
  - intros am [<-|[]]. split; [cbn; lra|]. exists (ex_wing false). split; [reflexivity | cbn; lia].
  - exists m. split; [exact Hm|]. pose proof (movement_built _ _ _ _ _ _ _ Hm) as (_ & _ & (dts & HF & _ & HD) & (p & Hp & _ & HP) & _).
    rewrite ex_periods in Hp. apply Ok_eq in Hp. subst p. destruct HP as (_ & _ & HC & HN); [lra|]. split; [exact HC|].
    assert (ED : mv_delta_time m = 4).
    { rewrite HD. inversion HF as [|am x l k (w & Hw & Hx) HF' E1 E2]; subst. inversion HF'; subst. injection Hw as <-. unfold mean. cbn. lra. }
    split; [exact ED|]. rewrite HN, ED. unfold given. unfold py_ceil. replace (- (3 * 2 / 4)) with (- (3 / 2)) by lra.
    change (Int_part (- (3 / 2))) with (py_floor (- (3 / 2))). rewrite (floor_unique _ (-2)); [reflexivity|]. lra.
Qed.
Lemma snapshot_lengths ams om s cy ch d m : new_movement ams om s cy ch d = Ok m ->
  (0 <= mv_num_steps m)%Z /\ length (mv_operating_points m) = Z.to_nat (mv_num_steps m) /\
  Forall2 (fun am history => length history = Z.to_nat (mv_num_steps m) /\
             Forall (fun a => length (a_wings a) = length (am_wings am) /\
                              Forall2 (fun wm w => length (w_sections w) = length (wm_sections wm)) (am_wings am) (a_wings a)) history)
          ams (mv_airplanes m).
Proof.
  intros H. destruct (movement_lengths _ _ _ _ _ _ _ H) as (H0 & H1 & H2). split; [exact H0|]. split; [exact H1|].
  refine (Forall2_weaken _ _ _ _ _ H2). intros am l [Hl HL]. split; [exact HL|]. apply Forall_forall. intros a Ha. apply In_nth_error in Ha. destruct Ha as [i Hi].
  destruct (generated_airplane_kept _ _ _ _ _ _ Hl Hi) as [[_ HK] _]. split; [symmetry; apply (Forall2_length _ _ _ HK)|].
  refine (Forall2_weaken _ _ _ _ _ HK). intros wm w (_ & _ & _ & _ & HS). symmetry. apply (Forall2_length _ _ _ HS).
Qed.
Lemma problem_lines_up m only up : new_unsteady_problem m only = Ok up ->
  up_movement up = m /\ up_num_steps up = mv_num_steps m /\ up_delta_time up = mv_delta_time m /\
  length (up_steady_problems up) = Z.to_nat (mv_num_steps m) /\
  forall i sp, nth_error (up_steady_problems up) i = Some sp -> lines_up m i sp.
Proof. intros H. apply unsteady_built in H. tauto. Qed.
Lemma uniform_profile : exists f, triangle_wave f /\
  forall a T base n dt l, oscillating_linspace a T base n dt = Ok l -> follows_wave f a T base n dt l.
Proof. exists tri. split; [exact tri_triangle | exact linspace_wave]. Qed.
Lemma unit_waves : unit_wave sine_wave /\ (forall f, triangle_wave f -> unit_wave f) /\
  (forall f, f 0 = 0 -> (forall x, Rabs (f x) <= 1) -> (forall x, f (x + 2 * PI) = f x) -> unit_wave (fun s => f (2 * PI * s))).
Proof.
  split; [|split].
  - split; [apply sine_0|]. split; [apply sine_bounded | apply sine_period].
  - intros f Hf. split; [rewrite (proj1 Hf) by lra; lra|]. split; [apply triangle_bounded; exact Hf | apply Hf].
  - intros f H0 HB HP. split; [rewrite Rmult_0_r; exact H0|]. split; [intros s; apply HB|]. intros s k.
    assert (G : forall n x, f (x + 2 * PI * INR n) = f x).
    { induction n as [|n IH]; intros x; [rewrite Rmult_0_r, Rplus_0_r; reflexivity|]. rewrite S_INR.
      replace (x + 2 * PI * (INR n + 1)) with ((x + 2 * PI * INR n) + 2 * PI) by ring. rewrite HP. apply IH. }
    destruct (Z_le_gt_dec 0 k) as [Hk|Hk].
    + rewrite <- (Z2Nat.id k Hk), <- INR_IZR_INZ. rewrite <- (G (Z.to_nat k) (2 * PI * s)). f_equal. ring.
    + rewrite <- (G (Z.to_nat (- k)) (2 * PI * (s + IZR k))). f_equal. rewrite INR_IZR_INZ, Z2Nat.id by lia. rewrite opp_IZR. ring.
Qed.
Lemma wave_laws w a T base n dt l : follows_wave w a T base n dt l -> unit_wave w ->
  length l = Z.to_nat n /\
  (forall v, nth_error l 0 = Some v -> v = base) /\
  (forall i v, nth_error l i = Some v -> Rabs (v - base) <= Rabs a) /\
  (forall i k j u v, INR k * dt = IZR j * T -> nth_error l i = Some u -> nth_error l (i + k) = Some v -> v = u) /\
  (a = 0 \/ T = 0 -> l = repeat base (length l)).
Proof.
  intros HW (U1 & U2 & U3). split; [apply HW|]. split; [intros v Hv; exact (wave_start _ _ _ _ _ _ _ HW v U1 Hv)|].
  split; [intros i v Hv; exact (wave_bound _ _ _ _ _ _ _ HW i v U2 Hv)|]. split.
  - intros i k j u v Hk Hu Hv. exact (wave_repeats _ _ _ _ _ _ _ HW i k j u v U3 Hk Hu Hv).
  - intros H0. apply list_repeat. intros i v Hv. destruct HW as (_ & _ & HW). destruct (HW i v Hv) as [H1 _]. apply H1. exact H0.
Qed.
Lemma profiles_created a T base n dt : (0 <= n)%Z ->
  (exists l, oscillating_sinspace a T base n dt = Ok l) /\ (exists l, oscillating_linspace a T base n dt = Ok l) /\
  (forall f, exists l, oscillating_customspace a T base n dt f = Ok l).
Proof.
  intros Hn. unfold oscillating_sinspace, oscillating_linspace, oscillating_customspace. rewrite (count_succeeds n Hn). cbn [bind].
  destruct (_ || _); repeat split; intros; eauto.
Qed.
Lemma quarter_period : exists l, oscillating_sinspace 3 4 10 2 1 = Ok l /\ nth_error l 1 = Some 13.
Proof.
  destruct (profiles_created 3 4 10 2 1 ltac:(lia)) as [[l Hl] _]. exists l. split; [exact Hl|]. apply sinspace_wave in Hl. destruct Hl as (L & _ & HN).
  destruct (nth_error l 1) as [v|] eqn:E; [|apply nth_error_None in E; cbn in L; lia]. f_equal. destruct (HN 1%nat v E) as [_ HV]. rewrite HV by lra.
  unfold sine_wave. cbn [INR]. replace (2 * PI * (1 * 1 / 4)) with (PI / 2) by field. rewrite sin_PI2. lra.
Qed.
Lemma operating_point_kept m n dt l i op : generate_operating_points m n dt = Ok l -> nth_error l i = Some op ->
  op_density op = op_density (om_base m) /\ op_alpha op = op_alpha (om_base m) /\ op_beta op = op_beta (om_base m) /\
  op_external_thrust op = 0 /\ op_nu op = 1506 / 100000000.
Proof.
  intros H Hi. apply generated_operating_points in H. destruct H as (_ & _ & vs & _ & HN). destruct (HN i op Hi) as (v & _ & ->). cbn. auto.
Qed.
Lemma averaging_window m only up : new_unsteady_problem m only = Ok up ->
  let n := mv_num_steps m in let dt := mv_delta_time m in let p := up_max_period up in
  let first := up_first_averaging_step up in
  largest (all_periods (mv_airplane_movements m) (mv_op_movement m)) p /\
  (p = 0 -> first = (n - 1)%Z) /\
  (0 < p -> 0 < dt -> lasts dt p n -> least (lasts dt p) (n - first)) /\
  (0 < p -> 0 < dt -> ~ lasts dt p n -> first = 0%Z) /\
  (0 <= p -> 0 < dt -> (0 < n)%Z -> (0 <= first < n)%Z) /\
  up_first_results_step up = (if only then first else 0%Z).
Proof.
  intros H. apply unsteady_built in H. destruct H as (_ & _ & _ & _ & HP & HF & HR & _). cbn zeta.
  split; [apply max_period_largest; exact HP|]. rewrite HF in *. split; [intros ->; apply window_static|].
  split; [apply window_periodic|]. split; [apply window_short|]. split; [intros; apply window_bounds; assumption | exact HR].
Qed.
Lemma steps_positive ams om cy ch s d m am wm : new_movement ams om s cy ch d = Ok m -> In am ams -> In wm (am_wings am) ->
  (2 <= length (wm_sections wm))%nat -> (1 <= mv_num_steps m)%Z.
Proof.
  intros H Ham Hwm HL. pose proof (movement_lengths _ _ _ _ _ _ _ H) as (H0 & _). apply movement_built in H. destruct H as (_ & _ & _ & _ & HA & _).
  destruct (mapM_In _ _ _ _ HA Ham) as [l Hl]. destruct (generated_airplanes _ _ _ _ Hl) as (_ & _ & xs & ys & zs & hs & _ & _ & _ & EH & _).
  destruct (mapM_In _ _ _ _ EH Hwm) as [ws Hws]. destruct (generated_wings _ _ _ _ Hws) as (_ & _ & xs' & ys' & zs' & hs' & _ & _ & _ & ES & _).
  destruct (Z_le_gt_dec 1 (mv_num_steps m)) as [|G]; [assumption|]. exfalso. assert (EN : mv_num_steps m = 0%Z) by lia. rewrite EN in ES.
  destruct (wm_sections wm) as [|a [|b ms]]; [cbn in HL; lia | cbn in HL; lia|]. cbn [section_histories] in ES. inv_ok ES. rename v into h, E into E1. inv_ok ES. clear ES. inv_ok E.
  do 2 inv_ok E1. apply count_spec in E3. destruct E3 as [_ ->]. destruct (root_history _ _ _ _ _ E1 eq_refl) as [LH _]. destruct h; [|discriminate LH].
  discriminate E0.
Qed.
