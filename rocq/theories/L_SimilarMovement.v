(** Movements that are [c] times as quick go through the same snapshots. *)
From Coq Require Import List ZArith Lia Lra Bool Reals.
From Verif Require Import M_Unsteady S_Solve S_Unsteady S_UnsteadyRun S_Similar L_Base L_Loads L_Geometry L_RigidShift L_Problems L_UnsteadyFinal L_Similar L_SimilarRun.
Import ListNotations.
Local Open Scope R_scope.
Local Open Scope list_scope.

Lemma mapM_ext {A B} (f g : A -> result B) l : (forall x, In x l -> f x = g x) -> mapM f l = mapM g l.
Proof. induction l as [|x l IH]; intros H; cbn [mapM]; [reflexivity|]. rewrite (H x (or_introl eq_refl)). apply bind_ext; intros y. rewrite IH by (intros; apply H; right; assumption). reflexivity. Qed.
Section Quicker.
Context (c : R) (Hc : 0 < c).
Lemma Reqb_over x : Reqb (x / c) 0 = Reqb x 0.
Proof. apply eq_true_iff_eq. rewrite !Reqb_true. split; intros H; [|rewrite H; field; lra]. apply (Rmult_eq_reg_r (/ c)); [rewrite Rmult_0_l; exact H | apply Rinv_neq_0_compat; lra]. Qed.
Lemma Reqb_times x : Reqb (c * x) 0 = Reqb x 0.
Proof. apply eq_true_iff_eq. rewrite !Reqb_true. split; intros H; [|rewrite H; ring]. destruct (Rmult_integral _ _ H); lra. Qed.
Lemma angle_same period d n i : period <> 0 -> 2 * PI / (period / c) * (0 + INR i * ((IZR n * (d / c) - 0) / INR (Z.to_nat n)) - 0) = 2 * PI / period * (0 + INR i * ((IZR n * d - 0) / INR (Z.to_nat n)) - 0).
Proof. intros Hp. unfold Rdiv. rewrite Rinv_mult, Rinv_inv. generalize (/ INR (Z.to_nat n)). intros. field. split; lra. Qed.
Lemma times_same (g : R -> R) period d n k : period <> 0 -> count n = Ok k ->
  map (fun t => g (2 * PI / (period / c) * (t - 0))) (linspace_open 0 (IZR n * (d / c)) k) = map (fun t => g (2 * PI / period * (t - 0))) (linspace_open 0 (IZR n * d) k).
Proof.
  intros Hp Hk. unfold count in Hk. destruct (0 <=? n)%Z; [|discriminate]. apply Ok_eq in Hk. subst k. unfold linspace_open. rewrite !map_map. apply map_ext. intros i. f_equal. apply angle_same. exact Hp.
Qed.
Lemma times_same' (g : R -> R) period d n k : period <> 0 -> count n = Ok k ->
  map (fun t => g (2 * PI / (period / c) * t)) (linspace_open 0 (IZR n * (d / c)) k) = map (fun t => g (2 * PI / period * t)) (linspace_open 0 (IZR n * d) k).
Proof.
  intros Hp Hk. rewrite (map_ext (fun t => g (2 * PI / (period / c) * t)) (fun t => g (2 * PI / (period / c) * (t - 0)))) by (intros; rewrite Rminus_0_r; reflexivity).
  rewrite (map_ext (fun t => g (2 * PI / period * t)) (fun t => g (2 * PI / period * (t - 0)))) by (intros; rewrite Rminus_0_r; reflexivity). apply times_same; assumption.
Qed.
(** [k] = 1 for positions and angles, and [k = c] for speeds. *)
Lemma sine_same k a p b n d : (k = 1 \/ k = c) -> oscillating_sinspace (k * a) (p / c) (k * b) n (d / c) = result_map (map (Rmult k)) (oscillating_sinspace a p b n d).
Proof.
  intros Hk. unfold oscillating_sinspace. rewrite result_map_bind. destruct (count n) as [m|e] eqn:Em; [|reflexivity]. cbn [bind].
  assert (Ea : Reqb (k * a) 0 = Reqb a 0) by (destruct Hk as [->| ->]; [rewrite Rmult_1_l; reflexivity | apply Reqb_times]). rewrite Ea, Reqb_over.
  destruct (Reqb a 0 || Reqb p 0) eqn:Eb; cbn [result_map]; [rewrite repeat_map; reflexivity|]. apply orb_false_elim in Eb. destruct Eb as [_ Eb].
  assert (Hp : p <> 0) by (intros ->; rewrite (proj2 (Reqb_true 0 0) eq_refl) in Eb; discriminate).
  cbn zeta. f_equal. rewrite (times_same (fun x => k * a * sin x + k * b) p d n m Hp Em), map_map. apply map_ext. intros; ring.
Qed.
Lemma linear_same k a p b n d : (k = 1 \/ k = c) -> oscillating_linspace (k * a) (p / c) (k * b) n (d / c) = result_map (map (Rmult k)) (oscillating_linspace a p b n d).
Proof.
  intros Hk. unfold oscillating_linspace. rewrite result_map_bind. destruct (count n) as [m|e] eqn:Em; [|reflexivity]. cbn [bind].
  assert (Ea : Reqb (k * a) 0 = Reqb a 0) by (destruct Hk as [->| ->]; [rewrite Rmult_1_l; reflexivity | apply Reqb_times]). rewrite Ea, Reqb_over.
  destruct (Reqb a 0 || Reqb p 0) eqn:Eb; cbn [result_map]; [rewrite repeat_map; reflexivity|]. apply orb_false_elim in Eb. destruct Eb as [_ Eb].
  assert (Hp : p <> 0) by (intros ->; rewrite (proj2 (Reqb_true 0 0) eq_refl) in Eb; discriminate).
  cbn zeta. f_equal. rewrite (times_same' (fun x => k * a * sawtooth (x + PI / 2) + k * b) p d n m Hp Em), map_map. apply map_ext. intros; ring.
Qed.
Lemma custom_same a p b n d f : oscillating_customspace a (p / c) b n (d / c) f = oscillating_customspace a p b n d f.
Proof.
  unfold oscillating_customspace. destruct (count n) as [m|e] eqn:Em; [|reflexivity]. cbn [bind]. rewrite Reqb_over.
  destruct (Reqb a 0 || Reqb p 0) eqn:Eb; [reflexivity|]. apply orb_false_elim in Eb. destruct Eb as [_ Eb].
  assert (Hp : p <> 0) by (intros ->; rewrite (proj2 (Reqb_true 0 0) eq_refl) in Eb; discriminate).
  cbn zeta. f_equal. apply (times_same (fun x => a * f x + b) p d n m Hp Em).
Qed.
Lemma map_1 l : map (Rmult 1) l = l.
Proof. rewrite <- (map_id l) at 2. apply map_ext. intros; ring. Qed.
Lemma one_same (r r' : result (list R)) : r' = result_map (map (Rmult 1)) r -> r' = r.
Proof. intros ->. destruct r; cbn [result_map]; [rewrite map_1|]; reflexivity. Qed.
Lemma sine_same1 a p b n d : oscillating_sinspace a (p / c) b n (d / c) = oscillating_sinspace a p b n d.
Proof. apply one_same. rewrite <- (Rmult_1_l a) at 1. rewrite <- (Rmult_1_l b) at 1. apply sine_same. left; reflexivity. Qed.
Lemma linear_same1 a p b n d : oscillating_linspace a (p / c) b n (d / c) = oscillating_linspace a p b n d.
Proof. apply one_same. rewrite <- (Rmult_1_l a) at 1. rewrite <- (Rmult_1_l b) at 1. apply linear_same. left; reflexivity. Qed.
Lemma oscillate_same o b n d : oscillate (quicker c o) b n (d / c) = oscillate o b n d.
Proof. unfold oscillate. cbn [quicker osc_spacing osc_amplitude osc_period]. rewrite sine_same1, linear_same1. reflexivity. Qed.
Lemma oscillate_custom_same o f b n d : oscillate_custom (quicker c o) f b n (d / c) = oscillate_custom o f b n d.
Proof. unfold oscillate_custom. cbn [quicker osc_spacing osc_amplitude osc_period]. rewrite sine_same1, linear_same1. destruct f; [rewrite custom_same|]; reflexivity. Qed.
Lemma sections_same m n d last v s1 s2 s3 : generate_sections (quicker_section c m) n (d / c) last v s1 s2 s3 = generate_sections m n d last v s1 s2 s3.
Proof. unfold generate_sections. cbn [quicker_section sm_base sm_sweeping sm_custom_sweep sm_pitching sm_custom_pitch sm_heaving sm_custom_heave]. rewrite !oscillate_custom_same. reflexivity. Qed.
Lemma histories_same n d ms : forall last, section_histories n (d / c) last (map (quicker_section c) ms) = section_histories n d last ms.
Proof.
  induction ms as [|m ms IH]; intros last; cbn [map section_histories]; [reflexivity|].
  assert (ER : root_fixed (quicker_section c m) = root_fixed m) by (unfold root_fixed; cbn [quicker_section sm_sweeping sm_heaving quicker osc_amplitude osc_period]; rewrite !Reqb_over; reflexivity).
  match goal with |- bind ?x _ = bind ?y _ => assert (EH : x = y) end.
  { destruct last as [sections|].
    - apply bind_ext; intros first. change (sm_base (quicker_section c m)) with (sm_base m). destruct (base_angles _ _) as [[[s1 s2] s3] v]. apply sections_same.
    - rewrite ER. apply bind_ext; intros _. apply bind_ext; intros k. apply sections_same. }
  rewrite EH. apply bind_ext; intros h. rewrite IH. reflexivity.
Qed.
Lemma wings_same m n d : generate_wings (quicker_wing c m) n (d / c) = generate_wings m n d.
Proof. unfold generate_wings. cbn [quicker_wing wm_base wm_sections wm_x_le wm_y_le wm_z_le]. rewrite !oscillate_same, histories_same. reflexivity. Qed.
Lemma airplanes_same m n d : generate_airplanes (quicker_airplane c m) n (d / c) = generate_airplanes m n d.
Proof.
  unfold generate_airplanes. cbn [quicker_airplane am_base am_wings am_x_ref am_y_ref am_z_ref]. rewrite !oscillate_same, mapM_map.
  rewrite (mapM_ext (fun x => generate_wings (quicker_wing c x) n (d / c)) (fun w => generate_wings w n d)) by (intros; apply wings_same). reflexivity.
Qed.
Lemma oscillate_speed o b n d : oscillate (mkosc (c * osc_amplitude o) (osc_period o / c) (osc_spacing o)) (c * b) n (d / c) = result_map (map (Rmult c)) (oscillate o b n d).
Proof.
  unfold oscillate. cbn [osc_spacing osc_amplitude osc_period]. rewrite sine_same, linear_same by auto. destruct (String.eqb _ _); [reflexivity|]. destruct (String.eqb _ _); reflexivity.
Qed.
(** The snapshots of the flow take neither the viscosity nor the thrust of the base. *)
Definition snap (r : R) (op : operating_point) : operating_point := mkop (r * op_density op) (c * op_velocity op) (op_alpha op) (op_beta op) (op_external_thrust op) (op_nu op).
Lemma points_same r om n d : generate_operating_points (faster_wind c r om) n (d / c) = result_map (map (snap r)) (generate_operating_points om n d).
Proof.
  unfold generate_operating_points. cbn [faster_wind om_base om_velocity faster op_density op_velocity op_alpha op_beta]. rewrite oscillate_speed, bind_result_map, result_map_bind. apply bind_ext; intros vs.
  apply mapM_commute. intros k _. rewrite index_map, bind_result_map, result_map_bind. apply bind_ext. reflexivity.
Qed.

(** ** Periods *)
Lemma Rmax_over a b : Rmax (a / c) (b / c) = Rmax a b / c.
Proof. unfold Rdiv. rewrite (Rmult_comm a), (Rmult_comm b), (Rmult_comm (Rmax a b)). apply RmaxRmult. left. apply Rinv_0_lt_compat. exact Hc. Qed.
Lemma max_over l : py_max (map (fun x => x / c) l) = result_map (fun x => x / c) (py_max l).
Proof.
  destruct l as [|x l]; cbn [map py_max result_map]; [reflexivity|]. f_equal. revert x. induction l as [|y l IH]; intros x; cbn [map fold_left]; [reflexivity|]. rewrite Rmax_over. apply IH.
Qed.
Lemma wing_period m : wm_max_period (quicker_wing c m) = result_map (fun x => x / c) (wm_max_period m).
Proof.
  unfold wm_max_period. cbn [quicker_wing wm_sections wm_x_le wm_y_le wm_z_le quicker osc_period]. rewrite map_map.
  rewrite (map_ext (fun x => sm_max_period (quicker_section c x)) (fun x => sm_max_period x / c)).
  - rewrite <- (map_map sm_max_period (fun x => x / c)), max_over, bind_result_map, result_map_bind. apply bind_ext; intros p. rewrite !Rmax_over. reflexivity.
  - intros s. unfold sm_max_period. cbn [quicker_section sm_sweeping sm_pitching sm_heaving quicker osc_period]. rewrite !Rmax_over. reflexivity.
Qed.
Lemma airplane_period m : am_max_period (quicker_airplane c m) = result_map (fun x => x / c) (am_max_period m).
Proof.
  unfold am_max_period. cbn [quicker_airplane am_wings am_x_ref am_y_ref am_z_ref quicker osc_period]. rewrite (mapM_both wm_max_period wm_max_period (quicker_wing c) (fun x => x / c)) by (intros; apply wing_period).
  rewrite bind_result_map, result_map_bind. apply bind_ext; intros ps. rewrite max_over, bind_result_map, result_map_bind. apply bind_ext; intros p. rewrite !Rmax_over. reflexivity.
Qed.
Lemma period_same r ams om : max_period (map (quicker_airplane c) ams) (faster_wind c r om) = result_map (fun x => x / c) (max_period ams om).
Proof.
  unfold max_period. rewrite (mapM_both am_max_period am_max_period (quicker_airplane c) (fun x => x / c)) by (intros; apply airplane_period).
  rewrite bind_result_map, result_map_bind. apply bind_ext; intros ps. rewrite max_over, bind_result_map, result_map_bind. apply bind_ext; intros p. cbn [result_map]. rewrite <- Rmax_over. reflexivity.
Qed.

(** ** Movements *)
Definition sc_movement (r : R) (m : movement) : movement :=
  mkmovement (map (quicker_airplane c) (mv_airplane_movements m)) (faster_wind c r (mv_op_movement m)) (mv_num_steps m) (mv_num_cycles m) (mv_num_chords m)
             (mv_delta_time m / c) (mv_airplanes m) (map (snap r) (mv_operating_points m)).
Lemma over_over x y : x / c / (y / c) = x / y.
Proof. unfold Rdiv. rewrite Rinv_mult, Rinv_inv. generalize (/ y). intros. field. lra. Qed.
Lemma movement_same r ams om n cy ch dt : new_movement (map (quicker_airplane c) ams) (faster_wind c r om) n cy ch (option_map (fun t => t / c) dt) = result_map (sc_movement r) (new_movement ams om n cy ch dt).
Proof.
  unfold new_movement. rewrite period_same, !bind_result_map. cbn zeta.
  assert (EB : forall (k : bool -> bool), (let* x := max_period ams om in Ok (k (Reqb (x / c) 0))) = (let* x := max_period ams om in Ok (k (Reqb x 0)))) by (intros k; apply bind_ext; intros x; rewrite Reqb_over; reflexivity).
  rewrite (EB (fun b => b)), (EB negb). rewrite result_map_bind. apply bind_ext; intros _. rewrite result_map_bind. apply bind_ext; intros _.
  cbn [faster_wind om_base faster op_velocity].
  set (velocity := op_velocity (om_base om)).
  assert (ED : match option_map (fun t => t / c) dt with
    | Some d => Ok d
    | None =>
        let* dts := mapM (fun m => let* w := index (a_wings (am_base m)) 0 in Ok (a_c_ref (am_base m) / INR (w_num_chordwise_panels w) / (c * velocity))) (map (quicker_airplane c) ams) in
        if Nat.eqb (length dts) 0 then Err EZeroDivision else Ok (rsum dts / INR (length dts)) end =
    result_map (fun t => t / c) match dt with
    | Some d => Ok d
    | None =>
        let* dts := mapM (fun m => let* w := index (a_wings (am_base m)) 0 in Ok (a_c_ref (am_base m) / INR (w_num_chordwise_panels w) / velocity)) ams in
        if Nat.eqb (length dts) 0 then Err EZeroDivision else Ok (rsum dts / INR (length dts)) end).
  { destruct dt as [d|]; [reflexivity|]. cbn [option_map].
    rewrite (mapM_both (fun m => let* w := index (a_wings (am_base m)) 0 in Ok (a_c_ref (am_base m) / INR (w_num_chordwise_panels w) / velocity)) _ (quicker_airplane c) (fun t => t / c)).
    - rewrite bind_result_map, result_map_bind. apply bind_ext; intros dts. rewrite map_length. destruct (Nat.eqb (length dts) 0); [reflexivity|]. cbn [result_map]. f_equal.
      replace (rsum (map (fun t => t / c) dts)) with (rsum dts / c); [unfold Rdiv; ring|]. induction dts as [|x l IH]; cbn [map]; [rewrite rsum_nil; field; lra|]. rewrite !rsum_cons, <- IH. field. lra.
    - intros m. change (am_base (quicker_airplane c m)) with (am_base m). rewrite result_map_bind. apply bind_ext; intros w. cbn [result_map]. f_equal. unfold Rdiv. rewrite Rinv_mult. ring. }
  rewrite ED, bind_result_map, result_map_bind. apply bind_ext; intros d. rewrite result_map_bind.
  match goal with |- bind ?x _ = bind ?y _ => assert (ER : x = y) end.
  { destruct n as [k|]; [reflexivity|]. rewrite bind_result_map. apply bind_ext; intros p. rewrite Reqb_over. destruct (Reqb p 0).
    - rewrite map_map. change (map (fun x => a_c_ref (am_base (quicker_airplane c x))) ams) with (map (fun m => a_c_ref (am_base m)) ams). apply bind_ext; intros ch'. replace (d / c * (c * velocity)) with (d * velocity) by (field; lra). reflexivity.
    - rewrite <- (over_over (match cy with Some k => k | None => 3 end * p) d). do 4 f_equal. unfold Rdiv. ring. }
  rewrite ER. apply bind_ext; intros [[k cycles] chords]. rewrite mapM_map, (mapM_ext (fun x => generate_airplanes (quicker_airplane c x) k (d / c)) (fun m => generate_airplanes m k d)) by (intros; apply airplanes_same).
  rewrite result_map_bind. apply bind_ext; intros airplanes. rewrite points_same, bind_result_map, result_map_bind. apply bind_ext. reflexivity.
Qed.
Definition sc_created (r : R) (up : unsteady_problem) : unsteady_problem :=
  mkunsteady (sc_movement r (up_movement up)) (up_num_steps up) (up_delta_time up / c) (up_only_final_results up) (up_max_period up / c) (up_first_averaging_step up) (up_first_results_step up)
             (up_final up) (up_final_mean up) (up_final_rms up) (map (fun sp => mksteady (sp_airplanes sp) (snap r (sp_operating_point sp))) (up_steady_problems up)).
Lemma problem_same r m only : new_unsteady_problem (sc_movement r m) only = result_map (sc_created r) (new_unsteady_problem m only).
Proof.
  unfold new_unsteady_problem. unfold mv_max_period. cbn [sc_movement mv_airplane_movements mv_op_movement mv_num_steps mv_delta_time mv_airplanes mv_operating_points]. rewrite period_same, bind_result_map, result_map_bind. apply bind_ext; intros p. cbn zeta.
  rewrite (mapM_commute (fun step => let* airplanes := column (mv_airplanes m) step in let* op := index (mv_operating_points m) step in Ok (mksteady airplanes op)) _ (fun sp => mksteady (sp_airplanes sp) (snap r (sp_operating_point sp)))).
  - rewrite bind_result_map, result_map_bind. apply bind_ext; intros steps. cbn [result_map]. unfold sc_created.
    assert (EF : first_averaging_step (mv_num_steps m) (mv_delta_time m / c) (p / c) = first_averaging_step (mv_num_steps m) (mv_delta_time m) p) by (unfold first_averaging_step; rewrite Reqb_over, over_over; reflexivity).
    rewrite EF. reflexivity.
  - intros k _. rewrite result_map_bind. apply bind_ext; intros a. rewrite index_map, bind_result_map, result_map_bind. apply bind_ext. reflexivity.
Qed.
End Quicker.

(** ** Problems *)
Lemma snapshot_viscosity up sp : created up -> In sp (up_steady_problems up) -> op_nu (sp_operating_point sp) = op_nu default_operating_point.
Proof.
  intros (ams & om & ns & cy & ch & d & m & only & Em & Eup) Hsp.
  destruct (unsteady_built _ _ _ Eup) as (_ & _ & _ & _ & _ & _ & _ & _ & _ & _ & _ & HS). apply In_nth_error in Hsp. destruct Hsp as [k Hk]. destruct (HS k sp Hk) as [_ Ho].
  destruct (movement_built _ _ _ _ _ _ _ Em) as (_ & _ & _ & _ & _ & EO). unfold generate_operating_points in EO. apply bind_Ok in EO. destruct EO as (vs & _ & EO). apply mapM_Forall2 in EO.
  destruct (Forall2_nth _ _ _ EO _ _ Ho) as (i & _ & Ei). apply bind_Ok in Ei. destruct Ei as (v & _ & Ei). apply Ok_eq in Ei. rewrite <- Ei. reflexivity.
Qed.
Lemma similar_movement c r ams om n cy ch dt m only up : 0 < c -> new_movement ams om n cy ch dt = Ok m -> new_unsteady_problem m only = Ok up ->
  exists m' up', new_movement (map (quicker_airplane c) ams) (faster_wind c r om) n cy ch (option_map (fun t => t / c) dt) = Ok m' /\ new_unsteady_problem m' only = Ok up' /\
    same_flight c r up (set_viscosity (c * op_nu default_operating_point) up').
Proof.
  intros Hc Em Eup. exists (sc_movement c r m), (sc_created c r up). rewrite (movement_same c Hc), Em, (problem_same c Hc), Eup. cbn [result_map]. split; [reflexivity|]. split; [reflexivity|].
  assert (HC : created up) by (do 7 eexists; exists only; split; [exact Em | exact Eup]). destruct (created_fields _ HC) as (C1 & C2 & C3 & _).
  constructor; cbn [set_viscosity up_set_steps sc_created up_delta_time up_num_steps up_first_results_step up_first_averaging_step up_max_period up_final up_final_mean up_final_rms up_steady_problems]; try reflexivity; auto.
  - pose proof (Reqb_over c Hc (up_max_period up)) as E. rewrite <- !Reqb_true, E. reflexivity.
  - rewrite map_map. apply map_ext_in. intros sp Hsp. cbn [sp_airplanes sp_operating_point]. unfold faster, snap. cbn [op_density op_velocity op_alpha op_beta op_external_thrust]. rewrite (snapshot_viscosity up sp HC Hsp). reflexivity.
Qed.
Lemma created_speed c r up up' : created up -> created up' -> same_flight c r up up' -> (0 < length (up_steady_problems up))%nat -> c = 1.
Proof.
  intros HC HC' SF HL. pose proof (sf_steps _ _ _ _ SF) as E. destruct (up_steady_problems up) as [|sp l] eqn:Eu; [cbn in HL; lia|]. cbn [map] in E.
  pose proof (snapshot_viscosity up sp HC) as E1. rewrite Eu in E1. specialize (E1 (or_introl eq_refl)).
  pose proof (snapshot_viscosity up' (mksteady (sp_airplanes sp) (faster c r (sp_operating_point sp))) HC') as E2. rewrite E in E2. specialize (E2 (or_introl eq_refl)).
  cbn [sp_operating_point faster op_nu] in E2. rewrite E1 in E2. change (op_nu default_operating_point) with (1506 / 100000000) in E2. lra.
Qed.

(** ** Density *)
Lemma quicker_1 o : quicker 1 o = o.
Proof. destruct o. unfold quicker. cbn. f_equal. field. Qed.
Lemma quicker_section_1 m : quicker_section 1 m = m.
Proof. destruct m. unfold quicker_section. cbn. rewrite !quicker_1. reflexivity. Qed.
Lemma quicker_wing_1 m : quicker_wing 1 m = m.
Proof. destruct m. unfold quicker_wing. cbn. rewrite !quicker_1. f_equal. rewrite (map_ext _ (fun x => x)) by apply quicker_section_1. apply map_id. Qed.
Lemma quicker_airplane_1 m : quicker_airplane 1 m = m.
Proof. destruct m. unfold quicker_airplane. cbn. rewrite !quicker_1. f_equal. rewrite (map_ext _ (fun x => x)) by apply quicker_wing_1. apply map_id. Qed.
Lemma faster_wind_1 r m : faster_wind 1 r m = denser r m.
Proof. destruct m as [op o]. destruct op, o. unfold faster_wind, denser, faster. cbn. f_equal; f_equal; field. Qed.
Lemma set_viscosity_same up : created up -> set_viscosity (1 * op_nu default_operating_point) up = up.
Proof.
  intros HC. unfold set_viscosity. replace (map _ (up_steady_problems up)) with (up_steady_problems up); [destruct up; reflexivity|].
  rewrite <- (map_id (up_steady_problems up)) at 1. apply map_ext_in. intros sp Hsp. rewrite Rmult_1_l, <- (snapshot_viscosity up sp HC Hsp). destruct sp as [a op]. destruct op. reflexivity.
Qed.
Lemma similar_density r ams om n cy ch dt m only up solve prescribed (lines : bool) s : SolveSpec solve -> 0 < r ->
  new_movement ams om n cy ch dt = Ok m -> new_unsteady_problem m only = Ok up -> finished solve prescribed lines up s ->
  exists m' up' s', new_movement ams (denser r om) n cy ch dt = Ok m' /\ new_unsteady_problem m' only = Ok up' /\ finished solve prescribed lines up' s' /\ run_similar 1 r s s'.
Proof.
  intros HS Hr Em Eup HF. destruct (similar_movement 1 r _ _ _ _ _ _ _ _ _ ltac:(lra) Em Eup) as (m' & up' & Em' & Eup' & SF).
  rewrite (map_ext _ (fun x => x) quicker_airplane_1), map_id, faster_wind_1 in Em'. replace (option_map (fun t => t / 1) dt) with dt in Em' by (destruct dt; cbn; [f_equal; field | reflexivity]).
  assert (HC : created up) by (do 7 eexists; exists only; split; [exact Em | exact Eup]). assert (HC' : created up') by (do 7 eexists; exists only; split; [exact Em' | exact Eup']).
  rewrite (set_viscosity_same up' HC') in SF. destruct (similar_finished 1 r ltac:(lra) Hr solve HS prescribed lines up up' s HC SF HF) as (s' & HF' & RS). exists m', up', s'. auto.
Qed.
