(** Movements [k] times as large and [k] times as slow go through snapshots [k] times as large. *)
From Coq Require Import List ZArith Lia Lra Bool Reals.
From Verif Require Import M_Unsteady S_Solve S_Unsteady S_UnsteadyRun S_Geometry S_Similar S_Size S_SizeUnsteady L_Base L_Loads L_Geometry L_RigidShift L_Problems L_UnsteadyFinal
  L_Similar L_SimilarMovement L_Size L_SizeSolvers L_SizeWing.
Import ListNotations.
Local Open Scope R_scope.
Local Open Scope list_scope.

Section Larger.
Context (k : R) (Hk : 0 < k).
Lemma over_inv x : x / / k = k * x.
Proof. unfold Rdiv. rewrite Rinv_inv. ring. Qed.
Lemma inv_pos : 0 < / k.
Proof. apply Rinv_0_lt_compat. exact Hk. Qed.
Lemma slower_quicker o : slower k o = quicker (/ k) o.
Proof. unfold slower, quicker. rewrite over_inv. reflexivity. Qed.
Lemma slow_oscillate o b n d : oscillate (slower k o) b n (k * d) = oscillate o b n d.
Proof. rewrite slower_quicker, <- over_inv. apply oscillate_same. exact inv_pos. Qed.
Lemma slow_custom o f b n d : oscillate_custom (slower k o) f b n (k * d) = oscillate_custom o f b n d.
Proof. rewrite slower_quicker, <- over_inv. apply oscillate_custom_same. exact inv_pos. Qed.
(** Farther, at the same pace. *)
Lemma far_sine a p b n d : oscillating_sinspace (k * a) p (k * b) n d = result_map (map (Rmult k)) (oscillating_sinspace a p b n d).
Proof.
  unfold oscillating_sinspace. rewrite result_map_bind. apply bind_ext; intros m. rewrite (Reqb_times k Hk).
  destruct (Reqb a 0 || Reqb p 0); cbn [result_map]; [rewrite repeat_map; reflexivity|]. cbn zeta. f_equal. rewrite map_map. apply map_ext. intros; ring.
Qed.
Lemma far_linear a p b n d : oscillating_linspace (k * a) p (k * b) n d = result_map (map (Rmult k)) (oscillating_linspace a p b n d).
Proof.
  unfold oscillating_linspace. rewrite result_map_bind. apply bind_ext; intros m. rewrite (Reqb_times k Hk).
  destruct (Reqb a 0 || Reqb p 0); cbn [result_map]; [rewrite repeat_map; reflexivity|]. cbn zeta. f_equal. rewrite map_map. apply map_ext. intros; ring.
Qed.
Lemma far_oscillate o b n d : oscillate (farther k o) (k * b) n (k * d) = result_map (map (Rmult k)) (oscillate o b n d).
Proof.
  change (farther k o) with (slower k (mkosc (k * osc_amplitude o) (osc_period o) (osc_spacing o))). rewrite slow_oscillate.
  unfold oscillate. cbn [osc_spacing osc_amplitude osc_period]. rewrite far_sine, far_linear. destruct (String.eqb _ _); [reflexivity|]. destruct (String.eqb _ _); reflexivity.
Qed.

(** ** Cross sections *)
Lemma chord_check c : Rleb (k * c) 0 = Rleb c 0.
Proof. apply eq_true_iff_eq. rewrite !Rleb_true. split; intros H; nra. Qed.
Lemma larger_section_at b x y z t : section_at (enlarged_section k b) (k * x) (k * y) (k * z) t = result_map (enlarged_section k) (section_at b x y z t).
Proof.
  unfold section_at, new_section. cbn [enlarged_section cs_airfoil cs_chord cs_control_surface_type cs_control_surface_hinge_point cs_control_surface_deflection cs_num_spanwise_panels cs_spanwise_spacing].
  cbv zeta. rewrite chord_check. rewrite result_map_bind. apply bind_ext; intros _. rewrite result_map_bind. apply bind_ext; intros _. rewrite result_map_bind. apply bind_ext; intros _. reflexivity.
Qed.
Lemma map2_moved {A} (g g' : vec -> A -> R) last (l : list A) : (forall v a, g' (vscale k v) a = k * g v a) -> map2 g' (map (vscale k) last) l = map (Rmult k) (map2 g last l).
Proof. intros H. revert l. induction last as [|v last IH]; intros [|a l]; cbn [map map2]; try reflexivity. rewrite H, IH. reflexivity. Qed.
Lemma larger_generate m n d last v span sweep heave :
  generate_sections (larger_section_movement k m) n (k * d) (map (vscale k) last) v (k * span) sweep heave = result_map (map (enlarged_section k)) (generate_sections m n d last v span sweep heave).
Proof.
  unfold generate_sections. cbn [larger_section_movement sm_base sm_sweeping sm_custom_sweep sm_pitching sm_custom_pitch sm_heaving sm_custom_heave]. rewrite !slow_custom.
  change (cs_twist (enlarged_section k (sm_base m))) with (cs_twist (sm_base m)).
  rewrite result_map_bind. apply bind_ext; intros sw. rewrite result_map_bind. apply bind_ext; intros pi. rewrite result_map_bind. apply bind_ext; intros he. rewrite result_map_bind. apply bind_ext; intros c. cbv zeta.
  set (b := sm_base m).
  match goal with |- map4M _ ?x ?y ?z ?t = result_map _ (map4M _ ?x0 ?y0 ?z0 _) =>
    assert (EX : x = map (Rmult k) x0); [|assert (EY : y = map (Rmult k) y0); [|assert (EZ : z = map (Rmult k) z0); [|rewrite EX, EY, EZ; generalize x0 y0 z0 t; clear -Hk]]] end.
  1,2,3: destruct v; [rewrite repeat_map; reflexivity|]; apply map2_moved; intros u s; cbn [vscale vx vy vz]; ring.
  intros xs ys zs ts. unfold map4M. rewrite combine_map_map.
  replace (combine (map (Rmult k) zs) ts) with (map (fun q => (k * fst q, snd q)) (combine zs ts)) by (revert ts; induction zs as [|z zs IH]; intros [|t ts]; cbn [map combine]; try reflexivity; rewrite IH; reflexivity).
  rewrite combine_map_map.
  apply (mapM_both (fun q => section_at b (fst (fst q)) (snd (fst q)) (fst (snd q)) (snd (snd q)))). intros [[x y] [z t]]. cbn [fst snd]. apply larger_section_at.
Qed.
Lemma Reqb_scaled x y : Reqb (k * x) (k * y) = Reqb x y.
Proof. apply eq_true_iff_eq. rewrite !Reqb_true. split; [intros E; apply (Rmult_eq_reg_l k); [exact E | lra] | intros ->; reflexivity]. Qed.
Lemma larger_angles this last : base_angles (vscale k this) (vscale k last) = let '(span, sweep, heave, v) := base_angles this last in (k * span, sweep, heave, v).
Proof.
  unfold base_angles. cbn [vscale vx vy vz]. rewrite Reqb_scaled.
  assert (ES : sqrt ((k * vx this - k * vx last) ^ 2 + (k * vy this - k * vy last) ^ 2 + (k * vz this - k * vz last) ^ 2) = k * sqrt ((vx this - vx last) ^ 2 + (vy this - vy last) ^ 2 + (vz this - vz last) ^ 2)).
  { match goal with |- _ = k * sqrt ?q => transitivity (sqrt (k ^ 2) * sqrt q); [rewrite <- sqrt_mult by (try (pose proof (pow2_ge_0 (vx this - vx last)); pose proof (pow2_ge_0 (vy this - vy last)); pose proof (pow2_ge_0 (vz this - vz last)); pose proof (pow2_ge_0 k); lra)); f_equal; ring | rewrite sqrt_pow2 by lra; reflexivity] end. }
  rewrite ES. destruct (Reqb (vy this) (vy last)); cbn [negb]; [reflexivity|].
  assert (EA : forall a b, (k * a - k * b) / (k * vy this - k * vy last) = (a - b) / (vy this - vy last)).
  { intros a b. rewrite <- !Rmult_minus_distr_l. unfold Rdiv. rewrite Rinv_mult. generalize (/ (vy this - vy last)). intros u. field. lra. }
  rewrite !EA. reflexivity.
Qed.
Lemma larger_root m : root_fixed (larger_section_movement k m) = root_fixed m.
Proof. unfold root_fixed. cbn [larger_section_movement sm_sweeping sm_heaving slower osc_amplitude osc_period]. rewrite !(Reqb_times k Hk). reflexivity. Qed.
Lemma larger_les l : map cs_leading_edge (map (enlarged_section k) l) = map (vscale k) (map cs_leading_edge l).
Proof. rewrite !map_map. reflexivity. Qed.
Lemma larger_histories n d ms : forall last, section_histories n (k * d) (option_map (map (enlarged_section k)) last) (map (larger_section_movement k) ms) = result_map (map (map (enlarged_section k))) (section_histories n d last ms).
Proof.
  induction ms as [|m ms IH]; intros last; cbn [map section_histories]; [reflexivity|].
  match goal with |- bind ?x _ = result_map _ (bind ?y _) => assert (EH : x = result_map (map (enlarged_section k)) y) end.
  { destruct last as [sections|]; cbn [option_map].
    - cbv zeta. rewrite larger_les, index_map, bind_result_map, result_map_bind. apply bind_ext; intros first.
      change (cs_leading_edge (sm_base (larger_section_movement k m))) with (vscale k (cs_leading_edge (sm_base m))). rewrite larger_angles. destruct (base_angles _ _) as [[[s1 s2] s3] v]. apply larger_generate.
    - rewrite larger_root, result_map_bind. apply bind_ext; intros _. rewrite result_map_bind. apply bind_ext; intros c.
      rewrite <- larger_generate, repeat_map, vscale_0_r, Rmult_0_r. reflexivity. }
  rewrite EH, bind_result_map, result_map_bind. apply bind_ext; intros h. change (Some (map (enlarged_section k) h)) with (option_map (map (enlarged_section k)) (Some h)). rewrite IH, bind_result_map, result_map_bind. apply bind_ext. reflexivity.
Qed.
Lemma column_map {A B} (f : A -> B) rows i : column (map (map f) rows) i = result_map (map f) (column rows i).
Proof. unfold column. apply mapM_both. intros r. apply index_map. Qed.

(** ** Wings *)
Lemma larger_new_wing sections name x y z u sym c nc sp :
  new_wing (map (enlarged_section k) sections) name (k * x) (k * y) (k * z) u sym c nc sp = result_map (larger_wing k) (new_wing sections name x y z u sym c nc sp).
Proof.
  unfold new_wing. cbv zeta. rewrite map_length, big_count, map_chordwise.
  do 2 (rewrite result_map_bind; apply bind_ext; intros _). rewrite index_map, bind_result_map, result_map_bind. apply bind_ext; intros root.
  change (cs_unit_normal (enlarged_section k root)) with (cs_unit_normal root). rewrite result_map_bind. apply bind_ext; intros _.
  change (cs_leading_edge (enlarged_section k root)) with (vscale k (cs_leading_edge root)).
  assert (EV : veqb (vscale k (cs_leading_edge root)) vzero = veqb (cs_leading_edge root) vzero) by (apply eq_true_iff_eq; rewrite !veqb_true; apply big_same; exact Hk).
  rewrite EV, result_map_bind. apply bind_ext; intros _. rewrite result_map_bind. apply bind_ext; intros _.
  assert (EF : forall l, forallb (fun s => veqb (vcross (vcross u (cs_unit_normal s)) c) vzero) (map (enlarged_section k) l) = forallb (fun s => veqb (vcross (vcross u (cs_unit_normal s)) c) vzero) l).
  { clear. induction l as [|s l IH]; [reflexivity|]. cbn [map forallb]. rewrite IH. reflexivity. }
  rewrite EF, result_map_bind. apply bind_ext; intros _.
  pose proof (big_mesh k (mkmesh (mkvec x y z) u sym nc sp)) as HS. unfold big_spec in HS. cbn [ms_leading_edge ms_unit_normal ms_symmetric ms_num_chordwise ms_chordwise_spacing] in HS.
  change (vscale k (mkvec x y z)) with (mkvec (k * x) (k * y) (k * z)) in HS.
  rewrite HS, bind_result_map, result_map_bind. apply bind_ext; intros m. reflexivity.
Qed.
Lemma larger_wings m n d : generate_wings (larger_wing_movement k m) n (k * d) = result_map (map (larger_wing k)) (generate_wings m n d).
Proof.
  unfold generate_wings. cbn [larger_wing_movement wm_base wm_sections wm_x_le wm_y_le wm_z_le larger_wing w_x_le w_y_le w_z_le]. rewrite !far_oscillate.
  rewrite bind_result_map, result_map_bind. apply bind_ext; intros xs. rewrite bind_result_map, result_map_bind. apply bind_ext; intros ys. rewrite bind_result_map, result_map_bind. apply bind_ext; intros zs.
  change (@None (list section)) with (option_map (map (enlarged_section k)) None) at 1. rewrite larger_histories, bind_result_map, result_map_bind. apply bind_ext; intros hs.
  apply mapM_commute. intros i _. rewrite !index_map, column_map.
  rewrite bind_result_map, result_map_bind. apply bind_ext; intros x. rewrite bind_result_map, result_map_bind. apply bind_ext; intros y. rewrite bind_result_map, result_map_bind. apply bind_ext; intros z.
  rewrite bind_result_map, result_map_bind. apply bind_ext; intros sections. apply larger_new_wing.
Qed.

(** ** Airplanes *)
Lemma larger_area w : w_projected_area (larger_wing k w) = k ^ 2 * w_projected_area w.
Proof.
  unfold w_projected_area, w_unit_up. cbn [larger_wing w_panels w_unit_chordwise w_unit_normal]. change (map (map (larger_panel k)) (w_panels w)) with (big_panels k (w_panels w)).
  unfold ravel, big_panels. rewrite <- concat_map, map_map. generalize (vcross (w_unit_chordwise w) (w_unit_normal w)) (concat (w_panels w)). clear. intros u l.
  induction l as [|p l IH]; cbn [map]; rewrite ?rsum_cons, ?rsum_nil; [ring|]. rewrite IH, big_projected. ring.
Qed.
Lemma larger_span w : w_span (larger_wing k w) = k * w_span w.
Proof. unfold w_span. cbn [larger_wing w_sections w_symmetric w_unit_normal]. rewrite map_length, !big_nth_le, big_sub, big_along by lra. destruct (w_symmetric w); ring. Qed.
Lemma larger_mac w : w_mean_aerodynamic_chord (larger_wing k w) = k * w_mean_aerodynamic_chord w.
Proof.
  unfold w_mean_aerodynamic_chord. rewrite larger_area. cbn [larger_wing w_sections w_unit_normal w_symmetric]. rewrite big_mac by exact Hk.
  unfold Rdiv. rewrite Rinv_mult. generalize (/ w_projected_area w). intros A. destruct (w_symmetric w); field; lra.
Qed.
Lemma larger_new_airplane wings name x y z : new_airplane (map (larger_wing k) wings) name (k * x) (k * y) (k * z) 0 None None None = result_map (larger_airplane k) (new_airplane wings name x y z 0 None None None).
Proof.
  unfold new_airplane. destruct wings as [|w ws]; [reflexivity|]. cbn [map result_map]. unfold override. rewrite larger_area, larger_span, larger_mac. unfold larger_airplane.
  cbn [a_wings a_name a_x_ref a_y_ref a_z_ref a_weight a_s_ref a_c_ref a_b_ref a_num_panels a_force_wind a_force_coefficients a_moment_wind a_moment_coefficients map].
  do 2 f_equal. change (larger_wing k w :: map (larger_wing k) ws) with (map (larger_wing k) (w :: ws)). generalize (w :: ws) 0%nat. clear. intros l. induction l as [|x l IH]; intros j; [reflexivity|]. cbn [map fold_left]. apply IH.
Qed.
Lemma larger_airplanes m n d : generate_airplanes (larger_airplane_movement k m) n (k * d) = result_map (map (larger_airplane k)) (generate_airplanes m n d).
Proof.
  unfold generate_airplanes. cbn [larger_airplane_movement am_base am_wings am_x_ref am_y_ref am_z_ref larger_airplane a_x_ref a_y_ref a_z_ref]. rewrite !far_oscillate.
  rewrite bind_result_map, result_map_bind. apply bind_ext; intros xs. rewrite bind_result_map, result_map_bind. apply bind_ext; intros ys. rewrite bind_result_map, result_map_bind. apply bind_ext; intros zs.
  rewrite (mapM_both (fun w => generate_wings w n d) (fun w => generate_wings w n (k * d)) (larger_wing_movement k) (map (larger_wing k))) by (intros; apply larger_wings).
  rewrite bind_result_map, result_map_bind. apply bind_ext; intros hs. apply mapM_commute. intros i _. rewrite !index_map, column_map.
  rewrite bind_result_map, result_map_bind. apply bind_ext; intros x. rewrite bind_result_map, result_map_bind. apply bind_ext; intros y. rewrite bind_result_map, result_map_bind. apply bind_ext; intros z.
  rewrite bind_result_map, result_map_bind. apply bind_ext; intros wings. apply larger_new_airplane.
Qed.
Lemma larger_points om n d : generate_operating_points (slower_wind k om) n (k * d) = generate_operating_points om n d.
Proof. unfold generate_operating_points. cbn [slower_wind om_base om_velocity]. rewrite slow_oscillate. reflexivity. Qed.

(** ** Periods *)
Lemma Rmax_times a b : Rmax (k * a) (k * b) = k * Rmax a b.
Proof. apply RmaxRmult. lra. Qed.
Lemma max_times l : py_max (map (Rmult k) l) = result_map (Rmult k) (py_max l).
Proof. destruct l as [|x l]; cbn [map py_max result_map]; [reflexivity|]. f_equal. revert x. induction l as [|y l IH]; intros x; cbn [map fold_left]; [reflexivity|]. rewrite Rmax_times. apply IH. Qed.
Lemma larger_wing_period m : wm_max_period (larger_wing_movement k m) = result_map (Rmult k) (wm_max_period m).
Proof.
  unfold wm_max_period. cbn [larger_wing_movement wm_sections wm_x_le wm_y_le wm_z_le farther osc_period]. rewrite map_map.
  rewrite (map_ext (fun x => sm_max_period (larger_section_movement k x)) (fun x => k * sm_max_period x)).
  - rewrite <- (map_map sm_max_period (Rmult k)), max_times, bind_result_map, result_map_bind. apply bind_ext; intros p. rewrite !Rmax_times. reflexivity.
  - intros s. unfold sm_max_period. cbn [larger_section_movement sm_sweeping sm_pitching sm_heaving slower osc_period]. rewrite !Rmax_times. reflexivity.
Qed.
Lemma larger_airplane_period m : am_max_period (larger_airplane_movement k m) = result_map (Rmult k) (am_max_period m).
Proof.
  unfold am_max_period. cbn [larger_airplane_movement am_wings am_x_ref am_y_ref am_z_ref farther osc_period]. rewrite (mapM_both wm_max_period wm_max_period (larger_wing_movement k) (Rmult k)) by (intros; apply larger_wing_period).
  rewrite bind_result_map, result_map_bind. apply bind_ext; intros ps. rewrite max_times, bind_result_map, result_map_bind. apply bind_ext; intros p. rewrite !Rmax_times. reflexivity.
Qed.
Lemma larger_period ams om : max_period (map (larger_airplane_movement k) ams) (slower_wind k om) = result_map (Rmult k) (max_period ams om).
Proof.
  unfold max_period. rewrite (mapM_both am_max_period am_max_period (larger_airplane_movement k) (Rmult k)) by (intros; apply larger_airplane_period).
  rewrite bind_result_map, result_map_bind. apply bind_ext; intros ps. rewrite max_times, bind_result_map, result_map_bind. apply bind_ext; intros p. cbn [result_map]. rewrite <- Rmax_times. reflexivity.
Qed.

(** ** Movements *)
Definition lg_movement (m : movement) : movement :=
  mkmovement (map (larger_airplane_movement k) (mv_airplane_movements m)) (slower_wind k (mv_op_movement m)) (mv_num_steps m) (mv_num_cycles m) (mv_num_chords m)
             (k * mv_delta_time m) (map (map (larger_airplane k)) (mv_airplanes m)) (mv_operating_points m).
Lemma ratio_same x y : k * x / (k * y) = x / y.
Proof. unfold Rdiv. rewrite Rinv_mult. generalize (/ y). intros u. field. lra. Qed.
Lemma rsum_times l : rsum (map (Rmult k) l) = k * rsum l.
Proof. induction l as [|x l IH]; cbn [map]; [rewrite rsum_nil; ring|]. rewrite !rsum_cons, IH. ring. Qed.
Lemma larger_movement ams om n cy ch dt : new_movement (map (larger_airplane_movement k) ams) (slower_wind k om) n cy ch (option_map (Rmult k) dt) = result_map lg_movement (new_movement ams om n cy ch dt).
Proof.
  unfold new_movement. rewrite larger_period, !bind_result_map. cbn zeta.
  assert (EB : forall (h : bool -> bool), (let* x := max_period ams om in Ok (h (Reqb (k * x) 0))) = (let* x := max_period ams om in Ok (h (Reqb x 0)))) by (intros h; apply bind_ext; intros x; rewrite (Reqb_times k Hk); reflexivity).
  rewrite (EB (fun b => b)), (EB negb). rewrite result_map_bind. apply bind_ext; intros _. rewrite result_map_bind. apply bind_ext; intros _.
  change (om_base (slower_wind k om)) with (om_base om). set (velocity := op_velocity (om_base om)).
  set (own := fun m => let* w := index (a_wings (am_base m)) 0 in Ok (a_c_ref (am_base m) / INR (w_num_chordwise_panels w) / velocity)).
  assert (ED : match option_map (Rmult k) dt with
    | Some d => Ok d
    | None => let* dts := mapM own (map (larger_airplane_movement k) ams) in if Nat.eqb (length dts) 0 then Err EZeroDivision else Ok (rsum dts / INR (length dts)) end =
    result_map (Rmult k) match dt with
    | Some d => Ok d
    | None => let* dts := mapM own ams in if Nat.eqb (length dts) 0 then Err EZeroDivision else Ok (rsum dts / INR (length dts)) end).
  { destruct dt as [d|]; [reflexivity|]. cbn [option_map]. rewrite (mapM_both own own (larger_airplane_movement k) (Rmult k)).
    - rewrite bind_result_map, result_map_bind. apply bind_ext; intros dts. rewrite map_length. destruct (Nat.eqb (length dts) 0); [reflexivity|]. cbn [result_map]. f_equal. rewrite rsum_times. unfold Rdiv. ring.
    - intros m. unfold own. cbn [larger_airplane_movement am_base larger_airplane a_wings a_c_ref]. rewrite index_map, bind_result_map, result_map_bind. apply bind_ext; intros w. cbn [result_map larger_wing w_num_chordwise_panels]. f_equal. unfold Rdiv. ring. }
  rewrite ED, bind_result_map, result_map_bind. apply bind_ext; intros d. rewrite result_map_bind.
  match goal with |- bind ?x _ = bind ?y _ => assert (ER : x = y) end.
  { destruct n as [j|]; [reflexivity|]. rewrite bind_result_map. apply bind_ext; intros p. rewrite (Reqb_times k Hk). destruct (Reqb p 0).
    - rewrite map_map. change (map (fun x => a_c_ref (am_base (larger_airplane_movement k x))) ams) with (map (fun x => k * a_c_ref (am_base x)) ams).
      rewrite <- (map_map (fun m => a_c_ref (am_base m)) (Rmult k)), max_times, bind_result_map. apply bind_ext; intros c.
      set (q := match ch with Some j => j | None => 10 end). replace (q * (k * c) / (k * d * velocity)) with (q * c / (d * velocity)); [reflexivity|].
      rewrite <- (ratio_same (q * c) (d * velocity)). unfold Rdiv. replace (k * (d * velocity)) with (k * d * velocity) by ring. ring.
    - rewrite <- (ratio_same (match cy with Some j => j | None => 3 end * p) d). do 4 f_equal. unfold Rdiv. ring. }
  rewrite ER. apply bind_ext; intros [[j cycles] chords].
  rewrite (mapM_both (fun m => generate_airplanes m j d) (fun m => generate_airplanes m j (k * d)) (larger_airplane_movement k) (map (larger_airplane k))) by (intros; apply larger_airplanes).
  rewrite bind_result_map, result_map_bind. apply bind_ext; intros airplanes. rewrite larger_points, result_map_bind. apply bind_ext. reflexivity.
Qed.
Definition lg_created (up : unsteady_problem) : unsteady_problem :=
  mkunsteady (lg_movement (up_movement up)) (up_num_steps up) (k * up_delta_time up) (up_only_final_results up) (k * up_max_period up) (up_first_averaging_step up) (up_first_results_step up)
             (up_final up) (up_final_mean up) (up_final_rms up) (map (fun sp => mksteady (map (larger_airplane k) (sp_airplanes sp)) (sp_operating_point sp)) (up_steady_problems up)).
Lemma larger_problem m only : new_unsteady_problem (lg_movement m) only = result_map lg_created (new_unsteady_problem m only).
Proof.
  unfold new_unsteady_problem. unfold mv_max_period. cbn [lg_movement mv_airplane_movements mv_op_movement mv_num_steps mv_delta_time mv_airplanes mv_operating_points]. rewrite larger_period, bind_result_map, result_map_bind. apply bind_ext; intros p. cbn zeta.
  rewrite (mapM_commute (fun step => let* airplanes := column (mv_airplanes m) step in let* op := index (mv_operating_points m) step in Ok (mksteady airplanes op)) _ (fun sp => mksteady (map (larger_airplane k) (sp_airplanes sp)) (sp_operating_point sp))).
  - rewrite bind_result_map, result_map_bind. apply bind_ext; intros steps. cbn [result_map]. unfold lg_created.
    assert (EF : first_averaging_step (mv_num_steps m) (k * mv_delta_time m) (k * p) = first_averaging_step (mv_num_steps m) (mv_delta_time m) p) by (unfold first_averaging_step; rewrite (Reqb_times k Hk), ratio_same; reflexivity).
    rewrite EF. reflexivity.
  - intros i _. rewrite column_map, bind_result_map, result_map_bind. apply bind_ext; intros a. rewrite result_map_bind. apply bind_ext. reflexivity.
Qed.
End Larger.

(** ** Problems *)
Lemma enlarged_movement k ams om n cy ch dt m only up : 0 < k -> new_movement ams om n cy ch dt = Ok m -> new_unsteady_problem m only = Ok up ->
  exists m' up', new_movement (map (larger_airplane_movement k) ams) (slower_wind k om) n cy ch (option_map (Rmult k) dt) = Ok m' /\ new_unsteady_problem m' only = Ok up' /\
    larger_flight k up (set_viscosity (k * op_nu default_operating_point) up').
Proof.
  intros Hk Em Eup. exists (lg_movement k m), (lg_created k up). rewrite (larger_movement k Hk), Em, (larger_problem k Hk), Eup. cbn [result_map]. split; [reflexivity|]. split; [reflexivity|].
  assert (HC : created up) by (do 7 eexists; exists only; split; [exact Em | exact Eup]). destruct (created_fields _ HC) as (C1 & C2 & C3 & _).
  constructor; cbn [set_viscosity up_set_steps lg_created up_delta_time up_num_steps up_first_results_step up_first_averaging_step up_max_period up_final up_final_mean up_final_rms up_steady_problems]; try reflexivity; auto.
  - pose proof (Reqb_times k Hk (up_max_period up)) as E. rewrite <- !Reqb_true, E. reflexivity.
  - rewrite map_map. apply map_ext_in. intros sp Hsp. cbn [sp_airplanes sp_operating_point]. unfold thicker. rewrite (snapshot_viscosity up sp HC Hsp). reflexivity.
Qed.
