(** How fast the velocity induced by a straight vortex falls off. *)
From Coq Require Import Reals Lra Psatz.
From Verif Require Import M_Aero L_Base L_Aero.
Local Open Scope R_scope.

Lemma decay_square D P X : 0 <= D -> 0 <= P -> 0 <= X <= 2 * P -> (D + 4 * P) * (X * X) <= 4 * (P * P) * (D + 2 * X).
Proof.
  intros HD HP [HX HX2]. assert (H1 : X * X <= 2 * P * (2 * P)) by nra. assert (H2 : D * (X * X) <= D * (2 * P * (2 * P))) by (apply Rmult_le_compat_l; assumption).
  assert (H3 : X * X <= 2 * P * X) by nra. assert (H4 : 4 * P * (X * X) <= 4 * P * (2 * P * X)) by (apply Rmult_le_compat_l; lra). lra.
Qed.
(** [r1 + r2] times [r1 r2 - a.b] is at most [2 r1 r2] times the distance of the ends. *)
Lemma decay_numerator a b : let r1 := vnorm a in let r2 := vnorm b in
  0 <= (r1 + r2) * (r1 * r2 - vdot a b) <= 2 * (r1 * r2) * vnorm (vsub b a).
Proof.
  intros r1 r2. assert (H1 : 0 <= r1) by apply vnorm_nonneg. assert (H2 : 0 <= r2) by apply vnorm_nonneg.
  assert (S1 : r1 * r1 = vdot a a) by apply vnorm_mul. assert (S2 : r2 * r2 = vdot b b) by apply vnorm_mul.
  assert (C : Rabs (vdot a b) <= r1 * r2).
  { apply Rsqr_incr_0; [|apply Rabs_pos | apply Rmult_le_pos; assumption]. rewrite <- Rsqr_abs. unfold Rsqr. replace (r1 * r2 * (r1 * r2)) with (r1 * r1 * (r2 * r2)) by ring. rewrite S1, S2. apply cauchy_schwarz. }
  assert (C1 : - (r1 * r2) <= vdot a b <= r1 * r2) by (unfold Rabs in C; destruct (Rcase_abs (vdot a b)); lra).
  assert (HP : 0 <= r1 * r2) by (apply Rmult_le_pos; assumption).
  split; [apply Rmult_le_pos; lra|].
  assert (H0 : 0 <= vnorm (vsub b a)) by apply vnorm_nonneg.
  apply Rsqr_incr_0; [|apply Rmult_le_pos; lra | apply Rmult_le_pos; lra].
  set (X := r1 * r2 - vdot a b). set (D := (r1 - r2) * (r1 - r2)). assert (HD : 0 <= D) by apply Rle_0_sqr.
  assert (E0 : vnorm (vsub b a) * vnorm (vsub b a) = D + 2 * X).
  { replace (vnorm (vsub b a) * vnorm (vsub b a)) with (vdot (vsub b a) (vsub b a)) by (rewrite <- vnorm_sqr; ring). unfold D, X. replace (vdot (vsub b a) (vsub b a)) with (vdot a a + vdot b b - 2 * vdot a b) by (vunfold; ring). rewrite <- S1, <- S2. ring. }
  pose proof (decay_square D (r1 * r2) X HD HP ltac:(unfold X; lra)) as K. unfold Rsqr.
  replace ((r1 + r2) * X * ((r1 + r2) * X)) with ((D + 4 * (r1 * r2)) * (X * X)) by (unfold D; ring).
  replace (2 * (r1 * r2) * vnorm (vsub b a) * (2 * (r1 * r2) * vnorm (vsub b a))) with (4 * (r1 * r2 * (r1 * r2)) * (vnorm (vsub b a) * vnorm (vsub b a))) by ring.
  rewrite E0. exact K.
Qed.
Lemma line_velocity_decay p a b g age nu :
  vnorm (line_velocity p a b g age nu) * vnorm (vcross (vsub a p) (vsub b p)) <= Rabs g / (2 * PI) * vnorm (vsub b a).
Proof.
  pose proof PI_RGT_0 as HPI. assert (HB : 0 <= Rabs g / (2 * PI) * vnorm (vsub b a)).
  { apply Rmult_le_pos; [apply Rmult_le_pos; [apply Rabs_pos | left; apply Rinv_0_lt_compat; lra] | apply vnorm_nonneg]. }
  unfold line_velocity. cbv zeta. set (r1 := vnorm (vsub a p)). set (r2 := vnorm (vsub b p)). set (x := vcross (vsub a p) (vsub b p)). set (r3 := vnorm x). set (r0 := vnorm (vsub b a)) in *.
  destruct (Rltb r1 eps) eqn:E1; cbn [orb]; [rewrite vnorm_zero, Rmult_0_l; exact HB|]. destruct (Rltb r2 eps) eqn:E2; cbn [orb]; [rewrite vnorm_zero, Rmult_0_l; exact HB|].
  destruct (Rltb (r3 ^ 2) eps) eqn:E3; [rewrite vnorm_zero, Rmult_0_l; exact HB|]. apply Rltb_false in E1, E2, E3. assert (He : 0 < eps) by (unfold eps; lra).
  assert (N := decay_numerator (vsub a p) (vsub b p)). cbv zeta in N. fold r1 r2 in N. replace (vsub (vsub b p) (vsub a p)) with (vsub b a) in N by vring. fold r0 in N.
  set (n := (r1 + r2) * (r1 * r2 - vdot (vsub a p) (vsub b p))) in *. set (c2 := r0 ^ 2 * core_radius g age nu ^ 2).
  assert (Hc : 0 <= c2) by (unfold c2; apply Rmult_le_pos; apply pow2_ge_0).
  rewrite vnorm_scale. fold r3. assert (H12 : 0 < r1 * r2) by (apply Rmult_lt_0_compat; lra).
  assert (Hd : 0 < r1 * r2 * (r3 ^ 2 + c2)) by (apply Rmult_lt_0_compat; lra).
  replace (g / (4 * PI) * (r1 + r2) * (r1 * r2 - vdot (vsub a p) (vsub b p)) / (r1 * r2 * (r3 ^ 2 + c2))) with (g * (n / (4 * PI * (r1 * r2 * (r3 ^ 2 + c2))))) by (unfold n; field; lra).
  rewrite Rabs_mult, (Rabs_pos_eq (n / _)); [|apply Rmult_le_pos; [lra | left; apply Rinv_0_lt_compat; apply Rmult_lt_0_compat; lra]].
  replace (Rabs g * (n / (4 * PI * (r1 * r2 * (r3 ^ 2 + c2)))) * r3 * r3) with (Rabs g / (2 * PI) * (n * r3 ^ 2 / (2 * (r1 * r2 * (r3 ^ 2 + c2))))) by (field; lra).
  apply Rmult_le_compat_l; [apply Rmult_le_pos; [apply Rabs_pos | left; apply Rinv_0_lt_compat; lra]|].
  apply Rmult_le_reg_r with (2 * (r1 * r2 * (r3 ^ 2 + c2))); [lra|]. unfold Rdiv. rewrite Rmult_assoc, Rinv_l, Rmult_1_r by lra.
  apply Rle_trans with (2 * (r1 * r2) * r0 * r3 ^ 2); [apply Rmult_le_compat_r; [lra | apply N]|].
  replace (r0 * (2 * (r1 * r2 * (r3 ^ 2 + c2)))) with (2 * (r1 * r2) * r0 * r3 ^ 2 + 2 * (r1 * r2) * r0 * c2) by ring.
  assert (0 <= 2 * (r1 * r2) * r0 * c2) by (apply Rmult_le_pos; [apply Rmult_le_pos; [lra | apply vnorm_nonneg] | exact Hc]). lra.
Qed.
(** At distance at least [h] from the line through the ends, where the distance is
    measured by the foot [a + t (b - a)] of the perpendicular. *)
Lemma cross_from_line p a b t : vcross (vsub a p) (vsub b p) = vcross (vsub (vadd a (vscale t (vsub b a))) p) (vsub b a).
Proof. vring. Qed.
Lemma line_velocity_far p a b g age nu h : 0 < h -> a <> b -> (forall t, h <= vnorm (vsub p (vadd a (vscale t (vsub b a))))) ->
  vnorm (line_velocity p a b g age nu) <= Rabs g / (2 * PI * h).
Proof.
  intros Hh Hab HF. pose proof PI_RGT_0 as HPI. set (e := vsub b a). assert (He : vnorm e <> 0). { intros E. apply vnorm_eq_0 in E. apply Hab. unfold e in E.
    replace b with (vadd (vsub b a) a) by vring. rewrite E. vring. }
  assert (Hp : 0 < vnorm e) by (destruct (vnorm_nonneg e); [assumption | congruence]).
  assert (Hee : vdot e e = vnorm e * vnorm e) by (rewrite <- vnorm_sqr; ring).
  set (t := vdot (vsub p a) e / vdot e e). pose proof (HF t) as Ht. fold e in Ht. set (f := vsub p (vadd a (vscale t e))) in *.
  assert (Hperp : vdot f e = 0). { unfold f. replace (vdot (vsub p (vadd a (vscale t e))) e) with (vdot (vsub p a) e - t * vdot e e) by (vunfold; ring). unfold t. field. rewrite Hee. nra. }
  assert (HX : vnorm (vcross (vsub a p) (vsub b p)) = vnorm f * vnorm e).
  { rewrite (cross_from_line p a b t). fold e. replace (vcross (vsub (vadd a (vscale t e)) p) e) with (vscale (-1) (vcross f e)) by (unfold f; vring).
    rewrite vnorm_scale. replace (Rabs (-1)) with 1 by (rewrite Rabs_left; lra). rewrite Rmult_1_l.
    apply Rsqr_inj; [apply vnorm_nonneg | apply Rmult_le_pos; apply vnorm_nonneg|]. unfold Rsqr.
    replace (vnorm f * vnorm e * (vnorm f * vnorm e)) with ((vnorm f * vnorm f) * (vnorm e * vnorm e)) by ring. replace (vnorm f * vnorm f) with (vdot f f) by (rewrite <- vnorm_sqr; ring). replace (vnorm e * vnorm e) with (vdot e e) by (rewrite <- vnorm_sqr; ring). replace (vnorm (vcross f e) * vnorm (vcross f e)) with (vdot (vcross f e) (vcross f e)) by (rewrite <- vnorm_sqr; ring).
    replace (vdot (vcross f e) (vcross f e)) with (vdot f f * vdot e e - vdot f e * vdot f e) by (vunfold; ring). rewrite Hperp. ring. }
  pose proof (line_velocity_decay p a b g age nu) as K. rewrite HX in K. fold e in K.
  assert (K1 : vnorm (line_velocity p a b g age nu) * vnorm f <= Rabs g / (2 * PI)).
  { apply Rmult_le_reg_r with (vnorm e); [exact Hp | rewrite Rmult_assoc; exact K]. }
  pose proof (vnorm_nonneg (line_velocity p a b g age nu)) as N0.
  apply Rmult_le_reg_r with h; [exact Hh|]. replace (Rabs g / (2 * PI * h) * h) with (Rabs g / (2 * PI)) by (field; lra).
  apply Rle_trans with (2 := K1). apply Rmult_le_compat_l; assumption.
Qed.
Lemma far_example : vzero <> mkvec 1 0 0 /\
  forall t, 1 <= vnorm (vsub (mkvec 0 1 0) (vadd vzero (vscale t (vsub (mkvec 1 0 0) vzero)))).
Proof.
  split; [intros H; apply (f_equal vx) in H; cbn in H; lra|]. intros t. unfold vnorm. rewrite <- sqrt_1 at 1. apply sqrt_le_1_alt. vunfold. nra.
Qed.

(** What the core does: it weakens the vortex by the factor h^2 / (h^2 + r_c^2). *)
Lemma core_square g age nu : 0 <= nu -> 0 <= age -> core_radius g age nu ^ 2 = 4 * (125643 / 100000) * (nu + Rabs g / 10000) * age.
Proof.
  intros Hnu Hage. unfold core_radius, lamb, squire. pose proof (Rabs_pos g). rewrite Rpow_mult_distr, <- (Rsqr_pow2 (sqrt _)), Rsqr_sqrt; [field|].
  apply Rmult_le_pos; [|exact Hage]. apply Rmult_le_pos; [lra|]. apply Rplus_le_le_0_compat; [exact Hnu|]. apply Rmult_le_pos; [|lra]. left. apply Rinv_0_lt_compat, pow_lt. lra.
Qed.
Lemma line_velocity_core p a b g age nu h : 0 <= nu -> 0 <= age -> h * vnorm (vsub b a) = vnorm (vcross (vsub a p) (vsub b p)) ->
  line_velocity p a b g age nu = vscale (h ^ 2 / (h ^ 2 + 4 * (125643 / 100000) * (nu + Rabs g / 10000) * age)) (line_velocity p a b g 0 nu).
Proof.
  intros Hnu Hage E. destruct (singular p a b) eqn:Es.
  - unfold line_velocity. cbv zeta. unfold singular in Es. rewrite Es. vring.
  - rewrite !line_velocity_regular by exact Es. rewrite vscale_scale. f_equal. unfold line_coefficient. rewrite core_radius_age0.
    pose proof (core_square g age nu Hnu Hage) as Hc. rewrite Hc. rewrite <- Hc at 2. pose proof (pow2_ge_0 (core_radius g age nu)) as Pc. rewrite Hc in *.
    destruct (regular_nonzero _ _ _ Es) as (N1 & N2 & N3). rewrite <- E in *. rewrite Rpow_mult_distr in *.
    generalize dependent (4 * (125643 / 100000) * (nu + Rabs g / 10000) * age). intros c _ Pc. pose proof PI_RGT_0.
    assert (0 < h ^ 2) by (destruct (pow2_ge_0 h) as [X|X]; [exact X | rewrite <- X in N3; lra]).
    assert (0 < vnorm (vsub b a) ^ 2) by (destruct (pow2_ge_0 (vnorm (vsub b a))) as [X|X]; [exact X | rewrite <- X in N3; lra]).
    generalize dependent (vnorm (vsub b a) ^ 2). generalize dependent (h ^ 2). intros h2 Ph L Q HL. field. repeat split; try lra; nra.
Qed.
Lemma core_example : 1 * vnorm (vsub (mkvec 1 0 0) vzero) = vnorm (vcross (vsub vzero (mkvec 0 1 0)) (vsub (mkvec 1 0 0) (mkvec 0 1 0))).
Proof. rewrite Rmult_1_l. unfold vnorm. f_equal. vunfold. cbn. ring. Qed.
