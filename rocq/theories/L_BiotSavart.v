(** The closed form of line_velocity is the Biot-Savart integral. *)
From Coq Require Import Lra Lia.
From Verif Require Import M_Aero S_Vortices S_BiotSavart L_Base L_Aero.

(** ** The integral of a derivative *)
Lemma integral_derivative f F lo hi : lo < hi -> (forall t, lo <= t <= hi -> continuity_pt f t) ->
  (forall t, lo <= t <= hi -> derivable_pt_lim F t (f t)) -> integral f lo hi (F hi - F lo).
Proof.
  intros Hlt HC HD. assert (Hle : lo <= hi) by lra.
  exists (continuity_implies_RiemannInt Hle HC).
  set (h1 := FTC_P1 Hle HC).
  rewrite (RiemannInt_P20 Hle h1 (continuity_implies_RiemannInt Hle HC)).
  pose proof (RiemannInt_P29 Hle HC) as A1. fold h1 in A1.
  assert (A2 : antiderivative f F lo hi).
  { split; [|exact Hle]. intros x Hx. exists (exist _ (f x) (HD x Hx)). reflexivity. }
  destruct (antiderivative_Ucte f _ _ lo hi A1 A2) as [c Hc]. rewrite (Hc hi), (Hc lo) by lra. ring.
Qed.
Lemma integral_scale k f lo hi v : lo < hi -> (forall t, lo <= t <= hi -> continuity_pt f t) -> integral f lo hi v ->
  integral (fun t => k * f t) lo hi (k * v).
Proof.
  intros Hlt HC [pr <-].
  assert (HC' : forall t, lo <= t <= hi -> continuity_pt (fun t => k * f t) t).
  { intros t Ht. apply (continuity_pt_scal f k t), HC, Ht. }
  assert (Hle : lo <= hi) by lra. exists (continuity_implies_RiemannInt Hle HC').
  set (pr' := continuity_implies_RiemannInt Hle HC').
  pose (z := RiemannInt_P14 lo hi 0).
  pose proof (RiemannInt_P13 z pr (RiemannInt_P10 k z pr)) as H.
  rewrite RiemannInt_P15 in H.
  transitivity (RiemannInt (RiemannInt_P10 k z pr)); [|rewrite H; ring].
  apply RiemannInt_P18; [exact Hle|]. intros x _. unfold fct_cte. ring.
Qed.

(** ** The antiderivative of q^(-3/2) for a positive quadratic *)
Section Quadratic.
  Variables a b c : R.
  Let q (t : R) : R := a * t * t + 2 * b * t + c.
  Hypothesis positive : forall t, 0 < q t.
  Hypothesis discriminant : 0 < a * c - b * b.
  Definition anti (t : R) : R := (a * t + b) / ((a * c - b * b) * sqrt (a * t * t + 2 * b * t + c)).
  Lemma q_derivative t : derivable_pt_lim q t (2 * a * t + 2 * b).
  Proof.
    unfold q. replace (2 * a * t + 2 * b) with ((a * 1 * t + a * t * 1) + 2 * b * 1 + 0) by ring.
    apply (derivable_pt_lim_plus (fun t => a * t * t + 2 * b * t) (fun _ => c)); [|apply derivable_pt_lim_const].
    apply (derivable_pt_lim_plus (fun t => a * t * t) (fun t => 2 * b * t)).
    - apply (derivable_pt_lim_mult (fun t => a * t) (fun t => t)); [apply (derivable_pt_lim_scal id)|]; apply derivable_pt_lim_id.
    - apply (derivable_pt_lim_scal id). apply derivable_pt_lim_id.
  Qed.
  Lemma sqrt_q_derivative t : derivable_pt_lim (fun t => sqrt (q t)) t (/ (2 * sqrt (q t)) * (2 * a * t + 2 * b)).
  Proof. apply (derivable_pt_lim_comp q sqrt); [apply q_derivative | apply derivable_pt_lim_sqrt, positive]. Qed.
  Lemma anti_derivative t : derivable_pt_lim anti t (/ sqrt (q t) ^ 3).
  Proof.
    assert (Hs : 0 < sqrt (q t)) by (apply sqrt_lt_R0, positive).
    assert (Hd : a * c - b * b <> 0) by lra.
    assert (Hq : sqrt (q t) * sqrt (q t) = q t) by (apply sqrt_sqrt; left; apply positive).
    pose proof (derivable_pt_lim_scal (fun t => sqrt (q t)) (a * c - b * b) t _ (sqrt_q_derivative t)) as D.
    assert (N : derivable_pt_lim (fun t => a * t + b) t a).
    { cut (derivable_pt_lim (fun t => a * t + b) t (a * 1 + 0)); [intros H; replace (a * 1 + 0) with a in H by ring; exact H|]. apply (derivable_pt_lim_plus (fun t => a * t) (fun _ => b)); [|apply derivable_pt_lim_const].
      apply (derivable_pt_lim_scal id). apply derivable_pt_lim_id. }
    assert (Hn : (a * c - b * b) * sqrt (q t) <> 0) by (apply Rmult_integral_contrapositive_currified; lra).
    pose proof (derivable_pt_lim_div _ _ t _ _ N D Hn) as E. unfold anti. unfold div_fct, mult_real_fct in E. fold (q t) in *.
    replace (/ sqrt (q t) ^ 3) with
      ((a * ((a * c - b * b) * sqrt (q t)) - (a * c - b * b) * (/ (2 * sqrt (q t)) * (2 * a * t + 2 * b)) * (a * t + b)) / Rsqr ((a * c - b * b) * sqrt (q t))); [exact E|].
    unfold Rsqr. set (s := sqrt (q t)) in *.
    apply (Rmult_eq_reg_r ((a * c - b * b) * (s * s * s))); [|apply Rmult_integral_contrapositive_currified; [exact Hd|]; repeat apply Rmult_integral_contrapositive_currified; lra].
    transitivity (a * (s * s) - (a * t + b) * (a * t + b)); [field; split; [lra | exact Hd]|].
    replace (/ s ^ 3 * ((a * c - b * b) * (s * s * s))) with (a * c - b * b) by (field; lra).
    rewrite Hq. unfold q. ring.
  Qed.
  Lemma integrand_continuous t : continuity_pt (fun t => / sqrt (q t) ^ 3) t.
  Proof.
    assert (Hs : 0 < sqrt (q t)) by (apply sqrt_lt_R0, positive).
    assert (C : continuity_pt (fun t => sqrt (q t)) t).
    { apply derivable_continuous_pt. eexists. apply sqrt_q_derivative. }
    apply (continuity_pt_inv (fun t => sqrt (q t) ^ 3)); [|apply pow_nonzero; lra].
    apply (continuity_pt_mult (fun t => sqrt (q t)) (fun t => sqrt (q t) ^ 2)); [exact C|].
    apply (continuity_pt_mult (fun t => sqrt (q t)) (fun t => sqrt (q t) ^ 1)); [exact C|].
    apply (continuity_pt_mult (fun t => sqrt (q t)) (fun t => sqrt (q t) ^ 0)); [exact C|].
    apply continuity_pt_const. intros x y; reflexivity.
  Qed.
  Lemma quadratic_integral : integral (fun t => / sqrt (q t) ^ 3) 0 1 (anti 1 - anti 0).
  Proof. apply integral_derivative; [lra| |]; intros t _; [apply integrand_continuous | apply anti_derivative]. Qed.
End Quadratic.

Lemma continuity_pt_ext f g t : (forall x, f x = g x) -> continuity_pt f t -> continuity_pt g t.
Proof.
  intros E H eps Heps. destruct (H eps Heps) as (d & Hd & K). exists d. split; [exact Hd|]. intros x Hx. rewrite <- !E. apply K, Hx.
Qed.
Lemma integral_ext f g lo hi v w : lo < hi -> (forall t, lo <= t <= hi -> f t = g t) -> v = w ->
  (forall t, lo <= t <= hi -> continuity_pt g t) -> integral f lo hi v -> integral g lo hi w.
Proof.
  intros Hlt He -> HC [pr <-]. assert (Hle : lo <= hi) by lra. exists (continuity_implies_RiemannInt Hle HC).
  apply RiemannInt_P18; [exact Hle|]. intros x Hx. symmetry. apply He. lra.
Qed.

(** ** The filament *)
Lemma square_norm v : vnorm v * vnorm v = vdot v v.
Proof. unfold vnorm. apply sqrt_sqrt. vunfold. destruct v; cbn. nra. Qed.
Section Filament.
  Variables p a b : vec.
  Hypothesis off : 0 < vnorm (vcross (vsub a p) (vsub b p)).
  Let A := vdot (vsub b a) (vsub b a).
  Let B := vdot (vsub b a) (vsub a p).
  Let C := vdot (vsub a p) (vsub a p).
  Let q (t : R) : R := A * t * t + 2 * B * t + C.
  Lemma filament_distance t : vnorm (vsub p (vadd a (vscale t (vsub b a)))) = sqrt (q t).
  Proof. unfold vnorm, q, A, B, C. f_equal. vunfold. destruct p, a, b; cbn. ring. Qed.
  Lemma filament_discriminant : A * C - B * B = vnorm (vcross (vsub a p) (vsub b p)) ^ 2.
  Proof. cbn [pow]. rewrite Rmult_1_r, square_norm. unfold A, B, C. vunfold. destruct p, a, b; cbn. ring. Qed.
  Lemma discriminant_positive : 0 < A * C - B * B.
  Proof. rewrite filament_discriminant. apply pow_lt, off. Qed.
  Lemma filament_positive t : 0 < q t.
  Proof.
    pose proof discriminant_positive as D. assert (HA : 0 <= A) by apply vdot_self_nonneg.
    assert (HA' : 0 < A). { destruct HA as [H|H]; [exact H|]. exfalso. rewrite <- H, Rmult_0_l in D. pose proof (Rle_0_sqr B). unfold Rsqr in *. lra. }
    unfold q. apply (Rmult_lt_reg_l A); [exact HA'|]. replace (A * (A * t * t + 2 * B * t + C)) with ((A * t + B) * (A * t + B) + (A * C - B * B)) by ring.
    pose proof (Rle_0_sqr (A * t + B)). unfold Rsqr in *. lra.
  Qed.
  Lemma filament_cross t : vcross (vsub b a) (vsub p (vadd a (vscale t (vsub b a)))) = vcross (vsub a p) (vsub b p).
  Proof. vunfold. destruct p, a, b; cbn. apply vec_ext; cbn; ring. Qed.
  Lemma anti_difference : anti A B C 1 - anti A B C 0 =
    (vnorm (vsub a p) + vnorm (vsub b p)) * (vnorm (vsub a p) * vnorm (vsub b p) - vdot (vsub a p) (vsub b p)) /
    (vnorm (vsub a p) * vnorm (vsub b p) * vnorm (vcross (vsub a p) (vsub b p)) ^ 2).
  Proof.
    unfold anti. rewrite filament_discriminant.
    replace (sqrt (A * 0 * 0 + 2 * B * 0 + C)) with (vnorm (vsub a p)) by (unfold vnorm, C; f_equal; ring).
    replace (sqrt (A * 1 * 1 + 2 * B * 1 + C)) with (vnorm (vsub b p)) by (unfold vnorm, A, B, C; f_equal; vunfold; destruct p, a, b; cbn; ring).
    assert (H1 : 0 < vnorm (vsub a p)).
    { pose proof (filament_positive 0) as H. unfold vnorm. apply sqrt_lt_R0. unfold q in H. unfold C in H. lra. }
    assert (H2 : 0 < vnorm (vsub b p)).
    { pose proof (filament_positive 1) as H. unfold vnorm. apply sqrt_lt_R0. unfold q, A, B, C in H. vunfold. destruct p, a, b; cbn in *. lra. }
    set (D := vnorm (vcross (vsub a p) (vsub b p)) ^ 2) in *. assert (HD : 0 < D) by (apply pow_lt, off).
    pose proof (square_norm (vsub a p)) as S1. pose proof (square_norm (vsub b p)) as S2.
    assert (EB : A * 0 + B = vdot (vsub a p) (vsub b p) - vdot (vsub a p) (vsub a p)) by (unfold A, B; vunfold; destruct p, a, b; cbn; ring).
    assert (EA : A * 1 + B = vdot (vsub b p) (vsub b p) - vdot (vsub a p) (vsub b p)) by (unfold A, B; vunfold; destruct p, a, b; cbn; ring).
    rewrite EA, EB, <- S1, <- S2. field. repeat split; lra.
  Qed.
  Lemma kernel_continuous k t : continuity_pt (fun t => k * / sqrt (q t) ^ 3) t.
  Proof. apply (continuity_pt_scal (fun t => / sqrt (q t) ^ 3)). apply (integrand_continuous A B C filament_positive). Qed.
  Lemma component_integral (component : vec -> R) strength value :
    (forall k v, component (vscale k v) = k * component v) ->
    value = strength / (4 * PI) * component (vcross (vsub a p) (vsub b p)) * (anti A B C 1 - anti A B C 0) ->
    integral (fun t => component (induced_by_piece p a b strength t)) 0 1 value.
  Proof.
    intros Hk ->. set (k := strength / (4 * PI) * component (vcross (vsub a p) (vsub b p))).
    assert (E : forall t, component (induced_by_piece p a b strength t) = k * / sqrt (q t) ^ 3).
    { intros t. unfold induced_by_piece. cbv zeta. rewrite Hk, filament_cross, filament_distance. unfold k, Rdiv. ring. }
    apply (integral_ext (fun t => k * / sqrt (q t) ^ 3) _ 0 1 (k * (anti A B C 1 - anti A B C 0))); [lra | intros; symmetry; apply E | reflexivity | |].
    - intros t _. apply (continuity_pt_ext (fun t => k * / sqrt (q t) ^ 3)); [intros; symmetry; apply E | apply kernel_continuous].
    - apply (integral_scale k (fun t => / sqrt (q t) ^ 3)); [lra | intros; apply (integrand_continuous A B C filament_positive)|].
      apply (quadratic_integral A B C filament_positive discriminant_positive).
  Qed.
End Filament.

Lemma continuous_line_integral p a b strength nu :
  (Rltb (vnorm (vsub a p)) eps || Rltb (vnorm (vsub b p)) eps
   || Rltb (vnorm (vcross (vsub a p) (vsub b p)) ^ 2) eps)%bool = false ->
  vector_integral (induced_by_piece p a b strength) 0 1 (line_velocity p a b strength 0 nu).
Proof.
  intros H. assert (Ho : 0 < vnorm (vcross (vsub a p) (vsub b p))).
  { apply Bool.orb_false_iff in H. destruct H as [_ H]. apply Rltb_false in H.
    assert (He : 0 < eps) by (unfold eps; apply Rinv_0_lt_compat, pow_lt; lra).
    pose proof (vnorm_nonneg (vcross (vsub a p) (vsub b p))) as [Hn|Hn]; [exact Hn|]. rewrite <- Hn in H. cbn in H. lra. }
  assert (E : line_velocity p a b strength 0 nu =
    vscale (strength / (4 * PI) * (anti (vdot (vsub b a) (vsub b a)) (vdot (vsub b a) (vsub a p)) (vdot (vsub a p) (vsub a p)) 1 -
      anti (vdot (vsub b a) (vsub b a)) (vdot (vsub b a) (vsub a p)) (vdot (vsub a p) (vsub a p)) 0)) (vcross (vsub a p) (vsub b p))).
  { rewrite (anti_difference p a b Ho). unfold line_velocity. cbv zeta. rewrite H. unfold core_radius. rewrite Rmult_0_r, sqrt_0.
    replace (vnorm (vsub b a) ^ 2 * (2 * 0) ^ 2) with 0 by ring. rewrite Rplus_0_r. f_equal. unfold Rdiv. ring. }
  rewrite E. repeat split; apply (component_integral p a b Ho); try (intros k [x y z]; reflexivity);
    unfold vscale; cbn [vx vy vz]; ring.
Qed.
