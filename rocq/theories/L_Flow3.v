(** The flow of every solver as a sum over straight vortices. *)
From Coq Require Import Reals Lra Lia Psatz.
From Verif Require Import M_Base M_Aero S_Flow L_Base L_Aero L_Flow L_Flow2.
Local Open Scope R_scope.

Lemma well_clearf x s : well_clear x s -> off_threshold x s /\ singular x (fst s) (snd s) = false.
Proof.
  unfold well_clear, off_threshold, singular. cbv zeta. fold eps. intros (H1 & H2 & H3). split; [repeat split; lra|].
  rewrite (proj2 (Rltb_false _ _)), (proj2 (Rltb_false _ _)), (proj2 (Rltb_false _ _)) by lra. reflexivity.
Qed.
Definition ends (s : segment) : vec * vec := (sg_origin s, sg_termination s).
Definition streamed (nu : R) (segs : list segment) (stream y : vec) : vec := vadd (vsum (map (segment_velocity nu y) segs)) stream.
Lemma streamed_derivative nu segs stream x : (forall s, In s segs -> off_threshold x (ends s)) ->
  field_derivative (streamed nu segs stream) x (madd (msum (map (fun s => segment_matrix x (sg_strength s) (sg_age s) nu (ends s)) segs)) (mkmat vzero vzero vzero)).
Proof.
  intros H. apply (sum_field (fun y => vsum (map (segment_velocity nu y) segs)) (fun _ => stream)); [|apply const_field].
  apply (sum_fields (fun s y => segment_velocity nu y s)). intros s Hs. exact (segment_derivative x (sg_strength s) (sg_age s) nu (ends s) (H s Hs)).
Qed.
Lemma streamed_incompressible nu segs stream x : (forall s, In s segs -> off_threshold x (ends s)) -> incompressible (streamed nu segs stream) x.
Proof.
  intros H. eexists. split; [exact (streamed_derivative nu segs stream x H)|]. rewrite divergence_add, msum_divergence; [unfold divergence; cbn; ring|].
  intros J HJ. apply in_map_iff in HJ. destruct HJ as (s & <- & _). apply segment_divergence.
Qed.
Lemma streamed_curl nu segs stream x : (forall s, In s segs -> well_clear x (ends s)) -> (forall s, In s segs -> sg_age s = 0) ->
  exists J, field_derivative (streamed nu segs stream) x J /\
    curl J = vsum (map (fun s => vsub (spin x (sg_strength s) (sg_origin s)) (spin x (sg_strength s) (sg_termination s))) segs).
Proof.
  intros H HA. eexists. split; [exact (streamed_derivative nu segs stream x (fun s Hs => proj1 (well_clearf _ _ (H s Hs))))|].
  rewrite curl_add, msum_curl, map_map. replace (curl (mkmat vzero vzero vzero)) with vzero by (unfold curl; apply vec_ext; cbn; ring). rewrite vadd_0_r. f_equal. apply map_ext_in. intros s Hs.
  unfold segment_matrix. rewrite (proj2 (well_clearf _ _ (H s Hs))), (HA s Hs). cbn [ends fst snd]. apply felt_curl. exact (proj2 (well_clearf _ _ (H s Hs))).
Qed.

(** ** Far away *)
Lemma cauchy_cross u v : vnorm (vcross u v) <= vnorm u * vnorm v.
Proof.
  apply Rsqr_incr_0; [|apply vnorm_nonneg | apply Rmult_le_pos; apply vnorm_nonneg]. rewrite !Rsqr_pow2, lagrange. pose proof (pow2_ge_0 (vdot u v)). lra.
Qed.
Lemma far_bound r1 r2 c2 : let a := vnorm r1 in let b := vnorm r2 in
  0 < a -> 0 < b -> 0 <= vdot r1 r2 -> 0 <= c2 -> 0 < vnorm (vcross r1 r2) ->
  (a + b) * (a * b - vdot r1 r2) / (a * b * (vnorm (vcross r1 r2) ^ 2 + c2)) * vnorm (vcross r1 r2) <= vnorm (vsub r2 r1) * (/ b ^ 2 + / (a * b)).
Proof.
  intros a b Ha Hb Hd Hc Hx. set (d := vdot r1 r2) in *. set (x := vnorm (vcross r1 r2)) in *.
  assert (L : x ^ 2 = (a * b - d) * (a * b + d)) by (unfold x, a, b, d; rewrite lagrange; ring).
  assert (Hab : 0 < a * b) by (apply Rmult_lt_0_compat; assumption). assert (Hx2 : 0 < x ^ 2) by (apply pow_lt; exact Hx).
  assert (Hm : 0 < a * b - d) by (rewrite L in Hx2; nra).
  assert (Hxa : x <= a * vnorm (vsub r2 r1)). { unfold x, a. replace (vcross r1 r2) with (vcross r1 (vsub r2 r1)) by vring. apply cauchy_cross. }
  assert (H1 : (a * b - d) / (x ^ 2 + c2) <= / (a * b)).
  { apply Rmult_le_reg_r with (x ^ 2 + c2); [lra|]. unfold Rdiv. rewrite Rmult_assoc, Rinv_l, Rmult_1_r by lra. apply Rmult_le_reg_l with (a * b); [exact Hab|]. rewrite <- Rmult_assoc, Rinv_r, Rmult_1_l by lra. rewrite L. nra. }
  replace ((a + b) * (a * b - d) / (a * b * (x ^ 2 + c2)) * x) with ((a + b) / (a * b) * ((a * b - d) / (x ^ 2 + c2)) * x) by (field; lra).
  apply Rle_trans with ((a + b) / (a * b) * / (a * b) * (a * vnorm (vsub r2 r1))).
  - assert (P : 0 < (a + b) / (a * b)) by (apply Rdiv_lt_0_compat; lra). apply Rmult_le_compat; [|lra | | exact Hxa].
    + apply Rmult_le_pos; [lra|]. apply Rmult_le_pos; [lra | left; apply Rinv_0_lt_compat; lra].
    + apply Rmult_le_compat_l; [lra | exact H1].
  - right. field. lra.
Qed.
Lemma far_line y a b g age nu : 0 < vnorm y -> 2 * (vnorm a + vnorm b) <= vnorm y ->
  vnorm (line_velocity y a b g age nu) <= 2 * Rabs g * vnorm (vsub b a) / (PI * vnorm y ^ 2).
Proof.
  intros Hy HD. pose proof PI_RGT_0 as HPI. pose proof (vnorm_nonneg (vsub b a)) as HL. pose proof (Rabs_pos g) as Hg. assert (Hy2 : 0 < vnorm y ^ 2) by (apply pow_lt; exact Hy).
  assert (HB : 0 <= 2 * Rabs g * vnorm (vsub b a) / (PI * vnorm y ^ 2)). { apply Rmult_le_pos; [apply Rmult_le_pos; lra | left; apply Rinv_0_lt_compat; apply Rmult_lt_0_compat; lra]. }
  destruct (singular y a b) eqn:ES; [rewrite line_velocity_singular, vnorm_zero by exact ES; exact HB|].
  rewrite line_velocity_regular by exact ES. destruct (regular_nonzero _ _ _ ES) as (P1 & P2 & P3).
  pose proof (vnorm_nonneg a) as Na. pose proof (vnorm_nonneg b) as Nb.
  assert (T : forall u v, vnorm v <= vnorm (vsub u v) + vnorm u). { intros u v. replace (vnorm (vsub u v)) with (vnorm (vopp (vsub u v))) by apply vnorm_opp. eapply Rle_trans; [|apply vnorm_triangle]. right. f_equal. vring. }
  pose proof (T a y) as Ta. pose proof (T b y) as Tb.
  assert (Ha : vnorm y / 2 <= vnorm (vsub a y)) by lra. assert (Hb : vnorm y / 2 <= vnorm (vsub b y)) by lra.
  assert (HLe : vnorm (vsub b a) <= vnorm a + vnorm b). { replace (vsub b a) with (vadd b (vopp a)) by vring. rewrite <- (vnorm_opp a). rewrite Rplus_comm. apply vnorm_triangle. }
  assert (HLa : vnorm (vsub b a) <= vnorm (vsub a y)) by lra.
  assert (Hd : 0 <= vdot (vsub a y) (vsub b y)).
  { assert (E : 2 * vdot (vsub a y) (vsub b y) = vdot (vsub a y) (vsub a y) + vdot (vsub b y) (vsub b y) - vdot (vsub b a) (vsub b a)) by (vunfold; ring).
    rewrite <- !vnorm_sqr in E. pose proof (pow2_ge_0 (vnorm (vsub b y))). assert (vnorm (vsub b a) ^ 2 <= vnorm (vsub a y) ^ 2) by (apply pow_incr; lra). lra. }
  assert (HX : 0 < vnorm (vcross (vsub a y) (vsub b y))) by (pose proof (vnorm_nonneg (vcross (vsub a y) (vsub b y))); nra).
  rewrite vnorm_scale. unfold line_coefficient. set (c2 := vnorm (vsub b a) ^ 2 * core_radius g age nu ^ 2).
  assert (Hc : 0 <= c2) by (unfold c2; apply Rmult_le_pos; apply pow2_ge_0).
  pose proof (far_bound (vsub a y) (vsub b y) c2 P1 P2 Hd Hc HX) as FB. cbv zeta in FB. replace (vsub (vsub b y) (vsub a y)) with (vsub b a) in FB by vring.
  revert FB. set (r1 := vsub a y) in *. set (r2 := vsub b y) in *. set (x := vnorm (vcross r1 r2)) in *. intros FB.
  pose proof (Rmult_lt_0_compat _ _ P1 P2) as P12. assert (PD : 0 < vnorm r1 * vnorm r2 * (x ^ 2 + c2)) by (apply Rmult_lt_0_compat; lra).
  replace (g / (4 * PI) * (vnorm r1 + vnorm r2) * (vnorm r1 * vnorm r2 - vdot r1 r2) / (vnorm r1 * vnorm r2 * (x ^ 2 + c2)))
    with (g / (4 * PI) * ((vnorm r1 + vnorm r2) * (vnorm r1 * vnorm r2 - vdot r1 r2) / (vnorm r1 * vnorm r2 * (x ^ 2 + c2)))) by (field; split; lra).
  assert (HM : 0 <= vnorm r1 * vnorm r2 - vdot r1 r2). { pose proof (vnorm_dot_le r1 r2) as C. pose proof (Rle_abs (vdot r1 r2)). lra. }
  rewrite Rabs_mult, (Rabs_pos_eq ((vnorm r1 + vnorm r2) * _ / _)); [|apply Rmult_le_pos; [apply Rmult_le_pos; lra | left; apply Rinv_0_lt_compat; exact PD]].
  rewrite Rmult_assoc. unfold Rdiv at 1. rewrite Rabs_mult, (Rabs_pos_eq (/ (4 * PI))) by (left; apply Rinv_0_lt_compat; lra).
  assert (Q : / vnorm r2 ^ 2 + / (vnorm r1 * vnorm r2) <= 8 / vnorm y ^ 2).
  { assert (H4 : (vnorm y / 2) ^ 2 <= vnorm r2 ^ 2) by (apply pow_incr; lra). assert (H5 : (vnorm y / 2) * (vnorm y / 2) <= vnorm r1 * vnorm r2) by (apply Rmult_le_compat; lra).
    assert (H6 : 0 < (vnorm y / 2) ^ 2) by (apply pow_lt; lra). replace (8 / vnorm y ^ 2) with (/ (vnorm y / 2) ^ 2 + / (vnorm y / 2 * (vnorm y / 2))) by (field; lra).
    apply Rplus_le_compat; apply Rinv_le_contravar; try assumption. apply Rmult_lt_0_compat; lra. }
  apply Rle_trans with (Rabs g * / (4 * PI) * (vnorm (vsub b a) * (8 / vnorm y ^ 2))).
  - apply Rmult_le_compat_l; [apply Rmult_le_pos; [exact Hg | left; apply Rinv_0_lt_compat; lra]|]. eapply Rle_trans; [exact FB|]. apply Rmult_le_compat_l; assumption.
  - right. field. lra.
Qed.
Lemma streamed_settles nu segs stream : settles (streamed nu segs stream) stream.
Proof.
  assert (G : exists K D, 0 < D /\ forall y, D <= vnorm y -> vnorm (vsum (map (segment_velocity nu y) segs)) <= K / vnorm y ^ 2).
  { induction segs as [|s segs (K & D & HD & IH)].
    - exists 0, 1. split; [lra|]. intros y Hy. cbn [map]. rewrite vsum_nil, vnorm_zero. right. field. lra.
    - exists (2 * Rabs (sg_strength s) * vnorm (vsub (sg_termination s) (sg_origin s)) / PI + K), (Rmax D (2 * (vnorm (sg_origin s) + vnorm (sg_termination s)))).
      pose proof (Rmax_l D (2 * (vnorm (sg_origin s) + vnorm (sg_termination s)))). pose proof (Rmax_r D (2 * (vnorm (sg_origin s) + vnorm (sg_termination s)))). split; [lra|].
      intros y Hy. cbn [map]. rewrite vsum_cons. eapply Rle_trans; [apply vnorm_triangle|]. assert (Hp : 0 < vnorm y) by lra.
      pose proof (far_line y (sg_origin s) (sg_termination s) (sg_strength s) (sg_age s) nu Hp ltac:(lra)) as F. pose proof (IH y ltac:(lra)) as F'. unfold segment_velocity at 1. pose proof PI_RGT_0.
      eapply Rle_trans; [apply Rplus_le_compat; [exact F | exact F']|]. right. field. lra. }
  destruct G as (K & D & HD & G). exists K, D. split; [exact HD|]. intros y Hy. unfold streamed. replace (vsub (vadd (vsum (map (segment_velocity nu y) segs)) stream) stream) with (vsum (map (segment_velocity nu y) segs)) by vring. apply G, Hy.
Qed.
