(** A symmetric wing of two panels: runs of the unsteady solver that are their own mirror images. *)
From Coq Require Import List ZArith Lia Lra Bool Reals String.
From Verif Require Import M_Unsteady S_Unsteady S_UnsteadyRun S_Geometry S_Vortices S_Loads S_Solve S_Movement S_Mirror S_Rigid S_Image L_Base L_Loads L_Horseshoe L_SteadyRing L_Aero L_Frames
  L_Geometry L_Movement L_Snapshots L_Problems L_Example L_Example2 L_Example3 L_Example4 L_Example6 L_Gauss L_Wake L_UnsteadyRun L_UnsteadyFinal L_UnsteadyProps L_UnsteadyProps2 L_UnsteadyFlow L_UnsteadyStill L_SymmetricFlight.
Import ListNotations.
Local Open Scope R_scope.
Local Open Scope list_scope.

(** ** The influence of one panel on another *)
Definition co (r s d : R) : R := / (4 * PI) * ((/ r + / s) * / (r * s + d)).
Lemma leg_numbers p a b : singular p a b = false -> 0 < vnorm (vsub a p) /\ 0 < vnorm (vsub b p) /\ 0 < vnorm (vsub a p) * vnorm (vsub b p) + vdot (vsub a p) (vsub b p).
Proof.
  intros E. destruct (regular_nonzero _ _ _ E) as (H1 & H2 & H3). split; [exact H1|]. split; [exact H2|].
  rewrite vnorm_sqr, lagrange, <- !vnorm_mul in H3. set (r := vnorm (vsub a p)) in *. set (s := vnorm (vsub b p)) in *. set (d := vdot _ _) in *.
  assert (0 < r * s) by (apply Rmult_lt_0_compat; assumption). destruct (Rlt_le_dec 0 (r * s + d)) as [L|L]; [exact L|]. exfalso.
  assert (0 <= (- (r * s + d)) * (r * s - d)) by (apply Rmult_le_pos; lra). nra.
Qed.
Lemma leg_along p a b n nu : singular p a b = false ->
  vdot (line_velocity p a b 1 0 nu) n = co (vnorm (vsub a p)) (vnorm (vsub b p)) (vdot (vsub a p) (vsub b p)) * vdot (vcross (vsub a p) (vsub b p)) n.
Proof.
  intros E. rewrite line_velocity_regular by exact E. rewrite vdot_scale_l. f_equal. unfold line_coefficient, co. rewrite core_radius_age0.
  destruct (leg_numbers _ _ _ E) as (H1 & H2 & H4). destruct (regular_nonzero _ _ _ E) as (_ & _ & H3). rewrite vnorm_sqr, lagrange, <- !vnorm_mul in *.
  set (r := vnorm (vsub a p)) in *. set (s := vnorm (vsub b p)) in *. set (d := vdot _ _) in *.
  replace (r * r * (s * s) - d * d) with ((r * s - d) * (r * s + d)) in * by ring. pose proof PI_RGT_0.
  assert (r * s - d <> 0) by (intros X; rewrite X in H3; lra).
  replace ((r * s - d) * (r * s + d) + vnorm (vsub b a) ^ 2 * 0 ^ 2) with ((r * s - d) * (r * s + d)) by ring.
  field. repeat split; lra.
Qed.
Lemma co_pos r s d : 0 < r -> 0 < s -> 0 < r * s + d -> 0 < co r s d.
Proof.
  intros Hr Hs Hd. unfold co. pose proof PI_RGT_0. apply Rmult_lt_0_compat; [apply Rinv_0_lt_compat; lra|].
  apply Rmult_lt_0_compat; [|apply Rinv_0_lt_compat; exact Hd]. apply Rinv_0_lt_compat in Hr, Hs. lra.
Qed.
Lemma co_lt r s d r' s' d' : 0 < r <= r' -> 0 < s <= s' -> 0 < r * s + d -> d < d' -> co r' s' d' < co r s d.
Proof.
  intros Hr Hs Hd HL. unfold co. pose proof PI_RGT_0. apply Rmult_lt_compat_l; [apply Rinv_0_lt_compat; lra|].
  assert (HM : r * s <= r' * s') by (apply Rmult_le_compat; lra).
  assert (HI : / (r' * s' + d') < / (r * s + d)) by (apply Rinv_lt_contravar; [apply Rmult_lt_0_compat|]; lra).
  assert (/ r' <= / r) by (apply Rinv_le_contravar; lra). assert (/ s' <= / s) by (apply Rinv_le_contravar; lra).
  assert (0 < / r') by (apply Rinv_0_lt_compat; lra). assert (0 < / s') by (apply Rinv_0_lt_compat; lra). assert (0 < / (r' * s' + d')) by (apply Rinv_0_lt_compat; lra).
  eapply Rle_lt_trans; [apply Rmult_le_compat_r; [lra | apply (Rplus_le_compat (/ r') (/ r) (/ s') (/ s)); assumption]|]. apply Rmult_lt_compat_l; lra.
Qed.
Lemma norm_le u v : vdot u u <= vdot v v -> vnorm u <= vnorm v.
Proof. intros H. unfold vnorm. apply sqrt_le_1; [apply vdot_self_nonneg | apply vdot_self_nonneg | exact H]. Qed.
Definition nf (b : R) : R := sqrt (4 + b * b).
Definition nb (L z b : R) : R := sqrt (L * L + z * z + b * b).
Definition side (L z b : R) : R := co (nb L z b) (nf b) (b * b - 2 * L).
Definition front (a b : R) : R := co (nf b) (nf a) (4 + a * b).
Definition back (L z a b : R) : R := co (nb L z a) (nb L z b) (L * L + z * z + a * b).
Lemma co_sym r s d : co r s d = co s r d.
Proof. unfold co. rewrite (Rmult_comm s r), (Rplus_comm (/ s)). reflexivity. Qed.
Lemma norm_of u x : vdot u u = x -> vnorm u = sqrt x.
Proof. intros <-. reflexivity. Qed.
Ltac far := unfold vdot, vsub, vcross; cbn [vx vy vz]; nra.
Lemma side_leg L z y b nu : 2 <= L -> 1 <= 4 * (b * b) -> let p := mkvec 3 y 0 in
  singular p (mkvec (3 + L) (y + b) z) (mkvec 1 (y + b) 0) = false /\
  vdot (line_velocity p (mkvec (3 + L) (y + b) z) (mkvec 1 (y + b) 0) 1 0 nu) (mkvec 0 0 1) = (L + 2) * b * side L z b.
Proof.
  intros HL Hb p. assert (E : singular p (mkvec (3 + L) (y + b) z) (mkvec 1 (y + b) 0) = false).
  { apply regular_if; unfold p; [far | far|]. eapply Rle_trans; [|apply (proj2 (proj2 (dot_ge_sq _)))]. unfold vsub, vcross; cbn [vx vy vz].
    replace (_ * _) with ((L + 2) * (L + 2) * (b * b)) by ring. assert (16 <= (L + 2) * (L + 2)) by nra. nra. }
  split; [exact E|]. rewrite (leg_along _ _ _ _ _ E). unfold side, nb, nf, p.
  rewrite (norm_of _ (L * L + z * z + b * b)) by (unfold vdot, vsub; cbn [vx vy vz]; ring). rewrite (norm_of _ (4 + b * b)) by (unfold vdot, vsub; cbn [vx vy vz]; ring).
  replace (vdot (vsub _ _) (vsub _ _)) with (b * b - 2 * L) by (unfold vdot, vsub; cbn [vx vy vz]; ring).
  replace (vdot (vcross _ _) _) with ((L + 2) * b) by (unfold vdot, vsub, vcross; cbn [vx vy vz]; ring). ring.
Qed.
Lemma front_leg_at y a b nu : b - a = 1 -> let p := mkvec 3 y 0 in
  singular p (mkvec 1 (y + b) 0) (mkvec 1 (y + a) 0) = false /\
  vdot (line_velocity p (mkvec 1 (y + b) 0) (mkvec 1 (y + a) 0) 1 0 nu) (mkvec 0 0 1) = 2 * front a b.
Proof.
  intros Hb p. assert (E : singular p (mkvec 1 (y + b) 0) (mkvec 1 (y + a) 0) = false).
  { apply regular_if; unfold p; [far | far|]. eapply Rle_trans; [|apply (proj2 (proj2 (dot_ge_sq _)))]. unfold vsub, vcross; cbn [vx vy vz].
    replace (_ * _) with (4 * ((b - a) * (b - a))) by ring. rewrite Hb. lra. }
  split; [exact E|]. rewrite (leg_along _ _ _ _ _ E). unfold front, nf, p.
  rewrite (norm_of _ (4 + b * b)) by (unfold vdot, vsub; cbn [vx vy vz]; ring). rewrite (norm_of _ (4 + a * a)) by (unfold vdot, vsub; cbn [vx vy vz]; ring).
  replace (vdot (vsub _ _) (vsub _ _)) with (4 + a * b) by (unfold vdot, vsub; cbn [vx vy vz]; ring).
  replace (vdot (vcross _ _) _) with (2 * (b - a)) by (unfold vdot, vsub, vcross; cbn [vx vy vz]; ring). rewrite Hb. ring.
Qed.
Lemma back_leg_at L z y a b nu : 2 <= L -> b - a = 1 -> let p := mkvec 3 y 0 in
  singular p (mkvec (3 + L) (y + a) z) (mkvec (3 + L) (y + b) z) = false /\
  vdot (line_velocity p (mkvec (3 + L) (y + a) z) (mkvec (3 + L) (y + b) z) 1 0 nu) (mkvec 0 0 1) = L * back L z a b.
Proof.
  intros HL Hb p. assert (E : singular p (mkvec (3 + L) (y + a) z) (mkvec (3 + L) (y + b) z) = false).
  { apply regular_if; unfold p; [far | far|]. eapply Rle_trans; [|apply (proj2 (proj2 (dot_ge_sq _)))]. unfold vsub, vcross; cbn [vx vy vz].
    replace (_ * _) with (L * L * ((b - a) * (b - a))) by ring. rewrite Hb. nra. }
  split; [exact E|]. rewrite (leg_along _ _ _ _ _ E). unfold back, nb, p.
  rewrite (norm_of (vsub (mkvec (3 + L) (y + a) z) (mkvec 3 y 0)) (L * L + z * z + a * a)) by (unfold vdot, vsub; cbn [vx vy vz]; ring).
  rewrite (norm_of (vsub (mkvec (3 + L) (y + b) z) (mkvec 3 y 0)) (L * L + z * z + b * b)) by (unfold vdot, vsub; cbn [vx vy vz]; ring).
  replace (vdot (vsub _ _) (vsub _ _)) with (L * L + z * z + a * b) by (unfold vdot, vsub; cbn [vx vy vz]; ring).
  replace (vdot (vcross _ _) _) with (L * (b - a)) by (unfold vdot, vsub, vcross; cbn [vx vy vz]; ring). rewrite Hb. ring.
Qed.
Lemma quad_along L z y a b nu : 2 <= L -> b - a = 1 -> 1 <= 4 * (a * a) -> 1 <= 4 * (b * b) ->
  vdot (quad_velocity (mkvec 3 y 0) (mkvec (3 + L) (y + b) z) (mkvec 1 (y + b) 0) (mkvec 1 (y + a) 0) (mkvec (3 + L) (y + a) z) 1 0 nu) (mkvec 0 0 1) =
  2 * front a b + L * back L z a b + (L + 2) * (b * side L z b - a * side L z a).
Proof.
  intros HL Hb Ha Hb'. unfold quad_velocity. rewrite !vdot_add_l.
  rewrite (proj2 (side_leg L z y b nu HL Hb')), (proj2 (front_leg_at y a b nu Hb)), (proj2 (back_leg_at L z y a b nu HL Hb)).
  rewrite (line_velocity_reverse _ (mkvec (3 + L) (y + a) z) (mkvec 1 (y + a) 0)), vopp_scale, vdot_scale_l, (proj2 (side_leg L z y a nu HL Ha)). ring.
Qed.
Lemma nf_pos b : 0 < nf b. Proof. apply sqrt_lt_R0. nra. Qed.
Lemma nb_pos L z b : 2 <= L -> 0 < nb L z b. Proof. intros H. apply sqrt_lt_R0. nra. Qed.
Lemma nf_le a b : a * a <= b * b -> nf a <= nf b. Proof. intros H. apply sqrt_le_1; nra. Qed.
Lemma nb_le L z a b : a * a <= b * b -> nb L z a <= nb L z b. Proof. intros H. apply sqrt_le_1; nra. Qed.
Lemma side_den L z b : 2 <= L -> 1 <= 4 * (b * b) -> 0 < nb L z b * nf b + (b * b - 2 * L).
Proof.
  intros HL Hb. destruct (side_leg L z 0 b 0 HL Hb) as [E _]. destruct (leg_numbers _ _ _ E) as (_ & _ & H). cbv zeta in H.
  rewrite (norm_of _ (L * L + z * z + b * b)) in H by (unfold vdot, vsub; cbn [vx vy vz]; ring). rewrite (norm_of _ (4 + b * b)) in H by (unfold vdot, vsub; cbn [vx vy vz]; ring).
  replace (vdot _ _) with (b * b - 2 * L) in H by (unfold vdot, vsub; cbn [vx vy vz]; ring). exact H.
Qed.
Lemma side_pos L z b : 2 <= L -> 1 <= 4 * (b * b) -> 0 < side L z b.
Proof. intros HL Hb. apply co_pos; [apply nb_pos, HL | apply nf_pos | apply side_den; assumption]. Qed.
Lemma side_lt L z a b : 2 <= L -> 1 <= 4 * (a * a) -> a * a < b * b -> side L z b < side L z a.
Proof.
  intros HL Ha Hb. apply co_lt; [split; [apply nb_pos, HL | apply nb_le; lra] | split; [apply nf_pos | apply nf_le; lra] | apply side_den; assumption | lra].
Qed.
Lemma side_even L z b : side L z (- b) = side L z b.
Proof. unfold side, nb, nf. replace (- b * - b) with (b * b) by ring. reflexivity. Qed.
Lemma front_den a b : b - a = 1 -> 0 < nf b * nf a + (4 + a * b).
Proof.
  intros Hb. assert (0 < nf b * nf a) by (apply Rmult_lt_0_compat; apply nf_pos). assert (4 * (a * b) + 1 = (a + b) * (a + b)) by (replace b with (a + 1) by lra; ring). nra.
Qed.
Lemma back_den L z a b : 2 <= L -> b - a = 1 -> 0 < nb L z a * nb L z b + (L * L + z * z + a * b).
Proof.
  intros HL Hb. assert (0 < nb L z a * nb L z b) by (apply Rmult_lt_0_compat; apply nb_pos, HL). assert (4 * (a * b) + 1 = (a + b) * (a + b)) by (replace b with (a + 1) by lra; ring). nra.
Qed.
Lemma two_panels L z u : 2 <= L -> 1 / 2 <= u <= 1 ->
  let own := 2 * front (- (1 / 2)) (1 / 2) + L * back L z (- (1 / 2)) (1 / 2) + (L + 2) * (1 / 2 * side L z (1 / 2) - - (1 / 2) * side L z (- (1 / 2))) in
  let right := 2 * front u (u + 1) + L * back L z u (u + 1) + (L + 2) * ((u + 1) * side L z (u + 1) - u * side L z u) in
  let left := 2 * front (- (u + 1)) (- u) + L * back L z (- (u + 1)) (- u) + (L + 2) * (- u * side L z (- u) - - (u + 1) * side L z (- (u + 1))) in
  left = right /\ Rabs right < own.
Proof.
  intros HL Hu own right left.
  assert (EF : front (- (u + 1)) (- u) = front u (u + 1)).
  { unfold front. rewrite co_sym. unfold nf. replace (- (u + 1) * - (u + 1)) with ((u + 1) * (u + 1)) by ring. replace (- u * - u) with (u * u) by ring. replace (- (u + 1) * - u) with (u * (u + 1)) by ring. reflexivity. }
  assert (EB : back L z (- (u + 1)) (- u) = back L z u (u + 1)).
  { unfold back. rewrite co_sym. unfold nb. replace (- (u + 1) * - (u + 1)) with ((u + 1) * (u + 1)) by ring. replace (- u * - u) with (u * u) by ring. replace (- (u + 1) * - u) with (u * (u + 1)) by ring. reflexivity. }
  split; [unfold left, right; rewrite EF, EB, !side_even; ring|].
  assert (HF : 0 < front u (u + 1) < front (- (1 / 2)) (1 / 2)).
  { split; [apply co_pos; [apply nf_pos | apply nf_pos | apply front_den; lra]|].
    apply co_lt; [split; [apply nf_pos | apply nf_le; nra] | split; [apply nf_pos | apply nf_le; nra] | apply front_den; lra | nra]. }
  assert (HB : 0 < back L z u (u + 1) < back L z (- (1 / 2)) (1 / 2)).
  { split; [apply co_pos; [apply nb_pos, HL | apply nb_pos, HL | apply back_den; lra]|].
    apply co_lt; [split; [apply nb_pos, HL | apply nb_le; nra] | split; [apply nb_pos, HL | apply nb_le; nra] | apply back_den; lra | nra]. }
  assert (HS1 : side L z (u + 1) < side L z u) by (apply side_lt; nra).
  assert (HS2 : side L z u <= side L z (1 / 2)) by (destruct (Req_dec u (1 / 2)) as [->|N]; [lra | apply Rlt_le, side_lt; nra]).
  assert (HS3 : 0 < side L z (u + 1)) by (apply side_pos; nra).
  assert (HB2 : 0 < L * back L z u (u + 1) < L * back L z (- (1 / 2)) (1 / 2)) by (split; [apply Rmult_lt_0_compat; lra | apply Rmult_lt_compat_l; lra]).
  assert (HT : - (side L z (1 / 2)) < (u + 1) * side L z (u + 1) - u * side L z u < side L z (1 / 2)) by (split; nra).
  assert (HT2 : - ((L + 2) * side L z (1 / 2)) < (L + 2) * ((u + 1) * side L z (u + 1) - u * side L z u) < (L + 2) * side L z (1 / 2)) by (split; nra).
  unfold own, right. rewrite side_even. apply Rabs_def1; lra.
Qed.

(** ** Two panels in the wind *)
Definition left_panel (y : R) : panel := p_set_position false true 0 0 (plain_panel (- (y + 1)) (- y)).
Definition right_panel (y : R) : panel := p_set_position true false 0 1 (plain_panel y (y + 1)).
Section Flight.
  Variable solve : list (list R) -> list R -> result (list R).
  Hypothesis HS : SolveSpec solve.
  Variable prescribed : bool.
  Variables (up : unsteady_problem) (y : R) (w0 : wing).
  Hypothesis HC : created up.
  Notation T := (up_delta_time up).
  Hypothesis HT : 0 < T.
  Hypothesis Hlen : (0 < List.length (up_steady_problems up))%nat.
  Hypothesis Hy : 0 <= y <= 1 / 4.
  Hypothesis Hw0 : w_panels w0 = [[left_panel y; right_panel y]].
  Hypothesis Hsteps : forall k sp, nth_error (up_steady_problems up) k = Some sp -> step_wings sp = [w0] /\
    exists v, 0 <= v /\ sp_operating_point sp = mkop 1 v 30 0 0 (1506 / 100000000).
  Lemma flight_panels n s k sp : has_run solve prescribed up n s -> step_at s k sp ->
    exists p q r t v d, step_panels sp = [p; q] /\ same_panel (left_panel y) p /\ same_panel (right_panel y) q /\
      p_ring_vortex p = Some r /\ ring_consistent r /\ p_ring_vortex q = Some t /\ ring_consistent t /\
      0 <= v /\ sp_operating_point sp = mkop 1 v 30 0 0 (1506 / 100000000) /\ 0 < d /\
      let L := 2 + (v * T / 4) * d in let z := v * T / 4 / 2 in
      (rv_front_left r = mkvec 1 (- (y + 1)) 0 /\ rv_front_right r = mkvec 1 (- y) 0 /\ rv_back_left r = mkvec (3 + L) (- (y + 1)) z /\ rv_back_right r = mkvec (3 + L) (- y) z) /\
      (rv_front_left t = mkvec 1 y 0 /\ rv_front_right t = mkvec 1 (y + 1) 0 /\ rv_back_left t = mkvec (3 + L) y z /\ rv_back_right t = mkvec (3 + L) (y + 1) z).
  Proof.
    clear Hlen HT. intros HR Hsp. pose proof (steps_kept _ HS _ _ _ _ HC HR) as FK.
    destruct (Forall2_nth _ _ _ FK _ _ Hsp) as (sp0 & H0 & K). destruct (Hsteps _ _ H0) as (EA & v & Hv & EO).
    pose proof (kept_step_wings _ _ K) as FW. rewrite EA in FW.
    inversion FW as [|? w ? ws [Ew Fw] Fr X1 X2]; subst. inversion Fr; subst. symmetry in X2. rewrite Hw0 in Fw.
    inversion Fw as [|? row ? rows Frow Frows Y1 Y2]; subst. inversion Frows; subst. inversion Frow as [|? p ? ps HP Fps Z1 Z2]; subst. inversion Fps as [|? q ? qs HQ Fqs W1 W2]; subst. inversion Fqs; subst. symmetry in Y2.
    assert (EP : step_panels sp = [p; q]) by (rewrite panels_of_wings, X2; cbn [map concat app]; rewrite Y2; reflexivity).
    assert (Hw : wing_at s k 0 w) by (exists sp; split; [exact Hsp | rewrite X2; reflexivity]).
    assert (Hp : at_position (w_panels w) 0 0 p) by (rewrite Y2; exists [p; q]; auto). assert (Hq : at_position (w_panels w) 0 1 q) by (rewrite Y2; exists [p; q]; auto).
    destruct (bound_rings _ HS _ _ _ _ _ _ _ _ _ _ HC HR Hw Hp) as (r & Hr & (HCr & B1 & B2 & B3 & _)). rewrite Y2 in B3. destruct (B3 eq_refl) as [B4 B5].
    destruct (bound_rings _ HS _ _ _ _ _ _ _ _ _ _ HC HR Hw Hq) as (t & Ht & (HCt & D1 & D2 & D3 & _)). rewrite Y2 in D3. destruct (D3 eq_refl) as [D4 D5].
    change (same_panel (left_panel y) p) in HP. change (same_panel (right_panel y) q) in HQ.
    destruct (L_UnsteadyRun.same_panel_vertices _ _ HP) as [V1 V2]. destruct (L_UnsteadyRun.same_panel_vertices _ _ HQ) as [V3 V4].
    destruct (plain_points (- (y + 1)) (- y) true false 0 0 ltac:(lra)) as (_ & _ & Q1 & Q2). fold (left_panel y) in Q1, Q2.
    destruct (plain_points y (y + 1) false true 0 1 ltac:(lra)) as (_ & _ & Q3 & Q4). fold (right_panel y) in Q3, Q4.
    rewrite V1, Q2 in B1. rewrite V2, Q1 in B2. rewrite V3, Q4 in D1. rewrite V4, Q3 in D2.
    destruct (ex_direction 1 v) as (d & Hd & _ & ED).
    assert (EOs : sp_operating_point sp = mkop 1 v 30 0 0 (1506 / 100000000)) by (rewrite (proj1 K); exact EO).
    assert (EV : drift_at s k = vscale (25 / 100) (vscale T (vscale v (mkvec d 0 (1 / 2))))).
    { unfold drift_at, freestream_at. unfold step_at in Hsp. rewrite Hsp, EOs. destruct (has_run_history _ HS _ _ _ _ HC HR) as (F & up1 & conv & sa & HH). rewrite (hi_time _ _ _ _ _ _ _ _ _ HH).
      do 2 f_equal. unfold freestream_velocity. rewrite <- ED. reflexivity. }
    destruct HP as (E1 & E2 & E3 & E4 & HP). destruct HQ as (G1 & G2 & G3 & G4 & HQ).
    rewrite EV, B1, E2, E3 in B4. rewrite EV, B2, E1, E4 in B5. rewrite EV, D1, G2, G3 in D4. rewrite EV, D2, G1, G4 in D5.
    exists p, q, r, t, v, d. split; [exact EP|]. split; [unfold same_panel; auto|]. split; [unfold same_panel; auto|]. repeat (split; [assumption|]). cbv zeta.
    split; (split; [assumption|]; split; [assumption|]).
    - rewrite B4, B5. clear. split; unfold left_panel, plain_panel, p_set_position, new_panel; cbn [p_front_right p_front_left p_back_left p_back_right]; vunfold; apply vec_ext; cbn; field.
    - rewrite D4, D5. clear. split; unfold right_panel, plain_panel, p_set_position, new_panel; cbn [p_front_right p_front_left p_back_left p_back_right]; vunfold; apply vec_ext; cbn; field.
  Qed.
  Lemma flight_solvable k s sp A b : has_run solve prescribed up k s -> step_at s k sp -> influence_matrix sp A -> List.length b = List.length A -> exists x, solve A b = Ok x.
  Proof.
    clear Hlen. intros HR Hsp (rs & Frs & EA) Lb. destruct (flight_panels _ _ _ _ HR Hsp) as (p & q & r & t & v & d & EP & HP & HQ & Hr & HCr & Ht & HCt & Hv & EO & Hd & (R1 & R2 & R3 & R4) & (T1 & T2 & T3 & T4)).
    rewrite EP in *. inversion Frs as [|? r' ? rs' Hr' Frs' X1 X2]; subst. inversion Frs' as [|? t' ? ts' Ht' Frs'' X1 X2]; subst. inversion Frs''; subst.
    assert (r' = r) by congruence. subst r'. assert (t' = t) by congruence. subst t'. cbn [map] in *.
    destruct b as [|b1 [|b2 [|]]]; try discriminate. clear Lb Frs Frs' Frs'' Hr' Ht'.
    assert (HL : 2 <= 2 + v * T / 4 * d). { assert (0 <= v * T) by (apply Rmult_le_pos; lra). assert (0 <= v * T / 4 * d) by (apply Rmult_le_pos; lra). lra. }
    set (L := 2 + v * T / 4 * d) in *. set (z := v * T / 4 / 2) in *.
    rewrite !(ring_velocity_quad _ _ _ (ring_update_strength 1 r) (update_strength_consistent 1 r HCr)), !(ring_velocity_quad _ _ _ (ring_update_strength 1 t) (update_strength_consistent 1 t HCt)).
    cbn [ring_update_strength rv_back_right rv_front_right rv_front_left rv_back_left rv_strength].
    rewrite R1, R2, R3, R4, T1, T2, T3, T4. destruct (same_panel_collocation _ _ HP) as [-> ->]. destruct (same_panel_collocation _ _ HQ) as [-> ->].
    destruct (plain_points (- (y + 1)) (- y) true false 0 0 ltac:(lra)) as (Q1 & Q2 & _). fold (left_panel y) in Q1, Q2.
    destruct (plain_points y (y + 1) false true 0 1 ltac:(lra)) as (Q3 & Q4 & _). fold (right_panel y) in Q3, Q4. rewrite Q1, Q2, Q3, Q4.
    set (c := y + 1 / 2). replace ((- (y + 1) + - y) / 2) with (- c) by (unfold c; field). replace ((y + (y + 1)) / 2) with c by (unfold c; field).
    set (u := 2 * y + 1 / 2). generalize (op_nu (sp_operating_point sp)). intros nu.
    destruct (two_panels L z u HL ltac:(unfold u; lra)) as [EL HB].
    set (own := 2 * front (- (1 / 2)) (1 / 2) + _ + _) in *. set (right := 2 * front u (u + 1) + _ + _) in *.
    assert (E : forall (cc y0 y1 a b : R), y0 = cc + a -> y1 = cc + b -> b - a = 1 -> 1 <= 4 * (a * a) -> 1 <= 4 * (b * b) ->
      vdot (quad_velocity (mkvec 3 cc 0) (mkvec (3 + L) y1 z) (mkvec 1 y1 0) (mkvec 1 y0 0) (mkvec (3 + L) y0 z) 1 0 nu) (mkvec 0 0 1) =
      2 * front a b + L * back L z a b + (L + 2) * (b * side L z b - a * side L z a)).
    { intros cc y0 y1 a b -> -> H1 H2 H3. apply quad_along; assumption. }
    rewrite (E (- c) (- (y + 1)) (- y) (- (1 / 2)) (1 / 2)) by (unfold c; lra). rewrite (E (- c) y (y + 1) u (u + 1)) by (unfold c, u; nra).
    rewrite (E c (- (y + 1)) (- y) (- (u + 1)) (- u)) by (unfold c, u; nra). rewrite (E c y (y + 1) (- (1 / 2)) (1 / 2)) by (unfold c; lra).
    rewrite EL. fold own right. eexists. apply solve_2x2; [exact HS|].
    apply Rabs_def2 in HB. assert (0 < (own - right) * (own + right)) by (apply Rmult_lt_0_compat; lra). nra.
  Qed.
  Lemma flight_run lines : exists s, finished solve prescribed lines up s.
  Proof.
    destruct (nth_in_range _ _ Hlen) as [sp0 H0]. assert (exists s0, unsteady_new up = Ok s0) as [s0 E0] by (unfold unsteady_new, index; rewrite H0; cbn; eauto).
    destruct (run_outcome _ HS prescribed up lines s0 HC E0) as [[s Es]|(k & s & sp & A & b & e & HA & Hsp & HI & Lb & Hs & _)].
    - exists s, s0. auto.
    - exfalso. destruct (flight_solvable k s sp A b (or_introl HA) Hsp HI Lb) as (x & X). congruence.
  Qed.
End Flight.

(** ** Wings that keep still in gusts *)
Definition still_airplane (m : wing_movement) : airplane_movement :=
  mkairmove (mkairplane [wm_base m] "plane" 0 0 0 0 8 4 2 2 None None None None) [m] resting resting resting.
Lemma still_problem m only : wing_movable m -> wing_unmoving m -> plain_base m -> exists mv up,
  new_movement [still_airplane m] (windy gust) (Some 3%Z) None None (Some 1) = Ok mv /\ mv_delta_time mv = 1 /\ new_unsteady_problem mv only = Ok up /\
  up_delta_time up = 1 /\ List.length (up_steady_problems up) = 3%nat /\ (up_first_averaging_step up < up_num_steps up)%Z /\
  forall k sp, nth_error (up_steady_problems up) k = Some sp -> step_wings sp = [wm_base m] /\
    exists v, 3 <= v /\ sp_operating_point sp = mkop 1 v 30 0 0 (1506 / 100000000).
Proof.
  intros HM HU HB. assert (Hg : good_spacing gust) by (left; reflexivity).
  assert (HA : Forall airplane_movable [still_airplane m]).
  { constructor; [|constructor]. split; [discriminate|]. split; [|repeat split; apply resting_good]. constructor; [exact HM | constructor]. }
  destruct (proj2 (movement_succeeds [still_airplane m] (windy gust) (Some 3%Z) None None 1 3 eq_refl ltac:(lia))) as [mv Hm]; [auto|].
  destruct (movement_built _ _ _ _ _ _ _ Hm) as (B1 & B2 & HD & (HN & _) & EA & EO).
  assert (HP : populated [still_airplane m]) by (apply movable_populated; [discriminate | exact HA]).
  destruct (unsteady_succeeds _ _ _ _ _ _ _ only Hm HP) as [up Hup].
  destruct (unsteady_built _ _ _ Hup) as (_ & U1 & Edt & U3 & U4 & U5 & _ & _ & _ & _ & HL & HS). rewrite HN in *. cbn [given] in HD. rewrite HD in *.
  cbn [mapM] in EA. apply bind_Ok in EA. destruct EA as (l & El & EA). apply bind_Ok in EA. destruct EA as (nil' & E0 & EA). apply Ok_eq in E0. subst nil'. apply Ok_eq in EA.
  destruct (generated_airplanes _ _ _ _ El) as (Ll & _ & xs & ys & zs & hs & Ex & Ey & Ez & EH & HNa).
  cbn [am_wings still_airplane mapM] in EH. apply bind_Ok in EH. destruct EH as (ws & EW & EH). apply bind_Ok in EH. destruct EH as (nil' & E0 & EH). apply Ok_eq in E0. subst nil'. apply Ok_eq in EH. subst hs.
  pose proof (static_wings _ _ _ _ EW HU HB) as ->.
  exists mv, up. split; [exact Hm|]. split; [exact HD|]. split; [exact Hup|]. split; [exact Edt|]. split; [exact HL|]. split.
  - assert (HPer : 0 < up_max_period up).
    { unfold mv_max_period in U4. rewrite B1, B2 in U4. destruct (max_period_largest _ _ _ U4) as [_ HX]. apply Rlt_le_trans with 4; [lra|]. apply HX. unfold all_periods. apply in_or_app; right; left; reflexivity. }
    rewrite U5, U1. unfold first_averaging_step. assert (ER : Reqb (up_max_period up) 0 = false) by (apply Reqb_false; lra). rewrite ER.
    apply Z.max_lub_lt; [lia|]. apply lt_IZR. eapply Rle_lt_trans; [apply floor_spec|]. lra.
  - intros k sp Hk. destruct (HS k sp Hk) as [FA FO]. rewrite <- EA in FA. inversion FA as [|? b ? rest Hb Hr X1 X2]; subst. inversion Hr; subst. split.
    + destruct (HNa k b Hb) as (x & y' & z & wings & _ & _ & _ & EC & Ea). apply column_spec in EC. inversion EC as [|? w ? rest Hw Hr' Y1 Y2]; subst. inversion Hr'; subst.
      apply nth_error_In in Hw. assert (w = wm_base m) by (destruct Hw as [<-|[<-|[<-|[]]]]; reflexivity). subst w. unfold step_wings. rewrite <- X2. cbn [map concat]. rewrite app_nil_r.
      unfold new_airplane in Ea. cbn in Ea. apply Ok_eq in Ea. subst b. reflexivity.
    + destruct (windy_speed gust 3 1 _ k _ ltac:(cbn; auto) EO FO) as (v & V1 & V2 & _). exists v. auto.
Qed.
Definition sym_movement : wing_movement := plate_movement (ex_wing true) (mkvec 0 1 0) (mkvec 0 1 0) resting.
Lemma symmetric_run (only prescribed lines : bool) : exists mv up s,
  new_movement [still_airplane sym_movement] (windy gust) (Some 3%Z) None None (Some 1) = Ok mv /\ new_unsteady_problem mv only = Ok up /\
  (forall am, In am [still_airplane sym_movement] -> symmetric_movement am) /\ no_sideslip (om_base (windy gust)) /\ mv_delta_time mv <> 0 /\
  (up_first_averaging_step up < up_num_steps up)%Z /\ List.length (up_steady_problems up) = 3%nat /\ finished gauss_solve prescribed lines up s.
Proof.
  destruct (still_problem sym_movement only) as (mv & up & Hm & Hdt & Hup & Edt & L & HW & Hst).
  - apply plate_movable; [left; reflexivity | reflexivity | reflexivity].
  - split; [repeat constructor; left; reflexivity | repeat split; left; reflexivity].
  - split; [exact (ex_wing_ok true)|]. split; [intros sm [<-|[<-|[]]]; reflexivity|].
    intros [|[|i]] p q Hp Hq; [|discriminate Hq|destruct i; discriminate Hq]. injection Hp as <-. injection Hq as <-. right. cbn. lra.
  - assert (HC : created up) by (do 7 eexists; exists only; split; [exact Hm | exact Hup]).
    assert (EP : w_panels (ex_wing true) = [[left_panel 0; right_panel 0]]).
    { change (w_panels (ex_wing true)) with [[p_set_position false true 0 0 (plain_panel (- 1) (- 0)); p_set_position true false 0 1 (plain_panel 0 1)]].
      unfold left_panel, right_panel. rewrite Rplus_0_l. reflexivity. }
    destruct (flight_run gauss_solve gauss_solve_spec prescribed up 0 (ex_wing true) HC) with (lines := lines) as [s Hs]; [rewrite Edt; lra | lia | lra | exact EP | |].
    { intros k sp Hk. destruct (Hst k sp Hk) as (H1 & v & H2 & H3). split; [exact H1|]. exists v. split; [lra | exact H3]. }
    exists mv, up, s. split; [exact Hm|]. split; [exact Hup|]. split; [|split; [reflexivity|]; split; [rewrite Hdt; lra|]; auto].
    intros am [<-|[]]. split; [reflexivity|]. split; [left; reflexivity|]. intros w [<-|[]]. split; [reflexivity|]. split; [reflexivity|]. split; [left; reflexivity|]. split.
    + intros s' [<-|[]]. split; [cbn; lia | left; reflexivity].
    + intros s' t [<-|[]] [<-|[]]. split; reflexivity.
Qed.
