(** Straight vortices with their cut-offs, rings and horseshoes. *)
From Coq Require Import Reals Lra Lia Psatz.
From Verif Require Import M_Base M_Aero S_Flow L_Base L_Aero L_Flow.
Local Open Scope R_scope.

Lemma stays f c : continuity_pt f 0 -> f 0 <> c -> exists d, 0 < d /\ forall t, Rabs t < d -> Rltb (f t) c = Rltb (f 0) c.
Proof.
  intros HC Hne. destruct (HC (Rabs (f 0 - c)) ltac:(apply Rabs_pos_lt; lra)) as (d & Hd & H). exists d. split; [exact Hd|]. intros t Ht.
  assert (A : Rabs (f t - f 0) < Rabs (f 0 - c)).
  { destruct (Req_dec t 0) as [->|Hn]; [rewrite Rminus_diag_eq, Rabs_R0 by reflexivity; apply Rabs_pos_lt; lra|].
    apply (H t). split; [split; [exact I | intros E; apply Hn; symmetry; exact E]|]. unfold dist; cbn. unfold R_dist. rewrite Rminus_0_r. exact Ht. }
  apply Rabs_def2 in A. unfold Rabs in A. destruct (Rcase_abs (f 0 - c)); [|].
  - rewrite (proj2 (Rltb_true (f t) c)), (proj2 (Rltb_true (f 0) c)) by lra. reflexivity.
  - rewrite (proj2 (Rltb_false (f t) c)), (proj2 (Rltb_false (f 0) c)) by lra. reflexivity.
Qed.
Lemma lim_continuous f l : derivable_pt_lim f 0 l -> continuity_pt f 0.
Proof. intros H. apply derivable_continuous_pt. exists l. exact H. Qed.
Lemma norm_continuous x h u : continuity_pt (fun t => vnorm (vsub u (vadd x (vscale t h)))) 0.
Proof.
  apply (continuity_pt_comp (fun t => vdot (vsub u (vadd x (vscale t h))) (vsub u (vadd x (vscale t h)))) sqrt).
  - exact (lim_continuous _ _ (dot_moving x h u u)).
  - apply continuity_pt_sqrt. rewrite at_zero, <- vnorm_mul. apply Rle_0_sqr.
Qed.
Lemma cross_continuous x h a b : continuity_pt (fun t => vnorm (vcross (vsub a (vadd x (vscale t h))) (vsub b (vadd x (vscale t h)))) ^ 2) 0.
Proof.
  destruct (cross_moving x h a b) as (X1 & X2 & X3). pose proof (dl_mult _ _ _ _ _ _ X1 X1 eq_refl) as Y1. pose proof (dl_mult _ _ _ _ _ _ X2 X2 eq_refl) as Y2. pose proof (dl_mult _ _ _ _ _ _ X3 X3 eq_refl) as Y3.
  pose proof (dl_plus _ _ _ _ _ _ (dl_plus _ _ _ _ _ _ Y1 Y2 eq_refl) Y3 eq_refl) as Y. eapply lim_continuous. eapply derivable_pt_lim_ext; [|exact Y]. intros t. cbv beta. rewrite vnorm_sqr. reflexivity.
Qed.
Lemma singular_stays x h a b : off_threshold x (a, b) -> exists d, 0 < d /\ forall t, Rabs t < d -> singular (vadd x (vscale t h)) a b = singular x a b.
Proof.
  unfold off_threshold. cbn [fst snd]. fold eps. intros (H1 & H2 & H3).
  destruct (stays _ eps (norm_continuous x h a) ltac:(cbv beta; rewrite at_zero; exact H1)) as (d1 & P1 & K1). destruct (stays _ eps (norm_continuous x h b) ltac:(cbv beta; rewrite at_zero; exact H2)) as (d2 & P2 & K2).
  destruct (stays _ eps (cross_continuous x h a b) ltac:(cbv beta; rewrite at_zero; exact H3)) as (d3 & P3 & K3). rewrite at_zero in K1, K2, K3.
  exists (Rmin d1 (Rmin d2 d3)). split; [repeat apply Rmin_glb_lt; assumption|]. intros t Ht. pose proof (Rmin_l d1 (Rmin d2 d3)). pose proof (Rmin_r d1 (Rmin d2 d3)). pose proof (Rmin_l d2 d3). pose proof (Rmin_r d2 d3).
  unfold singular. rewrite K1, K2, K3 by lra. reflexivity.
Qed.
Definition segment_matrix (x : vec) (g age nu : R) (s : vec * vec) : mat :=
  if singular x (fst s) (snd s) then mkmat vzero vzero vzero else felt_matrix x (fst s) (snd s) g age nu.
Lemma segment_derivative x g age nu s : off_threshold x s -> field_derivative (fun y => line_velocity y (fst s) (snd s) g age nu) x (segment_matrix x g age nu s).
Proof.
  destruct s as [a b]. intros HT. unfold segment_matrix. cbn [fst snd]. destruct (singular x a b) eqn:E.
  - apply (near_field (fun _ => vzero)); [|apply zero_field]. intros h. destruct (singular_stays x h a b HT) as (d & Hd & K). exists d. split; [exact Hd|]. intros t Ht. symmetry. apply line_velocity_singular. rewrite K by exact Ht. exact E.
  - apply (near_field (felt_field a b g age nu)); [|apply felt_derivative; exact E]. intros h. destruct (singular_stays x h a b HT) as (d & Hd & K). exists d. split; [exact Hd|]. intros t Ht. symmetry. apply line_velocity_regular. rewrite K by exact Ht. exact E.
Qed.
Lemma segment_divergence x g age nu s : divergence (segment_matrix x g age nu s) = 0.
Proof. unfold segment_matrix. destruct (singular _ _ _); [unfold divergence; cbn; ring | apply felt_divergence]. Qed.

(** ** Curl of a straight vortex without a core *)
Lemma slope_curl1 c a b d : 0 < a -> 0 < b -> 0 < a * b + d -> 0 < a * b - d ->
  slope1 c 0 a b d * d + slope2 c 0 a b d * b ^ 2 - 2 * (c * (a + b) * (a * b - d) / (a * b * ((a * b) ^ 2 - d ^ 2 + 0))) = c / a ^ 3.
Proof.
  intros Ha Hb H1 H2. unfold slope1, slope2, Rsqr. replace ((a * b) ^ 2 - d ^ 2 + 0) with ((a * b + d) * (a * b - d)) by ring. field. lra.
Qed.
Lemma slope_curl2 c a b d : 0 < a -> 0 < b -> 0 < a * b + d -> 0 < a * b - d ->
  slope1 c 0 a b d * a ^ 2 + slope2 c 0 a b d * d - 2 * (c * (a + b) * (a * b - d) / (a * b * ((a * b) ^ 2 - d ^ 2 + 0))) = c / b ^ 3.
Proof.
  intros Ha Hb H1 H2. unfold slope1, slope2, Rsqr. replace ((a * b) ^ 2 - d ^ 2 + 0) with ((a * b + d) * (a * b - d)) by ring. field. lra.
Qed.
Lemma slope_cross u v s1 s2 f : vsub (vcross (vadd (vscale s1 u) (vscale s2 v)) (vcross u v)) (vscale (2 * f) (vsub u v)) =
  vsub (vscale (s1 * vdot u v + s2 * vdot v v - 2 * f) u) (vscale (s1 * vdot u u + s2 * vdot u v - 2 * f) v).
Proof. vring. Qed.


Lemma felt_curl x a b g nu : singular x a b = false -> curl (felt_matrix x a b g 0 nu) = vsub (spin x g a) (spin x g b).
Proof.
  intros HS. destruct (regular_nonzero _ _ _ HS) as (P1 & P2 & P3). rewrite lagrange in P3. unfold felt_matrix. cbv zeta. rewrite line_matrix_curl, core_radius_age0.
  rewrite coefficient_plain, core_radius_age0. replace (vnorm (vsub b a) ^ 2 * 0 ^ 2) with 0 by ring.
  replace (vsub a b) with (vsub (vsub a x) (vsub b x)) by vring. revert P1 P2 P3. unfold spin. generalize (vsub a x) (vsub b x). intros u v P1 P2 P3.
  rewrite slope_cross. replace (vdot u u) with (vnorm u ^ 2) by apply vnorm_sqr. replace (vdot v v) with (vnorm v ^ 2) by apply vnorm_sqr.
  assert (Q : 0 < (vnorm u * vnorm v + vdot u v) * (vnorm u * vnorm v - vdot u v)) by lra. pose proof (Rmult_lt_0_compat _ _ P1 P2) as P12.
  assert (H1 : 0 < vnorm u * vnorm v + vdot u v) by nra. assert (H2 : 0 < vnorm u * vnorm v - vdot u v) by nra.
  rewrite slope_curl1, slope_curl2 by assumption. reflexivity.
Qed.

(** ** Paths of segments *)
Definition path_field (v : path) (g age nu : R) (y : vec) : vec := vsum (map (fun s => line_velocity y (fst s) (snd s) g age nu) v).
Definition msum (l : list mat) : mat := fold_right madd (mkmat vzero vzero vzero) l.
Lemma sum_fields {A} (V : A -> vec -> vec) (J : A -> mat) x l : (forall s, In s l -> field_derivative (V s) x (J s)) ->
  field_derivative (fun y => vsum (map (fun s => V s y) l)) x (msum (map J l)).
Proof.
  induction l as [|s l IH]; intros H; [apply zero_field|]. cbn [map msum fold_right]. apply (ext_field (fun y => vadd (V s y) (vsum (map (fun s => V s y) l)))); [intros y; symmetry; apply vsum_cons|].
  apply sum_field; [apply H; left; reflexivity|]. apply IH. intros s' Hs. apply H. right. exact Hs.
Qed.
Lemma msum_divergence l : (forall J, In J l -> divergence J = 0) -> divergence (msum l) = 0.
Proof.
  induction l as [|J l IH]; intros H; cbn [msum fold_right]; [unfold divergence; cbn; ring|]. fold (msum l). rewrite divergence_add, IH, (H J); [ring | left; reflexivity | intros K HK; apply H; right; exact HK].
Qed.
Lemma msum_curl l : curl (msum l) = vsum (map curl l).
Proof. induction l as [|J l IH]; cbn [msum fold_right map]; [unfold curl; apply vec_ext; cbn; ring|]. fold (msum l). rewrite curl_add, IH, vsum_cons. reflexivity. Qed.
Lemma path_derivative x v g age nu : (forall s, In s v -> off_threshold x s) ->
  field_derivative (path_field v g age nu) x (msum (map (segment_matrix x g age nu) v)) /\ divergence (msum (map (segment_matrix x g age nu) v)) = 0.
Proof.
  intros H. split; [|apply msum_divergence; intros J HJ; apply in_map_iff in HJ; destruct HJ as (s & <- & _); apply segment_divergence].
  apply (sum_fields (fun s y => line_velocity y (fst s) (snd s) g age nu)). intros s Hs. apply segment_derivative, H, Hs.
Qed.
