(** Lemmas about the shared vocabulary. *)
From Verif Require Export M_Base.
From Coq Require Export Lia Lra Psatz.

Lemma Reqb_true x y : Reqb x y = true <-> x = y.
Proof. unfold Reqb; destruct (Req_EM_T x y); split; congruence. Qed.
Lemma Reqb_false x y : Reqb x y = false <-> x <> y.
Proof. unfold Reqb; destruct (Req_EM_T x y); split; congruence. Qed.
Lemma Rltb_true x y : Rltb x y = true <-> x < y.
Proof. unfold Rltb; destruct (Rlt_dec x y); split; congruence. Qed.
Lemma Rltb_false x y : Rltb x y = false <-> y <= x.
Proof. unfold Rltb; destruct (Rlt_dec x y); split; intros; try congruence; lra. Qed.
Lemma Rleb_true x y : Rleb x y = true <-> x <= y.
Proof. unfold Rleb; destruct (Rle_dec x y); split; congruence. Qed.
Lemma Rleb_false x y : Rleb x y = false <-> y < x.
Proof. unfold Rleb; destruct (Rle_dec x y); split; intros; try congruence; lra. Qed.

Lemma vec_ext u v : vx u = vx v -> vy u = vy v -> vz u = vz v -> u = v.
Proof. destruct u, v; cbn; intros -> -> ->; reflexivity. Qed.

Ltac vunfold :=
  unfold mmul, mvmul, mtrans, mdet, mid, vadd, vsub, vopp, vscale, vdiv, vdot, vcross, vzero in *; cbn [vx vy vz r0 r1 r2] in *.
Ltac vdestruct :=
  repeat match goal with
         | v : vec |- _ => destruct v as [? ? ?]
         | m : mat |- _ => destruct m as [[? ? ?] [? ? ?] [? ? ?]]
         end.
Ltac vring := intros; vdestruct; vunfold; try (apply vec_ext; cbn [vx vy vz]); ring.
Ltac vfield := intros; vdestruct; vunfold; try (apply vec_ext; cbn [vx vy vz]); field.

Lemma veqb_true u v : veqb u v = true <-> u = v.
Proof.
  unfold veqb. rewrite !andb_true_iff, !Reqb_true.
  split; [intros [[? ?] ?]; apply vec_ext; assumption | intros ->; auto].
Qed.
Lemma veqb_false u v : veqb u v = false <-> u <> v.
Proof. rewrite <- veqb_true; destruct (veqb u v); split; congruence. Qed.
Lemma vec_eq_dec (u v : vec) : {u = v} + {u <> v}.
Proof. destruct (veqb u v) eqn:E; [left; apply veqb_true | right; apply veqb_false]; assumption. Qed.

(** ** Vector algebra *)
Lemma vadd_comm u v : vadd u v = vadd v u. Proof. vring. Qed.
Lemma vadd_assoc u v w : vadd u (vadd v w) = vadd (vadd u v) w. Proof. vring. Qed.
Lemma vadd_0_l u : vadd vzero u = u. Proof. vring. Qed.
Lemma vadd_0_r u : vadd u vzero = u. Proof. vring. Qed.
Lemma vsub_self u : vsub u u = vzero. Proof. vring. Qed.
Lemma vscale_0_l u : vscale 0 u = vzero. Proof. vring. Qed.
Lemma vscale_0_r k : vscale k vzero = vzero. Proof. vring. Qed.
Lemma vscale_1_l u : vscale 1 u = u. Proof. vring. Qed.
Lemma vscale_add k u v : vscale k (vadd u v) = vadd (vscale k u) (vscale k v). Proof. vring. Qed.
Lemma vscale_sub k u v : vscale k (vsub u v) = vsub (vscale k u) (vscale k v). Proof. vring. Qed.
Lemma vscale_plus a b u : vscale (a + b) u = vadd (vscale a u) (vscale b u). Proof. vring. Qed.
Lemma vscale_scale a b u : vscale a (vscale b u) = vscale (a * b) u. Proof. vring. Qed.
Lemma vopp_scale u : vopp u = vscale (-1) u. Proof. vring. Qed.
Lemma vdot_comm u v : vdot u v = vdot v u. Proof. vring. Qed.
Lemma vdot_add_l u v w : vdot (vadd u v) w = vdot u w + vdot v w. Proof. vring. Qed.
Lemma vdot_add_r u v w : vdot w (vadd u v) = vdot w u + vdot w v. Proof. vring. Qed.
Lemma vdot_sub_l u v w : vdot (vsub u v) w = vdot u w - vdot v w. Proof. vring. Qed.
Lemma vdot_sub_r u v w : vdot w (vsub u v) = vdot w u - vdot w v. Proof. vring. Qed.
Lemma vdot_scale_l k u v : vdot (vscale k u) v = k * vdot u v. Proof. vring. Qed.
Lemma vdot_scale_r k u v : vdot u (vscale k v) = k * vdot u v. Proof. vring. Qed.
Lemma vdot_0_l u : vdot vzero u = 0. Proof. vring. Qed.
Lemma vdot_0_r u : vdot u vzero = 0. Proof. vring. Qed.
Lemma vcross_add_l u v w : vcross (vadd u v) w = vadd (vcross u w) (vcross v w). Proof. vring. Qed.
Lemma vcross_add_r u v w : vcross w (vadd u v) = vadd (vcross w u) (vcross w v). Proof. vring. Qed.
Lemma vcross_scale_l k u v : vcross (vscale k u) v = vscale k (vcross u v). Proof. vring. Qed.
Lemma vcross_scale_r k u v : vcross u (vscale k v) = vscale k (vcross u v). Proof. vring. Qed.
Lemma vcross_0_l u : vcross vzero u = vzero. Proof. vring. Qed.
Lemma vcross_0_r u : vcross u vzero = vzero. Proof. vring. Qed.
Lemma vcross_anti u v : vcross u v = vopp (vcross v u). Proof. vring. Qed.
Lemma vcross_self u : vcross u u = vzero. Proof. vring. Qed.
Lemma vdot_cross_l u v : vdot u (vcross u v) = 0. Proof. vring. Qed.
Lemma vdot_cross_r u v : vdot v (vcross u v) = 0. Proof. vring. Qed.
Lemma vdiv_scale u k : vdiv u k = vscale (/ k) u.
Proof. vdestruct; vunfold; apply vec_ext; cbn; unfold Rdiv; ring. Qed.

(** Lagrange's identity *)
Lemma lagrange u v : vdot (vcross u v) (vcross u v) = vdot u u * vdot v v - vdot u v * vdot u v.
Proof. vring. Qed.

Lemma vdot_self_nonneg u : 0 <= vdot u u.
Proof. vdestruct; vunfold; nra. Qed.
Lemma vdot_self_zero u : vdot u u = 0 -> u = vzero.
Proof.
  vdestruct; vunfold; intros H.
  assert (0 <= vx * vx) by nra. assert (0 <= vy * vy) by nra. assert (0 <= vz * vz) by nra.
  apply vec_ext; cbn; nra.
Qed.
Lemma vdot_self_pos u : u <> vzero -> 0 < vdot u u.
Proof.
  intros Hu; destruct (Rle_lt_or_eq_dec _ _ (vdot_self_nonneg u)) as [H|H]; [exact H|].
  exfalso; apply Hu, vdot_self_zero; symmetry; exact H.
Qed.
Lemma cauchy_schwarz u v : vdot u v * vdot u v <= vdot u u * vdot v v.
Proof. pose proof (vdot_self_nonneg (vcross u v)) as H; rewrite lagrange in H; lra. Qed.

Lemma vnorm_nonneg u : 0 <= vnorm u.
Proof. apply sqrt_pos. Qed.
Lemma vnorm_sqr u : vnorm u ^ 2 = vdot u u.
Proof. unfold vnorm; rewrite <- Rsqr_pow2; apply Rsqr_sqrt, vdot_self_nonneg. Qed.
Lemma vnorm_mul u : vnorm u * vnorm u = vdot u u.
Proof. rewrite <- vnorm_sqr; ring. Qed.
Lemma vnorm_zero : vnorm vzero = 0.
Proof. unfold vnorm; rewrite vdot_0_l; apply sqrt_0. Qed.
Lemma vnorm_eq_0 u : vnorm u = 0 -> u = vzero.
Proof. intros H; apply vdot_self_zero; rewrite <- vnorm_sqr, H; ring. Qed.
Lemma vnorm_pos u : u <> vzero -> 0 < vnorm u.
Proof. intros H; apply sqrt_lt_R0, vdot_self_pos, H. Qed.
Lemma vnorm_neq_0 u : u <> vzero -> vnorm u <> 0.
Proof. intros H; apply Rgt_not_eq, vnorm_pos, H. Qed.
Lemma vnorm_scale k u : vnorm (vscale k u) = Rabs k * vnorm u.
Proof.
  unfold vnorm; rewrite vdot_scale_l, vdot_scale_r.
  replace (k * (k * vdot u u)) with (Rsqr k * vdot u u) by (unfold Rsqr; ring).
  rewrite sqrt_mult_alt by apply Rle_0_sqr. rewrite sqrt_Rsqr_abs; reflexivity.
Qed.
Lemma vnorm_unit u : u <> vzero -> vnorm (vdiv u (vnorm u)) = 1.
Proof.
  intros H. rewrite vdiv_scale, vnorm_scale.
  pose proof (vnorm_pos u H). rewrite Rabs_pos_eq.
  - field; lra.
  - left; apply Rinv_0_lt_compat; assumption.
Qed.
Lemma vnorm_1_dot u : vnorm u = 1 -> vdot u u = 1.
Proof. intros H; rewrite <- vnorm_sqr, H; ring. Qed.
Lemma vdot_1_norm u : vdot u u = 1 -> vnorm u = 1.
Proof. intros H; unfold vnorm; rewrite H; apply sqrt_1. Qed.
Lemma vnorm_opp u : vnorm (vopp u) = vnorm u.
Proof. unfold vnorm; f_equal; vring. Qed.
Lemma vnorm_dot_le u v : Rabs (vdot u v) <= vnorm u * vnorm v.
Proof.
  apply Rsqr_incr_0_var.
  - rewrite <- Rsqr_abs. unfold Rsqr.
    replace (vnorm u * vnorm v * (vnorm u * vnorm v)) with ((vnorm u * vnorm u) * (vnorm v * vnorm v)) by ring.
    rewrite !vnorm_mul; apply cauchy_schwarz.
  - apply Rmult_le_pos; apply vnorm_nonneg.
Qed.
Lemma vnorm_triangle u v : vnorm (vadd u v) <= vnorm u + vnorm v.
Proof.
  apply Rsqr_incr_0_var.
  - unfold Rsqr at 1; rewrite vnorm_mul, vdot_add_l, !vdot_add_r.
    rewrite (vdot_comm v u). unfold Rsqr.
    pose proof (vnorm_dot_le u v) as H. pose proof (Rle_abs (vdot u v)) as H'.
    pose proof (vnorm_mul u). pose proof (vnorm_mul v). nra.
  - pose proof (vnorm_nonneg u); pose proof (vnorm_nonneg v); lra.
Qed.

(** ** Matrices *)
Lemma mvmul_add m u v : mvmul m (vadd u v) = vadd (mvmul m u) (mvmul m v). Proof. vring. Qed.
Lemma mvmul_sub m u v : mvmul m (vsub u v) = vsub (mvmul m u) (mvmul m v). Proof. vring. Qed.
Lemma mvmul_scale m k u : mvmul m (vscale k u) = vscale k (mvmul m u). Proof. vring. Qed.
Lemma mvmul_zero m : mvmul m vzero = vzero. Proof. vring. Qed.
Lemma mvmul_mmul a b v : mvmul (mmul a b) v = mvmul a (mvmul b v). Proof. vring. Qed.
Lemma mvmul_mid v : mvmul mid v = v. Proof. vring. Qed.
Lemma mtrans_trans m : mtrans (mtrans m) = m.
Proof. destruct m as [[? ? ?] [? ? ?] [? ? ?]]; reflexivity. Qed.
Lemma vdot_mtrans m u v : vdot (mvmul (mtrans m) u) v = vdot u (mvmul m v). Proof. vring. Qed.
Lemma mat_ext a b : r0 a = r0 b -> r1 a = r1 b -> r2 a = r2 b -> a = b.
Proof. destruct a, b; cbn; intros -> -> ->; reflexivity. Qed.
Ltac mring := intros; vdestruct; vunfold; apply mat_ext; cbn [r0 r1 r2]; apply vec_ext; cbn [vx vy vz]; ring.

(** ** Sums over lists *)
Lemma fold_left_Rplus_acc l a : fold_left Rplus l a = a + fold_left Rplus l 0.
Proof.
  revert a; induction l as [|x xs IH]; intros a; cbn; [ring|].
  rewrite IH, (IH (0 + x)); ring.
Qed.
Lemma rsum_nil : rsum [] = 0. Proof. reflexivity. Qed.
Lemma rsum_cons x l : rsum (x :: l) = x + rsum l.
Proof. unfold rsum; cbn; rewrite fold_left_Rplus_acc; ring. Qed.
Lemma rsum_app l m : rsum (l ++ m) = rsum l + rsum m.
Proof. induction l as [|x xs IH]; cbn [app]; rewrite ?rsum_nil, ?rsum_cons, ?IH; ring. Qed.
Lemma fold_left_vadd_acc l a : fold_left vadd l a = vadd a (fold_left vadd l vzero).
Proof.
  revert a; induction l as [|x xs IH]; intros a; cbn.
  - symmetry; apply vadd_0_r.
  - rewrite IH, (IH (vadd vzero x)), vadd_0_l, vadd_assoc; reflexivity.
Qed.
Lemma vsum_nil : vsum [] = vzero. Proof. reflexivity. Qed.
Lemma vsum_cons x l : vsum (x :: l) = vadd x (vsum l).
Proof. unfold vsum; cbn; rewrite fold_left_vadd_acc, vadd_0_l; reflexivity. Qed.
Lemma vsum_app l m : vsum (l ++ m) = vadd (vsum l) (vsum m).
Proof.
  induction l as [|x xs IH]; cbn [app].
  - rewrite vsum_nil, vadd_0_l; reflexivity.
  - rewrite !vsum_cons, IH, vadd_assoc; reflexivity.
Qed.
Lemma vsum_map_scale {A} k (f : A -> vec) l : vsum (map (fun x => vscale k (f x)) l) = vscale k (vsum (map f l)).
Proof.
  induction l as [|x xs IH]; cbn [map].
  - rewrite vsum_nil, vscale_0_r; reflexivity.
  - rewrite !vsum_cons, IH, vscale_add; reflexivity.
Qed.
Lemma vsum_map_add {A} (f g : A -> vec) l :
  vsum (map (fun x => vadd (f x) (g x)) l) = vadd (vsum (map f l)) (vsum (map g l)).
Proof.
  induction l as [|x xs IH]; cbn [map].
  - rewrite !vsum_nil, vadd_0_l; reflexivity.
  - rewrite !vsum_cons, IH; vring.
Qed.
Lemma vsum_map_ext {A} (f g : A -> vec) l :
  (forall x, In x l -> f x = g x) -> vsum (map f l) = vsum (map g l).
Proof. intros H; f_equal; apply map_ext_in; assumption. Qed.
Lemma vdot_vsum n l : vdot n (vsum l) = rsum (map (vdot n) l).
Proof.
  induction l as [|x xs IH]; cbn [map].
  - rewrite vsum_nil, vdot_0_r; reflexivity.
  - rewrite vsum_cons, vdot_add_r, IH, rsum_cons; reflexivity.
Qed.
Lemma mvmul_vsum m l : mvmul m (vsum l) = vsum (map (mvmul m) l).
Proof.
  induction l as [|x xs IH]; cbn [map].
  - rewrite vsum_nil, mvmul_zero; reflexivity.
  - rewrite !vsum_cons, mvmul_add, IH; reflexivity.
Qed.
Lemma rsum_map_scale {A} k (f : A -> R) l : rsum (map (fun x => k * f x) l) = k * rsum (map f l).
Proof.
  induction l as [|x xs IH]; cbn [map]; rewrite ?rsum_nil, ?rsum_cons, ?IH; ring.
Qed.
Lemma rsum_map_plus {A} (f g : A -> R) l : rsum (map (fun x => f x + g x) l) = rsum (map f l) + rsum (map g l).
Proof.
  induction l as [|x xs IH]; cbn [map]; rewrite ?rsum_nil, ?rsum_cons, ?IH; ring.
Qed.
Lemma rsum_map_ext {A} (f g : A -> R) l :
  (forall x, In x l -> f x = g x) -> rsum (map f l) = rsum (map g l).
Proof. intros H; f_equal; apply map_ext_in; assumption. Qed.

(** ** map2, mapi, nth *)
Lemma map2_length {A B C} (f : A -> B -> C) a b :
  length (map2 f a b) = Nat.min (length a) (length b).
Proof. revert b; induction a as [|x xs IH]; intros [|y ys]; cbn; auto. Qed.
Lemma map2_length_eq {A B C} (f : A -> B -> C) a b :
  length a = length b -> length (map2 f a b) = length a.
Proof. intros H; rewrite map2_length, H; apply Nat.min_id. Qed.
Lemma nth_error_map2 {A B C} (f : A -> B -> C) a b i :
  nth_error (map2 f a b) i =
  match nth_error a i, nth_error b i with Some x, Some y => Some (f x y) | _, _ => None end.
Proof.
  revert b i; induction a as [|x xs IH]; intros [|y ys] [|i]; cbn; try reflexivity.
  - destruct (nth_error xs i); reflexivity.
  - apply IH.
Qed.
Lemma map2_map_map {A B C D} (f : B -> C -> D) (g : A -> B) (h : A -> C) l :
  map2 f (map g l) (map h l) = map (fun x => f (g x) (h x)) l.
Proof. induction l as [|x xs IH]; cbn; f_equal; auto. Qed.
Lemma map2_app {A B C} (f : A -> B -> C) a a' b b' :
  length a = length b -> map2 f (a ++ a') (b ++ b') = map2 f a b ++ map2 f a' b'.
Proof.
  revert b; induction a as [|x xs IH]; intros [|y ys] H; cbn in *; try discriminate; auto.
  f_equal; apply IH; lia.
Qed.
Lemma combine_map {A B C} (f : A -> B) (g : A -> C) l :
  combine (map f l) (map g l) = map (fun x => (f x, g x)) l.
Proof. induction l as [|x xs IH]; cbn; f_equal; auto. Qed.
Lemma mapi_from_length {A B} k (f : nat -> A -> B) l : length (mapi_from k f l) = length l.
Proof. revert k; induction l as [|x xs IH]; intros k; cbn; auto. Qed.
Lemma mapi_length {A B} (f : nat -> A -> B) l : length (mapi f l) = length l.
Proof. apply mapi_from_length. Qed.
Lemma nth_error_mapi_from {A B} k (f : nat -> A -> B) l i :
  nth_error (mapi_from k f l) i = option_map (f (k + i)%nat) (nth_error l i).
Proof.
  revert k i; induction l as [|x xs IH]; intros k [|i]; cbn; try reflexivity.
  - rewrite Nat.add_0_r; reflexivity.
  - rewrite IH; do 2 f_equal; lia.
Qed.
Lemma nth_error_mapi {A B} (f : nat -> A -> B) l i :
  nth_error (mapi f l) i = option_map (f i) (nth_error l i).
Proof. apply nth_error_mapi_from. Qed.
Lemma nth_error_map_Some {A B} (f : A -> B) l i x :
  nth_error l i = Some x -> nth_error (map f l) i = Some (f x).
Proof. intros H; rewrite nth_error_map, H; reflexivity. Qed.
Lemma nth_error_ext {A} (l m : list A) : (forall i, nth_error l i = nth_error m i) -> l = m.
Proof.
  revert m; induction l as [|x xs IH]; intros [|y ys] H; auto.
  - specialize (H 0%nat); discriminate.
  - specialize (H 0%nat); discriminate.
  - f_equal; [specialize (H 0%nat); cbn in H; congruence|]. apply IH; intros i; apply (H (S i)).
Qed.
Lemma hstack_length {A} (a b : list (list A)) :
  length a = length b -> length (hstack a b) = length a.
Proof.
  revert b; induction a as [|x xs IH]; intros [|y ys] H; cbn in *; try discriminate; auto.
Qed.
Lemma nth_error_hstack {A} (a b : list (list A)) i :
  nth_error (hstack a b) i =
  match nth_error a i, nth_error b i with Some x, Some y => Some (x ++ y) | _, _ => None end.
Proof.
  revert b i; induction a as [|x xs IH]; intros [|y ys] [|i]; cbn; try reflexivity.
  - destruct (nth_error xs i); reflexivity.
  - apply IH.
Qed.

Lemma linspace_length a b n : length (linspace a b n) = n.
Proof. unfold linspace; rewrite map_length, seq_length; reflexivity. Qed.
Lemma nth_error_seq0 n i : nth_error (seq 0 n) i = if Nat.ltb i n then Some i else None.
Proof.
  destruct (Nat.ltb_spec i n) as [H|H].
  - rewrite (nth_error_nth' (seq 0 n) 0%nat) by (rewrite seq_length; lia).
    rewrite seq_nth by lia; reflexivity.
  - apply nth_error_None; rewrite seq_length; lia.
Qed.

Lemma mapM_Ok_length {A B} (f : A -> result B) l m : mapM f l = Ok m -> length m = length l.
Proof.
  revert m; induction l as [|x xs IH]; cbn; intros m H; [injection H as <-; reflexivity|].
  destruct (f x); cbn in H; [|discriminate].
  destruct (mapM f xs) as [ys|]; cbn in H; [|discriminate].
  injection H as <-; cbn; f_equal; apply IH; reflexivity.
Qed.
