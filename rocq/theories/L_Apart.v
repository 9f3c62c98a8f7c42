(** Systems of two groups of vortices that get farther and farther apart. *)
From Coq Require Import List Lia Lra Reals.
From Verif Require Import M_Loads S_Solve S_Solvable S_Size S_Continuous S_Apart L_Base L_Loads L_Aero L_Mirror L_Dominant L_Divide L_Reference L_Flow3 L_Size L_SizeSolvers L_Limits L_Continuous.
Import ListNotations.
Local Open Scope R_scope.

(** ** Lists *)
Lemma each_follow {A B} (P : nat -> A -> B -> Prop) (l : list A) (u : nat -> list B) : (forall n, Forall2 (P n) l (u n)) ->
  exists v, (forall n, u n = map snd (v n)) /\ each (fun x ab => forall n, fst (x n) = fst ab /\ P n (fst ab) (snd (x n))) v (combine l (u 0%nat)).
Proof.
  revert u. induction l as [|a l IH]; intros u H.
  - exists (fun _ => []). split; [intros n; specialize (H n); inversion H; reflexivity|]. constructor. reflexivity.
  - assert (HB : exists b0 : B, True) by (specialize (H 0%nat); inversion H; eauto). destruct HB as (b0 & _).
    destruct (IH (fun n => tl (u n))) as (v & Ev & Hv); [intros n; specialize (H n); inversion H; assumption|].
    exists (fun n => (a, hd b0 (u n)) :: v n). split; [intros n; cbn [map snd]; rewrite <- Ev; specialize (H n); inversion H; reflexivity|].
    assert (E0 : u 0%nat = hd b0 (u 0%nat) :: tl (u 0%nat)) by (specialize (H 0%nat); inversion H; reflexivity). rewrite E0. cbn [combine].
    refine (each_cons _ _ (fun n => (a, hd b0 (u n))) v _ _ (fun n => eq_refl) _ Hv). intros n. cbn [fst snd]. split; [reflexivity|]. specialize (H n). inversion H; assumption.
Qed.
Lemma each_follow' {A B C} (P : nat -> A -> B -> Prop) (T : (nat -> C) -> C -> Prop) (f : nat -> B -> C) (g : A -> C) (l : list A) (u : nat -> list B) :
  (forall n, Forall2 (P n) l (u n)) -> (forall a x, In a l -> (forall n, P n a (x n)) -> T (fun n => f n (x n)) (g a)) -> each T (fun n => map (f n) (u n)) (map g l).
Proof.
  revert u. induction l as [|a l IH]; intros u H HT.
  - constructor. intros n. specialize (H n). inversion H. reflexivity.
  - assert (HB : exists b0 : B, True) by (specialize (H 0%nat); inversion H; eauto). destruct HB as (b0 & _). cbn [map].
    refine (each_cons _ _ (fun n => f n (hd b0 (u n))) (fun n => map (f n) (tl (u n))) _ _ _ _ _).
    + intros n. specialize (H n). inversion H. reflexivity.
    + apply HT; [left; reflexivity|]. intros n. specialize (H n). inversion H. assumption.
    + apply IH; [intros n; specialize (H n); inversion H; assumption|]. intros b x Hb. apply HT. right. exact Hb.
Qed.
Lemma each_split {A} (T : (nat -> A) -> A -> Prop) l m u : each T u (l ++ m) ->
  exists v w, (forall n, u n = v n ++ w n) /\ each T v l /\ each T w m.
Proof.
  revert u. induction l as [|a l IH]; intros u H.
  - exists (fun _ => []), u. split; [reflexivity|]. split; [constructor; reflexivity | exact H].
  - destruct (each_tl _ _ _ _ H) as (x & v & E & Hx & Hv). destruct (IH _ Hv) as (v' & w & E' & H1 & H2).
    exists (fun n => x n :: v' n), w. split; [intros n; rewrite E, E'; reflexivity|]. split; [eapply each_cons; [reflexivity | exact Hx | exact H1] | exact H2].
Qed.

(** ** Two systems side by side *)
Definition block (a b : list (list R)) : list (list R) :=
  map (fun r => r ++ repeat 0 (length b)) a ++ map (fun r => repeat 0 (length a) ++ r) b.
Lemma block_length a b : length (block a b) = (length a + length b)%nat.
Proof. unfold block. rewrite app_length, !map_length. reflexivity. Qed.
Lemma block_square a b : square a -> square b -> square (block a b).
Proof.
  intros Ha Hb r Hr. rewrite block_length. unfold block in Hr. apply in_app_or in Hr. destruct Hr as [Hr|Hr]; apply in_map_iff in Hr; destruct Hr as (q & <- & Hq); rewrite app_length, repeat_length.
  - rewrite (Ha q Hq). reflexivity.
  - rewrite (Hb q Hq). reflexivity.
Qed.
Lemma rsum_zeros k x : rsum (map2 Rmult (repeat 0 k) x) = 0.
Proof. revert x. induction k as [|k IH]; intros [|a x]; try reflexivity. cbn [repeat map2]. rewrite rsum_cons, IH. ring. Qed.
Lemma block_matvec a b x y : square a -> square b -> length x = length a -> length y = length b -> matvec (block a b) (x ++ y) = matvec a x ++ matvec b y.
Proof.
  intros Ha Hb Lx Ly. unfold matvec, block. rewrite map_app, !map_map. f_equal; apply map_ext_in; intros r Hr.
  - rewrite map2_app2 by (rewrite Lx; apply Ha, Hr). rewrite rsum_app, rsum_zeros. ring.
  - rewrite map2_app2 by (rewrite repeat_length; symmetry; exact Lx). rewrite rsum_app, rsum_zeros. ring.
Qed.
Lemma block_solve solve a b c d x y : SolveSpec solve -> square a -> square b -> length c = length a -> length d = length b ->
  solve a c = Ok x -> solve b d = Ok y -> solve (block a b) (c ++ d) = Ok (x ++ y).
Proof.
  intros HS Ha Hb Lc Ld E1 E2. apply (HS _ _ Ha Lc) in E1. apply (HS _ _ Hb Ld) in E2. destruct E1 as ((L1 & M1) & U1), E2 as ((L2 & M2) & U2).
  apply HS; [apply block_square; assumption | rewrite app_length, block_length; congruence|]. split.
  - split; [rewrite app_length, block_length; congruence|]. rewrite block_matvec by assumption. congruence.
  - intros z (Lz & Mz). rewrite block_length in Lz.
    assert (Z : exists p q, z = p ++ q /\ length p = length a /\ length q = length b).
    { exists (firstn (length a) z), (skipn (length a) z). split; [symmetry; apply firstn_skipn|]. rewrite firstn_length, skipn_length. lia. }
    destruct Z as (p & q & -> & K1 & K2). rewrite block_matvec in Mz by assumption.
    assert (X : matvec a p = c /\ matvec b q = d).
    { assert (LM : length (matvec a p) = length c) by (unfold matvec; rewrite map_length; congruence). revert Mz LM. generalize (matvec a p) as p', (matvec b q) as q'. clear. intros p q. revert c.
      induction p as [|h p IH]; intros [|k c] E L; try discriminate; [auto|]. cbn in E. injection E as -> E. destruct (IH c E ltac:(cbn in L; lia)) as (-> & ->). auto. }
    destruct X as (X1 & X2). rewrite (U1 _ (conj K1 X1)), (U2 _ (conj K2 X2)). reflexivity.
Qed.

(** ** Far away *)
Lemma vtends_zero u : tends (fun n => vnorm (u n)) 0 -> vtends u vzero.
Proof.
  intros H. assert (C : forall v, Rabs (vx v) <= vnorm v /\ Rabs (vy v) <= vnorm v /\ Rabs (vz v) <= vnorm v).
  { intros v. unfold vnorm. repeat split; rewrite <- sqrt_Rsqr_abs; apply sqrt_le_1_alt; unfold vdot, Rsqr; nra. }
  split; [|split]; intros e He; destruct (H e He) as (N & HN); exists N; intros n Hn; specialize (HN n Hn); unfold R_dist in *; cbn [vx vy vz vzero];
    rewrite Rminus_0_r in *; rewrite Rabs_pos_eq in HN by apply vnorm_nonneg; eapply Rle_lt_trans; [apply C | exact HN | apply C | exact HN | apply C | exact HN].
Qed.
Lemma receding_shift ts x : receding ts -> receding (fun n => vadd x (ts n)) /\ receding (fun n => vsub x (ts n)).
Proof.
  intros H. split; intros d; destruct (H (d + vnorm x)) as (N & HN); exists N; intros n Hn; specialize (HN n Hn).
  - pose proof (vnorm_triangle (vadd x (ts n)) (vopp x)) as T. rewrite vnorm_opp in T. replace (vadd (vadd x (ts n)) (vopp x)) with (ts n) in T by vring. lra.
  - pose proof (vnorm_triangle x (vopp (vsub x (ts n)))) as T. rewrite vnorm_opp in T. replace (vadd x (vopp (vsub x (ts n)))) with (ts n) in T by vring. lra.
Qed.
Definition fades (V : vec -> vec) : Prop := forall X, receding X -> vtends (fun n => V (X n)) vzero.
Lemma line_fades a b g age nu : fades (fun y => line_velocity y a b g age nu).
Proof.
  intros X HX. apply vtends_zero. intros e He. set (K := 2 * Rabs g * vnorm (vsub b a) / PI).
  assert (HK : 0 <= K) by (unfold K, Rdiv; pose proof PI_RGT_0; pose proof (Rabs_pos g); pose proof (vnorm_nonneg (vsub b a)); repeat apply Rmult_le_pos; try lra; left; apply Rinv_0_lt_compat; lra).
  destruct (HX (2 * (vnorm a + vnorm b) + 1 + K / e)) as (N & HN). exists N. intros n Hn. specialize (HN n Hn). unfold R_dist. rewrite Rminus_0_r, Rabs_pos_eq by apply vnorm_nonneg.
  pose proof (vnorm_nonneg a). pose proof (vnorm_nonneg b). assert (HD : 0 <= K / e) by (apply Rmult_le_pos; [exact HK | left; apply Rinv_0_lt_compat; exact He]).
  pose proof PI_RGT_0. eapply Rle_lt_trans; [apply far_line; lra|]. replace (2 * Rabs g * vnorm (vsub b a) / (PI * vnorm (X n) ^ 2)) with (K / vnorm (X n) ^ 2) by (unfold K; field; lra).
  set (y := vnorm (X n)) in *. apply Rmult_lt_reg_r with (y ^ 2); [apply pow_lt; lra|]. unfold Rdiv at 1. rewrite Rmult_assoc, Rinv_l, Rmult_1_r by (apply pow_nonzero; lra).
  assert (K < e * y) by (apply Rmult_lt_reg_r with (/ e); [apply Rinv_0_lt_compat; exact He|]; rewrite (Rmult_comm e), Rmult_assoc, Rinv_r, Rmult_1_r by lra; fold (K / e); lra). nra.
Qed.
Lemma path_fades v : fades (fun y => path_velocity y v).
Proof.
  intros X HX. unfold path_velocity. induction v as [|s v IH]; cbn [map]; [rewrite <- vsum_nil; apply vtends_const|].
  replace vzero with (vadd vzero vzero) by vring. eapply vtends_ext; [intros n; apply vsum_cons|]. apply vtends_add; [apply (line_fades _ _ 1 0 0 X HX) | exact IH].
Qed.

Section Apart.
Context {T : Type} (coll normal : T -> vec) (uv : vec -> T -> vec) (ts : nat -> vec) (Hts : receding ts).
Definition carried (t : vec) (r r' : T) : Prop := coll r' = vadd (coll r) t /\ normal r' = normal r /\ forall x, uv (vadd x t) r' = uv x r.
Context (rows1 rows2 : list T) (U : nat -> list T) (HU : forall n, Forall2 (carried (ts n)) rows2 (U n)).
Context (F1 : forall r, In r rows1 -> fades (fun x => uv x r)) (F2 : forall r, In r rows2 -> fades (fun x => uv x r)).
Lemma on_far x r : In r rows1 -> vtends (fun n => uv (vadd x (ts n)) r) vzero.
Proof. intros Hr. apply (F1 r Hr (fun n => vadd x (ts n))). apply receding_shift, Hts. Qed.
Lemma on_near x r S : In r rows2 -> (forall n, carried (ts n) r (S n)) -> vtends (fun n => uv x (S n)) vzero.
Proof.
  intros Hr HS. apply (vtends_ext (fun n => uv (vsub x (ts n)) r)); [|apply (F2 r Hr (fun n => vsub x (ts n))), receding_shift, Hts].
  intros n. destruct (HS n) as (_ & _ & H). rewrite <- H. f_equal. vring.
Qed.
Lemma apart_matrix : each (each tends) (fun n => sys_matrix coll normal uv (rows1 ++ U n)) (block (sys_matrix coll normal uv rows1) (sys_matrix coll normal uv rows2)).
Proof.
  unfold sys_matrix, block. rewrite !map_map. eapply each_ext; [intros n; rewrite map_app; reflexivity|]. apply each_app.
  - refine (each_map (fun x a => In a rows1 /\ forall n : nat, x n = a) _ (fun n r => map (fun s => vdot (uv (coll r) s) (normal r)) (rows1 ++ U n)) _ _ _ _ (each_const _ _ (fun a Ha => conj Ha (fun _ => eq_refl)))).
    intros S s _ (Hs & ES). eapply each_ext; [intros n; rewrite ES, map_app; reflexivity|]. apply each_app; [apply each_const; intros; apply tends_const|]. rewrite map_length.
    replace (repeat 0 (length rows2)) with (map (fun _ : T => 0) rows2) by (clear; induction rows2; cbn; congruence).
    refine (each_follow' (fun n => carried (ts n)) tends (fun _ q => vdot (uv (coll s) q) (normal s)) (fun _ => 0) rows2 U HU _).
    intros r S' Hr HS'. replace 0 with (vdot vzero (normal s)) by (unfold vdot, vzero; cbn; ring). apply tends_dot; [apply (on_near _ r); assumption | apply vtends_const].
  - refine (each_follow' (fun n => carried (ts n)) (each tends) (fun n r => map (fun s => vdot (uv (coll r) s) (normal r)) (rows1 ++ U n)) _ rows2 U HU _). intros r S Hr HS. rewrite map_length.
    eapply each_ext; [intros n; rewrite map_app; reflexivity|]. apply each_app.
    + replace (repeat 0 (length rows1)) with (map (fun _ : T => 0) rows1) by (clear; induction rows1; cbn; congruence).
      refine (each_map (fun x a => In a rows1 /\ forall n : nat, x n = a) tends (fun n q => vdot (uv (coll (S n)) q) (normal (S n))) (fun _ => 0) _ _ _ (each_const _ _ (fun a Ha => conj Ha (fun _ => eq_refl)))).
      intros Q q _ (Hq & EQ). replace 0 with (vdot vzero (normal r)) by (unfold vdot, vzero; cbn; ring).
      apply (tends_ext (fun n => vdot (uv (vadd (coll r) (ts n)) q) (normal r))); [intros n; destruct (HS n) as (-> & -> & _); rewrite EQ; reflexivity|]. apply tends_dot; [apply on_far, Hq | apply vtends_const].
    + refine (each_follow' (fun n => carried (ts n)) tends (fun n q => vdot (uv (coll (S n)) q) (normal (S n))) (fun q => vdot (uv (coll r) q) (normal r)) rows2 U HU _).
      intros q Q Hq HQ. apply (tends_ext (fun _ => vdot (uv (coll r) q) (normal r))); [|apply tends_const]. intros n. destruct (HS n) as (-> & -> & _). destruct (HQ n) as (_ & _ & ->). reflexivity.
Qed.
Lemma apart_rhs v n : sys_rhs normal (rows1 ++ U n) v = sys_rhs normal rows1 v ++ sys_rhs normal rows2 v.
Proof.
  unfold sys_rhs. rewrite map_app. apply f_equal. generalize (HU n). generalize (U n) as m. generalize rows2 as l. clear. intros l m H. induction H as [|a b l m (_ & E & _) H IH]; cbn [map]; [reflexivity|]. rewrite E, IH. reflexivity.
Qed.
Lemma apart_solve solve v g1 g2 : SolveSpec solve -> solve (sys_matrix coll normal uv rows1) (sys_rhs normal rows1 v) = Ok g1 -> solve (sys_matrix coll normal uv rows2) (sys_rhs normal rows2 v) = Ok g2 ->
  exists G N, (forall n, (N <= n)%nat -> solve (sys_matrix coll normal uv (rows1 ++ U n)) (sys_rhs normal (rows1 ++ U n) v) = Ok (G n)) /\ each tends G (g1 ++ g2).
Proof.
  intros HS E1 E2. pose proof (block_solve solve _ _ _ _ _ _ HS (sys_square _ _ _ _) (sys_square _ _ _ _) (sys_lengths _ _ _ _ _) (sys_lengths _ _ _ _ _) E1 E2) as E.
  refine (solve_settles solve (fun n => sys_matrix coll normal uv (rows1 ++ U n)) _ (fun n => sys_rhs normal (rows1 ++ U n) v) _ HS _ _ apart_matrix _ _ E).
  - apply block_square; apply sys_square.
  - rewrite app_length, block_length. unfold sys_rhs, sys_matrix. rewrite !map_length. reflexivity.
  - eapply each_ext; [intros n; apply apart_rhs|]. apply each_const. intros; apply tends_const.
Qed.
Lemma combine_vanishes (S : nat -> list vec) (G : nat -> list R) l g : each (fun x v => v = vzero /\ vtends x vzero) S l -> each tends G g ->
  vtends (fun n => vsum (map2 (fun x k => vscale k x) (S n) (G n))) vzero.
Proof.
  intros H. revert G g. induction H as [S E|S x v a m E (-> & Hx) H IH]; intros G g HG.
  - apply (vtends_ext (fun _ => vzero)); [|apply vtends_const]. intros n. rewrite E. apply vsum_nil.
  - destruct HG as [G EG|G k K b g' EG Hk HG].
    + apply (vtends_ext (fun _ => vzero)); [|apply vtends_const]. intros n. rewrite E, EG. apply vsum_nil.
    + apply (vtends_ext (fun n => vadd (vscale (k n) (x n)) (vsum (map2 (fun x k => vscale k x) (v n) (K n))))); [intros n; rewrite E, EG; apply vsum_cons|].
      replace vzero with (vadd (vscale b vzero) vzero) by vring. apply vtends_add; [apply vtends_scale; assumption | apply (IH _ _ HG)].
Qed.
Lemma velocity_form rows gs v x : sys_velocity uv rows gs v x = vadd (vsum (map2 (fun y k => vscale k y) (map (uv x) rows) gs)) v.
Proof. unfold sys_velocity. f_equal. f_equal. revert gs. induction rows as [|r rows IH]; intros [|g gs]; cbn; try reflexivity. f_equal. apply IH. Qed.
Lemma velocity_split r1 r2 gs1 gs2 v x : length gs1 = length r1 ->
  sys_velocity uv (r1 ++ r2) (gs1 ++ gs2) v x = vadd (vsum (map2 (fun y k => vscale k y) (map (uv x) r1) gs1)) (sys_velocity uv r2 gs2 v x).
Proof. intros L. rewrite !velocity_form, map_app, map2_app2, vsum_app by (rewrite map_length; congruence). rewrite vadd_assoc. reflexivity. Qed.
Lemma apart_near G1 g1 G2 g2 v x : length g1 = length rows1 -> each tends G1 g1 -> each tends G2 g2 ->
  vtends (fun n => sys_velocity uv (rows1 ++ U n) (G1 n ++ G2 n) v x) (sys_velocity uv rows1 g1 v x).
Proof.
  intros L H1 H2. apply (vtends_ext (fun n => vadd (vsum (map2 (fun y k => vscale k y) (map (uv x) (U n)) (G2 n))) (sys_velocity uv rows1 (G1 n) v x))).
  - intros n. rewrite velocity_split by (rewrite (each_length _ _ _ H1); exact L). rewrite !velocity_form. vring.
  - replace (sys_velocity uv rows1 g1 v x) with (vadd vzero (sys_velocity uv rows1 g1 v x)) by vring. apply vtends_add.
    + refine (combine_vanishes _ _ (map (fun _ => vzero) rows2) g2 _ H2). refine (each_follow' (fun n => carried (ts n)) _ (fun _ => uv x) (fun _ => vzero) rows2 U HU _).
      intros r S Hr HS. split; [reflexivity | apply (on_near x r); assumption].
    + rewrite velocity_form. eapply vtends_ext; [intros n; apply velocity_form|]. apply vtends_add; [|apply vtends_const]. apply vtends_vsum.
      refine (each_map2 vtends tends vtends (fun _ y k => vscale k y) (fun y k => vscale k y) (fun _ => map (uv x) rows1) _ G1 _ _ (each_const _ _ (fun _ _ => vtends_const _)) H1). intros A a K k _ _ HA HK. apply vtends_scale; assumption.
Qed.
Lemma apart_far G1 g1 G2 g2 v x : length g1 = length rows1 -> each tends G1 g1 -> each tends G2 g2 ->
  vtends (fun n => sys_velocity uv (rows1 ++ U n) (G1 n ++ G2 n) v (vadd x (ts n))) (sys_velocity uv rows2 g2 v x).
Proof.
  intros L H1 H2. apply (vtends_ext (fun n => vadd (vsum (map2 (fun y k => vscale k y) (map (uv (vadd x (ts n))) rows1) (G1 n))) (sys_velocity uv (U n) (G2 n) v (vadd x (ts n))))).
  - intros n. apply velocity_split. rewrite (each_length _ _ _ H1). exact L.
  - replace (sys_velocity uv rows2 g2 v x) with (vadd vzero (sys_velocity uv rows2 g2 v x)) by vring. apply vtends_add.
    + refine (combine_vanishes _ _ (map (fun _ => vzero) rows1) g1 _ H1).
      refine (each_map (fun x a => In a rows1 /\ forall n : nat, x n = a) _ (fun n => uv (vadd x (ts n))) (fun _ => vzero) _ _ _ (each_const _ _ (fun a Ha => conj Ha (fun _ => eq_refl)))).
      intros Q q _ (Hq & EQ). split; [reflexivity|]. apply (vtends_ext (fun n => uv (vadd x (ts n)) q)); [intros n; rewrite EQ; reflexivity | apply on_far, Hq].
    + rewrite velocity_form. eapply vtends_ext; [intros n; apply velocity_form|]. apply vtends_add; [|apply vtends_const]. apply vtends_vsum.
      refine (each_map2 vtends tends vtends (fun _ y k => vscale k y) (fun y k => vscale k y) (fun n => map (uv (vadd x (ts n))) (U n)) _ G2 _ _ _ H2); [intros A a K k _ _ HA HK; apply vtends_scale; assumption|].
      refine (each_follow' (fun n => carried (ts n)) vtends (fun n => uv (vadd x (ts n))) (uv x) rows2 U HU _). intros r S _ HS. apply (vtends_ext (fun _ => uv x r)); [|apply vtends_const]. intros n. apply (HS n).
Qed.
End Apart.
