From Verif Require Export L_Base M_Functions S_Geometry.

Lemma sc2 a : sin a * sin a + cos a * cos a = 1.
Proof. pose proof (sin2_cos2 a) as H; unfold Rsqr in H; exact H. Qed.

Lemma rodrigues_action a u v :
  mvmul (rodrigues a u) v =
  vadd (vadd (vscale (cos a) v) (vscale (sin a) (vcross u v)))
       (vscale ((1 - cos a) * vdot u v) u).
Proof. unfold rodrigues; vring. Qed.

Lemma rodrigues_dot a u x y : vdot u u = 1 ->
  vdot (mvmul (rodrigues a u) x) (mvmul (rodrigues a u) y) = vdot x y.
Proof.
  intros Hu. rewrite !rodrigues_action. pose proof (sc2 a) as Hsc.
  set (s := sin a) in *; set (c := cos a) in *; clearbody s c.
  assert (Hd : vdot (vadd (vadd (vscale c x) (vscale s (vcross u x))) (vscale ((1 - c) * vdot u x) u))
                    (vadd (vadd (vscale c y) (vscale s (vcross u y))) (vscale ((1 - c) * vdot u y) u))
               = c * c * vdot x y + s * s * (vdot u u * vdot x y - vdot u x * vdot u y)
                 + c * (1 - c) * (2 * vdot u x * vdot u y)
                 + (1 - c) * (1 - c) * vdot u x * vdot u y * vdot u u) by vring.
  rewrite Hd, Hu. replace (s * s) with (1 - c * c) by lra. ring.
Qed.

Lemma rodrigues_det a u : vdot u u = 1 -> mdet (rodrigues a u) = 1.
Proof.
  intros Hu. pose proof (sc2 a) as Hsc. unfold rodrigues.
  set (s := sin a) in *; set (c := cos a) in *; clearbody s c.
  destruct u as [x y z]; vunfold.
  transitivity (c ^ 3 + c ^ 2 * (1 - c) * (x * x + y * y + z * z)
                + c * s ^ 2 * (x * x + y * y + z * z)
                + s ^ 2 * (1 - c) * (x * x + y * y + z * z) ^ 2); [ring|].
  rewrite Hu. replace (s ^ 2) with (1 - c ^ 2) by nra. ring.
Qed.

Lemma rodrigues_axis a u : vdot u u = 1 -> mvmul (rodrigues a u) u = u.
Proof. intros Hu; rewrite rodrigues_action, vcross_self, Hu; vring. Qed.

Lemma rodrigues_compose a b u : vdot u u = 1 ->
  mmul (rodrigues a u) (rodrigues b u) = rodrigues (a + b) u.
Proof.
  intros Hu.
  assert (H : forall v, mvmul (mmul (rodrigues a u) (rodrigues b u)) v = mvmul (rodrigues (a + b) u) v).
  { intros v. rewrite mvmul_mmul, !rodrigues_action, sin_plus, cos_plus.
    set (sa := sin a); set (ca := cos a); set (sb := sin b); set (cb := cos b).
    assert (Hz : vdot u (vadd (vadd (vscale cb v) (vscale sb (vcross u v))) (vscale ((1 - cb) * vdot u v) u)) = vdot u v).
    { transitivity (cb * vdot u v + (1 - cb) * vdot u v * vdot u u); [vring|rewrite Hu; ring]. }
    rewrite Hz.
    assert (Hcc : vcross u (vcross u v) = vsub (vscale (vdot u v) u) (vscale (vdot u u) v)) by vring.
    rewrite !vcross_add_r, !vcross_scale_r, vcross_self, Hcc, Hu. vring. }
  assert (E : forall m n : mat, (forall v, mvmul m v = mvmul n v) -> m = n).
  { clear. intros m n H.
    pose proof (H (mkvec 1 0 0)) as H0; pose proof (H (mkvec 0 1 0)) as H1; pose proof (H (mkvec 0 0 1)) as H2.
    vdestruct; vunfold. injection H0 as ? ? ?; injection H1 as ? ? ?; injection H2 as ? ? ?.
    apply mat_ext; cbn; apply vec_ext; cbn; lra. }
  apply E, H.
Qed.

Lemma rodrigues_0 u : rodrigues 0 u = mid.
Proof. unfold rodrigues; rewrite sin_0, cos_0; mring. Qed.

Lemma rodrigues_neg a u : rodrigues (- a) u = mtrans (rodrigues a u).
Proof. unfold rodrigues; rewrite sin_neg, cos_neg; mring. Qed.

(** the axis actually used *)
Definition unit_axis (axis : vec) (b : bool) : vec := if b then axis else vdiv axis (vnorm axis).
Lemma unit_axis_unit axis b :
  axis <> vzero -> (b = true -> vnorm axis = 1) -> vdot (unit_axis axis b) (unit_axis axis b) = 1.
Proof.
  intros H Hb; apply vnorm_1_dot; unfold unit_axis; destruct b; [apply Hb; reflexivity|].
  apply vnorm_unit, H.
Qed.
Lemma aarm a axis b : angle_axis_rotation_matrix a axis b = rodrigues a (unit_axis axis b).
Proof. reflexivity. Qed.

Lemma rotation_is_proper a axis b :
  axis <> vzero -> (b = true -> vnorm axis = 1) ->
  proper_rotation (angle_axis_rotation_matrix a axis b).
Proof.
  intros H Hb; rewrite aarm; split.
  - intros u v; apply rodrigues_dot, unit_axis_unit; assumption.
  - apply rodrigues_det, unit_axis_unit; assumption.
Qed.
Lemma rotation_fixes_axis a axis b :
  axis <> vzero -> (b = true -> vnorm axis = 1) ->
  forall k, mvmul (angle_axis_rotation_matrix a axis b) (vscale k axis) = vscale k axis.
Proof.
  intros H Hb k. rewrite aarm, mvmul_scale; f_equal.
  pose proof (unit_axis_unit axis b H Hb) as Hu.
  destruct b; cbn [unit_axis] in *; [apply rodrigues_axis; exact Hu|].
  assert (E : axis = vscale (vnorm axis) (vdiv axis (vnorm axis))).
  { pose proof (vnorm_neq_0 axis H). generalize dependent (vnorm axis). intros n _ Hn. vfield; auto. }
  set (m := rodrigues a (vdiv axis (vnorm axis))).
  transitivity (mvmul m (vscale (vnorm axis) (vdiv axis (vnorm axis)))); [f_equal; exact E|].
  rewrite mvmul_scale; unfold m; rewrite rodrigues_axis by exact Hu. symmetry; exact E.
Qed.
Lemma rotation_turns a axis b v :
  axis <> vzero -> (b = true -> vnorm axis = 1) -> vdot axis v = 0 ->
  mvmul (angle_axis_rotation_matrix a axis b) v =
  vadd (vscale (cos a) v) (vscale (sin a / vnorm axis) (vcross axis v)).
Proof.
  intros H Hb Hv. rewrite aarm, rodrigues_action.
  pose proof (vnorm_neq_0 axis H) as Hn.
  destruct b; cbn [unit_axis].
  - rewrite Hv, (Hb eq_refl), Rmult_0_r, vscale_0_l, vadd_0_r. do 2 f_equal; field.
  - assert (E : vdot (vdiv axis (vnorm axis)) v = 0).
    { rewrite vdiv_scale, vdot_scale_l, Hv; ring. }
    rewrite E, Rmult_0_r, vscale_0_l, vadd_0_r. f_equal.
    rewrite vdiv_scale, vcross_scale_l, vscale_scale; reflexivity.
Qed.
Lemma rotation_inverse a axis b v :
  axis <> vzero -> (b = true -> vnorm axis = 1) ->
  mvmul (angle_axis_rotation_matrix (- a) axis b) (mvmul (angle_axis_rotation_matrix a axis b) v) = v.
Proof.
  intros H Hb. rewrite !aarm, <- mvmul_mmul, rodrigues_compose by (apply unit_axis_unit; assumption).
  replace (- a + a) with 0 by ring. rewrite rodrigues_0; apply mvmul_mid.
Qed.
Lemma rotation_composes a1 a2 axis b v :
  axis <> vzero -> (b = true -> vnorm axis = 1) ->
  mvmul (angle_axis_rotation_matrix a1 axis b) (mvmul (angle_axis_rotation_matrix a2 axis b) v)
  = mvmul (angle_axis_rotation_matrix (a1 + a2) axis b) v.
Proof.
  intros H Hb. rewrite !aarm, <- mvmul_mmul, rodrigues_compose by (apply unit_axis_unit; assumption).
  reflexivity.
Qed.
Lemma rotation_axis_length a axis k :
  axis <> vzero -> 0 < k ->
  angle_axis_rotation_matrix a (vscale k axis) false = angle_axis_rotation_matrix a axis false.
Proof.
  intros H Hk. unfold angle_axis_rotation_matrix. f_equal.
  rewrite vnorm_scale, Rabs_pos_eq by lra.
  pose proof (vnorm_neq_0 axis H) as Hn. generalize dependent (vnorm axis); intros n Hn.
  vfield; split; lra.
Qed.

(** ** reflection *)
Lemma reflect_is_mirror p n q :
  reflect_point_across_plane p n q = mirror n q p.
Proof. unfold reflect_point_across_plane, mirror; vring. Qed.

Lemma reflect_involution p n q : vnorm n = 1 ->
  reflect_point_across_plane (reflect_point_across_plane p n q) n q = p.
Proof.
  intros Hn; apply vnorm_1_dot in Hn. rewrite !reflect_is_mirror. unfold mirror.
  assert (E : vdot n (vsub (vsub p (vscale (2 * vdot n (vsub p q)) n)) q)
              = vdot n (vsub p q) - 2 * vdot n (vsub p q) * vdot n n) by vring.
  rewrite E, Hn. vring.
Qed.
Lemma reflect_isometry n q : vnorm n = 1 ->
  isometry (fun p => reflect_point_across_plane p n q).
Proof.
  intros Hn p r. apply vnorm_1_dot in Hn. unfold vnorm; f_equal. rewrite !reflect_is_mirror.
  unfold mirror.
  set (d := vsub p r).
  assert (E : vsub (vsub p (vscale (2 * vdot n (vsub p q)) n)) (vsub r (vscale (2 * vdot n (vsub r q)) n))
              = vsub d (vscale (2 * vdot n d) n)) by (unfold d; vring).
  rewrite E.
  transitivity (vdot d d - 4 * vdot n d * vdot n d + 4 * vdot n d * vdot n d * vdot n n); [vring|].
  rewrite Hn; ring.
Qed.
Lemma reflect_fixes_iff p n q : vnorm n = 1 ->
  (reflect_point_across_plane p n q = p <-> on_plane n q p).
Proof.
  intros Hn; apply vnorm_1_dot in Hn. rewrite reflect_is_mirror; unfold mirror, on_plane. split.
  - intros H. assert (E : vdot n (vsub p (vscale (2 * vdot n (vsub p q)) n)) = vdot n p) by (rewrite H; reflexivity).
    rewrite vdot_sub_r, vdot_scale_r, Hn in E. lra.
  - intros ->. vring.
Qed.
Lemma reflect_midpoint p n q : vnorm n = 1 ->
  on_plane n q (midpoint p (reflect_point_across_plane p n q)) /\
  exists k, vsub (reflect_point_across_plane p n q) p = vscale k n.
Proof.
  intros Hn; apply vnorm_1_dot in Hn. rewrite reflect_is_mirror; unfold mirror, on_plane, midpoint. split.
  - transitivity (vdot n (vsub p q) - vdot n (vsub p q) * vdot n n); [|rewrite Hn; ring].
    vfield.
  - exists (- (2 * vdot n (vsub p q))). vring.
Qed.

(** ** cosspace *)
Lemma cosspace_length a b n e : length (cosspace a b n e) = n.
Proof.
  unfold cosspace; rewrite map_length; destruct e; [apply linspace_length|].
  unfold linspace_open; rewrite map_length, seq_length; reflexivity.
Qed.
Lemma cosspace_nth a b n i : (i < n)%nat ->
  nth_error (cosspace a b n true) i =
  Some ((b + a) / 2 + (b - a) / 2 * cos (PI + INR i * ((0 - PI) / INR (n - 1)))).
Proof.
  intros H. unfold cosspace, linspace. rewrite !nth_error_map, nth_error_seq0.
  destruct (Nat.ltb_spec i n); [reflexivity|lia].
Qed.
Lemma cosspace_open_nth a b n i : (i < n)%nat ->
  nth_error (cosspace a b n false) i =
  Some ((b + a) / 2 + (b - a) / 2 * cos (PI + INR i * ((0 - PI) / INR n))).
Proof.
  intros H. unfold cosspace, linspace_open. rewrite !nth_error_map, nth_error_seq0.
  destruct (Nat.ltb_spec i n); [reflexivity|lia].
Qed.
Lemma cosspace_first a b n e : (1 <= n)%nat -> nth_error (cosspace a b n e) 0 = Some a.
Proof.
  intros H. destruct e; [rewrite cosspace_nth by lia | rewrite cosspace_open_nth by lia];
  f_equal; cbn [INR]; rewrite Rmult_0_l, Rplus_0_r, cos_PI; field.
Qed.
Lemma cosspace_last a b n : (2 <= n)%nat -> nth_error (cosspace a b n true) (n - 1) = Some b.
Proof.
  intros H. rewrite cosspace_nth by lia. f_equal.
  assert (Hn : INR (n - 1) <> 0) by (apply not_0_INR; lia).
  replace (PI + INR (n - 1) * ((0 - PI) / INR (n - 1))) with 0 by (field; exact Hn).
  rewrite cos_0; field.
Qed.
Lemma frac_01 i n : (i <= n)%nat -> (0 < n)%nat -> 0 <= INR i / INR n <= 1.
Proof.
  intros H Hn. apply lt_INR in Hn; apply le_INR in H. cbn in Hn. pose proof (pos_INR i).
  split; [apply Rdiv_le_0_compat || (apply Rmult_le_pos; [lra|left; apply Rinv_0_lt_compat; lra]); lra|].
  apply Rmult_le_reg_r with (INR n); [lra|]. unfold Rdiv; rewrite Rmult_assoc, Rinv_l; lra.
Qed.
Lemma frac_lt i j n : (i < j)%nat -> (0 < n)%nat -> INR i / INR n < INR j / INR n.
Proof.
  intros H Hn. apply lt_INR in Hn; apply lt_INR in H. cbn in Hn.
  apply Rmult_lt_compat_r; [apply Rinv_0_lt_compat; lra|lra].
Qed.
Lemma cos_anti t u : 0 <= t -> t < u -> u <= 1 -> cos (PI * (1 - t)) < cos (PI * (1 - u)).
Proof.
  intros. pose proof PI_RGT_0. apply cos_decreasing_1; nra.
Qed.
Lemma cosspace_increasing a b n e : a < b -> strictly_increasing (cosspace a b n e).
Proof.
  intros Hab i j x y Hij Hx Hy.
  assert (Hj : (j < n)%nat) by (rewrite <- (cosspace_length a b n e); apply nth_error_Some; congruence).
  assert (Hmul : forall u v, u < v -> (b + a) / 2 + (b - a) / 2 * u < (b + a) / 2 + (b - a) / 2 * v)
    by (intros; nra).
  destruct e.
  - rewrite cosspace_nth in Hx, Hy by lia. injection Hx as <-; injection Hy as <-. apply Hmul.
    assert (Hn : INR (n - 1) <> 0) by (apply not_0_INR; lia).
    replace (PI + INR i * ((0 - PI) / INR (n - 1))) with (PI * (1 - INR i / INR (n - 1))) by (field; exact Hn).
    replace (PI + INR j * ((0 - PI) / INR (n - 1))) with (PI * (1 - INR j / INR (n - 1))) by (field; exact Hn).
    apply cos_anti; [apply frac_01; lia | apply frac_lt; lia | apply frac_01; lia].
  - rewrite cosspace_open_nth in Hx, Hy by lia. injection Hx as <-; injection Hy as <-. apply Hmul.
    assert (Hn : INR n <> 0) by (apply not_0_INR; lia).
    replace (PI + INR i * ((0 - PI) / INR n)) with (PI * (1 - INR i / INR n)) by (field; exact Hn).
    replace (PI + INR j * ((0 - PI) / INR n)) with (PI * (1 - INR j / INR n)) by (field; exact Hn).
    apply cos_anti; [apply frac_01; lia | apply frac_lt; lia | apply frac_01; lia].
Qed.
Lemma cosspace_symmetric a b n i x y :
  (i < n)%nat -> nth_error (cosspace a b n true) i = Some x ->
  nth_error (cosspace a b n true) (n - 1 - i) = Some y -> (2 <= n)%nat -> x + y = a + b.
Proof.
  intros Hi Hx Hy Hn. rewrite cosspace_nth in Hx, Hy by lia. injection Hx as <-; injection Hy as <-.
  assert (Hz : INR (n - 1) <> 0) by (apply not_0_INR; lia).
  rewrite (minus_INR (n - 1) i) by lia.
  replace (PI + (INR (n - 1) - INR i) * ((0 - PI) / INR (n - 1)))
    with (PI - (PI + INR i * ((0 - PI) / INR (n - 1)))) by (field; exact Hz).
  rewrite Rtrigo_facts.cos_pi_minus. field.
Qed.
Lemma cosspace_bounds a b n e x : a <= b -> In x (cosspace a b n e) -> a <= x <= b.
Proof.
  intros Hab H. unfold cosspace in H. apply in_map_iff in H as (t & <- & _).
  pose proof (COS_bound t). nra.
Qed.

(** ** interpolation *)
Lemma interp_length s e k : length s = length e -> length (interp_between_points s e k) = length s.
Proof. intros H; apply map2_length_eq, H. Qed.
Lemma interp_nth s e k i j p q t :
  nth_error s i = Some p -> nth_error e i = Some q -> nth_error k j = Some t ->
  exists row, nth_error (interp_between_points s e k) i = Some row /\
              length row = length k /\ nth_error row j = Some (along p q t).
Proof.
  intros Hp Hq Ht. unfold interp_between_points.
  exists (map (fun t => vadd p (vscale t (vsub q p))) k).
  rewrite nth_error_map2, Hp, Hq. split; [reflexivity|]. split; [apply map_length|].
  rewrite nth_error_map, Ht; cbn. f_equal. unfold along; vring.
Qed.
Lemma along_0 p q : along p q 0 = p. Proof. unfold along; vring. Qed.
Lemma along_1 p q : along p q 1 = q. Proof. unfold along; vring. Qed.
Lemma along_dist p q t : 0 <= t -> vnorm (vsub (along p q t) p) = t * vnorm (vsub q p).
Proof.
  intros Ht. replace (vsub (along p q t) p) with (vscale t (vsub q p)) by (unfold along; vring).
  rewrite vnorm_scale, Rabs_pos_eq by exact Ht; reflexivity.
Qed.
Lemma interp_row_length s e k row : In row (interp_between_points s e k) -> length row = length k.
Proof.
  intros H; apply In_nth_error in H as [i Hi]. unfold interp_between_points in Hi.
  rewrite nth_error_map2 in Hi. destruct (nth_error s i), (nth_error e i); try discriminate.
  injection Hi as <-; apply map_length.
Qed.

(** ** logging level *)
Lemma logging_level_iff name v :
  convert_logging_level_name_to_value name = Ok v <->
  In (name, v) [("Debug", 10%Z); ("Info", 20%Z); ("Warning", 30%Z); ("Error", 40%Z); ("Critical", 50%Z)]%string.
Proof.
  unfold convert_logging_level_name_to_value. cbn [In].
  repeat match goal with
  | |- context [String.eqb name ?s] => destruct (String.eqb_spec name s) as [->|?]
  end; split; intros H;
  repeat match goal with
         | H : _ \/ _ |- _ => destruct H
         | H : Ok _ = Ok _ |- _ => injection H as <-
         | H : (_, _) = (_, _) |- _ => injection H as ? ?; subst
         | H : Err _ = Ok _ |- _ => discriminate
         | H : False |- _ => contradiction
         end; auto 6; try congruence.
Qed.
Lemma logging_level_rejects name :
  ~ In name ["Debug"; "Info"; "Warning"; "Error"; "Critical"]%string <->
  convert_logging_level_name_to_value name = Err EBadLoggingLevel.
Proof.
  unfold convert_logging_level_name_to_value. cbn [In].
  repeat match goal with
  | |- context [String.eqb name ?s] => destruct (String.eqb_spec name s) as [->|?]
  end; split; intros H; try discriminate; try reflexivity; try (exfalso; apply H; auto 6; fail).
  intros Hin; repeat destruct Hin as [Hin|Hin]; congruence.
Qed.

(** ** streamlines *)
Lemma streamline_rows_length V dt n row : length (streamline_rows V dt n row) = n.
Proof. revert row; induction n as [|n IH]; intros row; cbn; auto. Qed.
Lemma streamlines_length V seeds n dt : length (calculate_streamlines V seeds n dt) = S n.
Proof. cbn; f_equal; apply streamline_rows_length. Qed.
Lemma streamlines_step V seeds n dt i row next :
  nth_error (calculate_streamlines V seeds n dt) i = Some row ->
  nth_error (calculate_streamlines V seeds n dt) (S i) = Some next ->
  next = map2 (fun p v => vadd p (vscale dt v)) row (V row).
Proof.
  unfold calculate_streamlines. revert n i row next.
  generalize seeds as r; intros r n; revert r; induction n as [|n IH]; intros r i row next H1 H2.
  - cbn in H2; destruct i; discriminate.
  - destruct i as [|i].
    + cbn in H1, H2. injection H1 as <-; injection H2 as <-; reflexivity.
    + cbn [streamline_rows] in H1, H2. cbn in H1, H2.
      eapply IH; [exact H1|]. exact H2.
Qed.
Lemma streamlines_row_length V seeds n dt row :
  (forall l, length (V l) = length l) ->
  In row (calculate_streamlines V seeds n dt) -> length row = length seeds.
Proof.
  intros HV [<-|H]; [reflexivity|].
  revert seeds H; induction n as [|n IH]; intros seeds H; cbn in H; [contradiction|].
  assert (E : length (map2 (fun p v => vadd p (vscale dt v)) seeds (V seeds)) = length seeds)
    by (apply map2_length_eq; symmetry; apply HV).
  destruct H as [<-|H]; [exact E|]. rewrite <- E. apply IH; exact H.
Qed.
(** A pointwise velocity field moves each seed on its own. *)
Lemma streamline_rows_column f dt n seeds j p :
  nth_error seeds j = Some p ->
  map (fun row => nth_error row j) (streamline_rows (map f) dt n seeds) =
  map (fun row => nth_error row 0) (streamline_rows (map f) dt n [p]).
Proof.
  revert seeds p; induction n as [|n IH]; intros seeds p H; cbn; [reflexivity|].
  f_equal.
  - rewrite nth_error_map2, nth_error_map, H; reflexivity.
  - apply (IH _ (vadd p (vscale dt (f p)))).
    rewrite nth_error_map2, nth_error_map, H; reflexivity.
Qed.
Lemma streamlines_independent f dt n seeds j p :
  nth_error seeds j = Some p ->
  map (fun row => nth_error row j) (calculate_streamlines (map f) seeds n dt) =
  map (fun row => nth_error row 0) (calculate_streamlines (map f) [p] n dt).
Proof.
  intros H; unfold calculate_streamlines; cbn [map]; f_equal; [rewrite H; reflexivity|].
  apply streamline_rows_column; exact H.
Qed.

Lemma interp_shape s e k : length s = length e ->
  length (interp_between_points s e k) = length s /\
  (forall row, In row (interp_between_points s e k) -> length row = length k).
Proof. intros H; split; [apply interp_length; exact H | apply interp_row_length]. Qed.
Lemma along_meaning p q t :
  along p q 0 = p /\ along p q 1 = q /\
  (0 <= t -> vnorm (vsub (along p q t) p) = t * vnorm (vsub q p)).
Proof. split; [apply along_0 | split; [apply along_1 | apply along_dist]]. Qed.
Lemma logging_level_injective name name' v :
  convert_logging_level_name_to_value name = Ok v ->
  convert_logging_level_name_to_value name' = Ok v -> name = name'.
Proof.
  rewrite !logging_level_iff. cbn [In].
  intros [H|[H|[H|[H|[H|[]]]]]] [H'|[H'|[H'|[H'|[H'|[]]]]]]; congruence.
Qed.
Lemma streamlines_rows V seeds n dt :
  length (calculate_streamlines V seeds n dt) = S n /\
  nth_error (calculate_streamlines V seeds n dt) 0 = Some seeds /\
  ((forall l, length (V l) = length l) ->
   forall row, In row (calculate_streamlines V seeds n dt) -> length row = length seeds).
Proof.
  split; [apply streamlines_length | split; [reflexivity|]].
  intros H row; apply streamlines_row_length; exact H.
Qed.
