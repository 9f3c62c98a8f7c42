(** Orthogonal maps and the cross product. *)
From Verif Require Export L_Functions M_OperatingPoint.

Definition orthogonal (m : mat) : Prop := forall u v, vdot (mvmul m u) (mvmul m v) = vdot u v.

Lemma proper_orthogonal m : proper_rotation m -> orthogonal m.
Proof. intros [H _]; exact H. Qed.
Lemma orthogonal_norm m u : orthogonal m -> vnorm (mvmul m u) = vnorm u.
Proof. intros H; unfold vnorm; rewrite H; reflexivity. Qed.

Lemma orthogonal_det_sqr m : orthogonal m -> mdet m * mdet m = 1.
Proof.
  intros H.
  pose proof (H (mkvec 1 0 0) (mkvec 1 0 0)) as H00.
  pose proof (H (mkvec 0 1 0) (mkvec 0 1 0)) as H11.
  pose proof (H (mkvec 0 0 1) (mkvec 0 0 1)) as H22.
  pose proof (H (mkvec 1 0 0) (mkvec 0 1 0)) as H01.
  pose proof (H (mkvec 1 0 0) (mkvec 0 0 1)) as H02.
  pose proof (H (mkvec 0 1 0) (mkvec 0 0 1)) as H12.
  clear H. destruct m as [[a b c] [d e f] [g h i]]; vunfold.
  ring_simplify in H00; ring_simplify in H11; ring_simplify in H22.
  ring_simplify in H01; ring_simplify in H02; ring_simplify in H12.
  set (A := a ^ 2 + d ^ 2 + g ^ 2) in *. set (B := b ^ 2 + e ^ 2 + h ^ 2) in *.
  set (C := c ^ 2 + f ^ 2 + i ^ 2) in *. set (D := a * b + d * e + g * h) in *.
  set (E := a * c + d * f + g * i) in *. set (F := b * c + e * f + h * i) in *.
  transitivity (A * B * C + 2 * D * E * F - A * F * F - B * E * E - C * D * D).
  - unfold A, B, C, D, E, F; ring.
  - rewrite H00, H11, H22, H01, H02, H12; ring.
Qed.

Lemma mtrans_injective_0 m d : mdet m <> 0 -> mvmul (mtrans m) d = vzero -> d = vzero.
Proof.
  intros Hd H. 
  assert (Ex : vx d * mdet m = 0).
  { transitivity (vdot (mvmul (mtrans m) d) (vcross (r1 m) (r2 m))); [vring|rewrite H; vring]. }
  assert (Ey : vy d * mdet m = 0).
  { transitivity (vdot (mvmul (mtrans m) d) (vcross (r2 m) (r0 m))); [vring|rewrite H; vring]. }
  assert (Ez : vz d * mdet m = 0).
  { transitivity (vdot (mvmul (mtrans m) d) (vcross (r0 m) (r1 m))); [vring|rewrite H; vring]. }
  apply vec_ext; cbn.
  - destruct (Rmult_integral _ _ Ex); [assumption|contradiction].
  - destruct (Rmult_integral _ _ Ey); [assumption|contradiction].
  - destruct (Rmult_integral _ _ Ez); [assumption|contradiction].
Qed.

Lemma orthogonal_det_neq m : orthogonal m -> mdet m <> 0.
Proof. intros H E. pose proof (orthogonal_det_sqr m H) as H1. rewrite E in H1; lra. Qed.

Lemma orthogonal_cross m u v : orthogonal m ->
  vcross (mvmul m u) (mvmul m v) = vscale (mdet m) (mvmul m (vcross u v)).
Proof.
  intros Ho.
  set (d := vsub (vcross (mvmul m u) (mvmul m v)) (vscale (mdet m) (mvmul m (vcross u v)))).
  assert (Hw : forall w, vdot d (mvmul m w) = 0).
  { intros w. unfold d. rewrite vdot_sub_l, vdot_scale_l, Ho.
    enough (vdot (vcross (mvmul m u) (mvmul m v)) (mvmul m w) = mdet m * vdot (vcross u v) w) by lra.
    vring. }
  assert (Hd : d = vzero).
  { apply (mtrans_injective_0 m); [apply orthogonal_det_neq, Ho|].
    apply vdot_self_zero. rewrite vdot_mtrans. apply Hw. }
  unfold d in Hd. set (x := vcross _ _) in *. set (y := vscale _ _) in *. clearbody x y.
  destruct x, y; vunfold. injection Hd as ? ? ?. apply vec_ext; cbn; lra.
Qed.

Lemma proper_cross m u v : proper_rotation m ->
  vcross (mvmul m u) (mvmul m v) = mvmul m (vcross u v).
Proof.
  intros [Ho Hd]. rewrite (orthogonal_cross m u v Ho), Hd, vscale_1_l; reflexivity.
Qed.

(** m^T m = 1 and m m^T = 1 as actions *)
Lemma orthogonal_trans_l m v : orthogonal m -> mvmul (mtrans m) (mvmul m v) = v.
Proof.
  intros H. set (d := vsub (mvmul (mtrans m) (mvmul m v)) v).
  assert (Hd : d = vzero).
  { apply vdot_self_zero. unfold d at 1. rewrite vdot_sub_l, vdot_mtrans, H; ring. }
  unfold d in Hd. set (x := mvmul _ _) in *. clearbody x.
  destruct x, v; vunfold. injection Hd as ? ? ?. apply vec_ext; cbn; lra.
Qed.
Lemma orthogonal_trans_r m v : orthogonal m -> mvmul m (mvmul (mtrans m) v) = v.
Proof.
  intros H. set (d := vsub (mvmul m (mvmul (mtrans m) v)) v).
  assert (Hd : d = vzero).
  { apply (mtrans_injective_0 m); [apply orthogonal_det_neq, H|].
    unfold d; rewrite mvmul_sub, orthogonal_trans_l by exact H. apply vsub_self. }
  unfold d in Hd. set (x := mvmul _ _) in *. clearbody x.
  destruct x, v; vunfold. injection Hd as ? ? ?. apply vec_ext; cbn; lra.
Qed.
Lemma orthogonal_trans m : orthogonal m -> orthogonal (mtrans m).
Proof.
  intros H u v. rewrite vdot_mtrans, orthogonal_trans_r by exact H; reflexivity.
Qed.
Lemma mdet_trans m : mdet (mtrans m) = mdet m. Proof. vring. Qed.
Lemma proper_trans m : proper_rotation m -> proper_rotation (mtrans m).
Proof.
  intros [H Hd]; split; [apply orthogonal_trans; exact H|rewrite mdet_trans; exact Hd].
Qed.

(** ** operating point *)
Lemma w2g_explicit op :
  let a := radians (op_alpha op) in let b := radians (op_beta op) in
  rotation_wind_to_geometry op =
  mkmat (mkvec (- (cos a * cos b)) (cos a * sin b) (sin a))
        (mkvec (sin b) (cos b) 0)
        (mkvec (- (sin a * cos b)) (sin a * sin b) (- cos a)).
Proof.
  cbn zeta. unfold rotation_wind_to_geometry. vunfold.
  apply mat_ext; cbn [r0 r1 r2]; apply vec_ext; cbn [vx vy vz]; ring.
Qed.
Lemma w2g_proper op : proper_rotation (rotation_wind_to_geometry op).
Proof.
  pose proof (sc2 (radians (op_alpha op))) as Ha. pose proof (sc2 (radians (op_beta op))) as Hb.
  split.
  - intros u v. rewrite w2g_explicit.
    set (sa := sin (radians (op_alpha op))) in *. set (ca := cos (radians (op_alpha op))) in *.
    set (sb := sin (radians (op_beta op))) in *. set (cb := cos (radians (op_beta op))) in *.
    clearbody sa ca sb cb. destruct u as [x y z], v as [x' y' z']; vunfold.
    transitivity ((sa * sa + ca * ca) * (cb * cb * x * x' + sb * sb * y * y' - sb * cb * (x * y' + y * x'))
                  + (sa * sa + ca * ca) * z * z'
                  + (sb * sb * x * x' + cb * cb * y * y' + sb * cb * (x * y' + y * x'))); [ring|].
    rewrite Ha.
    transitivity ((sb * sb + cb * cb) * x * x' + (sb * sb + cb * cb) * y * y' + z * z'); [ring|].
    rewrite Hb; ring.
  - rewrite w2g_explicit.
    set (sa := sin (radians (op_alpha op))) in *. set (ca := cos (radians (op_alpha op))) in *.
    set (sb := sin (radians (op_beta op))) in *. set (cb := cos (radians (op_beta op))) in *.
    clearbody sa ca sb cb. vunfold.
    transitivity ((sa * sa + ca * ca) * (sb * sb + cb * cb)); [ring|]. rewrite Ha, Hb; ring.
Qed.
Lemma freestream_direction_explicit op :
  let a := radians (op_alpha op) in let b := radians (op_beta op) in
  freestream_direction op = mkvec (cos a * cos b) (- sin b) (sin a * cos b).
Proof. cbn zeta. unfold freestream_direction. rewrite w2g_explicit; vunfold. apply vec_ext; cbn; ring. Qed.
Lemma freestream_direction_unit op : vnorm (freestream_direction op) = 1.
Proof.
  unfold freestream_direction.
  rewrite orthogonal_norm by apply proper_orthogonal, w2g_proper.
  apply vdot_1_norm; vunfold; ring.
Qed.
Lemma freestream_speed op : vnorm (freestream_velocity op) = Rabs (op_velocity op).
Proof. unfold freestream_velocity. rewrite vnorm_scale, freestream_direction_unit; ring. Qed.
Lemma geometry_wind_roundtrip op v :
  mvmul (rotation_wind_to_geometry op) (mvmul (mtrans (rotation_wind_to_geometry op)) v) = v /\
  mvmul (mtrans (rotation_wind_to_geometry op)) (mvmul (rotation_wind_to_geometry op) v) = v.
Proof.
  split; [apply orthogonal_trans_r | apply orthogonal_trans_l]; apply proper_orthogonal, w2g_proper.
Qed.
Lemma freestream_in_wind_axes op :
  mvmul (mtrans (rotation_wind_to_geometry op)) (freestream_velocity op)
  = mkvec (- op_velocity op) 0 0.
Proof.
  unfold freestream_velocity, freestream_direction.
  rewrite mvmul_scale, orthogonal_trans_l by (apply proper_orthogonal, w2g_proper).
  vunfold; apply vec_ext; cbn; ring.
Qed.

Lemma dynamic_pressure_explicit op :
  dynamic_pressure op = op_density op * (op_velocity op * op_velocity op) / 2.
Proof. unfold dynamic_pressure; field. Qed.
Lemma freestream_zero_angles : freestream_direction (mkop 1 10 0 0 0 0) = mkvec 1 0 0.
Proof.
  rewrite freestream_direction_explicit; cbn [op_alpha op_beta]. unfold radians.
  rewrite !Rmult_0_l, cos_0, sin_0. apply vec_ext; cbn; ring.
Qed.
Lemma freestream_direction_degrees op :
  let a := op_alpha op * PI / 180 in let b := op_beta op * PI / 180 in
  freestream_direction op = mkvec (cos a * cos b) (- sin b) (sin a * cos b).
Proof.
  intros a b. replace a with (radians (op_alpha op)) by (unfold a, radians; lra). replace b with (radians (op_beta op)) by (unfold b, radians; lra).
  apply freestream_direction_explicit.
Qed.
(** The operating point without arguments. *)
Lemma default_flow : freestream_velocity default_operating_point = mkvec (10 * cos (5 * PI / 180)) 0 (10 * sin (5 * PI / 180)) /\
  dynamic_pressure default_operating_point = 6125 / 100.
Proof.
  split; [|unfold dynamic_pressure, default_operating_point; cbn; lra]. unfold freestream_velocity. rewrite freestream_direction_degrees. cbn [op_alpha op_beta op_velocity default_operating_point].
  replace (0 * PI / 180) with 0 by lra. rewrite sin_0, cos_0. unfold vscale. cbn. f_equal; lra.
Qed.
