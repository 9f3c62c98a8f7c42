(** Trailing edges of sections and areas of wings. *)
From Coq Require Import Lra Lia.
From Verif Require Import M_Geometry S_Geometry L_Base L_Functions L_Meshing L_Geometry.

Lemma section_trailing_edge s v : cs_wing_unit_chordwise s = Some v -> vnorm v = 1 -> vnorm (cs_unit_normal s) = 1 -> vdot (cs_unit_normal s) v = 0 ->
  exists te, cs_trailing_edge s = Ok te /\ vnorm (vsub te (cs_leading_edge s)) = Rabs (cs_chord s) /\
    vdot (vsub te (cs_leading_edge s)) (cs_unit_normal s) = 0 /\
    vdot (vsub te (cs_leading_edge s)) v = cs_chord s * cos (cs_twist s * PI / 180) /\
    vdot (vsub te (cs_leading_edge s)) (vcross (cs_unit_normal s) v) = cs_chord s * sin (cs_twist s * PI / 180).
Proof.
  intros Ev Hv Hn Hp. unfold cs_trailing_edge, cs_unit_chordwise. rewrite Ev. cbn [bind]. eexists. split; [reflexivity|].
  assert (HZ : cs_unit_normal s <> vzero) by (intros E; rewrite E, vnorm_zero in Hn; lra).
  set (n := cs_unit_normal s) in *. set (a := cs_twist s * PI / 180). set (c := cs_chord s).
  assert (E : vsub (vadd (cs_leading_edge s) (vscale c (mvmul (angle_axis_rotation_matrix a n false) v))) (cs_leading_edge s) =
              vscale c (vadd (vscale (cos a) v) (vscale (sin a) (vcross n v)))).
  { rewrite (rotation_turns a n false v HZ ltac:(discriminate) Hp), Hn. replace (sin a / 1) with (sin a) by field. vring. }
  rewrite E. apply vnorm_1_dot in Hv, Hn.
  assert (D1 : vdot v (vcross n v) = 0) by (vunfold; ring). assert (D2 : vdot n (vcross n v) = 0) by (vunfold; ring).
  assert (D3 : vdot (vcross n v) (vcross n v) = 1).
  { replace (vdot (vcross n v) (vcross n v)) with (vdot n n * vdot v v - vdot n v * vdot n v) by (vunfold; ring). rewrite Hv, Hn, Hp. ring. }
  pose proof (sin2_cos2 a) as SC. unfold Rsqr in SC. split; [|split; [|split]].
  - rewrite vnorm_scale. replace (vnorm _) with 1; [ring|]. symmetry. apply vdot_1_norm.
    rewrite !vdot_add_l, !vdot_add_r, !vdot_scale_l, !vdot_scale_r, (vdot_comm (vcross n v) v), D1, D3, Hv. lra.
  - rewrite vdot_scale_l, vdot_add_l, !vdot_scale_l, (vdot_comm v n), (vdot_comm (vcross n v) n), Hp, D2. ring.
  - rewrite vdot_scale_l, vdot_add_l, !vdot_scale_l, (vdot_comm (vcross n v) v), D1, Hv. ring.
  - rewrite vdot_scale_l, vdot_add_l, !vdot_scale_l, D1, D3. ring.
Qed.
Lemma wetted_area_sum w : w_wetted_area w =
  rsum (map (fun row => rsum (map (fun p => vnorm (vcross (vsub (p_front_right p) (p_back_left p)) (vsub (p_front_left p) (p_back_right p))) / 2) row)) (w_panels w)).
Proof.
  unfold w_wetted_area, ravel. induction (w_panels w) as [|row rows IH]; [reflexivity|]. cbn [concat map]. rewrite rsum_cons, map_app, rsum_app, IH. reflexivity.
Qed.
