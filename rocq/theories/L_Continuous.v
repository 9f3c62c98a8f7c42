(** Limits of induced velocities and of what the steady solvers compute. *)
From Coq Require Import List Lia Lra Reals.
From Verif Require Import M_Loads M_Horseshoe S_Geometry S_Solve S_Mirror S_Solvable S_Size S_Continuous
  L_Base L_Rotations L_Loads L_Aero L_Horseshoe L_Mirror L_MirrorHorseshoe L_Solvable L_Size L_SizeSolvers L_Limits.
Import ListNotations.
Local Open Scope R_scope.

(** ** The flow *)
Definition mtends (u : nat -> mat) (m : mat) : Prop := vtends (fun n => r0 (u n)) (r0 m) /\ vtends (fun n => r1 (u n)) (r1 m) /\ vtends (fun n => r2 (u n)) (r2 m).
Lemma vtends_mvmul u m f c : mtends u m -> vtends f c -> vtends (fun n => mvmul (u n) (f n)) (mvmul m c).
Proof. intros (H0 & H1 & H2) H. unfold mvmul. repeat split; cbn [vx vy vz]; apply tends_dot; assumption. Qed.
Lemma mtends_trans u m : mtends u m -> mtends (fun n => mtrans (u n)) (mtrans m).
Proof. intros ((A & B & C) & (D & E & F) & (G & H & I)). unfold mtrans. repeat split; cbn [r0 r1 r2 vx vy vz]; assumption. Qed.
Lemma mtends_mul u m v k : mtends u m -> mtends v k -> mtends (fun n => mmul (u n) (v n)) (mmul m k).
Proof. intros H (B0 & B1 & B2). unfold mmul. cbv zeta. destruct H as (A0 & A1 & A2). repeat split; cbn [r0 r1 r2]; apply vtends_mvmul; try assumption; apply mtends_trans; repeat split; first [apply B0 | apply B1 | apply B2]. Qed.
Lemma mtends_const m : mtends (fun _ => m) m.
Proof. repeat split; apply tends_const. Qed.
Lemma op_rotation u op : approaching_op u op -> mtends (fun n => rotation_wind_to_geometry (u n)) (rotation_wind_to_geometry op).
Proof.
  intros (_ & _ & Ha & Hb). unfold rotation_wind_to_geometry, radians. cbv zeta. repeat apply mtends_mul; try apply mtends_const; repeat split; cbn [r0 r1 r2 vx vy vz]; lim.
Qed.
Lemma op_direction u op : approaching_op u op -> vtends (fun n => freestream_direction (u n)) (freestream_direction op).
Proof. intros H. apply vtends_mvmul; [apply op_rotation, H | apply vtends_const]. Qed.
Lemma op_stream u op : approaching_op u op -> vtends (fun n => freestream_velocity (u n)) (freestream_velocity op).
Proof. intros H. apply vtends_scale; [apply H | apply op_direction, H]. Qed.
Lemma op_pressure u op : approaching_op u op -> tends (fun n => dynamic_pressure (u n)) (dynamic_pressure op).
Proof. intros (H1 & H2 & _). unfold dynamic_pressure. lim. Qed.

(** ** Panels *)
Ltac vl := repeat first [assumption | apply vtends_const | apply vtends_add | apply vtends_sub | apply vtends_cross | apply vtends_opp | apply vtends_scale; [first [apply tends_const | lim] |]].
Lemma norm_positive v : v <> vzero -> 0 < vnorm v.
Proof.
  intros H. destruct (Rle_lt_or_eq_dec 0 (vnorm v) (sqrt_pos _)) as [G|G]; [exact G|]. exfalso. apply H. symmetry in G. unfold vnorm in G. apply sqrt_eq_0 in G; [|unfold vdot; nra].
  destruct v as [a b c]. unfold vdot in G. cbn in G. assert (a = 0 /\ b = 0 /\ c = 0) as (-> & -> & ->) by (repeat split; nra). reflexivity.
Qed.
Lemma panel_points u p : approaching_panel u p ->
  vtends (fun n => p_front_left_vortex_vertex (u n)) (p_front_left_vortex_vertex p) /\
  vtends (fun n => p_front_right_vortex_vertex (u n)) (p_front_right_vortex_vertex p) /\
  vtends (fun n => p_collocation_point (u n)) (p_collocation_point p) /\
  vtends (fun n => p_cross (u n)) (p_cross p).
Proof.
  intros (H1 & H2 & H3 & H4 & _). unfold p_front_left_vortex_vertex, p_front_right_vortex_vertex, p_collocation_point, p_cross, p_first_diagonal, p_second_diagonal, p_right_leg, p_left_leg. cbv zeta.
  repeat split; vl; try apply vtends_cross; vl.
Qed.
Lemma panel_normal u p : approaching_panel u p -> p_cross p <> vzero -> vtends (fun n => p_unit_normal (u n)) (p_unit_normal p).
Proof. intros H N. destruct (panel_points u p H) as (_ & _ & _ & C). unfold p_unit_normal. apply vtends_div; [apply Rgt_not_eq, norm_positive, N | exact C | apply tends_norm, C]. Qed.
Lemma panel_area u p : approaching_panel u p -> tends (fun n => p_area (u n)) (p_area p).
Proof. intros H. destruct (panel_points u p H) as (_ & _ & _ & C). unfold p_area. apply tends_div; [lra | apply tends_norm, C | apply tends_const]. Qed.

(** ** Induced velocities *)
Lemma line_cut x o t g age nu : cut_off x (o, t) -> line_velocity x o t g age nu = vzero.
Proof.
  intros H. unfold line_velocity. cbv zeta. fold eps in H. unfold cut_off in H. cbn [fst snd] in H. cbv zeta in H.
  assert (E : Rltb (vnorm (vsub o x)) eps || Rltb (vnorm (vsub t x)) eps || Rltb (vnorm (vcross (vsub o x) (vsub t x)) ^ 2) eps = true).
  { rewrite !Bool.orb_true_iff, !Rltb_true. tauto. }
  rewrite E. reflexivity.
Qed.
Lemma cut_dec x o t : {cut_off x (o, t)} + {~ cut_off x (o, t)}.
Proof.
  unfold cut_off. cbn [fst snd]. cbv zeta. destruct (Rlt_dec (vnorm (vsub o x)) (/ 2 ^ 52)); [left; tauto|]. destruct (Rlt_dec (vnorm (vsub t x)) (/ 2 ^ 52)); [left; tauto|].
  destruct (Rlt_dec (vnorm (vcross (vsub o x) (vsub t x)) ^ 2) (/ 2 ^ 52)); [left | right]; tauto.
Qed.
Lemma line_tends X x O o T t G g A a V v : vtends X x -> vtends O o -> vtends T t -> tends G g -> tends A a -> tends V v -> 0 <= a -> 0 <= v -> ~ on_edge x (o, t) ->
  vtends (fun n => line_velocity (X n) (O n) (T n) (G n) (A n) (V n)) (line_velocity x o t g a v).
Proof.
  intros HX HO HT HG HA HV Pa Pv E. unfold on_edge in E. cbn [fst snd] in E. fold eps in E.
  assert (T1 : tends (fun n => vnorm (vsub (O n) (X n))) (vnorm (vsub o x))) by (apply tends_norm, vtends_sub; assumption).
  assert (T2 : tends (fun n => vnorm (vsub (T n) (X n))) (vnorm (vsub t x))) by (apply tends_norm, vtends_sub; assumption).
  assert (T3 : tends (fun n => vnorm (vcross (vsub (O n) (X n)) (vsub (T n) (X n))) ^ 2) (vnorm (vcross (vsub o x) (vsub t x)) ^ 2)) by (apply tends_pow, tends_norm, vtends_cross; apply vtends_sub; assumption).
  destruct (cut_dec x o t) as [C|C].
  - rewrite (line_cut _ _ _ _ _ _ C). assert (CN : exists N, forall n, (N <= n)%nat -> cut_off (X n) (O n, T n)).
    { unfold cut_off in *. cbn [fst snd] in *. fold eps in *. destruct C as [C|[C|C]].
      - destruct (tends_below _ _ _ T1 C) as (N & HN). exists N. intros n Hn. left. apply HN, Hn.
      - destruct (tends_below _ _ _ T2 C) as (N & HN). exists N. intros n Hn. right; left. apply HN, Hn.
      - destruct (tends_below _ _ _ T3 C) as (N & HN). exists N. intros n Hn. right; right. apply HN, Hn. }
    destruct CN as (N & HN). apply (vtends_eventually (fun _ => vzero) _ _ N); [|apply vtends_const]. intros n Hn. apply line_cut, HN, Hn.
  - unfold cut_off in C. cbn [fst snd] in C. fold eps in C.
    assert (C1 : eps < vnorm (vsub o x)) by (destruct (Rtotal_order (vnorm (vsub o x)) eps) as [?|[?|?]]; tauto).
    assert (C2 : eps < vnorm (vsub t x)) by (destruct (Rtotal_order (vnorm (vsub t x)) eps) as [?|[?|?]]; tauto).
    assert (C3 : eps < vnorm (vcross (vsub o x) (vsub t x)) ^ 2) by (destruct (Rtotal_order (vnorm (vcross (vsub o x) (vsub t x)) ^ 2) eps) as [?|[?|?]]; tauto).
    destruct (tends_above _ _ _ T1 C1) as (N1 & H1). destruct (tends_above _ _ _ T2 C2) as (N2 & H2). destruct (tends_above _ _ _ T3 C3) as (N3 & H3).
    assert (Pe : 0 < eps) by (unfold eps; apply Rinv_0_lt_compat, pow_lt; lra).
    set (full := fun x o t g a v => vscale (g / (4 * PI) * (vnorm (vsub o x) + vnorm (vsub t x)) * (vnorm (vsub o x) * vnorm (vsub t x) - vdot (vsub o x) (vsub t x)) /
       (vnorm (vsub o x) * vnorm (vsub t x) * (vnorm (vcross (vsub o x) (vsub t x)) ^ 2 + vnorm (vsub t o) ^ 2 * core_radius g a v ^ 2))) (vcross (vsub o x) (vsub t x))).
    assert (F : forall x o t g a v, eps < vnorm (vsub o x) -> eps < vnorm (vsub t x) -> eps < vnorm (vcross (vsub o x) (vsub t x)) ^ 2 -> line_velocity x o t g a v = full x o t g a v).
    { clear. intros x o t g a v C1 C2 C3. unfold line_velocity, full. cbv zeta. rewrite (proj2 (Rltb_false _ _) (Rlt_le _ _ C1)), (proj2 (Rltb_false _ _) (Rlt_le _ _ C2)), (proj2 (Rltb_false _ _) (Rlt_le _ _ C3)). reflexivity. }
    rewrite (F _ _ _ _ _ _ C1 C2 C3). apply (vtends_eventually (fun n => full (X n) (O n) (T n) (G n) (A n) (V n)) _ _ (N1 + N2 + N3)); [intros n Hn; apply F; [apply H1 | apply H2 | apply H3]; lia|].
    assert (TR : tends (fun n => core_radius (G n) (A n) (V n)) (core_radius g a v)).
    { unfold core_radius. apply tends_mult; [apply tends_const|]. apply tends_sqrt; [|lim]. unfold lamb, squire. pose proof (Rabs_pos g) as Pg. apply Rmult_le_pos; [|exact Pa]. apply Rmult_le_pos; [lra|]. apply Rplus_le_le_0_compat; [exact Pv|]. apply Rmult_le_pos; [|exact Pg]. apply Rlt_le, Rinv_0_lt_compat, pow_lt; lra. }
    unfold full. apply vtends_scale; [|apply vtends_cross; apply vtends_sub; assumption]. apply tends_div.
    + apply Rmult_integral_contrapositive_currified; [apply Rmult_integral_contrapositive_currified; lra|]. apply Rgt_not_eq, Rlt_gt, Rplus_lt_le_0_compat; [lra|]. apply Rmult_le_pos; apply pow2_ge_0.
    + apply tends_mult; [apply tends_mult; [apply tends_div; [pose proof PI_RGT_0; lra | exact HG | apply tends_const] | apply tends_plus; assumption] |]. apply tends_minus; [apply tends_mult; assumption | apply tends_dot; apply vtends_sub; assumption].
    + apply tends_mult; [apply tends_mult; assumption|]. apply tends_plus; [exact T3|]. apply tends_mult; [|apply tends_pow, TR]. apply tends_pow, tends_norm, vtends_sub; assumption.
Qed.

(** ** Paths and systems *)
Definition seg_tends (u : nat -> vec * vec) (s : vec * vec) : Prop := vtends (fun n => fst (u n)) (fst s) /\ vtends (fun n => snd (u n)) (snd s).
Lemma path_tends V v X x : each seg_tends V v -> vtends X x -> (forall s, In s v -> ~ on_edge x s) -> vtends (fun n => path_velocity (X n) (V n)) (path_velocity x v).
Proof.
  intros HV HX HE. unfold path_velocity. apply vtends_vsum. apply (each_map seg_tends vtends (fun n s => line_velocity (X n) (fst s) (snd s) 1 0 0) (fun s => line_velocity x (fst s) (snd s) 1 0 0)); [|exact HV].
  intros S s Hs (H1 & H2). apply (line_tends X x (fun n => fst (S n)) (fst s) (fun n => snd (S n)) (snd s) (fun _ => 1) 1 (fun _ => 0) 0 (fun _ => 0) 0); try assumption; try apply tends_const; try lra.
  rewrite <- surjective_pairing. apply HE, Hs.
Qed.
Section System.
Context (Good : vec -> Prop) {T : Type} (coll normal : T -> vec) (uv : vec -> T -> vec).
Definition sys_tends (u : nat -> T) (r : T) : Prop :=
  vtends (fun n => coll (u n)) (coll r) /\ Good (coll r) /\ vtends (fun n => normal (u n)) (normal r) /\
  forall X x, vtends X x -> Good x -> vtends (fun n => uv (X n) (u n)) (uv x r).
Lemma matrix_tends U rows : each sys_tends U rows -> each (each tends) (fun n => sys_matrix coll normal uv (U n)) (sys_matrix coll normal uv rows).
Proof.
  intros H. unfold sys_matrix. apply (each_map sys_tends (each tends) (fun n r => map (fun s => vdot (uv (coll r) s) (normal r)) (U n)) (fun r => map (fun s => vdot (uv (coll r) s) (normal r)) rows)); [|exact H].
  intros S s _ (Hc & Hg & Hn & _). apply (each_map sys_tends tends (fun n q => vdot (uv (coll (S n)) q) (normal (S n))) (fun q => vdot (uv (coll s) q) (normal s))); [|exact H].
  intros Q q _ (_ & _ & _ & Hq). apply tends_dot; [apply Hq; assumption | exact Hn].
Qed.
Lemma rhs_tends U rows V v : each sys_tends U rows -> vtends V v -> each tends (fun n => sys_rhs normal (U n) (V n)) (sys_rhs normal rows v).
Proof.
  intros H HV. unfold sys_rhs. apply (each_map sys_tends tends (fun n r => - vdot (normal r) (V n)) (fun r => - vdot (normal r) v)); [|exact H].
  intros S s _ (_ & _ & Hn & _). apply (tends_opp (fun n => vdot (normal (S n)) (V n))), tends_dot; assumption.
Qed.
Lemma velocity_tends U rows G gs V v X x : each sys_tends U rows -> each tends G gs -> vtends V v -> vtends X x -> Good x ->
  vtends (fun n => sys_velocity uv (U n) (G n) (V n) (X n)) (sys_velocity uv rows gs v x).
Proof.
  intros H HG HV HX Hx. unfold sys_velocity. apply vtends_add; [|exact HV]. apply vtends_vsum.
  refine (each_map _ vtends (fun n rg => vscale (snd rg) (uv (X n) (fst rg))) (fun rg => vscale (snd rg) (uv x (fst rg))) _ _ _ (each_combine _ _ _ _ _ _ H HG)).
  intros W w _ (S & K & E & (_ & _ & _ & HS) & HK). apply (vtends_ext (fun n => vscale (K n) (uv (X n) (S n)))); [intros n; rewrite E; reflexivity|]. apply vtends_scale; [exact HK | apply HS; assumption].
Qed.
Lemma system_settles solve U rows V v : SolveSpec solve -> each sys_tends U rows -> vtends V v ->
  settles (each tends) (fun n => solve (sys_matrix coll normal uv (U n)) (sys_rhs normal (U n) (V n))) (solve (sys_matrix coll normal uv rows) (sys_rhs normal rows v)).
Proof. intros HS H HV. apply (solve_settles solve (fun n => sys_matrix coll normal uv (U n)) _ (fun n => sys_rhs normal (U n) (V n))); [exact HS | apply sys_square | apply sys_lengths | apply matrix_tends, H | apply rhs_tends; assumption]. Qed.
End System.

(** ** Walks over airplanes *)
Definition triple (T : (nat -> panel) -> panel -> Prop) (u : nat -> airplane * wing * panel) (x : airplane * wing * panel) : Prop :=
  exists A W P, (forall n, u n = (A n, W n, P n)) /\ approaching_airplane T A (fst (fst x)) /\ approaching_wing T W (snd (fst x)) /\ T P (snd x).
Lemma flat_tends T L l : each (approaching_airplane T) L l -> each (triple T) (fun n => flat_panels (L n)) (flat_panels l).
Proof.
  intros H. unfold flat_panels. apply each_concat.
  apply (each_map (approaching_airplane T) (each (triple T)) (fun _ a => concat (map (fun w => map (fun p => (a, w, p)) (ravel (w_panels w))) (a_wings a))) (fun a => concat (map (fun w => map (fun p => (a, w, p)) (ravel (w_panels w))) (a_wings a)))); [|exact H].
  intros A a _ HA. apply each_concat. apply (each_map (approaching_wing T) (each (triple T)) (fun n w => map (fun p => (A n, w, p)) (ravel (w_panels w))) (fun w => map (fun p => (a, w, p)) (ravel (w_panels w)))); [|apply HA].
  intros W w _ HW. apply (each_map T (triple T) (fun n p => (A n, W n, p)) (fun p => (a, w, p))); [|apply each_concat, HW].
  intros P p _ HP. exists A, W, P. auto.
Qed.
Lemma panels_tends T A a : approaching_airplane T A a -> each T (fun n => airplane_panels (A n)) (airplane_panels a).
Proof.
  intros (_ & _ & _ & _ & _ & H). unfold airplane_panels. apply each_concat. apply (each_map (approaching_wing T) (each T) (fun _ w => ravel (w_panels w)) (fun w => ravel (w_panels w))); [|exact H].
  intros W w _ (_ & HW). apply each_concat, HW.
Qed.
Definition used {B C} (TC : (nat -> C) -> C -> Prop) (TB : (nat -> B) -> B -> Prop) (u : nat -> C * list B) (r : C * list B) : Prop :=
  TC (fun n => fst (u n)) (fst r) /\ each TB (fun n => snd (u n)) (snd r).
Lemma settles_consume {A B C} (TA : (nat -> A) -> A -> Prop) (TB : (nat -> B) -> B -> Prop) (TC : (nat -> C) -> C -> Prop) f g L l :
  (forall x a BS bs, TA x a -> each TB BS bs -> settles (used TC TB) (fun n => f n (x n) (BS n)) (g a bs)) -> each TA L l ->
  forall BS bs, each TB BS bs -> settles (used (each TC) TB) (fun n => consume (f n) (L n) (BS n)) (consume g l bs).
Proof.
  intros HF H. induction H as [L E|L x l a m E Hx Hl IH]; intros BS bs HB.
  - eapply settles_ext; [intros n; rewrite E; cbn [consume]; reflexivity|]. apply (settles_Ok (used (each TC) TB) (fun n => ([], BS n))). split; [constructor; reflexivity | exact HB].
  - cbn [consume]. eapply settles_ext; [intros n; rewrite E; cbn [consume]; reflexivity|].
    apply (settles_bind (used TC TB) (used (each TC) TB) (fun n => f n (x n) (BS n)) _ (fun n r => bind (consume (f n) (l n) (snd r)) (fun rs => Ok (fst r :: fst rs, snd rs)))); [apply HF; assumption|].
    intros u r _ (Hu & Hr). apply (settles_bind (used (each TC) TB) (used (each TC) TB) (fun n => consume (f n) (l n) (snd (u n))) _ (fun n rs => Ok (fst (u n) :: fst rs, snd rs))); [apply IH, Hr|].
    intros v rs _ (Hv & Hrs). apply (settles_Ok (used (each TC) TB) (fun n => (fst (u n) :: fst (v n), snd (v n)))). split; cbn [fst snd]; [eapply each_cons; [reflexivity | exact Hu | exact Hv] | exact Hrs].
Qed.
Lemma settles_update {B} (TP TP' : (nat -> panel) -> panel -> Prop) (TB : (nat -> B) -> B -> Prop) f g L l BS bs :
  (forall P p K b, TP P p -> TB K b -> settles TP' (fun n => f n (P n) (K n)) (g p b)) -> each (approaching_airplane TP) L l -> each TB BS bs ->
  settles (each (approaching_airplane TP')) (fun n => update_panels (f n) (L n) (BS n)) (update_panels g l bs).
Proof.
  intros HF HL HB. unfold update_panels.
  apply (settles_bind (used (each (approaching_airplane TP')) TB) _ (fun n => consume (consume_airplane (f n)) (L n) (BS n)) _ (fun _ r => Ok (fst r))); [|intros u r _ (H & _); apply (settles_Ok (each (approaching_airplane TP')) (fun n => fst (u n))), H].
  apply (settles_consume (approaching_airplane TP) TB); [|exact HL | exact HB]. clear L l BS bs HL HB. intros A a BS bs (H1 & H2 & H3 & H4 & H5 & HW) HB. unfold consume_airplane.
  apply (settles_bind (used (each (approaching_wing TP')) TB) _ (fun n => consume (consume_wing (f n)) (a_wings (A n)) (BS n)) _ (fun n r => Ok (a_set_wings (fst r) (A n), snd r)));
    [|intros u r _ (H & Hr); apply (settles_Ok (used (approaching_airplane TP') TB) (fun n => (a_set_wings (fst (u n)) (A n), snd (u n)))); split; [repeat (split; [assumption|]); exact H | exact Hr]].
  apply (settles_consume (approaching_wing TP) TB); [|exact HW | exact HB]. clear A a BS bs H1 H2 H3 H4 H5 HW HB. intros W w BS bs (Hs & HW) HB. unfold consume_wing.
  apply (settles_bind (used (each (each TP')) TB) _ (fun n => consume (consume (consume_panel (f n))) (w_panels (W n)) (BS n)) _ (fun n r => Ok (w_set_panels (fst r) (W n), snd r)));
    [|intros u r _ (H & Hr); apply (settles_Ok (used (approaching_wing TP') TB) (fun n => (w_set_panels (fst (u n)) (W n), snd (u n)))); split; [split; [exact Hs | exact H] | exact Hr]].
  apply (settles_consume (each TP) TB); [|exact HW | exact HB]. clear W w BS bs Hs HW HB. intros R r BS bs HR HB.
  apply (settles_consume TP TB TP'); [|exact HR | exact HB]. clear R r BS bs HR HB. intros P p BS bs HP HB. unfold consume_panel.
  destruct HB as [BS E|BS K bs b bs' E HK HB]; [apply settles_Err|]. eapply settles_ext; [intros n; rewrite E; reflexivity|].
  apply (settles_bind TP' (used TP' TB) (fun n => f n (P n) (K n)) _ (fun n q => Ok (q, bs n))); [apply HF; assumption|].
  intros Q q _ HQ. apply (settles_Ok (used TP' TB) (fun n => (Q n, bs n))). split; assumption.
Qed.
Lemma airplane_weaken (T T' : (nat -> panel) -> panel -> Prop) A a : (forall P p, T P p -> T' P p) -> approaching_airplane T A a -> approaching_airplane T' A a.
Proof.
  intros HT (H1 & H2 & H3 & H4 & H5 & HW). repeat (split; [assumption|]). eapply each_weaken; [|exact HW]. intros W w _ (Hs & H). split; [exact Hs|]. eapply each_weaken; [|exact H]. intros R r _ Hr. eapply each_weaken; [|exact Hr]. intros P p _. apply HT.
Qed.
Lemma airplane_in (T : (nat -> panel) -> panel -> Prop) (C : panel -> Prop) L l : (forall p, In p (all_panels l) -> C p) ->
  each (approaching_airplane T) L l -> each (approaching_airplane (fun P p => T P p /\ C p)) L l.
Proof.
  intros HC H. eapply each_weaken; [|exact H]. intros A a Ha (H1 & H2 & H3 & H4 & H5 & HW). repeat (split; [assumption|]). eapply each_weaken; [|exact HW]. intros W w Hw (Hs & HR). split; [exact Hs|]. eapply each_weaken; [|exact HR].
  intros R r Hr Rr. eapply each_weaken; [|exact Rr]. intros P p Hp HP. split; [exact HP|]. apply HC, in_all_panels. exists a. split; [exact Ha|]. apply in_airplane_panels. exists w. split; [exact Hw|]. unfold ravel. apply in_concat. eauto.
Qed.

(** ** Loads *)
Section Loads.
Context (strength : panel -> option R) (Hstr : forall f m fw mw q p, strength (p_set_loads f m fw mw q p) = strength p).
Definition with_strength (u : nat -> panel) (p : panel) : Prop :=
  approaching_panel u p /\ p_cross p <> vzero /\ present tends (fun n => strength (u n)) (strength p).
Lemma settles_process O op F f M m L l : approaching_op O op -> each vtends F f -> each vtends M m -> each (approaching_airplane with_strength) L l ->
  settles (each (approaching_solution (dynamic_pressure op) strength)) (fun n => process_forces (O n) (F n) (M n) (L n)) (process_forces op f m l).
Proof.
  intros HO HF HM HL. pose proof (mtends_trans _ _ (op_rotation O op HO)) as HR. pose proof (op_pressure O op HO) as HQ.
  set (rot := fun n => mtrans (rotation_wind_to_geometry (O n))) in *. set (rot0 := mtrans (rotation_wind_to_geometry op)) in *. set (q := fun n => dynamic_pressure (O n)) in *. set (q0 := dynamic_pressure op) in *.
  set (TP' := fun v p => approaching_panel v p /\ approaching_loads q0 v p /\ present tends (fun n => strength (v n)) (strength p)).
  set (TB := fun (K : nat -> vec * vec) (b : vec * vec) => exists x y, (forall n, K n = (x n, y n)) /\ vtends x (fst b) /\ vtends y (snd b)).
  unfold process_forces. cbv zeta.
  apply (settles_bind (each (approaching_airplane TP')) _
    (fun n => update_panels (fun p fm => Ok (p_set_loads (fst fm) (snd fm) (mvmul (rot n) (fst fm)) (mvmul (rot n) (snd fm)) (q n) p)) (L n) (combine (F n) (M n))) _
    (fun n l' => mapM (airplane_totals (rot n) (q n)) l')).
  - apply (settles_update with_strength TP' TB (fun n p fm => Ok (p_set_loads (fst fm) (snd fm) (mvmul (rot n) (fst fm)) (mvmul (rot n) (snd fm)) (q n) p))); [|exact HL | exact (each_combine vtends vtends _ _ _ _ HF HM)].
    intros P p K b (HP & HC & HS) (x & y & E & Hx & Hy). apply (settles_ext _ (fun n => Ok (p_set_loads (x n) (y n) (mvmul (rot n) (x n)) (mvmul (rot n) (y n)) (q n) (P n)))); [intros n; rewrite E; reflexivity|].
    apply (settles_Ok TP' (fun n => p_set_loads (x n) (y n) (mvmul (rot n) (x n)) (mvmul (rot n) (y n)) (q n) (P n))).
    pose proof (vtends_mvmul _ _ _ _ HR Hx) as Rx. pose proof (vtends_mvmul _ _ _ _ HR Hy) as Ry.
    split; [exact HP|]. split; [|destruct HS as (g & g0 & E1 & E2 & Hg); exists g, g0; split; [intros n; rewrite Hstr; apply E1 | split; [rewrite Hstr; exact E2 | exact Hg]]].
    assert (HA : p_area p <> 0) by (unfold p_area; pose proof (norm_positive _ HC); lra).
    pose proof (panel_area P p HP) as TA. destruct Rx as (Rx1 & Rx2 & Rx3).
    unfold approaching_loads, present. repeat split; try (intros; eexists _, _; split; [intros n; reflexivity | split; [reflexivity|]]); try exact Hx; try exact Hy; try exact Ry; try (repeat split; assumption).
    + apply tends_div; [assumption | apply tends_div; [assumption | apply tends_opp; assumption | assumption] | assumption].
    + apply tends_div; [assumption | apply tends_div; assumption | assumption].
    + apply tends_div; [assumption | apply tends_div; [assumption | apply tends_opp; assumption | assumption] | assumption].
  - intros l1 l1' _ HL1. apply (settles_mapM (approaching_airplane TP') (approaching_solution q0 strength) (fun n => airplane_totals (rot n) (q n))); [|exact HL1].
    intros A a _ HA. pose proof (panels_tends _ _ _ HA) as HP. unfold airplane_totals.
    assert (PF : forall (get : panel -> option vec), (forall v p, TP' v p -> present vtends (fun n => get (v n)) (get p)) ->
      settles (each vtends) (fun n => mapM (fun p => match get p with Some f => Ok f | None => Err ETypeError end) (airplane_panels (A n))) (mapM (fun p => match get p with Some f => Ok f | None => Err ETypeError end) (airplane_panels a))).
    { intros get Hget. apply (settles_mapM TP' vtends (fun _ p => match get p with Some f => Ok f | None => Err ETypeError end)); [|exact HP].
      intros v p _ Hv. destruct (Hget v p Hv) as (x & x0 & E1 & E2 & Hx). rewrite E2. apply (settles_ext _ (fun n => Ok (x n))); [intros n; rewrite E1; reflexivity|]. apply (settles_Ok vtends), Hx. }
    apply (settles_bind (each vtends) _ (fun n => mapM force_of (airplane_panels (A n))) _ (fun n forces => bind (mapM moment_of (airplane_panels (A n))) (fun moments =>
       Ok (a_set_loads (mvmul (rot n) (vsum forces)) (force_coefficients (mvmul (rot n) (vsum forces)) (q n) (a_s_ref (A n))) (mvmul (rot n) (vsum moments))
          (moment_coefficients (mvmul (rot n) (vsum moments)) (q n) (a_s_ref (A n)) (a_b_ref (A n)) (a_c_ref (A n))) (A n))))); [apply (PF p_force_geometry); intros v p Hv; apply Hv|].
    intros fs fs0 _ Hfs. apply (settles_bind (each vtends) _ (fun n => mapM moment_of (airplane_panels (A n))) _ (fun n moments =>
       Ok (a_set_loads (mvmul (rot n) (vsum (fs n))) (force_coefficients (mvmul (rot n) (vsum (fs n))) (q n) (a_s_ref (A n))) (mvmul (rot n) (vsum moments))
          (moment_coefficients (mvmul (rot n) (vsum moments)) (q n) (a_s_ref (A n)) (a_b_ref (A n)) (a_c_ref (A n))) (A n)))); [apply (PF p_moment_geometry); intros v p Hv; apply Hv|].
    intros ms ms0 _ Hms. apply (settles_Ok (approaching_solution q0 strength) (fun n => a_set_loads (mvmul (rot n) (vsum (fs n))) (force_coefficients (mvmul (rot n) (vsum (fs n))) (q n) (a_s_ref (A n))) (mvmul (rot n) (vsum (ms n)))
          (moment_coefficients (mvmul (rot n) (vsum (ms n))) (q n) (a_s_ref (A n)) (a_b_ref (A n)) (a_c_ref (A n))) (A n))).
    pose proof (vtends_mvmul _ _ _ _ HR (vtends_vsum _ _ Hfs)) as RF. pose proof (vtends_mvmul _ _ _ _ HR (vtends_vsum _ _ Hms)) as RM. fold rot0 in RF, RM.
    split; [|exact HA]. destruct HA as (A1 & A2 & A3 & _). split; [|split].
    + eexists _, _. split; [intros n; reflexivity | split; [reflexivity | exact RF]].
    + eexists _, _. split; [intros n; reflexivity | split; [reflexivity | exact RM]].
    + intros N1 N2 N3 N4. change (a_s_ref a <> 0) in N2. change (a_b_ref a <> 0) in N3. change (a_c_ref a <> 0) in N4. destruct RF as (F1 & F2 & F3), RM as (M1 & M2 & M3).
      split; eexists _, _; (split; [intros n; reflexivity | split; [reflexivity|]]); unfold force_coefficients, moment_coefficients; repeat split; cbn [vx vy vz]; repeat first [assumption | apply tends_opp | apply tends_div].
Qed.
End Loads.
