(** The projected area of a wing is the sum of the trapezoids between its sections. *)
From Coq Require Import Lra Lia Psatz.
From Verif Require Import M_Geometry S_Geometry S_Airfoil S_Wing S_Planform L_Base L_Functions L_Panel L_Airfoil L_Camber L_Surface L_Meshing L_Geometry L_Chord L_Loads L_Planform.
Local Open Scope R_scope.

(** ** The camber points of a section *)
Lemma twisted s c n : cs_wing_unit_chordwise s = Some c -> cs_unit_normal s = n -> vnorm c = 1 -> vnorm n = 1 -> vdot c n = 0 ->
  let a := cs_twist s * PI / 180 in
  exists b u, cs_unit_chordwise s = Ok b /\ cs_unit_up s = Ok u /\ vdot b n = 0 /\ vdot u n = 0 /\ vdot b c = cos a /\ vdot u c = sin a.
Proof.
  intros Ev En Hc Hn Hp a. assert (HZ : n <> vzero) by (intros E; rewrite E, vnorm_zero in Hn; lra). assert (Hp' : vdot n c = 0) by (rewrite vdot_comm; exact Hp).
  assert (E : mvmul (angle_axis_rotation_matrix a n false) c = vadd (vscale (cos a) c) (vscale (sin a) (vcross n c))).
  { rewrite (rotation_turns a n false c HZ ltac:(discriminate) Hp'), Hn. replace (sin a / 1) with (sin a) by field. reflexivity. }
  exists (vadd (vscale (cos a) c) (vscale (sin a) (vcross n c))), (vcross (vadd (vscale (cos a) c) (vscale (sin a) (vcross n c))) n).
  unfold cs_unit_up, cs_unit_chordwise. rewrite Ev, En. fold a. rewrite E. cbn [bind]. apply vnorm_1_dot in Hc, Hn. split; [reflexivity|]. split; [reflexivity|].
  assert (D1 : vdot (vcross n c) n = 0) by (rewrite vdot_comm; vunfold; ring). assert (D2 : vdot (vcross n c) c = 0) by apply cross_perp.
  split; [rewrite vdot_add_l, !vdot_scale_l, Hp, D1; ring|]. split; [apply cross_perp|]. split; [rewrite vdot_add_l, !vdot_scale_l, Hc, D2; ring|].
  assert (T : forall a b c : vec, vdot (vcross a b) c = vdot a (vcross b c)) by (intros; vdestruct; vunfold; ring). rewrite T, vdot_add_l, !vdot_scale_l.
  rewrite cross_cross, Hn, Hc, Hp, Hp'. rewrite <- T. replace (vdot (vcross c n) c) with 0 by (vunfold; ring). ring.
Qed.

Definition nondecreasing_along (g : R * R -> R) (l : list (R * R)) : Prop :=
  forall k p q, nth_error l k = Some p -> nth_error l (S k) = Some q -> g p <= g q.
Lemma nondecreasing_from g l : nondecreasing_along g l -> forall i j p q, (i <= j)%nat -> nth_error l i = Some p -> nth_error l j = Some q -> g p <= g q.
Proof.
  intros H i j p q Hij. revert q. induction Hij as [|j Hij IH]; intros q Hp Hq; [rewrite Hp in Hq; injection Hq as ->; lra|].
  destruct (nth_error l j) as [r|] eqn:Er; [|apply nth_error_None in Er; assert (S j < length l)%nat by (apply nth_error_Some; congruence); lia].
  pose proof (IH r Hp eq_refl). pose proof (H _ _ _ Er Hq). lra.
Qed.
Lemma resampled_nondecreasing (x y : R) fr mcl line : let g := fun p : R * R => fst p * x + snd p * y in
  distinct_successive mcl -> (2 <= length mcl)%nat -> nondecreasing_along g mcl -> get_downsampled_mcl fr mcl = Ok line ->
  strictly_increasing fr -> (forall f, In f fr -> 0 <= f <= 1) -> nondecreasing_along g line.
Proof.
  intros g HD HL HM E HI H01 k p q Hp Hq.
  assert (Ll : length line = length fr) by (exact (downsampled_length _ _ _ E)).
  assert (Fk : exists f, nth_error fr k = Some f). { destruct (nth_error fr k) as [f|] eqn:Ef; [eauto|]. apply nth_error_None in Ef. assert (k < length line)%nat by (apply nth_error_Some; congruence). lia. }
  assert (Fk' : exists f, nth_error fr (S k) = Some f). { destruct (nth_error fr (S k)) as [f|] eqn:Ef; [eauto|]. apply nth_error_None in Ef. assert (S k < length line)%nat by (apply nth_error_Some; congruence). lia. }
  destruct Fk as (f & Ef). destruct Fk' as (f' & Ef'). pose proof (HI k (S k) f f' ltac:(lia) Ef Ef') as Hff.
  pose proof (H01 _ (nth_error_In _ _ Ef)). pose proof (H01 _ (nth_error_In _ _ Ef')).
  destruct (resampled_monotone fr mcl line HD HL E k (S k) f f' p q Ef Ef' ltac:(lra) ltac:(lra) Hp Hq) as (i & a & b & t & i' & a' & b' & t' & Ha & Hb & Ht & -> & Ha' & Hb' & Ht' & -> & Ho).
  assert (L1 : g a <= g b) by (exact (HM _ _ _ Ha Hb)). assert (L2 : g a' <= g b') by (exact (HM _ _ _ Ha' Hb')).
  assert (E1 : g (fst a + t * (fst b - fst a), snd a + t * (snd b - snd a)) = g a + t * (g b - g a)) by (unfold g; cbn [fst snd]; ring).
  assert (E2 : g (fst a' + t' * (fst b' - fst a'), snd a' + t' * (snd b' - snd a')) = g a' + t' * (g b' - g a')) by (unfold g; cbn [fst snd]; ring).
  rewrite E1, E2. destruct Ho as [Ho|[-> Ho]].
  - assert (g b <= g a') by (apply (nondecreasing_from g mcl HM (S i) i'); [lia|assumption..]). nra.
  - rewrite Ha in Ha'. rewrite Hb in Hb'. injection Ha' as <-. injection Hb' as <-. nra.
Qed.

Lemma nth_map_last {A B} (f : A -> B) l d e : l <> [] -> last (map f l) e = f (last l d).
Proof. intros H. induction l as [|x l IH]; [congruence|]. destruct l as [|y l]; [reflexivity|]. cbn [map last] in *. apply IH. discriminate. Qed.

Lemma camber_back le sp nc s c n h P : (1 <= nc)%nat -> cs_wing_unit_chordwise s = Some c -> cs_unit_normal s = n -> vnorm c = 1 -> vnorm n = 1 -> vdot c n = 0 ->
  lies_open s -> camber_points le (spaced sp (S nc)) s 0 h = Ok P ->
  goes_back c n (vdot (vadd le (cs_leading_edge s)) n) P /\ length_back c P = seen_chord s.
Proof.
  intros Hnc Ev En Hc Hn Hp [(pchip & db & name & coords & rp & np & k & EA & HB) (Hch & HL & HD & HM)] H.
  unfold camber_points in H. apply bind_Ok in H. destruct H as (a & Ea & H). apply bind_Ok in H. destruct H as (line & El & H).
  destruct (twisted s c n Ev En Hc Hn Hp) as (b & u & E1 & E2 & B1 & U1 & B2 & U2). rewrite E1, E2 in H. cbn [bind] in H. apply Ok_eq in H. subst P.
  destruct (zero_deflection_kept _ _ _ _ _ _ _ _ _ _ EA HB Ea) as (_ & EM & _). rewrite EM in El. set (mcl := af_mcl_coordinates (cs_airfoil s)) in *.
  set (pt := fun p : R * R => vadd (vadd le (cs_leading_edge s)) (vscale (cs_chord s) (vadd (vscale (fst p) b) (vscale (snd p) u)))).
  assert (X : forall p, vdot (pt p) c = vdot (vadd le (cs_leading_edge s)) c + cs_chord s * back s p).
  { intros p. unfold pt. rewrite (vdot_add_l (vadd le _)), vdot_scale_l, (vdot_add_l (vscale _ b)), !vdot_scale_l, B2, U2. unfold back. reflexivity. }
  assert (Y : forall p, vdot (pt p) n = vdot (vadd le (cs_leading_edge s)) n).
  { intros p. unfold pt. rewrite (vdot_add_l (vadd le _)), vdot_scale_l, (vdot_add_l (vscale _ b)), !vdot_scale_l, B1, U1. ring. }
  assert (HN : nondecreasing_along (back s) line).
  { apply (resampled_nondecreasing (cos (cs_twist s * PI / 180)) (sin (cs_twist s * PI / 180)) _ mcl line HD HL HM El (spaced_increasing _ _)).
    intros f Hf. apply In_nth_error in Hf. destruct Hf as (j & Hj). exact (spaced_range _ _ _ _ Hj Hnc). }
  assert (Ll : length line = S nc) by (rewrite (downsampled_length _ _ _ El); apply spaced_length). assert (Nl : line <> []) by (intros ->; discriminate Ll). assert (Nm : mcl <> []) by (intros Em; rewrite Em in HL; cbn in HL; lia).
  split; [split|].
  - intros p Hin. apply in_map_iff in Hin. destruct Hin as (q & <- & _). apply Y.
  - intros j p q H1 H2. apply nth_error_map_inv in H1, H2. destruct H1 as (p' & H1 & ->). destruct H2 as (q' & H2 & ->). fold (pt p') (pt q'). rewrite !X. apply Rplus_le_compat_l, Rmult_le_compat_l; [exact Hch|exact (HN _ _ _ H1 H2)].
  - unfold length_back. rewrite (nth_map_last _ line (0, 0)) by exact Nl. assert (EH : hd vzero (map pt line) = pt (hd (0, 0) line)) by (destruct line; [congruence|reflexivity]).
    change (hd vzero (map _ line)) with (hd vzero (map pt line)). rewrite EH. fold (pt (last line (0, 0))). rewrite !X. unfold seen_chord. fold mcl.
    assert (F0 : hd (0, 0) line = hd (0, 0) mcl).
    { pose proof (hd_nth line (0, 0) Nl) as h1. destruct (resampled_ends _ _ _ HD HL El _ _ h1) as [h2 _]. specialize (h2 (spaced_first sp (S nc) ltac:(lia))). pose proof (hd_nth mcl (0, 0) Nm). congruence. }
    assert (F1 : last line (0, 0) = last mcl (0, 0)).
    { pose proof (last_nth line (0, 0) Nl) as h1. rewrite Ll in h1. replace (S nc - 1)%nat with nc in h1 by lia. destruct (resampled_ends _ _ _ HD HL El _ _ h1) as [_ h2]. specialize (h2 (spaced_last _ _ Hnc)). pose proof (last_nth mcl (0, 0) Nm). congruence. }
    rewrite F0, F1. ring.
Qed.

(** ** The wing *)
Lemma set_chordwise_back c s p : back (cs_set_wing_chordwise c s) p = back s p. Proof. reflexivity. Qed.
Lemma strips_area w c n d sections ms : strips_ok w d sections ms -> vnorm c = 1 -> vnorm n = 1 -> vdot c n = 0 -> (adjacent sections <> [] -> (1 <= ms_num_chordwise w)%nat) ->
  (forall s, In s sections -> cs_wing_unit_chordwise s = Some c /\ cs_unit_normal s = n /\ lies_open s) ->
  (forall i o, In (i, o) (adjacent sections) -> d i = 0 /\ (1 <= cs_num_spanwise_panels i)%nat) ->
  msum (fun p => p_projected_area p (vcross c n)) (hcat (ms_num_chordwise w) ms) = rsum (map (trapezoid n) (adjacent sections)).
Proof.
  intros H Hc Hn Hp Hnc HS HA. assert (HS' : forall i o, In (i, o) (adjacent sections) -> In i sections /\ In o sections).
  { intros i o Hin. unfold adjacent in Hin. split; [eapply in_combine_l; exact Hin|]. apply in_combine_r in Hin. destruct sections; [destruct Hin|right; exact Hin]. }
  unfold strips_ok in H. revert Hnc HA HS'. induction H as [|[i o] m ios ms Hm HF IH]; intros Hnc HA HS'; [apply msum_repeat|].
  cbn [hcat map]. rewrite rsum_cons. destruct (HA i o (or_introl eq_refl)) as [Hd Hk]. destruct (HS' i o (or_introl eq_refl)) as [Hi Ho]. cbn [fst snd] in Hm. rewrite Hd in Hm.
  assert (N1 : (1 <= ms_num_chordwise w)%nat) by (apply Hnc; discriminate).
  rewrite msum_hstack.
  - rewrite IH; [|intros _; exact N1|intros i' o' Hin; exact (HA i' o' (or_intror Hin))|intros i' o' Hin; exact (HS' i' o' (or_intror Hin))]. f_equal.
    destruct (HS _ Hi) as (I1 & I2 & I3). destruct (HS _ Ho) as (O1 & O2 & O3).
    destruct (strip_area w i o 0 m c n (vdot (vadd (ms_leading_edge w) (cs_leading_edge i)) n) (vdot (vadd (ms_leading_edge w) (cs_leading_edge o)) n) Hm Hc Hn Hp Hk) as (P & Q & EP & EQ & ->).
    + intros P EP. exact (proj1 (camber_back _ _ _ _ _ _ _ _ N1 I1 I2 Hc Hn Hp I3 EP)).
    + intros Q EQ. exact (proj1 (camber_back _ _ _ _ _ _ _ _ N1 O1 O2 Hc Hn Hp O3 EQ)).
    + rewrite (proj2 (camber_back _ _ _ _ _ _ _ _ N1 I1 I2 Hc Hn Hp I3 EP)), (proj2 (camber_back _ _ _ _ _ _ _ _ N1 O1 O2 Hc Hn Hp O3 EQ)).
      unfold trapezoid. rewrite vdot_sub_l, !vdot_add_l. f_equal. f_equal. f_equal. ring.
  - rewrite (strip_rows _ _ _ _ _ Hm). symmetry. apply hcat_rows. intros m' Hm'. apply In_nth_error in Hm'. destruct Hm' as (k & Hk'). destruct (L_Loads.Forall2_nth _ _ _ HF _ _ Hk') as (io & _ & E). eapply strip_rows; exact E.
Qed.
Lemma adjacent_map {A B} (f : A -> B) l : adjacent (map f l) = map (fun io => (f (fst io), f (snd io))) (adjacent l).
Proof. unfold adjacent. destruct l as [|x l]; [reflexivity|]. cbn [map tl]. revert x. induction l as [|y l IH]; intros x; [reflexivity|]. cbn [map combine fst snd]. f_equal. apply IH. Qed.
Lemma adjacent_in {A} (l : list A) i o : In (i, o) (adjacent l) -> In i (removelast l) /\ In i l /\ In o l.
Proof.
  intros H. split; [rewrite <- adjacent_fst; change i with (fst (i, o)); apply in_map; exact H|]. unfold adjacent in H. split; [eapply in_combine_l; exact H|]. apply in_combine_r in H. destruct l; [destruct H|right; exact H].
Qed.

Lemma planform_area sections name x y z n sym c nc sp w : new_wing sections name x y z n sym c nc sp = Ok w -> vnorm n = 1 -> vnorm c = 1 ->
  (forall s, In s sections -> lies_open s /\ cs_unit_normal s = n) ->
  (forall s, In s (removelast sections) -> cs_control_surface_deflection s = 0 /\ (1 <= cs_num_spanwise_panels s)%nat) ->
  w_projected_area w = (if sym then 2 else 1) * rsum (map (trapezoid n) (adjacent sections)).
Proof.
  intros H Hn Hc HS HA. assert (Hp : vdot c n = 0).
  { apply wing_created_iff in H || idtac. unfold new_wing in H. repeat (apply bind_Ok in H; destruct H as (? & ?E & H)). match goal with E : check (Reqb (vdot c n) 0) _ = Ok _ |- _ => apply check_Ok in E; apply Reqb_true in E; exact E end. }
  destruct (wing_mesh _ _ _ _ _ _ _ _ _ _ _ H) as (m0 & HLay & Ew). rewrite Ew in HLay. cbn [w_sections] in HLay.
  set (ss := map (cs_set_wing_chordwise c) sections) in *.
  assert (HS' : forall s, In s ss -> cs_wing_unit_chordwise s = Some c /\ cs_unit_normal s = n /\ lies_open s).
  { intros s Hin. apply in_map_iff in Hin. destruct Hin as (t & <- & Ht). destruct (HS _ Ht) as [Ho En]. split; [reflexivity|]. split; [exact En|exact Ho]. }
  assert (HA' : forall i o, In (i, o) (adjacent ss) -> cs_control_surface_deflection i = 0 /\ (1 <= cs_num_spanwise_panels i)%nat).
  { intros i o Hin. unfold ss in Hin. rewrite adjacent_map in Hin. apply in_map_iff in Hin. destruct Hin as ((i' & o') & E & Hin). cbn [fst snd] in E. injection E as <- <-. apply adjacent_in in Hin. exact (HA _ (proj1 Hin)). }
  assert (ET : rsum (map (trapezoid n) (adjacent ss)) = rsum (map (trapezoid n) (adjacent sections))).
  { unfold ss. rewrite adjacent_map, map_map. f_equal. apply map_ext. intros [i o]. reflexivity. }
  destruct HLay as (rights & lefts & H1 & H2 & H3 & Em0). cbn [ms_num_chordwise ms_symmetric] in *.
  set (f := fun p => p_projected_area p (vcross c n)).
  assert (EA : w_projected_area w = msum f m0).
  { unfold w_projected_area, w_unit_up. rewrite Ew. cbn [w_panels w_unit_chordwise w_unit_normal]. fold f. unfold ravel. fold (msum f (set_positions (count_spanwise sections sym) m0)). apply msum_positions. intros. reflexivity. }
  rewrite EA, Em0, msum_hstack.
  - pose proof (strips_area _ c n _ _ _ H1 Hc Hn Hp H2 HS' HA') as R1. cbn [ms_num_chordwise] in R1. fold f in R1. rewrite R1, ET. destruct sym.
    + destruct H3 as [H3 _]. rewrite msum_flip by (intros p; apply mirrored_area; assumption).
      assert (L1 : msum f (hcat nc lefts) = rsum (map (trapezoid n) (adjacent ss))); [|rewrite L1, ET; lra]. refine (strips_area _ c n _ _ _ H3 Hc Hn Hp H2 HS' _). intros i o Hin. destruct (HA' i o Hin) as [Hd Hk]. split; [|exact Hk]. unfold port_deflection. rewrite Hd. destruct (String.eqb _ _); lra.
    + subst lefts. cbn [hcat]. rewrite flip_repeat, msum_repeat. lra.
  - assert (R : length (hcat nc rights) = nc) by (apply hcat_rows; exact (strips_rows _ _ _ _ H1)). assert (L : length (hcat nc lefts) = nc). { apply hcat_rows. destruct sym; [exact (strips_rows _ _ _ _ (proj1 H3))|subst lefts; intros m []]. }
    unfold flip. rewrite !map_length, R. exact L.
Qed.

(** The wing's own axes. *)
Lemma wing_axes sections name x y z n sym c nc sp w : new_wing sections name x y z n sym c nc sp = Ok w -> vnorm n = 1 -> vnorm c = 1 ->
  vnorm (w_unit_up w) = 1 /\ vdot (w_unit_up w) c = 0 /\ vdot (w_unit_up w) n = 0 /\ vcross (w_unit_up w) c = n /\ vcross n (w_unit_up w) = c.
Proof.
  intros E Hn Hc. assert (N0 : n <> vzero) by (intros ->; rewrite vnorm_zero in Hn; lra).
  destruct (proj1 (wing_created_iff sections name x y z n sym c nc sp N0) (ex_intro _ _ E)) as [HR _].
  unfold wing_rules in HR. rewrite !all_hold_cons in HR. destruct HR as (_ & _ & _ & _ & HD & _).
  destruct (wing_attributes _ _ _ _ _ _ _ _ _ _ _ E) as (_ & _ & EN & _ & EC & _). unfold w_unit_up. rewrite EN, EC. apply vnorm_1_dot in Hn, Hc.
  assert (HU : vdot (vcross c n) (vcross c n) = 1) by (rewrite lagrange, Hn, Hc, HD; ring).
  split; [apply vdot_1_norm; exact HU|]. clear - Hn Hc HD. destruct n as [a b d], c as [e f g]. unfold vdot, vcross in *; cbn [vx vy vz] in *. repeat split; try ring.
  - apply vec_ext; cbn.
    + transitivity (a * (e * e + f * f + g * g) - e * (e * a + f * b + g * d)); [ring | rewrite Hc, HD; ring].
    + transitivity (b * (e * e + f * f + g * g) - f * (e * a + f * b + g * d)); [ring | rewrite Hc, HD; ring].
    + transitivity (d * (e * e + f * f + g * g) - g * (e * a + f * b + g * d)); [ring | rewrite Hc, HD; ring].
  - apply vec_ext; cbn.
    + transitivity (e * (a * a + b * b + d * d) - a * (e * a + f * b + g * d)); [ring | rewrite Hn, HD; ring].
    + transitivity (f * (a * a + b * b + d * d) - b * (e * a + f * b + g * d)); [ring | rewrite Hn, HD; ring].
    + transitivity (g * (a * a + b * b + d * d) - d * (e * a + f * b + g * d)); [ring | rewrite Hn, HD; ring].
Qed.
