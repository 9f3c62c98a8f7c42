(** The statements of P_Airfoil.v in the form used there. *)
From Coq Require Import Lra Lia.
From Verif Require Import M_Airfoil S_Geometry S_Airfoil L_Base L_Functions L_Loads L_Meshing L_Geometry L_Airfoil L_Camber L_Example L_Gaps.

Lemma four_digit_names : forall database name c1 c2 c3 c4 d1 d2 d3 d4,
  follows (list_ascii_of_string "naca") (M_Airfoil.strip (map lower_char (list_ascii_of_string name))) [c1; c2; c3; c4] ->
  digit c1 d1 -> digit c2 d2 -> digit c3 d3 -> digit c4 d4 ->
  populate_coordinates database name = Ok (naca_contour d1 d2 (10 * d3 + d4) 100).
Proof.
  intros. unfold populate_coordinates. replace (naca_digits name) with (Some (d1, d2, 10 * d3 + d4)%nat); [reflexivity|].
  symmetry. apply naca_digits_iff. exists c1, c2, c3, c4, d3, d4. auto 10.
Qed.
Lemma other_names : forall database name,
  (forall c1 c2 c3 c4 d1 d2 d3 d4,
     follows (list_ascii_of_string "naca") (M_Airfoil.strip (map lower_char (list_ascii_of_string name))) [c1; c2; c3; c4] ->
     ~ (digit c1 d1 /\ digit c2 d2 /\ digit c3 d3 /\ digit c4 d4)) ->
  populate_coordinates database name =
    match database (M_Airfoil.strip (map lower_char (list_ascii_of_string name))) with
    | None => Err EAirfoilNotInDatabase
    | Some l => match pairs_of l with Some c => Ok c | None => Err EOddCoordinates end
    end.
Proof.
  intros database name H. unfold populate_coordinates. destruct (naca_digits name) as [[[a b] cd]|] eqn:E; [|reflexivity].
  apply naca_digits_iff in E. destruct E as (c1 & c2 & c3 & c4 & d3 & d4 & HF & H1 & H2 & H3 & H4 & _). exfalso. eapply H; eauto.
Qed.
Lemma resampled_count : forall fractions mcl, mcl <> [] ->
  exists line, get_downsampled_mcl fractions mcl = Ok line /\ length line = length fractions.
Proof. intros fr mcl H. destruct (downsampled_total fr mcl H) as [line E]. exists line. split; [exact E | eapply downsampled_length, E]. Qed.
Lemma resampled_monotone : forall fractions mcl line,
  distinct_successive mcl -> (2 <= length mcl)%nat -> get_downsampled_mcl fractions mcl = Ok line ->
  forall k k' f f' pt pt', nth_error fractions k = Some f -> nth_error fractions k' = Some f' -> 0 <= f < f' -> f' <= 1 ->
    nth_error line k = Some pt -> nth_error line k' = Some pt' ->
    exists i p q t i' p' q' t',
      nth_error mcl i = Some p /\ nth_error mcl (S i) = Some q /\ 0 <= t <= 1 /\
      pt = (fst p + t * (fst q - fst p), snd p + t * (snd q - snd p)) /\
      nth_error mcl i' = Some p' /\ nth_error mcl (S i') = Some q' /\ 0 <= t' <= 1 /\
      pt' = (fst p' + t' * (fst q' - fst p'), snd p' + t' * (snd q' - snd p')) /\
      ((i < i')%nat \/ (i = i' /\ t < t')).
Proof.
  intros fr mcl line HD HL H k k' f f' pt pt' Hf Hf' H1 H2 Hp Hp'.
  destruct (resampled_points fr mcl line HD HL H k f pt Hf ltac:(lra) Hp) as (i & p & q & t & A1 & A2 & A3 & A4 & A5).
  destruct (resampled_points fr mcl line HD HL H k' f' pt' Hf' ltac:(lra) Hp') as (i' & p' & q' & t' & B1 & B2 & B3 & B4 & B5).
  exists i, p, q, t, i', p', q', t'. repeat (split; [assumption|]).
  assert (HP : 0 < polyline_length mcl).
  { destruct mcl as [|a [|b l]]; cbn [length] in HL; [lia | lia |]. apply polyline_length_pos; exact HD. }
  eapply arc_pos_order with (s := f * polyline_length mcl) (s' := f' * polyline_length mcl); try eassumption.
  apply Rmult_lt_compat_r; lra.
Qed.
Lemma resampled_example : exists line,
  get_downsampled_mcl [0; 1 / 4; 1] [(0, 0); (1, 0); (1, 3)] = Ok line /\ distinct_successive [(0, 0); (1, 0); (1, 3)] /\
  polyline_length [(0, 0); (1, 0); (1, 3)] = 4.
Proof.
  destruct (downsampled_total [0; 1 / 4; 1] [(0, 0); (1, 0); (1, 3)]) as [line E]; [discriminate|]. exists line. split; [exact E|]. split.
  - intros [|[|[|i]]] p q; cbn [nth_error]; intros Hp Hq; try discriminate; try (destruct i; discriminate);
      injection Hp as <-; injection Hq as <-; intros HE; injection HE; intros; lra.
  - cbn [polyline_length]. unfold dist2; cbn [fst snd].
    replace ((0 - 1) ^ 2 + (0 - 0) ^ 2) with (1 * 1) by ring. replace ((1 - 1) ^ 2 + (0 - 3) ^ 2) with (3 * 3) by ring.
    rewrite !sqrt_square by lra. ring.
Qed.
Lemma index_minimum c i : leading_edge_index c = Ok i -> exists le, nth_error c i = Some le /\ forall p, In p c -> fst le <= fst p.
Proof.
  intros Ei. assert (Hi := argmin_lt _ _ Ei). rewrite map_length in Hi.
  destruct (first_minimum (map fst c)) as (k & m & Hk & Hb & Hall); [destruct c; [cbn in Hi; lia | discriminate]|].
  pose proof (argmin_first _ _ _ Hk Hb Hall) as Ek. unfold leading_edge_index in Ei. assert (k = i) by congruence. subst k.
  rewrite nth_error_map in Hk. destruct (nth_error c i) as [le|]; [|discriminate]. injection Hk as <-. exists le. split; [reflexivity|].
  intros p Hp. apply Hall, in_map, Hp.
Qed.
Lemma contours : forall pchip database name coordinates repanelled n a,
  new_airfoil pchip database name coordinates repanelled n = Ok a ->
  ((exists n', balanced n' (af_coordinates a)) \/
   exists le, (nth_error (af_coordinates a) 0 = Some le \/ nth_error (af_coordinates a) (length (af_coordinates a) - 1) = Some le) /\
     forall p, In p (af_coordinates a) -> fst le <= fst p) /\
  (repanelled = true -> (2 <= n)%nat -> balanced n (af_coordinates a)).
Proof.
  intros pchip db name c r n a H. split.
  - apply new_airfoil_mcl in H. apply constructed_balanced in H. destruct H as [H|[H|H]]; [left; exact H | right | right];
      apply index_minimum in H; destruct H as (le & H1 & H2); exists le; split; auto.
  - intros -> Hn. eapply repanelled_balanced; eassumption.
Qed.
Lemma minus_deflection d : radians (- d) = - (d * (PI / 180)).
Proof. unfold radians. ring. Qed.
Lemma hinge_is_on a x y : get_camber_at_chord_fraction a x = Ok y -> hinge_on a (x, y).
Proof. intros H HI. exact (interp1d_spec x _ y HI H). Qed.
Lemma ahead_kept_behind_turned : forall pchip database name coordinates repanelled np a n deflection x a',
  new_airfoil pchip database name coordinates repanelled np = Ok a -> balanced n (af_coordinates a) ->
  add_control_surface a deflection x = Ok a' ->
  length (af_coordinates a') = length (af_coordinates a) /\
  exists y split, hinge_on a (x, y) /\
    forall k u l, (k < n)%nat -> sides n (af_coordinates a) k u l ->
      ((k < split)%nat -> fst (mid2 u l) <= x /\ sides n (af_coordinates a') k u l) /\
      (k = split -> x < fst (mid2 u l)) /\
      ((split <= k)%nat ->
         sides n (af_coordinates a') k (turn (x, y) (- (deflection * (PI / 180))) u) (turn (x, y) (- (deflection * (PI / 180))) l)).
Proof.
  intros pchip db name c r np a n d x a' H HB HA. apply new_airfoil_mcl in H.
  destruct (mcl_points n _ _ _ _ _ HB H) as (_ & LM & _ & HP).
  destruct (surface_effect n _ _ _ _ _ d x a' HB H HA) as (_ & y & s & Hy & Hs & Hb & Ha & HL & HS).
  split; [exact HL|]. exists y, s. split; [apply hinge_is_on; exact Hy|]. intros k u l Hk Hul. destruct (HP k u l Hul Hk) as [Hm _].
  specialize (HS k u l Hk Hul). rewrite minus_deflection in HS. split; [|split].
  - intros Hlt. split; [eapply Hb; eassumption|]. apply Nat.ltb_lt in Hlt. rewrite Hlt in HS. exact HS.
  - intros ->. apply Ha; exact Hm.
  - intros Hle. apply Nat.ltb_ge in Hle. rewrite Hle in HS. exact HS.
Qed.
Lemma zero_deflection_kept : forall pchip database name coordinates repanelled np a n x a',
  new_airfoil pchip database name coordinates repanelled np = Ok a -> balanced n (af_coordinates a) ->
  add_control_surface a 0 x = Ok a' ->
  af_coordinates a' = af_coordinates a /\ af_mcl_coordinates a' = af_mcl_coordinates a /\ af_thickness a' = af_thickness a.
Proof.
  intros pchip db name c r np a n x a' H HB HA. apply new_airfoil_mcl in H.
  destruct (zero_deflection n _ _ _ _ _ x a' HB H HA) as (H1 & H2 & _ & H3). auto.
Qed.
Lemma camber_line_turned : forall pchip database name coordinates repanelled np a n deflection x a',
  new_airfoil pchip database name coordinates repanelled np = Ok a -> balanced n (af_coordinates a) ->
  add_control_surface a deflection x = Ok a' -> balanced n (af_coordinates a') ->
  exists y split, hinge_on a (x, y) /\
    forall k m, nth_error (af_mcl_coordinates a) k = Some m ->
      ((k < split)%nat -> fst m <= x /\ nth_error (af_mcl_coordinates a') k = Some m) /\
      (k = split -> x < fst m) /\
      ((split <= k)%nat -> nth_error (af_mcl_coordinates a') k = Some (turn (x, y) (- (deflection * (PI / 180))) m)).
Proof.
  intros pchip db name c r np a n d x a' H HB HA HB'. apply new_airfoil_mcl in H.
  destruct (mcl_points n _ _ _ _ _ HB H) as (_ & LM & _ & HP).
  destruct (surface_effect n _ _ _ _ _ d x a' HB H HA) as (_ & y & s & Hy & Hs & Hb & Ha & HL & HS).
  assert (HW' : exists name' rp' np', with_mcl name' rp' np' (af_coordinates a') = Ok a').
  { unfold add_control_surface in HA. inv_ok HA. inv_ok HA. inv_ok HA. destruct (with_mcl_coordinates _ _ _ _ _ HA) as [-> _]. do 3 eexists; exact HA. }
  destruct HW' as (name' & rp' & np' & HW'). destruct (mcl_points n _ _ _ _ _ HB' HW') as (_ & LM' & _ & HP').
  exists y, s. split; [apply hinge_is_on; exact Hy|]. intros k m Hm.
  assert (Hk : (k < n)%nat) by (rewrite <- LM; apply nth_error_Some; congruence).
  destruct (sides_exist n _ HB k Hk) as (u & l & Hul). destruct (HP k u l Hul Hk) as [Hm' _]. rewrite Hm in Hm'. injection Hm' as ->.
  specialize (HS k u l Hk Hul). rewrite minus_deflection in HS. split; [|split].
  - intros Hlt. split; [eapply Hb; eassumption|]. apply Nat.ltb_lt in Hlt. rewrite Hlt in HS. apply (HP' _ _ _ HS Hk).
  - intros ->. apply Ha; exact Hm.
  - intros Hle. apply Nat.ltb_ge in Hle. rewrite Hle in HS. rewrite (proj1 (HP' _ _ _ HS Hk)). f_equal.
    apply pair_eq; unfold turn, mid2; cbn [fst snd]; field.
Qed.
Lemma in_range d : -90 <= d <= 90 -> negb (Rltb 90 d || Rltb d (-90)) = true.
Proof.
  intros H. replace (Rltb 90 d) with false by (symmetry; apply Rltb_false; lra).
  replace (Rltb d (-90)) with false by (symmetry; apply Rltb_false; lra). reflexivity.
Qed.
Lemma hinge_behind : forall a deflection x,
  -90 <= deflection <= 90 -> (2 <= length (af_mcl_coordinates a))%nat ->
  (forall m, In m (af_mcl_coordinates a) -> fst m <= x) -> add_control_surface a deflection x = Err EIndexError.
Proof.
  intros a d x Hd HL H. unfold add_control_surface. rewrite in_range by exact Hd. cbn [check bind].
  unfold get_camber_at_chord_fraction. destruct (interp1d_total x _ HL) as [y ->]. cbn [bind].
  replace (first_index _ _) with (@Err nat EIndexError); [reflexivity|]. symmetry. clear HL.
  induction (af_mcl_coordinates a) as [|m l IH]; [reflexivity|]. cbn [first_index].
  replace (Rltb (fst (x, y)) (fst m)) with false; [rewrite IH; [reflexivity | intros; apply H; right; assumption]|].
  symmetry. apply Rltb_false. apply H. left; reflexivity.
Qed.
Lemma zero_deflection_succeeds : forall pchip database name coordinates repanelled np a n x,
  new_airfoil pchip database name coordinates repanelled np = Ok a -> balanced n (af_coordinates a) -> (2 <= n)%nat ->
  (exists m, In m (af_mcl_coordinates a) /\ x < fst m) -> exists a', add_control_surface a 0 x = Ok a'.
Proof.
  intros pchip db name c r np a n x H HB Hn HM. apply new_airfoil_mcl in H.
  destruct (surface_succeeds n _ _ _ _ _ 0 x HB H Hn ltac:(lra) HM) as (y & s & Hy & HS).
  destruct HS as (a' & Ha' & _); [|eauto].
  destruct (flapped_contour_sides n _ _ _ _ _ 0 (x, y) s HB H) as [FL FS].
  replace (flapped_contour 0 (x, y) s (af_mcl_coordinates a) (af_upper_minus_mcl a)) with (af_coordinates a); [exact HB|]. symmetry.
  apply (sides_ext n); [exact HB | rewrite FL; symmetry; apply HB|]. intros k u l Hk Hul. specialize (FS k u l Hul Hk).
  unfold moved in FS. replace (radians (- 0)) with 0 in FS by (unfold radians; ring). rewrite !turn_0 in FS. destruct (Nat.ltb k s); exact FS.
Qed.
Lemma plate_example : forall pchip database, exists a',
  new_airfoil pchip database "plate" (Some flat_coordinates) false 400 = Ok (flat_named "plate") /\
  balanced 2 flat_coordinates /\ add_control_surface (flat_named "plate") 90 (1 / 2) = Ok a' /\
  af_coordinates a' = [(1 / 2, - (1 / 2)); (0, 0); (1 / 2, - (1 / 2))] /\ balanced 2 (af_coordinates a').
Proof.
  intros pchip db. exists (bent (- (1 / 2)) ("plate" ++ " flapped")%string). split; [apply new_flat|].
  assert (HB : forall x k, 0 < x -> balanced 2 [(x, k); (0, 0); (x, k)]).
  { intros x k Hx. split; [lia|]. split; [reflexivity|]. exists (0, 0). split; [reflexivity|]. split.
    - intros p Hp. destruct Hp as [<-|[<-|[<-|[]]]]; cbn; lra.
    - intros [|i] p Hp Hi; [injection Hp as <-; cbn; lra | cbn in Hi; lia]. }
  split; [apply HB; lra|]. split; [apply plate_bends; left; split; reflexivity|]. split; [reflexivity|]. apply HB; lra.
Qed.
