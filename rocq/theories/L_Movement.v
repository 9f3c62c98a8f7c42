(** Lemmas about movements and unsteady problems. *)
From Coq Require Import Lra Lia.
From Verif Require Import M_Movement S_Geometry S_Movement L_Base L_Functions L_Loads L_Meshing L_Geometry L_Camber.

(** ** Rounding *)
Lemma floor_spec x : IZR (py_floor x) <= x < IZR (py_floor x) + 1.
Proof. unfold py_floor. destruct (base_Int_part x). lra. Qed.
Lemma ceil_spec x : IZR (py_ceil x) - 1 < x <= IZR (py_ceil x).
Proof. unfold py_ceil. rewrite opp_IZR. destruct (base_Int_part (- x)). lra. Qed.
Lemma IZR_le_inv a b : IZR a < IZR b + 1 -> (a <= b)%Z.
Proof. intros H. apply Z.lt_succ_r. apply lt_IZR. rewrite succ_IZR. exact H. Qed.
Lemma floor_unique x k : IZR k <= x < IZR k + 1 -> py_floor x = k.
Proof. intros H. pose proof (floor_spec x). apply Z.le_antisymm; apply IZR_le_inv; lra. Qed.
Lemma ceil_least y d : 0 < d -> least (fun n => y <= IZR n * d) (py_ceil (y / d)).
Proof.
  intros Hd. pose proof (ceil_spec (y / d)) as [H1 H2]. split.
  - apply (Rmult_le_compat_r d) in H2; [|lra]. replace (y / d * d) with y in H2 by (field; lra). exact H2.
  - intros k Hk. apply IZR_le_inv. apply (Rmult_lt_reg_r d); [exact Hd|].
    apply (Rmult_lt_compat_r d) in H1; [|exact Hd]. replace (y / d * d) with y in H1 by (field; lra). lra.
Qed.

(** ** Periods *)
Lemma fold_Rmax l x : largest (x :: l) (fold_left Rmax l x).
Proof.
  revert x; induction l as [|y l IH]; intros x; cbn [fold_left].
  - split; [left; reflexivity | intros q [<-|[]]; lra].
  - destruct (IH (Rmax x y)) as [HI HB]. split.
    + destruct HI as [HI|HI]; [|right; right; exact HI]. rewrite <- HI. unfold Rmax. destruct (Rle_dec x y); [right; left | left]; reflexivity.
    + pose proof (Rmax_l x y). pose proof (Rmax_r x y). pose proof (HB _ (or_introl eq_refl)).
      intros q [<-|[<-|Hq]]; [lra | lra | apply HB; right; exact Hq].
Qed.
Lemma py_max_spec l p : py_max l = Ok p <-> (l <> [] /\ largest l p).
Proof.
  destruct l as [|x l]; cbn [py_max]; [split; [discriminate | intros [H _]; congruence]|]. pose proof (fold_Rmax l x) as [HI HB]. split.
  - intros H. apply Ok_eq in H. subst p. split; [discriminate | split; assumption].
  - intros [_ [HI' HB']]. f_equal. apply Rle_antisym; [apply HB'; exact HI | apply HB; exact HI'].
Qed.
Lemma largest_unique l p q : largest l p -> largest l q -> p = q.
Proof. intros [H1 H2] [H3 H4]. apply Rle_antisym; auto. Qed.
Lemma largest_two l1 l2 p q : largest l1 p -> largest l2 q -> largest (l1 ++ l2) (Rmax p q).
Proof.
  intros [H1 H2] [H3 H4]. split.
  - apply in_or_app. unfold Rmax. destruct (Rle_dec p q); auto.
  - intros r Hr. pose proof (Rmax_l p q). pose proof (Rmax_r p q). apply in_app_or in Hr. destruct Hr as [Hr|Hr]; [apply H2 in Hr | apply H4 in Hr]; lra.
Qed.
Lemma largest_one p : largest [p] p. Proof. split; [left; reflexivity | intros q [<-|[]]; lra]. Qed.
Lemma largest_concat (ls : list (list R)) ps p : Forall2 largest ls ps -> largest ps p -> largest (concat ls) p.
Proof.
  intros HF [HI HB]. split.
  - clear HB. induction HF as [|l q ls ps Hl HF IH]; [destruct HI|]. cbn [concat]. apply in_or_app.
    destruct HI as [<-|HI]; [left; apply Hl | right; apply IH; exact HI].
  - intros r Hr. apply in_concat in Hr. destruct Hr as (l & Hl & Hr). clear HI.
    induction HF as [|l' q ls ps Hl' HF IH]; [destruct Hl|]. destruct Hl as [->|Hl].
    + apply Hl' in Hr. pose proof (HB q (or_introl eq_refl)). lra.
    + apply IH; [intros; apply HB; right; assumption | exact Hl].
Qed.
Lemma section_period m : largest (section_periods m) (sm_max_period m).
Proof.
  unfold sm_max_period, section_periods. change [?a; ?b; ?c] with (([a] ++ [b]) ++ [c]).
  repeat apply largest_two; apply largest_one.
Qed.
Lemma three_more l p a b c : largest l p -> largest (l ++ [a; b; c]) (Rmax (Rmax (Rmax p a) b) c).
Proof.
  intros H. change [a; b; c] with ([a] ++ [b] ++ [c]). rewrite !app_assoc. repeat apply largest_two; try apply largest_one. exact H.
Qed.
Lemma map_nonempty {A B} (f : A -> B) l : map f l <> [] <-> l <> [].
Proof. destruct l; cbn; split; intros H; try congruence; discriminate. Qed.
Lemma wing_period m p : wm_max_period m = Ok p -> largest (wing_periods m) p.
Proof.
  unfold wm_max_period. intros H. inv_ok H. apply Ok_eq in H. subst p. apply py_max_spec in E. destruct E as [_ E].
  unfold wing_periods. apply three_more. eapply largest_concat; [|exact E].
  induction (wm_sections m) as [|s l IH]; cbn [map]; constructor; [apply section_period|]. clear -l. induction l; cbn; constructor; [apply section_period | assumption].
Qed.
Lemma Forall2_mapl {A B C} (P : C -> B -> Prop) (f : A -> C) l m : Forall2 (fun x y => P (f x) y) l m -> Forall2 P (map f l) m.
Proof. induction 1; cbn; constructor; assumption. Qed.
Lemma Forall2_weaken {A B} (P Q : A -> B -> Prop) l m : (forall x y, P x y -> Q x y) -> Forall2 P l m -> Forall2 Q l m.
Proof. induction 2; constructor; auto. Qed.
Lemma airplane_period m p : am_max_period m = Ok p -> largest (airplane_periods m) p.
Proof.
  unfold am_max_period. intros H. inv_ok H. inv_ok H. apply Ok_eq in H. subst p. apply py_max_spec in E0. destruct E0 as [_ E0].
  unfold airplane_periods. apply three_more. eapply largest_concat; [|exact E0]. apply mapM_Forall2 in E. apply Forall2_mapl.
  eapply Forall2_weaken; [|exact E]. cbn. intros; apply wing_period; assumption.
Qed.
Lemma max_period_largest ams om p : max_period ams om = Ok p -> largest (all_periods ams om) p.
Proof.
  unfold max_period. intros H. inv_ok H. inv_ok H. apply Ok_eq in H. subst p. apply py_max_spec in E0. destruct E0 as [_ E0].
  unfold all_periods. apply largest_two; [|apply largest_one]. eapply largest_concat; [|exact E0]. apply mapM_Forall2 in E. apply Forall2_mapl.
  eapply Forall2_weaken; [|exact E]. cbn. intros; apply airplane_period; assumption.
Qed.
Lemma mapM_all_ok {A B} (f : A -> result B) l : (forall x, In x l -> exists y, f x = Ok y) -> exists m, mapM f l = Ok m.
Proof.
  induction l as [|x l IH]; intros H; [exists []; reflexivity|]. destruct (H x (or_introl eq_refl)) as [y Hy].
  destruct IH as [m Hm]; [intros; apply H; right; assumption|]. exists (y :: m). cbn [mapM]. rewrite Hy. cbn [bind]. rewrite Hm. reflexivity.
Qed.
Lemma py_max_total l : l <> [] -> exists p, py_max l = Ok p.
Proof. destruct l; [congruence | intros; eexists; reflexivity]. Qed.
Lemma mapM_nonempty {A B} (f : A -> result B) l m : mapM f l = Ok m -> l <> [] -> m <> [].
Proof. intros H Hl. apply mapM_Forall2 in H. destruct H; [congruence | discriminate]. Qed.
Lemma max_period_total ams om : (exists p, max_period ams om = Ok p) <-> populated ams.
Proof.
  split.
  - intros [p H]. unfold max_period in H. inv_ok H. inv_ok H. clear H. apply py_max_spec in E0. destruct E0 as [HN _].
    apply mapM_Forall2 in E. split; [destruct E; congruence|]. intros a Ha.
    assert (HA : exists q, am_max_period a = Ok q).
    { clear HN. induction E; [destruct Ha|]. destruct Ha as [->|Ha]; [eauto | auto]. }
    destruct HA as [q HA]. unfold am_max_period in HA. inv_ok HA. inv_ok HA. clear HA. apply py_max_spec in E1. destruct E1 as [HN1 _].
    apply mapM_Forall2 in E0. split; [destruct E0; congruence|]. intros w Hw.
    assert (HW : exists q, wm_max_period w = Ok q).
    { clear HN1. induction E0; [destruct Hw|]. destruct Hw as [->|Hw]; [eauto | auto]. }
    destruct HW as [q' HW]. unfold wm_max_period in HW. inv_ok HW. apply py_max_spec in E1. destruct E1 as [HN2 _]. apply map_nonempty in HN2. exact HN2.
  - intros [HN HA]. unfold max_period.
    destruct (mapM_all_ok am_max_period ams) as [ps Hps].
    { intros a Ha. destruct (HA a Ha) as [HN1 HW]. unfold am_max_period. destruct (mapM_all_ok wm_max_period (am_wings a)) as [ps Hps].
      - intros w Hw. unfold wm_max_period. destruct (py_max_total (map sm_max_period (wm_sections w))) as [p ->]; [apply map_nonempty, HW, Hw|].
        eexists; reflexivity.
      - rewrite Hps. cbn [bind]. destruct (py_max_total ps) as [p ->]; [eapply mapM_nonempty; eassumption|]. eexists; reflexivity. }
    rewrite Hps. cbn [bind]. destruct (py_max_total ps) as [p ->]; [eapply mapM_nonempty; eassumption|]. eexists; reflexivity.
Qed.
Lemma period_zero_iff ams om p : max_period ams om = Ok p -> (forall q, In q (all_periods ams om) -> 0 <= q) ->
  (p = 0 <-> forall q, In q (all_periods ams om) -> q = 0).
Proof.
  intros H Hpos. apply max_period_largest in H. destruct H as [HI HB]. split.
  - intros -> q Hq. apply Rle_antisym; [apply HB | apply Hpos]; exact Hq.
  - intros HZ. apply HZ, HI.
Qed.

(** ** Oscillations *)
Lemma count_spec n k : count n = Ok k <-> ((0 <= n)%Z /\ k = Z.to_nat n).
Proof.
  unfold count. destruct (0 <=? n)%Z eqn:E; [apply Z.leb_le in E | apply Z.leb_gt in E]; split; intros H; try discriminate.
  - apply Ok_eq in H. auto.
  - destruct H as [_ ->]. reflexivity.
  - lia.
Qed.
Lemma times_nth n dt i : (0 <= n)%Z -> (i < Z.to_nat n)%nat -> nth_error (linspace_open 0 (IZR n * dt) (Z.to_nat n)) i = Some (INR i * dt).
Proof.
  intros Hn Hi. unfold linspace_open. rewrite nth_error_map, nth_error_seq0. destruct (Nat.ltb_spec i (Z.to_nat n)); [|lia].
  cbn [option_map]. f_equal. assert (IZR n <> 0) by (apply not_0_IZR; lia). rewrite INR_IZR_INZ with (n := Z.to_nat n), Z2Nat.id by exact Hn.
  field. exact H0.
Qed.
Lemma nth_repeat_some {A} (x : A) n i y : nth_error (repeat x n) i = Some y -> y = x.
Proof. intros H. apply nth_error_In, repeat_spec in H. exact H. Qed.
Lemma moving_false a T : Reqb a 0 || Reqb T 0 = false -> a <> 0 /\ T <> 0.
Proof. intros H. apply orb_false_iff in H. rewrite !Reqb_false in H. exact H. Qed.
Lemma moving_true a T : Reqb a 0 || Reqb T 0 = true -> a = 0 \/ T = 0.
Proof. intros H. apply orb_true_iff in H. rewrite !Reqb_true in H. exact H. Qed.
Lemma wave_eq (w g : R -> R) a T base n dt l :
  (forall t, T <> 0 -> a <> 0 -> g t = base + a * w (t / T)) ->
  (let* k := count n in
   if Reqb a 0 || Reqb T 0 then Ok (repeat base k) else Ok (map g (linspace_open 0 (IZR n * dt) k))) = Ok l ->
  follows_wave w a T base n dt l.
Proof.
  intros Hg H. inv_ok H. apply count_spec in E. destruct E as [Hn ->]. destruct (Reqb a 0 || Reqb T 0) eqn:E; apply Ok_eq in H; subst l.
  - split; [apply repeat_length|]. split; [exact Hn|]. intros i v Hv. apply nth_repeat_some in Hv. subst v. split; [reflexivity|].
    intros HT. apply moving_true in E. destruct E as [->|E]; [ring | contradiction].
  - apply moving_false in E. destruct E as [Ha HT]. split; [rewrite map_length; unfold linspace_open; rewrite map_length, seq_length; reflexivity|].
    split; [exact Hn|]. intros i v Hv. assert (Hi : (i < Z.to_nat n)%nat).
    { assert (HS : nth_error (map g (linspace_open 0 (IZR n * dt) (Z.to_nat n))) i <> None) by congruence. apply nth_error_Some in HS.
      rewrite map_length in HS. unfold linspace_open in HS. rewrite map_length, seq_length in HS. exact HS. }
    rewrite nth_error_map, times_nth in Hv by assumption. injection Hv as <-. split; [intros [H|H]; contradiction|]. intros _. apply Hg; assumption.
Qed.
Definition tri (s : R) : R := sawtooth (2 * PI * s + PI / 2).
Lemma sinspace_wave a T base n dt l : oscillating_sinspace a T base n dt = Ok l -> follows_wave sine_wave a T base n dt l.
Proof. apply wave_eq. intros t HT _. unfold sine_wave. replace (2 * PI / T * (t - 0)) with (2 * PI * (t / T)) by (field; exact HT). ring. Qed.
Lemma linspace_wave a T base n dt l : oscillating_linspace a T base n dt = Ok l -> follows_wave tri a T base n dt l.
Proof. apply wave_eq. intros t HT _. unfold tri. replace (2 * PI / T * t) with (2 * PI * (t / T)) by (field; exact HT). ring. Qed.
Lemma customspace_wave f a T base n dt l : oscillating_customspace a T base n dt f = Ok l -> follows_wave (fun s => f (2 * PI * s)) a T base n dt l.
Proof. apply wave_eq. intros t HT _. replace (2 * PI / T * (t - 0)) with (2 * PI * (t / T)) by (field; exact HT). ring. Qed.
(** The triangle. *)
Lemma tri_frac s k : IZR k <= s + 1 / 4 < IZR k + 1 ->
  tri s = (let f := s + 1 / 4 - IZR k in if Rltb f (1 / 2) then 4 * f - 1 else 3 - 4 * f).
Proof.
  intros Hk. pose proof PI_RGT_0 as HP. unfold tri, sawtooth. 
  replace ((2 * PI * s + PI / 2) / (2 * PI)) with (s + 1 / 4) by (field; lra). rewrite (floor_unique _ k Hk). cbn beta zeta.
  set (f := s + 1 / 4 - IZR k). replace (2 * PI * s + PI / 2 - 2 * PI * IZR k) with (2 * PI * f) by (unfold f; field).
  destruct (Rltb f (1 / 2)) eqn:E.
  - apply Rltb_true in E. replace (Rltb (2 * PI * f) (2 * PI * (5 / 10))) with true; [field; lra|].
    symmetry. apply Rltb_true. apply Rmult_lt_compat_l; lra.
  - apply Rltb_false in E. replace (Rltb (2 * PI * f) (2 * PI * (5 / 10))) with false; [field; lra|].
    symmetry. apply Rltb_false. apply Rmult_le_compat_l; lra.
Qed.
Ltac tri_at k := rewrite (tri_frac _ k) by (cbn [IZR IPR IPR_2]; lra); cbn beta zeta;
  match goal with |- context [Rltb ?x ?y] => destruct (Rltb x y) eqn:?; [rewrite Rltb_true in * | rewrite Rltb_false in *] end; lra.
Lemma tri_period s k : tri (s + IZR k) = tri s.
Proof.
  pose proof (floor_spec (s + 1 / 4)) as H. set (j := py_floor (s + 1 / 4)) in *.
  rewrite (tri_frac s j H). rewrite (tri_frac (s + IZR k) (j + k)); [|rewrite plus_IZR; lra].
  rewrite plus_IZR. cbn beta zeta. replace (s + IZR k + 1 / 4 - (IZR j + IZR k)) with (s + 1 / 4 - IZR j) by ring. reflexivity.
Qed.
Lemma tri_triangle : triangle_wave tri.
Proof.
  split; [|split; [|split]].
  - intros t Ht. tri_at 0%Z.
  - intros t Ht. destruct (Req_dec t (3 / 4)) as [->|Hn]; [tri_at 1%Z | tri_at 0%Z].
  - intros t Ht. tri_at 1%Z.
  - intros t k. apply tri_period.
Qed.
Lemma triangle_bounded f : triangle_wave f -> forall s, Rabs (f s) <= 1.
Proof.
  intros (H1 & H2 & H3 & HP) s. pose proof (floor_spec s) as Hk. set (k := py_floor s) in *.
  replace s with ((s - IZR k) + IZR k) by ring. rewrite HP. set (t := s - IZR k). assert (Ht : 0 <= t < 1) by (unfold t; lra). apply Rabs_le.
  destruct (Rle_dec t (1 / 4)); [rewrite H1 by lra; lra|]. destruct (Rle_dec t (3 / 4)); [rewrite H2 by lra | rewrite H3 by lra]; lra.
Qed.
Lemma sine_period s k : sine_wave (s + IZR k) = sine_wave s.
Proof.
  unfold sine_wave. rewrite Rmult_plus_distr_l.
  assert (HN : forall (x : R) n, sin (x + 2 * PI * INR n) = sin x) by (intros; rewrite <- (sin_period x n) at 1; f_equal; ring).
  destruct k as [|p|p].
  - f_equal. ring.
  - replace (IZR (Z.pos p)) with (INR (Pos.to_nat p)); [apply HN|]. rewrite INR_IZR_INZ, positive_nat_Z. reflexivity.
  - rewrite <- (HN (2 * PI * s + 2 * PI * IZR (Z.neg p)) (Pos.to_nat p)). f_equal. rewrite INR_IZR_INZ, positive_nat_Z.
    change (Z.neg p) with (- Z.pos p)%Z. rewrite opp_IZR. ring.
Qed.
Lemma sine_bounded s : Rabs (sine_wave s) <= 1.
Proof. apply Rabs_le. apply SIN_bound. Qed.
Section Wave.
  Variables (w : R -> R) (a T base : R) (n : Z) (dt : R) (l : list R).
  Hypothesis HW : follows_wave w a T base n dt l.
  Lemma wave_start v : w 0 = 0 -> nth_error l 0 = Some v -> v = base.
  Proof.
    intros H0 Hv. destruct HW as (_ & _ & H). destruct (H _ _ Hv) as [H1 H2]. destruct (Req_dec T 0) as [E|E]; [auto|]. rewrite (H2 E).
    cbn [INR]. replace (0 * dt / T) with 0 by (field; exact E). rewrite H0. ring.
  Qed.
  Lemma wave_bound i v : (forall s, Rabs (w s) <= 1) -> nth_error l i = Some v -> Rabs (v - base) <= Rabs a.
  Proof.
    intros HB Hv. destruct HW as (_ & _ & H). destruct (H _ _ Hv) as [H1 H2]. destruct (Req_dec T 0) as [E|E].
    - rewrite H1 by auto. replace (base - base) with 0 by ring. rewrite Rabs_R0. apply Rabs_pos.
    - rewrite (H2 E). replace (base + _ - base) with (a * w (INR i * dt / T)) by ring. rewrite Rabs_mult.
      rewrite <- (Rmult_1_r (Rabs a)) at 2. apply Rmult_le_compat_l; [apply Rabs_pos | apply HB].
  Qed.
  Lemma wave_repeats i k j u v : (forall s m, w (s + IZR m) = w s) -> INR k * dt = IZR j * T ->
    nth_error l i = Some u -> nth_error l (i + k) = Some v -> v = u.
  Proof.
    intros HP Hk Hu Hv. destruct HW as (_ & _ & H). destruct (H _ _ Hu) as [H1 H2]. destruct (H _ _ Hv) as [H3 H4].
    destruct (Req_dec T 0) as [E|E]; [rewrite H1, H3 by auto; reflexivity|]. rewrite (H2 E), (H4 E). rewrite plus_INR.
    replace ((INR i + INR k) * dt / T) with (INR i * dt / T + IZR j); [rewrite HP; reflexivity|].
    replace (IZR j) with (INR k * dt / T) by (rewrite Hk; field; exact E). field. exact E.
  Qed.
End Wave.
(** Dispatch on the spacing. *)
Lemma oscillate_wave o base n dt l : oscillate o base n dt = Ok l ->
  (osc_spacing o = "sine"%string /\ follows_wave sine_wave (osc_amplitude o) (osc_period o) base n dt l) \/
  (osc_spacing o = "uniform"%string /\ follows_wave tri (osc_amplitude o) (osc_period o) base n dt l).
Proof.
  unfold oscillate. destruct (String.eqb_spec (osc_spacing o) "sine") as [E|_]; [intros H; left; split; [exact E | apply sinspace_wave; exact H]|].
  destruct (String.eqb_spec (osc_spacing o) "uniform") as [E|_]; [intros H; right; split; [exact E | apply linspace_wave; exact H]|]. intros H; discriminate H.
Qed.
Lemma oscillate_custom_wave o c base n dt l : oscillate_custom o c base n dt = Ok l ->
  (osc_spacing o = "sine"%string /\ follows_wave sine_wave (osc_amplitude o) (osc_period o) base n dt l) \/
  (osc_spacing o = "uniform"%string /\ follows_wave tri (osc_amplitude o) (osc_period o) base n dt l) \/
  (osc_spacing o = "custom"%string /\ exists f, c = Some f /\ follows_wave (fun s => f (2 * PI * s)) (osc_amplitude o) (osc_period o) base n dt l).
Proof.
  unfold oscillate_custom. destruct (String.eqb_spec (osc_spacing o) "sine") as [E|_]; [intros H; left; split; [exact E | apply sinspace_wave; exact H]|].
  destruct (String.eqb_spec (osc_spacing o) "uniform") as [E|_]; [intros H; right; left; split; [exact E | apply linspace_wave; exact H]|].
  destruct (String.eqb_spec (osc_spacing o) "custom") as [E|_]; [|intros H; discriminate H].
  destruct c as [f|]; [|intros H; discriminate H]. intros H. right; right. split; [exact E|]. exists f. split; [reflexivity | apply customspace_wave; exact H].
Qed.
Lemma oscillate_length o base n dt l : oscillate o base n dt = Ok l -> length l = Z.to_nat n /\ (0 <= n)%Z.
Proof. intros H. apply oscillate_wave in H. destruct H as [[_ (H1 & H2 & _)]|[_ (H1 & H2 & _)]]; auto. Qed.
Lemma oscillate_custom_length o c base n dt l : oscillate_custom o c base n dt = Ok l -> length l = Z.to_nat n /\ (0 <= n)%Z.
Proof. intros H. apply oscillate_custom_wave in H. destruct H as [[_ (H1 & H2 & _)]|[[_ (H1 & H2 & _)]|[_ (f & _ & H1 & H2 & _)]]]; auto. Qed.
Lemma sine_0 : sine_wave 0 = 0. Proof. unfold sine_wave. rewrite Rmult_0_r. apply sin_0. Qed.
Lemma tri_0 : tri 0 = 0. Proof. rewrite (proj1 tri_triangle) by lra. lra. Qed.
Lemma oscillate_start o base n dt l v : oscillate o base n dt = Ok l -> nth_error l 0 = Some v -> v = base.
Proof. intros H Hv. apply oscillate_wave in H. destruct H as [[_ H]|[_ H]]; eapply wave_start; eauto using sine_0, tri_0. Qed.
Lemma oscillate_custom_start o c base n dt l v : starts_at_base o c -> oscillate_custom o c base n dt = Ok l -> nth_error l 0 = Some v -> v = base.
Proof.
  intros HS H Hv. apply oscillate_custom_wave in H. destruct H as [[_ H]|[[_ H]|[E (f & Ec & H)]]]; [eapply wave_start; eauto using sine_0 | eapply wave_start; eauto using tri_0 |].
  eapply wave_start; [exact H | | exact Hv]. cbn beta; rewrite Rmult_0_r. destruct HS as [HS|[HS|(_ & g & Eg & Hg)]]; [congruence | congruence|]. congruence.
Qed.

(** ** Snapshots of cross sections *)
Lemma map2_repeat_length {A B C} (f : A -> B -> C) a b n : length a = n -> length b = n -> length (map2 f a b) = n.
Proof. intros Ha Hb. rewrite map2_length'; congruence. Qed.
Lemma combine_eq_length {A B} (a : list A) (b : list B) n : length a = n -> length b = n -> length (combine a b) = n.
Proof. intros Ha Hb. rewrite combine_length. lia. Qed.
Lemma combine_nth_error {A B} (a : list A) (b : list B) i x y : nth_error (combine a b) i = Some (x, y) <-> nth_error a i = Some x /\ nth_error b i = Some y.
Proof.
  revert a b; induction i as [|i IH]; intros [|u a] [|v b]; cbn; try (split; [discriminate | intros [? ?]; discriminate]); [|apply IH].
  split; [intros [= -> ->]; auto | intros [[= ->] [= ->]]; reflexivity].
Qed.
Lemma map4M_spec {A B C D X} (f : A -> B -> C -> D -> result X) a b c d l n :
  length a = n -> length b = n -> length c = n -> length d = n -> map4M f a b c d = Ok l ->
  length l = n /\ forall i s, nth_error l i = Some s -> exists x y z t, nth_error a i = Some x /\ nth_error b i = Some y /\
    nth_error c i = Some z /\ nth_error d i = Some t /\ f x y z t = Ok s.
Proof.
  intros Ha Hb Hc Hd H. unfold map4M in H. assert (HL := mapM_Ok_length _ _ _ H).
  assert (Hcomb : length (combine (combine a b) (combine c d)) = n) by (repeat apply combine_eq_length; assumption).
  split; [congruence|]. intros i s Hs. assert (Hi : (i < n)%nat) by (rewrite <- Hcomb, <- HL; apply nth_error_Some; congruence).
  destruct (nth_error (combine (combine a b) (combine c d)) i) as [[[x y] [z t]]|] eqn:E; [|apply nth_error_None in E; lia].
  destruct (mapM_nth _ _ _ _ _ H E) as (s' & Hs' & Hf). cbn [fst snd] in Hf. rewrite Hs in Hs'. injection Hs' as <-.
  apply combine_nth_error in E. destruct E as [E1 E2]. apply combine_nth_error in E1. apply combine_nth_error in E2.
  exists x, y, z, t. tauto.
Qed.
Lemma section_at_kept b x y z t s : section_at b x y z t = Ok s ->
  section_kept b s /\ section_reset s /\ cs_leading_edge s = mkvec x y z /\ cs_twist s = t.
Proof.
  unfold section_at. intros H. apply section_attributes in H.
  destruct H as (H1 & H2 & H3 & H4 & H5 & H6 & H7 & H8 & H9 & H10). repeat split; assumption.
Qed.
(** The place of a section [i] steps into the movement. *)
Definition swung (last : vec) (span sweep heave : R) : vec :=
  mkvec (vx last + span * cos (sweep * PI / 180) * sin (heave * PI / 180))
        (vy last + span * cos (sweep * PI / 180) * cos (heave * PI / 180))
        (vz last + span * sin (sweep * PI / 180)).
Lemma generated_sections m n dt last vertical span sweep heave h :
  generate_sections m n dt last vertical span sweep heave = Ok h -> length last = Z.to_nat n ->
  length h = Z.to_nat n /\ (0 <= n)%Z /\
  exists sweeping pitching heaving,
    oscillate_custom (sm_sweeping m) (sm_custom_sweep m) sweep n dt = Ok sweeping /\
    oscillate_custom (sm_pitching m) (sm_custom_pitch m) (cs_twist (sm_base m)) n dt = Ok pitching /\
    oscillate_custom (sm_heaving m) (sm_custom_heave m) heave n dt = Ok heaving /\
    forall i s, nth_error h i = Some s -> section_kept (sm_base m) s /\ section_reset s /\
      if vertical then cs_leading_edge s = cs_leading_edge (sm_base m) /\ cs_twist s = cs_twist (sm_base m)
      else exists l sw pi he, nth_error last i = Some l /\ nth_error sweeping i = Some sw /\ nth_error pitching i = Some pi /\
             nth_error heaving i = Some he /\ cs_leading_edge s = swung l span sw he /\ cs_twist s = pi.
Proof.
  unfold generate_sections. intros H HL. inv_ok H. inv_ok H. inv_ok H. inv_ok H.
  destruct (oscillate_custom_length _ _ _ _ _ _ E) as [L1 Hn]. destruct (oscillate_custom_length _ _ _ _ _ _ E0) as [L2 _].
  destruct (oscillate_custom_length _ _ _ _ _ _ E1) as [L3 _]. apply count_spec in E2. destruct E2 as [_ ->].
  assert (LC : length (combine v v1) = Z.to_nat n) by (apply combine_eq_length; assumption).
  apply map4M_spec with (n := Z.to_nat n) in H; try (destruct vertical; [apply repeat_length | first [assumption | apply map2_repeat_length; assumption]]).
  destruct H as [HH HN]. split; [exact HH|]. split; [exact Hn|]. exists v, v0, v1. repeat (split; [assumption|]). intros i s Hs.
  destruct (HN i s Hs) as (x & y & z & t & Hx & Hy & Hz & Ht & HS). apply section_at_kept in HS. destruct HS as (K1 & K2 & K3 & K4).
  split; [exact K1|]. split; [exact K2|]. destruct vertical.
  - apply nth_repeat_some in Hx, Hy, Hz, Ht. subst. split; [rewrite K3; reflexivity | assumption].
  - assert (Hi : (i < Z.to_nat n)%nat) by (rewrite <- HH; apply nth_error_Some; congruence).
    destruct (nth_error last i) as [l|] eqn:EL; [|apply nth_error_None in EL; lia].
    destruct (nth_error v i) as [sw|] eqn:ES; [|apply nth_error_None in ES; lia].
    destruct (nth_error v1 i) as [he|] eqn:EH; [|apply nth_error_None in EH; lia].
    assert (EC : nth_error (combine v v1) i = Some (sw, he)) by (apply combine_nth_error; auto).
    exists l, sw, t, he. split; [reflexivity|]. split; [reflexivity|]. split; [exact Ht|]. split; [reflexivity|]. split; [|exact K4].
    rewrite K3. rewrite (map2_nth _ _ _ _ _ _ EL EC) in Hx. rewrite (map2_nth _ _ _ _ _ _ EL EC) in Hy. rewrite (map2_nth _ _ _ _ _ _ EL EC) in Hz. cbn [fst snd] in *.
    injection Hx as <-. injection Hy as <-. injection Hz as <-. reflexivity.
Qed.
Lemma nth_In_Forall {A} (P : A -> Prop) l : (forall i x, nth_error l i = Some x -> P x) -> Forall P l.
Proof. intros H. apply Forall_forall. intros x Hx. apply In_nth_error in Hx. destruct Hx as [i Hi]. eapply H; exact Hi. Qed.
Definition history_of (n : Z) (m : section_movement) (h : list section) : Prop :=
  length h = Z.to_nat n /\ Forall (fun s => section_kept (sm_base m) s /\ section_reset s) h.
Lemma histories_spec n dt ms : forall last hs, section_histories n dt last ms = Ok hs ->
  (forall l, last = Some l -> length l = Z.to_nat n) -> Forall2 (history_of n) ms hs.
Proof.
  induction ms as [|m ms IH]; intros last hs H HL; [injection H as <-; constructor|]. cbn [section_histories] in H.
  inv_ok H. rename v into h, E into E0. inv_ok H. apply Ok_eq in H. subst hs.
  assert (HH : history_of n m h).
  { destruct last as [l|].
    - inv_ok E0. destruct (base_angles _ v0) as [[[span sweep] heave] vertical]. apply generated_sections in E0; [|rewrite map_length; apply HL; reflexivity].
      destruct E0 as (G1 & _ & sw & pi & he & _ & _ & _ & G2). split; [exact G1|]. apply nth_In_Forall. intros i s Hs.
      destruct (G2 i s Hs) as (K1 & K2 & _). auto.
    - do 2 inv_ok E0. apply generated_sections in E0; [|apply count_spec in E2; destruct E2 as [_ ->]; apply repeat_length].
      destruct E0 as (G1 & _ & sw & pi & he & _ & _ & _ & G2). split; [exact G1|]. apply nth_In_Forall. intros i s Hs.
      destruct (G2 i s Hs) as (K1 & K2 & _). auto. }
  constructor; [exact HH|]. apply (IH (Some h)); [assumption|]. intros l [= <-]. apply HH.
Qed.
Lemma column_Forall2 {A B} (P : A -> B -> Prop) (Q : A -> list B -> Prop) ms hs i l :
  (forall m h x, Q m h -> nth_error h i = Some x -> P m x) -> Forall2 Q ms hs -> column hs i = Ok l -> Forall2 P ms l.
Proof.
  intros HPQ HF. revert l; induction HF as [|m h ms hs Hh HF IH]; intros l H; [injection H as <-; constructor|].
  unfold column in *. cbn [mapM] in H. do 2 inv_ok H. apply Ok_eq in H. subst l. constructor; [|apply IH; assumption].
  apply index_Some in E. eapply HPQ; eassumption.
Qed.
Lemma history_at n m h i s : history_of n m h -> nth_error h i = Some s -> section_kept (sm_base m) s /\ section_reset s.
Proof. intros [_ HF] Hs. rewrite Forall_forall in HF. apply HF. eapply nth_error_In; exact Hs. Qed.
Lemma kept_chordwise c b s : section_kept b s -> section_kept b (cs_set_wing_chordwise c s).
Proof. intros H. exact H. Qed.
(** ** Snapshots of wings and airplanes *)
Lemma generated_wings m n dt ws : generate_wings m n dt = Ok ws ->
  length ws = Z.to_nat n /\ (0 <= n)%Z /\
  exists xs ys zs hs, oscillate (wm_x_le m) (w_x_le (wm_base m)) n dt = Ok xs /\ oscillate (wm_y_le m) (w_y_le (wm_base m)) n dt = Ok ys /\
    oscillate (wm_z_le m) (w_z_le (wm_base m)) n dt = Ok zs /\ section_histories n dt None (wm_sections m) = Ok hs /\
    forall i w, nth_error ws i = Some w -> exists x y z sections,
      nth_error xs i = Some x /\ nth_error ys i = Some y /\ nth_error zs i = Some z /\ column hs i = Ok sections /\
      new_wing sections (w_name (wm_base m)) x y z default_unit_normal (w_symmetric (wm_base m)) default_unit_chordwise
        (w_num_chordwise_panels (wm_base m)) (w_chordwise_spacing (wm_base m)) = Ok w.
Proof.
  unfold generate_wings. intros H. do 4 inv_ok H. assert (HL := mapM_Ok_length _ _ _ H). rewrite seq_length in HL.
  destruct (oscillate_length _ _ _ _ _ E) as [_ Hn]. split; [exact HL|]. split; [exact Hn|]. exists v, v0, v1, v2. repeat (split; [assumption|]).
  intros i w Hw. assert (Hi : (i < Z.to_nat n)%nat) by (rewrite <- HL; apply nth_error_Some; congruence).
  assert (ES : nth_error (seq 0 (Z.to_nat n)) i = Some i) by (rewrite nth_error_seq0; destruct (Nat.ltb_spec i (Z.to_nat n)); [reflexivity | lia]).
  destruct (mapM_nth _ _ _ _ _ H ES) as (w' & Hw' & Hf). rewrite Hw in Hw'. injection Hw' as <-. cbn beta in Hf.
  do 4 inv_ok Hf. rename v3 into x, v4 into y, v5 into z, v6 into sections. exists x, y, z, sections.
  repeat match goal with H : index _ _ = Ok _ |- _ => apply index_Some in H end. auto 10.
Qed.
Lemma generated_wing_kept m n dt ws i w : generate_wings m n dt = Ok ws -> nth_error ws i = Some w -> wing_kept m w /\ wing_reset w.
Proof.
  intros H Hw. destruct (generated_wings _ _ _ _ H) as (_ & _ & xs & ys & zs & hs & _ & _ & _ & EH & HN).
  destruct (HN i w Hw) as (x & y & z & sections & _ & _ & _ & EC & EW). apply histories_spec in EH; [|intros l HX; discriminate HX].
  assert (HF : Forall2 (fun sm s => section_kept (sm_base sm) s /\ section_reset s) (wm_sections m) sections).
  { eapply column_Forall2; [|exact EH | exact EC]. intros; eapply history_at; eassumption. }
  apply wing_attributes in EW. destruct EW as (W1 & W2 & W3 & W4 & W5 & W6 & W7 & W8 & _). unfold wing_kept, wing_reset. rewrite W8.
  assert (HM : forall P : section -> Prop, (forall s, P s -> P (cs_set_wing_chordwise default_unit_chordwise s)) ->
            Forall P sections -> Forall P (map (cs_set_wing_chordwise default_unit_chordwise) sections)).
  { intros P HP HFP. apply Forall_map. eapply Forall_impl; [|exact HFP]. cbn. exact HP. }
  split; [repeat (split; [assumption|]) | split; [exact W3 | split; [exact W5|]]].
  - clear -HF. induction HF as [|sm s a b [K _] HF IH]; cbn; constructor; [exact K | exact IH].
  - apply HM; [intros s Hs; exact Hs|]. clear -HF. induction HF as [|sm s a b [_ K] HF IH]; constructor; assumption.
Qed.
Lemma generated_airplanes m n dt l : generate_airplanes m n dt = Ok l ->
  length l = Z.to_nat n /\ (0 <= n)%Z /\
  exists xs ys zs hs, oscillate (am_x_ref m) (a_x_ref (am_base m)) n dt = Ok xs /\ oscillate (am_y_ref m) (a_y_ref (am_base m)) n dt = Ok ys /\
    oscillate (am_z_ref m) (a_z_ref (am_base m)) n dt = Ok zs /\ mapM (fun w => generate_wings w n dt) (am_wings m) = Ok hs /\
    forall i a, nth_error l i = Some a -> exists x y z wings,
      nth_error xs i = Some x /\ nth_error ys i = Some y /\ nth_error zs i = Some z /\ column hs i = Ok wings /\
      new_airplane wings (a_name (am_base m)) x y z 0 None None None = Ok a.
Proof.
  unfold generate_airplanes. intros H. do 4 inv_ok H. assert (HL := mapM_Ok_length _ _ _ H). rewrite seq_length in HL.
  destruct (oscillate_length _ _ _ _ _ E) as [_ Hn]. split; [exact HL|]. split; [exact Hn|]. exists v, v0, v1, v2. repeat (split; [assumption|]).
  intros i w Hw. assert (Hi : (i < Z.to_nat n)%nat) by (rewrite <- HL; apply nth_error_Some; congruence).
  assert (ES : nth_error (seq 0 (Z.to_nat n)) i = Some i) by (rewrite nth_error_seq0; destruct (Nat.ltb_spec i (Z.to_nat n)); [reflexivity | lia]).
  destruct (mapM_nth _ _ _ _ _ H ES) as (w' & Hw' & Hf). rewrite Hw in Hw'. injection Hw' as <-. cbn beta in Hf.
  do 4 inv_ok Hf. rename v3 into x, v4 into y, v5 into z, v6 into wings. exists x, y, z, wings.
  repeat match goal with H : index _ _ = Ok _ |- _ => apply index_Some in H end. auto 10.
Qed.
Lemma generated_airplane_kept m n dt l i a : generate_airplanes m n dt = Ok l -> nth_error l i = Some a -> airplane_kept m a /\ airplane_reset a.
Proof.
  intros H Ha. destruct (generated_airplanes _ _ _ _ H) as (_ & _ & xs & ys & zs & hs & _ & _ & _ & EH & HN).
  destruct (HN i a Ha) as (x & y & z & wings & _ & _ & _ & EC & EA). apply mapM_Forall2 in EH.
  assert (HF : Forall2 (fun wm w => wing_kept wm w /\ wing_reset w) (am_wings m) wings).
  { eapply column_Forall2; [|exact EH | exact EC]. cbn beta. intros; eapply generated_wing_kept; eassumption. }
  unfold new_airplane in EA. destruct wings as [|main wings]; [intros; discriminate EA|]. apply Ok_eq in EA. subst a.
  unfold airplane_kept, airplane_reset. cbn [a_name a_wings a_weight a_s_ref a_c_ref a_b_ref override nth_error]. split.
  - split; [reflexivity|]. eapply Forall2_weaken; [|exact HF]. cbn; tauto.
  - split; [reflexivity|]. split; [|exists main; auto].
    clear -HF. induction HF as [|wm w a b [_ K] HF IH]; constructor; assumption.
Qed.
Lemma generated_operating_points m n dt l : generate_operating_points m n dt = Ok l ->
  length l = Z.to_nat n /\ (0 <= n)%Z /\ exists vs, oscillate (om_velocity m) (op_velocity (om_base m)) n dt = Ok vs /\
  forall i op, nth_error l i = Some op -> exists v, nth_error vs i = Some v /\
    op = mkop (op_density (om_base m)) v (op_alpha (om_base m)) (op_beta (om_base m)) 0 (1506 / 100000000).
Proof.
  unfold generate_operating_points. intros H. inv_ok H. assert (HL := mapM_Ok_length _ _ _ H). rewrite seq_length in HL.
  destruct (oscillate_length _ _ _ _ _ E) as [_ Hn]. split; [exact HL|]. split; [exact Hn|]. exists v. split; [assumption|].
  intros i w Hw. assert (Hi : (i < Z.to_nat n)%nat) by (rewrite <- HL; apply nth_error_Some; congruence).
  assert (ES : nth_error (seq 0 (Z.to_nat n)) i = Some i) by (rewrite nth_error_seq0; destruct (Nat.ltb_spec i (Z.to_nat n)); [reflexivity | lia]).
  destruct (mapM_nth _ _ _ _ _ H ES) as (w' & Hw' & Hf). rewrite Hw in Hw'. injection Hw' as <-. cbn beta in Hf.
  inv_ok Hf. apply Ok_eq in Hf. exists v0. split; [apply index_Some; assumption | symmetry; exact Hf].
Qed.
