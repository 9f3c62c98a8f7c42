(** A plate gliding edge on for three steps with a free wake: every point that the solver uses lies on one lattice. *)
From Coq Require Import List ZArith Lia Lra Bool Reals String.
From Verif Require Import M_Unsteady S_Unsteady S_UnsteadyRun S_Geometry S_Vortices S_Loads S_Solve S_Movement S_Mirror S_Solvable S_Similar S_Size S_SizeUnsteady S_Continuous S_ContinuousUnsteady
  L_Base L_Loads L_Horseshoe L_Frames L_Geometry L_Movement L_Problems L_Example L_Example3 L_Example4 L_Gauss L_Wake L_WakeWings L_Unsteady L_UnsteadyStep L_UnsteadyRun L_UnsteadyFinal L_UnsteadyProps L_UnsteadyProps2 L_UnsteadyFlow L_UnsteadyStill
  L_Size L_SizeSolvers L_SizeExample L_SizeMovement L_SizeRun L_SizeRunExample L_Limits L_Continuous L_ContinuousRun L_ContinuousExample L_ContinuousUnsteady L_ContinuousFlight S_Grazing L_ImageExample L_FlapExample L_SymmetricExample L_GrazingLoads L_GrazingExample.
Import ListNotations.
Local Open Scope R_scope.
Local Open Scope list_scope.

(** ** Points half a unit apart are never close to the edge of a cut-off *)
Definition lattice (p : vec) : Prop := exists m n : Z, p = mkvec (IZR m / 2) (IZR n / 2) 0.
Lemma lattice_at m n x y : x = IZR m / 2 -> y = IZR n / 2 -> lattice (mkvec x y 0).
Proof. intros -> ->. exists m, n. reflexivity. Qed.
Lemma tiny : 0 < / 2 ^ 52 < / 16.
Proof. split; [apply Rinv_0_lt_compat; lra | apply Rinv_lt_contravar; lra]. Qed.
Lemma lattice_apart a x : lattice a -> lattice x -> vsub a x = vzero \/ / 4 <= vdot (vsub a x) (vsub a x).
Proof.
  intros (m & n & ->) (k & l & ->). assert (D : vdot (vsub (mkvec (IZR m / 2) (IZR n / 2) 0) (mkvec (IZR k / 2) (IZR l / 2) 0)) (vsub (mkvec (IZR m / 2) (IZR n / 2) 0) (mkvec (IZR k / 2) (IZR l / 2) 0))
    = IZR ((m - k) * (m - k) + (n - l) * (n - l)) / 4) by (rewrite plus_IZR, !mult_IZR, !minus_IZR; vunfold; cbn; field).
  destruct (Z.eq_dec ((m - k) * (m - k) + (n - l) * (n - l)) 0) as [E|E].
  - left. pose proof (Z.square_nonneg (m - k)). pose proof (Z.square_nonneg (n - l)). assert (E1 : ((m - k) * (m - k) = 0)%Z) by lia. assert (E2 : ((n - l) * (n - l) = 0)%Z) by lia.
    apply Z.mul_eq_0 in E1, E2. assert (m = k) by lia. assert (n = l) by lia. subst. vunfold. apply vec_ext; cbn; ring.
  - right. rewrite D. assert (H : IZR 1 <= IZR ((m - k) * (m - k) + (n - l) * (n - l))) by (apply IZR_le; pose proof (Z.square_nonneg (m - k)); pose proof (Z.square_nonneg (n - l)); lia). lra.
Qed.
Lemma lattice_cross a b x : lattice a -> lattice b -> lattice x -> let c := vcross (vsub a x) (vsub b x) in c = vzero \/ / 16 <= vdot c c.
Proof.
  intros (m & n & ->) (k & l & ->) (i & j & ->) c. set (q := ((m - i) * (l - j) - (n - j) * (k - i))%Z). assert (E : c = mkvec 0 0 (IZR q / 4)).
  { unfold c, q. rewrite minus_IZR, !mult_IZR, !minus_IZR. vunfold. apply vec_ext; cbn; field. }
  rewrite E. destruct (Z.eq_dec q 0) as [H|H]; [left; rewrite H; vunfold; apply vec_ext; cbn; field|]. right.
  replace (vdot _ _) with (IZR (q * q) / 16) by (rewrite mult_IZR; vunfold; cbn; field). assert (IZR 1 <= IZR (q * q)) by (apply IZR_le; nia). lra.
Qed.
Lemma norm_apart u : u = vzero \/ / 4 <= vdot u u -> vnorm u = 0 \/ / 2 <= vnorm u.
Proof.
  intros [->|H]; [left; unfold vnorm; replace (vdot vzero vzero) with 0 by (vunfold; cbn; ring); apply sqrt_0 | right].
  unfold vnorm. rewrite <- (sqrt_square (/ 2)) by lra. apply sqrt_le_1; lra.
Qed.
Lemma lattice_off x a b : lattice x -> lattice a -> lattice b -> ~ on_edge x (a, b).
Proof.
  intros Hx Ha Hb X. pose proof tiny. unfold on_edge in X. cbn [fst snd] in X. cbv zeta in X. rewrite vnorm_sqr in X.
  pose proof (norm_apart _ (lattice_apart a x Ha Hx)). pose proof (norm_apart _ (lattice_apart b x Hb Hx)). destruct (lattice_cross a b x Ha Hb Hx) as [E|E].
  - rewrite E in X. assert (Z : vdot vzero vzero = 0) by (vunfold; cbn; ring). rewrite Z in X. lra.
  - lra.
Qed.
Lemma zero_cross_l u : vcross vzero u = vzero.
Proof. vunfold. apply vec_ext; cbn; ring. Qed.
Lemma zero_cross_r u : vcross u vzero = vzero.
Proof. vunfold. apply vec_ext; cbn; ring. Qed.
Lemma lattice_clear x a b : lattice x -> lattice a -> lattice b -> vcross (vsub a x) (vsub b x) = vzero \/ ~ cut_off x (a, b).
Proof.
  intros Hx Ha Hb. destruct (lattice_apart a x Ha Hx) as [E|E1]; [left; rewrite E; apply zero_cross_l|]. destruct (lattice_apart b x Hb Hx) as [E|E2]; [left; rewrite E; apply zero_cross_r|].
  destruct (lattice_cross a b x Ha Hb Hx) as [E|E3]; [left; exact E|]. right. intros X. pose proof tiny. unfold cut_off in X. cbn [fst snd] in X. cbv zeta in X. rewrite vnorm_sqr in X.
  pose proof (norm_apart _ (or_intror E1)). pose proof (norm_apart _ (or_intror E2)).
  assert (N : forall u, / 4 <= vdot u u -> / 2 <= vnorm u) by (intros u Hu; unfold vnorm; rewrite <- (sqrt_square (/ 2)) by lra; apply sqrt_le_1; lra).
  pose proof (N _ E1). pose proof (N _ E2). lra.
Qed.
Lemma lattice_add_right p k : lattice p -> lattice (vadd p (mkvec (IZR k) 0 0)).
Proof. intros (m & n & ->). exists (m + 2 * k)%Z, n. rewrite plus_IZR, mult_IZR. vunfold. apply vec_ext; cbn; field. Qed.

(** ** The plate *)
Section Glide.
  Variables (up : unsteady_problem) (a : airplane).
  Hypothesis HC : created up.
  Hypothesis HT : up_delta_time up = 1.
  Hypothesis HL : List.length (up_steady_problems up) = 3%nat.
  Hypothesis HG : grazes_all_along up 3.
  Hypothesis Ea : a_wings a = [ex_wing false].
  Hypothesis Hsteps : forall k sp, nth_error (up_steady_problems up) k = Some sp -> sp_airplanes sp = [a] /\ sp_operating_point sp = level_op 4 (1506 / 100000000).

  Lemma glide_ring n t k sp : has_run gauss_solve true up n t -> step_at t k sp ->
    exists p r w, step_panels sp = [p] /\ step_wings sp = [w] /\ trailing_panels w = [p] /\ p_collocation_point p = mkvec 3 (1 / 2) 0 /\ p_ring_vortex p = Some r /\ ring_consistent r /\
      rv_front_left r = mkvec 1 0 0 /\ rv_front_right r = mkvec 1 1 0 /\ rv_back_left r = mkvec 6 0 0 /\ rv_back_right r = mkvec 6 1 0 /\
      freestream_velocity (sp_operating_point sp) = mkvec 4 0 0.
  Proof.
    intros HR Hsp. pose proof (steps_kept _ gauss_solve_spec _ _ _ _ HC HR) as FK. destruct (Forall2_nth _ _ _ FK _ _ Hsp) as (sp0 & H0 & K). destruct (Hsteps _ _ H0) as (EA & EO).
    destruct (glide_panel _ gauss_solve_spec true up a HC HT Ea Hsteps n t k sp HR Hsp) as (p & r & EP & HP & Hr & HCr & R1 & R2 & R3 & R4).
    pose proof (kept_step_wings _ _ K) as FW. unfold step_wings at 1 in FW. rewrite EA in FW. cbn [map concat] in FW. rewrite Ea in FW. cbn [app] in FW.
    inversion FW as [|? w ? ws [Ew Fw] Fr X1 X2]; subst. inversion Fr; subst. symmetry in X2.
    cbn [ex_wing w_panels ex_panels] in Fw. change (set_positions 1 [[plain_panel 0 1]]) with [[ex_panel]] in Fw.
    inversion Fw as [|? row ? rows Frow Frows Y1 Y2]; subst. inversion Frows; subst. inversion Frow as [|? q ? ps HP' Fps Z1 Z2]; subst. inversion Fps; subst. symmetry in Y2.
    assert (EP' : step_panels sp = [q]) by (rewrite panels_of_wings, X2; cbn [map concat app]; rewrite Y2; reflexivity). rewrite EP in EP'. injection EP' as <-.
    exists p, r, w. split; [exact EP|]. split; [exact X2 || reflexivity|]. split; [unfold trailing_panels; rewrite Y2; reflexivity|].
    split; [destruct (same_panel_collocation _ _ HP) as [-> _]; exact (proj1 ex_panel_points)|]. repeat (split; [assumption|]). rewrite (proj1 K), EO. apply level_velocity.
  Qed.
  Lemma glide_step n t k : has_run gauss_solve true up n t -> (k < 3)%nat -> exists sp, step_at t k sp.
  Proof.
    intros HR Hk. pose proof (steps_kept _ gauss_solve_spec _ _ _ _ HC HR) as FK. apply nth_in_range. rewrite <- (Forall2_length _ _ _ FK), HL. exact Hk.
  Qed.
  Lemma glide_wake_node n t k i w r j v : has_run gauss_solve true up n t -> (0 < k <= n)%nat -> (k < 3)%nat -> wing_at t k i w -> entry (w_wake_vertices w) r j v -> lattice v.
  Proof.
    intros HR Hk Hk3 Hw HE. destruct (prescribed_vertices _ gauss_solve_spec up n t HC HR k i w r j v Hk Hw HE) as (Hr & w' & v0 & (sp' & Hsp' & Hw') & Hv0 & ->). rewrite HT.
    destruct (glide_ring _ _ _ _ HR Hsp') as (p & ring & w1 & EP & EW & ET & _ & Hring & _ & _ & _ & BL & BR & _).
    rewrite EW in Hw'. destruct i as [|i]; [|destruct i; discriminate]. cbn [nth_error] in Hw'. apply Some_eq in Hw'. subst w1.
    assert (Hsw : forall b, (b < 3)%nat -> freestream_at t b = mkvec 4 0 0).
    { intros b Hb. destruct (glide_step _ _ b HR Hb) as [spb Hspb]. destruct (glide_ring _ _ _ _ HR Hspb) as (_ & _ & _ & _ & _ & _ & _ & _ & _ & _ & _ & _ & _ & EF).
      unfold freestream_at. unfold step_at in Hspb. rewrite Hspb. exact EF. }
    assert (HV : lattice v0).
    { unfold trailing_vertices in Hv0. rewrite ET in Hv0. cbn [map last app] in Hv0. unfold back_left_of, back_right_of in Hv0. rewrite Hring, BL, BR in Hv0.
      destruct j as [|[|j]]; [| |destruct j; discriminate]; cbn [nth_error] in Hv0; apply Some_eq in Hv0; subst v0; [apply (lattice_at 12 0); lra | apply (lattice_at 12 2); lra]. }
    assert (Hd : (k - (k - r) = r)%nat) by lia. unfold swept. rewrite Hd.
    destruct r as [|[|[|r]]]; [| | | exfalso; lia]; cbn [seq map]; rewrite ?Hsw by lia.
    - replace (vscale 1 _) with (mkvec (IZR 0) 0 0) by (vunfold; apply vec_ext; cbn; ring). apply lattice_add_right, HV.
    - replace (vscale 1 _) with (mkvec (IZR 4) 0 0) by (vunfold; apply vec_ext; cbn; ring). apply lattice_add_right, HV.
    - replace (vscale 1 _) with (mkvec (IZR 8) 0 0) by (vunfold; apply vec_ext; cbn; ring). apply lattice_add_right, HV.
  Qed.
  Lemma glide_vertices n t k sp w row x : has_run gauss_solve true up n t -> (0 < k <= n)%nat -> (k < 3)%nat -> step_at t k sp -> In w (S_SizeUnsteady.wings_of sp) ->
    In row (w_wake_vertices w) -> In x row -> lattice x.
  Proof.
    intros HR Hk Hk3 Hsp Hw Hrow Hx. apply In_nth_error in Hw. destruct Hw as [i Hw]. apply In_nth_error in Hrow. destruct Hrow as [r Hrow]. apply In_nth_error in Hx. destruct Hx as [j Hx].
    apply (glide_wake_node n t k i w r j x HR Hk Hk3); [exists sp; split; [exact Hsp | exact Hw] | exists row; auto].
  Qed.
  (** Everything the solver uses is on the lattice, whichever wake is chosen. *)
  Lemma glide_nodes prescribed i t : (i < 3)%nat -> after gauss_solve prescribed up (S i) t ->
    forall sp w x, nth_error (up_steady_problems (us_problem t)) i = Some sp -> nth_error (us_wakes t) i = Some w -> step_points prescribed (us_problem t) i x ->
    forall v sg, In v (vortices_of sp w) -> In sg v -> lattice x /\ lattice (fst sg) /\ lattice (snd sg).
  Proof.
    intros Hi HA' sp w x Hsp Hwk Hx v sg Hv Hsg.
    assert (HG' : grazes_all_along up (S i)) by (intros k sp' j q Hk; apply HG; lia).
    pose proof (any_wake _ gauss_solve_spec prescribed true up (S i) t HC ltac:(rewrite HT; lra) ltac:(lia) HG' HA') as HA.
    assert (HR : has_run gauss_solve true up (S i) t) by (left; exact HA).
    destruct (glide_ring _ _ _ _ HR Hsp) as (p & r & w0 & EP & EW & ET & Co & Hr & (L1 & L2 & L3 & L4 & _) & FL & FR & BL & BR & _).
    assert (M1 : lattice (mkvec 1 0 0)) by (apply (lattice_at 2 0); lra). assert (M2 : lattice (mkvec 1 1 0)) by (apply (lattice_at 2 2); lra).
    assert (M3 : lattice (mkvec 6 0 0)) by (apply (lattice_at 12 0); lra). assert (M4 : lattice (mkvec 6 1 0)) by (apply (lattice_at 12 2); lra).
    split.
    - destruct Hx as [(sp' & q & Hsp' & Hq & Hx)|(_ & Hlt & Hx)].
      + assert (sp' = sp) by congruence. subst sp'. change (all_panels (sp_airplanes sp)) with (step_panels sp) in Hq. rewrite EP in Hq. destruct Hq as [<-|[]].
        destruct Hx as [->|[_ Hx]]; [rewrite Co; apply (lattice_at 6 1); lra|]. unfold leg_centers in Hx. rewrite Hr in Hx.
        destruct L1 as (_ & _ & _ & _ & C1). destruct L2 as (_ & _ & _ & _ & C2). destruct L4 as (_ & _ & _ & _ & C4). rewrite C1, C2, C4, FL, FR, BL, BR in Hx. unfold midpoint in Hx.
        destruct Hx as [<-|[<-|[<-|[]]]]; [exists 7%Z, 2%Z | exists 2%Z, 1%Z | exists 7%Z, 0%Z]; vunfold; apply vec_ext; cbn; lra.
      + destruct i as [|i].
        * destruct Hx as (sp1 & ww & Hsp1 & Hw & Hx). destruct (w_wake_vertices ww) as [|row rows] eqn:Er; [destruct Hx|]. cbn [hd] in Hx.
          apply (glide_vertices 1 t 1 sp1 ww row x HR ltac:(lia) ltac:(lia) Hsp1 Hw); [rewrite Er; left; reflexivity | exact Hx].
        * destruct Hx as (sp1 & ww & row & Hsp1 & Hw & Hrow & Hx). exact (glide_vertices _ t (S i) sp1 ww row x HR ltac:(lia) ltac:(lia) Hsp1 Hw Hrow Hx).
    - unfold vortices_of in Hv. apply in_app_iff in Hv. destruct Hv as [Hv|Hv].
      + change (all_panels (sp_airplanes sp)) with (step_panels sp) in Hv. rewrite EP in Hv. destruct Hv as [<-|[]]. unfold panel_legs in Hsg. rewrite Hr in Hsg.
        destruct L2 as (O2 & T2 & _). destruct L4 as (O4 & T4 & _). rewrite O2, T2, O4, T4, FL, FR, BL, BR in Hsg.
        destruct Hsg as [<-|[<-|[<-|[<-|[]]]]]; cbn [fst snd]; auto.
      + destruct (wake_recorded _ gauss_solve_spec _ _ _ _ i HC HR ltac:(lia)) as (grids & (sp' & Hsp' & FG & HGr) & Hrec). rewrite Hwk in Hrec. apply Some_eq in Hrec. subst w.
        assert (HLa : forall q, In q (concat (map (@concat ring_vortex) grids)) -> lattice (rv_front_left q) /\ lattice (rv_front_right q) /\ lattice (rv_back_left q) /\ lattice (rv_back_right q)).
        { intros q Hq. apply in_concat in Hq. destruct Hq as (l & Hl & Hq). apply in_map_iff in Hl. destruct Hl as (g & <- & Hg). apply in_concat in Hq. destruct Hq as (row & Hrow & Hq).
          apply In_nth_error in Hg. destruct Hg as [gi Hg]. apply In_nth_error in Hrow. destruct Hrow as [ri Hrow]. apply In_nth_error in Hq. destruct Hq as [ci Hq].
          destruct (HGr gi g ri ci q Hg ltac:(exists row; auto)) as (_ & _ & (wv & Hwv & N1 & N2 & N3 & N4) & _).
          assert (Hi0 : (0 < i)%nat).
          { destruct (Forall2_nth _ _ _ FG _ _ Hg) as (ww & _ & (G1 & _)). destruct i; [|lia]. destruct g; [destruct ri; discriminate Hrow | discriminate G1]. }
          repeat split; (eapply (glide_wake_node (S i) t i); [exact HR | lia | lia | exact Hwv | eassumption]). }
        unfold wake_legs, record_of in Hv. cbn [wk_back_right wk_front_right wk_front_left wk_back_left] in Hv.
        destruct Hv as [<-|[<-|[<-|[<-|[]]]]]; apply in_combine_map in Hsg; destruct Hsg as (q & Hq & ->); destruct (HLa q Hq) as (N1 & N2 & N3 & N4); cbn [fst snd]; auto.
  Qed.
  Lemma glide_off prescribed : steps_off_edges gauss_solve prescribed up 3.
  Proof.
    intros i t Hi HA sp w x Hsp Hwk Hx v [b c] Hv Hsg. destruct (glide_nodes prescribed i t Hi HA sp w x Hsp Hwk Hx v (b, c) Hv Hsg) as (N1 & N2 & N3). exact (lattice_off x b c N1 N2 N3).
  Qed.
  Lemma glide_clear prescribed : clear_steps gauss_solve prescribed up 3.
  Proof.
    intros i t Hi HA sp w x Hsp Hwk Hx v [b c] Hv Hsg. destruct (glide_nodes prescribed i t Hi HA sp w x Hsp Hwk Hx v (b, c) Hv Hsg) as (N1 & N2 & N3). exact (lattice_clear x b c N1 N2 N3).
  Qed.
End Glide.

Lemma glide_free (prescribed lines : bool) : exists m up s, created up /\ (forall sp p, In sp (up_steady_problems up) -> In p (all_panels (sp_airplanes sp)) -> p_area p <> 0) /\
  new_movement [plate_about 0] calm (Some 3%Z) None None (Some 1) = Ok m /\ new_unsteady_problem m false = Ok up /\
  (forall sp, In sp (up_steady_problems up) -> 0 <= op_nu (sp_operating_point sp)) /\ up_delta_time up = 1 /\ List.length (up_steady_problems up) = 3%nat /\
  steps_off_edges gauss_solve prescribed up 3 /\ clear_steps gauss_solve prescribed up 3 /\ finished gauss_solve prescribed lines up s.
Proof.
  destruct (glide_problem false) as (m & up & a & Hm & Hup & Edt & L & Ha & Hst). assert (HC : created up) by (do 7 eexists; exists false; split; [exact Hm | exact Hup]).
  unfold new_airplane in Ha. cbn [override] in Ha. rewrite glide_area, glide_chord, ex_span in Ha. apply Ok_eq in Ha. assert (Ea : a_wings a = [ex_wing false]) by (subst a; reflexivity).
  destruct (glide_run gauss_solve gauss_solve_spec prescribed up a HC Edt ltac:(lia) Ea Hst lines) as [s Hs].
  assert (HPn : forall sp, In sp (up_steady_problems up) -> step_panels sp = [ex_panel]).
  { intros sp Hsp. apply In_nth_error in Hsp. destruct Hsp as [k Hk]. destruct (Hst _ _ Hk) as [E _]. unfold step_panels. rewrite E. unfold all_panels. subst a. reflexivity. }
  assert (HG : grazes_all_along up 3).
  { intros k sp i q Hk Hsp Hq. rewrite (HPn _ (nth_error_In _ _ Hsp)) in Hq. destruct i as [|[|i]]; try discriminate. apply Some_eq in Hq. subst q. destruct (Hst _ _ Hsp) as [_ ->]. destruct k as [|k]; [apply level_grazes, same_panel_refl|].
    intros sp' p Hsp' Hp. rewrite (HPn _ (nth_error_In _ _ Hsp')) in Hp. apply Some_eq in Hp. subst p. rewrite level_velocity. destruct ex_panel_points as (-> & -> & _). clear. vunfold. ring. }
  exists m, up, s. split; [exact HC|]. split.
  { intros sp p Hsp Hp. change (all_panels (sp_airplanes sp)) with (step_panels sp) in Hp. rewrite (HPn _ Hsp) in Hp. destruct Hp as [<-|[]].
    apply cross_area. intros H. apply (f_equal vz) in H. revert H. unfold p_cross, p_first_diagonal, p_second_diagonal. unfold ex_panel, plain_panel, p_set_position, new_panel; cbn [p_front_right p_front_left p_back_left p_back_right]; vunfold; cbn. lra. }
  split; [exact Hm|]. split; [exact Hup|]. split; [intros sp Hsp; apply In_nth_error in Hsp; destruct Hsp as [k Hk]; destruct (Hst k sp Hk) as (_ & ->); cbn [level_op op_nu]; lra|].
  split; [exact Edt|]. split; [exact L|]. split; [exact (glide_off up a HC Edt L HG Ea Hst prescribed)|]. split; [exact (glide_clear up a HC Edt L HG Ea Hst prescribed) | exact Hs].
Qed.
(** Problems close to it. *)
Lemma glide_near (prescribed lines : bool) : exists UP up s, SolveSpec gauss_solve /\ created up /\ approaching_problem UP up /\ (forall n, up_delta_time (UP n) <> up_delta_time up) /\ 0 < up_delta_time up /\
  solid_steps up /\ viscous up /\ List.length (up_steady_problems up) = 3%nat /\ steps_off_edges gauss_solve prescribed up 3 /\ finished gauss_solve prescribed lines up s.
Proof.
  destruct (glide_free prescribed lines) as (m & up & s & HC & HA & _ & _ & HV & Ed & HL & HO & _ & HF).
  exists (fun n => nudged_problem (/ INR (S n)) up), up, s. split; [exact gauss_solve_spec|]. split; [exact HC|]. split; [apply nudged_near|].
  split; [intros n; cbn [nudged_problem up_delta_time]; pose proof (Rinv_0_lt_compat _ (lt_0_INR (S n) ltac:(lia))); lra|]. split; [rewrite Ed; lra|].
  split; [exact HA|]. split; [exact HV|]. split; [exact HL|]. split; [exact HO | exact HF].
Qed.
(** It at other sizes. *)
Lemma glide_larger k (prescribed : bool) : 0 < k -> exists up up' s, SolveSpec gauss_solve /\ created up /\ List.length (up_steady_problems up) = 3%nat /\ larger_flight k up up' /\
  clear_steps gauss_solve prescribed up 3 /\ finished gauss_solve prescribed true up s.
Proof.
  intros Hk. destruct (glide_free prescribed true) as (m & up & s & HC & _ & Hm & Hup & _ & _ & HL & _ & HO & HF).
  destruct (enlarged_movement k _ _ _ _ _ _ _ _ _ Hk Hm Hup) as (m' & up' & _ & _ & LF). exists up, (set_viscosity (k * op_nu default_operating_point) up'), s.
  split; [exact gauss_solve_spec|]. split; [exact HC|]. split; [exact HL|]. split; [exact LF|]. split; [exact HO | exact HF].
Qed.
