(** Runs of the unsteady solver that begin alike. *)
From Coq Require Import List ZArith Lia Lra Bool Reals.
From Verif Require Import M_Unsteady S_Unsteady S_UnsteadyRun S_Geometry S_Vortices S_Loads S_Solve S_Movement S_Causal L_Base L_Loads L_Horseshoe L_SteadyRing L_RingLegs L_Aero L_Frames
  L_Geometry L_Problems L_Wake L_WakeWings L_Unsteady L_UnsteadyStep L_UnsteadyRun L_UnsteadyFinal L_UnsteadyProps L_UnsteadyProps2 L_OnlyFinal.
Import ListNotations.
Local Open Scope R_scope.
Local Open Scope list_scope.

Lemma wings_at_same l m k : nth_error m k = nth_error l k -> wings_at m k = wings_at l k.
Proof. intros H. unfold wings_at. rewrite H. reflexivity. Qed.
Lemma shed_same l m k : (forall j, (j <= k)%nat -> nth_error m j = nth_error l j) -> shed m k = shed l k.
Proof.
  induction k as [|k IH]; intros H; cbn [shed].
  - rewrite (wings_at_same l m) by (apply H; lia). reflexivity.
  - rewrite IH by (intros; apply H; lia). rewrite (wings_at_same l m) by (apply H; lia). reflexivity.
Qed.
Lemma wake_record_same dt l m k : (forall j, (j <= k)%nat -> nth_error m j = nth_error l j) -> wake_record dt m k = wake_record dt l k.
Proof. intros H. unfold wake_record, wake_grids. rewrite (shed_same l m k H), (wings_at_same l m) by (apply H; lia). reflexivity. Qed.
Lemma last_arrays_same c n l m : (forall j, (j < n)%nat -> nth_error m j = nth_error l j) -> last_step_arrays c n m = last_step_arrays c n l.
Proof. intros H. unfold last_step_arrays. destruct n as [|n]; [reflexivity|]. unfold index. rewrite H by lia. reflexivity. Qed.

Section Causal.
  Variable solve : list (list R) -> list R -> result (list R).
  Hypothesis HS : SolveSpec solve.
  Variable prescribed : bool.

  (** The states of two runs after [n] of the [N] common steps. *)
  Record agree (N n : nat) (s t : unsteady_solver) : Prop := {
    ag_heap : (n < N)%nat -> us_heap t = us_heap s;
    ag_steps : forall j, (j < N)%nat -> nth_error (up_steady_problems (us_problem t)) j = nth_error (up_steady_problems (us_problem s)) j;
    ag_wakes : forall j, (j < N)%nat -> nth_error (us_wakes t) j = nth_error (us_wakes s) j;
    ag_current : us_current t = us_current s }.

  Lemma agree_step N F F' up up' up1 up1' conv conv' n s t : begin_alike N up up' -> (n < N)%nat ->
    ran solve prescribed F up up1 conv n s -> ran solve prescribed F' up' up1' conv' n t -> meshed_problem F up -> meshed_problem F' up' -> agree N n s t ->
    (exists e, unsteady_step solve prescribed s n = Err e /\ unsteady_step solve prescribed t n = Err e) \/
    exists s' t', unsteady_step solve prescribed s n = Ok s' /\ unsteady_step solve prescribed t n = Ok t' /\ agree N (S n) s' t'.
  Proof.
    intros HB Hn Rs Rt HM HM' HA. destruct HB as [Bt Bl Bl' Bs Bf].
    pose proof (Forall2_length _ _ _ (rn_started _ _ _ _ _ _ _ _ Rs)) as Ls. pose proof (Forall2_length _ _ _ (rn_started _ _ _ _ _ _ _ _ Rt)) as Lt.
    destruct (unsteady_step_ok solve prescribed F up1 conv n s (rn_ready _ _ _ _ _ _ _ _ Rs) (rn_inv _ _ _ _ _ _ _ _ Rs) ltac:(lia)) as (sp & rows & la & Hsp & Ec & FR & PR & El & Sl & Herr & Hok).
    destruct (unsteady_step_ok solve prescribed F' up1' conv' n t (rn_ready _ _ _ _ _ _ _ _ Rt) (rn_inv _ _ _ _ _ _ _ _ Rt) ltac:(lia)) as (sp' & rows' & la' & Hsp' & Ec' & FR' & PR' & El' & Sl' & Herr' & Hok').
    pose proof (rn_start _ _ _ _ _ _ _ _ Rs) as Ps. pose proof (rn_start _ _ _ _ _ _ _ _ Rt) as Pt.
    assert (Es : us_problem s = up_set_steps (up_steady_problems (us_problem s)) up) by (rewrite (ri_problem _ _ _ _ (rn_inv _ _ _ _ _ _ _ _ Rs)) at 1; rewrite Ps; reflexivity).
    assert (Et : us_problem t = up_set_steps (up_steady_problems (us_problem t)) up') by (rewrite (ri_problem _ _ _ _ (rn_inv _ _ _ _ _ _ _ _ Rt)) at 1; rewrite Pt; reflexivity).
    assert (Ds : up_delta_time up1 = up_delta_time up) by (rewrite Ps; reflexivity). assert (Dt : up_delta_time up1' = up_delta_time up) by (rewrite Pt; cbn; exact Bt).
    assert (sp' = sp) by (rewrite (ag_steps _ _ _ _ HA n Hn) in Hsp'; congruence). subst sp'.
    assert (rows' = rows) by congruence. subst rows'. clear Ec'.
    rewrite (last_arrays_same _ _ (up_steady_problems (us_problem s))) in El' by (intros j Hj; apply (ag_steps _ _ _ _ HA); lia).
    assert (la' = la) by congruence. subst la'. clear El' FR' PR' Sl'. rewrite Ds in *. rewrite Dt in *.
    rewrite (wake_record_same _ (up_steady_problems (us_problem s)) (up_steady_problems (us_problem t)) n) in * by (intros j Hj; apply (ag_steps _ _ _ _ HA); lia). cbn zeta in Herr, Hok, Herr', Hok'.
    set (op := sp_operating_point sp) in *. set (wake := wake_record (up_delta_time up) (up_steady_problems (us_problem s)) n) in *.
    set (b := map2 Rminus (map Ropp (step_wake n rows wake op)) (step_freestream n (up_delta_time up) rows la op)) in *.
    destruct (solve (step_matrix rows (op_nu op)) b) as [xs|e] eqn:Esol; [|left; exists e; auto]. right.
    assert (Lx : length xs = length rows).
    { assert (Lb : length b = length (step_matrix rows (op_nu op))) by (rewrite step_matrix_length; apply step_rhs_length; apply Sl). pose proof Esol as Es'.
      apply HS in Es'; [|apply step_matrix_square | exact Lb]. destruct Es' as [[Lx _] _]. rewrite step_matrix_length in Lx. exact Lx. }
    destruct (Hok xs eq_refl Lx) as (a1 & a' & s' & Eu & Eload & _ & _ & Estep & Ecur & Enum & Eli & Hnew & Hold & _).
    destruct (Hok' xs eq_refl Lx) as (b1 & b' & t' & Eu' & Eload' & _ & _ & Estep' & Ecur' & Enum' & Eli' & Hnew' & Hold' & _).
    clear Herr Hok Herr' Hok'. exists s', t'. split; [exact Estep|]. split; [exact Estep'|]. assert (b1 = a1) by congruence. subst b1. clear Eu'.
    assert (Fs : up_first_results_step up1 = up_first_results_step up) by (rewrite Ps; reflexivity). assert (Ft : up_first_results_step up1' = up_first_results_step up') by (rewrite Pt; reflexivity).
    rewrite Fs in Eload. rewrite Ft, (Bf n Hn) in Eload'.
    assert (Hab : b' = a').
    { destruct (up_first_results_step up <=? Z.of_nat n)%Z; [|congruence]. destruct Eload as (loads & L1 & L2), Eload' as (loads' & L1' & L2'). assert (loads' = loads) by congruence. subst loads'. congruence. }
    subst b'. clear Eload Eload'.
    destruct (step_shape solve prescribed _ _ _ Estep) as (c & x & steps & C1 & C2 & C3 & C4). destruct (step_shape solve prescribed _ _ _ Estep') as (c' & x' & steps' & C1' & C2' & C3' & C4').
    assert (c' = c) by congruence. subst c'. clear Ecur Ecur' Hold Hold'.
    rewrite Es in C4. rewrite Et in C4'. cbn [up_set_steps up_num_steps up_delta_time up_steady_problems] in C4, C4'. rewrite Bt, (ag_heap _ _ _ _ HA Hn) in C4'.
    assert (LS : length (up_steady_problems (us_problem s)) = length (up_steady_problems up)) by (rewrite Ls; symmetry; exact (Forall2_length _ _ _ (ri_kept _ _ _ _ (rn_inv _ _ _ _ _ _ _ _ Rs)))).
    assert (LT : length (up_steady_problems (us_problem t)) = length (up_steady_problems up')) by (rewrite Lt; symmetry; exact (Forall2_length _ _ _ (ri_kept _ _ _ _ (rn_inv _ _ _ _ _ _ _ _ Rt)))).
    assert (X : steps = set_at n (mksteady x op) (up_steady_problems (us_problem s)) /\ steps' = set_at n (mksteady x' op) (up_steady_problems (us_problem t))).
    { unfold set_airplanes in C2, C2'. rewrite (proj2 (index_Some _ _ _) Hsp) in C2. rewrite (proj2 (index_Some _ _ _) Hsp') in C2'. cbn [bind] in C2, C2'. apply Ok_eq in C2, C2'. auto. }
    destruct X as [X X'].
    assert (N1 : forall k, nth_error steps k = (if Nat.eqb n k then Some (mksteady x op) else nth_error (up_steady_problems (us_problem s)) k)) by (intros k; rewrite X, set_at_nth by lia; rewrite (Nat.eqb_sym n k); reflexivity).
    assert (N2 : forall k, nth_error steps' k = (if Nat.eqb n k then Some (mksteady x' op) else nth_error (up_steady_problems (us_problem t)) k)) by (intros k; rewrite X', set_at_nth by lia; rewrite (Nat.eqb_sym n k); reflexivity).
    assert (Lsteps : length steps = length (up_steady_problems up) /\ length steps' = length (up_steady_problems up')) by (rewrite X, X', !set_at_length by lia; lia).
    (* what is left at step n, and the step after it *)
    assert (Y : x = a' /\ forall k, k <> S n -> nth_error (up_steady_problems (us_problem s')) k = nth_error steps k).
    { destruct (Z.of_nat n <? up_num_steps up - 1)%Z.
      - destruct C4 as (next & r & st & _ & _ & C6 & _ & C8). unfold set_airplanes in C6. apply bind_Ok in C6. destruct C6 as (q & Q & C6). apply Ok_eq in C6. apply index_Some in Q.
        assert (S n < length steps)%nat by (apply nth_error_Some; congruence).
        assert (W : forall k, k <> S n -> nth_error (up_steady_problems (us_problem s')) k = nth_error steps k).
        { intros k Hk. rewrite C8, <- C6, set_at_nth by lia. destruct (Nat.eqb_spec k (S n)); [contradiction | reflexivity]. }
        split; [|exact W]. rewrite (W n ltac:(lia)), N1, Nat.eqb_refl in Hnew. congruence.
      - destruct C4 as [_ C8]. rewrite C8 in *. split; [|reflexivity]. rewrite N1, Nat.eqb_refl in Hnew. congruence. }
    assert (Y' : x' = a' /\ forall k, k <> S n -> nth_error (up_steady_problems (us_problem t')) k = nth_error steps' k).
    { destruct (Z.of_nat n <? up_num_steps up' - 1)%Z.
      - destruct C4' as (next & r & st & _ & _ & C6 & _ & C8). unfold set_airplanes in C6. apply bind_Ok in C6. destruct C6 as (q & Q & C6). apply Ok_eq in C6. apply index_Some in Q.
        assert (S n < length steps')%nat by (apply nth_error_Some; congruence).
        assert (W : forall k, k <> S n -> nth_error (up_steady_problems (us_problem t')) k = nth_error steps' k).
        { intros k Hk. rewrite C8, <- C6, set_at_nth by lia. destruct (Nat.eqb_spec k (S n)); [contradiction | reflexivity]. }
        split; [|exact W]. rewrite (W n ltac:(lia)), N2, Nat.eqb_refl in Hnew'. congruence.
      - destruct C4' as [_ C8]. rewrite C8 in *. split; [|reflexivity]. rewrite N2, Nat.eqb_refl in Hnew'. congruence. }
    destruct Y as [-> Y], Y' as [-> Y'].
    assert (NN : forall k, (k < N)%nat -> nth_error steps' k = nth_error steps k).
    { intros k Hk. rewrite N1, N2. destruct (Nat.eqb n k); [reflexivity | apply (ag_steps _ _ _ _ HA); exact Hk]. }
    assert (W1 : forall j, (j < N)%nat -> nth_error (us_wakes t') j = nth_error (us_wakes s') j).
    { pose proof (ri_size _ _ _ _ (rn_inv _ _ _ _ _ _ _ _ Rs)) as Z1. pose proof (ri_size _ _ _ _ (rn_inv _ _ _ _ _ _ _ _ Rt)) as Z2.
      intros j Hj. rewrite (proj1 C3), (proj1 C3'), !set_at_nth by lia. destruct (Nat.eqb j n); [reflexivity | apply (ag_wakes _ _ _ _ HA); exact Hj]. }
    destruct (Nat.lt_ge_cases (S n) N) as [HN|HN].
    - pose proof (mp_size _ _ HM) as Z1. pose proof (mp_size _ _ HM') as Z2.
      destruct (Z.ltb_spec (Z.of_nat n) (up_num_steps up - 1)) as [_|?]; [|lia]. destruct (Z.ltb_spec (Z.of_nat n) (up_num_steps up' - 1)) as [_|?]; [|lia].
      destruct C4 as (next & r & st & C5 & C6 & C7 & C8 & C9), C4' as (next' & r' & st' & C5' & C6' & C7' & C8' & C9').
      apply index_Some in C5, C5'. assert (next' = next) by (rewrite (NN (S n) HN) in C5'; congruence). subst next'. assert (r' = r) by congruence. subst r'.
      unfold set_airplanes in C7, C7'. rewrite (proj2 (index_Some _ _ _) C5) in C7. rewrite (proj2 (index_Some _ _ _) C5') in C7'. cbn [bind] in C7, C7'. apply Ok_eq in C7, C7'.
      constructor; [congruence | | exact W1 | congruence]. intros j Hj. rewrite C9, C9', <- C7, <- C7', !set_at_nth by lia. destruct (Nat.eqb j (S n)); [reflexivity | apply NN; exact Hj].
    - constructor; [intros; lia | | exact W1 | congruence]. intros j Hj. rewrite Y, Y' by lia. apply NN; exact Hj.
  Qed.

  Lemma mapM_same {A B} (f : A -> result B) l m x y N : mapM f l = Ok x -> mapM f m = Ok y -> (forall k, (k < N)%nat -> nth_error m k = nth_error l k) ->
    forall k, (k < N)%nat -> nth_error y k = nth_error x k.
  Proof.
    intros Ex Ey H k Hk. apply mapM_Forall2 in Ex, Ey. specialize (H k Hk). destruct (nth_error l k) as [a|] eqn:E.
    - destruct (Forall2_nth_l _ _ _ Ex _ _ E) as (u & Hu & Eu). destruct (Forall2_nth_l _ _ _ Ey _ _ H) as (v & Hv & Ev). congruence.
    - apply nth_error_None in E, H. assert (length x <= k)%nat by (rewrite <- (Forall2_length _ _ _ Ex); exact E). assert (length y <= k)%nat by (rewrite <- (Forall2_length _ _ _ Ey); exact H).
      transitivity (@None B); [apply nth_error_None | symmetry; apply nth_error_None]; assumption.
  Qed.
  Lemma agree_start N F F' up up' s t : begin_alike N up up' -> meshed_problem F up -> meshed_problem F' up' ->
    after solve prescribed up 0 s -> after solve prescribed up' 0 t -> agree N 0 s t.
  Proof.
    intros [Bt Bl Bl' Bs Bf] HM HM' (s0 & s1 & E0 & E1 & E) (t0 & t1 & E0' & E1' & E'). cbn in E, E'. apply Ok_eq in E, E'. subst s1 t1.
    unfold unsteady_new in E0, E0'. apply bind_Ok in E0, E0'. destruct E0 as (? & _ & E0), E0' as (? & _ & E0'). apply Ok_eq in E0, E0'. subst s0 t0.
    unfold unsteady_start in E1, E1'. cbn [us_problem us_heap us_num_wake us_wakes us_current us_streamline_points] in E1, E1'. rewrite Bt in E1'.
    apply bind_Ok in E1, E1'. destruct E1 as (counts & X1 & E1), E1' as (counts' & X1' & E1').
    apply bind_Ok in E1, E1'. destruct E1 as (steps & X2 & E1), E1' as (steps' & X2' & E1'). apply Ok_eq in E1, E1'. subst s t.
    constructor; cbn; try reflexivity.
    - apply (mapM_same _ _ _ _ _ N X2 X2' Bs).
    - intros j Hj. pose proof (mp_size _ _ HM) as Z1. pose proof (mp_size _ _ HM') as Z2.
      apply mapM_Forall2 in X1, X1'.
      assert (K : nth_error counts' j = nth_error counts j).
      { assert (Q1 : nth_error (seq 0 (Z.to_nat (up_num_steps up))) j = Some j) by (rewrite nth_error_seq0; destruct (Nat.ltb_spec j (Z.to_nat (up_num_steps up))); [reflexivity | lia]).
        assert (Q2 : nth_error (seq 0 (Z.to_nat (up_num_steps up'))) j = Some j) by (rewrite nth_error_seq0; destruct (Nat.ltb_spec j (Z.to_nat (up_num_steps up'))); [reflexivity | lia]).
        destruct (Forall2_nth_l _ _ _ X1 _ _ Q1) as (u & Hu & Eu). destruct (Forall2_nth_l _ _ _ X1' _ _ Q2) as (v & Hv & Ev).
        unfold index in Eu, Ev. rewrite (Bs j Hj) in Ev. congruence. }
      rewrite !nth_error_map, K. reflexivity.
  Qed.
  Lemma agree_steps N F F' up up' s t n : begin_alike N up up' -> meshed_problem F up -> meshed_problem F' up' ->
    after solve prescribed up 0 s -> after solve prescribed up' 0 t -> (n <= N)%nat ->
    (exists e, unsteady_steps solve prescribed n s = Err e /\ unsteady_steps solve prescribed n t = Err e) \/
    exists s' t', unsteady_steps solve prescribed n s = Ok s' /\ unsteady_steps solve prescribed n t = Ok t' /\ agree N n s' t'.
  Proof.
    intros HB HM HM' A1 A1'. induction n as [|n IH]; intros Hn; [right; exists s, t; split; [reflexivity|]; split; [reflexivity|]; exact (agree_start _ _ _ _ _ _ _ HB HM HM' A1 A1')|]. rewrite !unsteady_steps_S.
    destruct IH as [(e & -> & ->)|(s' & t' & Es & Et & IH)]; [lia | left; exists e; auto |]. rewrite Es, Et. cbn [bind].
    pose proof HB as [_ Bl Bl' _ _].
    assert (As : after solve prescribed up n s'). { destruct A1 as (x0 & x1 & E0 & E1 & E'). cbn in E'. apply Ok_eq in E'. subst x1. exists x0, s. auto. }
    assert (At : after solve prescribed up' n t'). { destruct A1' as (x0 & x1 & E0 & E1 & E'). cbn in E'. apply Ok_eq in E'. subst x1. exists x0, t. auto. }
    destruct (after_ran solve HS prescribed F up n s' HM As ltac:(lia)) as (y1 & conv & _ & R).
    destruct (after_ran solve HS prescribed F' up' n t' HM' At ltac:(lia)) as (z1 & conv' & _ & R').
    exact (agree_step N F F' up up' _ _ conv conv' n s' t' HB Hn R R' HM HM' IH).
  Qed.

  Lemma nonempty_meshed up : created up -> (0 < length (up_steady_problems up))%nat -> exists F, meshed_problem F up.
  Proof.
    intros HC H. destruct (up_steady_problems up) as [|sp l] eqn:E; [cbn in H; lia|]. eapply created_meshed; [exact HC|]. unfold unsteady_new. rewrite E. reflexivity.
  Qed.
  Lemma alike_sym n up up' : begin_alike n up up' -> begin_alike n up' up.
  Proof. intros [H1 H2 H3 H4 H5]. constructor; try assumption; [symmetry; assumption | intros; symmetry; auto | intros; symmetry; auto]. Qed.
  (** After [n] common steps. *)
  Lemma never_ahead n up up' s : created up -> created up' -> (0 < n)%nat -> begin_alike n up up' -> after solve prescribed up n s ->
    exists s', after solve prescribed up' n s' /\ results_alike n s s'.
  Proof.
    intros HC HC' H0 HB HA. pose proof HB as [_ Bl Bl' _ _]. destruct (nonempty_meshed up HC ltac:(lia)) as [F HM]. destruct (nonempty_meshed up' HC' ltac:(lia)) as [F' HM'].
    destruct HA as (s0 & s1 & E0 & E1 & E). destruct (unsteady_start_ok 0 F' up' HM') as (t0 & t1 & T0 & T1 & _).
    assert (A1 : after solve prescribed up 0 s1) by (exists s0, s1; auto). assert (A1' : after solve prescribed up' 0 t1) by (exists t0, t1; auto).
    destruct (agree_steps n F F' up up' s1 t1 n HB HM HM' A1 A1' (le_n _)) as [(e & X & _)|(s' & t' & X & Y & HG)]; [congruence|].
    assert (s' = s) by congruence. subst s'. exists t'. split; [exists t0, t1; auto|]. destruct HG as [_ G2 G3 G4]. constructor; try assumption.
    intros points. unfold unsteady_solution_velocity. rewrite G4. reflexivity.
  Qed.
  Lemma after_prefix' up n s k : after solve prescribed up n s -> (k <= n)%nat -> exists t, after solve prescribed up k t.
  Proof.
    intros HA Hk. induction n as [|n IH] in s, HA, Hk |- *; [assert (k = 0)%nat by lia; subst k; eauto|]. destruct (Nat.eq_dec k (S n)) as [->|Hne]; [eauto|].
    apply after_S in HA. destruct HA as (s' & HA & _). apply (IH s' HA). lia.
  Qed.
  (** A run that has all its steps finishes. *)
  Lemma full_finishes lines up sf : created up -> (0 < length (up_steady_problems up))%nat -> after solve prescribed up (length (up_steady_problems up)) sf -> exists s, finished solve prescribed lines up s.
  Proof.
    intros HC H0 HA. destruct (nonempty_meshed up HC H0) as [F HM]. pose proof HA as (s0 & s1 & E0 & E1 & E).
    destruct (unsteady_start_ok 0 F up HM) as (s0' & s1' & E0' & E1' & Ep & _). assert (s0' = s0) by congruence. subst s0'. assert (s1' = s1) by congruence. subst s1'.
    assert (EN : Z.to_nat (up_num_steps (us_problem s1)) = length (up_steady_problems up)). { rewrite Ep. cbn [up_set_steps up_num_steps]. rewrite <- (mp_size _ _ HM), Nat2Z.id. reflexivity. }
    destruct (finalize_total solve HS prescribed F up sf HM HC HA) as [upf Efin].
    destruct (length (up_steady_problems up)) as [|N] eqn:EL; [lia|].
    destruct (after_stepped solve HS prescribed F up N sf HM HA ltac:(lia)) as (? & s' & conv & conv' & _ & _ & _ & _ & St & _).
    destruct St as (sp' & rows & la & xs & a1 & a' & _ & _ & _ & _ & _ & _ & St). cbn zeta in St. destruct St as (_ & _ & _ & _ & _ & _ & Ec & _).
    eexists. exists s0. split; [exact E0|]. unfold unsteady_run, unsteady_run_with. rewrite E1. cbn [bind]. rewrite EN, E. cbn [bind]. rewrite Efin. cbn [bind]. rewrite Ec.
    instantiate (1 := mkus upf _ _ _ _ (if lines then _ else _)). destruct lines; reflexivity.
  Qed.
  (** The whole of a shorter run is the beginning of a longer one. *)
  Lemma longer_repeats lines lines' up up' s' : created up -> created up' -> (0 < length (up_steady_problems up))%nat -> begin_alike (length (up_steady_problems up)) up up' ->
    finished solve prescribed lines' up' s' -> exists s, finished solve prescribed lines up s /\
      forall k, (k < length (up_steady_problems up))%nat -> nth_error (up_steady_problems (us_problem s')) k = nth_error (up_steady_problems (us_problem s)) k /\
        nth_error (us_wakes s') k = nth_error (us_wakes s) k.
  Proof.
    intros HC HC' H0 HB HF'. pose proof HB as [_ Bl Bl' _ _]. destruct (nonempty_meshed up HC ltac:(lia)) as [F HM]. destruct (nonempty_meshed up' HC' ltac:(lia)) as [F' HM'].
    destruct (finished_inv _ _ _ _ _ _ HF' HM') as (sf' & _ & _ & _ & HA' & _ & _ & X1 & _ & _ & X2 & _).
    destruct (after_prefix' _ _ _ (length (up_steady_problems up)) HA' ltac:(lia)) as (t' & Ht').
    destruct (never_ahead _ _ _ _ HC' HC H0 (alike_sym _ _ _ HB) Ht') as (t & Ht & [R1 R2 _ _]).
    destruct (full_finishes lines up t HC H0 Ht) as [s Hs]. exists s. split; [exact Hs|].
    destruct (finished_inv _ _ _ _ _ _ Hs HM) as (sf & _ & _ & _ & HA & _ & _ & Y1 & _ & _ & Y2 & _).
    assert (sf = t) by exact (after_unique _ _ _ _ _ _ HA Ht). subst sf. intros k Hk. rewrite X1, X2, Y1, Y2.
    destruct (after_later solve HS prescribed up' _ _ t' sf' F' HM' Ht' HA' Bl' (le_n _) k Hk) as [-> ->]. split; symmetry; auto.
  Qed.
End Causal.

Section Failures.
  Variable solve : list (list R) -> list R -> result (list R).
  Hypothesis HS : SolveSpec solve.
  Variable prescribed : bool.
  (** One run fails in the common steps exactly when the other does, with the same exception. *)
  Lemma fail_alike n up up' s0 s1 s0' s1' e : created up -> created up' -> begin_alike n up up' -> unsteady_new up = Ok s0 -> unsteady_start 0 s0 = Ok s1 ->
    unsteady_new up' = Ok s0' -> unsteady_start 0 s0' = Ok s1' -> unsteady_steps solve prescribed n s1 = Err e -> unsteady_steps solve prescribed n s1' = Err e.
  Proof.
    intros HC HC' HB E0 E1 E0' E1' E. destruct (created_meshed _ _ HC E0) as [F HM]. destruct (created_meshed _ _ HC' E0') as [F' HM'].
    destruct (agree_steps solve HS prescribed n F F' up up' s1 s1' n HB HM HM' ltac:(exists s0, s1; auto) ltac:(exists s0', s1'; auto) (le_n _)) as [(e' & X & Y)|(? & ? & X & _)]; congruence.
  Qed.
End Failures.
