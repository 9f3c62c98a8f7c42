(** Proofs about the trim analyses. *)
From Coq Require Import Lra Lia.
From Verif Require Import M_Trim S_Geometry S_Vortices S_Solve S_Loads S_Wing S_Trim
  L_Base L_Rotations L_Aero L_Loads L_Horseshoe L_Scaling L_Geometry L_Meshing L_Frames.

(** ** A solver run depends on the airplanes' geometry only *)
Definition same_loads (a b : airplane) : Prop :=
  same_airplane a b /\ a_force_wind b = a_force_wind a /\ a_moment_wind b = a_moment_wind a /\
  a_force_coefficients b = a_force_coefficients a /\ a_moment_coefficients b = a_moment_coefficients a.

Lemma same_airplane_refl a : same_airplane a a.
Proof.
  split; [|repeat split]. induction (a_wings a) as [|w l IH]; constructor; auto. split.
  - destruct w; reflexivity.
  - clear. induction (w_panels w) as [|r rows IH]; constructor; auto. induction r; constructor; auto using same_panel_refl.
Qed.
Lemma process_alike op fs ms l l' m m' : Forall2 same_airplane l l' ->
  process_forces op fs ms l = Ok m -> process_forces op fs ms l' = Ok m' -> Forall2 same_loads m m'.
Proof.
  intros S E E'. apply process_forces_sound in E, E'.
  destruct E as (us & rest & C & F), E' as (us' & rest' & C' & F'). rewrite C in C'.
  assert (us' = us); [|subst us'].
  { symmetry. eapply chunks_eq with (rest := rest) (rest' := rest'); [| exact F | exact F' | exact S | exact C'].
    intros a u a' H; apply H. }
  clear C C'. revert l' m' S F'.
  induction F as [|a u a1 l us l1 H _ IH]; intros l' m' S F'.
  - inversion S; subst. inversion F'; subst. constructor.
  - inversion S as [|? b ? l2 Sb Sl]; subst. inversion F' as [|? u' b1 ? us'' l1'' H' F'']; subst.
    constructor; [|eapply IH; eauto].
    destruct H as (H1 & H2 & H3 & H4 & H5 & H6 & H7), H' as (G1 & G2 & G3 & G4 & G5 & G6 & G7).
    split. { eapply same_airplane_trans; [apply same_airplane_sym; exact H1 | eapply same_airplane_trans; eassumption]. }
    assert (Es : a_s_ref b = a_s_ref a /\ a_b_ref b = a_b_ref a /\ a_c_ref b = a_c_ref a) by (clear -Sb; unfold same_airplane in Sb; intuition).
    destruct Es as (E1 & E2 & E3). rewrite E1 in G6. rewrite E1, E2, E3 in G7.
    rewrite H4, H5, H6, H7, G4, G5, G6, G7. auto.
Qed.

Lemma hs_run_err solve s e : SolveSpec solve ->
  let rows := hs_rows_of (hso_op s) (hso_airplanes s) in
  hs_run solve s = Err e <->
  solve (hs_influences rows) (map Ropp (freestream_influences (map hr_normal rows) (hso_freestream s))) = Err e.
Proof.
  intros HS rows. destruct (solve (hs_influences rows) _) as [xs|e'] eqn:E.
  - destruct (hs_run_total solve s xs HS E) as (s' & E' & _). rewrite E'. split; discriminate.
  - unfold hs_run. rewrite hs_collapse_init. cbn [bind]. fold (hs_rows_of (hso_op s) (hso_airplanes s)).
    fold rows. rewrite E. cbn [bind]. split; intros [= ->]; reflexivity.
Qed.

Lemma hs_alike solve op l m : SolveSpec solve -> Forall2 same_airplane l m ->
  match hs_run solve (hs_new l op) with
  | Err e => hs_run solve (hs_new m op) = Err e
  | Ok s => exists s', hs_run solve (hs_new m op) = Ok s' /\ Forall2 same_loads (hso_airplanes s) (hso_airplanes s')
  end.
Proof.
  intros HS F. pose proof (hs_rows_same op _ _ F) as SR. destruct (same_rows_maps _ _ SR) as (Hc & Hn & Hv & Hr & _).
  destruct (hs_run solve (hs_new l op)) as [s|e] eqn:E.
  - pose proof (hs_solution_length _ _ _ HS E) as [L1 _].
    apply hs_run_inv in E. cbn [hs_new hso_op hso_airplanes hso_freestream hso_seed_points] in E.
    destruct E as (O1 & V1 & R1 & X1 & _ & _ & a1 & U1 & T1).
    destruct (hs_run_total solve (hs_new m op) (hso_strengths s) HS) as (s' & E' & Es').
    { cbn [hs_new hso_op hso_airplanes hso_freestream]. rewrite (same_rows_influences _ _ SR), Hn. exact X1. }
    exists s'. split; [exact E'|].
    pose proof (hs_solution_length _ _ _ HS E') as [L2 _].
    apply hs_run_inv in E'. cbn [hs_new hso_op hso_airplanes hso_freestream hso_seed_points] in E'.
    destruct E' as (O2 & V2 & R2 & _ & _ & _ & a2 & U2 & T2).
    rewrite Es', R2 in L2. rewrite R1 in L1. rewrite Es' in T2, U2.
    rewrite hs_moments_explicit, hs_forces_explicit in T1 by exact L1.
    rewrite hs_moments_explicit, hs_forces_explicit in T2 by exact L2.
    set (v := freestream_velocity op) in *. set (xs := hso_strengths s) in *.
    assert (HV : forall x, hs_velocity_at (hs_rows_of op m) xs v x = hs_velocity_at (hs_rows_of op l) xs v x).
    { intros x. apply same_rows_velocity; exact SR. }
    assert (EF : map (fun rg => hs_row_force (op_density op) (hs_velocity_at (hs_rows_of op m) xs v) (fst rg) (snd rg)) (combine (hs_rows_of op m) xs)
               = map (fun rg => hs_row_force (op_density op) (hs_velocity_at (hs_rows_of op l) xs v) (fst rg) (snd rg)) (combine (hs_rows_of op l) xs) /\
                 map (fun rg => hs_row_moment (op_density op) (hs_velocity_at (hs_rows_of op m) xs v) (fst rg) (snd rg)) (combine (hs_rows_of op m) xs)
               = map (fun rg => hs_row_moment (op_density op) (hs_velocity_at (hs_rows_of op l) xs v) (fst rg) (snd rg)) (combine (hs_rows_of op l) xs)).
    { set (vel1 := hs_velocity_at (hs_rows_of op l) xs v) in *. set (vel2 := hs_velocity_at (hs_rows_of op m) xs v) in *.
      clearbody vel1 vel2. revert SR. clear -HV. generalize xs (hs_rows_of op l) (hs_rows_of op m).
      intros zs l' m' FR; revert zs; induction FR as [|r r' l' m' (H1 & H2 & H3) _ IH]; intros [|g zs]; cbn [combine map]; auto.
      destruct (IH zs) as [-> ->]. cbn [fst snd].
      unfold hs_row_moment, hs_row_force, hr_bound_center, hr_bound_vector. rewrite H1, H2, !HV. auto. }
    destruct EF as [EF EM]. rewrite EF, EM in T2.
    eapply process_alike; [| exact T1 | exact T2].
    apply update_panels_sound in U1, U2. destruct U1 as (? & ? & _ & F1), U2 as (? & ? & _ & F2).
    apply airplanes_updated_same in F1; [|apply hs_set_strength_same]. apply airplanes_updated_same in F2; [|apply hs_set_strength_same].
    eapply same_airplanes_trans; [|eapply same_airplanes_trans; [|exact F2]].
    + instantiate (1 := m). eapply same_airplanes_trans; [|exact F].
      assert (G : Forall2 same_airplane l a1) by (eapply same_airplanes_trans; [apply hs_init_same | exact F1]).
      clear -G. induction G; constructor; auto using same_airplane_sym.
    + apply hs_init_same.
  - apply (hs_run_err solve (hs_new l op) e HS) in E. apply (hs_run_err solve (hs_new m op) e HS).
    cbn [hs_new hso_op hso_airplanes hso_freestream] in *. rewrite (same_rows_influences _ _ SR), Hn. exact E.
Qed.

(** ** Minimising *)
Section Asking.
Context {point : Type}.
Variable outcome : point -> result (option R) -> Prop.
Hypothesis deterministic : forall x r r', outcome x r -> outcome x r' -> r = r'.
Variable next : list (point * option R) -> option point.
Variable cut_off : R.

Lemma seen_snoc_inv past x v : seen outcome next (past ++ [(x, v)]) ->
  seen outcome next past /\ next past = Some x /\ outcome x (Ok v).
Proof using.
  clear. intros H. inversion H as [E|past' x' v' Hs Hn Ho E].
  - destruct past; discriminate.
  - apply app_inj_tail in E. destruct E as [-> E]. injection E as -> ->. auto.
Qed.
Lemma seen_prefix p1 p2 : seen outcome next p1 -> seen outcome next p2 -> (length p1 <= length p2)%nat ->
  exists q, p2 = p1 ++ q.
Proof.
  intros H1 H2 L. revert p1 H1 L. induction H2 as [|p2 x v H2 IH Hn Ho]; intros p1 H1 L.
  - destruct p1; [exists []; reflexivity | cbn in L; lia].
  - rewrite app_length in L. cbn in L.
    destruct (Nat.eq_dec (length p1) (length p2 + 1)) as [e|n].
    + destruct H1 as [|p1 x' v' H1 Hn' Ho']; [cbn in e; lia|].
      rewrite app_length in e; cbn in e. destruct (IH p1 H1) as [q Eq]; [lia|].
      destruct q; [|subst p2; rewrite app_length in e; cbn in e; lia].
      rewrite app_nil_r in Eq; subst p2. rewrite Hn in Hn'. injection Hn' as <-.
      pose proof (deterministic _ _ _ Ho Ho') as X. injection X as <-. exists []. rewrite app_nil_r. reflexivity.
    + destruct (IH p1 H1) as [q ->]; [lia|]. exists (q ++ [(x, v)]). rewrite app_assoc. reflexivity.
Qed.
Lemma seen_app p q : seen outcome next (p ++ q) -> seen outcome next p.
Proof using.
  clear. revert p. induction q as [|z q IH]; intros p H; [rewrite app_nil_r in H; exact H|].
  assert (seen outcome next (p ++ [z])) by (apply IH; rewrite <- app_assoc; exact H).
  destruct z. apply seen_snoc_inv in H0. tauto.
Qed.
(** How an optimiser ends. *)
Inductive ending : Type := Accepted (x : point) | Failed (e : err) | GaveUp.
Definition ends (calls : nat) (past : list (point * option R)) (d : ending) : Prop :=
  match d with
  | Accepted x => exists v, asks outcome next cut_off calls past x /\ outcome x (Ok v) /\ below cut_off v
  | Failed e => exists x, asks outcome next cut_off calls past x /\ outcome x (Err e)
  | GaveUp => gives_up outcome next cut_off calls past
  end.
Lemma ends_seen calls past d : ends calls past d -> seen outcome next past /\ none_below cut_off past /\ (length past <= calls)%nat.
Proof using.
  clear. unfold ends, asks, gives_up. destruct d; intros H.
  - destruct H as (v & (H1 & H2 & H3 & _) & _). repeat split; auto; lia.
  - destruct H as (v & (H1 & H2 & H3 & _) & _). repeat split; auto; lia.
  - destruct H as (H1 & H2 & H3). repeat split; auto; lia.
Qed.
Lemma ends_longest calls past d past' : ends calls past d -> seen outcome next past' -> none_below cut_off past' ->
  (length past' <= calls)%nat -> (length past' <= length past)%nat.
Proof.
  intros E H' N' L'. destruct (le_lt_dec (length past') (length past)) as [l|l]; [exact l|exfalso].
  destruct (ends_seen _ _ _ E) as (H & N & L).
  destruct (seen_prefix past past' H H') as [[|[x v] q] Eq]; [lia | subst; rewrite app_nil_r in l; lia | subst past'].
  assert (X : seen outcome next (past ++ [(x, v)])) by (apply seen_app with q; rewrite <- app_assoc; exact H').
  apply seen_snoc_inv in X. destruct X as (_ & Hn & Ho).
  assert (Nv : ~ below cut_off v) by (apply (N' x); apply in_or_app; right; left; reflexivity).
  rewrite app_length in L'. cbn in L'.
  destruct d; cbn [ends] in E.
  - destruct E as (v' & (_ & _ & _ & Hn') & Ho' & B). rewrite Hn in Hn'. injection Hn' as <-.
    pose proof (deterministic _ _ _ Ho Ho') as X. injection X as <-. contradiction.
  - destruct E as (x' & (_ & _ & _ & Hn') & Ho'). rewrite Hn in Hn'. injection Hn' as <-.
    pose proof (deterministic _ _ _ Ho Ho') as X. discriminate.
  - destruct E as (_ & _ & [E|[_ E]]); [lia | congruence].
Qed.
Lemma ends_unique calls p1 d1 p2 d2 : ends calls p1 d1 -> ends calls p2 d2 -> p1 = p2 /\ d1 = d2.
Proof.
  intros E1 E2. destruct (ends_seen _ _ _ E1) as (H1 & N1 & L1), (ends_seen _ _ _ E2) as (H2 & N2 & L2).
  pose proof (ends_longest _ _ _ _ E1 H2 N2 L2). pose proof (ends_longest _ _ _ _ E2 H1 N1 L1).
  destruct (seen_prefix _ _ H1 H2) as [q Eq]; [lia|].
  assert (q = []) by (destruct q; [reflexivity | subst p2; rewrite app_length in *; cbn in *; lia]). subst q.
  rewrite app_nil_r in Eq. subst p2. split; [reflexivity|].
  destruct d1, d2; cbn [ends] in *; unfold asks, gives_up in *.
  - destruct E1 as (v & (_ & _ & _ & A) & _), E2 as (v' & (_ & _ & _ & A') & _). congruence.
  - destruct E1 as (v & (_ & _ & _ & A) & O & _), E2 as (x' & (_ & _ & _ & A') & O'). rewrite A in A'; injection A' as <-.
    pose proof (deterministic _ _ _ O O'). discriminate.
  - destruct E1 as (v & (_ & _ & L & A) & O & _), E2 as (_ & _ & [A'|[_ A']]); [lia | congruence].
  - destruct E2 as (v & (_ & _ & _ & A) & O & _), E1 as (x' & (_ & _ & _ & A') & O'). rewrite A in A'; injection A' as <-.
    pose proof (deterministic _ _ _ O O'). discriminate.
  - destruct E1 as (x & (_ & _ & _ & A) & O), E2 as (x' & (_ & _ & _ & A') & O'). rewrite A in A'; injection A' as <-.
    pose proof (deterministic _ _ _ O O'). congruence.
  - destruct E1 as (v & (_ & _ & L & A) & O), E2 as (_ & _ & [A'|[_ A']]); [lia | congruence].
  - destruct E2 as (v & (_ & _ & L & A) & O & _), E1 as (_ & _ & [A'|[_ A']]); [lia | congruence].
  - destruct E2 as (v & (_ & _ & L & A) & O), E1 as (_ & _ & [A'|[_ A']]); [lia | congruence].
  - reflexivity.
Qed.

Context {state : Type}.
Variable objective : state -> point -> result (state * evaluation).
Variable inv : state -> Prop.
Variable after : point -> bool -> state -> Prop.
Hypothesis evaluates : forall s x, inv s ->
  match objective s x with
  | Err e => outcome x (Err e)
  | Ok (s', ev) => inv s' /\ exists v, outcome x (Ok v) /\
      ((below cut_off v /\ ev = Stop /\ after x true s') \/ (~ below cut_off v /\ ev = Value v /\ after x false s'))
  end.
Definition left_by (s : state) (past : list (point * option R)) (s' : state) : Prop :=
  (past = [] /\ s' = s) \/ exists before x v, past = before ++ [(x, v)] /\ after x false s'.
Lemma minimise_ends calls past s0 s : seen outcome next past -> none_below cut_off past -> inv s -> left_by s0 past s ->
  match minimise objective next calls past s with
  | Err e => exists past', ends (length past + calls) past' (Failed e)
  | Ok (s', true) => exists past' x, ends (length past + calls) past' (Accepted x) /\ inv s' /\ after x true s'
  | Ok (s', false) => exists past', ends (length past + calls) past' GaveUp /\ inv s' /\ left_by s0 past' s'
  end.
Proof using evaluates.
  clear deterministic. revert past s. induction calls as [|calls IH]; intros past s Hs Hn Hi Hl; cbn [minimise].
  - exists past. cbn [ends]. unfold gives_up. rewrite Nat.add_0_r. auto 6.
  - destruct (next past) as [x|] eqn:En.
    + pose proof (evaluates s x Hi) as HE. destruct (objective s x) as [[s' ev]|e]; cbn [bind fst snd].
      * destruct HE as (Hi' & v & Ho & [(B & -> & A)|(B & -> & A)]).
        -- exists past, x. split; [|auto]. cbn [ends]. exists v. unfold asks. repeat split; auto. lia.
        -- assert (Hs' : seen outcome next (past ++ [(x, v)])) by (constructor; assumption).
           assert (Hn' : none_below cut_off (past ++ [(x, v)])).
           { intros y u Hin. apply in_app_or in Hin. destruct Hin as [Hin|[[= <- <-]|[]]]; [eapply Hn; exact Hin | exact B]. }
           specialize (IH _ s' Hs' Hn' Hi'). rewrite app_length in IH. cbn [length] in IH.
           replace (length past + S calls)%nat with (length past + 1 + calls)%nat by lia. apply IH.
           right. exists past, x, v. auto.
      * exists past. cbn [ends]. exists x. split; [|exact HE]. unfold asks. repeat split; auto. lia.
    + exists past. cbn [ends]. unfold gives_up. split; [|auto]. repeat split; auto. right. split; [lia | exact En].
Qed.
Lemma minimise_from_start calls s0 : inv s0 ->
  match minimise objective next calls [] s0 with
  | Err e => exists past', ends calls past' (Failed e)
  | Ok (s', true) => exists past' x, ends calls past' (Accepted x) /\ inv s' /\ after x true s'
  | Ok (s', false) => exists past', ends calls past' GaveUp /\ inv s' /\ left_by s0 past' s'
  end.
Proof using evaluates.
  intros H. apply (minimise_ends calls [] s0 s0); auto; [constructor | intros ? ? [] | left; auto].
Qed.
Lemma ends_accepts calls x : accepts outcome next cut_off calls x <-> exists past, ends calls past (Accepted x).
Proof using. clear. unfold accepts. cbn [ends]. firstorder. Qed.
Lemma ends_fails calls e : fails outcome next cut_off calls e <-> exists past, ends calls past (Failed e).
Proof using. clear. unfold fails. cbn [ends]. firstorder. Qed.
Lemma ends_exhausted calls : exhausted outcome next cut_off calls <-> exists past, ends calls past GaveUp.
Proof using. clear. unfold exhausted. cbn [ends]. firstorder. Qed.
End Asking.

(** ** Steady trim *)
Section Steady.
Variable solve : list (list R) -> list R -> result (list R).
Hypothesis HS : SolveSpec solve.
Variable problem : steady_problem.
Variable cut_off : R.
Notation outcome := (steady_outcome solve problem).

Lemma finite_dec op a : finite_for op a \/ ~ finite_for op a.
Proof using.
  clear. unfold finite_for.
  destruct (Req_dec (dynamic_pressure op) 0), (Req_dec (a_s_ref a) 0), (Req_dec (a_b_ref a) 0), (Req_dec (a_c_ref a) 0); tauto.
Qed.
Lemma finite_test op a :
  negb (Reqb (dynamic_pressure op) 0 || Reqb (a_s_ref a) 0 || Reqb (a_b_ref a) 0 || Reqb (a_c_ref a) 0) = true <-> finite_for op a.
Proof using.
  clear. unfold finite_for. rewrite Bool.negb_true_iff, !Bool.orb_false_iff, !Reqb_false. tauto.
Qed.
Lemma steady_outcome_unique x r r' : outcome x r -> outcome x r' -> r = r'.
Proof using.
  clear. destruct r as [v|e], r' as [v'|e']; cbn [steady_outcome]; unfold coefficients_at.
  - intros (f & op & a & cf & cm & Hf & (-> & s & rest & Es & Ea & Ef & Em) & H1 & H2).
    intros (f' & op' & a' & cf' & cm' & Hf' & (-> & s' & rest' & Es' & Ea' & Ef' & Em') & H1' & H2').
    rewrite Es in Es'. apply Ok_eq in Es'. subst s'. rewrite Ea in Ea'. injection Ea' as <- _.
    rewrite Ef in Ef'. apply Some_eq in Ef'. subst cf'. rewrite Em in Em'. apply Some_eq in Em'. subst cm'.
    rewrite Hf in Hf'. apply Some_eq in Hf'. subst f'. f_equal.
    destruct (finite_dec (at_speed_and_angles (sp_operating_point problem) (tp_velocity x) (tp_alpha x) (tp_beta x)) a) as [H|H].
    + rewrite H1, H1' by exact H. reflexivity.
    + rewrite H2, H2' by exact H. reflexivity.
  - intros (f & op & a & cf & cm & Hf & (-> & s & rest & Es & _) & _) E. congruence.
  - intros E (f & op & a & cf & cm & Hf & (-> & s & rest & Es & _) & _). congruence.
  - congruence.
Qed.

Definition trim_inv (st : trim_state) : Prop :=
  Forall2 same_airplane (sp_airplanes problem) (sp_airplanes (ts_problem st)) /\
  exists v a b, sp_operating_point (ts_problem st) = at_speed_and_angles (sp_operating_point problem) v a b.
Definition point_list (x : trim_point) : list (option R) :=
  [Some (tp_velocity x); Some (tp_alpha x); Some (tp_beta x); Some (tp_thrust x)].
Definition trim_after (x : trim_point) (stopped : bool) (st : trim_state) : Prop :=
  sp_operating_point (ts_problem st) =
    at_speed_and_angles (sp_operating_point problem) (tp_velocity x) (tp_alpha x) (tp_beta x) /\
  ts_current st = if stopped then point_list x else nans 4.

Lemma external_per q s t w : vscale (/ s) (vscale (/ q) (mkvec t 0 w)) = mkvec (t / (q * s)) 0 (w / (q * s)).
Proof using. clear. unfold Rdiv. rewrite Rinv_mult. apply vec_ext; cbn; ring. Qed.

Lemma steady_evaluates first st x : nth_error (sp_airplanes problem) 0 = Some first -> trim_inv st ->
  match steady_objective solve (a_weight first) cut_off st x with
  | Err e => outcome x (Err e)
  | Ok (st', ev) => trim_inv st' /\ exists v, outcome x (Ok v) /\
      ((below cut_off v /\ ev = Stop /\ trim_after x true st') \/
       (~ below cut_off v /\ ev = Value v /\ trim_after x false st'))
  end.
Proof using HS.
  intros Hf (F & v0 & a0 & b0 & Eop). unfold steady_objective. cbn zeta.
  rewrite Eop. set (op := op_set _ _ _ _).
  assert (Hop : op = at_speed_and_angles (sp_operating_point problem) (tp_velocity x) (tp_alpha x) (tp_beta x)) by reflexivity.
  clearbody op.
  destruct (Forall2_nth_l _ _ _ F 0%nat first Hf) as (first' & Hf' & Sf).
  unfold index at 1. rewrite Hf'. cbn [bind].
  pose proof (hs_alike solve op _ _ HS F) as HA.
  cbn [steady_outcome]. rewrite <- Hop.
  destruct (hs_run solve (hs_new (sp_airplanes problem) op)) as [s|e] eqn:Es; [|rewrite HA; cbn [bind]; reflexivity].
  destruct HA as (s' & Es' & FL). rewrite Es'. cbn [bind].
  pose proof (hs_run_same _ _ _ Es) as S0. cbn [hs_new hso_airplanes] in S0.
  pose proof (hs_run_same _ _ _ Es') as S1. cbn [hs_new hso_airplanes] in S1.
  destruct (Forall2_nth_l _ _ _ S0 0%nat first Hf) as (a & Ha & Sa).
  destruct (Forall2_nth_l _ _ _ FL 0%nat a Ha) as (a' & Ha' & SL & _ & _ & Ecf & Ecm).
  unfold index. rewrite Ha'. cbn [bind].
  destruct (hso_airplanes s) as [|a1 rest] eqn:Ear; [discriminate|]. cbn [nth_error] in Ha. apply Some_eq in Ha. subst a1.
  assert (Hc : exists cf cm, a_force_coefficients a = Some cf /\ a_moment_coefficients a = Some cm).
  { pose proof Es as E'. apply hs_run_inv in E'. destruct E' as (_ & _ & _ & _ & _ & _ & airplanes1 & _ & Ep).
    apply process_forces_sound in Ep. destruct Ep as (us & r & _ & F3). rewrite Ear in F3. inversion F3; subst.
    destruct H3 as (_ & _ & _ & _ & _ & H6 & H7). eauto. }
  destruct Hc as (cf & cm & Hcf & Hcm). rewrite Ecf, Ecm, Hcf, Hcm.
  assert (Refs : a_s_ref first' = a_s_ref a /\ a_s_ref a' = a_s_ref a /\ a_b_ref a' = a_b_ref a /\ a_c_ref a' = a_c_ref a).
  { clear -Sf Sa SL. unfold same_airplane in *. intuition congruence. }
  destruct Refs as (R1 & R2 & R3 & R4). rewrite R1, R2, R3, R4, external_per.
  assert (Hinv : forall l, trim_inv (mktrimstate (mksteady (hso_airplanes s') op) l)).
  { intros l. split; cbn [ts_problem sp_airplanes sp_operating_point].
    - eapply same_airplanes_trans; [exact F | exact S1].
    - eauto. }
  assert (Ho : forall v, (finite_for op a -> v = Some (imbalance op a (tp_thrust x) (a_weight first) cf cm)) -> (~ finite_for op a -> v = None) ->
     exists first0 op0 a0 cf0 cm0, nth_error (sp_airplanes problem) 0 = Some first0 /\
      coefficients_at solve problem (tp_velocity x) (tp_alpha x) (tp_beta x) op0 a0 cf0 cm0 /\
      (finite_for op0 a0 -> v = Some (imbalance op0 a0 (tp_thrust x) (a_weight first0) cf0 cm0)) /\ (~ finite_for op0 a0 -> v = None)).
  { intros v H1 H2. exists first, op, a, cf, cm. split; [exact Hf|]. split; [|auto].
    split; [exact Hop|]. exists s, rest. auto. }
  assert (Him : (Rabs (vnorm (vsub cf (mkvec (tp_thrust x / (dynamic_pressure op * a_s_ref a)) 0 (a_weight first / (dynamic_pressure op * a_s_ref a))))) + Rabs (vnorm cm)) / 2
              = imbalance op a (tp_thrust x) (a_weight first) cf cm).
  { unfold imbalance. rewrite !Rabs_pos_eq by apply sqrt_pos. reflexivity. }
  rewrite Him. set (im := imbalance _ _ _ _ _ _) in *.
  destruct (negb _) eqn:Eb.
  - pose proof (proj1 (finite_test op a) Eb) as Hfin. cbn [andb]. destruct (Rltb im cut_off) eqn:El.
    + split; [apply Hinv|]. exists (Some im). split; [apply Ho; [reflexivity | contradiction]|].
      left. split; [exists im; split; [reflexivity | apply Rltb_true; exact El]|]. split; [reflexivity|].
      split; [exact Hop | reflexivity].
    + split; [apply Hinv|]. exists (Some im). split; [apply Ho; [reflexivity | contradiction]|].
      right. split; [|split; [reflexivity | split; [exact Hop | reflexivity]]].
      intros (y & Ey & Hy). apply Some_eq in Ey. subst y. apply Rltb_false in El. lra.
  - assert (Hfin : ~ finite_for op a) by (intros H; apply finite_test in H; congruence).
    cbn [andb]. split; [apply Hinv|]. exists None. split; [apply Ho; [contradiction | reflexivity]|].
    right. split; [|split; [reflexivity | split; [exact Hop | reflexivity]]].
    intros (y & Ey & _). discriminate.
Qed.

Variables (local global : optimiser trim_point) (local_calls global_calls : nat).
Variables velocity_bounds alpha_bounds beta_bounds thrust_bounds : R * R.
Notation run := (steady_trim solve local global local_calls global_calls problem velocity_bounds alpha_bounds beta_bounds thrust_bounds cut_off).
Notation rules := (trim_rules problem velocity_bounds alpha_bounds beta_bounds thrust_bounds).

Lemma within_between x bounds : within x bounds = true <-> in_interval x bounds.
Proof using.
  clear. unfold within, in_interval. rewrite Bool.negb_true_iff, Bool.orb_false_iff, !Rltb_false. tauto.
Qed.

(** Everything the analysis can do. *)
Inductive trim_result : result (list (option R) * steady_problem) -> Prop :=
  | trim_rejected e : first_violated rules e -> trim_result (Err e)
  | trim_local x st : all_hold rules -> accepts outcome local cut_off local_calls x ->
      trim_inv st -> trim_after x true st -> trim_result (Ok (point_list x, ts_problem st))
  | trim_local_failed e : all_hold rules -> fails outcome local cut_off local_calls e -> trim_result (Err e)
  | trim_global x st : all_hold rules -> exhausted outcome local cut_off local_calls ->
      accepts outcome global cut_off global_calls x ->
      trim_inv st -> trim_after x true st -> trim_result (Ok (point_list x, ts_problem st))
  | trim_global_failed e : all_hold rules -> exhausted outcome local cut_off local_calls ->
      fails outcome global cut_off global_calls e -> trim_result (Err e)
  | trim_nothing st past1 past2 : all_hold rules ->
      gives_up outcome local cut_off local_calls past1 -> gives_up outcome global cut_off global_calls past2 ->
      trim_inv st ->
      (past1 ++ past2 = [] /\ ts_problem st = problem \/
       exists before x v, past1 ++ past2 = before ++ [(x, v)] /\ trim_after x false st) ->
      trim_result (Ok (nans 4, ts_problem st)).

Lemma trim_cases : trim_result run.
Proof using HS.
  unfold steady_trim.
  destruct (sp_airplanes problem) as [|first others] eqn:Ea; [cbn [index nth_error bind]|].
  { apply trim_rejected. unfold trim_rules. rewrite first_violated_cons. left. rewrite Ea. split; [intros H; apply H; reflexivity | reflexivity]. }
  assert (Hf : nth_error (sp_airplanes problem) 0 = Some first) by (rewrite Ea; reflexivity).
  unfold index. cbn [nth_error bind]. set (op := sp_operating_point problem).
  assert (R0 : sp_airplanes problem <> []) by (rewrite Ea; discriminate).
  assert (Hw : forall x b, within x b = false -> ~ in_interval x b).
  { intros x b H H'. apply within_between in H'. congruence. }
  destruct (within (op_velocity op) velocity_bounds) eqn:B1; cbn [check bind].
  2:{ apply trim_rejected. unfold trim_rules. rewrite !first_violated_cons. fold op. apply Hw in B1. tauto. }
  destruct (within (op_alpha op) alpha_bounds) eqn:B2; cbn [check bind].
  2:{ apply trim_rejected. unfold trim_rules. rewrite !first_violated_cons. fold op. apply Hw in B2. apply within_between in B1. tauto. }
  destruct (within (op_beta op) beta_bounds) eqn:B3; cbn [check bind].
  2:{ apply trim_rejected. unfold trim_rules. rewrite !first_violated_cons. fold op. apply Hw in B3. apply within_between in B1, B2. tauto. }
  destruct (within (op_external_thrust op) thrust_bounds) eqn:B4; cbn [check bind].
  2:{ apply trim_rejected. unfold trim_rules. rewrite !first_violated_cons. fold op. apply Hw in B4. apply within_between in B1, B2, B3. tauto. }
  apply within_between in B1, B2, B3, B4.
  assert (HR : all_hold rules).
  { intros P e Hin. unfold trim_rules in Hin. cbn [In] in Hin. fold op in Hin.
    destruct Hin as [H|[H|[H|[H|[H|[]]]]]]; injection H as <- _; assumption. }
  assert (I0 : trim_inv (mktrimstate problem (nans 4))).
  { split.
    - cbn. clear. induction (sp_airplanes problem); constructor; auto using same_airplane_refl.
    - exists (op_velocity op), (op_alpha op), (op_beta op). cbn. unfold op, at_speed_and_angles. destruct (sp_operating_point problem); reflexivity. }
  pose proof (minimise_from_start outcome local cut_off (steady_objective solve (a_weight first) cut_off) trim_inv trim_after
                (fun s x => steady_evaluates first s x Hf) local_calls _ I0) as M1.
  destruct (minimise _ local local_calls [] _) as [[st1 [|]]|e]; cbn [bind fst snd].
  - destruct M1 as (past & x & E1 & I1 & A1). rewrite (proj2 A1).
    apply trim_local; auto. apply ends_accepts. eauto.
  - destruct M1 as (past1 & E1 & I1 & L1).
    pose proof (minimise_from_start outcome global cut_off (steady_objective solve (a_weight first) cut_off) trim_inv trim_after
                  (fun s x => steady_evaluates first s x Hf) global_calls _ I1) as M2.
    destruct (minimise _ global global_calls [] _) as [[st2 [|]]|e]; cbn [bind fst snd].
    + destruct M2 as (past & x & E2 & I2 & A2). rewrite (proj2 A2).
      apply trim_global; auto. { apply ends_exhausted; eauto. } apply ends_accepts. eauto.
    + destruct M2 as (past2 & E2 & I2 & L2). apply trim_nothing with past1 past2; auto.
      destruct L2 as [[-> ->]|(before & x & v & -> & A)].
      * destruct L1 as [[-> ->]|(before & x & v & -> & A)].
        -- left. split; reflexivity.
        -- right. exists before, x, v. rewrite app_nil_r. auto.
      * right. exists (past1 ++ before), x, v. rewrite app_assoc. auto.
    + destruct M2 as (past2 & E2). apply trim_global_failed; auto. { apply ends_exhausted; eauto. } apply ends_fails. eauto.
  - destruct M1 as (past & E1). apply trim_local_failed; auto. apply ends_fails. eauto.
Qed.

Lemma endings_exclusive next calls x e :
  (accepts outcome next cut_off calls x -> fails outcome next cut_off calls e -> False) /\
  (accepts outcome next cut_off calls x -> exhausted outcome next cut_off calls -> False) /\
  (fails outcome next cut_off calls e -> exhausted outcome next cut_off calls -> False).
Proof using.
  rewrite ends_accepts, ends_fails, ends_exhausted.
  repeat split; intros (p & E) (p' & E'); pose proof (ends_unique _ steady_outcome_unique _ _ _ _ _ _ _ E E') as [_ X]; discriminate.
Qed.
Lemma accepts_unique next calls x x' :
  accepts outcome next cut_off calls x -> accepts outcome next cut_off calls x' -> x' = x.
Proof using.
  rewrite !ends_accepts. intros (p & E) (p' & E'). pose proof (ends_unique _ steady_outcome_unique _ _ _ _ _ _ _ E E') as [_ X]. injection X; auto.
Qed.
Lemma fails_unique next calls e e' :
  fails outcome next cut_off calls e -> fails outcome next cut_off calls e' -> e' = e.
Proof using.
  rewrite !ends_fails. intros (p & E) (p' & E'). pose proof (ends_unique _ steady_outcome_unique _ _ _ _ _ _ _ E E') as [_ X]. injection X; auto.
Qed.
Lemma ok_pair {A B} (a c : A) (b d : B) : Ok (a, b) = Ok (c, d) -> a = c /\ b = d.
Proof using. clear. intros [= -> ->]. auto. Qed.
Lemma point_list_inj x y : point_list x = point_list y -> x = y.
Proof using. clear. destruct x, y; cbn. intros H. injection H as -> -> -> ->. reflexivity. Qed.
Lemma nans_not_point x : point_list x <> nans 4.
Proof using. clear. discriminate. Qed.

Lemma trim_found x :
  (exists problem', run = Ok (point_list x, problem')) <->
  all_hold rules /\ (accepts outcome local cut_off local_calls x \/
                     exhausted outcome local cut_off local_calls /\ accepts outcome global cut_off global_calls x).
Proof using HS.
  split.
  - intros (p' & E). pose proof trim_cases as H. rewrite E in H. remember (Ok (point_list x, p')) as r eqn:Er. clear E.
    destruct H as [e V|y st HR A I F|e HR Fl|y st HR X A I F|e HR X Fl|st p1 p2 HR X1 X2 I F]; try discriminate; apply ok_pair in Er; destruct Er as [Er _].
    + apply point_list_inj in Er. subst. auto.
    + apply point_list_inj in Er. subst. auto.
  - intros (HR & HX). destruct trim_cases as [e V|y st _ A _ _|e _ Fl|y st _ X A _ _|e _ X Fl|st p1 p2 _ X1 X2 _ _].
    + destruct (rules_exclusive _ _ HR V).
    + destruct HX as [A'|[X _]]; [rewrite (accepts_unique _ _ _ _ A A'); eauto | destruct (endings_exclusive local local_calls y EIndexError); tauto].
    + destruct (endings_exclusive local local_calls x e). tauto.
    + destruct HX as [A'|[_ A']]; [destruct (endings_exclusive local local_calls x EIndexError); tauto | rewrite (accepts_unique _ _ _ _ A A'); eauto].
    + destruct (endings_exclusive local local_calls x e), (endings_exclusive global global_calls x e). tauto.
    + assert (exhausted outcome local cut_off local_calls) by (eexists; eauto).
      assert (exhausted outcome global cut_off global_calls) by (eexists; eauto).
      destruct (endings_exclusive local local_calls x EIndexError), (endings_exclusive global global_calls x EIndexError). tauto.
Qed.
Lemma trim_not_found :
  (exists problem', run = Ok (nans 4, problem')) <->
  all_hold rules /\ exhausted outcome local cut_off local_calls /\ exhausted outcome global cut_off global_calls.
Proof using HS.
  split.
  - intros (p' & E). pose proof trim_cases as H. rewrite E in H. remember (Ok (nans 4, p')) as r eqn:Er. clear E.
    destruct H as [e V|y st HR A I F|e HR Fl|y st HR X A I F|e HR X Fl|st p1 p2 HR X1 X2 I F]; try discriminate; apply ok_pair in Er; destruct Er as [Er _].
    split; [assumption|]. split; eexists; eassumption.
  - intros (HR & X1 & X2). destruct trim_cases as [e V|y st _ A _ _|e _ Fl|y st _ X A _ _|e _ X Fl|st p1 p2 _ _ _ _ _].
    + destruct (rules_exclusive _ _ HR V).
    + destruct (endings_exclusive local local_calls y EIndexError). tauto.
    + destruct (endings_exclusive local local_calls (mktrim 0 0 0 0) e). tauto.
    + destruct (endings_exclusive global global_calls y EIndexError). tauto.
    + destruct (endings_exclusive global global_calls (mktrim 0 0 0 0) e). tauto.
    + eauto.
Qed.
Lemma trim_failed e :
  run = Err e <->
  first_violated rules e \/
  all_hold rules /\ (fails outcome local cut_off local_calls e \/
                     exhausted outcome local cut_off local_calls /\ fails outcome global cut_off global_calls e).
Proof using HS.
  split.
  - intros E. pose proof trim_cases as H. rewrite E in H. inversion H; subst; auto.
  - intros HX. destruct trim_cases as [e' V|y st HR A _ _|e' HR Fl|y st HR X A _ _|e' HR X Fl|st p1 p2 HR X1 X2 _ _].
    + destruct HX as [V'|[HR _]]; [rewrite (first_violated_fun _ _ _ V V'); reflexivity | destruct (rules_exclusive _ _ HR V)].
    + destruct HX as [V'|[_ HX]]; [destruct (rules_exclusive _ _ HR V')|].
      destruct (endings_exclusive local local_calls y e). tauto.
    + destruct HX as [V'|[_ HX]]; [destruct (rules_exclusive _ _ HR V')|].
      destruct HX as [F'|[X _]]; [rewrite (fails_unique _ _ _ _ Fl F'); reflexivity|].
      destruct (endings_exclusive local local_calls (mktrim 0 0 0 0) e'). tauto.
    + destruct HX as [V'|[_ HX]]; [destruct (rules_exclusive _ _ HR V')|].
      destruct (endings_exclusive local local_calls y e), (endings_exclusive global global_calls y e). tauto.
    + destruct HX as [V'|[_ HX]]; [destruct (rules_exclusive _ _ HR V')|].
      destruct HX as [F'|[_ F']]; [destruct (endings_exclusive local local_calls (mktrim 0 0 0 0) e); tauto|].
      rewrite (fails_unique _ _ _ _ Fl F'); reflexivity.
    + destruct HX as [V'|[_ HX]]; [destruct (rules_exclusive _ _ HR V')|].
      assert (exhausted outcome local cut_off local_calls) by (eexists; eauto).
      assert (exhausted outcome global cut_off global_calls) by (eexists; eauto).
      destruct (endings_exclusive local local_calls (mktrim 0 0 0 0) e), (endings_exclusive global global_calls (mktrim 0 0 0 0) e). tauto.
Qed.

(** What is left in the problem object. *)
Lemma trim_leaves r problem' : run = Ok (r, problem') ->
  Forall2 same_airplane (sp_airplanes problem) (sp_airplanes problem') /\
  (exists v a b, sp_operating_point problem' = at_speed_and_angles (sp_operating_point problem) v a b) /\
  (forall x, r = point_list x -> sp_operating_point problem' =
     at_speed_and_angles (sp_operating_point problem) (tp_velocity x) (tp_alpha x) (tp_beta x)).
Proof using HS.
  intros E. pose proof trim_cases as H. rewrite E in H. remember (Ok (r, problem')) as r0 eqn:Er. clear E.
  destruct H as [e V|y st HR A I F|e HR Fl|y st HR X A I F|e HR X Fl|st p1 p2 HR X1 X2 I F]; try discriminate; apply ok_pair in Er; destruct Er as [<- <-];
    (split; [apply I|]); (split; [apply I|]).
  - intros x Ex. apply point_list_inj in Ex. subst. apply F.
  - intros x Ex. apply point_list_inj in Ex. subst. apply F.
  - intros x Ex. symmetry in Ex. exfalso. eapply nans_not_point; eauto.
Qed.
Lemma trim_shape r problem' : run = Ok (r, problem') -> r = nans 4 \/ exists x, r = point_list x.
Proof using HS.
  intros E. pose proof trim_cases as H. rewrite E in H. remember (Ok (r, problem')) as r0 eqn:Er. clear E.
  destruct H; try discriminate; apply ok_pair in Er; destruct Er as [<- <-]; eauto.
Qed.
Lemma trim_accepted x problem' : run = Ok (point_list x, problem') ->
  (exists past, local past = Some x \/ global past = Some x) /\
  exists v, outcome x (Ok v) /\ below cut_off v.
Proof using HS.
  intros E. assert (E' : exists p, run = Ok (point_list x, p)) by eauto.
  apply trim_found in E'. destruct E' as [_ [A|[_ A]]]; destruct A as (past & v & (_ & _ & _ & A) & O & B); eauto 6.
Qed.
(** Lift and drag balance weight and thrust. *)
Lemma trim_balance x problem' : run = Ok (point_list x, problem') ->
  exists first s a rest f m,
    let op := at_speed_and_angles (sp_operating_point problem) (tp_velocity x) (tp_alpha x) (tp_beta x) in
    nth_error (sp_airplanes problem) 0 = Some first /\
    hs_run solve (hs_new (sp_airplanes problem) op) = Ok s /\ hso_airplanes s = a :: rest /\
    a_force_wind a = Some f /\ a_moment_wind a = Some m /\
    vnorm (vsub (mkvec (- vx f) (vy f) (- vz f)) (mkvec (tp_thrust x) 0 (a_weight first))) <
      2 * cut_off * Rabs (dynamic_pressure op * a_s_ref first) /\
    Rabs (vx m) < 2 * cut_off * Rabs (dynamic_pressure op * a_s_ref first * a_b_ref first) /\
    Rabs (vy m) < 2 * cut_off * Rabs (dynamic_pressure op * a_s_ref first * a_c_ref first) /\
    Rabs (vz m) < 2 * cut_off * Rabs (dynamic_pressure op * a_s_ref first * a_b_ref first).
Proof using HS.
  intros E. destruct (trim_accepted _ _ E) as (_ & v & O & B).
  destruct O as (first & op & a & cf & cm & Hf & (-> & s & rest & Es & Ea & Ef & Em) & H1 & H2).
  cbn zeta. set (op := at_speed_and_angles _ _ _ _) in *.
  destruct (finite_dec op a) as [Hfin|Hn].
  2:{ rewrite (H2 Hn) in B. destruct B as (y & X & _). discriminate. }
  rewrite (H1 Hfin) in B. destruct B as (y & X & B). apply Some_eq in X. subst y.
  pose proof (hs_run_same _ _ _ Es) as S0. cbn [hs_new hso_airplanes] in S0.
  destruct (Forall2_nth_l _ _ _ S0 0%nat first Hf) as (a' & Ha' & Sa). rewrite Ea in Ha'. cbn in Ha'. apply Some_eq in Ha'. subst a'.
  assert (Refs : a_s_ref first = a_s_ref a /\ a_b_ref first = a_b_ref a /\ a_c_ref first = a_c_ref a).
  { clear -Sa. unfold same_airplane in *. intuition congruence. }
  destruct Refs as (R1 & R2 & R3).
  pose proof Es as E'. apply hs_run_inv in E'. destruct E' as (_ & _ & _ & _ & _ & _ & airplanes1 & _ & Ep).
  cbn [hs_new hso_op] in Ep.
  apply process_forces_sound in Ep. destruct Ep as (us & r & _ & F3). rewrite Ea in F3. inversion F3 as [|b u ? ? ? ? T]; subst.
  destruct T as (Sb & _ & _ & T4 & T5 & T6 & T7).
  assert (Refs' : a_s_ref b = a_s_ref a /\ a_b_ref b = a_b_ref a /\ a_c_ref b = a_c_ref a).
  { clear -Sb. unfold same_airplane in *. intuition congruence. }
  destruct Refs' as (R1' & R2' & R3'). rewrite R1', ?R2', ?R3' in *. clear R1' R2' R3' Sb F3.
  set (f := mvmul _ _) in T4, T6. set (m := mvmul _ _) in T5, T7.
  rewrite T6 in Ef. apply Some_eq in Ef. rewrite T7 in Em. apply Some_eq in Em.
  exists first, s, a, rest, f, m. rewrite R1, R2, R3. clear R1 R2 R3.
  split; [exact Hf|]. split; [exact Es|]. split; [exact Ea|]. split; [exact T4|]. split; [exact T5|].
  destruct Hfin as (Hq & HSr & Hb & Hc). unfold imbalance in B. set (q := dynamic_pressure op) in *. set (S := a_s_ref a) in *.
  set (bb := a_b_ref a) in *. set (cc := a_c_ref a) in *. clearbody f m q S bb cc.
  assert (N1 : 0 <= vnorm (vsub cf (mkvec (tp_thrust x / (q * S)) 0 (a_weight first / (q * S))))) by apply sqrt_pos.
  assert (N2 : 0 <= vnorm cm) by apply sqrt_pos.
  assert (HqS : q * S <> 0) by (apply Rmult_integral_contrapositive_currified; assumption).
  assert (Hcomp : forall u, Rabs (vx u) <= vnorm u /\ Rabs (vy u) <= vnorm u /\ Rabs (vz u) <= vnorm u).
  { clear. intros u. unfold vnorm, vdot. rewrite <- !sqrt_Rsqr_abs.
    pose proof (Rle_0_sqr (vx u)). pose proof (Rle_0_sqr (vy u)). pose proof (Rle_0_sqr (vz u)). unfold Rsqr in *.
    repeat split; apply sqrt_le_1; lra. }
  split.
  - assert (Ev : vsub (mkvec (- vx f) (vy f) (- vz f)) (mkvec (tp_thrust x) 0 (a_weight first)) =
                 vscale (q * S) (vsub cf (mkvec (tp_thrust x / (q * S)) 0 (a_weight first / (q * S))))).
    { rewrite <- Ef. unfold force_coefficients. apply vec_ext; cbn; field; auto. }
    rewrite Ev, vnorm_scale, Rmult_comm. apply Rmult_lt_compat_r; [apply Rabs_pos_lt; exact HqS | lra].
  - destruct (Hcomp cm) as (C1 & C2 & C3). rewrite <- Em in C1, C2, C3. cbn [moment_coefficients vx vy vz] in C1, C2, C3. rewrite Em in C1, C2, C3.
    assert (G : forall w d, d <> 0 -> Rabs (w / q / S / d) <= vnorm cm -> Rabs w < 2 * cut_off * Rabs (q * S * d)).
    { intros w d Hd Hu. assert (Hqd : q * S * d <> 0) by (apply Rmult_integral_contrapositive_currified; assumption).
      replace w with (w / q / S / d * (q * S * d)) at 1 by (field; auto).
      rewrite Rabs_mult. apply Rmult_lt_compat_r; [apply Rabs_pos_lt; exact Hqd | lra]. }
    auto.
Qed.
Lemma trim_in_bounds x problem' :
  (forall past y, local past = Some y \/ global past = Some y ->
     in_interval (tp_velocity y) velocity_bounds /\ in_interval (tp_alpha y) alpha_bounds /\
     in_interval (tp_beta y) beta_bounds /\ in_interval (tp_thrust y) thrust_bounds) ->
  run = Ok (point_list x, problem') ->
  in_interval (tp_velocity x) velocity_bounds /\ in_interval (tp_alpha x) alpha_bounds /\
  in_interval (tp_beta x) beta_bounds /\ in_interval (tp_thrust x) thrust_bounds.
Proof using HS. intros H E. destruct (trim_accepted _ _ E) as ((past & A) & _). eapply H; exact A. Qed.
End Steady.
