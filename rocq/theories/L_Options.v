(** Options of a run that do not change its results. *)
From Coq Require Import List ZArith Lia Reals.
From Verif Require Import M_Unsteady S_Solve S_Unsteady S_UnsteadyRun L_Base L_Loads L_Geometry L_Problems L_UnsteadyFinal.
Import ListNotations.
Local Open Scope R_scope.

Lemma set_at_other {A} i (x : A) l j : (i < length l)%nat -> j <> i -> nth_error (set_at i x l) j = nth_error l j.
Proof.
  intros Hi Hj. unfold set_at. destruct (Nat.lt_ge_cases j i) as [H|H].
  - rewrite nth_error_app1 by (rewrite firstn_length; lia). revert j i Hi Hj H. induction l as [|y l IH]; intros j i Hi Hj H; [cbn in Hi; lia|]. destruct i as [|i]; [lia|]. destruct j as [|j]; [reflexivity|]. cbn. apply IH; cbn in Hi; lia.
  - rewrite nth_error_app2 by (rewrite firstn_length; lia). rewrite firstn_length, Nat.min_l by lia. destruct (j - i)%nat as [|d] eqn:E; [lia|]. cbn [nth_error]. replace j with (S i + d)%nat by lia. clear. generalize (S i). intros n. revert l. induction n as [|n IH]; intros [|y l]; cbn; try reflexivity; [destruct d; reflexivity | apply IH].
Qed.
Lemma set_airplanes_other k a steps steps' i : set_airplanes k a steps = Ok steps' -> i <> k -> nth_error steps' i = nth_error steps i.
Proof.
  unfold set_airplanes, index. intros H Hi. destruct (nth_error steps k) as [sp|] eqn:E; [|discriminate H]. cbn [bind] in H. apply Ok_eq in H. subst steps'. apply set_at_other; [apply nth_error_Some; congruence | exact Hi].
Qed.
(** A step changes its own snapshot and the next one, and its own record of the wake. *)
Lemma step_others solve prescribed s step s' : unsteady_step solve prescribed s step = Ok s' ->
  (forall i, i <> step -> i <> S step -> nth_error (up_steady_problems (us_problem s')) i = nth_error (up_steady_problems (us_problem s)) i) /\
  (forall i, i <> step -> nth_error (us_wakes s') i = nth_error (us_wakes s) i).
Proof.
  unfold unsteady_step. cbv zeta. intros H. apply bind_Ok in H. destruct H as (sp & _ & H). apply bind_Ok in H. destruct H as (al & Hal & H). apply bind_Ok in H. destruct H as (rows & _ & H).
  apply bind_Ok in H. destruct H as (wake & _ & H). apply bind_Ok in H. destruct H as (last & _ & H). apply bind_Ok in H. destruct H as (st & _ & H). apply bind_Ok in H. destruct H as (a1 & _ & H).
  apply bind_Ok in H. destruct H as (a2 & _ & H). apply bind_Ok in H. destruct H as (steps & Hs & H). apply bind_Ok in H. destruct H as ((heap & steps2) & H2 & H). apply Ok_eq in H. subst s'. cbn [us_problem up_set_steps up_steady_problems us_wakes snd].
  split.
  - intros i Hi Hi'. transitivity (nth_error steps i); [|exact (set_airplanes_other _ _ _ _ _ Hs Hi)]. destruct (Z.of_nat step <? up_num_steps (us_problem s) - 1)%Z.
    + apply bind_Ok in H2. destruct H2 as (next & _ & H2). apply bind_Ok in H2. destruct H2 as (r & _ & H2). apply bind_Ok in H2. destruct H2 as (steps3 & H3 & H2). apply Ok_eq in H2. injection H2 as _ <-. exact (set_airplanes_other _ _ _ _ _ H3 Hi').
    + apply Ok_eq in H2. injection H2 as _ <-. reflexivity.
  - intros i Hi. apply set_at_other; [|exact Hi]. unfold index in Hal. destruct (nth_error (us_wakes s) step) eqn:E; [|discriminate Hal]. apply nth_error_Some. congruence.
Qed.
Lemma later_steps solve prescribed : forall l s s', foldM (unsteady_step solve prescribed) s l = Ok s' -> (forall k, In k l -> (0 < k)%nat) ->
  nth_error (up_steady_problems (us_problem s')) 0 = nth_error (up_steady_problems (us_problem s)) 0 /\ nth_error (us_wakes s') 0 = nth_error (us_wakes s) 0.
Proof.
  induction l as [|k l IH]; intros s s' H Hl; cbn [foldM] in H; [apply Ok_eq in H; subst s'; auto|]. apply bind_Ok in H. destruct H as (s1 & H1 & H). destruct (step_others _ _ _ _ _ H1) as [A B].
  destruct (IH _ _ H) as [C D]; [intros j Hj; apply Hl; right; exact Hj|]. pose proof (Hl k (or_introl eq_refl)). rewrite C, D, A, B by lia. auto.
Qed.
(** The first step is the same up to the wake it prepares for the next. *)
Lemma first_step_any_wake solve p p' s a b : unsteady_step solve p s 0 = Ok a -> unsteady_step solve p' s 0 = Ok b ->
  nth_error (up_steady_problems (us_problem a)) 0 = nth_error (up_steady_problems (us_problem b)) 0 /\ us_wakes a = us_wakes b /\ us_current a = us_current b /\
  ((up_num_steps (us_problem s) <= 1)%Z -> a = b).
Proof.
  unfold unsteady_step. cbv zeta. intros HA HB.
  apply bind_Ok in HA. destruct HA as (sp & E1 & HA). rewrite E1 in HB. cbn [bind] in HB. apply bind_Ok in HA. destruct HA as (al & E2 & HA). rewrite E2 in HB. cbn [bind] in HB.
  apply bind_Ok in HA. destruct HA as (rows & E3 & HA). rewrite E3 in HB. cbn [bind] in HB. apply bind_Ok in HA. destruct HA as (wake & E4 & HA). rewrite E4 in HB. cbn [bind] in HB.
  apply bind_Ok in HA. destruct HA as (last & E5 & HA). rewrite E5 in HB. cbn [bind] in HB. apply bind_Ok in HA. destruct HA as (st & E6 & HA). rewrite E6 in HB. cbn [bind] in HB.
  apply bind_Ok in HA. destruct HA as (a1 & E7 & HA). rewrite E7 in HB. cbn [bind] in HB. apply bind_Ok in HA. destruct HA as (a2 & E8 & HA). rewrite E8 in HB. cbn [bind] in HB.
  apply bind_Ok in HA. destruct HA as (steps & E9 & HA). rewrite E9 in HB. cbn [bind] in HB. apply bind_Ok in HA. destruct HA as ((h1 & s1) & F1 & HA). apply bind_Ok in HB. destruct HB as ((h2 & s2) & F2 & HB).
  apply Ok_eq in HA. apply Ok_eq in HB. subst a b. cbn [us_problem up_set_steps up_steady_problems us_wakes us_current snd fst].
  assert (HN : forall q h t, (let* hs := if (Z.of_nat 0 <? up_num_steps (us_problem s) - 1)%Z then
      let* next := index steps 1 in
      let* r := populate_wake 0 (up_delta_time (us_problem s)) (convect_vertex q (freestream_velocity (sp_operating_point sp)) (current_velocity (mkcurrent 0 (sp_operating_point sp) (freestream_velocity (sp_operating_point sp)) rows last (seeds_of (map rr_panel rows))
          (unsteady_wing_influences rows (repeat 1 (num_panels_of (sp_airplanes sp))) (op_nu (sp_operating_point sp))) (unsteady_freestream_influences 0 (up_delta_time (us_problem s)) rows last (freestream_velocity (sp_operating_point sp)))
          (unsteady_wake_influences 0 (num_panels_of (sp_airplanes sp)) rows wake (op_nu (sp_operating_point sp))) st wake)) (up_delta_time (us_problem s))) (us_heap s) a2 (sp_airplanes next) in
      let* steps := set_airplanes 1 (snd r) steps in Ok (fst r, steps) else Ok (us_heap s, steps) in Ok hs) = Ok (h, t) -> nth_error t 0 = nth_error steps 0).
  { intros q h t. destruct (Z.of_nat 0 <? up_num_steps (us_problem s) - 1)%Z; intros F; apply bind_Ok in F; destruct F as (x & F & Ex); apply Ok_eq in Ex; subst x.
    - apply bind_Ok in F. destruct F as (next & _ & F). apply bind_Ok in F. destruct F as (r & _ & F). apply bind_Ok in F. destruct F as (steps3 & F3 & F). apply Ok_eq in F. injection F as _ <-. exact (set_airplanes_other _ _ _ _ _ F3 (Nat.neq_0_succ 0)).
    - apply Ok_eq in F. injection F as _ <-. reflexivity. }
  split; [rewrite (HN p h1 s1), (HN p' h2 s2); [reflexivity | rewrite F2; reflexivity | rewrite F1; reflexivity]|]. split; [reflexivity|]. split; [reflexivity|]. intros H.
  replace (Z.of_nat 0 <? up_num_steps (us_problem s) - 1)%Z with false in F1, F2 by (symmetry; apply Z.ltb_ge; lia). rewrite F1 in F2. apply Ok_eq in F2. injection F2 as -> ->. reflexivity.
Qed.
Lemma started_number s t : unsteady_start 0 s = Ok t -> up_num_steps (us_problem t) = up_num_steps (us_problem s).
Proof. unfold unsteady_start. cbv zeta. intros H. apply bind_Ok in H. destruct H as (c & _ & H). apply bind_Ok in H. destruct H as (l & _ & H). apply Ok_eq in H. subst t. reflexivity. Qed.
Lemma final_steps up up' : finalize up = Ok up' -> up_steady_problems up' = up_steady_problems up.
Proof. intros H. destruct (finalize_kept _ _ H) as (f & m & r & ->). reflexivity. Qed.
Lemma any_wake_first solve p p' (lines lines' : bool) up s s' : finished solve p lines up s -> finished solve p' lines' up s' -> (0 < up_num_steps up)%Z ->
  nth_error (up_steady_problems (us_problem s)) 0 = nth_error (up_steady_problems (us_problem s')) 0 /\ nth_error (us_wakes s) 0 = nth_error (us_wakes s') 0 /\
  (up_num_steps up = 1%Z -> us_problem s = us_problem s' /\ us_heap s = us_heap s' /\ us_wakes s = us_wakes s' /\ us_current s = us_current s').
Proof.
  intros (s0 & N0 & HA) (s0' & N0' & HB) Hpos. rewrite N0 in N0'. apply Ok_eq in N0'. subst s0'. unfold unsteady_run, unsteady_run_with in *.
  apply bind_Ok in HA. destruct HA as (t & Et & HA). rewrite Et in HB. cbn [bind] in HB. pose proof (started_number _ _ Et) as EN.
  assert (EU : us_problem s0 = up) by (unfold unsteady_new in N0; apply bind_Ok in N0; destruct N0 as (x & _ & N0); apply Ok_eq in N0; subst s0; reflexivity). rewrite EU in EN.
  apply bind_Ok in HA. destruct HA as (u & Eu & HA). apply bind_Ok in HB. destruct HB as (u' & Eu' & HB). apply bind_Ok in HA. destruct HA as (f & Ef & HA). apply bind_Ok in HB. destruct HB as (f' & Ef' & HB).
  apply bind_Ok in HA. destruct HA as (ls & _ & HA). apply bind_Ok in HB. destruct HB as (ls' & _ & HB). apply Ok_eq in HA. apply Ok_eq in HB. subst s s'. cbn [us_problem us_heap us_wakes us_current].
  rewrite (final_steps _ _ Ef), (final_steps _ _ Ef'). unfold unsteady_steps in Eu, Eu'. rewrite EN in Eu, Eu'. destruct (Z.to_nat (up_num_steps up)) as [|n] eqn:En; [lia|]. cbn [seq foldM] in Eu, Eu'.
  apply bind_Ok in Eu. destruct Eu as (v & Ev & Eu). apply bind_Ok in Eu'. destruct Eu' as (v' & Ev' & Eu').
  assert (HL : forall k, In k (seq 1 n) -> (0 < k)%nat) by (intros k Hk; apply in_seq in Hk; lia).
  destruct (later_steps _ _ _ _ _ Eu HL) as [A1 A2]. destruct (later_steps _ _ _ _ _ Eu' HL) as [B1 B2]. destruct (first_step_any_wake _ _ _ _ _ _ Ev Ev') as (C1 & C2 & C3 & C4).
  split; [rewrite A1, B1; exact C1|]. split; [rewrite A2, B2, C2; reflexivity|]. intros E1. rewrite E1 in *. change (Z.to_nat 1) with 1%nat in En. injection En as <-. cbn [seq foldM] in Eu, Eu'. apply Ok_eq in Eu. apply Ok_eq in Eu'. subst u u'.
  rewrite EN in C4. specialize (C4 ltac:(lia)). subst v'. rewrite Ef in Ef'. apply Ok_eq in Ef'. subst f'. auto.
Qed.
Lemma any_lines solve p (lines lines' : bool) up s s' : finished solve p lines up s -> finished solve p lines' up s' ->
  us_problem s = us_problem s' /\ us_heap s = us_heap s' /\ us_num_wake s = us_num_wake s' /\ us_wakes s = us_wakes s' /\ us_current s = us_current s' /\ (lines = lines' -> s = s').
Proof.
  intros (s0 & N0 & HA) (s0' & N0' & HB). rewrite N0 in N0'. apply Ok_eq in N0'. subst s0'. unfold unsteady_run, unsteady_run_with in *.
  apply bind_Ok in HA. destruct HA as (t & Et & HA). rewrite Et in HB. cbn [bind] in HB. apply bind_Ok in HA. destruct HA as (u & Eu & HA). rewrite Eu in HB. cbn [bind] in HB.
  apply bind_Ok in HA. destruct HA as (f & Ef & HA). rewrite Ef in HB. cbn [bind] in HB. apply bind_Ok in HA. destruct HA as (ls & El & HA). apply bind_Ok in HB. destruct HB as (ls' & El' & HB).
  apply Ok_eq in HA. apply Ok_eq in HB. subst s s'. cbn. repeat (split; [reflexivity|]). intros <-. rewrite El in El'. apply Ok_eq in El'. subst ls'. reflexivity.
Qed.
Lemma created_number up : created up -> up_num_steps up = Z.of_nat (length (up_steady_problems up)) \/ up_steady_problems up = [].
Proof.
  intros (ams & om & ns & cy & ch & d & m & only & Hm & Hup). destruct (unsteady_built _ _ _ Hup) as (_ & E & _ & _ & _ & _ & _ & _ & _ & _ & EL & _).
  destruct (Z.lt_ge_cases (mv_num_steps m) 1) as [H|H].
  - right. destruct (up_steady_problems up); [reflexivity|]. cbn in EL. lia.
  - left. rewrite EL, E, Z2Nat.id by lia. reflexivity.
Qed.
Lemma wake_kinds solve p p' (lines lines' : bool) up s s' : created up -> finished solve p lines up s -> finished solve p' lines' up s' ->
  nth_error (up_steady_problems (us_problem s)) 0 = nth_error (up_steady_problems (us_problem s')) 0 /\ nth_error (us_wakes s) 0 = nth_error (us_wakes s') 0 /\
  (length (up_steady_problems up) = 1%nat -> us_problem s = us_problem s' /\ us_wakes s = us_wakes s' /\ forall points, unsteady_solution_velocity s points = unsteady_solution_velocity s' points).
Proof.
  intros HC HA HB. destruct (created_number up HC) as [E|E].
  - assert (Hpos : (0 < up_num_steps up)%Z).
    { rewrite E. destruct HA as (s0 & N0 & _). unfold unsteady_new, index in N0. destruct (up_steady_problems up); [discriminate N0 | cbn; lia]. }
    destruct (any_wake_first _ _ _ _ _ _ _ _ HA HB Hpos) as (A & B & C). split; [exact A|]. split; [exact B|]. intros H. rewrite H in E. destruct (C E) as (C1 & C2 & C3 & C4). split; [exact C1|]. split; [exact C3|]. intros points. unfold unsteady_solution_velocity. rewrite C4. reflexivity.
  - exfalso. destruct HA as (s0 & N0 & _). unfold unsteady_new, index in N0. rewrite E in N0. discriminate N0.
Qed.
Lemma step_lines solve prescribed s step s' : unsteady_step solve prescribed s step = Ok s' -> us_streamline_points s' = us_streamline_points s.
Proof. unfold unsteady_step. cbv zeta. intros H. do 10 (apply bind_Ok in H; destruct H as (? & _ & H)). apply Ok_eq in H. subst s'. reflexivity. Qed.
Lemma steps_lines solve prescribed l : forall s s', foldM (unsteady_step solve prescribed) s l = Ok s' -> us_streamline_points s' = us_streamline_points s.
Proof. induction l as [|k l IH]; intros s s' H; cbn [foldM] in H; [apply Ok_eq in H; subst s'; reflexivity|]. apply bind_Ok in H. destruct H as (s1 & H1 & H). rewrite (IH _ _ H). exact (step_lines _ _ _ _ _ H1). Qed.
Lemma streamline_option solve p up s s' : finished solve p true up s -> finished solve p false up s' ->
  us_problem s = us_problem s' /\ us_wakes s = us_wakes s' /\ us_heap s = us_heap s' /\ (forall points, unsteady_solution_velocity s points = unsteady_solution_velocity s' points) /\ us_streamline_points s' = None.
Proof.
  intros HA HB. destruct (any_lines _ _ _ _ _ _ _ HA HB) as (A & B & C & D & E & _). split; [exact A|]. split; [exact D|]. split; [exact B|]. split; [intros points; unfold unsteady_solution_velocity; rewrite E; reflexivity|].
  destruct HB as (s0 & N0 & HB). unfold unsteady_run, unsteady_run_with in HB. assert (HN : us_streamline_points s0 = None) by (unfold unsteady_new in N0; apply bind_Ok in N0; destruct N0 as (x & _ & N0); apply Ok_eq in N0; subst s0; reflexivity).
  apply bind_Ok in HB. destruct HB as (t & Et & HB). apply bind_Ok in HB. destruct HB as (u & Eu & HB). apply bind_Ok in HB. destruct HB as (f & _ & HB). cbn [bind] in HB. apply Ok_eq in HB. subst s'. cbn [us_streamline_points].
  assert (HT : us_streamline_points t = None) by (unfold unsteady_start in Et; cbv zeta in Et; apply bind_Ok in Et; destruct Et as (c & _ & Et); apply bind_Ok in Et; destruct Et as (l & _ & Et); apply Ok_eq in Et; subst t; exact HN).
  unfold unsteady_steps in Eu. rewrite (steps_lines _ _ _ _ _ Eu). exact HT.
Qed.
