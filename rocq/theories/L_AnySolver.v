(** Any two linear solvers that keep the specification give the same results. *)
From Coq Require Import List ZArith Lia Lra Bool Reals String.
From Verif Require Import M_Unsteady M_Horseshoe M_SteadyRing M_Convergence M_Trim S_Unsteady S_UnsteadyRun S_Geometry S_Loads S_Solve L_Base L_Loads L_Meshing L_Geometry
  L_Horseshoe L_SteadyRing L_Problems L_Unsteady L_UnsteadyStep L_UnsteadyRun L_UnsteadyFinal L_ImageRun L_Gauss L_Example L_Example3 L_Example4 L_Example5.
Import ListNotations.
Local Open Scope R_scope.
Local Open Scope list_scope.

Definition refines {A} (r r' : result A) : Prop := forall x, r = Ok x -> r' = Ok x.
Lemma refines_bind {A B} (r r' : result A) (f g : A -> result B) : refines r r' -> (forall x, r = Ok x -> refines (f x) (g x)) -> refines (bind r f) (bind r' g).
Proof. intros H1 H2 y E. apply bind_Ok in E. destruct E as (x & Ex & E). rewrite (H1 x Ex). cbn [bind]. exact (H2 x Ex y E). Qed.
Lemma refines_refl {A} (r : result A) : refines r r.
Proof. intros x E. exact E. Qed.
Lemma refines_same {A B} (r : result A) (f g : A -> result B) : (forall x, r = Ok x -> refines (f x) (g x)) -> refines (bind r f) (bind r g).
Proof. apply refines_bind, refines_refl. Qed.

Section Any.
  Variables solve solve' : list (list R) -> list R -> result (list R).
  Hypothesis HS : SolveSpec solve.
  Hypothesis HS' : SolveSpec solve'.
  Lemma solve_refines a b : square a -> List.length b = List.length a -> refines (solve a b) (solve' a b).
  Proof. intros Ha Hb x E. apply (HS' a b Ha Hb). apply (HS a b Ha Hb). exact E. Qed.

  Lemma hs_refines s : refines (hs_run solve s) (hs_run solve' s).
  Proof.
    unfold hs_run. cbn zeta. apply refines_same. intros rows _. apply refines_bind; [|intros; apply refines_refl].
    apply solve_refines; rewrite hs_influences_explicit; [apply square_map_map | unfold freestream_influences; rewrite !map_length; reflexivity].
  Qed.
  Lemma ring_refines s : sized_ring s -> refines (ring_run solve s) (ring_run solve' s).
  Proof.
    intros [L1 L2] s' E. pose proof (ring_rows_count _ _ _ E) as Lc. pose proof (ring_run_inv _ _ _ E) as (a0 & a1 & loads & Ei & Ec & _).
    revert s' E Lc Ec. unfold ring_run. rewrite Ei. cbn [bind]. intros s' E Lc Ec. cbn zeta in E |- *. rewrite Ec in E |- *. cbn [bind] in E |- *. revert E. set (rows := rso_rows s') in *. generalize s'. clear Ec Ei.
    apply refines_bind; [|intros; apply refines_refl].
    rewrite ring_influences_general by (try unfold ring_collapse_hs_strengths; rewrite ?map2_length; lia). apply solve_refines.
    - intros row Hin. apply in_map_iff in Hin. destruct Hin as (r & <- & _). unfold ring_collapse_hs_strengths. rewrite !map_length, !combine_length, ?map2_length. lia.
    - unfold freestream_influences. rewrite !map_length. reflexivity.
  Qed.
  Lemma fresh_sized s : fresh_ring s -> sized_ring s.
  Proof. intros [H1 H2]. cbn zeta in H1, H2. unfold sized_ring. cbn zeta. rewrite H1, H2, !repeat_length. split; reflexivity. Qed.

  (** ** Unsteady runs *)
  Variables prescribed lines : bool.
  Lemma step_sizes up F n s : meshed_problem F up -> after solve prescribed up n s -> (n < List.length (up_steady_problems up))%nat ->
    forall sp rows la, index (up_steady_problems (us_problem s)) n = Ok sp -> unsteady_collapse (sp_airplanes sp) = Ok rows ->
    last_step_arrays (num_panels_of (sp_airplanes sp)) n (up_steady_problems (us_problem s)) = Ok la ->
    num_panels_of (sp_airplanes sp) = List.length rows /\ List.length (la_collocations la) = List.length rows.
  Proof.
    intros HM HA Hn. destruct (after_ran solve HS prescribed F up n s HM HA ltac:(lia)) as (s1 & conv & _ & R). destruct R as [R1 R2 R3 R4 _ _ _].
    assert (L1 := Forall2_length _ _ _ R3).
    destruct (unsteady_step_ok solve prescribed F (us_problem s1) conv n s R1 R4 ltac:(lia)) as (sp & rows & la & Hsp & Erows & _ & Prows & Ela & Sla & _).
    intros sp' rows' la' Hsp' Erows' Ela'. apply index_Some in Hsp'. assert (sp' = sp) by congruence. subst sp'. assert (rows' = rows) by congruence. subst rows'.
    assert (Ln : num_panels_of (sp_airplanes sp) = List.length rows).
    { assert (RS : ready_step F sp). { destruct (Forall2_in_r _ _ _ _ (ri_kept _ _ _ _ R4) (nth_error_In _ _ Hsp)) as (sp0 & H0 & HSS0). eapply solved_ready; [exact HSS0 | apply (rp_steps _ _ R1); exact H0]. }
      destruct (ready_count _ _ RS) as [Cn Cn']. apply (f_equal (@List.length _)) in Prows. rewrite map_length in Prows. congruence. }
    rewrite Ln in Ela'. assert (la' = la) by congruence. subst la'. split; [exact Ln | apply Sla].
  Qed.
  Lemma step_refines up F n s : meshed_problem F up -> after solve prescribed up n s -> (n < List.length (up_steady_problems up))%nat ->
    refines (unsteady_step solve prescribed s n) (unsteady_step solve' prescribed s n).
  Proof.
    intros HM HA Hn. pose proof (step_sizes up F n s HM HA Hn) as HL. unfold unsteady_step. cbn zeta.
    apply refines_same. intros sp Esp. apply refines_same. intros al _. apply refines_same. intros rows Erows. apply refines_same. intros wake _. apply refines_same. intros la Ela.
    destruct (HL sp rows la Esp Erows Ela) as [Ln Ll]. rewrite Ln. apply refines_bind; [|intros; apply refines_refl].
    apply solve_refines; [apply step_matrix_square|].
    change (unsteady_wing_influences rows (repeat 1 (List.length rows)) (op_nu (sp_operating_point sp))) with (step_matrix rows (op_nu (sp_operating_point sp))).
    rewrite step_matrix_length. apply (step_rhs_length n (up_delta_time (us_problem s)) rows la wake (sp_operating_point sp) Ll).
  Qed.
  Lemma after_refines up F n s : meshed_problem F up -> (n <= List.length (up_steady_problems up))%nat -> after solve prescribed up n s -> after solve' prescribed up n s.
  Proof.
    intros HM. revert s. induction n as [|n IH]; intros s Hn HA; [destruct HA as (s0 & s1 & E0 & E1 & E); exists s0, s1; split; [exact E0|]; split; [exact E1 | exact E]|].
    apply after_S in HA. destruct HA as (s' & HA & E). apply after_S. exists s'. split; [apply IH; [lia | exact HA]|]. apply (step_refines up F n s' HM HA ltac:(lia)). exact E.
  Qed.
  Lemma run_refines up s0 : created up -> unsteady_new up = Ok s0 -> refines (unsteady_run solve prescribed lines s0) (unsteady_run solve' prescribed lines s0).
  Proof.
    intros HC E0. destruct (created_meshed up s0 HC E0) as [F HM]. unfold unsteady_run, unsteady_run_with. apply refines_same. intros s1 E1. apply refines_bind; [|intros; apply refines_refl].
    intros s E. destruct (after_refines up F (Z.to_nat (up_num_steps (us_problem s1))) s HM) as (t0 & t1 & F0 & F1 & FE).
    - pose proof (mp_size _ _ HM) as HZ. destruct (ran_start solve prescribed F up HM) as (s1' & (u0 & u1 & U0 & U1 & U2) & HR). cbn in U2. apply Ok_eq in U2. subst u1.
      assert (u0 = s0) by congruence. subst u0. assert (s1' = s1) by congruence. subst s1'. rewrite (rn_start _ _ _ _ _ _ _ _ (HR (fun _ v => v))). cbn. lia.
    - exists s0, s1. auto.
    - assert (t0 = s0) by congruence. subst t0. assert (t1 = s1) by congruence. subst t1. exact FE.
  Qed.
End Any.

(** ** Convergence analyses and trim *)
Lemma steady_loop_refines (t t' : Z -> Z -> result steady_coefficients) criteria ars chords : (forall a c, refines (t a c) (t' a c)) ->
  forall its memory, refines (steady_loop t criteria ars chords memory its) (steady_loop t' criteria ars chords memory its).
Proof.
  intros HT. induction its as [|[[i a] [j c]] its IH]; intros memory; [apply refines_refl|]. cbn [steady_loop]. cbn zeta.
  apply refines_bind; [apply HT|]. intros x _. apply refines_same. intros y _. apply refines_same. intros z _. match goal with |- refines (if ?b then _ else _) _ => destruct b end; [apply refines_refl | apply IH].
Qed.
Lemma unsteady_loop_refines (t t' : bool -> Z -> Z -> Z -> result unsteady_coefficients) criteria wakes lengths ars chords : (forall w l a c, refines (t w l a c) (t' w l a c)) ->
  forall its memory, refines (unsteady_loop t criteria wakes lengths ars chords memory its) (unsteady_loop t' criteria wakes lengths ars chords memory its).
Proof.
  intros HT. induction its as [|[[[h w] [i l]] [[j a] [k c]]] its IH]; intros memory; [apply refines_refl|]. cbn [unsteady_loop]. cbn zeta.
  apply refines_bind; [apply HT|]. intros x _. do 4 (apply refines_same; intros ? _). match goal with |- refines (if ?b then _ else _) _ => destruct b end; [apply refines_refl | apply IH].
Qed.
Lemma minimise_refines {state point} (f f' : state -> point -> result (state * evaluation)) next : (forall s x, refines (f s x) (f' s x)) ->
  forall calls past s, refines (minimise f next calls past s) (minimise f' next calls past s).
Proof.
  intros HF. induction calls as [|calls IH]; intros past s; [apply refines_refl|]. cbn [minimise]. destruct (next past) as [x|]; [|apply refines_refl].
  apply refines_bind; [apply HF|]. intros r _. destruct (snd r); [apply IH | apply refines_refl].
Qed.
Section Analyses.
  Variables solve solve' : list (list R) -> list R -> result (list R).
  Hypothesis HS : SolveSpec solve.
  Hypothesis HS' : SolveSpec solve'.
  Lemma copies_fresh pchip database c ar l l' op : mapM (copy_airplane pchip database c ar) l = Ok l' -> fresh_ring (ring_new l' op).
  Proof.
    intros E. apply ring_new_fresh. intros a Ha. apply mapM_Forall2 in E. destruct (Forall2_in_r _ _ _ _ E Ha) as (a0 & _ & E0). clear E Ha. unfold copy_airplane in E0. apply bind_Ok in E0. destruct E0 as (ws & Ew & E0).
    apply mapM_Forall2 in Ew. refine (proj2 (airplane_meshed _ _ _ _ _ _ _ _ _ _ _ E0)). intros w Hw. destruct (Forall2_in_r _ _ _ _ Ew Hw) as (w0 & _ & E1).
    unfold copy_wing in E1. apply bind_Ok in E1. destruct E1 as (se & _ & E1). unfold copy_wing_with in E1. apply bind_Ok in E1. destruct E1 as (n & _ & E1). unfold built_wing. eauto 12.
  Qed.
  Lemma steady_trial_refines pchip database type ref ar c : refines (steady_trial pchip database solve type ref ar c) (steady_trial pchip database solve' type ref ar c).
  Proof.
    unfold steady_trial. apply refines_same. intros l El. apply refines_bind; [|intros; apply refines_refl]. unfold run_steady. cbn [sp_airplanes sp_operating_point].
    destruct (String.eqb type _); [apply refines_bind; [apply hs_refines; assumption | intros; apply refines_refl]|].
    destruct (String.eqb type _); [apply refines_bind; [apply ring_refines; try assumption; apply fresh_sized; exact (copies_fresh _ _ _ _ _ _ _ El) | intros; apply refines_refl] | apply refines_refl].
  Qed.
  Lemma steady_convergence_refines pchip database ref type ars chords criteria :
    refines (analyze_steady_convergence pchip database solve ref type ars chords criteria) (analyze_steady_convergence pchip database solve' ref type ars chords criteria).
  Proof. unfold analyze_steady_convergence, steady_search. cbn zeta. apply steady_loop_refines. intros a c. apply steady_trial_refines. Qed.
  Lemma unsteady_trial_refines pchip database mask st ref w l a c : refines (unsteady_trial pchip database solve mask st ref w l a c) (unsteady_trial pchip database solve' mask st ref w l a c).
  Proof.
    unfold unsteady_trial. apply refines_same. intros ams _. apply refines_same. intros m Em. apply refines_same. intros up Eup. apply refines_same. intros s0 E0. apply refines_bind; [|intros; apply refines_refl].
    apply (run_refines solve solve' HS HS' w false up s0); [|exact E0]. unfold convergence_movement in Em. destruct st; unfold created; eauto 12.
  Qed.
  Lemma unsteady_convergence_refines pchip database ref pw fw cycles chords ars cs mask criteria :
    refines (analyze_unsteady_convergence pchip database solve ref pw fw cycles chords ars cs mask criteria) (analyze_unsteady_convergence pchip database solve' ref pw fw cycles chords ars cs mask criteria).
  Proof. unfold analyze_unsteady_convergence, unsteady_search. cbn zeta. apply refines_same. intros period _. apply unsteady_loop_refines. intros w l a c. apply unsteady_trial_refines. Qed.
  Lemma steady_trim_refines local global lc gc p v a b t cut : refines (steady_trim solve local global lc gc p v a b t cut) (steady_trim solve' local global lc gc p v a b t cut).
  Proof.
    assert (HO : forall w s x, refines (steady_objective solve w cut s x) (steady_objective solve' w cut s x)).
    { intros w s x. unfold steady_objective. cbn zeta. apply refines_same. intros fi _. apply refines_bind; [apply hs_refines; assumption | intros; apply refines_refl]. }
    unfold steady_trim. cbn zeta. apply refines_same. intros fi _. do 4 (apply refines_same; intros ? _). apply refines_bind; [apply minimise_refines, HO|]. intros r _. destruct (snd r); [apply refines_refl|].
    apply refines_bind; [apply minimise_refines, HO | intros; apply refines_refl].
  Qed.
End Analyses.

(** ** Both ways *)
Section Iff.
  Variables solve solve' : list (list R) -> list R -> result (list R).
  Hypothesis HS : SolveSpec solve.
  Hypothesis HS' : SolveSpec solve'.
  Lemma horseshoe_any s s' : hs_run solve s = Ok s' <-> hs_run solve' s = Ok s'.
  Proof. split; apply hs_refines; assumption. Qed.
  Lemma ring_any s s' : fresh_ring s -> (ring_run solve s = Ok s' <-> ring_run solve' s = Ok s').
  Proof. intros HF. split; apply ring_refines; try assumption; apply fresh_sized; exact HF. Qed.
  Lemma unsteady_any up prescribed (lines : bool) s : created up -> (finished solve prescribed lines up s <-> finished solve' prescribed lines up s).
  Proof. intros HC. split; intros (s0 & E0 & E); exists s0; (split; [exact E0|]); revert E; apply (run_refines _ _) with (up := up); assumption. Qed.
  Lemma steady_convergence_any pchip database ref type ars chords criteria r :
    analyze_steady_convergence pchip database solve ref type ars chords criteria = Ok r <-> analyze_steady_convergence pchip database solve' ref type ars chords criteria = Ok r.
  Proof. split; apply steady_convergence_refines; assumption. Qed.
  Lemma unsteady_convergence_any pchip database ref pw fw cycles chords ars cs mask criteria r :
    analyze_unsteady_convergence pchip database solve ref pw fw cycles chords ars cs mask criteria = Ok r <->
    analyze_unsteady_convergence pchip database solve' ref pw fw cycles chords ars cs mask criteria = Ok r.
  Proof. split; apply unsteady_convergence_refines; assumption. Qed.
  Lemma steady_trim_any local global lc gc p v a b t cut r :
    steady_trim solve local global lc gc p v a b t cut = Ok r <-> steady_trim solve' local global lc gc p v a b t cut = Ok r.
  Proof. split; apply steady_trim_refines; assumption. Qed.
End Iff.
Lemma steps_any solve solve' up prescribed n s : SolveSpec solve -> SolveSpec solve' -> created up -> (n <= List.length (up_steady_problems up))%nat ->
  (after solve prescribed up n s <-> after solve' prescribed up n s).
Proof.
  intros HS HS' HC Hn. assert (HF : forall f, after f prescribed up n s -> exists F, meshed_problem F up) by (intros f (s0 & s1 & E0 & _); exact (created_meshed up s0 HC E0)).
  split; intros HA; destruct (HF _ HA) as [F HM]; revert HA; apply after_refines with (F := F); assumption.
Qed.

(** ** Two different solvers *)
Definition relabelled (e : err) (a : list (list R)) (b : list R) : result (list R) := match gauss_solve a b with Ok x => Ok x | Err _ => Err e end.
Lemma relabelled_spec e : SolveSpec (relabelled e).
Proof.
  intros a b Ha Hb x. rewrite <- (gauss_solve_spec a b Ha Hb x). unfold relabelled. destruct (gauss_solve a b); split; intros E; [exact E | exact E | discriminate | discriminate].
Qed.
Lemma relabelled_singular e : relabelled e [[0]] [0] = Err e.
Proof.
  unfold relabelled. destruct (gauss_solve [[0]] [0]) as [x|] eqn:E; [|reflexivity]. exfalso. apply gauss_solve_spec in E; [|intros row [<-|[]]; reflexivity | reflexivity].
  destruct E as [_ U]. assert (HV : forall k, solves [[0]] [0] [k]) by (intros k; split; [reflexivity|]; unfold matvec, rsum; cbn; f_equal; ring).
  pose proof (U [0] (HV 0)) as U0. pose proof (U [1] (HV 1)) as U1. assert (H : [0] = [1]) by congruence. injection H as H. lra.
Qed.
Lemma two_solvers : SolveSpec (relabelled ELinAlg) /\ SolveSpec (relabelled EValueError) /\ relabelled ELinAlg [[0]] [0] <> relabelled EValueError [[0]] [0] /\
  (exists s, hs_run (relabelled ELinAlg) (hs_new [ex_airplane false] (ex_op 1 10)) = Ok s) /\
  fresh_ring (ring_new [ex_airplane false] (ex_op 1 10)) /\ (exists s, ring_run (relabelled ELinAlg) (ring_new [ex_airplane false] (ex_op 1 10)) = Ok s) /\
  exists up s, created up /\ finished (relabelled ELinAlg) false true up s.
Proof.
  split; [apply relabelled_spec|]. split; [apply relabelled_spec|]. split; [rewrite !relabelled_singular; discriminate|].
  split; [destruct (ex_horseshoe_run (relabelled ELinAlg) 1 10 (relabelled_spec _)) as (A & s & _ & E & _); exists s; exact E|].
  split; [apply ex_fresh|]. split; [destruct (ex_ring_first (relabelled ELinAlg) 1 10 (relabelled_spec _)) as (A & s & _ & _ & E & _); exists s; exact E|].
  destruct (windy_runs gust false true false ltac:(right; left; reflexivity)) as (up & s & (m & Em & Eup) & HF). exists up, s.
  assert (HC : created up) by (unfold created; eauto 12). split; [exact HC|]. apply (unsteady_any gauss_solve (relabelled ELinAlg) gauss_solve_spec (relabelled_spec _) up false true s HC). exact HF.
Qed.
