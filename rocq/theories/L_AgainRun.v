(** Running the unsteady solver again: whole runs. *)
From Coq Require Import List ZArith Lia Lra Bool Reals.
From Verif Require Import L_UnsteadyStill L_Frames.
From Verif Require Import M_Unsteady S_Loads S_Solve S_Unsteady S_UnsteadyRun S_Again L_Base L_Loads L_Horseshoe L_SteadyRing L_Geometry L_RigidShift L_Wake L_WakeWings L_Unsteady
  L_UnsteadyStep L_UnsteadyRun L_UnsteadyFinal L_UnsteadyProps L_NoLoads L_ImageRun L_OnlyFinal L_Similar L_Again.
Import ListNotations.
Local Open Scope R_scope.
Local Open Scope list_scope.

Section Step.
Variable H : list ring_vortex.
Variables (F M Q : final_loads) (counts : list nat) (lines : option (list (list vec))) (size : nat -> nat).
(** Before step [k]: whether the loads of step [j] may differ, and whether its wakes agree. *)
Definition bj (first : Z) (k j : nat) : bool := Nat.leb k j && (first <=? Z.of_nat j)%Z.
Definition mj (k j : nat) : bool := Nat.leb j k.
Record at_step (k : nat) (s t : unsteady_solver) : Prop := {
  as_problem : us_problem t = up_set_final F M Q (up_set_steps (up_steady_problems (us_problem t)) (us_problem s));
  as_heap : us_heap t = H ++ us_heap s;
  as_steps : forall j, rrel (sn H (bj (up_first_results_step (us_problem s)) k j) (mj k j)) (index (up_steady_problems (us_problem s)) j) (index (up_steady_problems (us_problem t)) j);
  as_done : forall j, (j < k)%nat -> nth_error (us_wakes t) j = nth_error (us_wakes s) j;
  as_sized : forall j, (j < length (up_steady_problems (us_problem s)))%nat -> exists al al', nth_error (us_wakes s) j = Some al /\ nth_error (us_wakes t) j = Some al' /\ sized_wake (size j) al /\ sized_wake (size j) al';
  as_current : k = 0%nat \/ exists c c', us_current s = Some c /\ us_current t = Some c' /\ currel c c';
  as_counts : us_num_wake t = counts;
  as_lines : us_streamline_points t = lines }.

Lemma again_set_airplanes (P P' : nat -> steady_problem -> steady_problem -> Prop) k a a' steps steps' :
  (forall j, rrel (P j) (index steps j) (index steps' j)) -> (forall j sp sp', P j sp sp' -> sp_operating_point sp' = sp_operating_point sp) ->
  (forall j, j <> k -> forall sp sp', P j sp sp' -> P' j sp sp') -> (forall op, P' k (mksteady a op) (mksteady a' op)) ->
  rrel (fun l l' => length l = length steps /\ length l' = length steps' /\ forall j, rrel (P' j) (index l j) (index l' j)) (set_airplanes k a steps) (set_airplanes k a' steps').
Proof.
  intros HP HO HI HK. unfold set_airplanes. eapply rrel_bind; [apply HP|]. intros sp sp' E E' Hs. cbn [rrel]. apply index_Some in E, E'.
  assert (L1 : (k < length steps)%nat) by (apply nth_error_Some; congruence). assert (L2 : (k < length steps')%nat) by (apply nth_error_Some; congruence).
  rewrite !set_at_length by lia. split; [reflexivity|]. split; [reflexivity|]. intros j. unfold index. rewrite !set_at_nth by lia. destruct (Nat.eqb_spec j k) as [->|Hne].
  - cbn. rewrite (HO _ _ _ Hs). apply HK.
  - eapply rrel_impl; [apply (HI j Hne)|]. apply (HP j).
Qed.
Lemma again_step solve prescribed k s t : at_step k s t -> (k < length (up_steady_problems (us_problem s)))%nat -> up_num_steps (us_problem s) = Z.of_nat (length (up_steady_problems (us_problem s))) ->
  (forall sp, nth_error (up_steady_problems (us_problem s)) k = Some sp -> length (wake_references (sp_airplanes sp)) = size k) ->
  rrel (at_step (S k)) (unsteady_step solve prescribed s k) (unsteady_step solve prescribed t k).
Proof.
  intros [EP EH ES ED EZ EC EN EL] Hk HNS HR. unfold unsteady_step. cbn zeta.
  assert (D1 : up_delta_time (us_problem t) = up_delta_time (us_problem s)) by exact (f_equal up_delta_time EP).
  assert (D2 : up_num_steps (us_problem t) = up_num_steps (us_problem s)) by exact (f_equal up_num_steps EP).
  assert (D3 : up_first_results_step (us_problem t) = up_first_results_step (us_problem s)) by exact (f_equal up_first_results_step EP).
  rewrite D1, D2, D3. set (dt := up_delta_time (us_problem s)). set (first := up_first_results_step (us_problem s)) in *. set (ss := up_steady_problems (us_problem s)) in *. set (st := up_steady_problems (us_problem t)) in *.
  eapply rrel_bind; [apply ES|]. intros sp sp' Esp Esp' Hsp. apply index_Some in Esp, Esp'. unfold mj in Hsp at 1. rewrite Nat.leb_refl in Hsp. set (b := bj first k k) in *. destruct Hsp as [EO FA]. rewrite EO.
  destruct (EZ k Hk) as (al & al' & Eal & Eal' & Sal & Sal'). rewrite (proj2 (index_Some _ _ _) Eal), (proj2 (index_Some _ _ _) Eal'). cbn [bind].
  eapply rrel_bind; [eapply again_collapse; exact FA|]. intros rows rows' Er Er' FR.
  rewrite <- (HR sp Esp) in Sal, Sal'. destruct (again_collapse_wake H b (us_heap s) _ _ al al' FA Sal Sal') as [EW SW]. rewrite EH, EW.
  destruct (collapse_wake (us_heap s) (sp_airplanes sp) al) as [wake|e]; [cbn [bind]|reflexivity]. specialize (SW wake eq_refl). rewrite (HR sp Esp) in SW.
  rewrite (again_num _ _ _ _ _ FA). rewrite (again_last H _ k ss st). 2: { intros j Hj. specialize (ES j). unfold bj, mj in ES. rewrite (proj2 (Nat.leb_gt k j)), (proj2 (Nat.leb_le j k)) in ES by lia. exact ES. }
  destruct (last_step_arrays (num_panels_of (sp_airplanes sp)) k ss) as [la|e]; [cbn [bind]|reflexivity].
  rewrite (again_influences _ _ _ _ FR), (again_freestream_influences _ _ _ _ _ _ FR), (again_wake_influences _ _ _ _ _ _ FR), (again_seeds _ _ FR).
  destruct (solve _ _) as [xs|e]; [cbn [bind]|reflexivity].
  eapply rrel_bind; [eapply (again_update H b b b true); [intros; apply again_set_strength; assumption | exact FA]|]. intros a1 a1' _ _ FA1.
  match goal with |- context [current_velocity (mkcurrent k ?o ?f rows ?l ?se ?i ?fi ?w xs wake)] => set (c := mkcurrent k o f rows l se i fi w xs wake); set (c' := mkcurrent k o f rows' l se i fi w xs wake) end.
  assert (CC : currel c c') by (split; [exact FR | reflexivity]).
  eapply (rrel_bind (Forall2 (an H false true))).
  { subst b. unfold bj in FA1. rewrite Nat.leb_refl in FA1. cbn [andb] in FA1. destruct (first <=? Z.of_nat k)%Z; [|exact FA1].
    rewrite (again_loads H true true _ _ _ (current_velocity c) (current_velocity c') _ _ _ _ _ _ FA1 FR (fun points => again_velocity _ _ points CC)).
    destruct (unsteady_loads _ _ _ _ _ _ _ _) as [loads|e]; [cbn [bind]|reflexivity]. apply (again_process H true). exact FA1. }
  intros a2 a2' _ _ FA2.
  eapply rrel_bind.
  { apply (again_set_airplanes (fun j => sn H (bj first k j) (mj k j)) (fun j => sn H (bj first (S k) j) (mj k j)) k a2 a2' ss st ES).
    - intros j x y Hx. apply Hx.
    - intros j Hne x y Hx. replace (bj first (S k) j) with (bj first k j); [exact Hx|]. unfold bj. f_equal. apply eq_true_iff_eq. rewrite !Nat.leb_le. lia.
    - intros op. split; [reflexivity|]. unfold bj, mj. rewrite Nat.leb_refl, (proj2 (Nat.leb_gt (S k) k)) by lia. exact FA2. }
  intros ss1 st1 _ _ (L1 & L1' & ES1).
  eapply (rrel_bind (fun hs hs' => fst hs' = H ++ fst hs /\ length (snd hs) = length ss /\ forall j, rrel (sn H (bj first (S k) j) (mj (S k) j)) (index (snd hs) j) (index (snd hs') j))).
  { destruct (Z.of_nat k <? up_num_steps (us_problem s) - 1)%Z eqn:EK.
    - eapply rrel_bind; [apply ES1|]. intros nx nx' _ _ [_ HN].
      eapply rrel_bind; [eapply again_populate; [intros v; apply again_convect; intros points; apply (again_velocity _ _ points CC) | exact FA2 |]|].
      + unfold mj in HN. rewrite (proj2 (Nat.leb_gt (S k) k)) in HN by lia. exact HN.
      + intros r r' _ _ [HH FN]. eapply rrel_bind.
        * apply (again_set_airplanes (fun j => sn H (bj first (S k) j) (mj k j)) (fun j => sn H (bj first (S k) j) (mj (S k) j)) (S k) (snd r) (snd r') ss1 st1 ES1).
          -- intros j x y Hx. apply Hx.
          -- intros j Hne x y Hx. replace (mj (S k) j) with (mj k j); [exact Hx|]. unfold mj. apply eq_true_iff_eq. rewrite !Nat.leb_le. lia.
          -- intros op. split; [reflexivity|]. unfold mj. rewrite Nat.leb_refl. exact FN.
        * intros ss2 st2 _ _ (L2 & _ & ES2). cbn [rrel fst snd]. split; [exact HH|]. split; [lia | exact ES2].
    - cbn [rrel fst snd]. split; [reflexivity|]. split; [exact L1|]. intros j. specialize (ES1 j).
      destruct (Nat.eq_dec j (S k)) as [->|Hne]; [|replace (mj (S k) j) with (mj k j); [exact ES1 | unfold mj; apply eq_true_iff_eq; rewrite !Nat.leb_le; lia]].
      assert (EE : nth_error ss1 (S k) = None). { apply nth_error_None. apply Z.ltb_ge in EK. fold ss in HNS. lia. }
      unfold index in ES1 |- *. rewrite EE in ES1 |- *. destruct (nth_error st1 (S k)); [destruct ES1 | exact ES1]. }
  intros hs hs' _ _ (HH & LH & EF). cbn [rrel]. constructor; cbn [us_problem us_heap us_wakes us_current us_num_wake us_streamline_points up_set_steps up_steady_problems up_first_results_step]; fold first.
  - rewrite EP. reflexivity.
  - exact HH.
  - exact EF.
  - destruct (EZ k Hk) as (x & x' & X & X' & _). assert (k < length (us_wakes s))%nat by (apply nth_error_Some; congruence). assert (k < length (us_wakes t))%nat by (apply nth_error_Some; congruence).
    intros j Hj. rewrite !set_at_nth by assumption. destruct (Nat.eqb_spec j k); [reflexivity|]. apply ED. lia.
  - destruct (EZ k Hk) as (x & x' & X & X' & _). assert (k < length (us_wakes s))%nat by (apply nth_error_Some; congruence). assert (k < length (us_wakes t))%nat by (apply nth_error_Some; congruence).
    intros j Hj. rewrite !set_at_nth by assumption. destruct (Nat.eqb_spec j k) as [->|_]; [exists wake, wake; auto|]. apply EZ. lia.
  - right. exists c, c'. auto.
  - exact EN.
  - exact EL.
Qed.
End Step.

(** ** What earlier runs may have left behind *)
Definition pw (b : bool) (p q : panel) : Prop :=
  same_panel p q /\ p_horseshoe_vortex q = p_horseshoe_vortex p /\
  (b = false -> p_force_geometry q = p_force_geometry p /\ p_moment_geometry q = p_moment_geometry p /\ p_force_wind q = p_force_wind p /\ p_moment_wind q = p_moment_wind p /\
     p_induced_drag_coefficient q = p_induced_drag_coefficient p /\ p_side_force_coefficient q = p_side_force_coefficient p /\ p_lift_coefficient q = p_lift_coefficient p).
Definition ww (b m : bool) (w v : wing) : Prop :=
  v = w_set_wake (w_wake_vertices v) (w_wake_rings v) (w_set_panels (w_panels v) w) /\
  Forall2 (Forall2 (pw b)) (w_panels w) (w_panels v) /\
  (m = true -> w_wake_vertices v = w_wake_vertices w /\ w_wake_rings v = w_wake_rings w).
Definition aw (b m : bool) : airplane -> airplane -> Prop := anr b (ww b m).
Definition sw (b m : bool) (sp sp' : steady_problem) : Prop := sp_operating_point sp' = sp_operating_point sp /\ Forall2 (aw b m) (sp_airplanes sp) (sp_airplanes sp').
Lemma pw_refl b p : pw b p p.
Proof. split; [apply same_panel_refl'|]. auto 10. Qed.
Lemma pw_ring b r p : pw b p (p_set_ring r p).
Proof. split; [repeat split|]. cbn. auto 10. Qed.
Lemma pw_trans b p q r : pw b p q -> pw b q r -> pw b p r.
Proof.
  intros (S1 & E1 & L1) (S2 & E2 & L2). unfold same_panel in *. split; [|split; [congruence|]].
  - destruct S1 as (? & ? & ? & ? & ? & ? & ? & ? & ? & ?), S2 as (? & ? & ? & ? & ? & ? & ? & ? & ? & ?). repeat split; congruence.
  - intros Hb. destruct (L1 Hb) as (? & ? & ? & ? & ? & ? & ?), (L2 Hb) as (? & ? & ? & ? & ? & ? & ?). repeat split; congruence.
Qed.
Lemma ww_trans b m w v u : ww b m w v -> ww b m v u -> ww b m w u.
Proof.
  intros (E1 & F1 & M1) (E2 & F2 & M2). split; [|split].
  - rewrite E2 at 1. rewrite E1. reflexivity.
  - eapply Forall2_compose; [|exact F1 | exact F2]. intros x y z HX HY. eapply Forall2_compose; [|exact HX | exact HY]. apply pw_trans.
  - intros Hm. destruct (M1 Hm), (M2 Hm). split; congruence.
Qed.
Lemma aw_trans b m a c d : aw b m a c -> aw b m c d -> aw b m a d.
Proof.
  intros (F1 & E1 & L1) (F2 & E2 & L2). split; [|split].
  - eapply Forall2_compose; [|exact F1 | exact F2]. apply ww_trans.
  - rewrite E2 at 1. rewrite E1. reflexivity.
  - intros Hb. destruct (L1 Hb) as (? & ? & ? & ?), (L2 Hb) as (? & ? & ? & ?). repeat split; congruence.
Qed.
Lemma sw_trans b m x y z : sw b m x y -> sw b m y z -> sw b m x z.
Proof. intros [E1 F1] [E2 F2]. split; [congruence|]. eapply Forall2_compose; [|exact F1 | exact F2]. apply aw_trans. Qed.
Lemma ww_refl b m w : ww b m w w.
Proof. split; [destruct w; reflexivity|]. split; [|auto]. apply Forall2_refl_on. intros. apply Forall2_refl_on, pw_refl. Qed.
Lemma aw_refl b m a : aw b m a a.
Proof. split; [apply Forall2_refl_on, ww_refl|]. split; [destruct a; reflexivity | auto]. Qed.
Lemma sw_refl b m sp : sw b m sp sp.
Proof. split; [reflexivity | apply Forall2_refl_on, aw_refl]. Qed.

Lemma consume_kept {A B C} (P : A -> C -> Prop) (f : A -> list B -> result (C * list B)) : (forall x bs r, f x bs = Ok r -> P x (fst r)) ->
  forall l bs r, consume f l bs = Ok r -> Forall2 P l (fst r).
Proof.
  intros HP l. induction l as [|x l IH]; intros bs r E; cbn [consume] in E; [apply Ok_eq in E; subst r; constructor|].
  apply bind_Ok in E. destruct E as (y & E1 & E). apply bind_Ok in E. destruct E as (ys & E2 & E). apply Ok_eq in E. subst r. constructor; [apply (HP _ _ _ E1) | apply (IH _ _ E2)].
Qed.
Lemma update_worn {B} b m (g : panel -> B -> result panel) l xs l' : (forall p x q, g p x = Ok q -> pw b p q) -> update_panels g l xs = Ok l' -> Forall2 (aw b m) l l'.
Proof.
  intros Hg E. unfold update_panels in E. apply bind_Ok in E. destruct E as (r & E & E'). apply Ok_eq in E'. subst l'. revert E. apply consume_kept.
  intros a bs [a' rest] E. unfold consume_airplane in E. apply bind_Ok in E. destruct E as (r1 & E & E'). apply Ok_eq in E'. injection E' as <- _. cbn [fst].
  split; [|split; [reflexivity | auto]]. revert E. apply consume_kept. intros w cs [w' rest'] E. unfold consume_wing in E. apply bind_Ok in E. destruct E as (r2 & E & E'). apply Ok_eq in E'. injection E' as <- _. cbn [fst].
  split; [destruct w; reflexivity|]. split; [|auto]. revert E. apply consume_kept. intros row ds r3. apply consume_kept. intros p es [q rest''] E. unfold consume_panel in E. destruct es as [|x es]; [discriminate|].
  apply bind_Ok in E. destruct E as (q' & E & E'). apply Ok_eq in E'. injection E' as <- _. apply (Hg _ _ _ E).
Qed.
Lemma strength_worn b p g q : unsteady_set_strength p g = Ok q -> pw b p q.
Proof. unfold unsteady_set_strength. destruct (p_ring_vortex p); [|discriminate]. intros E. apply Ok_eq in E. subst q. apply pw_ring. Qed.
Lemma process_worn m op forces moments l l' : process_forces op forces moments l = Ok l' -> Forall2 (aw true m) l l'.
Proof.
  intros E. unfold process_forces in E. apply bind_Ok in E. destruct E as (l1 & E1 & E2). eapply Forall2_compose; [apply aw_trans | eapply update_worn; [|exact E1] | ].
  - intros p x q Eq. apply Ok_eq in Eq. subst q. split; [repeat split|]. split; [reflexivity | discriminate].
  - apply mapM_Forall2 in E2. eapply Forall2_impl; [|exact E2]. intros a c E. unfold airplane_totals in E. apply bind_Ok in E. destruct E as (? & _ & E). apply bind_Ok in E. destruct E as (? & _ & E). apply Ok_eq in E. subst c.
    split; [apply Forall2_refl_on, ww_refl|]. split; [reflexivity | discriminate].
Qed.
Lemma for_wings_kept {S} (P : wing -> wing -> Prop) (f : S -> wing -> wing -> result (S * wing)) : (forall st t n r, f st t n = Ok r -> P n (snd r)) -> (forall n, P n n) ->
  forall these nexts st r, for_wings f st these nexts = Ok r -> Forall2 P nexts (snd r).
Proof.
  intros Hf HR these nexts st r E. unfold for_wings in E. apply bind_Ok in E. destruct E as (_ & _ & E). revert nexts st r E. induction these as [|t these IH]; intros nexts st r E.
  - apply Ok_eq in E. subst r. apply Forall2_refl_on, HR.
  - destruct nexts as [|n nexts]; [apply Ok_eq in E; subst r; constructor|]. apply bind_Ok in E. destruct E as (r1 & E1 & E). apply bind_Ok in E. destruct E as (r2 & E2 & E). apply Ok_eq in E. subst r.
    constructor; [apply (Hf _ _ _ _ E1) | apply (IH _ _ _ E2)].
Qed.
Lemma for_airplanes_kept {S} b (P : wing -> wing -> Prop) (f : S -> wing -> wing -> result (S * wing)) : (forall st t n r, f st t n = Ok r -> P n (snd r)) -> (forall n, P n n) ->
  forall these nexts st r, for_airplanes f st these nexts = Ok r -> Forall2 (anr b P) nexts (snd r).
Proof.
  intros Hf HR these nexts st r E. assert (R : forall a, anr b P a a) by (intros a; split; [apply Forall2_refl_on, HR | split; [destruct a; reflexivity | auto]]).
  unfold for_airplanes in E. apply bind_Ok in E. destruct E as (_ & _ & E). revert nexts st r E. induction these as [|t these IH]; intros nexts st r E.
  - apply Ok_eq in E. subst r. apply Forall2_refl_on, R.
  - destruct nexts as [|n nexts]; [apply Ok_eq in E; subst r; constructor|]. apply bind_Ok in E. destruct E as (r1 & E1 & E). apply bind_Ok in E. destruct E as (r2 & E2 & E). apply Ok_eq in E. subst r.
    constructor; [|apply (IH _ _ _ E2)]. cbn [snd]. split; [exact (for_wings_kept P f Hf HR _ _ _ _ E1)|]. split; [reflexivity | auto].
Qed.
Lemma wake_worn b vs rs w : ww b false w (w_set_wake vs rs w).
Proof. split; [destruct w; reflexivity|]. split; [|discriminate]. apply Forall2_refl_on. intros. apply Forall2_refl_on, pw_refl. Qed.
Lemma populate_worn b step dt convect heap these nexts r : populate_wake step dt convect heap these nexts = Ok r -> Forall2 (aw b false) nexts (snd r).
Proof.
  unfold populate_wake. intros E. apply bind_Ok in E. destruct E as (r1 & E1 & E2). eapply Forall2_compose; [apply aw_trans | |].
  - eapply (for_airplanes_kept b (ww b false)); [|apply ww_refl | exact E1]. intros st t n q E. apply bind_Ok in E. destruct E as (w & Ew & E). apply Ok_eq in E. subst q. cbn [snd].
    unfold next_wake_vertices in Ew. apply bind_Ok in Ew. destruct Ew as (x & _ & Ew). apply bind_Ok in Ew. destruct Ew as (y & _ & Ew). apply Ok_eq in Ew. subst w. apply wake_worn.
  - eapply (for_airplanes_kept b (ww b false)); [|apply ww_refl | exact E2]. intros st t n q E. unfold next_wake_rings in E. apply bind_Ok in E. destruct E as (x & _ & E). apply bind_Ok in E. destruct E as (y & _ & E). apply bind_Ok in E. destruct E as (z & _ & E).
    apply Ok_eq in E. subst q. apply wake_worn.
Qed.
(** Steps that earlier runs have gone through: loads only from [first] on, no wake at step 0. *)
Definition worn (first : Z) (l l' : list steady_problem) : Prop := forall j, rrel (sw (first <=? Z.of_nat j)%Z (Nat.eqb j 0)) (index l j) (index l' j).
Lemma worn_trans first l l' l'' : worn first l l' -> worn first l' l'' -> worn first l l''.
Proof.
  intros W1 W2 j. specialize (W1 j). specialize (W2 j). destruct (index l j), (index l' j), (index l'' j); cbn in *; try contradiction; [eapply sw_trans; eassumption | congruence].
Qed.
Lemma worn_refl first l : worn first l l.
Proof. intros j. destruct (index l j); cbn; [apply sw_refl | reflexivity]. Qed.
Lemma worn_set first k a steps steps' sp : nth_error steps k = Some sp -> set_airplanes k a steps = Ok steps' -> Forall2 (aw (first <=? Z.of_nat k)%Z (Nat.eqb k 0)) (sp_airplanes sp) a -> worn first steps steps'.
Proof.
  intros Hk E FA. unfold set_airplanes in E. rewrite (proj2 (index_Some _ _ _) Hk) in E. cbn [bind] in E. apply Ok_eq in E. subst steps'. assert (k < length steps)%nat by (apply nth_error_Some; congruence).
  intros j. unfold index. rewrite set_at_nth by assumption. destruct (Nat.eqb_spec j k) as [->|_]; [rewrite Hk; split; [reflexivity | exact FA]|]. destruct (nth_error steps j); cbn; [apply sw_refl | reflexivity].
Qed.
Lemma step_worn solve prescribed s k s' : unsteady_step solve prescribed s k = Ok s' -> worn (up_first_results_step (us_problem s)) (up_steady_problems (us_problem s)) (up_steady_problems (us_problem s')).
Proof.
  unfold unsteady_step. cbn zeta. intros E. apply bind_Ok in E. destruct E as (sp & Esp & E). apply index_Some in Esp. do 5 (apply bind_Ok in E; destruct E as (? & _ & E)). apply bind_Ok in E. destruct E as (a1 & E1 & E).
  apply bind_Ok in E. destruct E as (a2 & E2 & E). apply bind_Ok in E. destruct E as (steps & Es & E). apply bind_Ok in E. destruct E as (hs & Eh & E). apply Ok_eq in E. subst s'. cbn [us_problem up_set_steps up_steady_problems].
  set (first := up_first_results_step (us_problem s)) in *.
  assert (W1 : worn first (up_steady_problems (us_problem s)) steps).
  { eapply worn_set; [exact Esp | exact Es |]. pose proof (fun b m => update_worn b m _ _ _ _ (strength_worn b) E1) as U. destruct (first <=? Z.of_nat k)%Z; [|apply Ok_eq in E2; subst a2; apply U].
    apply bind_Ok in E2. destruct E2 as (loads & _ & E2). eapply Forall2_compose; [apply aw_trans | apply U | eapply process_worn; exact E2]. }
  destruct (Z.of_nat k <? up_num_steps (us_problem s) - 1)%Z; [|apply Ok_eq in Eh; subst hs; exact W1].
  apply bind_Ok in Eh. destruct Eh as (nx & En & Eh). apply bind_Ok in Eh. destruct Eh as (r & Er & Eh). apply bind_Ok in Eh. destruct Eh as (steps2 & Es2 & Eh). apply Ok_eq in Eh. subst hs. cbn [snd].
  eapply worn_trans; [exact W1|]. apply index_Some in En. eapply worn_set; [exact En | exact Es2 |]. cbn [Nat.eqb]. eapply populate_worn. exact Er.
Qed.
(** ** The start *)
Lemma rrel_mapiM {A B A' B'} (P : A -> A' -> Prop) (Q : B -> B' -> Prop) f f' l l' :
  (forall i x y, P x y -> rrel Q (f i x) (f' i y)) -> Forall2 P l l' -> rrel (Forall2 Q) (mapiM f l) (mapiM f' l').
Proof.
  intros Hf F. unfold mapiM. rewrite <- (Forall2_length _ _ _ F). eapply (rrel_mapM (fun x y => fst y = fst x /\ P (snd x) (snd y))).
  - intros [i x] [j y] [Ej Hx]. cbn [fst snd] in *. subst j. apply Hf. exact Hx.
  - generalize 0%nat. induction F as [|x y l l' Hx F IH]; intros k; cbn; constructor; auto.
Qed.
Lemma pw_corners b p q : pw b p q -> p_front_left_vortex_vertex q = p_front_left_vortex_vertex p /\ p_front_right_vortex_vertex q = p_front_right_vortex_vertex p.
Proof.
  intros [Hs _]. unfold same_panel in Hs. destruct Hs as (E1 & E2 & E3 & E4 & _). unfold p_front_left_vortex_vertex, p_front_right_vortex_vertex, p_left_leg, p_right_leg. rewrite E1, E2, E3, E4. auto.
Qed.
Lemma reringed b r p q : pw b p q -> pn b (p_set_ring r p) (p_set_ring r q).
Proof.
  intros (Hs & Hh & HL). destruct b; cbn [pn].
  - split; [exact Hs|]. split; [reflexivity | exact Hh].
  - destruct (HL eq_refl) as (L1 & L2 & L3 & L4 & L5 & L6 & L7). unfold same_panel in Hs. destruct Hs as (S1 & S2 & S3 & S4 & S5 & S6 & S7 & S8 & S9 & S10).
    unfold p_set_ring. rewrite Hh, L1, L2, L3, L4, L5, L6, L7, S1, S2, S3, S4, S5, S6, S7, S8, S9, S10. reflexivity.
Qed.
Lemma again_init_panel b drift m n c s p q : Forall2 (Forall2 (pw b)) m n -> pw b p q -> rrel (pn b) (unsteady_init_panel 0 drift m c s p) (unsteady_init_panel 0 drift n c s q).
Proof.
  intros F Hp. destruct (pw_corners _ _ _ Hp) as [C1 C2]. pose proof Hp as (Hs & _). unfold same_panel in Hs. destruct Hs as (S1 & S2 & S3 & S4 & S5 & S6 & _).
  unfold unsteady_init_panel. rewrite C1, C2, S1, S2, S3, S4, S6. destruct (p_is_trailing_edge p); [apply reringed; exact Hp|].
  eapply (rrel_bind (pw b)).
  - unfold panel_at. eapply rrel_bind; [apply rrel_index; exact F|]. intros r r' _ _ FR. apply rrel_index. exact FR.
  - intros x y _ _ Hx. destruct (pw_corners _ _ _ Hx) as [-> ->]. apply reringed. exact Hp.
Qed.
Lemma again_init H b (m : bool) dt sp sp' : sw b m sp sp' -> (m = true -> Forall (fun a => Forall (fun w => w_wake_rings w = []) (a_wings a)) (sp_airplanes sp)) ->
  rrel (sn H b m) (unsteady_init_step 0 dt sp) (unsteady_init_step 0 dt sp').
Proof.
  intros [EO F] HM. unfold unsteady_init_step. rewrite EO. eapply rrel_bind.
  - eapply (rrel_mapM (fun a c => aw b m a c /\ (m = true -> Forall (fun w => w_wake_rings w = []) (a_wings a))) (an H b m)).
    + intros a c [(FW & E & HL) HMa]. unfold unsteady_init_airplane. eapply rrel_bind.
      * eapply (rrel_mapM (fun w v => ww b m w v /\ (m = true -> w_wake_rings w = [])) (wn H b m)).
        -- intros w v [(EW & FP & HWk) HMw]. unfold unsteady_init_wing. cbn zeta. eapply rrel_bind.
           ++ eapply (rrel_mapiM (Forall2 (pw b)) (Forall2 (pn b))); [|exact FP]. intros i row row' FR. eapply (rrel_mapiM (pw b) (pn b)); [|exact FR]. intros j p q Hp. apply again_init_panel; assumption.
           ++ intros x y _ _ FX. cbn [rrel]. split; [rewrite EW at 1; reflexivity|]. split; [exact FX|]. intros Hm. cbn [w_set_panels w_wake_vertices w_wake_rings]. destruct (HWk Hm) as [-> ->]. rewrite (HMw Hm). auto.
        -- clear -FW HMa. destruct m.
           ++ specialize (HMa eq_refl). induction FW as [|w v ws vs Hw FW IH]; constructor; [inversion HMa; subst; auto | apply IH; inversion HMa; assumption].
           ++ eapply Forall2_impl; [|exact FW]. intros w v Hw. split; [exact Hw | discriminate].
      * intros x y _ _ FX. cbn [rrel]. split; [exact FX|]. split; [rewrite E at 1; reflexivity | exact HL].
    + clear -F HM. destruct m.
      * specialize (HM eq_refl). induction F as [|a c l l' Ha F IH]; constructor; [inversion HM; subst; auto | apply IH; inversion HM; assumption].
      * eapply Forall2_impl; [|exact F]. intros a c Ha. split; [exact Ha | discriminate].
  - intros x y _ _ FX. cbn [rrel]. split; [reflexivity | exact FX].
Qed.
Lemma init_worn b m dt sp sp' : unsteady_init_step 0 dt sp = Ok sp' -> sw b m sp sp'.
Proof.
  unfold unsteady_init_step. intros E. apply bind_Ok in E. destruct E as (l & E & E'). apply Ok_eq in E'. subst sp'. split; [reflexivity|]. cbn [sp_airplanes]. apply mapM_Forall2 in E. eapply Forall2_impl; [|exact E].
  intros a c E1. unfold unsteady_init_airplane in E1. apply bind_Ok in E1. destruct E1 as (ws & E1 & E'). apply Ok_eq in E'. subst c. split; [|split; [reflexivity | auto]]. cbn [a_set_wings a_wings]. apply mapM_Forall2 in E1. eapply Forall2_impl; [|exact E1].
  intros w v E2. unfold unsteady_init_wing in E2. apply bind_Ok in E2. destruct E2 as (x & E2 & E'). apply Ok_eq in E'. subst v. split; [destruct w; reflexivity|]. split; [|auto]. cbn [w_set_panels w_panels].
  assert (G : forall {A B} (P : A -> B -> Prop) (f : nat -> A -> result B) l l', (forall i x y, f i x = Ok y -> P x y) -> mapiM f l = Ok l' -> Forall2 P l l').
  { intros A B P f l0 l' Hf. unfold mapiM. generalize 0%nat. revert l'. induction l0 as [|y l0 IH]; intros l' k E0; cbn in E0; [apply Ok_eq in E0; subst l'; constructor|].
    apply bind_Ok in E0. destruct E0 as (y' & Ey & E0). apply bind_Ok in E0. destruct E0 as (ys & Eys & E0). apply Ok_eq in E0. subst l'. constructor; [apply (Hf _ _ _ Ey) | apply (IH _ _ Eys)]. }
  revert E2. apply G. intros i row row'. apply G. intros j p q Eq. unfold unsteady_init_panel in Eq. destruct (p_is_trailing_edge p).
  - apply Ok_eq in Eq. subst q. apply pw_ring.
  - apply bind_Ok in Eq. destruct Eq as (nx & _ & Eq). apply Ok_eq in Eq. subst q. apply pw_ring.
Qed.

(** ** Whole runs *)
Lemma rrel_mapM_index {A B A' B'} (P : nat -> A -> A' -> Prop) (Q : nat -> B -> B' -> Prop) f f' l l' : (forall j, rrel (P j) (index l j) (index l' j)) ->
  (forall j x y, P j x y -> rrel (Q j) (f x) (f' y)) -> rrel (fun r r' => forall j, rrel (Q j) (index r j) (index r' j)) (mapM f l) (mapM f' l').
Proof.
  revert P Q l'. induction l as [|x l IH]; intros P Q l' HP Hf.
  - destruct l' as [|y l']; [|destruct (HP 0%nat)]. cbn. intros j. destruct j; reflexivity.
  - destruct l' as [|y l']; [destruct (HP 0%nat)|]. cbn [mapM]. eapply rrel_bind; [apply (Hf 0%nat), (HP 0%nat)|]. intros a b _ _ Hab.
    eapply rrel_bind; [apply (IH (fun j => P (S j)) (fun j => Q (S j))); [intros j; apply (HP (S j)) | intros j; apply Hf]|]. intros r r' _ _ HR. cbn [rrel]. intros j. destruct j; [exact Hab | apply HR].
Qed.
Lemma worn_length first l l' : worn first l l' -> length l' = length l.
Proof.
  intros W. assert (G : forall j, nth_error l j = None <-> nth_error l' j = None). { intros j. specialize (W j). unfold index in W. destruct (nth_error l j), (nth_error l' j); cbn in W; try contradiction; split; congruence. }
  destruct (lt_eq_lt_dec (length l) (length l')) as [[Hlt|E]|Hlt]; [|congruence|].
  - pose proof (proj1 (G (length l)) (proj2 (nth_error_None _ _) (le_n _))) as X. apply nth_error_None in X. lia.
  - pose proof (proj2 (G (length l')) (proj2 (nth_error_None _ _) (le_n _))) as X. apply nth_error_None in X. lia.
Qed.
Lemma worn_spanwise b m sp sp' : sw b m sp sp' -> total_spanwise (sp_airplanes sp') = total_spanwise (sp_airplanes sp).
Proof.
  intros [_ F]. rewrite !total_spanwise_flat. f_equal. induction F as [|a c l l' (FW & _) F IH]; [reflexivity|]. cbn [map concat]. rewrite !map_app, IH. f_equal. clear -FW.
  induction FW as [|w v ws vs (EW & _) FW IH]; [reflexivity|]. cbn [map]. rewrite IH, EW. reflexivity.
Qed.
Definition wake_counts (up : unsteady_problem) : list nat := map2 (fun k sp => k * total_spanwise (sp_airplanes sp))%nat (seq 0 (length (up_steady_problems up))) (up_steady_problems up).
Definition wake_size (up : unsteady_problem) (j : nat) : nat := nth j (wake_counts up) 0%nat.
Record used_inv (up : unsteady_problem) (u : unsteady_solver) : Prop := {
  ui_problem : us_problem u = up_set_final (up_final (us_problem u)) (up_final_mean (us_problem u)) (up_final_rms (us_problem u)) (up_set_steps (up_steady_problems (us_problem u)) up);
  ui_worn : worn (up_first_results_step up) (up_steady_problems up) (up_steady_problems (us_problem u));
  ui_counts : us_num_wake u = [] \/ exists rest, us_num_wake u = wake_counts up ++ rest;
  ui_wakes : us_wakes u = [] \/ forall j, (j < length (up_steady_problems up))%nat -> exists al, nth_error (us_wakes u) j = Some al /\ sized_wake (wake_size up j) al }.
Lemma zero_sized n : sized_wake n (zero_wake n).
Proof. unfold sized_wake, zero_wake. cbn. rewrite !repeat_length. auto 10. Qed.
Lemma wake_counts_nth up j : (j < length (up_steady_problems up))%nat -> nth_error (wake_counts up) j = Some (wake_size up j).
Proof.
  intros Hj. unfold wake_size. apply nth_error_nth'. unfold wake_counts. rewrite map2_length, seq_length, Nat.min_id. exact Hj.
Qed.
Lemma again_start F up u s0 : meshed_problem F up -> used_inv up u -> unsteady_new up = Ok s0 ->
  exists s1 t1, unsteady_start 0 s0 = Ok s1 /\ unsteady_start 0 u = Ok t1 /\ worn (up_first_results_step up) (up_steady_problems (us_problem u)) (up_steady_problems (us_problem t1)) /\
    at_step (us_heap u) (up_final (us_problem u)) (up_final_mean (us_problem u)) (up_final_rms (us_problem u)) (us_num_wake u ++ wake_counts up) (us_streamline_points u) (wake_size up) 0 s1 t1.
Proof.
  intros HM [UP UW UC UK] E0. pose proof (worn_length _ _ _ UW) as LW. destruct (unsteady_start_ok 0 F up HM) as (s0' & s1 & E0' & E1 & P1 & _ & C1 & _). assert (s0' = s0) by congruence. subst s0'.
  unfold unsteady_new in E0. apply bind_Ok in E0. destruct E0 as (sp0 & _ & E0). apply Ok_eq in E0. subst s0. exists s1.
  unfold unsteady_start in E1 |- *. cbn [us_problem us_heap us_num_wake us_wakes us_current us_streamline_points] in E1. apply bind_Ok in E1. destruct E1 as (cs & Ec & E1). apply bind_Ok in E1. destruct E1 as (ss & Es & E1).
  assert (N' : up_num_steps (us_problem u) = up_num_steps up) by exact (f_equal up_num_steps UP). assert (D' : up_delta_time (us_problem u) = up_delta_time up) by exact (f_equal up_delta_time UP).
  rewrite N', D'.
  assert (Ec' : mapM (fun k => let* sp := index (up_steady_problems (us_problem u)) k in Ok (k * total_spanwise (sp_airplanes sp))%nat) (seq 0 (Z.to_nat (up_num_steps up))) = Ok cs).
  { rewrite <- Ec. apply rrel_eq_inv. eapply rrel_impl; [|apply (rrel_mapM eq eq); [|apply Forall2_refl_on; reflexivity]].
    - intros x y Hxy. clear -Hxy. induction Hxy; [reflexivity | congruence].
    - intros k k' <-. eapply rrel_bind; [apply UW|]. intros sp sp' _ _ Hs. cbn [rrel]. rewrite (worn_spanwise _ _ _ _ Hs). reflexivity. }
  assert (RS : rrel (fun r r' => forall j, rrel (sn (us_heap u) (up_first_results_step up <=? Z.of_nat j)%Z (Nat.eqb j 0)) (index r j) (index r' j))
     (mapM (unsteady_init_step 0 (up_delta_time up)) (up_steady_problems up)) (mapM (unsteady_init_step 0 (up_delta_time up)) (up_steady_problems (us_problem u)))).
  { apply (rrel_mapM_index (fun j sp sp' => sw (up_first_results_step up <=? Z.of_nat j)%Z (Nat.eqb j 0) sp sp' /\ In sp (up_steady_problems up))).
    - intros j. specialize (UW j). unfold index in *. destruct (nth_error (up_steady_problems up) j) eqn:Ej, (nth_error (up_steady_problems (us_problem u)) j); cbn in *; try contradiction; [|exact UW]. split; [exact UW | eapply nth_error_In; exact Ej].
    - intros j sp sp' [Hs Hin]. apply again_init; [exact Hs|]. intros _. destruct (mp_steps _ _ HM sp Hin) as (_ & MW & _). unfold step_wings in MW.
      apply Forall_forall. intros a Ha. apply Forall_forall. intros w Hw. rewrite Forall_forall in MW. apply (MW w). apply in_concat. exists (a_wings a). split; [apply in_map; exact Ha | exact Hw]. }
  rewrite Es in RS. destruct (mapM (unsteady_init_step 0 (up_delta_time up)) (up_steady_problems (us_problem u))) as [st|e] eqn:Et; [|destruct RS]. cbn [rrel] in RS. rewrite Ec'. cbn [bind]. eexists. split; [cbn [us_problem us_heap us_num_wake us_wakes us_current us_streamline_points]; rewrite Ec; cbn [bind]; rewrite Es; exact E1|]. split; [reflexivity|].
  apply Ok_eq in E1. assert (cs = wake_counts up) by (rewrite <- E1 in C1; exact C1). subst cs.
  cbn [us_problem up_set_steps up_steady_problems].
  split.
  { intros j. pose proof (mapM_Forall2 _ _ _ Et) as FE. unfold index. destruct (nth_error (up_steady_problems (us_problem u)) j) as [x|] eqn:Ex.
    - destruct (Forall2_nth_l _ _ _ FE _ _ Ex) as (y & -> & Ey). cbn. eapply init_worn. exact Ey.
    - destruct (nth_error st j) as [y|] eqn:Ey; [|reflexivity]. destruct (Forall2_nth _ _ _ FE _ _ Ey) as (x & Ex' & _). congruence. }
  subst s1. constructor; cbn [us_problem us_heap us_num_wake us_wakes us_current us_streamline_points up_set_steps up_steady_problems up_first_results_step app].
  - rewrite UP. reflexivity.
  - rewrite app_nil_r. reflexivity.
  - intros j. unfold bj, mj. specialize (RS j). replace (Nat.leb j 0) with (Nat.eqb j 0) by (destruct j; reflexivity). cbn [Nat.leb andb]. exact RS.
  - intros j Hj. lia.
  - intros j Hj. pose proof (Forall2_length _ _ _ (mapM_Forall2 _ _ _ Es)) as LS. rewrite <- LS in Hj. pose proof (wake_counts_nth up j Hj) as Hc. exists (zero_wake (wake_size up j)).
    destruct UK as [->|UK].
    + exists (zero_wake (wake_size up j)). cbn [app]. rewrite nth_error_map, Hc. split; [reflexivity|]. split; [reflexivity|]. split; apply zero_sized.
    + destruct (UK j Hj) as (al & Hal & Sal). exists al. rewrite nth_error_map, Hc. split; [reflexivity|]. split; [rewrite nth_error_app1; [exact Hal | apply nth_error_Some; congruence]|]. split; [apply zero_sized | exact Sal].
  - left. reflexivity.
  - reflexivity.
  - reflexivity.
Qed.
Lemma references_sized solve (HS : SolveSpec solve) prescribed F up n s : meshed_problem F up -> after solve prescribed up n s -> (n < length (up_steady_problems up))%nat ->
  forall sp, nth_error (up_steady_problems (us_problem s)) n = Some sp -> length (wake_references (sp_airplanes sp)) = wake_size up n.
Proof.
  intros HM HA Hn sp Hsp. destruct (after_ran solve HS prescribed F up n s HM HA ltac:(lia)) as (s1 & conv & A1 & R). pose proof (rn_inv _ _ _ _ _ _ _ _ R) as I. pose proof (rn_started _ _ _ _ _ _ _ _ R) as FS.
  assert (L1 : (n < length (up_steady_problems (us_problem s1)))%nat) by (rewrite <- (Forall2_length _ _ _ FS); exact Hn).
  destruct (ri_now _ _ _ _ I L1) as [W _]. rewrite (wings_at_some _ _ _ Hsp) in W. rewrite wake_references_flat. change (concat (map a_wings (sp_airplanes sp))) with (step_wings sp). rewrite (wake_count _ _ _ _ _ W).
  destruct (Forall2_nth _ _ _ (ri_kept _ _ _ _ I) _ _ Hsp) as (sp1 & Hsp1 & K1). destruct (Forall2_nth _ _ _ FS _ _ Hsp1) as (sp0 & Hsp0 & K0).
  pose proof (wake_counts_nth up n Hn) as Hc. unfold wake_counts in Hc. rewrite (nth_error_map2 (fun k sp => k * total_spanwise (sp_airplanes sp))%nat), nth_error_seq0, Hsp0 in Hc. destruct (Nat.ltb_spec n (length (up_steady_problems up))); [|lia]. apply Some_eq in Hc. rewrite <- Hc. f_equal.
  rewrite total_spanwise_flat. f_equal. transitivity (map w_num_spanwise_panels (step_wings sp1)).
  - pose proof (solved_step_wings _ _ K1) as FW. unfold step_wings in *. clear -FW. induction FW as [|w v ws vs Hw FW IH]; [reflexivity|]. cbn. rewrite IH. destruct (solved_wing_fields _ _ Hw) as [_ ->]. reflexivity.
  - pose proof (started_wings _ _ _ K0) as FW. unfold step_wings in *. clear -FW. induction FW as [|w v ws vs Hw FW IH]; [reflexivity|]. cbn. rewrite IH. f_equal. rewrite (proj1 Hw). reflexivity.
Qed.
Lemma history_again k up up' id : up_steady_problems up' = map (renumber_step k) (up_steady_problems up) -> averaging_steps up' = averaging_steps up -> load_history up' id = load_history up id.
Proof.
  intros ES EA. unfold load_history. rewrite EA, ES. generalize (averaging_steps up). intros l. induction l as [|j l IH]; [reflexivity|]. cbn [mapM]. rewrite IH, index_map.
  destruct (index (up_steady_problems up) j) as [sp|e]; [|reflexivity]. cbn [result_map bind renumber_step sp_airplanes]. rewrite index_map. destruct (index (sp_airplanes sp) id); reflexivity.
Qed.
Lemma both_append f g l : append_load (both_loads f g) l = both_loads f (append_load g l).
Proof. unfold append_load, both_loads. cbn. rewrite !app_assoc. reflexivity. Qed.
Definition added (F M Q : final_loads) (up up' : unsteady_problem) : Prop :=
  up_final up' = both_loads F (up_final up) /\ up_final_mean up' = both_loads M (up_final_mean up) /\ up_final_rms up' = both_loads Q (up_final_rms up).
Lemma finalize_again k F M Q up up' : up_steady_problems up' = map (renumber_step k) (up_steady_problems up) ->
  up_num_steps up' = up_num_steps up -> up_first_averaging_step up' = up_first_averaging_step up -> up_max_period up' = up_max_period up -> added F M Q up up' ->
  rrel (fun v v' => added F M Q v v' /\ v = up_set_final (up_final v) (up_final_mean v) (up_final_rms v) up /\ v' = up_set_final (up_final v') (up_final_mean v') (up_final_rms v') up') (finalize up) (finalize up').
Proof.
  intros ES E1 E2 E3 HA. unfold finalize. rewrite ES, index_map. destruct (index (up_steady_problems up) 0) as [sp|e]; [|reflexivity]. cbn [result_map bind renumber_step sp_airplanes]. rewrite map_length.
  generalize (seq 0 (length (sp_airplanes sp))). intros ids. clear sp. revert up up' ES E1 E2 E3 HA. induction ids as [|id ids IH]; intros up up' ES E1 E2 E3 HA.
  - cbn. split; [exact HA|]. split; [destruct up | destruct up']; reflexivity.
  - cbn [foldM]. unfold finalize_airplane at 1 3. rewrite (history_again k up up' id ES) by (unfold averaging_steps; rewrite E1, E2; reflexivity). rewrite E3.
    destruct (load_history up id) as [history|e]; [cbn [bind]|reflexivity]. destruct HA as (A1 & A2 & A3).
    assert (G : forall v v', added F M Q v v' -> v = up_set_final (up_final v) (up_final_mean v) (up_final_rms v) up -> v' = up_set_final (up_final v') (up_final_mean v') (up_final_rms v') up' ->
      rrel (fun v v' => added F M Q v v' /\ v = up_set_final (up_final v) (up_final_mean v) (up_final_rms v) up /\ v' = up_set_final (up_final v') (up_final_mean v') (up_final_rms v') up') (foldM finalize_airplane v ids) (foldM finalize_airplane v' ids)).
    { intros v v' HV EV EV'. eapply rrel_impl; [|apply (IH v v')].
      - intros x y (X1 & X2 & X3). split; [exact X1|]. split; [rewrite X2 at 1; rewrite EV; reflexivity | rewrite X3 at 1; rewrite EV'; reflexivity].
      - rewrite EV, EV'. exact ES.
      - rewrite EV, EV'. exact E1.
      - rewrite EV, EV'. exact E2.
      - rewrite EV, EV'. exact E3.
      - exact HV. }
    destruct (Reqb (up_max_period up) 0).
    + destruct (index history (length history - 1)) as [l|e]; [cbn [bind]|reflexivity]. apply G; [|reflexivity|reflexivity]. unfold added. cbn [up_set_final up_final up_final_mean up_final_rms]. rewrite A1, A2, A3, both_append. auto.
    + cbn [bind]. apply G; [|reflexivity|reflexivity]. unfold added. cbn [up_set_final up_final up_final_mean up_final_rms]. rewrite A1, A2, A3, !both_append. auto.
Qed.
Lemma both_nothing f : both_loads f no_final_loads = f.
Proof. destruct f. unfold both_loads, no_final_loads. cbn. rewrite !app_nil_r. reflexivity. Qed.
Lemma index_ext {A} (l l' : list A) (f : A -> A) : (forall j, rrel (fun x y => y = f x) (index l j) (index l' j)) -> l' = map f l.
Proof.
  revert l'. induction l as [|x l IH]; intros l' HP; (destruct l' as [|y l']; [try reflexivity; destruct (HP 0%nat)|]).
  - destruct (HP 0%nat).
  - cbn [map]. f_equal; [exact (HP 0%nat) | apply IH; intros j; exact (HP (S j))].
Qed.
Lemma prefix_of {A} (l l' : list A) : (forall j, (j < length l)%nat -> nth_error l' j = nth_error l j) -> exists rest, l' = l ++ rest.
Proof.
  revert l'. induction l as [|x l IH]; intros l' HP; [exists l'; reflexivity|]. pose proof (HP 0%nat ltac:(cbn; lia)) as H0. destruct l' as [|y l']; [discriminate|]. apply Some_eq in H0. subst y.
  destruct (IH l') as [rest ->]; [|exists rest; reflexivity]. intros j Hj. apply (HP (S j)). cbn. lia.
Qed.
Lemma streamlines_ext V V' seeds n dt : (forall points, V' points = V points) -> calculate_streamlines V' seeds n dt = calculate_streamlines V seeds n dt.
Proof. intros E. unfold calculate_streamlines. f_equal. revert seeds. induction n as [|n IH]; intros seeds; [reflexivity|]. cbn [streamline_rows]. rewrite E, IH. reflexivity. Qed.
Section Run.
Variable solve : list (list R) -> list R -> result (list R).
Hypothesis HS : SolveSpec solve.
Lemma again_steps prescribed F up u s1 t1 n : meshed_problem F up -> after solve prescribed up 0 s1 -> (n <= length (up_steady_problems up))%nat ->
  worn (up_first_results_step up) (up_steady_problems (us_problem u)) (up_steady_problems (us_problem t1)) ->
  at_step (us_heap u) (up_final (us_problem u)) (up_final_mean (us_problem u)) (up_final_rms (us_problem u)) (us_num_wake u ++ wake_counts up) (us_streamline_points u) (wake_size up) 0 s1 t1 ->
  rrel (fun s t => worn (up_first_results_step up) (up_steady_problems (us_problem u)) (up_steady_problems (us_problem t)) /\
     at_step (us_heap u) (up_final (us_problem u)) (up_final_mean (us_problem u)) (up_final_rms (us_problem u)) (us_num_wake u ++ wake_counts up) (us_streamline_points u) (wake_size up) n s t)
    (unsteady_steps solve prescribed n s1) (unsteady_steps solve prescribed n t1).
Proof.
  intros HM A1 Hn HW HT. induction n as [|n IH]; [cbn; auto|]. rewrite !unsteady_steps_S. eapply rrel_bind; [apply IH; lia|]. intros s t Es _ [W T].
  assert (As : after solve prescribed up n s). { destruct A1 as (x0 & x1 & E0 & E1 & E'). cbn in E'. apply Ok_eq in E'. subst x1. exists x0, s1. auto. }
  pose proof (after_problem solve HS prescribed up _ s F As HM ltac:(lia)) as Qs.
  destruct (after_ran solve HS prescribed F up n s HM As ltac:(lia)) as (y1 & conv & _ & R).
  assert (LS : length (up_steady_problems (us_problem s)) = length (up_steady_problems up)).
  { rewrite <- (Forall2_length _ _ _ (ri_kept _ _ _ _ (rn_inv _ _ _ _ _ _ _ _ R))). symmetry. apply (Forall2_length _ _ _ (rn_started _ _ _ _ _ _ _ _ R)). }
  pose proof (mp_size _ _ HM) as SZ.
  assert (X : rrel (at_step (us_heap u) (up_final (us_problem u)) (up_final_mean (us_problem u)) (up_final_rms (us_problem u)) (us_num_wake u ++ wake_counts up) (us_streamline_points u) (wake_size up) (S n))
     (unsteady_step solve prescribed s n) (unsteady_step solve prescribed t n)).
  { apply again_step; [exact T | lia | rewrite LS, SZ; exact (f_equal up_num_steps Qs) |]. apply (references_sized solve HS prescribed F up n s HM As). lia. }
  assert (FR : up_first_results_step (us_problem t) = up_first_results_step up).
  { rewrite (as_problem _ _ _ _ _ _ _ _ _ _ T). exact (f_equal up_first_results_step Qs). }
  destruct (unsteady_step solve prescribed s n) as [s'|e], (unsteady_step solve prescribed t n) as [t'|e'] eqn:Et; cbn in X |- *; try contradiction; [|exact X].
  split; [|exact X]. eapply worn_trans; [exact W|]. rewrite <- FR. eapply step_worn. exact Et.
Qed.
Lemma again_run prescribed (lines : bool) up u s0 : created up -> used_inv up u -> unsteady_new up = Ok s0 ->
  rrel (fun s t => repeats u s t /\ used_inv up t) (unsteady_run solve prescribed lines s0) (unsteady_run solve prescribed lines u).
Proof.
  intros HC UI E0. assert (Hlen : (0 < length (up_steady_problems up))%nat). { unfold unsteady_new in E0. apply bind_Ok in E0. destruct E0 as (sp & E & _). apply index_Some in E. apply nth_error_Some. congruence. }
  destruct (created_some up HC Hlen) as [F HM]. destruct (again_start F up u s0 HM UI E0) as (s1 & t1 & E1 & E1' & W1 & T1).
  unfold unsteady_run, unsteady_run_with. rewrite E1, E1'. cbn [bind].
  assert (A1 : after solve prescribed up 0 s1) by (exists s0, s1; auto).
  pose proof (after_problem solve HS prescribed up _ s1 F A1 HM ltac:(lia)) as Q1. pose proof (mp_size _ _ HM) as SZ.
  assert (N1 : up_num_steps (us_problem s1) = up_num_steps up) by exact (f_equal up_num_steps Q1).
  assert (N1' : up_num_steps (us_problem t1) = up_num_steps up) by (rewrite (as_problem _ _ _ _ _ _ _ _ _ _ T1); exact N1).
  rewrite N1, N1', <- SZ, Nat2Z.id. eapply rrel_bind; [apply (again_steps prescribed F up u s1 t1 _ HM A1 (le_n _) W1 T1)|]. intros s t Es Et [W T].
  set (n := length (up_steady_problems up)) in *. assert (As : after solve prescribed up n s) by (exists s0, s1; auto).
  pose proof (after_problem solve HS prescribed up _ s F As HM (le_n _)) as Qs. destruct (after_ran solve HS prescribed F up n s HM As (le_n _)) as (y1 & conv & _ & R). pose proof (rn_inv _ _ _ _ _ _ _ _ R) as I.
  assert (LS : length (up_steady_problems (us_problem s)) = n).
  { rewrite <- (Forall2_length _ _ _ (ri_kept _ _ _ _ I)). symmetry. apply (Forall2_length _ _ _ (rn_started _ _ _ _ _ _ _ _ R)). }
  assert (LK : length (us_wakes s) = n). { rewrite (ri_size _ _ _ _ I). symmetry. apply (Forall2_length _ _ _ (rn_started _ _ _ _ _ _ _ _ R)). }
  pose proof (rn_counts _ _ _ _ _ _ _ _ R) as CS. pose proof (rn_lines _ _ _ _ _ _ _ _ R) as LNS. fold (wake_counts up) in CS.
  destruct T as [TP TH TS TD TZ TC TN TL].
  assert (ST : up_steady_problems (us_problem t) = map (renumber_step (length (us_heap u))) (up_steady_problems (us_problem s))).
  { apply index_ext. intros j. specialize (TS j). destruct (le_lt_dec n j) as [Hj|Hj].
    - unfold index in *. rewrite (proj2 (nth_error_None _ _)) in TS |- * by lia. destruct (nth_error (up_steady_problems (us_problem t)) j); [destruct TS | exact TS].
    - unfold bj, mj in TS. rewrite (proj2 (Nat.leb_gt n j)), (proj2 (Nat.leb_le j n)) in TS by lia. eapply rrel_impl; [|exact TS]. apply sn_exact. }
  destruct (created_fields up HC) as (CF1 & CF2 & CF3 & _).
  assert (AD : added (up_final (us_problem u)) (up_final_mean (us_problem u)) (up_final_rms (us_problem u)) (us_problem s) (us_problem t)).
  { unfold added. rewrite TP, Qs. cbn [up_set_final up_set_steps up_final up_final_mean up_final_rms]. rewrite CF1, CF2, CF3, !both_nothing. auto. }
  destruct TC as [TC|(c & c' & Ec & Ec' & CC)]; [lia|]. rewrite Ec, Ec'.
  eapply rrel_bind; [apply (finalize_again (length (us_heap u)) (up_final (us_problem u)) (up_final_mean (us_problem u)) (up_final_rms (us_problem u)) (us_problem s) (us_problem t) ST); [rewrite TP; reflexivity | rewrite TP; reflexivity | rewrite TP; reflexivity | exact AD]|].
  intros v v' _ _ (HV & EV & EV').
  assert (Hsteps : up_steady_problems v = up_steady_problems (us_problem s)) by (rewrite EV; reflexivity). assert (Hsteps' : up_steady_problems v' = up_steady_problems (us_problem t)) by (rewrite EV'; reflexivity).
  assert (RL : rrel (fun x y => y = match x with Some ls => Some ls | None => us_streamline_points u end)
     (if lines then Ok (Some (calculate_streamlines (current_velocity c) (cu_seeds c) 25 (2 / 100))) else Ok (us_streamline_points s))
     (if lines then Ok (Some (calculate_streamlines (current_velocity c') (cu_seeds c') 25 (2 / 100))) else Ok (us_streamline_points t))).
  { destruct lines; cbn [rrel]; [|rewrite LNS; exact TL]. replace (cu_seeds c') with (cu_seeds c) by (rewrite (proj2 CC); reflexivity). f_equal. apply streamlines_ext. intros points. apply (again_velocity _ _ points CC). }
  eapply rrel_bind; [exact RL|]. intros x y _ _ ->. cbn [rrel]. destruct HV as (V1 & V2 & V3). split; constructor; cbn [us_problem us_heap us_num_wake us_wakes us_current us_streamline_points].
  - rewrite Hsteps, Hsteps'. exact ST.
  - exact TH.
  - apply prefix_of. intros j Hj. apply TD. lia.
  - rewrite TN, CS. destruct (ui_counts _ _ UI) as [->|[rest ->]]; [exists []; rewrite app_nil_r; reflexivity | rewrite <- app_assoc; eexists; reflexivity].
  - intros points. unfold unsteady_solution_velocity. cbn [us_current]. f_equal. apply (again_velocity _ _ points CC).
  - intros m point Hm. assert (DT : up_delta_time v' = up_delta_time v) by (rewrite EV, EV'; cbn; rewrite TP; reflexivity).
    destruct CC as [FR EC]. destruct (rows_all _ _ FR) as (R1 & _ & _ & _ & _ & _ & R2 & R3 & R4). cbn in Hm. unfold flapping_at_collocation_points, flapping_at_right_leg_centers, flapping_at_front_leg_centers, flapping_at_left_leg_centers in Hm.
    repeat (destruct Hm as [Hm|Hm]; [apply (f_equal fst) in Hm; cbn [fst] in Hm; subst m; unfold flapping_at; cbn [us_current us_problem]; rewrite DT, EC; cbn [cu_step cu_rows cu_last]; rewrite ?R1, ?R2, ?R3, ?R4; reflexivity|]). destruct Hm.
  - reflexivity.
  - exact V1.
  - exact V2.
  - exact V3.
  - rewrite EV', TP, Qs. reflexivity.
  - rewrite Hsteps'. eapply worn_trans; [apply (ui_worn _ _ UI) | exact W].
  - right. rewrite TN. destruct (ui_counts _ _ UI) as [->|[rest ->]]; [exists []; rewrite app_nil_r; reflexivity | rewrite <- app_assoc; eexists; reflexivity].
  - right. intros j Hj. destruct (TZ j ltac:(lia)) as (al & al' & _ & Z2 & _ & Z4). exists al'. auto.
Qed.
Lemma used_worn up u : created up -> used solve up u -> used_inv up u.
Proof.
  intros HC HU. induction HU as [s E|prescribed lines s t HU IH E|s t HU IH E].
  - unfold unsteady_new in E. apply bind_Ok in E. destruct E as (sp & _ & E). apply Ok_eq in E. subst s. constructor; cbn [us_problem us_num_wake us_wakes]; [destruct up; reflexivity | apply worn_refl | auto | auto].
  - assert (E0 : exists s0, unsteady_new up = Ok s0). { clear -HU. induction HU; eauto. } destruct E0 as [s0 E0]. pose proof (again_run prescribed lines up s s0 HC IH E0) as X. rewrite E in X.
    destruct (unsteady_run solve prescribed lines s0); cbn in X; [apply X | destruct X].
  - unfold unsteady_new in E. apply bind_Ok in E. destruct E as (sp & _ & E). apply Ok_eq in E. subst t. destruct IH as [I1 I2 _ _]. constructor; cbn [us_problem us_num_wake us_wakes]; auto.
Qed.
Lemma run_again prescribed (lines : bool) up u s0 : created up -> used solve up u -> unsteady_new up = Ok s0 ->
  match unsteady_run solve prescribed lines s0, unsteady_run solve prescribed lines u with
  | Ok s, Ok t => repeats u s t
  | Err e, Err e' => e = e'
  | _, _ => False
  end.
Proof.
  intros HC HU E0. pose proof (again_run prescribed lines up u s0 HC (used_worn up u HC HU) E0) as X. destruct (unsteady_run solve prescribed lines s0), (unsteady_run solve prescribed lines u); cbn in X; try contradiction; [apply X | congruence].
Qed.
End Run.
