(** Unsteady runs on inputs that come closer and closer to given ones. *)
From Coq Require Import List Lia Lra ZArith Reals Bool.
From Verif Require Import M_Loads M_Horseshoe M_SteadyRing M_Unsteady S_Geometry S_Solve S_Loads S_Mirror S_Solvable S_Size S_Unsteady S_UnsteadyRun S_SizeUnsteady S_Continuous S_ContinuousUnsteady
  L_Base L_Rotations L_Loads L_Geometry L_Aero L_Horseshoe L_SteadyRing L_RingLegs L_Mirror L_Solvable L_Size L_SizeUnsteady L_SizeRun L_Snapshots L_Wake L_NoLoads L_ImageRun L_UnsteadyStep L_Unsteady L_UnsteadyRun L_UnsteadyFinal L_UnsteadyProps
  L_Limits L_Continuous L_ContinuousExample L_ContinuousRun L_ContinuousRing L_ContinuousWalk L_ContinuousStep.
Import ListNotations.
Local Open Scope R_scope.

(** ** Where the velocities are needed *)
Lemma row_legs_off airplanes rows airplanes' wake x : unsteady_collapse airplanes = Ok rows -> Forall2 airplane_stays airplanes airplanes' ->
  off_edges (map panel_legs (all_panels airplanes') ++ wake_legs wake) x -> off_edges (row_legs rows ++ wake_legs wake) x.
Proof.
  intros E F H v s Hv Hs. apply in_app_or in Hv. destruct Hv as [Hv|Hv]; [|apply (H v s); [apply in_or_app; right; exact Hv | exact Hs]].
  assert (X : exists y, In y rows /\ In s (panel_legs (rr_panel y))).
  { cbn [row_legs leg_lists In] in Hv. destruct Hv as [<-|[<-|[<-|[<-|[]]]]]; apply in_combine_maps in Hs; destruct Hs as (y & Hy & ->); exists y; (split; [exact Hy|]); unfold panel_legs; rewrite (proj2 (row_panel _ _ _ E Hy)); cbn; tauto. }
  destruct X as (y & Hy & Hl). destruct (stays_panel _ _ _ F (proj1 (row_panel _ _ _ E Hy))) as (q & Hq & S). apply (H (panel_legs q)); [apply in_or_app; left; apply in_map; exact Hq | rewrite (proj1 S); exact Hl].
Qed.
Lemma for_wings_reach {S} (f : S -> wing -> wing -> result (S * wing)) st ws vs r w v : for_wings f st ws vs = Ok r -> In (w, v) (combine ws vs) -> exists st' y, f st' w v = Ok y /\ In (snd y) (snd r).
Proof.
  unfold for_wings. intros E. apply bind_Ok in E. destruct E as (u & _ & E). revert st vs r E. induction ws as [|t ws IH]; intros st vs r E H; [contradiction|]. destruct vs as [|n vs]; [contradiction|].
  apply bind_Ok in E. destruct E as (y & Ey & E). apply bind_Ok in E. destruct E as (rs & Ers & E). apply Ok_eq in E. subst r. cbn [snd]. destruct H as [H|H].
  - injection H as -> ->. exists st, y. split; [exact Ey | left; reflexivity].
  - destruct (IH _ _ _ Ers H) as (st' & z & Ez & Hz). exists st', z. split; [exact Ez | right; exact Hz].
Qed.
Lemma for_airplanes_reach {S} (f : S -> wing -> wing -> result (S * wing)) st these nexts r a b w v : for_airplanes f st these nexts = Ok r -> In (a, b) (combine these nexts) -> In (w, v) (combine (a_wings a) (a_wings b)) ->
  exists st' y c, f st' w v = Ok y /\ In c (snd r) /\ In (snd y) (a_wings c).
Proof.
  unfold for_airplanes. intros E. apply bind_Ok in E. destruct E as (u & _ & E). revert st nexts r E. induction these as [|t these IH]; intros st nexts r E H HW; [contradiction|]. destruct nexts as [|n nexts]; [contradiction|].
  apply bind_Ok in E. destruct E as (y & Ey & E). apply bind_Ok in E. destruct E as (rs & Ers & E). apply Ok_eq in E. subst r. cbn [snd]. destruct H as [H|H].
  - injection H as -> ->. destruct (for_wings_reach _ _ _ _ _ _ _ Ey HW) as (st' & z & Ez & Hz). exists st', z, (a_set_wings (snd y) b). split; [exact Ez|]. split; [left; reflexivity | exact Hz].
  - destruct (IH _ _ _ Ers H HW) as (st' & z & c & Ez & Hc & Hz). exists st', z, c. split; [exact Ez|]. split; [right; exact Hc | exact Hz].
Qed.
(** The vertices that the first step moves are the trailing edges of the next step's wings. *)
Lemma first_vertices dt convect heap these nexts r a b w v x : populate_wake 0 dt convect heap these nexts = Ok r -> In (a, b) (combine these nexts) -> In (w, v) (combine (a_wings a) (a_wings b)) ->
  moved_vertices 0 w v x -> exists c y, In c (snd r) /\ In y (a_wings c) /\ In x (hd [] (w_wake_vertices y)).
Proof.
  intros E Hab Hwv (first & Ef & Hx). unfold populate_wake in E. apply bind_Ok in E. destruct E as (m & E1 & E2).
  destruct (for_airplanes_reach _ _ _ _ _ _ _ _ _ E1 Hab Hwv) as (st & y & c & Ey & Hc & Hy). apply bind_Ok in Ey. destruct Ey as (z & Ez & Ey). apply Ok_eq in Ey. subst y. cbn [snd] in Hy.
  destruct (rings_keep_vertices _ _ _ _ _ _ c z E2 Hc Hy) as (c' & y' & Hc' & Hy' & EV). exists c', y'. split; [exact Hc'|]. split; [exact Hy'|]. rewrite EV.
  unfold next_wake_vertices in Ez. rewrite Ef in Ez. cbn [bind] in Ez. apply bind_Ok in Ez. destruct Ez as (vs & Ev & Ez). apply Ok_eq in Ez. subst z. cbn [w_set_wake w_wake_vertices]. unfold vstack in Ev. apply bind_Ok in Ev. destruct Ev as (u & _ & Ev). apply Ok_eq in Ev. subst vs. exact Hx.
Qed.

(** ** One step *)
Definition velocities_near (i : nat) (SS : nat -> unsteady_solver) (s : unsteady_solver) : Prop :=
  forall sp w X x, nth_error (up_steady_problems (us_problem s)) i = Some sp -> nth_error (us_wakes s) i = Some w ->
    vtends X x -> off_edges (vortices_of sp w) x ->
    exists VS v, (forall k, unsteady_solution_velocity (SS k) [X k] = Ok [VS k]) /\ unsteady_solution_velocity s [x] = Ok [v] /\ vtends VS v.
Definition loaded (a : airplane) : Prop := exists l, loads_of a = Ok l.
Lemma process_loaded op fs ms l l' : process_forces op fs ms l = Ok l' -> Forall loaded l'.
Proof.
  intros E. unfold process_forces in E. apply bind_Ok in E. destruct E as (l1 & _ & E). revert l' E. induction l1 as [|a l1 IH]; intros l' E; cbn [mapM] in E; [apply Ok_eq in E; subst l'; constructor|].
  apply bind_Ok in E. destruct E as (b & Eb & E). apply bind_Ok in E. destruct E as (t & Et & E). apply Ok_eq in E. subst l'. constructor; [|exact (IH t Et)].
  unfold airplane_totals in Eb. apply bind_Ok in Eb. destruct Eb as (x & _ & Eb). apply bind_Ok in Eb. destruct Eb as (y & _ & Eb). apply Ok_eq in Eb. subst b. eexists. reflexivity.
Qed.
Definition loads_near (i : nat) (SS : nat -> unsteady_solver) (s : unsteady_solver) : Prop :=
  (up_first_results_step (us_problem s) <= Z.of_nat i)%Z ->
  exists U sp, (forall k, nth_error (up_steady_problems (us_problem (SS k))) i = Some (U k)) /\ nth_error (up_steady_problems (us_problem s)) i = Some sp /\
    each (approaching_solution (dynamic_pressure (sp_operating_point sp)) ring_strength) (fun k => sp_airplanes (U k)) (sp_airplanes sp) /\
    exists N, forall k, (N <= k)%nat -> Forall loaded (sp_airplanes (U k)).
Definition flow_step (U : nat -> steady_problem) (sp : steady_problem) : Prop := approaching_step live U sp /\ 0 <= op_nu (sp_operating_point sp).
Record run_near (n : nat) (SS : nat -> unsteady_solver) (s : unsteady_solver) : Prop := {
  nw_schedule : same_schedule (fun k => us_problem (SS k)) (us_problem s);
  nw_time : 0 < up_delta_time (us_problem s);
  nw_steps : each flow_step (fun k => up_steady_problems (us_problem (SS k))) (up_steady_problems (us_problem s));
  nw_loads : forall i, (i < n)%nat -> loads_near i SS s;
  nw_heap : each aged (fun k => us_heap (SS k)) (us_heap s);
  nw_wakes : each wake_near (fun k => us_wakes (SS k)) (us_wakes s);
  nw_velocity : forall i, n = S i -> velocities_near i SS s;
  nw_current : us_current s <> None -> forall k, us_current (SS k) <> None }.
Definition replaced (i : nat) (L : nat -> list airplane) (l : list airplane) (ST : nat -> list steady_problem) (steps : list steady_problem) (ST' : nat -> list steady_problem) (steps' : list steady_problem) : Prop :=
  each flow_step ST' steps' /\
  (exists O op, (forall n, nth_error (ST' n) i = Some (mksteady (L n) (O n))) /\ nth_error steps' i = Some (mksteady l op)) /\
  forall j, j <> i -> (forall n, nth_error (ST' n) j = nth_error (ST n) j) /\ nth_error steps' j = nth_error steps j.
Lemma set_settles i L l ST steps : each (flying_airplane live) L l -> each flow_step ST steps ->
  settles (replaced i L l ST steps) (fun n => set_airplanes i (L n) (ST n)) (set_airplanes i l steps).
Proof.
  intros HL HS. unfold set_airplanes. eapply (settles_bind flow_step); [apply settles_index, HS|]. intros U sp E (HU & Hn). cbv beta.
  apply (settles_Ok (replaced i L l ST steps) (fun n => set_at i (mksteady (L n) (sp_operating_point (U n))) (ST n))).
  apply index_Some in E. assert (Li : (i < length steps)%nat) by (apply nth_error_Some; congruence). assert (Ln : forall n, (i < length (ST n))%nat) by (intros n; rewrite (each_length _ _ _ HS); exact Li).
  split; [|split].
  - apply each_set; [exact HS|]. split; [split; [apply HU | exact HL] | exact Hn].
  - exists (fun n => sp_operating_point (U n)), (sp_operating_point sp). split; [intros n|]; rewrite set_at_nth by auto; rewrite Nat.eqb_refl; reflexivity.
  - intros j Hj. split; [intros n|]; rewrite set_at_nth by auto; (destruct (Nat.eqb_spec j i); [contradiction | reflexivity]).
Qed.
Lemma single_velocity rows g w nu v x : unsteady_velocity_of rows g w nu v [x] = [nth 0 (unsteady_velocity_of rows g w nu v [x]) vzero].
Proof. reflexivity. Qed.
Lemma first_near U l : each vtends U l -> vtends (fun n => nth 0 (U n) vzero) (nth 0 l vzero).
Proof. intros H. destruct H as [U E|U x l a m E Hx Hl]; (eapply vtends_ext; [intros n; rewrite E; reflexivity|]); [apply vtends_const | exact Hx]. Qed.
Lemma weaker_steps ST steps : each flow_step ST steps -> each (approaching_step live) ST steps.
Proof. apply each_weaken. intros U sp _ H. apply H. Qed.

Lemma step_settles solve (HS : SolveSpec solve) prescribed SS s i : run_near i SS s ->
  (forall sp rows la, index (up_steady_problems (us_problem s)) i = Ok sp -> unsteady_collapse (sp_airplanes sp) = Ok rows ->
     last_step_arrays (num_panels_of (sp_airplanes sp)) i (up_steady_problems (us_problem s)) = Ok la ->
     num_panels_of (sp_airplanes sp) = length rows /\ length (la_collocations la) = length rows) ->
  (forall s', unsteady_step solve prescribed s i = Ok s' -> forall sp w x, nth_error (up_steady_problems (us_problem s')) i = Some sp -> nth_error (us_wakes s') i = Some w ->
     step_points prescribed (us_problem s') i x -> off_edges (vortices_of sp w) x) ->
  settles (run_near (S i)) (fun k => unsteady_step solve prescribed (SS k) i) (unsteady_step solve prescribed s i).
Proof.
  intros [SC PT ST LD HP WK _ _] HL HO s' E0. pose proof E0 as E. specialize (HO s' E0).
  unfold unsteady_step in E. cbn zeta in E. apply bind_Ok in E. destruct E as (sp & Esp & E). apply bind_Ok in E. destruct E as (al & Eal & E).
  apply bind_Ok in E. destruct E as (rows & Erows & E). apply bind_Ok in E. destruct E as (wake & Ewake & E). apply bind_Ok in E. destruct E as (la & Ela & E).
  destruct (HL sp rows la Esp Erows Ela) as [Ln Lc]. clear HL.
  apply bind_Ok in E. destruct E as (xs & Exs & E). apply bind_Ok in E. destruct E as (a1 & Ea1 & E). apply bind_Ok in E. destruct E as (a2 & Ea2 & E).
  apply bind_Ok in E. destruct E as (steps & Es & E). apply bind_Ok in E. destruct E as (hs & Ehs & E). apply Ok_eq in E.
  set (up := us_problem s) in *.
  destruct (set_airplanes_at i a2 _ _ _ Esp Es) as [N1 _].
  assert (N2 : nth_error (snd hs) i = Some (mksteady a2 (sp_operating_point sp))).
  { destruct (Z.of_nat i <? up_num_steps up - 1)%Z; [|apply Ok_eq in Ehs; subst hs; exact N1].
    apply bind_Ok in Ehs. destruct Ehs as (nx & En & Ehs). apply bind_Ok in Ehs. destruct Ehs as (rr & Err & Ehs). apply bind_Ok in Ehs. destruct Ehs as (st & Est & Ehs). apply Ok_eq in Ehs. subst hs. cbn [snd].
    destruct (set_airplanes_at _ _ _ _ _ En Est) as [_ N]. rewrite N by lia. exact N1. }
  assert (ST1 : Forall2 airplane_stays (sp_airplanes sp) a1) by (eapply update_stays; [apply strength_stays | exact Ea1]).
  assert (STY : Forall2 airplane_stays (sp_airplanes sp) a2).
  { destruct (up_first_results_step up <=? Z.of_nat i)%Z; [|apply Ok_eq in Ea2; subst a2; exact ST1]. apply bind_Ok in Ea2. destruct Ea2 as (loads & _ & Ep). eapply compose_F2; [exact airplane_stays_trans | exact ST1 | exact (process_stays _ _ _ _ _ Ep)]. }
  assert (NW : nth_error (set_at i wake (us_wakes s)) i = Some wake).
  { apply index_Some in Eal. rewrite set_at_nth by (apply nth_error_Some; congruence). rewrite Nat.eqb_refl. reflexivity. }
  assert (RV : forall x, step_points prescribed (up_set_steps (snd hs) up) i x -> off_edges (step_legs rows wake) x).
  { intros x Hx. apply (row_legs_off _ _ a2 wake x Erows STY). apply (HO (mksteady a2 (sp_operating_point sp)) wake x); rewrite <- E; [exact N2 | exact NW | exact Hx]. }
  clear HO.
  assert (RC : forall x, In x (map rr_collocation rows) -> off_edges (step_legs rows wake) x).
  { intros x Hx. apply RV. left. apply in_map_iff in Hx. destruct Hx as (y & <- & Hy). destruct (stays_panel _ _ _ STY (proj1 (row_panel _ _ _ Erows Hy))) as (q & Hq & _ & Sq & _). exists (mksteady a2 (sp_operating_point sp)), q. split; [exact N2|]. split; [exact Hq|]. left. symmetry. exact Sq. }
  assert (RL : (up_first_results_step up <= Z.of_nat i)%Z -> forall f x, In f [rr_right_center; rr_front_center; rr_left_center] -> In x (map f rows) -> off_edges (step_legs rows wake) x).
  { intros Hi f x Hf Hx. apply RV. left. apply in_map_iff in Hx. destruct Hx as (y & <- & Hy). destruct (row_panel _ _ _ Erows Hy) as [Py Vy]. destruct (stays_panel _ _ _ STY Py) as (q & Hq & _ & _ & Sq). exists (mksteady a2 (sp_operating_point sp)), q. split; [exact N2|]. split; [exact Hq|]. right. split; [exact Hi|]. rewrite Sq. unfold leg_centers. rewrite Vy.
    cbn [In] in Hf. destruct Hf as [<-|[<-|[<-|[]]]]; cbn; tauto. }
  assert (RN : prescribed = false -> (Z.of_nat i < up_num_steps up - 1)%Z -> forall nx x, index steps (S i) = Ok nx ->
     (exists a b w v, In (a, b) (combine a2 (sp_airplanes nx)) /\ In (w, v) (combine (a_wings a) (a_wings b)) /\ moved_vertices i w v x) -> off_edges (step_legs rows wake) x).
  { intros Hp Hl nx x Enx (a & b & w & v & Hab & Hwv & Hx). apply RV. right. split; [exact Hp|]. split; [exact Hl|]. apply Z.ltb_lt in Hl. rewrite Hl in Ehs.
    rewrite Enx in Ehs. cbn [bind] in Ehs. apply bind_Ok in Ehs. destruct Ehs as (rr & Err & Ehs). apply bind_Ok in Ehs. destruct Ehs as (st & Est & Ehs). apply Ok_eq in Ehs. subst hs. cbn [snd] in *. cbn [up_set_steps up_steady_problems].
    destruct i as [|i].
    - destruct (first_vertices _ _ _ _ _ _ _ _ _ _ _ Err Hab Hwv Hx) as (c & y & Hc & Hy & Hxy). destruct (set_airplanes_at _ _ _ _ _ Enx Est) as [N3 _].
      exists (mksteady (snd rr) (sp_operating_point nx)), y. split; [exact N3|]. split; [unfold wings_of; apply in_concat; exists (a_wings c); split; [apply in_map; exact Hc | exact Hy] | exact Hxy].
    - destruct Hx as (row & Hr & Hx). exists (mksteady a2 (sp_operating_point sp)), w, row. split; [exact N2|]. split; [|auto]. apply in_combine_l in Hab. apply in_combine_l in Hwv. unfold wings_of. apply in_concat. exists (a_wings a). split; [apply in_map; exact Hab | exact Hwv]. }
  clear RV. assert (RC1 := fun x Hx => proj1 (off_rows rows wake x (RC x Hx))). assert (RC2 := fun x Hx => proj2 (off_rows rows wake x (RC x Hx))).
  enough (K : settles (run_near (S i)) (fun k => unsteady_step solve prescribed (SS k) i) (unsteady_step solve prescribed s i)) by exact (K s' E0).
  clear E0 E s'. unfold unsteady_step. cbv zeta. fold up. destruct SC as (HDT & HSC).
  eapply (settles_bind flow_step); [apply settles_index, ST|]. intros U sp' Esp' ((HU & HA) & Pn). assert (sp' = sp) by congruence. subst sp'. clear Esp'. cbv beta.
  eapply (settles_bind wake_near); [apply settles_index, WK|]. intros AL al' Eal' HAL. assert (al' = al) by congruence. subst al'. clear Eal'. cbv beta.
  eapply (settles_bind (each row_near)); [apply rows_settle, HA|]. intros R rows' Erows' HR. assert (rows' = rows) by congruence. subst rows'. clear Erows'. cbv beta.
  eapply (settles_bind wake_near); [apply wake_settles; [exact HP | exact HA | exact HAL]|]. intros WA wake' Ewake' HWA. assert (wake' = wake) by congruence. subst wake'. clear Ewake'. cbv beta.
  eapply settles_ext; [intros n; rewrite (num_panels_tends _ _ _ (all_approaching _ _ _ HA) n); reflexivity|].
  eapply (settles_bind last_near); [apply last_settles, weaker_steps, ST|]. intros LA la' Ela' HLA. assert (la' = la) by congruence. subst la'. clear Ela'. cbv beta.
  pose proof (op_stream _ _ (proj1 HU)) as HV. pose proof (proj2 HU) as HN. assert (Nd : up_delta_time up <> 0) by lra.
  pose proof (matrix_near _ _ HN Pn R rows HR (num_panels_of (sp_airplanes sp)) RC1) as HM.
  pose proof (freestream_near _ _ HDT Nd R rows HR LA la HLA _ _ HV i) as HF.
  pose proof (wake_influences_near _ _ HN Pn R rows HR WA wake HWA i (num_panels_of (sp_airplanes sp)) RC2) as HI.
  eapply (settles_bind (each tends)).
  { refine (solve_settles solve _ _ _ _ HS _ _ HM _).
    - rewrite Ln. apply step_matrix_square.
    - rewrite Ln. etransitivity; [apply (step_rhs_length i (up_delta_time up) rows la wake (sp_operating_point sp)); exact Lc | symmetry; apply step_matrix_length].
    - refine (each_map2 tends tends tends (fun _ => Rminus) Rminus _ _ _ _ _ _ HF); [intros; apply tends_minus; assumption|].
      refine (each_map tends tends (fun _ => Ropp) Ropp _ _ _ HI). intros; apply tends_opp; assumption. }
  intros G xs' Exs' HG. assert (xs' = xs) by congruence. subst xs'. clear Exs'. cbv beta.
  eapply (settles_bind (each (flying_airplane live))).
  { apply (flying_update live live tends (fun _ => unsteady_set_strength)); [|exact HA | exact HG]. intros P p K b HPp HK. apply strength_settles; assumption. }
  intros A1 a1' Ea1' HA1. assert (a1' = a1) by congruence. subst a1'. clear Ea1'. cbv beta.
  assert (VEL : forall PS ps, each (off_point (step_legs rows wake)) PS ps -> each vtends (fun n => unsteady_velocity_of (R n) (G n) (WA n) (op_nu (sp_operating_point (U n))) (freestream_velocity (sp_operating_point (U n))) (PS n))
     (unsteady_velocity_of rows xs wake (op_nu (sp_operating_point sp)) (freestream_velocity (sp_operating_point sp)) ps)) by (intros; apply velocity_near; assumption).
  eapply (settles_bind (fun L l => each (flying_airplane live) L l /\ ((up_first_results_step up <= Z.of_nat i)%Z -> each (approaching_solution (dynamic_pressure (sp_operating_point sp)) ring_strength) L l /\ exists N, forall k, (N <= k)%nat -> Forall loaded (L k)))).
  { eapply settles_ext; [intros n; rewrite (proj1 (proj2 (HSC n))); reflexivity|]. destruct (up_first_results_step up <=? Z.of_nat i)%Z eqn:Ei.
    - apply Z.leb_le in Ei. eapply (settles_bind (each pair_tends)).
      + apply (loads_settle _ _ HDT Nd R rows HR LA la HLA i (fun n => op_density (sp_operating_point (U n))) _ (fun n => current_velocity (mkcurrent i (sp_operating_point (U n)) (freestream_velocity (sp_operating_point (U n))) (R n) (LA n) (seeds_of (map rr_panel (R n)))
            (unsteady_wing_influences (R n) (repeat 1 (num_panels_of (sp_airplanes sp))) (op_nu (sp_operating_point (U n)))) (unsteady_freestream_influences i (up_delta_time (us_problem (SS n))) (R n) (LA n) (freestream_velocity (sp_operating_point (U n))))
            (unsteady_wake_influences i (num_panels_of (sp_airplanes sp)) (R n) (WA n) (op_nu (sp_operating_point (U n)))) (G n) (WA n)))); [apply HU | apply airplane_strength, HA1 | exact HG|].
        intros f PS Hf HPS. unfold current_velocity. cbn [cu_rows cu_strengths cu_wake cu_op cu_freestream]. apply VEL. eapply each_weaken; [|exact HPS]. intros X x Hx HX. split; [exact HX | exact (RL Ei f x Hf Hx)].
      + intros LO lo _ HLO. cbv beta. 
        pose proof (flying_process _ _ (fun n => map fst (LO n)) (map fst lo) (fun n => map snd (LO n)) (map snd lo) _ _ (proj1 HU)
          (each_map pair_tends vtends (fun _ => fst) fst _ _ (fun X x _ H => proj1 H) HLO) (each_map pair_tends vtends (fun _ => snd) snd _ _ (fun X x _ H => proj2 H) HLO) HA1) as HPF.
        intros y Ey. destruct (HPF y Ey) as (Y & N & E1 & E2). exists Y, N. split; [exact E1|]. split; [|intros _; split; [|exists N; intros k Hk; exact (process_loaded _ _ _ _ _ (E1 k Hk))]]; (eapply each_weaken; [|exact E2]); intros B b _ Hb; apply Hb.
    - apply (settles_Ok (fun L l => each (flying_airplane live) L l /\ _)). split; [exact HA1|]. intros H. apply Z.leb_le in H. congruence. }
  intros A2 a2' Ea2' (HA2 & HSO). assert (a2' = a2) by congruence. subst a2'. clear Ea2'. cbv beta.
  eapply (settles_bind (replaced i A2 a2 _ _)); [apply set_settles; [exact HA2 | exact ST]|]. intros S1 steps' Es' (HS1 & (O1 & op1 & EO & Eo) & K1). assert (steps' = steps) by congruence. subst steps'. clear Es'. cbv beta.
  assert (op1 = sp_operating_point sp) by (rewrite N1 in Eo; injection Eo; auto). subst op1.
  eapply (settles_bind (fun (H : nat -> list ring_vortex * list steady_problem) h => each aged (fun n => fst (H n)) (fst h) /\ each flow_step (fun n => snd (H n)) (snd h) /\
     forall j, (j <= i)%nat -> (forall n, nth_error (snd (H n)) j = nth_error (S1 n) j) /\ nth_error (snd h) j = nth_error steps j)).
  { eapply settles_ext; [intros n; rewrite (proj1 (HSC n)); reflexivity|]. destruct (Z.of_nat i <? up_num_steps up - 1)%Z eqn:El.
    - apply Z.ltb_lt in El. eapply (settles_bind flow_step); [apply settles_index, HS1|]. intros NX nx Enx ((HNo & HNA) & _). cbv beta.
      eapply (settles_bind (paired (each aged) (each (flying_airplane live)))).
      + apply populate_settles; [exact HDT | lra | exact HP | exact HA2 | exact HNA|]. intros X x HX Hx. unfold convect_vertex. apply vtends_add; [exact HX|]. apply vtends_scale; [exact HDT|].
        destruct prescribed; [exact HV|]. unfold current_velocity. cbn [cu_rows cu_strengths cu_wake cu_op cu_freestream]. apply (first_near (fun n => unsteady_velocity_of (R n) (G n) (WA n) _ _ [X n])). apply VEL. apply each_one. split; [exact HX | exact (RN eq_refl El nx x Enx Hx)].
      + intros RR rr _ (H1 & H2). cbv beta. eapply (settles_bind (replaced (S i) _ _ _ _)); [apply set_settles; [exact H2 | exact HS1]|]. intros S2 st2 _ (HS2 & _ & K2). cbv beta.
        apply (settles_Ok (fun (H : nat -> list ring_vortex * list steady_problem) h => _) (fun n => (fst (RR n), S2 n))). cbn [fst snd]. split; [exact H1|]. split; [exact HS2|]. intros j Hj. apply K2. lia.
    - apply (settles_Ok (fun (H : nat -> list ring_vortex * list steady_problem) h => _) (fun n => (us_heap (SS n), S1 n))). cbn [fst snd]. split; [exact HP|]. split; [exact HS1|]. intros j Hj. split; reflexivity. }
  intros HH hs' Ehs' (HH1 & HH2 & HH3). assert (hs' = hs) by congruence. subst hs'. clear Ehs'. cbv beta.
  eapply (settles_Ok (run_near (S i))). constructor; cbn [us_problem us_heap us_wakes us_current up_set_steps up_steady_problems up_delta_time].
  - split; [exact HDT | exact HSC].
  - exact PT.
  - exact HH2.
  - intros j Hj Hr. cbn [us_problem up_set_steps up_steady_problems up_first_results_step] in *. destruct (HH3 j ltac:(lia)) as (J1 & J2). destruct (Nat.eq_dec j i) as [->|Nj].
    + exists (fun n => mksteady (A2 n) (O1 n)), (mksteady a2 (sp_operating_point sp)). split; [intros n; rewrite J1; apply EO|]. split; [rewrite J2; exact Eo|]. exact (HSO Hr).
    + destruct (LD j ltac:(lia) Hr) as (V & v & E1 & E2 & H). destruct (K1 j Nj) as (K1a & K1b). exists V, v. split; [intros n; rewrite J1, K1a; apply E1|]. split; [rewrite J2, K1b; exact E2 | exact H].
  - exact HH1.
  - apply each_set; [exact WK | exact HWA].
  - intros j Ej sp' w X x Hsp' Hw HX Hx. injection Ej as <-. cbn [us_problem up_set_steps up_steady_problems us_wakes] in *. assert (sp' = mksteady a2 (sp_operating_point sp)) by congruence. assert (w = wake) by congruence. subst sp' w.
    unfold unsteady_solution_velocity. cbn [us_current]. unfold current_velocity. cbn [cu_rows cu_strengths cu_wake cu_op cu_freestream].
    eexists _, _. split; [intros n; rewrite single_velocity at 1; reflexivity|]. split; [rewrite single_velocity at 1; reflexivity|].
    apply (first_near (fun n => unsteady_velocity_of (R n) (G n) (WA n) _ _ [X n])). apply VEL. apply each_one. split; [exact HX | exact (row_legs_off _ _ a2 wake x Erows STY Hx)].
  - discriminate.
Qed.

(** ** The start *)
Lemma span_same T L l : each (flying_airplane T) L l -> forall n, total_spanwise (L n) = total_spanwise l.
Proof.
  unfold total_spanwise. intros H n. generalize 0%nat. induction H as [L E|L X l a m E Hx Hl IH]; intros k; [rewrite E; reflexivity|]. rewrite E. cbn [fold_left]. rewrite IH. f_equal.
  destruct Hx as (_ & _ & _ & _ & _ & HW). clear -HW. revert k. remember (fun n => a_wings (X n)) as WS. assert (EW : WS n = a_wings (X n)) by (subst; reflexivity). rewrite <- EW. clear HeqWS EW. induction HW as [WS E|WS V ws w m' E Hv Hw IH]; intros k; [rewrite E; reflexivity|]. rewrite E. cbn [fold_left]. rewrite IH.
  destruct Hv as (_ & _ & Hv). rewrite (proj1 (proj2 (Hv n))). reflexivity.
Qed.
Lemma zero_wake_near n : wake_near (fun _ => zero_wake n) (zero_wake n).
Proof.
  split.
  - unfold approaching_wake, zero_wake. cbn [wk_strengths wk_ages wk_front_right wk_front_left wk_back_left wk_back_right].
    assert (X : each tends (fun _ : nat => repeat 0 n) (repeat 0 n)) by (apply each_const; intros; apply tends_const). assert (Y : each vtends (fun _ : nat => repeat vzero n) (repeat vzero n)) by (apply each_const; intros; apply vtends_const). tauto.
  - cbn [zero_wake wk_ages]. apply Forall_forall. intros x Hx. apply repeat_spec in Hx. subst x. lra.
Qed.
Definition solid_steps (up : unsteady_problem) : Prop := forall sp p, In sp (up_steady_problems up) -> In p (all_panels (sp_airplanes sp)) -> p_area p <> 0.
Definition viscous (up : unsteady_problem) : Prop := forall sp, In sp (up_steady_problems up) -> 0 <= op_nu (sp_operating_point sp).
Lemma start_settles UP up s0 : approaching_problem UP up -> 0 < up_delta_time up -> solid_steps up -> viscous up -> unsteady_new up = Ok s0 ->
  exists S0, (forall n, unsteady_new (UP n) = Ok (S0 n)) /\ settles (run_near 0) (fun n => unsteady_start 0 (S0 n)) (unsteady_start 0 s0).
Proof.
  intros ((HD & HSC) & HST) PD HA HV E. unfold unsteady_new in *. apply bind_Ok in E. destruct E as (sp0 & Esp & E). apply Ok_eq in E. subst s0.
  exists (fun n => mkus (UP n) [] [] [] None None). split.
  { intros n. destruct (each_nth _ _ _ 0%nat sp0 HST) as (X & EX & _); [apply index_Some; exact Esp|]. unfold index. rewrite EX. reflexivity. }
  unfold unsteady_start. cbv zeta. cbn [us_problem us_heap us_num_wake us_wakes us_current us_streamline_points].
  eapply settles_ext; [intros n; rewrite (proj1 (HSC n)); reflexivity|].
  eapply (settles_bind (fun C (c : list nat) => forall n, C n = c)).
  { set (l := seq 0 (Z.to_nat (up_num_steps up))). clearbody l. intros c Ec. exists (fun _ => c), 0%nat. split; [|reflexivity]. intros n _. revert c Ec. induction l as [|k l IH]; intros c Ec; cbn [mapM] in *; [exact Ec|].
    apply bind_Ok in Ec. destruct Ec as (c1 & E1 & Ec). apply bind_Ok in E1. destruct E1 as (sp & E1 & E2). apply bind_Ok in Ec. destruct Ec as (c2 & E3 & Ec).
    destruct (each_nth _ _ _ k sp HST) as (X & EX & HX); [apply index_Some; exact E1|]. unfold index at 1. rewrite EX. cbn [bind]. rewrite (span_same _ _ _ (proj2 HX) n). apply Ok_eq in E2. subst c1. rewrite (IH c2 E3). cbn [bind]. exact Ec. }
  intros C c _ HC. cbv beta. eapply (settles_bind (each flow_step)).
  { refine (settles_mapM (fun U sp => approaching_step approaching_panel U sp) flow_step _ _ _ _ _ HST). intros U sp Hsp (HU & HL). cbv beta.
    assert (HB : approaching_step solid U sp).
    { split; [exact HU|]. pose proof (flying_in _ _ _ _ (fun p Hp => HA sp p Hsp Hp) HL) as HF. eapply each_weaken; [|exact HF]. intros B b _ Hb. eapply flying_weaken; [|exact Hb]. intros P p (H1 & H2). split; [exact H1 | apply area_cross; exact H2]. }
    intros sp1 E1. destruct (init_step_settles _ _ U sp HD HB sp1 E1) as (V & N & EV & HVs). exists V, N. split; [exact EV|]. split; [exact HVs|].
    unfold unsteady_init_step in E1. apply bind_Ok in E1. destruct E1 as (x & _ & E1). apply Ok_eq in E1. subst sp1. cbn [sp_operating_point]. exact (HV sp Hsp). }
  intros S1 st1 _ HS1. cbv beta. eapply (settles_Ok (run_near 0)). constructor; cbn [us_problem us_heap us_wakes us_current up_set_steps up_steady_problems up_delta_time].
  - split; [exact HD | exact HSC].
  - exact PD.
  - exact HS1.
  - intros i Hi. lia.
  - apply each_nil. reflexivity.
  - cbn [app]. eapply each_ext; [intros n; rewrite (HC n); reflexivity|]. apply each_const. intros w Hw. apply in_map_iff in Hw. destruct Hw as (k & <- & _). apply zero_wake_near.
  - discriminate.
  - intros H. exfalso. apply H. reflexivity.
Qed.
Lemma after_settles solve (HS : SolveSpec solve) prescribed UP up n s : created up -> approaching_problem UP up -> 0 < up_delta_time up -> solid_steps up -> viscous up ->
  (n <= length (up_steady_problems up))%nat -> steps_off_edges solve prescribed up n -> after solve prescribed up n s ->
  exists SS N, (forall k, (N <= k)%nat -> after solve prescribed (UP k) n (SS k)) /\ run_near n SS s.
Proof.
  intros HC HP PD HA HV. revert s. induction n as [|n IH]; intros s Hn HR HAf.
  - destruct HAf as (s0 & s1 & E0 & E1 & E). cbn in E. apply Ok_eq in E. subst s1. destruct (start_settles UP up s0 HP PD HA HV E0) as (S0 & N0 & H). destruct (H s E1) as (S1 & N & N1 & HN). exists S1, N. split; [|exact HN].
    intros k Hk. exists (S0 k), (S1 k). split; [apply N0|]. split; [apply N1; exact Hk | reflexivity].
  - pose proof (HR n) as Rn. destruct (created_some up HC ltac:(lia)) as [F HM]. pose proof HAf as HAf0. apply after_S in HAf. destruct HAf as (s' & HAf & Es).
    destruct (IH s' ltac:(lia) ltac:(intros i t Hi; apply HR; lia) HAf) as (SS & N & HSS & HN).
    destruct (after_ran solve HS prescribed F up n s' HM HAf ltac:(lia)) as (s1 & conv & _ & R). destruct R as [R1 R2 R3 R4 _ _ _].
    assert (L1 := Forall2_length _ _ _ R3).
    destruct (unsteady_step_ok solve prescribed F (us_problem s1) conv n s' R1 R4 ltac:(lia)) as (sp & rows & la & Hsp & Erows & _ & Prows & Ela & Sla & _).
    assert (HL : forall sp rows la, index (up_steady_problems (us_problem s')) n = Ok sp -> unsteady_collapse (sp_airplanes sp) = Ok rows ->
     last_step_arrays (num_panels_of (sp_airplanes sp)) n (up_steady_problems (us_problem s')) = Ok la -> num_panels_of (sp_airplanes sp) = length rows /\ length (la_collocations la) = length rows).
    { intros sp' rows' la' Hsp' Erows' Ela'. apply index_Some in Hsp'. assert (sp' = sp) by congruence. subst sp'. assert (rows' = rows) by congruence. subst rows'.
      assert (Ln : num_panels_of (sp_airplanes sp) = length rows).
      { assert (RS : ready_step F sp). { destruct (Forall2_in_r _ _ _ _ (ri_kept _ _ _ _ R4) (nth_error_In _ _ Hsp)) as (sp0 & H0 & HSS0). eapply solved_ready; [exact HSS0 | apply (rp_steps _ _ R1); exact H0]. }
        destruct (ready_count _ _ RS) as [Cn Cn']. apply (f_equal (@length _)) in Prows. rewrite map_length in Prows. congruence. }
      rewrite Ln in Ela'. assert (la' = la) by congruence. subst la'. split; [exact Ln | apply Sla]. }
    assert (HO : forall t, unsteady_step solve prescribed s' n = Ok t -> forall sp w x, nth_error (up_steady_problems (us_problem t)) n = Some sp -> nth_error (us_wakes t) n = Some w ->
     step_points prescribed (us_problem t) n x -> off_edges (vortices_of sp w) x).
    { intros t Et. apply (Rn t ltac:(lia)). assert (t = s) by congruence. subst t. exact HAf0. }
    destruct (step_settles solve HS prescribed SS s' n HN HL HO s Es) as (SS2 & N2 & H2 & HN2). exists SS2, (max N N2). split; [|exact HN2].
    intros k Hk. apply after_S. exists (SS k). split; [apply HSS; lia | apply H2; lia].
Qed.

(** ** Final loads *)
Definition load_near (coefficients : Prop) (U : nat -> load) (l : load) : Prop :=
  vtends (fun n => ld_force (U n)) (ld_force l) /\ vtends (fun n => ld_moment (U n)) (ld_moment l) /\
  (coefficients -> vtends (fun n => ld_force_coefficients (U n)) (ld_force_coefficients l) /\ vtends (fun n => ld_moment_coefficients (U n)) (ld_moment_coefficients l)).
Definition some_or (o : option vec) : vec := match o with Some v => v | None => vzero end.
Lemma loads_of_settles (coefficients : Prop) q A a N : approaching_totals q A a -> (forall n, (N <= n)%nat -> loaded (A n)) ->
  (coefficients -> q <> 0 /\ a_s_ref a <> 0 /\ a_b_ref a <> 0 /\ a_c_ref a <> 0) -> settles (load_near coefficients) (fun n => loads_of (A n)) (loads_of a).
Proof.
  intros ((F & f & EF & Ef & HF) & (M & m & EM & Em & HM) & HC) HN Hc l El. unfold loads_of in El. rewrite Ef, Em in El. destruct (a_force_coefficients a) as [cf|] eqn:Ecf; [|discriminate]. destruct (a_moment_coefficients a) as [cm|] eqn:Ecm; [|discriminate]. apply Ok_eq in El. subst l.
  exists (fun n => mkload (F n) (some_or (a_force_coefficients (A n))) (M n) (some_or (a_moment_coefficients (A n)))), N. split.
  - intros n Hn. destruct (HN n Hn) as (l & El). unfold loads_of in *. rewrite EF, EM in *. destruct (a_force_coefficients (A n)), (a_moment_coefficients (A n)); try discriminate. reflexivity.
  - split; [exact HF|]. split; [exact HM|]. intros C. destruct (Hc C) as (C1 & C2 & C3 & C4). destruct (HC C1 C2 C3 C4) as ((X & x & EX & Ex & HX) & (Y & y & EY & Ey & HY)). cbn [ld_force_coefficients ld_moment_coefficients].
    injection Ex as <-. injection Ey as <-. split; (eapply vtends_ext; [intros n|]); [rewrite EX; reflexivity | exact HX | rewrite EY; reflexivity | exact HY].
Qed.
Lemma mean_near U l : each tends U l -> tends (fun n => mean_of (U n)) (mean_of l).
Proof. intros H. unfold mean_of, Rdiv. apply tends_mult; [apply tends_rsum, H|]. eapply tends_ext; [intros n; rewrite (each_length _ _ _ H); reflexivity|]. apply tends_const. Qed.
Lemma rsum_nonneg' l : (forall x, In x l -> 0 <= x) -> 0 <= rsum l.
Proof. induction l as [|x l IH]; intros H; [rewrite rsum_nil; lra|]. rewrite rsum_cons. pose proof (H x (or_introl eq_refl)). pose proof (IH (fun y Hy => H y (or_intror Hy))). lra. Qed.
Lemma mean_nonneg l : (forall x, In x l -> 0 <= x) -> 0 <= mean_of l.
Proof.
  intros H. unfold mean_of. destruct l as [|x l]; [rewrite rsum_nil; unfold Rdiv; lra|]. apply Rmult_le_pos; [apply rsum_nonneg', H|]. apply Rlt_le, Rinv_0_lt_compat. apply lt_0_INR. cbn. lia.
Qed.
Lemma rms_near U l : each tends U l -> tends (fun n => rms_of (U n)) (rms_of l).
Proof.
  intros H. unfold rms_of. apply tends_sqrt.
  - apply mean_nonneg. intros x Hx. apply in_map_iff in Hx. destruct Hx as (y & <- & _). nra.
  - apply mean_near. refine (each_map tends tends (fun _ x => x * x) (fun x => x * x) _ _ _ H). intros X x _ HX. apply tends_mult; exact HX.
Qed.
Lemma component_near f (HF : forall U l, each tends U l -> tends (fun n => f (U n)) (f l)) U l : each vtends U l -> vtends (fun n => each_component f (U n)) (each_component f l).
Proof.
  intros H. unfold each_component. split; [|split]; cbn [vx vy vz]; apply HF; (refine (each_map vtends tends (fun _ => _) _ _ _ _ H)); intros X x _ HX; apply HX.
Qed.
Lemma each_load_near C f (HF : forall U l, each tends U l -> tends (fun n => f (U n)) (f l)) U l : each (load_near C) U l -> load_near C (fun n => each_load f (U n)) (each_load f l).
Proof.
  intros H. unfold each_load. split; [|split]; cbn [ld_force ld_force_coefficients ld_moment ld_moment_coefficients].
  - apply component_near; [exact HF|]. refine (each_map (load_near C) vtends (fun _ => ld_force) _ _ _ _ H). intros X x _ HX; apply HX.
  - apply component_near; [exact HF|]. refine (each_map (load_near C) vtends (fun _ => ld_moment) _ _ _ _ H). intros X x _ HX; apply HX.
  - intros c. split; (apply component_near; [exact HF|]); [refine (each_map (load_near C) vtends (fun _ => ld_force_coefficients) _ _ _ _ H) | refine (each_map (load_near C) vtends (fun _ => ld_moment_coefficients) _ _ _ _ H)]; intros X x _ HX; apply HX; exact c.
Qed.
Lemma append_near C U f LS l : approaching_final C U f -> load_near C LS l -> approaching_final C (fun n => append_load (U n) (LS n)) (append_load f l).
Proof.
  intros (H1 & H2 & H3) (L1 & L2 & L3). unfold approaching_final, append_load. cbn [fl_forces fl_force_coefficients fl_moments fl_moment_coefficients].
  split; [apply each_app; [exact H1 | apply each_one, L1]|]. split; [apply each_app; [exact H2 | apply each_one, L2]|]. intros c. destruct (H3 c), (L3 c). split; (apply each_app; [assumption | apply each_one; assumption]).
Qed.
Lemma same_final C U f : (forall n : nat, U n = f) -> approaching_final C U f.
Proof.
  intros H. assert (X : forall g : final_loads -> list vec, each vtends (fun n => g (U n)) (g f)) by (intros g; eapply each_ext; [intros n; rewrite (H n); reflexivity|]; apply each_const; intros; apply vtends_const).
  split; [apply X|]. split; [apply X|]. intros _. split; apply X.
Qed.
(** What stays as it is while the final loads are filled in. *)
Definition final_near (C : Prop) (PS0 : nat -> unsteady_problem) (p0 : unsteady_problem) (PS : nat -> unsteady_problem) (p : unsteady_problem) : Prop :=
  (forall n, PS n = up_set_final (up_final (PS n)) (up_final_mean (PS n)) (up_final_rms (PS n)) (PS0 n)) /\ p = up_set_final (up_final p) (up_final_mean p) (up_final_rms p) p0 /\
  approaching_final C (fun n => up_final (PS n)) (up_final p) /\ approaching_final C (fun n => up_final_mean (PS n)) (up_final_mean p) /\ approaching_final C (fun n => up_final_rms (PS n)) (up_final_rms p).
Lemma history_settles n SS s (C : Prop) id : run_near n SS s -> n = length (up_steady_problems (us_problem s)) -> (up_first_results_step (us_problem s) <= up_first_averaging_step (us_problem s))%Z ->
  (C -> with_coefficients (us_problem s)) -> settles (each (load_near C)) (fun k => load_history (us_problem (SS k)) id) (load_history (us_problem s) id).
Proof.
  intros [SC _ _ LD _ _ _ _] Hn HR HC. destruct SC as (_ & SC). unfold load_history.
  eapply settles_ext. { intros k. unfold averaging_steps. rewrite (proj1 (SC k)), (proj1 (proj2 (proj2 (SC k)))). reflexivity. }
  fold (averaging_steps (us_problem s)).
  refine (settles_mapM (fun X (x : nat) => forall k : nat, X k = x) (load_near C) (fun k j => let* sp := index (up_steady_problems (us_problem (SS k))) j in let* a := index (sp_airplanes sp) id in loads_of a) _ (fun _ => averaging_steps (us_problem s)) _ _ _).
  2: { apply each_const. intros; reflexivity. }
  intros X j Hj HX. eapply settles_ext; [intros k; rewrite (HX k); reflexivity|]. clear X HX. intros l El. apply bind_Ok in El. destruct El as (sp & Esp & El). apply bind_Ok in El. destruct El as (a & Ea & El). apply index_Some in Esp. apply index_Some in Ea.
  unfold averaging_steps in Hj. apply in_seq in Hj.
  assert (Lj : (j < n)%nat) by (subst n; apply nth_error_Some; congruence).
  destruct (LD j Lj ltac:(lia)) as (U & sp' & EU & Esp' & HU & (N & HN)). assert (sp' = sp) by congruence. subst sp'.
  destruct (each_nth _ _ _ id a HU Ea) as (A & EA & HA & _).
  assert (HN' : forall k, (N <= k)%nat -> loaded (A k)) by (intros k Hk; apply (proj1 (Forall_forall _ _) (HN k Hk)); exact (nth_error_In _ _ (EA k))).
  destruct (loads_of_settles C (dynamic_pressure (sp_operating_point sp)) A a N HA HN' (fun c => HC c sp a (nth_error_In _ _ Esp) (nth_error_In _ _ Ea)) l El) as (Y & N' & EY & HY).
  - exists Y, N'. split; [|exact HY]. intros k Hk. unfold index. rewrite EU. cbn [bind]. unfold index. rewrite EA. cbn [bind]. apply EY. exact Hk.
Qed.
Lemma set_final_history f m r up id : load_history (up_set_final f m r up) id = load_history up id.
Proof. reflexivity. Qed.
Lemma finalize_airplane_settles n SS s (C : Prop) : run_near n SS s -> n = length (up_steady_problems (us_problem s)) -> (up_first_results_step (us_problem s) <= up_first_averaging_step (us_problem s))%Z ->
  (C -> with_coefficients (us_problem s)) -> forall PS p id, final_near C (fun k => us_problem (SS k)) (us_problem s) PS p ->
  settles (final_near C (fun k => us_problem (SS k)) (us_problem s)) (fun k => finalize_airplane (PS k) id) (finalize_airplane p id).
Proof.
  intros HN Hn HR HC PS p id (E1 & E2 & F1 & F2 & F3). unfold finalize_airplane.
  assert (H1 : forall k, load_history (PS k) id = load_history (us_problem (SS k)) id) by (intros k; rewrite (E1 k); reflexivity).
  assert (H2 : load_history p id = load_history (us_problem s) id) by (rewrite E2; reflexivity). rewrite H2.
  eapply settles_ext; [intros k; rewrite (H1 k); reflexivity|].
  eapply (settles_bind (each (load_near C))); [exact (history_settles n SS s C id HN Hn HR HC)|]. intros H h _ HH. cbv beta.
  assert (EB : forall k, Reqb (up_max_period (PS k)) 0 = Reqb (up_max_period p) 0).
  { intros k. destruct (nw_schedule _ _ _ HN) as (_ & SC). apply eq_true_iff_eq. rewrite !Reqb_true. rewrite (E1 k), E2. cbn [up_set_final up_max_period]. apply (SC k). }
  eapply settles_ext; [intros k; rewrite (EB k); reflexivity|]. destruct (Reqb (up_max_period p) 0).
  - eapply settles_ext; [intros k; rewrite (each_length _ _ _ HH); reflexivity|].
    eapply (settles_bind (load_near C)); [apply settles_index, HH|]. intros L l _ HL. cbv beta. eapply (settles_Ok (final_near C _ _)).
    split; [intros k; rewrite (E1 k) at 4; reflexivity|]. split; [rewrite E2 at 4; reflexivity|]. cbn [up_set_final up_final up_final_mean up_final_rms].
    split; [apply append_near; assumption|]. split; assumption.
  - eapply (settles_Ok (final_near C _ _)).
    split; [intros k; rewrite (E1 k) at 4; reflexivity|]. split; [rewrite E2 at 4; reflexivity|]. cbn [up_set_final up_final up_final_mean up_final_rms].
    split; [exact F1|]. split; (apply append_near; [assumption|]); apply each_load_near; try exact HH; [exact mean_near | exact rms_near].
Qed.
Lemma finalize_settles n SS s (C : Prop) : run_near n SS s -> n = length (up_steady_problems (us_problem s)) -> (up_first_results_step (us_problem s) <= up_first_averaging_step (us_problem s))%Z ->
  (C -> with_coefficients (us_problem s)) ->
  settles (final_near C (fun k => us_problem (SS k)) (us_problem s)) (fun k => finalize (us_problem (SS k))) (finalize (us_problem s)).
Proof.
  intros HN Hn HR HC. unfold finalize. eapply (settles_bind flow_step); [apply settles_index, (nw_steps _ _ _ HN)|]. intros U sp _ ((_ & HU) & _). cbv beta.
  eapply settles_ext; [intros k; rewrite (each_length _ _ _ HU); reflexivity|].
  refine (settles_foldM (fun X (x : nat) => forall k : nat, X k = x) (final_near C _ _) (fun _ => finalize_airplane) _ (fun _ => seq 0 (length (sp_airplanes sp))) _ _ _ (fun k => us_problem (SS k)) _ _).
  - intros PS p X x HP HX. eapply settles_ext; [intros k; rewrite (HX k); reflexivity|]. exact (finalize_airplane_settles n SS s C HN Hn HR HC PS p x HP).
  - apply each_const. intros; reflexivity.
  - destruct (nw_schedule _ _ _ HN) as (_ & SC). split; [intros k; destruct (us_problem (SS k)); reflexivity|]. split; [destruct (us_problem s); reflexivity|].
    split; [|split]; apply same_final; intros k; apply (SC k).
Qed.

(** ** The results *)
Lemma live_vortex P p : live P p -> approaching_vortex P p.
Proof. intros ((H & _) & (X & x & E1 & E2 & HX)). split; [exact H|]. exists X, x. split; [exact E1|]. split; [exact E2|]. apply HX. Qed.
Lemma near_run n SS s SS' s' : run_near n SS s -> (forall k, us_wakes (SS' k) = us_wakes (SS k)) -> us_wakes s' = us_wakes s -> (forall k, us_current (SS' k) = us_current (SS k)) -> us_current s' = us_current s ->
  final_near (with_coefficients (us_problem s')) (fun k => us_problem (SS k)) (us_problem s) (fun k => us_problem (SS' k)) (us_problem s') -> approaching_run n SS' s'.
Proof.
  intros HN W1 W2 C1 C2 (E1 & E2 & F1 & F2 & F3).
  assert (S1 : forall k, up_steady_problems (us_problem (SS' k)) = up_steady_problems (us_problem (SS k))) by (intros k; rewrite (E1 k); reflexivity).
  assert (S2 : up_steady_problems (us_problem s') = up_steady_problems (us_problem s)) by (rewrite E2; reflexivity).
  assert (S3 : up_first_results_step (us_problem s') = up_first_results_step (us_problem s)) by (rewrite E2; reflexivity).
  constructor.
  - rewrite S2. eapply each_ext; [intros k; rewrite (S1 k); reflexivity|]. eapply each_weaken; [|exact (nw_steps _ _ _ HN)]. intros U sp _ ((H1 & H2) & _). split; [exact H1|]. eapply each_weaken; [|exact H2]. intros A a _ HA. eapply flying_weaken; [|exact HA]. exact live_vortex.
  - intros i Hi Hr. rewrite S3 in Hr. destruct (nw_loads _ _ _ HN i Hi Hr) as (U & sp & EU & Esp & H & _). exists U, sp. split; [intros k; rewrite (S1 k); apply EU|]. split; [rewrite S2; exact Esp | exact H].
  - rewrite W2. eapply each_ext; [intros k; rewrite (W1 k); reflexivity|]. eapply each_weaken; [|exact (nw_wakes _ _ _ HN)]. intros A a _ HA. apply HA.
  - intros i sp w XS x Hi Hsp Hw HX HO. rewrite S2 in Hsp. rewrite W2 in Hw. unfold unsteady_solution_velocity. rewrite C2. destruct (nw_velocity _ _ _ HN i Hi sp w XS x Hsp Hw HX HO) as (VS & v & EV & Ev & HV).
    exists VS, v. split; [intros k; rewrite (C1 k); apply EV|]. split; [exact Ev | exact HV].
  - exact F1.
  - exact F2.
  - exact F3.
Qed.
Lemma near_itself n SS s C : run_near n SS s -> final_near C (fun k => us_problem (SS k)) (us_problem s) (fun k => us_problem (SS k)) (us_problem s).
Proof.
  intros HN. destruct (nw_schedule _ _ _ HN) as (_ & SC). split; [intros k; destruct (us_problem (SS k)); reflexivity|]. split; [destruct (us_problem s); reflexivity|].
  split; [|split]; apply same_final; intros k; apply (SC k).
Qed.
Lemma unsteady_after_continuous solve (HS : SolveSpec solve) prescribed UP up n s : created up -> approaching_problem UP up -> 0 < up_delta_time up -> solid_steps up -> viscous up ->
  (n <= length (up_steady_problems up))%nat -> steps_off_edges solve prescribed up n -> after solve prescribed up n s ->
  exists SS N, (forall k, (N <= k)%nat -> after solve prescribed (UP k) n (SS k)) /\ approaching_run n SS s.
Proof.
  intros HC HP PD HA HV Hn HO HAf. destruct (after_settles solve HS prescribed UP up n s HC HP PD HA HV Hn HO HAf) as (SS & N & H1 & H2). exists SS, N. split; [exact H1|].
  apply (near_run n SS s SS s H2); try reflexivity. exact (near_itself n SS s _ H2).
Qed.
Lemma unsteady_run_continuous solve (HS : SolveSpec solve) prescribed (lines : bool) UP up s : created up -> approaching_problem UP up -> 0 < up_delta_time up -> solid_steps up -> viscous up ->
  steps_off_edges solve prescribed up (length (up_steady_problems up)) -> finished solve prescribed lines up s ->
  exists SS N, (forall k, (N <= k)%nat -> finished solve prescribed lines (UP k) (SS k)) /\ approaching_run (length (up_steady_problems up)) SS s.
Proof.
  intros HC HP PD HA HV HO HF. destruct (finished_meshed _ _ _ up s HC HF) as [F HM]. destruct (finished_inv _ _ _ _ _ F HF HM) as (sf & f & m & rr & HAf & Efin & EP' & Es & _ & _ & Ew & Ec & _).
  pose proof (after_problem solve HS prescribed up _ sf F HAf HM (le_n _)) as EP.
  destruct (after_settles solve HS prescribed UP up _ sf HC HP PD HA HV (le_n _) HO HAf) as (SS & N & H1 & H2).
  destruct (created_fields up HC) as (_ & _ & _ & FA & FR & HZ).
  assert (LEN : length (up_steady_problems up) = length (up_steady_problems (us_problem sf))).
  { destruct (after_ran solve HS prescribed F up _ sf HM HAf (le_n _)) as (s1 & conv & _ & R). destruct R as [R1 R2 R3 R4 _ _ _]. rewrite (Forall2_length _ _ _ R3). exact (Forall2_length _ _ _ (ri_kept _ _ _ _ R4)). }
  assert (HR : (up_first_results_step (us_problem sf) <= up_first_averaging_step (us_problem sf))%Z).
  { rewrite EP. cbn [up_set_steps up_first_results_step up_first_averaging_step]. rewrite FR. destruct (up_only_final_results up); [lia|]. rewrite FA. unfold first_averaging_step. destruct (Reqb (up_max_period up) 0); [|lia].
    pose proof (mp_some _ _ HM). pose proof (mp_size _ _ HM). lia. }
  assert (HCo : with_coefficients (us_problem s) -> with_coefficients (us_problem sf)) by (unfold with_coefficients; rewrite Es; auto).
  destruct (finalize_settles _ SS sf (with_coefficients (us_problem s)) H2 LEN HR HCo _ Efin) as (PS & N2 & E2 & HF2).
  assert (HL : lines = true -> us_current sf <> None).
  { intros ->. intros Eu. destruct HF as (s0 & E0 & E). unfold unsteady_run, unsteady_run_with in E. destruct HAf as (s0a & s1a & A0 & A1 & A2). assert (s0a = s0) by congruence. subst s0a. rewrite A1 in E. cbn [bind] in E.
    assert (EN1 : Z.to_nat (up_num_steps (us_problem s1a)) = length (up_steady_problems up)).
    { unfold unsteady_new in A0. apply bind_Ok in A0. destruct A0 as (sp & _ & A0). apply Ok_eq in A0. subst s0. unfold unsteady_start in A1. apply bind_Ok in A1. destruct A1 as (x & _ & A1). apply bind_Ok in A1. destruct A1 as (y & _ & A1). apply Ok_eq in A1. subst s1a.
      cbn [us_problem up_set_steps up_num_steps]. rewrite <- (mp_size _ _ HM), Nat2Z.id. reflexivity. }
    rewrite EN1, A2 in E. cbn [bind] in E. rewrite Efin in E. cbn [bind] in E. rewrite Eu in E. discriminate E. }
  exists (fun k => mkus (PS k) (us_heap (SS k)) (us_num_wake (SS k)) (us_wakes (SS k)) (us_current (SS k))
     (if lines then match us_current (SS k) with Some c => Some (calculate_streamlines (current_velocity c) (cu_seeds c) 25 (2 / 100)) | None => None end else us_streamline_points (SS k))), (max N N2). split.
  - intros k Hk. destruct (H1 k ltac:(lia)) as (s0 & s1 & A0 & A1 & A2). exists s0. split; [exact A0|]. unfold unsteady_run, unsteady_run_with. rewrite A1. cbn [bind].
    assert (EN1 : Z.to_nat (up_num_steps (us_problem s1)) = length (up_steady_problems up)).
    { unfold unsteady_new in A0. apply bind_Ok in A0. destruct A0 as (sp & _ & A0). apply Ok_eq in A0. subst s0. unfold unsteady_start in A1. apply bind_Ok in A1. destruct A1 as (x & _ & A1). apply bind_Ok in A1. destruct A1 as (y & _ & A1). apply Ok_eq in A1. subst s1.
      cbn [us_problem up_set_steps up_num_steps]. destruct HP as ((_ & SC) & _). rewrite (proj1 (SC k)), <- (mp_size _ _ HM), Nat2Z.id. reflexivity. }
    rewrite EN1, A2. cbn [bind]. rewrite (E2 k ltac:(lia)). cbn [bind]. destruct lines; [|reflexivity]. pose proof (nw_current _ _ _ H2 (HL eq_refl) k) as Hc. destruct (us_current (SS k)); [reflexivity | contradiction].
  - apply (near_run _ SS sf); cbn [us_problem us_wakes us_current]; auto.
Qed.
