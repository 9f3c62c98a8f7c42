(** The convergence analyses of the solvers. *)
From Coq Require Import Lra Lia.
From Verif Require Import M_Convergence S_Convergence S_Geometry S_Wing S_Solve.
From Verif Require Import L_Base L_Loads L_Geometry L_Frames L_Search L_Convergence L_Remesh L_Example L_Gaps.

Lemma masked_chosen mask l r : masked mask l = Ok r -> length mask = length l /\ r = chosen mask l.
Proof.
  unfold masked. destruct (Nat.eqb_spec (length mask) (length l)) as [E|]; [|discriminate]. intros H. apply Ok_eq in H. split; [exact E|]. subst r. clear E. revert l.
  induction mask as [|b mask IH]; intros [|x l]; try reflexivity. cbn [combine filter chosen fst]. destruct b; cbn [map snd]; rewrite IH; reflexivity.
Qed.
Lemma compared_of static mask up n v : mapM (final_coefficients static mask up) (seq 0 n) = Ok v ->
  length v = n /\ compared mask (if static then up_final up else up_final_rms up) v.
Proof.
  intros H. apply mapM_Forall2 in H. pose proof (Forall2_length _ _ _ H) as L. rewrite seq_length in L. split; [congruence|].
  intros k row Hk. destruct (Forall2_nth _ _ _ H _ _ Hk) as (i & Hi & E).
  assert (i = k). { rewrite nth_error_seq0 in Hi. destruct (Nat.ltb k n); congruence. } subst i.
  unfold final_coefficients in E. apply bind_Ok in E. destruct E as (f & Ef & E). apply bind_Ok in E. destruct E as (m & Em & E).
  apply masked_chosen in E. destruct E as [E1 E2]. split; [exact E1|]. exists f, m. rewrite <- !index_Some. auto.
Qed.

Section Steady.
Variables (pchip : list (R * R) -> result (R -> R)) (database : list ascii -> option (list R)).
Variable solve : list (list R) -> list R -> result (list R).
Variables (ref : steady_problem) (solver_type : string) (ars chords : Z * Z) (criteria : R).
Notation trial := (steady_trial pchip database solve solver_type ref).
Notation analysis := (analyze_steady_convergence pchip database solve ref solver_type ars chords criteria).
Notation ok := (in_ranges (fst ars) (snd ars) (fst chords) (snd chords)).
Notation c := (results2 trial).
Lemma results2_Ok ar n v : trial ar n = Ok v -> v = c ar n.
Proof. intros H. unfold results2. rewrite H. reflexivity. Qed.
Section Nonzero.
Hypothesis HA : sp_airplanes ref <> [].
Hypothesis HZ : forall ar n p, ok ar n -> In p (c ar n) -> fst p <> 0 /\ snd p <> 0.
Lemma steady_regular : forall ar n v, ok ar n -> trial ar n = Ok v -> v = c ar n /\ regular (Datatypes.S (length (sp_airplanes ref) - 1)) v.
Proof.
  intros ar n v HO H. pose proof (results2_Ok _ _ _ H) as E. split; [exact E|]. split.
  - apply steady_trial_count in H. rewrite H. destruct (sp_airplanes ref); [congruence|]. cbn [length]. lia.
  - rewrite E. apply Forall_forall. intros p Hp. exact (HZ ar n p HO Hp).
Qed.
Lemma steady_analysis_found a b : analysis = Ok (Some (a, b)) <->
  exists ar n, reached criteria (fst ars) (snd ars) (fst chords) (snd chords) trial c ar n /\ ran trial c ar n /\
    acceptable criteria (fst ars) (snd ars) (fst chords) (snd chords) c ar n /\ answer criteria (fst ars) (fst chords) (snd chords) c ar n a b.
Proof. exact (steady_found _ _ _ _ _ _ _ _ steady_regular a b). Qed.
Lemma steady_analysis_not_found : analysis = Ok None <->
  forall ar n, ok ar n -> ran trial c ar n /\ ~ acceptable criteria (fst ars) (snd ars) (fst chords) (snd chords) c ar n.
Proof. exact (steady_not_found _ _ _ _ _ _ _ _ steady_regular). Qed.
Lemma steady_analysis_failed e : analysis = Err e <->
  exists ar n, reached criteria (fst ars) (snd ars) (fst chords) (snd chords) trial c ar n /\ trial ar n = Err e.
Proof. exact (steady_failed _ _ _ _ _ _ _ _ steady_regular e). Qed.
End Nonzero.
Lemma steady_analysis_ran a b : analysis = Ok (Some (a, b)) -> ok a b /\ exists v, trial a b = Ok v.
Proof. exact (steady_answer_ran criteria _ _ _ _ trial a b). Qed.
Lemma steady_analysis_hopeless : (forall ar n v, ok ar n -> trial ar n <> Ok v) -> (exists ar n, ok ar n) -> exists e, analysis = Err e.
Proof.
  intros H (ar & n & HO). destruct analysis as [[[a b]|]|e] eqn:E; [| |eauto].
  - apply steady_analysis_ran in E. destruct E as (HO' & v & Hv). elim (H _ _ _ HO' Hv).
  - assert (G : forall ar n v, ok ar n -> trial ar n = Ok v -> v = c ar n /\ regular 1 v) by (intros ar' n' v HO' Hv; elim (H _ _ _ HO' Hv)).
    destruct (proj1 (steady_not_found criteria _ _ _ _ trial c 0 G) E ar n HO) as [HR _]. elim (H _ _ _ HO HR).
Qed.
Lemma steady_analysis_empty : (forall ar n, ~ ok ar n) -> analysis = Ok None.
Proof. intros H. apply (steady_not_found criteria _ _ _ _ trial c 0); [intros ar n v HO; elim (H _ _ HO) | intros ar n HO; elim (H _ _ HO)]. Qed.
Lemma bad_solver_type : solver_type <> "steady horseshoe vortex lattice method"%string -> solver_type <> "steady ring vortex lattice method"%string ->
  (exists ar n, ok ar n) -> exists e, analysis = Err e.
Proof.
  intros H1 H2. apply steady_analysis_hopeless. intros ar n v _ H. unfold steady_trial in H. apply bind_Ok in H. destruct H as (l & _ & H).
  unfold run_steady in H. apply String.eqb_neq in H1, H2. rewrite H1, H2 in H. discriminate H.
Qed.
Lemma copy_sections_vertical n ar l l' i s t : nth_error l i = Some s -> nth_error l (S i) = Some t -> cs_y_le t = cs_y_le s -> copy_sections pchip database n ar l <> Ok l'.
Proof.
  intros Hs Ht E. revert i l' Hs Ht. induction l as [|x rest IH]; intros i l' Hs Ht H; [destruct i; discriminate Hs|].
  cbn [copy_sections] in H. apply bind_Ok in H. destruct H as (z & Ez & H). apply bind_Ok in H. destruct H as (s' & _ & H). apply bind_Ok in H. destruct H as (rest' & Er & _).
  destruct i as [|i]; [|exact (IH i rest' Hs Ht Er)]. cbn [nth_error] in Hs, Ht. apply Some_eq in Hs. subst x. destruct rest as [|y rest]; [discriminate Ht|].
  apply Some_eq in Ht. subst y. cbn [spanwise_after] in Ez. rewrite same_y_fails in Ez by exact E. discriminate Ez.
Qed.
Lemma vertical_strip a w i s t : In a (sp_airplanes ref) -> In w (a_wings a) -> nth_error (w_sections w) i = Some s -> nth_error (w_sections w) (S i) = Some t ->
  cs_y_le t = cs_y_le s -> (exists ar n, ok ar n) -> exists e, analysis = Err e.
Proof.
  intros Ha Hw Hs Ht E. apply steady_analysis_hopeless. intros ar n v _ H. unfold steady_trial in H. apply bind_Ok in H. destruct H as (l & El & _).
  apply mapM_Forall2 in El. assert (G : forall X Y (f : X -> result Y) x q q', Forall2 (fun x y => f x = Ok y) q q' -> In x q -> exists y, f x = Ok y).
  { clear. intros X Y f x q q' HF. induction HF as [|x0 y0 q q' H0 HF IH]; intros Hin; [destruct Hin|]. destruct Hin as [<-|Hin]; eauto. }
  destruct (G _ _ _ _ _ _ El Ha) as (a' & Ea). unfold copy_airplane in Ea. apply bind_Ok in Ea. destruct Ea as (ws & Ews & _). apply mapM_Forall2 in Ews.
  destruct (G _ _ _ _ _ _ Ews Hw) as (w' & Ew). unfold copy_wing in Ew. apply bind_Ok in Ew. destruct Ew as (l' & El' & _).
  exact (copy_sections_vertical _ _ _ _ _ _ _ Hs Ht E El').
Qed.
(** What is run. *)
Lemma steady_trial_meshes ar n v : interpolating pchip -> (forall a w s, In a (sp_airplanes ref) -> In w (a_wings a) -> In s (w_sections w) -> built_airfoil pchip database (cs_airfoil s)) ->
  trial ar n = Ok v -> exists airplanes solved, Forall2 (remeshed_airplane n ar) (sp_airplanes ref) airplanes /\
    run_steady solve solver_type (mksteady airplanes (sp_operating_point ref)) = Ok solved /\
    Forall2 (fun a p => exists f m, a_force_coefficients a = Some f /\ a_moment_coefficients a = Some m /\ p = (vnorm f, vnorm m)) solved v.
Proof.
  intros HI HB H. unfold steady_trial in H. apply bind_Ok in H. destruct H as (l & El & H). apply bind_Ok in H. destruct H as (s & Es & H). exists l, s.
  split; [|split; [exact Es|]].
  - refine (mapM_Forall2_in _ (fun a => In a (sp_airplanes ref)) _ _ _ _ _ El); [apply Forall_forall; auto|]. intros a a' Ha. apply copy_airplane_remeshed; [exact HI|].
    apply Forall_forall. intros w Hw. apply Forall_forall. intros x Hx. exact (HB a w x Ha Hw Hx).
  - apply mapM_Forall2 in H. revert H. apply Forall2_impl. intros a p Hp. apply norms_spec, Hp.
Qed.
End Steady.

(** ** Results that are zero *)
Lemma zero_moments_hide : exists trial : Z -> Z -> result (list (R * R)),
  (forall ar n, exists v, trial ar n = Ok v) /\
  steady_search trial 1 1 1 3 50 = Ok (Some (1, 1)%Z) /\
  ~ exists ar n, in_ranges 1 1 1 3 ar n /\ acceptable 50 1 1 1 3 (results2 trial) ar n.
Proof.
  exists (fun _ n => Ok [(1, 0); (1, IZR (2 ^ n))]). split; [eauto|]. split.
  - unfold steady_search. change (range_down 1 1) with [1%Z]. change (range_up 1 3) with [1%Z; 2%Z; 3%Z].
    assert (E : forall x y, y <> 0 -> steady_change [(1, 0); (1, x)] [(1, 0); (1, y)] = Ok (Percent 0)).
    { intros x y Hy. unfold steady_change. cbn [map fst snd map2 py_max_change bind fold_left]. unfold percent_change. rdec.
      replace (Reqb y 0) with false by (symmetry; apply Reqb_false; exact Hy). replace (100 * Rabs ((1 - 1) / 1)) with 0 by (replace ((1 - 1) / 1) with 0 by field; rewrite Rabs_R0; ring).
      cbn [bind]. unfold max_change. cbn [change_ltb]. rdec. cbn [change_ltb]. reflexivity. }
    cbn [enumerate length seq combine list_prod map app]. cbn [steady_loop bind].
    unfold change_from. cbn [Nat.ltb Nat.leb bind length Nat.eqb Nat.sub orb below change_ltb andb Z.eqb Pos.eqb]. unfold set2. cbn [Nat.eqb andb].
    change (2 ^ 2)%Z with 4%Z. change (2 ^ 1)%Z with 2%Z. rewrite E by lra. cbn [bind below change_ltb]. unfold below. cbn [change_ltb]. rdec. reflexivity.
  - intros (ar & n & [[H1 H2] [H3 H4]] & [_ HA]). destruct HA as [[HN [_ HS]]|HA]; [|lia]. unfold results2, close in HS. cbn [map snd] in HS.
    inversion HS as [|x y l l' _ HS1]; subst. inversion HS1 as [|x y l l' HX _]; subst.
    assert (HN' : n = 2%Z \/ n = 3%Z) by lia. destruct HN' as [->| ->]; [change (2 ^ 2)%Z with 4%Z in HX; change (2 ^ (2 - 1))%Z with 2%Z in HX | change (2 ^ 3)%Z with 8%Z in HX; change (2 ^ (3 - 1))%Z with 4%Z in HX];
      rewrite !Rabs_pos_eq in HX by lra; lra.
Qed.
Lemma zero_loads_never_settle : exists trial : Z -> Z -> result (list (R * R)),
  (forall ar n, trial ar n = Ok [(0, 0)]) /\ steady_search trial 4 1 3 4 5 = Ok None.
Proof.
  exists (fun _ _ => Ok [(0, 0)]). split; [reflexivity|]. unfold steady_search. change (range_down 4 1) with [4%Z; 3%Z; 2%Z; 1%Z]. change (range_up 3 4) with [3%Z; 4%Z].
  cbn [enumerate length seq combine list_prod map app].
  cbn [steady_loop bind]. unfold change_from. cbn [Nat.ltb Nat.leb bind length Nat.eqb orb below change_ltb andb Z.eqb Pos.eqb]. unfold steady_change, set2.
  cbn [Nat.sub Nat.eqb andb map fst snd map2 py_max_change bind fold_left]. unfold percent_change. rdec. cbn [max_change change_ltb]. unfold max_change, below. cbn [change_ltb orb andb]. reflexivity.
Qed.

(** ** Unsteady *)
Section Unsteady.
Variables (pchip : list (R * R) -> result (R -> R)) (database : list ascii -> option (list R)).
Variable solve : list (list R) -> list R -> result (list R).
Variables (ref : unsteady_problem) (prescribed free : bool) (cycles chords_long ars chords : Z * Z) (mask : option (list bool)) (criteria period : R).
Let used : list bool := match mask with Some l => l | None => repeat true 6 end.
Notation analysis := (analyze_unsteady_convergence pchip database solve ref prescribed free cycles chords_long ars chords mask criteria).
Notation static := (Reqb period 0).
Notation lengths := (if static then chords_long else cycles).
Notation trial := (unsteady_trial pchip database solve used static (up_movement ref)).
Notation ok := (in_ranges4 prescribed free (fst lengths) (snd lengths) (fst ars) (snd ars) (fst chords) (snd chords)).
Notation c := (results4 trial).
Hypothesis HP : mv_max_period (up_movement ref) = Ok period.
Lemma unsteady_analysis_search : analysis = unsteady_search trial prescribed free (fst lengths) (snd lengths) (fst ars) (snd ars) (fst chords) (snd chords) criteria.
Proof. unfold analyze_unsteady_convergence. cbn zeta. rewrite HP. reflexivity. Qed.
Lemma unsteady_analysis_ran w l a b : analysis = Ok (Some (w, l, a, b)) -> ok w l a b /\ exists v, trial w l a b = Ok v.
Proof. rewrite unsteady_analysis_search. exact (unsteady_answer_ran criteria _ _ _ _ _ _ _ _ trial c 0 w l a b). Qed.
Section Sized.
Hypothesis HA : mv_airplane_movements (up_movement ref) <> [].
Hypothesis HM : In true used.
Lemma unsteady_sized : forall w l ar n v, ok w l ar n -> trial w l ar n = Ok v ->
  v = c w l ar n /\ sized (length (mv_airplane_movements (up_movement ref)) * length (filter (fun b => b) used) - 1) v.
Proof.
  intros w l ar n v _ H. split; [unfold results4; rewrite H; reflexivity|]. unfold sized. rewrite (unsteady_trial_count _ _ _ _ _ _ _ _ _ _ _ H).
  assert (length (mv_airplane_movements (up_movement ref)) <> 0)%nat by (destruct (mv_airplane_movements (up_movement ref)); [congruence | discriminate]).
  assert (length (filter (fun b => b) used) <> 0)%nat by (assert (Hin : In true (filter (fun b => b) used)) by (apply filter_In; auto); destruct (filter _ used); [destruct Hin | discriminate]).
  nia.
Qed.
Lemma unsteady_analysis_found w' l' a b : analysis = Ok (Some (w', l', a, b)) <->
  exists w l ar n, reached4 criteria prescribed free (fst lengths) (snd lengths) (fst ars) (snd ars) (fst chords) (snd chords) trial c w l ar n /\ ran4 trial c w l ar n /\
    acceptable4 criteria prescribed free (fst lengths) (snd lengths) (fst ars) (snd ars) (fst chords) (snd chords) c w l ar n /\
    answer4 criteria prescribed (fst lengths) (snd lengths) (fst ars) (fst chords) (snd chords) c w l ar n w' l' a b.
Proof. rewrite unsteady_analysis_search. exact (unsteady_found _ _ _ _ _ _ _ _ _ _ _ _ unsteady_sized w' l' a b). Qed.
Lemma unsteady_analysis_not_found : analysis = Ok None <->
  forall w l ar n, ok w l ar n -> ran4 trial c w l ar n /\
    ~ acceptable4 criteria prescribed free (fst lengths) (snd lengths) (fst ars) (snd ars) (fst chords) (snd chords) c w l ar n.
Proof. rewrite unsteady_analysis_search. exact (unsteady_not_found _ _ _ _ _ _ _ _ _ _ _ _ unsteady_sized). Qed.
Lemma unsteady_analysis_failed e : analysis = Err e <->
  exists w l ar n, reached4 criteria prescribed free (fst lengths) (snd lengths) (fst ars) (snd ars) (fst chords) (snd chords) trial c w l ar n /\ trial w l ar n = Err e.
Proof. rewrite unsteady_analysis_search. exact (unsteady_failed _ _ _ _ _ _ _ _ _ _ _ _ unsteady_sized e). Qed.
End Sized.
Lemma unsteady_trial_meshes w l ar n v : interpolating pchip ->
  (forall m wm s, In m (mv_airplane_movements (up_movement ref)) -> In wm (am_wings m) -> In s (wm_sections wm) -> built_airfoil pchip database (cs_airfoil (sm_base s))) ->
  trial w l ar n = Ok v -> exists ams m up s t, Forall2 (remeshed_airplane_movement n ar) (mv_airplane_movements (up_movement ref)) ams /\
    new_movement ams (mv_op_movement (up_movement ref)) None (if static then None else Some (IZR l)) (if static then Some (IZR l) else None) None = Ok m /\
    new_unsteady_problem m true = Ok up /\ unsteady_new up = Ok s /\ unsteady_run solve w false s = Ok t /\
    length v = length ams /\ compared used (if static then up_final (us_problem t) else up_final_rms (us_problem t)) v.
Proof.
  intros HI HB H. unfold unsteady_trial in H. apply bind_Ok in H. destruct H as (ams & Ea & H). apply bind_Ok in H. destruct H as (m & Em & H).
  apply bind_Ok in H. destruct H as (up & Eu & H). apply bind_Ok in H. destruct H as (s & Es & H). apply bind_Ok in H. destruct H as (t & Et & H).
  exists ams, m, up, s, t. split; [|split; [unfold convergence_movement in Em; destruct static; exact Em | repeat (split; [assumption|]); apply compared_of; exact H]].
  refine (mapM_Forall2_in _ (fun a => In a (mv_airplane_movements (up_movement ref))) _ _ _ _ _ Ea); [apply Forall_forall; auto|]. intros a a' Ha. apply copy_airplane_movement_remeshed; [exact HI|].
  apply Forall_forall. intros x Hx. apply Forall_forall. intros y Hy. exact (HB a x y Ha Hx Hy).
Qed.
End Unsteady.
