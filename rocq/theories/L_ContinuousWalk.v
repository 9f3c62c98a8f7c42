(** Walks over airplanes that come closer and closer to given ones, with their wakes. *)
From Coq Require Import List Lia Lra ZArith Reals.
From Verif Require Import M_Loads M_Horseshoe M_SteadyRing M_Unsteady S_Geometry S_Solve S_Loads S_Mirror S_Solvable S_Size S_Unsteady S_UnsteadyRun S_Continuous S_ContinuousUnsteady
  L_Base L_Rotations L_Loads L_Aero L_Horseshoe L_SteadyRing L_RingLegs L_Mirror L_Solvable L_Size L_Limits L_Continuous L_ContinuousRun L_ContinuousRing.
Import ListNotations.
Local Open Scope R_scope.

Lemma flying_approaching T A a : flying_airplane T A a -> approaching_airplane T A a.
Proof. intros (H1 & H2 & H3 & H4 & H5 & HW). repeat (split; [assumption|]). eapply each_weaken; [|exact HW]. intros W w _ H. apply H. Qed.
Lemma all_approaching T L l : each (flying_airplane T) L l -> each (approaching_airplane T) L l.
Proof. apply each_weaken. intros A a _. apply flying_approaching. Qed.
Lemma wing_weaken (T T' : (nat -> panel) -> panel -> Prop) W w : (forall P p, T P p -> T' P p) -> flying_wing T W w -> flying_wing T' W w.
Proof. intros HT ((Hs & HR) & Hw). split; [|exact Hw]. split; [exact Hs|]. eapply each_weaken; [|exact HR]. intros R r _ Hr. eapply each_weaken; [|exact Hr]. intros P p _. apply HT. Qed.
Lemma flying_weaken (T T' : (nat -> panel) -> panel -> Prop) A a : (forall P p, T P p -> T' P p) -> flying_airplane T A a -> flying_airplane T' A a.
Proof. intros HT (H1 & H2 & H3 & H4 & H5 & HW). repeat (split; [assumption|]). eapply each_weaken; [|exact HW]. intros W w _. apply wing_weaken, HT. Qed.
Lemma flying_in (T : (nat -> panel) -> panel -> Prop) (C : panel -> Prop) L l : (forall p, In p (all_panels l) -> C p) ->
  each (flying_airplane T) L l -> each (flying_airplane (fun P p => T P p /\ C p)) L l.
Proof.
  intros HC H. eapply each_weaken; [|exact H]. intros A a Ha (H1 & H2 & H3 & H4 & H5 & HW). repeat (split; [assumption|]). eapply each_weaken; [|exact HW]. intros W w Hw ((Hs & HR) & He). split; [|exact He]. split; [exact Hs|]. eapply each_weaken; [|exact HR].
  intros R r Hr Rr. eapply each_weaken; [|exact Rr]. intros P p Hp HP. split; [exact HP|]. apply HC, in_all_panels. exists a. split; [exact Ha|]. apply in_airplane_panels. exists w. split; [exact Hw|]. unfold ravel. apply in_concat. eauto.
Qed.
Lemma flying_update {B} (TP TP' : (nat -> panel) -> panel -> Prop) (TB : (nat -> B) -> B -> Prop) f g L l BS bs :
  (forall P p K b, TP P p -> TB K b -> settles TP' (fun n => f n (P n) (K n)) (g p b)) -> each (flying_airplane TP) L l -> each TB BS bs ->
  settles (each (flying_airplane TP')) (fun n => update_panels (f n) (L n) (BS n)) (update_panels g l bs).
Proof.
  intros HF HL HB. unfold update_panels.
  apply (settles_bind (used (each (flying_airplane TP')) TB) _ (fun n => consume (consume_airplane (f n)) (L n) (BS n)) _ (fun _ r => Ok (fst r))); [|intros u r _ (H & _); apply (settles_Ok (each (flying_airplane TP')) (fun n => fst (u n))), H].
  apply (settles_consume (flying_airplane TP) TB); [|exact HL | exact HB]. clear L l BS bs HL HB. intros A a BS bs (H1 & H2 & H3 & H4 & H5 & HW) HB. unfold consume_airplane.
  apply (settles_bind (used (each (flying_wing TP')) TB) _ (fun n => consume (consume_wing (f n)) (a_wings (A n)) (BS n)) _ (fun n r => Ok (a_set_wings (fst r) (A n), snd r)));
    [|intros u r _ (H & Hr); apply (settles_Ok (used (flying_airplane TP') TB) (fun n => (a_set_wings (fst (u n)) (A n), snd (u n)))); split; [repeat (split; [assumption|]); exact H | exact Hr]].
  apply (settles_consume (flying_wing TP) TB); [|exact HW | exact HB]. clear A a BS bs H1 H2 H3 H4 H5 HW HB. intros W w BS bs ((Hs & HW) & Hv & Hn) HB. unfold consume_wing.
  apply (settles_bind (used (each (each TP')) TB) _ (fun n => consume (consume (consume_panel (f n))) (w_panels (W n)) (BS n)) _ (fun n r => Ok (w_set_panels (fst r) (W n), snd r)));
    [|intros u r _ (H & Hr); apply (settles_Ok (used (flying_wing TP') TB) (fun n => (w_set_panels (fst (u n)) (W n), snd (u n)))); split; [split; [split; [exact Hs | exact H] | split; [exact Hv | exact Hn]] | exact Hr]].
  apply (settles_consume (each TP) TB); [|exact HW | exact HB]. clear W w BS bs Hs HW Hv Hn HB. intros R r BS bs HR HB.
  apply (settles_consume TP TB TP'); [|exact HR | exact HB]. clear R r BS bs HR HB. intros P p BS bs HP HB. unfold consume_panel.
  destruct HB as [BS E|BS K bs b bs' E HK HB]; [apply settles_Err|]. eapply settles_ext; [intros n; rewrite E; reflexivity|].
  apply (settles_bind TP' (used TP' TB) (fun n => f n (P n) (K n)) _ (fun n q => Ok (q, bs n))); [apply HF; assumption|].
  intros Q q _ HQ. apply (settles_Ok (used TP' TB) (fun n => (Q n, bs n))). split; assumption.
Qed.
(** ** Panels with their vortices *)
Definition whole_ring (u : nat -> ring_vortex) (r : ring_vortex) : Prop := approaching_ring u r /\ ring_tends u r.
Definition live (u : nat -> panel) (p : panel) : Prop := solid u p /\ present whole_ring (fun n => p_ring_vortex (u n)) (p_ring_vortex p).
Lemma live_strength u p : live u p -> with_strength ring_strength u p.
Proof.
  intros ((HP & HC) & R & r & E1 & E2 & (H & _) & _). split; [exact HP|]. split; [exact HC|]. exists (fun n => rv_strength (R n)), (rv_strength r).
  unfold ring_strength. rewrite E2. split; [intros n; rewrite E1; reflexivity | split; [reflexivity | exact H]].
Qed.
Lemma new_whole_ring FL fl FR fr BL bl BR br G g : vtends FL fl -> vtends FR fr -> vtends BL bl -> vtends BR br -> tends G g ->
  whole_ring (fun n => new_ring (FL n) (FR n) (BL n) (BR n) (G n)) (new_ring fl fr bl br g).
Proof.
  intros H1 H2 H3 H4 HG. split; [split; [exact HG | split; [exact (tends_const 0) | split; [exact H1 | split; [exact H2 | split; assumption]]]]|].
  unfold ring_tends, new_ring; cbn [rv_right_leg rv_front_leg rv_left_leg]. split; [|split]; apply new_leg; assumption.
Qed.
Lemma flying_process O op F f M m L l : approaching_op O op -> each vtends F f -> each vtends M m -> each (flying_airplane live) L l ->
  settles (each (fun U a => approaching_solution (dynamic_pressure op) ring_strength U a /\ flying_airplane live U a)) (fun n => process_forces (O n) (F n) (M n) (L n)) (process_forces op f m l).
Proof.
  intros HO HF HM HL. pose proof (mtends_trans _ _ (op_rotation O op HO)) as HR. pose proof (op_pressure O op HO) as HQ.
  set (rot := fun n => mtrans (rotation_wind_to_geometry (O n))) in *. set (rot0 := mtrans (rotation_wind_to_geometry op)) in *. set (q := fun n => dynamic_pressure (O n)) in *. set (q0 := dynamic_pressure op) in *.
  set (TP' := fun v p => live v p /\ approaching_loads q0 v p).
  set (TB := fun (K : nat -> vec * vec) (b : vec * vec) => exists x y, (forall n, K n = (x n, y n)) /\ vtends x (fst b) /\ vtends y (snd b)).
  unfold process_forces. cbv zeta.
  apply (settles_bind (each (flying_airplane TP')) _
    (fun n => update_panels (fun p fm => Ok (p_set_loads (fst fm) (snd fm) (mvmul (rot n) (fst fm)) (mvmul (rot n) (snd fm)) (q n) p)) (L n) (combine (F n) (M n))) _
    (fun n l' => mapM (airplane_totals (rot n) (q n)) l')).
  - apply (flying_update live TP' TB (fun n p fm => Ok (p_set_loads (fst fm) (snd fm) (mvmul (rot n) (fst fm)) (mvmul (rot n) (snd fm)) (q n) p))); [|exact HL | exact (each_combine vtends vtends _ _ _ _ HF HM)].
    intros P p K b ((HP & HC) & HS) (x & y & E & Hx & Hy). apply (settles_ext _ (fun n => Ok (p_set_loads (x n) (y n) (mvmul (rot n) (x n)) (mvmul (rot n) (y n)) (q n) (P n)))); [intros n; rewrite E; reflexivity|].
    apply (settles_Ok TP' (fun n => p_set_loads (x n) (y n) (mvmul (rot n) (x n)) (mvmul (rot n) (y n)) (q n) (P n))).
    pose proof (vtends_mvmul _ _ _ _ HR Hx) as Rx. pose proof (vtends_mvmul _ _ _ _ HR Hy) as Ry.
    split; [split; [split; [exact HP | exact HC] | exact HS]|].
    assert (HA : p_area p <> 0) by (unfold p_area; pose proof (norm_positive _ HC); lra).
    pose proof (panel_area P p HP) as TA. destruct Rx as (Rx1 & Rx2 & Rx3).
    unfold approaching_loads, present. repeat split; try (intros; eexists _, _; split; [intros n; reflexivity | split; [reflexivity|]]); try exact Hx; try exact Hy; try exact Ry; try (repeat split; assumption).
    + apply tends_div; [assumption | apply tends_div; [assumption | apply tends_opp; assumption | assumption] | assumption].
    + apply tends_div; [assumption | apply tends_div; assumption | assumption].
    + apply tends_div; [assumption | apply tends_div; [assumption | apply tends_opp; assumption | assumption] | assumption].
  - intros l1 l1' _ HL1. apply (settles_mapM (flying_airplane TP') (fun U a => approaching_solution q0 ring_strength U a /\ flying_airplane live U a) (fun n => airplane_totals (rot n) (q n))); [|exact HL1].
    intros A a _ HA. pose proof (panels_tends _ _ _ (flying_approaching _ _ _ HA)) as HP. unfold airplane_totals.
    assert (PF : forall (get : panel -> option vec), (forall v p, TP' v p -> present vtends (fun n => get (v n)) (get p)) ->
      settles (each vtends) (fun n => mapM (fun p => match get p with Some f => Ok f | None => Err ETypeError end) (airplane_panels (A n))) (mapM (fun p => match get p with Some f => Ok f | None => Err ETypeError end) (airplane_panels a))).
    { intros get Hget. apply (settles_mapM TP' vtends (fun _ p => match get p with Some f => Ok f | None => Err ETypeError end)); [|exact HP].
      intros v p _ Hv. destruct (Hget v p Hv) as (x & x0 & E1 & E2 & Hx). rewrite E2. apply (settles_ext _ (fun n => Ok (x n))); [intros n; rewrite E1; reflexivity|]. apply (settles_Ok vtends), Hx. }
    apply (settles_bind (each vtends) _ (fun n => mapM force_of (airplane_panels (A n))) _ (fun n forces => bind (mapM moment_of (airplane_panels (A n))) (fun moments =>
       Ok (a_set_loads (mvmul (rot n) (vsum forces)) (force_coefficients (mvmul (rot n) (vsum forces)) (q n) (a_s_ref (A n))) (mvmul (rot n) (vsum moments))
          (moment_coefficients (mvmul (rot n) (vsum moments)) (q n) (a_s_ref (A n)) (a_b_ref (A n)) (a_c_ref (A n))) (A n))))); [apply (PF p_force_geometry); intros v p Hv; apply Hv|].
    intros fs fs0 _ Hfs. apply (settles_bind (each vtends) _ (fun n => mapM moment_of (airplane_panels (A n))) _ (fun n moments =>
       Ok (a_set_loads (mvmul (rot n) (vsum (fs n))) (force_coefficients (mvmul (rot n) (vsum (fs n))) (q n) (a_s_ref (A n))) (mvmul (rot n) (vsum moments))
          (moment_coefficients (mvmul (rot n) (vsum moments)) (q n) (a_s_ref (A n)) (a_b_ref (A n)) (a_c_ref (A n))) (A n)))); [apply (PF p_moment_geometry); intros v p Hv; apply Hv|].
    intros ms ms0 _ Hms. apply (settles_Ok (fun U a => approaching_solution q0 ring_strength U a /\ flying_airplane live U a) (fun n => a_set_loads (mvmul (rot n) (vsum (fs n))) (force_coefficients (mvmul (rot n) (vsum (fs n))) (q n) (a_s_ref (A n))) (mvmul (rot n) (vsum (ms n)))
          (moment_coefficients (mvmul (rot n) (vsum (ms n))) (q n) (a_s_ref (A n)) (a_b_ref (A n)) (a_c_ref (A n))) (A n))).
    pose proof (vtends_mvmul _ _ _ _ HR (vtends_vsum _ _ Hfs)) as RF. pose proof (vtends_mvmul _ _ _ _ HR (vtends_vsum _ _ Hms)) as RM. fold rot0 in RF, RM.
    split; [|exact (flying_weaken _ _ _ _ (fun P p H => proj1 H) HA)]. split; [|refine (airplane_weaken TP' _ _ _ _ (flying_approaching _ _ _ HA)); intros P p (H1 & H2); split; [apply H1 | split; [exact H2 | apply (live_strength _ _ H1)]]]. destruct HA as (A1 & A2 & A3 & _). split; [|split].
    + eexists _, _. split; [intros n; reflexivity | split; [reflexivity | exact RF]].
    + eexists _, _. split; [intros n; reflexivity | split; [reflexivity | exact RM]].
    + intros N1 N2 N3 N4. change (a_s_ref a <> 0) in N2. change (a_b_ref a <> 0) in N3. change (a_c_ref a <> 0) in N4. destruct RF as (F1 & F2 & F3), RM as (M1 & M2 & M3).
      split; eexists _, _; (split; [intros n; reflexivity | split; [reflexivity|]]); unfold force_coefficients, moment_coefficients; repeat split; cbn [vx vy vz]; repeat first [assumption | apply tends_opp | apply tends_div].
Qed.

(** ** Lists *)
Lemma each_firstn {A} (T : (nat -> A) -> A -> Prop) k u l : each T u l -> each T (fun n => firstn k (u n)) (firstn k l).
Proof.
  intros H. revert k. induction H as [u E|u x l a m E Hx Hl IH]; intros [|k]; try (constructor; intros n; rewrite ?E; reflexivity).
  cbn [firstn]. eapply each_cons; [intros n; rewrite E; reflexivity | exact Hx | apply IH].
Qed.
Lemma each_skipn {A} (T : (nat -> A) -> A -> Prop) k u l : each T u l -> each T (fun n => skipn k (u n)) (skipn k l).
Proof.
  intros H. revert k. induction H as [u E|u x l a m E Hx Hl IH]; intros [|k]; try (constructor; intros n; rewrite ?E; reflexivity).
  - cbn [skipn]. eapply each_cons; [intros n; rewrite E; reflexivity | exact Hx | exact Hl].
  - cbn [skipn]. eapply each_ext; [|apply IH]. intros n. rewrite E. reflexivity.
Qed.
Lemma each_set {A} (T : (nat -> A) -> A -> Prop) k u l x a : each T u l -> T x a -> each T (fun n => set_at k (x n) (u n)) (set_at k a l).
Proof.
  intros H Hx. unfold set_at. apply each_app; [apply each_firstn, H|]. eapply each_cons; [intros n; reflexivity | exact Hx | apply each_skipn, H].
Qed.
Lemma settles_foldM {A S} (TA : (nat -> A) -> A -> Prop) (TS : (nat -> S) -> S -> Prop) (f : nat -> S -> A -> result S) g L l :
  (forall ST st X x, TS ST st -> TA X x -> settles TS (fun n => f n (ST n) (X n)) (g st x)) -> each TA L l ->
  forall ST st, TS ST st -> settles TS (fun n => foldM (f n) (ST n) (L n)) (foldM g st l).
Proof.
  intros HF H. induction H as [L E|L x l a m E Hx Hl IH]; intros ST st HS.
  - eapply settles_ext; [intros n; rewrite E; reflexivity|]. apply (settles_Ok TS ST), HS.
  - cbn [foldM]. eapply settles_ext; [intros n; rewrite E; cbn [foldM]; reflexivity|]. apply (settles_bind TS TS (fun n => f n (ST n) (x n)) _ (fun n st => foldM (f n) st (l n))); [apply HF; assumption|].
    intros ST' st' _ HS'. apply IH, HS'.
Qed.
Lemma settles_same {A B} (T : (nat -> B) -> B -> Prop) (r : result A) (f : nat -> A -> result B) g :
  (forall a, r = Ok a -> settles T (fun n => f n a) (g a)) -> settles T (fun n => bind r (f n)) (bind r g).
Proof. intros H. destruct r as [a|e]; [exact (H a eq_refl) | apply settles_Err]. Qed.
Lemma each_lengths {A} (T : (nat -> A) -> A -> Prop) M m : each (each T) M m -> forall k n, forallb (fun r => Nat.eqb (length r) k) (M n) = forallb (fun r => Nat.eqb (length r) k) m.
Proof.
  intros H k n. induction H as [u E|u x l a m E Hx Hl IH]; rewrite E; cbn [forallb]; [reflexivity|]. rewrite (each_length _ _ _ Hx), IH. reflexivity.
Qed.
Lemma settles_vstack {A} (T : (nat -> A) -> A -> Prop) R r M m : each T R r -> each (each T) M m -> settles (each (each T)) (fun n => vstack (R n) (M n)) (vstack r m).
Proof.
  intros HR HM. unfold vstack. eapply settles_ext; [intros n; rewrite (each_length _ _ _ HR), (each_lengths _ _ _ HM); reflexivity|].
  apply (settles_same (each (each T)) _ (fun n _ => Ok (R n :: M n))). intros _ _. apply (settles_Ok (each (each T)) (fun n => R n :: M n)). eapply each_cons; [intros n; reflexivity | exact HR | exact HM].
Qed.
Lemma settles_overwrite {A} (T : (nat -> A) -> A -> Prop) U l V v : each T U l -> each T V v -> settles (each T) (fun n => overwrite (U n) (V n)) (overwrite l v).
Proof.
  intros HU HV. unfold overwrite. eapply settles_ext; [intros n; rewrite (each_length _ _ _ HU), (each_length _ _ _ HV); reflexivity|].
  destruct (Nat.leb (length v) (length l)); [|apply settles_Err]. apply (settles_Ok (each T) (fun n => V n ++ skipn (length v) (U n))). apply each_app; [exact HV | apply each_skipn, HU].
Qed.

(** ** The next wake *)
Lemma back_vertex_settles side M m c s : (forall U u, approaching_ring U u -> vtends (fun n => side (U n)) (side u)) -> each (each live) M m ->
  settles vtends (fun n => back_vertex side (M n) c s) (back_vertex side m c s).
Proof.
  intros HS H. unfold back_vertex. eapply (settles_bind live vtends); [apply panel_at_settles, H|]. intros P p _ (_ & R & r & E1 & E2 & (HR & _)). cbv beta. rewrite E2.
  apply (settles_ext _ (fun n => Ok (side (R n)))); [intros n; rewrite E1; reflexivity|]. apply (settles_Ok vtends), HS, HR.
Qed.
Lemma trailing_row_settles T W w V v : flying_wing T W w -> flying_wing live V v -> settles (each vtends) (fun n => trailing_edge_row (W n) (V n)) (trailing_edge_row w v).
Proof.
  intros (_ & _ & HN) ((_ & HM) & _). unfold trailing_edge_row. cbv zeta. eapply settles_ext; [intros n; destruct (HN n) as (-> & -> & _); reflexivity|].
  apply (settles_bind (each vtends) (each vtends) (fun n => mapM (back_vertex rv_back_left (w_panels (V n)) (w_num_chordwise_panels w - 1)) (seq 0 (w_num_spanwise_panels w))) _
    (fun n lefts => bind (match w_num_spanwise_panels w with O => Ok vzero | S s => back_vertex rv_back_right (w_panels (V n)) (w_num_chordwise_panels w - 1) s end) (fun last => Ok (lefts ++ [last])))).
  - apply (settles_mapM (fun u a => forall n : nat, u n = a) vtends (fun n => back_vertex rv_back_left (w_panels (V n)) (w_num_chordwise_panels w - 1)) _ (fun _ => seq 0 (w_num_spanwise_panels w))); [|apply each_const; intros; reflexivity].
    intros S s _ E. eapply settles_ext; [intros n; rewrite E; reflexivity|]. apply back_vertex_settles; [|exact HM]. intros U u (_ & _ & _ & _ & H & _). exact H.
  - intros X x _ HX. apply (settles_bind vtends (each vtends) (fun n => match w_num_spanwise_panels w with O => Ok vzero | S s => back_vertex rv_back_right (w_panels (V n)) (w_num_chordwise_panels w - 1) s end) _ (fun n last => Ok (X n ++ [last]))).
    + destruct (w_num_spanwise_panels w) as [|s]; [apply (settles_Ok vtends (fun _ => vzero)), vtends_const|]. apply back_vertex_settles; [|exact HM]. intros U u (_ & _ & _ & _ & _ & H). exact H.
    + intros Y y _ HY. apply (settles_Ok (each vtends) (fun n => X n ++ [Y n])). apply each_app; [exact HX | apply each_one, HY].
Qed.
(** The vertices that are moved for the wing [v] of the next step. *)
Definition moved_vertices (step : nat) (w v : wing) (x : vec) : Prop :=
  match step with O => exists first, trailing_edge_row w v = Ok first /\ In x first | S _ => exists row, In row (w_wake_vertices w) /\ In x row end.
Lemma next_vertices_settles T step C c W w V v : flying_wing T W w -> flying_wing live V v ->
  (forall X x, vtends X x -> moved_vertices step w v x -> vtends (fun n => C n (X n)) (c x)) ->
  settles (flying_wing live) (fun n => next_wake_vertices step (C n) (W n) (V n)) (next_wake_vertices step c w v).
Proof.
  intros HW HV HC. unfold next_wake_vertices. eapply (settles_bind (each vtends) (flying_wing live)); [exact (trailing_row_settles T W w V v HW HV)|]. intros F f Ef HF. cbv beta.
  eapply (settles_bind (each (each vtends)) (flying_wing live)).
  - destruct step as [|step].
    + apply settles_vstack; [exact HF|]. apply each_one. refine (each_map vtends vtends C c _ _ _ HF). intros X x Hx HX. apply HC; [exact HX|]. exists f. auto.
    + apply settles_vstack; [exact HF|]. refine (each_map (each vtends) (each vtends) (fun n => map (C n)) (map c) _ _ _ (proj1 (proj2 HW))). intros R r Hr HR.
      refine (each_map vtends vtends C c _ _ _ HR). intros X x Hx HX. apply HC; [exact HX|]. exists r. auto.
  - intros M m _ HM. cbv beta. eapply (settles_Ok (flying_wing live)). destruct HV as (HP & _ & HN). split; [exact HP|]. split; [exact HM|]. intros n. destruct (HN n) as (N1 & N2 & N3). repeat split; assumption.
Qed.
Definition aged (u : nat -> ring_vortex) (r : ring_vortex) : Prop := approaching_ring u r /\ 0 <= rv_age r.
Definition four (u : nat -> vec * vec * vec * vec) (x : vec * vec * vec * vec) : Prop :=
  exists a b c d, (forall n, u n = (a n, b n, c n, d n)) /\ vtends a (fst (fst (fst x))) /\ vtends b (snd (fst (fst x))) /\ vtends c (snd (fst x)) /\ vtends d (snd x).
Lemma cell_settles M m c s : each (each vtends) M m -> settles four (fun n => cell (M n) c s) (cell m c s).
Proof.
  intros HM. unfold cell. eapply (settles_bind (each vtends) four); [apply settles_index, HM|]. intros F f _ HF. cbv beta. eapply (settles_bind (each vtends) four); [apply settles_index, HM|]. intros B b _ HB. cbv beta.
  eapply (settles_bind vtends four); [apply settles_index, HF|]. intros X1 x1 _ H1. cbv beta. eapply (settles_bind vtends four); [apply settles_index, HF|]. intros X2 x2 _ H2. cbv beta.
  eapply (settles_bind vtends four); [apply settles_index, HB|]. intros X3 x3 _ H3. cbv beta. eapply (settles_bind vtends four); [apply settles_index, HB|]. intros X4 x4 _ H4. cbv beta.
  apply (settles_Ok four (fun n => (X1 n, X2 n, X3 n, X4 n))). exists X1, X2, X3, X4. auto.
Qed.
Lemma shed_settles M m W w s : each (each vtends) M m -> flying_wing live W w -> settles aged (fun n => shed_ring (M n) (W n) s) (shed_ring m w s).
Proof.
  intros HM ((_ & HP) & _ & HN). unfold shed_ring. eapply (settles_bind four aged); [apply cell_settles, HM|]. intros U x _ (A & B & C & D & E & H1 & H2 & H3 & H4). destruct x as [[[a b] c] d]. cbn [fst snd] in *. cbv beta iota.
  eapply settles_ext; [intros n; rewrite E, (proj1 (HN n)); reflexivity|]. cbv beta iota.
  eapply (settles_bind tends aged).
  - apply strength_at_settles. eapply each_weaken; [|exact HP]. intros R r _ HR. eapply each_weaken; [|exact HR]. intros P p _. apply live_strength.
  - intros G g _ HG. cbv beta. apply (settles_Ok aged (fun n => new_ring (A n) (B n) (C n) (D n) (G n))). split; [|apply Rle_refl]. apply (new_whole_ring A a B b C c D d G g); assumption.
Qed.
Lemma move_settles step DT dt M m ids HP heap cs : tends DT dt -> 0 <= dt -> each (each vtends) M m -> each aged HP heap ->
  settles (each aged) (fun n => move_ring step (DT n) (M n) ids (HP n) cs) (move_ring step dt m ids heap cs).
Proof.
  intros HD Pd HM HH. destruct cs as [c s]. unfold move_ring. eapply (settles_bind four (each aged)); [apply cell_settles, HM|]. intros U x _ (A & B & C & D & E & H1 & H2 & H3 & H4). destruct x as [[[a b] cc] d]. cbn [fst snd] in *. cbv beta iota.
  eapply settles_ext; [intros n; rewrite E; reflexivity|]. cbv beta iota. apply settles_same. intros row _. apply settles_same. intros id _.
  eapply (settles_bind aged (each aged)); [apply settles_index, HH|]. intros R r _ ((G1 & G2 & _) & Pr). cbv beta zeta. eapply (settles_Ok (each aged)). apply each_set; [exact HH|].
  assert (HA : tends (fun n => match step with O => DT n | S _ => rv_age (R n) + DT n end) (match step with O => dt | S _ => rv_age r + dt end)) by (destruct step; [exact HD | apply tends_plus; assumption]).
  split; [|cbn [rv_age ring_set_age ring_update_position]; destruct step; lra]. unfold approaching_ring, ring_set_age, ring_update_position; cbn [rv_strength rv_age rv_front_left rv_front_right rv_back_left rv_back_right].
  split; [exact G1|]. split; [exact HA|]. split; [exact H1|]. split; [exact H2|]. split; [exact H3 | exact H4].
Qed.
Lemma each_head {A} (T : (nat -> A) -> A -> Prop) M m : each (each T) M m -> forall n, length (hd [] (M n)) = length (hd [] m).
Proof. intros H n. destruct H as [U E|U x l a m E Hx Hl]; rewrite E; cbn [hd]; [reflexivity | apply (each_length _ _ _ Hx)]. Qed.
Definition paired {S} (TS : (nat -> S) -> S -> Prop) {A} (TA : (nat -> A) -> A -> Prop) (u : nat -> S * A) (x : S * A) : Prop :=
  TS (fun n => fst (u n)) (fst x) /\ TA (fun n => snd (u n)) (snd x).
Lemma next_rings_settles step DT dt HP heap W w V v : tends DT dt -> 0 <= dt -> each aged HP heap -> flying_wing live W w -> flying_wing live V v ->
  settles (paired (each aged) (flying_wing live)) (fun n => next_wake_rings step (DT n) (HP n) (W n) (V n)) (next_wake_rings step dt heap w v).
Proof.
  intros HD Pd HH HW (HV & HM & HN). unfold next_wake_rings. cbv zeta.
  assert (L1 : forall n, length (w_wake_vertices (V n)) = length (w_wake_vertices v)) by exact (each_length _ _ _ HM).
  assert (L2 : forall n, length (hd [] (w_wake_vertices (V n))) = length (hd [] (w_wake_vertices v))).
  { intros n. exact (each_head vtends _ _ HM n). }
  eapply settles_ext; [intros n; rewrite L1, L2, (each_length _ _ _ HH), (proj2 (proj2 (proj2 (proj2 HW) n))); reflexivity|].
  apply settles_same. intros ids _. eapply (settles_bind (each aged) (paired (each aged) (flying_wing live))).
  - apply (settles_mapM (fun u a => forall n : nat, u n = a) aged (fun n => shed_ring (w_wake_vertices (V n)) (W n)) _ (fun _ => seq 0 _)); [|apply each_const; intros; reflexivity].
    intros S s _ E. eapply settles_ext; [intros n; rewrite E; reflexivity|]. apply shed_settles; assumption.
  - intros SH sh _ HSH. cbv beta. eapply (settles_bind (each aged) (paired (each aged) (flying_wing live))).
    + apply (settles_foldM (fun u a => forall n : nat, u n = a) (each aged) (fun n => move_ring step (DT n) (w_wake_vertices (V n)) ids) _ (fun _ => list_prod _ _)); [|apply each_const; intros; reflexivity | apply each_app; [exact HH | exact HSH]].
      intros ST st X x HST E. eapply settles_ext; [intros n; rewrite E; reflexivity|]. apply move_settles; assumption.
    + intros H2 h2 _ HH2. cbv beta. apply (settles_Ok (paired (each aged) (flying_wing live)) (fun n => (H2 n, w_set_wake (w_wake_vertices (V n)) ids (V n)))). split; [exact HH2|].
      split; [exact HV|]. split; [exact HM|]. intros n. destruct (HN n) as (N1 & N2 & _). repeat split; assumption.
Qed.
(** Walks over two steps at once. *)
Section Two.
Context {S : Type} (TS : (nat -> S) -> S -> Prop) (T : (nat -> panel) -> panel -> Prop) (f : nat -> S -> wing -> wing -> result (S * wing)) (g : S -> wing -> wing -> result (S * wing)).
Lemma for_wings_settles WS ws VS vs :
  (forall ST st W w V v, In (w, v) (combine ws vs) -> TS ST st -> flying_wing T W w -> flying_wing live V v -> settles (paired TS (flying_wing live)) (fun n => f n (ST n) (W n) (V n)) (g st w v)) ->
  each (flying_wing T) WS ws -> each (flying_wing live) VS vs -> forall ST st, TS ST st ->
  settles (paired TS (each (flying_wing live))) (fun n => for_wings (f n) (ST n) (WS n) (VS n)) (for_wings g st ws vs).
Proof.
  intros HF HW HV ST st HS. unfold for_wings. eapply settles_ext; [intros n; rewrite (each_length _ _ _ HW), (each_length _ _ _ HV); reflexivity|].
  apply settles_same. intros _ _. revert VS vs HF HV ST st HS. induction HW as [WS E|WS W l w m E Hw Hl IH]; intros VS vs HF HV ST st HS.
  - eapply settles_ext; [intros n; rewrite E; reflexivity|]. apply (settles_Ok (paired TS (each (flying_wing live))) (fun n => (ST n, VS n))). split; [exact HS | exact HV].
  - destruct HV as [VS EV|VS V k v k0 EV Hv Hk].
    + eapply settles_ext; [intros n; rewrite E, EV; reflexivity|]. apply (settles_Ok (paired TS (each (flying_wing live))) (fun n => (ST n, []))). split; [exact HS | constructor; reflexivity].
    + eapply settles_ext; [intros n; rewrite E, EV; reflexivity|].
      eapply (settles_bind (paired TS (flying_wing live))); [apply HF; [left; reflexivity | exact HS | exact Hw | exact Hv]|]. intros U u _ (HU1 & HU2). cbv beta.
      eapply (settles_bind (paired TS (each (flying_wing live)))); [apply (IH k k0); [intros; apply HF; [right|..]; assumption | exact Hk | exact HU1]|]. intros U' u' _ (HU1' & HU2'). cbv beta.
      apply (settles_Ok (paired TS (each (flying_wing live))) (fun n => (fst (U' n), snd (U n) :: snd (U' n)))). split; [exact HU1'|]. cbn [snd]. eapply each_cons; [intros n; reflexivity | exact HU2 | exact HU2'].
Qed.
Lemma for_airplanes_settles AS as_ BS bs :
  (forall ST st W w V v, (exists a b, In (a, b) (combine as_ bs) /\ In (w, v) (combine (a_wings a) (a_wings b))) -> TS ST st -> flying_wing T W w -> flying_wing live V v ->
     settles (paired TS (flying_wing live)) (fun n => f n (ST n) (W n) (V n)) (g st w v)) ->
  each (flying_airplane T) AS as_ -> each (flying_airplane live) BS bs -> forall ST st, TS ST st ->
  settles (paired TS (each (flying_airplane live))) (fun n => for_airplanes (f n) (ST n) (AS n) (BS n)) (for_airplanes g st as_ bs).
Proof.
  intros HF HA HB ST st HS. unfold for_airplanes. eapply settles_ext; [intros n; rewrite (each_length _ _ _ HA), (each_length _ _ _ HB); reflexivity|].
  apply settles_same. intros _ _. revert BS bs HF HB ST st HS. induction HA as [AS E|AS A l a m E Ha Hl IH]; intros BS bs HF HB ST st HS.
  - eapply settles_ext; [intros n; rewrite E; reflexivity|]. apply (settles_Ok (paired TS (each (flying_airplane live))) (fun n => (ST n, BS n))). split; [exact HS | exact HB].
  - destruct HB as [BS EB|BS B k b k0 EB Hb Hk].
    + eapply settles_ext; [intros n; rewrite E, EB; reflexivity|]. apply (settles_Ok (paired TS (each (flying_airplane live))) (fun n => (ST n, []))). split; [exact HS | constructor; reflexivity].
    + eapply settles_ext; [intros n; rewrite E, EB; reflexivity|].
      eapply (settles_bind (paired TS (each (flying_wing live)))).
      { apply (for_wings_settles (fun n => a_wings (A n)) (a_wings a) (fun n => a_wings (B n)) (a_wings b)); [|apply Ha | apply Hb | exact HS]. intros; apply HF; try assumption. exists a, b. split; [left; reflexivity | assumption]. }
      intros U u _ (HU1 & HU2). cbv beta.
      eapply (settles_bind (paired TS (each (flying_airplane live)))); [apply (IH k k0); [|exact Hk | exact HU1]; intros ST' st' W w V v (a' & b' & I1 & I2); apply HF; exists a', b'; split; [right; exact I1 | exact I2]|]. intros U' u' _ (HU1' & HU2'). cbv beta.
      apply (settles_Ok (paired TS (each (flying_airplane live))) (fun n => (fst (U' n), a_set_wings (snd (U n)) (B n) :: snd (U' n)))). split; [exact HU1'|]. cbn [snd]. eapply each_cons; [intros n; reflexivity | | exact HU2'].
      destruct Hb as (B1 & B2 & B3 & B4 & B5 & _). repeat (split; [assumption|]). exact HU2.
Qed.
End Two.
Lemma populate_settles step DT dt C c HP heap AS as_ BS bs : tends DT dt -> 0 <= dt -> each aged HP heap -> each (flying_airplane live) AS as_ -> each (flying_airplane live) BS bs ->
  (forall X x, vtends X x -> (exists a b w v, In (a, b) (combine as_ bs) /\ In (w, v) (combine (a_wings a) (a_wings b)) /\ moved_vertices step w v x) -> vtends (fun n => C n (X n)) (c x)) ->
  settles (paired (each aged) (each (flying_airplane live))) (fun n => populate_wake step (DT n) (C n) (HP n) (AS n) (BS n)) (populate_wake step dt c heap as_ bs).
Proof.
  intros HD Pd HH HA HB HC. unfold populate_wake. eapply (settles_bind (paired (fun _ _ => True) (each (flying_airplane live)))).
  - apply (for_airplanes_settles (S := unit) (fun _ _ => True) live (fun n st t v => bind (next_wake_vertices step (C n) t v) (fun w => Ok (st, w)))) with (ST := fun _ => tt); [|exact HA | exact HB | exact I].
    intros ST st W w V v (a & b & I1 & I2) _ HW HV. eapply (settles_bind (flying_wing live)).
    + apply (next_vertices_settles live step C c W w V v HW HV). intros X x HX Hx. apply HC; [exact HX|]. exists a, b, w, v. auto.
    + intros U u _ HU. apply (settles_Ok (paired (fun _ _ => True) (flying_wing live)) (fun n => (ST n, U n))). split; [exact I | exact HU].
  - intros U u _ (_ & HU). cbv beta. apply (for_airplanes_settles (each aged) live (fun n => next_wake_rings step (DT n))); [|exact HA | exact HU | exact HH].
    intros ST st W w V v _ HST HW HV. apply next_rings_settles; assumption.
Qed.
