(** Lemmas about one step of the wake of all wings. *)
From Coq Require Import Lra Lia.
From Verif Require Import M_Unsteady S_Loads S_Unsteady L_Base L_Loads L_SteadyRing L_Frames L_Wake.

(** ** Trailing edges *)
Lemma last_nth_error {A} (l : list A) d x : nth_error l (length l - 1) = Some x -> last l d = x.
Proof.
  induction l as [|a l IH]; [discriminate|]. destruct l as [|b l]; [cbn; congruence|].
  intros H. cbn [last]. apply IH. cbn in H |- *. rewrite Nat.sub_0_r in *. exact H.
Qed.
Lemma trailing_row_at w : ringed_wing w -> nth_error (w_panels w) (w_num_chordwise_panels w - 1) = Some (trailing_panels w) /\
  length (trailing_panels w) = w_num_spanwise_panels w.
Proof.
  intros (_ & Hc & HG & _). pose proof HG as [L _].
  destruct (nth_in_range (w_panels w) (w_num_chordwise_panels w - 1) ltac:(lia)) as [row Hr].
  assert (E : trailing_panels w = row) by (apply last_nth_error; rewrite L; exact Hr).
  rewrite E. split; [exact Hr | eapply grid_row; eassumption].
Qed.
Lemma ringed_panel w c s row p : ringed_wing w -> nth_error (w_panels w) c = Some row -> nth_error row s = Some p ->
  exists r, p_ring_vortex p = Some r.
Proof. intros (_ & _ & _ & H) H1 H2. apply H. eapply in_concat_nth; eassumption. Qed.
Lemma last_map_nth {A B} (f : A -> B) (l : list A) d x n : length l = S n -> nth_error l n = Some x -> last (map f l) d = f x.
Proof. intros L H. apply last_nth_error. rewrite map_length, L. replace (S n - 1)%nat with n by lia. rewrite nth_error_map, H. reflexivity. Qed.

Lemma trailing_edge_row_ok t w : ringed_wing w -> w_num_chordwise_panels t = w_num_chordwise_panels w ->
  w_num_spanwise_panels t = w_num_spanwise_panels w -> trailing_edge_row t w = Ok (trailing_vertices w).
Proof.
  intros HW Ec Es. destruct (trailing_row_at w HW) as [Hr Lr]. unfold trailing_edge_row. rewrite Ec, Es.
  assert (HB : forall side s p, nth_error (trailing_panels w) s = Some p ->
     back_vertex side (w_panels w) (w_num_chordwise_panels w - 1) s = Ok (match p_ring_vortex p with Some r => side r | None => vzero end)).
  { intros side s p Hp. unfold back_vertex, panel_at. rewrite (proj2 (index_Some _ _ _) Hr). cbn [bind].
    rewrite (proj2 (index_Some _ _ _) Hp). cbn [bind]. destruct (ringed_panel _ _ _ _ _ HW Hr Hp) as [r ->]. reflexivity. }
  assert (E1 : mapM (back_vertex rv_back_left (w_panels w) (w_num_chordwise_panels w - 1)) (seq 0 (w_num_spanwise_panels w))
               = Ok (map back_left_of (trailing_panels w))).
  { apply Forall2_mapM, Forall2_of_nth; [rewrite seq_length, map_length; lia|]. intros i s v Hi Hv.
    assert (Li : (i < w_num_spanwise_panels w)%nat) by (rewrite <- (seq_length (w_num_spanwise_panels w) 0); apply nth_error_Some; rewrite Hi; discriminate).
    rewrite nth_error_nth' with (d := 0%nat) in Hi by (rewrite seq_length; exact Li). rewrite seq_nth in Hi by exact Li.
    apply Some_eq in Hi. cbn in Hi. subst s. rewrite nth_error_map in Hv.
    destruct (nth_error (trailing_panels w) i) as [p|] eqn:Hp; [|discriminate]. apply Some_eq in Hv. rewrite (HB _ _ _ Hp), <- Hv. reflexivity. }
  rewrite E1. cbn [bind]. unfold trailing_vertices. destruct (w_num_spanwise_panels w) as [|n] eqn:En.
  - cbn [bind]. destruct (trailing_panels w); [reflexivity | discriminate].
  - destruct (nth_in_range (trailing_panels w) n ltac:(lia)) as [p Hp]. rewrite (HB _ _ _ Hp). cbn [bind].
    rewrite (last_map_nth _ _ _ _ _ Lr Hp). reflexivity.
Qed.
Lemma trailing_vertices_length w : ringed_wing w -> length (trailing_vertices w) = S (w_num_spanwise_panels w).
Proof. intros HW. destruct (trailing_row_at w HW) as [_ L]. unfold trailing_vertices. rewrite app_length, map_length, L. cbn. lia. Qed.
Lemma trailing_strengths_length w : ringed_wing w -> length (trailing_strengths w) = w_num_spanwise_panels w.
Proof. intros HW. destruct (trailing_row_at w HW) as [_ L]. unfold trailing_strengths. rewrite map_length. exact L. Qed.
Lemma trailing_strength_at w s : ringed_wing w -> (s < w_num_spanwise_panels w)%nat ->
  ring_strength_at (w_panels w) (w_num_chordwise_panels w - 1) s = Ok (nth s (trailing_strengths w) 0).
Proof.
  intros HW Hs. destruct (trailing_row_at w HW) as [Hr Lr]. destruct (nth_in_range (trailing_panels w) s ltac:(lia)) as [p Hp].
  unfold ring_strength_at, panel_at. rewrite (proj2 (index_Some _ _ _) Hr). cbn [bind]. rewrite (proj2 (index_Some _ _ _) Hp). cbn [bind].
  unfold trailing_strengths. erewrite nth_error_nth by (rewrite nth_error_map, Hp; reflexivity). unfold strength_of.
  destruct (ringed_panel _ _ _ _ _ HW Hr Hp) as [r ->]. reflexivity.
Qed.

(** ** The walk over the wings *)
Fixpoint walk {S} (f : S -> wing -> wing -> result (S * wing)) (st : S) (these nexts : list wing) : result (S * list wing) :=
  match these, nexts with
  | t :: these', n :: nexts' =>
      let* r := f st t n in
      let* rs := walk f (fst r) these' nexts' in
      Ok (fst rs, snd r :: snd rs)
  | _, _ => Ok (st, nexts)
  end.
Lemma for_wings_walk {S} (f : S -> wing -> wing -> result (S * wing)) st these nexts : length nexts = length these ->
  for_wings f st these nexts = walk f st these nexts.
Proof. intros L. unfold for_wings. rewrite (proj2 (Nat.eqb_eq _ _) L). cbn [check bind]. clear L.
  revert st nexts. induction these as [|t these IH]; intros st nexts; [reflexivity|]. destruct nexts as [|n nexts]; [reflexivity|].
  cbn [walk]. destruct (f st t n) as [[st' w]|e]; cbn [bind fst snd]; [|reflexivity]. rewrite IH. reflexivity.
Qed.
Fixpoint walk_airplanes {S} (f : S -> wing -> wing -> result (S * wing)) (st : S) (these nexts : list airplane) : result (S * list airplane) :=
  match these, nexts with
  | t :: these', n :: nexts' =>
      let* r := walk f st (a_wings t) (a_wings n) in
      let* rs := walk_airplanes f (fst r) these' nexts' in
      Ok (fst rs, a_set_wings (snd r) n :: snd rs)
  | _, _ => Ok (st, nexts)
  end.
Lemma for_airplanes_walk {S} (f : S -> wing -> wing -> result (S * wing)) st these nexts :
  Forall2 (fun t n => length (a_wings n) = length (a_wings t)) these nexts ->
  for_airplanes f st these nexts = walk_airplanes f st these nexts.
Proof.
  intros F. unfold for_airplanes. rewrite <- (Forall2_length _ _ _ F), Nat.leb_refl. cbn [check bind].
  revert st. induction F as [|t n these nexts H F IH]; intros st; [reflexivity|]. cbn [walk_airplanes].
  rewrite for_wings_walk by exact H. destruct (walk f st (a_wings t) (a_wings n)) as [[st' ws]|e]; cbn [bind fst snd]; [|reflexivity].
  rewrite IH. reflexivity.
Qed.
Lemma walk_length {S} (f : S -> wing -> wing -> result (S * wing)) these : forall st nexts st' ws, walk f st these nexts = Ok (st', ws) -> length ws = length nexts.
Proof.
  induction these as [|t these IH]; intros st nexts st' ws E; cbn in E.
  - injection E as _ <-. reflexivity.
  - destruct nexts as [|n nexts]; [injection E as _ <-; reflexivity|]. inv_ok E. inv_ok E. injection E as _ <-. cbn. f_equal.
    destruct v0 as [st0 ws0]. eapply IH; exact E1.
Qed.
(** Two lists of airplanes that differ only in their wings. *)
Definition rewinged (a b : airplane) : Prop := b = a_set_wings (a_wings b) a.
Lemma walk_concat {S} (f : S -> wing -> wing -> result (S * wing)) these nexts :
  Forall2 (fun t n => length (a_wings n) = length (a_wings t)) these nexts -> forall st st' ws,
  walk f st (concat (map a_wings these)) (concat (map a_wings nexts)) = Ok (st', ws) ->
  exists nexts', walk_airplanes f st these nexts = Ok (st', nexts') /\ concat (map a_wings nexts') = ws /\
    Forall2 rewinged nexts nexts' /\ Forall2 (fun n n' => length (a_wings n') = length (a_wings n)) nexts nexts'.
Proof.
  intros F. induction F as [|t n these nexts H F IH]; intros st st' ws E.
  - cbn in E |- *. injection E as <- <-. exists []. repeat split; constructor.
  - cbn [map concat] in E.
    assert (A : forall ts ns st st' ws ts' ns', length ns = length ts ->
       walk f st (ts ++ ts') (ns ++ ns') = Ok (st', ws) ->
       exists st1 ws1 ws2, walk f st ts ns = Ok (st1, ws1) /\ walk f st1 ts' ns' = Ok (st', ws2) /\ ws = ws1 ++ ws2).
    { clear. induction ts as [|t ts IH]; intros [|n ns] st st' ws ts' ns' L E; try discriminate.
      - cbn in *. eauto 10.
      - cbn in E. apply bind_Ok in E. destruct E as ([st1 w1] & E1 & E). apply bind_Ok in E. destruct E as ([st2 ws2] & E2 & E).
        cbn [fst snd] in *. injection E as -> <-. apply IH in E2; [|cbn in L; lia].
        destruct E2 as (st3 & wsa & wsb & Ea & Eb & ->). cbn. rewrite E1. cbn [bind fst snd]. rewrite Ea. cbn [bind fst snd].
        exists st3, (w1 :: wsa), wsb. auto. }
    destruct (A _ _ _ _ _ _ _ H E) as (st1 & ws1 & ws2 & E1 & E2 & ->).
    destruct (IH _ _ _ E2) as (nexts' & E3 & <- & F1 & F2). cbn [walk_airplanes]. rewrite E1. cbn [bind fst snd]. rewrite E3. cbn [bind fst snd].
    exists (a_set_wings ws1 n :: nexts'). split; [reflexivity|]. split; [reflexivity|]. split; constructor; auto.
    + unfold rewinged. reflexivity.
    + cbn. eapply walk_length; exact E1.
Qed.

Lemma walk_stateless (g : wing -> wing -> result wing) these nexts ws :
  Forall3 (fun t n w => g t n = Ok w) these nexts ws ->
  walk (fun (st : unit) t n => let* w := g t n in Ok (st, w)) tt these nexts = Ok (tt, ws).
Proof. intros F. induction F as [|t n w these nexts ws H F IH]; cbn; [reflexivity|]. rewrite H. cbn [bind fst snd]. rewrite IH. reflexivity. Qed.

(** ** Wake vertices of all wings *)
Definition moved_vertices (step : nat) (convect : vec -> vec) (t w : wing) : list (list vec) :=
  trailing_vertices w :: match step with O => [map convect (trailing_vertices w)] | S _ => map (map convect) (w_wake_vertices t) end.
Lemma next_vertices_ok step convect t w : ringed_wing w -> w_num_chordwise_panels t = w_num_chordwise_panels w ->
  w_num_spanwise_panels t = w_num_spanwise_panels w -> (step <> 0%nat -> exists k, grid k (S (w_num_spanwise_panels t)) (w_wake_vertices t)) ->
  next_wake_vertices step convect t w = Ok (w_set_wake (moved_vertices step convect t w) (w_wake_rings w) w).
Proof.
  intros HW Ec Es HV. unfold next_wake_vertices. rewrite (trailing_edge_row_ok _ _ HW Ec Es). cbn [bind].
  pose proof (trailing_vertices_length _ HW) as L. unfold moved_vertices. destruct step as [|step].
  - rewrite (vstack_grid _ 1 (S (w_num_spanwise_panels w))); [reflexivity | exact L |].
    split; [reflexivity|]. constructor; [rewrite map_length; exact L | constructor].
  - destruct (HV ltac:(discriminate)) as [k HG]. rewrite (vstack_grid _ k (S (w_num_spanwise_panels w))); [reflexivity | exact L|].
    apply grid_map. rewrite <- Es. exact HG.
Qed.

(** ** Wake ring vortices of all wings *)
(** A wing's wake after [k] steps: [G] are the strengths of its rings, newest row first. *)
Record wing_wake (dt : R) (k : nat) (heap : list ring_vortex) (w : wing) (G : list (list R)) : Prop := {
  ww_ringed : ringed_wing w;
  ww_vertices : match k with O => w_wake_vertices w = [] | S _ => grid (S k) (S (w_num_spanwise_panels w)) (w_wake_vertices w) end;
  ww_rings : grid k (w_num_spanwise_panels w) (w_wake_rings w);
  ww_strengths : grid k (w_num_spanwise_panels w) G;
  ww_holds : holds heap (w_wake_rings w) (rings_from dt 0 (w_wake_vertices w) G) }.
Definition wing_ids (w : wing) : list nat := concat (w_wake_rings w).
(** The next step's wing [w], its vertices already in place, behind [t]. *)
Definition matches_next (k : nat) (t w : wing) : Prop :=
  ringed_wing w /\ w_num_chordwise_panels t = w_num_chordwise_panels w /\ w_num_spanwise_panels t = w_num_spanwise_panels w /\
  grid (S (S k)) (S (w_num_spanwise_panels w)) (w_wake_vertices w).

Lemma holds_ids heap ids rings i : holds heap ids rings -> In i (concat ids) -> (i < length heap)%nat.
Proof.
  intros H Hi. apply in_concat in Hi. destruct Hi as (row & Hr & Hi). induction H as [|a b ids rings Hab H IH]; [contradiction|].
  destruct Hr as [->|Hr]; [|auto]. clear IH H. induction Hab as [|x y a b Hxy _ IH]; [contradiction|].
  destruct Hi as [->|Hi]; [|auto]. apply nth_error_Some. rewrite Hxy. discriminate.
Qed.
Lemma holds_other heap heap' ids rings : (forall i, In i (concat ids) -> nth_error heap' i = nth_error heap i) -> holds heap ids rings -> holds heap' ids rings.
Proof.
  intros H HH. induction HH as [|a b ids rings Hab HH IH]; constructor.
  - assert (Ha : forall i, In i a -> nth_error heap' i = nth_error heap i) by (intros; apply H; cbn; apply in_or_app; auto).
    clear H IH HH. induction Hab as [|x y a b Hxy _ IH]; constructor; [rewrite Ha; [exact Hxy | left; reflexivity] | apply IH; intros; apply Ha; right; assumption].
  - apply IH. intros i Hi. apply H. cbn. apply in_or_app. auto.
Qed.
Lemma ringed_wing_wake V ids w : ringed_wing w -> ringed_wing (w_set_wake V ids w).
Proof. exact (fun H => H). Qed.

Lemma walk_rings step dt k (L : list (wing * wing * list (list R))) : (k = 0%nat \/ (1 <= step)%nat) -> forall heap,
  Forall (fun x => wing_wake dt k heap (fst (fst x)) (snd x) /\ matches_next k (fst (fst x)) (snd (fst x))) L ->
  NoDup (concat (map wing_ids (map (fun x => fst (fst x)) L))) ->
  exists heap' ws, walk (next_wake_rings step dt) heap (map (fun x => fst (fst x)) L) (map (fun x => snd (fst x)) L) = Ok (heap', ws) /\
    (length heap <= length heap')%nat /\
    (forall i, (i < length heap)%nat -> ~ In i (concat (map wing_ids (map (fun x => fst (fst x)) L))) -> nth_error heap' i = nth_error heap i) /\
    Forall2 (fun x w' => wing_wake dt (S k) heap' w' (trailing_strengths (fst (fst x)) :: snd x) /\
       exists row, w' = w_set_wake (w_wake_vertices (snd (fst x))) (row :: w_wake_rings (fst (fst x))) (snd (fst x)) /\
         (forall i, In i row -> (length heap <= i)%nat)) L ws /\
    NoDup (concat (map wing_ids ws)).
Proof.
  intros Hst. induction L as [|[[t w] G] L IH]; intros heap HF HD.
  { exists heap, []. cbn. repeat split; auto; constructor. }
  apply Forall_cons_iff in HF. destruct HF as [[Hw Hm] HF]. cbn [fst snd map concat] in *.
  destruct (NoDup_app_inv _ _ HD) as (HD1 & HD2 & HD3).
  destruct Hm as (Rw & Ec & Es & GV). destruct Hw as [Rt Vt It Gt Ht].
  destruct (next_rings step dt heap t w k (w_num_spanwise_panels t) (w_wake_vertices t) (w_wake_vertices w) G (trailing_strengths t)) as (heap1 & E1 & L1 & H1 & F1).
  - rewrite Es. exact GV.
  - reflexivity.
  - exact Hst.
  - destruct k; [left|right; auto]. split; [reflexivity|]. destruct It as [It _], Gt as [Gt _]. split; apply length_zero_iff_nil; assumption.
  - exact Ht.
  - exact HD1.
  - apply trailing_strengths_length; exact Rt.
  - intros s Hs. apply trailing_strength_at; assumption.
  - assert (Old : forall i, In i (concat (map wing_ids (map (fun x => fst (fst x)) L))) -> (i < length heap)%nat).
    { intros i Hi. apply in_concat in Hi. destruct Hi as (l & Hl & Hi). rewrite map_map in Hl. apply in_map_iff in Hl.
      destruct Hl as (x & <- & Hx). rewrite Forall_forall in HF. destruct (HF x Hx) as [[_ _ _ _ Hh] _]. eapply holds_ids; [exact Hh | exact Hi]. }
    assert (HF' : Forall (fun x => wing_wake dt k heap1 (fst (fst x)) (snd x) /\ matches_next k (fst (fst x)) (snd (fst x))) L).
    { rewrite Forall_forall in HF |- *. intros x Hx. destruct (HF x Hx) as [[A B C D F] M]. split; [|exact M]. constructor; auto.
      assert (Hsub : forall i, In i (concat (w_wake_rings (fst (fst x)))) -> In i (concat (map wing_ids (map (fun x => fst (fst x)) L)))).
      { intros i Hi. apply in_concat. exists (wing_ids (fst (fst x))). split; [|exact Hi]. rewrite map_map. apply (in_map (fun y => wing_ids (fst (fst y)))). exact Hx. }
      eapply holds_other; [|exact F]. intros i Hi. apply F1; [apply Old, Hsub, Hi|]. intros Hi'. exact (HD3 i Hi' (Hsub i Hi)). }
    destruct (IH heap1 HF' HD2) as (heap' & ws & E2 & L2 & F2 & W2 & D2).
    exists heap', (w_set_wake (w_wake_vertices w) (seq (length heap) (w_num_spanwise_panels t) :: w_wake_rings t) w :: ws).
    split; [cbn [walk]; rewrite E1; cbn [bind fst snd]; rewrite E2; reflexivity|].
    split; [lia|]. split.
    { intros i Hi Hn. rewrite F2; [apply F1; [exact Hi|]|lia|]; intros Hc; apply Hn, in_or_app; [left|right]; exact Hc. }
    assert (Mine : forall i, In i (seq (length heap) (w_num_spanwise_panels t) ++ concat (w_wake_rings t)) -> nth_error heap' i = nth_error heap1 i /\ (i < length heap1)%nat).
    { intros i Hi. apply in_app_or in Hi. assert (Hlt : (i < length heap1)%nat /\ ~ In i (concat (map wing_ids (map (fun x => fst (fst x)) L)))).
      { destruct Hi as [Hi|Hi].
        - apply in_seq in Hi. split; [lia|]. intros Hc. apply Old in Hc. lia.
        - pose proof (holds_ids _ _ _ _ Ht Hi). split; [lia|]. intros Hc. exact (HD3 i Hi Hc). }
      split; [apply F2|]; apply Hlt. }
    split.
    { constructor.
      - cbn [fst snd]. split.
        + constructor.
          * exact Rw.
          * exact GV.
          * cbn. rewrite <- Es. apply grid_cons. split; [apply seq_length | exact It].
          * cbn. rewrite <- Es. apply grid_cons. split; [apply trailing_strengths_length; exact Rt | exact Gt].
          * cbn. eapply holds_other; [|exact H1]. intros i Hi. apply Mine. exact Hi.
        + eexists; split; [reflexivity|]. intros i Hi. apply in_seq in Hi. lia.
      - eapply Forall2_impl; [|exact W2]. intros x w' [A (row & B & C)]. split; [exact A|]. exists row. split; [exact B|]. intros i Hi. specialize (C i Hi). lia. }
    cbn [map concat]. apply NoDup_app_intro.
    + unfold wing_ids. cbn. apply NoDup_app_intro; [apply seq_NoDup | exact HD1|]. intros i Hi Hc. apply in_seq in Hi. pose proof (holds_ids _ _ _ _ Ht Hc). lia.
    + exact D2.
    + intros i Hi Hc. unfold wing_ids in Hi. cbn in Hi. destruct (Mine i Hi) as [_ Hlt].
      apply in_concat in Hc. destruct Hc as (l & Hl & Hc). apply in_map_iff in Hl. destruct Hl as (w' & <- & Hw').
      destruct (In_nth_error _ _ Hw') as [j Hj]. destruct (Forall2_nth _ _ _ W2 _ _ Hj) as (x & Hx & (_ & row & -> & Hrow)).
      unfold wing_ids in Hc. cbn in Hc. apply in_app_or in Hc. destruct Hc as [Hc|Hc]; [specialize (Hrow i Hc); lia|].
      assert (Hc' : In i (concat (map wing_ids (map (fun x => fst (fst x)) L)))).
      { apply in_concat. exists (wing_ids (fst (fst x))). split; [|exact Hc]. rewrite map_map. apply (in_map (fun y => wing_ids (fst (fst y)))). eapply nth_error_In; exact Hx. }
      apply in_app_or in Hi. destruct Hi as [Hi|Hi]; [apply in_seq in Hi; apply Old in Hc'; lia | exact (HD3 i Hi Hc')].
Qed.
