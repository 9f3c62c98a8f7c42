(** Lemmas about the wake's ring vortex objects. *)
From Coq Require Import Lra Lia.
From Verif Require Import M_Unsteady S_Loads S_Unsteady L_Base L_Loads L_SteadyRing L_Frames.

(** ** foldM *)
Lemma foldM_app {A S} (f : S -> A -> result S) l1 l2 st :
  foldM f st (l1 ++ l2) = bind (foldM f st l1) (fun st' => foldM f st' l2).
Proof. revert st; induction l1 as [|x l IH]; intros st; cbn; [reflexivity|]. destruct (f st x); cbn; auto. Qed.

Lemma set_at_length {A} i (x : A) l : (i < length l)%nat -> length (set_at i x l) = length l.
Proof. intros H. unfold set_at. rewrite app_length; cbn [length]. rewrite firstn_length, skipn_length. lia. Qed.
Lemma set_at_nth {A} i (x : A) l j : (i < length l)%nat ->
  nth_error (set_at i x l) j = if Nat.eqb j i then Some x else nth_error l j.
Proof.
  intros H. unfold set_at. destruct (Nat.eqb_spec j i) as [->|Hn].
  - rewrite nth_error_app2; rewrite firstn_length, Nat.min_l by lia; [|lia]. rewrite Nat.sub_diag; reflexivity.
  - destruct (Nat.lt_ge_cases j i) as [Hl|Hg].
    + rewrite nth_error_app1 by (rewrite firstn_length; lia).
      rewrite <- (firstn_skipn i l) at 2. rewrite nth_error_app1 by (rewrite firstn_length; lia). reflexivity.
    + rewrite nth_error_app2; rewrite firstn_length, Nat.min_l by lia; [|lia].
      destruct (j - i)%nat as [|m] eqn:Em; [lia|]. cbn.
      rewrite <- (firstn_skipn (S i) l) at 2. rewrite nth_error_app2; rewrite firstn_length, Nat.min_l by lia; [|lia].
      f_equal; lia.
Qed.

(** A fold that changes one entry per element, all different. *)
Lemma foldM_entries {K A} (step : list A -> K -> result (list A)) (id : K -> nat) (upd : K -> A -> A) L : forall h,
  (forall k h' r, In k L -> nth_error h' (id k) = Some r -> length h' = length h -> step h' k = Ok (set_at (id k) (upd k r) h')) ->
  (forall k, In k L -> (id k < length h)%nat) -> NoDup (map id L) ->
  exists h', foldM step h L = Ok h' /\ length h' = length h /\
    (forall k r, In k L -> nth_error h (id k) = Some r -> nth_error h' (id k) = Some (upd k r)) /\
    (forall i, ~ In i (map id L) -> nth_error h' i = nth_error h i).
Proof.
  induction L as [|k L IH]; intros h Hs Hr Hd; cbn.
  - exists h. repeat split; auto; intros ? ? [].
  - cbn in Hd. apply NoDup_cons_iff in Hd. destruct Hd as [Hn Hd].
    assert (Lk : (id k < length h)%nat) by (apply Hr; left; reflexivity).
    destruct (nth_error h (id k)) as [r|] eqn:Er; [|apply nth_error_None in Er; lia].
    rewrite (Hs k h r) by (auto; left; reflexivity). cbn [bind].
    pose proof (set_at_length (id k) (upd k r) h Lk) as L1.
    destruct (IH (set_at (id k) (upd k r) h)) as (h' & E & Lh & H1 & H2).
    + intros k' h1 r' Hin Hx Hl. apply Hs; [right; exact Hin | exact Hx | congruence].
    + intros k' Hin. rewrite L1. apply Hr; right; exact Hin.
    + exact Hd.
    + exists h'. split; [exact E|]. split; [congruence|]. split.
      * intros k' r' [<-|Hin] Hx.
        -- rewrite H2 by exact Hn. rewrite set_at_nth, Nat.eqb_refl by exact Lk. congruence.
        -- apply H1; [exact Hin|]. rewrite set_at_nth by exact Lk.
           destruct (Nat.eqb_spec (id k') (id k)) as [Hx'|_]; [|exact Hx].
           exfalso; apply Hn. rewrite <- Hx'. apply in_map; exact Hin.
      * intros i Hi. rewrite H2 by (intros X; apply Hi; right; exact X).
        rewrite set_at_nth by exact Lk. destruct (Nat.eqb_spec i (id k)) as [->|_]; [|reflexivity].
        exfalso; apply Hi; left; reflexivity.
Qed.

(** ** Grids *)
Lemma grid_cons {A} r n (row : list A) m : grid (S r) n (row :: m) <-> length row = n /\ grid r n m.
Proof. unfold grid; cbn. split; [intros [H1 H2]; apply Forall_cons_iff in H2; destruct H2; auto | intros (H1 & H2 & H3); split; [lia | constructor; auto]]. Qed.
Lemma grid_map {A B} (f : A -> B) r n m : grid r n m -> grid r n (map (map f) m).
Proof. intros [H1 H2]. split; [rewrite map_length; exact H1|]. apply Forall_map. eapply Forall_impl; [|exact H2]. intros; rewrite map_length; assumption. Qed.
Lemma grid_row {A} r n (m : list (list A)) c row : grid r n m -> nth_error m c = Some row -> length row = n.
Proof. intros [_ H] E. rewrite Forall_forall in H. apply H. eapply nth_error_In; exact E. Qed.
Lemma vstack_grid {A} (row : list A) r n m : length row = n -> grid r n m -> vstack row m = Ok (row :: m).
Proof.
  intros L [_ H]. unfold vstack. replace (forallb _ m) with true; [reflexivity|]. symmetry. apply forallb_forall.
  intros x Hx. rewrite Forall_forall in H. rewrite (H x Hx), L. apply Nat.eqb_refl.
Qed.
Lemma nth_in_range {A} (l : list A) i : (i < length l)%nat -> exists x, nth_error l i = Some x.
Proof. intros H. destruct (nth_error l i) eqn:E; [eauto|]. apply nth_error_None in E; lia. Qed.

Lemma rings_between_nth age g : forall front back s fl fr bl br x,
  nth_error front s = Some fl -> nth_error front (S s) = Some fr -> nth_error back s = Some bl -> nth_error back (S s) = Some br ->
  nth_error g s = Some x ->
  nth_error (rings_between age front back g) s = Some (aged_ring age fl fr bl br x).
Proof.
  induction g as [|g0 g IH]; intros front back s fl fr bl br x F1 F2 B1 B2 G; [destruct s; discriminate|].
  destruct front as [|f0 [|f1 front]]; [destruct s; discriminate | destruct s as [|[|s]]; discriminate |].
  destruct back as [|b0 [|b1 back]]; [destruct s; discriminate | destruct s as [|[|s]]; discriminate |].
  destruct s as [|s].
  - cbn in F1, F2, B1, B2, G |- *. congruence.
  - change (nth_error (rings_between age (f1 :: front) (b1 :: back) g) s = Some (aged_ring age fl fr bl br x)).
    apply IH; assumption.
Qed.
Lemma rings_between_length age g : forall front back, length front = S (length g) -> length back = S (length g) ->
  length (rings_between age front back g) = length g.
Proof.
  induction g as [|g0 g IH]; intros front back F B.
  - destruct front as [|? [|? ?]]; try reflexivity; destruct back as [|? [|? ?]]; reflexivity.
  - destruct front as [|? [|f1 front]]; try discriminate; destruct back as [|? [|b1 back]]; try discriminate.
    change (S (length (rings_between age (f1 :: front) (b1 :: back) g)) = S (length g)). f_equal. apply IH; cbn in *; lia.
Qed.
Lemma rings_from_grid dt n G : forall c V k, grid (S k) (S n) V -> grid k n G -> grid k n (rings_from dt c V G).
Proof.
  induction G as [|g G IH]; intros c V k HV HG.
  - destruct HG as [<- _]. destruct V as [|v V]; (split; [reflexivity | constructor]).
  - destruct k as [|k]; [destruct HG; discriminate|]. apply grid_cons in HG. destruct HG as [Lg HG].
    destruct V as [|front [|back V]]; [destruct HV; discriminate | destruct HV; discriminate |].
    change (grid (S k) n (rings_between (INR c * dt) front back g :: rings_from dt (S c) (back :: V) G)).
    apply grid_cons in HV. destruct HV as [Lf HV]. apply grid_cons. split.
    + rewrite rings_between_length; [exact Lg | lia | apply grid_cons in HV; lia].
    + apply IH; assumption.
Qed.
Lemma rings_from_nth dt G : forall V i c front back g,
  nth_error V c = Some front -> nth_error V (S c) = Some back -> nth_error G c = Some g ->
  nth_error (rings_from dt i V G) c = Some (rings_between (INR (i + c) * dt) front back g).
Proof.
  induction G as [|g0 G IH]; intros V i c front back g HF HB HG; [destruct c; discriminate|].
  destruct V as [|v0 [|v1 V]]; [destruct c; discriminate | destruct c as [|[|c]]; discriminate |].
  destruct c as [|c].
  - cbn in HF, HB, HG |- *. rewrite Nat.add_0_r. congruence.
  - change (nth_error (rings_from dt (S i) (v1 :: V) G) c = Some (rings_between (INR (i + S c) * dt) front back g)).
    replace (i + S c)%nat with (S i + c)%nat by lia. apply IH; assumption.
Qed.

(** ** One wing's wake *)
Lemma cell_ok V c s front back fl fr bl br : nth_error V c = Some front -> nth_error V (S c) = Some back ->
  nth_error front s = Some fl -> nth_error front (S s) = Some fr -> nth_error back s = Some bl -> nth_error back (S s) = Some br ->
  cell V c s = Ok (fl, fr, bl, br).
Proof.
  intros H1 H2 H3 H4 H5 H6. unfold cell.
  rewrite (proj2 (index_Some _ _ _) H1); cbn [bind]. rewrite (proj2 (index_Some _ _ _) H2); cbn [bind].
  rewrite (proj2 (index_Some _ _ _) H3); cbn [bind]. rewrite (proj2 (index_Some _ _ _) H4); cbn [bind].
  rewrite (proj2 (index_Some _ _ _) H5); cbn [bind]. rewrite (proj2 (index_Some _ _ _) H6); cbn [bind]. reflexivity.
Qed.
Lemma grid_cell {A} k n (V : list (list A)) c s : grid (S k) (S n) V -> (c < k)%nat -> (s < n)%nat ->
  exists front back fl fr bl br, nth_error V c = Some front /\ nth_error V (S c) = Some back /\
    nth_error front s = Some fl /\ nth_error front (S s) = Some fr /\ nth_error back s = Some bl /\ nth_error back (S s) = Some br.
Proof.
  intros HV Hc Hs. pose proof HV as [LV _].
  destruct (nth_in_range V c ltac:(lia)) as [front Hf]. destruct (nth_in_range V (S c) ltac:(lia)) as [back Hb].
  pose proof (grid_row _ _ _ _ _ HV Hf) as Lf. pose proof (grid_row _ _ _ _ _ HV Hb) as Lb.
  destruct (nth_in_range front s ltac:(lia)) as [fl H1]. destruct (nth_in_range front (S s) ltac:(lia)) as [fr H2].
  destruct (nth_in_range back s ltac:(lia)) as [bl H3]. destruct (nth_in_range back (S s) ltac:(lia)) as [br H4].
  exists front, back, fl, fr, bl, br. auto 10.
Qed.

Lemma holds_nth heap ids rings c s row id : holds heap ids rings -> nth_error ids c = Some row -> nth_error row s = Some id ->
  exists rrow r, nth_error rings c = Some rrow /\ nth_error rrow s = Some r /\ nth_error heap id = Some r.
Proof.
  intros H Hc Hs. destruct (Forall2_nth_l _ _ _ H _ _ Hc) as (rrow & Hr & F).
  destruct (Forall2_nth_l _ _ _ F _ _ Hs) as (r & Hx & E). eauto 10.
Qed.
Lemma Forall2_of_nth {A B} (P : A -> B -> Prop) l : forall m, length l = length m ->
  (forall i x y, nth_error l i = Some x -> nth_error m i = Some y -> P x y) -> Forall2 P l m.
Proof.
  induction l as [|x l IH]; intros [|y m] L H; try discriminate; constructor.
  - apply (H 0%nat); reflexivity.
  - apply IH; [cbn in L; lia|]. intros i; apply (H (S i)).
Qed.

(** The position of an entry in a flattened grid. *)
Lemma in_concat_nth {A} (m : list (list A)) c row s x : nth_error m c = Some row -> nth_error row s = Some x -> In x (concat m).
Proof. intros H1 H2. apply in_concat. exists row. split; [eapply nth_error_In; exact H1 | eapply nth_error_In; exact H2]. Qed.
Lemma NoDup_app_inv {A} (l m : list A) : NoDup (l ++ m) -> NoDup l /\ NoDup m /\ forall x, In x l -> ~ In x m.
Proof.
  induction l as [|x l IH]; cbn; intros H; [repeat split; [constructor | exact H | auto]|].
  apply NoDup_cons_iff in H. destruct H as [Hn H]. destruct (IH H) as (H1 & H2 & H3). split; [|split].
  - constructor; [intros X; apply Hn, in_or_app; auto | exact H1].
  - exact H2.
  - intros y [<-|Hy]; [intros X; apply Hn, in_or_app; auto | apply H3; exact Hy].
Qed.
Lemma NoDup_app_intro {A} (l m : list A) : NoDup l -> NoDup m -> (forall x, In x l -> ~ In x m) -> NoDup (l ++ m).
Proof.
  induction l as [|x l IH]; cbn; intros H1 H2 H3; [exact H2|]. apply NoDup_cons_iff in H1. destruct H1 as [Hn H1].
  constructor; [intros X; apply in_app_or in X; destruct X as [X|X]; [contradiction | apply (H3 x (or_introl eq_refl)); exact X]|].
  apply IH; auto.
Qed.
Lemma concat_lookup {A} n (m : list (list A)) : forall k, grid k n m -> forall c s row x,
  nth_error m c = Some row -> nth_error row s = Some x -> nth_error (concat m) (c * n + s) = Some x.
Proof.
  induction m as [|r m IH]; intros k HG c s row x Hc Hs; [destruct c; discriminate|].
  destruct k as [|k]; [destruct HG; discriminate|]. apply grid_cons in HG. destruct HG as [Lr HG].
  assert (Hsn : (s < n)%nat).
  { assert (length row = n).
    { destruct c; cbn in Hc; [congruence | eapply grid_row; eassumption]. }
    assert (s < length row)%nat by (apply nth_error_Some; rewrite Hs; discriminate). lia. }
  destruct c as [|c]; cbn [concat nth_error] in *.
  - assert (r = row) by congruence; subst r. rewrite nth_error_app1 by (cbn; lia). exact Hs.
  - rewrite nth_error_app2 by (cbn; lia). rewrite <- (IH _ HG _ _ _ _ Hc Hs). f_equal. cbn. lia.
Qed.
Lemma grid_injective {A} k n (m : list (list A)) : grid k n m -> NoDup (concat m) -> forall c s c' s' row row' x,
  nth_error m c = Some row -> nth_error row s = Some x -> nth_error m c' = Some row' -> nth_error row' s' = Some x -> c = c' /\ s = s'.
Proof.
  intros HG HD c s c' s' row row' x H1 H2 H3 H4.
  pose proof (concat_lookup _ _ _ HG _ _ _ _ H1 H2) as P. pose proof (concat_lookup _ _ _ HG _ _ _ _ H3 H4) as Q.
  assert (Hs : (s < n)%nat) by (rewrite <- (grid_row _ _ _ _ _ HG H1); apply nth_error_Some; rewrite H2; discriminate).
  assert (Hs' : (s' < n)%nat) by (rewrite <- (grid_row _ _ _ _ _ HG H3); apply nth_error_Some; rewrite H4; discriminate).
  rewrite NoDup_nth_error in HD.
  assert (E : (c * n + s)%nat = (c' * n + s')%nat).
  { apply HD; [apply nth_error_Some; rewrite P; discriminate | congruence]. }
  assert (c = c').
  { rewrite (Nat.mul_comm c n), (Nat.mul_comm c' n) in E. 
    pose proof (Nat.div_unique (n * c + s) n c s Hs eq_refl) as D1.
    pose proof (Nat.div_unique (n * c' + s') n c' s' Hs' eq_refl) as D2. rewrite E in D1. congruence. }
  subst. split; [reflexivity | lia].
Qed.

(** The new row of objects. *)
Lemma shed_rows V k n t (g : list R) : grid (S (S k)) (S n) V -> length g = n ->
  (forall s, (s < n)%nat -> ring_strength_at (w_panels t) (w_num_chordwise_panels t - 1) s = Ok (nth s g 0)) ->
  exists shed front back, mapM (shed_ring V t) (seq 0 n) = Ok shed /\ nth_error V 0 = Some front /\ nth_error V 1 = Some back /\
    shed = rings_between 0 front back g.
Proof.
  intros HV Lg Hg.
  pose proof HV as [LV _].
  destruct (nth_in_range V 0 ltac:(lia)) as [front Hf]. destruct (nth_in_range V 1 ltac:(lia)) as [back Hb].
  pose proof (grid_row _ _ _ _ _ HV Hf) as Lf. pose proof (grid_row _ _ _ _ _ HV Hb) as Lb.
  exists (rings_between 0 front back g), front, back. split; [|auto].
  apply Forall2_mapM. apply Forall2_of_nth; [rewrite seq_length, rings_between_length; lia|].
  intros i s r Hi Hr.
  assert (Hin : (i < n)%nat) by (rewrite <- (seq_length n 0); apply nth_error_Some; rewrite Hi; discriminate).
  rewrite nth_error_nth' with (d := 0%nat) in Hi by (rewrite seq_length; exact Hin). rewrite seq_nth in Hi by exact Hin.
  cbn in Hi. assert (s = i) by congruence. subst s. clear Hi.
  destruct (nth_in_range front i ltac:(lia)) as [fl H1]. destruct (nth_in_range front (S i) ltac:(lia)) as [fr H2].
  destruct (nth_in_range back i ltac:(lia)) as [bl H3]. destruct (nth_in_range back (S i) ltac:(lia)) as [br H4].
  destruct (nth_in_range g i ltac:(lia)) as [x H5].
  rewrite (rings_between_nth _ _ _ _ _ _ _ _ _ _ H1 H2 H3 H4 H5) in Hr.
  unfold shed_ring. rewrite (cell_ok _ _ _ _ _ _ _ _ _ Hf Hb H1 H2 H3 H4). cbn [bind].
  rewrite Hg by exact Hin. cbn [bind]. rewrite (nth_error_nth _ _ _ H5). rewrite <- (Some_eq _ _ Hr). reflexivity.
Qed.

Lemma in_grid_range {A} k n (m : list (list A)) c s row x : grid k n m -> nth_error m c = Some row -> nth_error row s = Some x ->
  (c < k)%nat /\ (s < n)%nat.
Proof.
  intros HG H1 H2. pose proof HG as [L _]. split.
  - rewrite <- L. apply nth_error_Some. rewrite H1; discriminate.
  - rewrite <- (grid_row _ _ _ _ _ HG H1). apply nth_error_Some. rewrite H2; discriminate.
Qed.
Definition id_at (ids : list (list nat)) (cs : nat * nat) : nat := nth (snd cs) (nth (fst cs) ids []) 0%nat.
Lemma id_at_nth ids c s row id : nth_error ids c = Some row -> nth_error row s = Some id -> id_at ids (c, s) = id.
Proof. intros H1 H2. unfold id_at; cbn. rewrite (nth_error_nth _ _ _ H1). apply nth_error_nth; exact H2. Qed.
Lemma grid_entry {A} k n (m : list (list A)) c s : grid k n m -> (c < k)%nat -> (s < n)%nat ->
  exists row x, nth_error m c = Some row /\ nth_error row s = Some x.
Proof.
  intros HG Hc Hs. pose proof HG as [L _]. destruct (nth_in_range m c ltac:(lia)) as [row Hr].
  destruct (nth_in_range row s) as [x Hx]; [rewrite (grid_row _ _ _ _ _ HG Hr); exact Hs|]. eauto.
Qed.
Lemma NoDup_map_in {A B} (f : A -> B) l : NoDup l -> (forall x y, In x l -> In y l -> f x = f y -> x = y) -> NoDup (map f l).
Proof.
  induction l as [|a l IH]; cbn; intros H1 H2; [constructor|]. apply NoDup_cons_iff in H1. destruct H1 as [Hn H1].
  constructor; [|apply IH; auto]. intros X. apply in_map_iff in X. destruct X as (y & E & Hy).
  apply Hn. rewrite <- (H2 y a); auto.
Qed.
Lemma NoDup_list_prod {A B} (l : list A) (m : list B) : NoDup l -> NoDup m -> NoDup (list_prod l m).
Proof.
  induction l as [|a l IH]; cbn; intros H1 H2; [constructor|]. apply NoDup_cons_iff in H1. destruct H1 as [Hn H1].
  apply NoDup_app_intro; [|auto|].
  - apply NoDup_map_in; [exact H2|]. intros x y _ _ E. congruence.
  - intros [x y] Hx Hy. apply in_map_iff in Hx. destruct Hx as (z & E & _). apply in_prod_iff in Hy.
    apply Hn. replace a with x by congruence. tauto.
Qed.

(** One time step of one wing's wake: [V'] are the new vertices, [V] the old ones. *)
Lemma next_rings step dt heap t w k n V V' G g :
  grid (S (S k)) (S n) V' -> w_wake_vertices w = V' ->
  (k = 0%nat \/ (1 <= step)%nat) -> (k = 0%nat /\ w_wake_rings t = [] /\ G = [] \/ grid (S k) (S n) V /\ grid k n (w_wake_rings t) /\ grid k n G) ->
  holds heap (w_wake_rings t) (rings_from dt 0 V G) -> NoDup (concat (w_wake_rings t)) ->
  length g = n -> (forall s, (s < n)%nat -> ring_strength_at (w_panels t) (w_num_chordwise_panels t - 1) s = Ok (nth s g 0)) ->
  exists heap', next_wake_rings step dt heap t w = Ok (heap', w_set_wake V' (seq (length heap) n :: w_wake_rings t) w) /\
    length heap' = (length heap + n)%nat /\
    holds heap' (seq (length heap) n :: w_wake_rings t) (rings_from dt 0 V' (g :: G)) /\
    forall i, (i < length heap)%nat -> ~ In i (concat (w_wake_rings t)) -> nth_error heap' i = nth_error heap i.
Proof.
  intros HV EV Hst Hcase HH HD Lg Hg. set (ids := w_wake_rings t) in *.
  assert (Hids : grid k n ids /\ grid k n G).
  { destruct Hcase as [(-> & -> & ->)|H]; [repeat split; constructor | tauto]. }
  destruct Hids as [Hids HG].
  assert (Hold : forall c s row id, nth_error ids c = Some row -> nth_error row s = Some id ->
            exists grow x fl fr bl br, nth_error G c = Some grow /\ nth_error grow s = Some x /\
              nth_error heap id = Some (aged_ring (INR c * dt) fl fr bl br x)).
  { intros c s row id Hc Hs. destruct (in_grid_range _ _ _ _ _ _ _ Hids Hc Hs) as [Lc Ls].
    destruct Hcase as [(-> & _)|(HV0 & _ & _)]; [lia|].
    destruct (holds_nth _ _ _ _ _ _ _ HH Hc Hs) as (rrow & r & Hr1 & Hr2 & Hr3).
    destruct (grid_cell _ _ _ _ _ HV0 Lc Ls) as (front & back & fl & fr & bl & br & F & B & F1 & F2 & B1 & B2).
    destruct (grid_entry _ _ _ _ _ HG Lc Ls) as (grow & x & Hg1 & Hg2).
    rewrite (rings_from_nth _ _ _ _ _ _ _ _ F B Hg1) in Hr1. apply Some_eq in Hr1. subst rrow.
    rewrite (rings_between_nth _ _ _ _ _ _ _ _ _ _ F1 F2 B1 B2 Hg2) in Hr2. apply Some_eq in Hr2. subst r.
    cbn [Nat.add] in Hr3. eauto 10. }
  unfold next_wake_rings. rewrite EV. pose proof HV as [LV _].
  assert (Lh : length (hd [] V') = S n).
  { destruct V' as [|v V']; [discriminate LV|]. apply grid_cons in HV. cbn. tauto. }
  rewrite LV, Lh. replace (S (S k) - 1)%nat with (S k) by lia. replace (S n - 1)%nat with n by lia.
  replace (S k - 1)%nat with k by lia.
  rewrite (vstack_grid _ k n) by (rewrite ?seq_length; auto). cbn [bind].
  destruct (shed_rows _ _ _ _ _ HV Lg Hg) as (shed & front & back & Es & Hf & Hb & Esh).
  rewrite Es. cbn [bind].
  assert (Lf : length front = S n) by (eapply grid_row; eassumption).
  assert (Lb : length back = S n) by (eapply grid_row; eassumption).
  assert (Ls : length shed = n) by (rewrite Esh, rings_between_length; lia).
  set (ids' := seq (length heap) n :: ids).
  assert (Hin : forall id, In id (concat ids) -> (id < length heap)%nat).
  { intros id Hid. apply in_concat in Hid. destruct Hid as (row & H1 & H2). apply In_nth_error in H1. apply In_nth_error in H2.
    destruct H1 as [c H1], H2 as [s H2]. destruct (Hold _ _ _ _ H1 H2) as (grow & x & fl & fr & bl & br & _ & _ & E).
    apply nth_error_Some. rewrite E; discriminate. }
  destruct (foldM_entries (move_ring step dt V' ids') (id_at ids')
              (fun cs r => match cell V' (fst cs) (snd cs) with
                           | Ok (fl, fr, bl, br) => ring_set_age (rv_age r + dt) (ring_update_position fl fr bl br r)
                           | Err _ => r end)
              (list_prod (seq 1 k) (seq 0 n)) (heap ++ shed)) as (heap' & E & Lh' & H1 & H2).
  { intros [c s] h r Hcs Hr Lhh. apply in_prod_iff in Hcs. destruct Hcs as [Hc Hs]. apply in_seq in Hc. apply in_seq in Hs.
    destruct c as [|c]; [lia|].
    destruct (grid_cell _ _ _ (S c) s HV ltac:(lia) ltac:(lia)) as (fr' & bk' & fl & fr & bl & br & F & B & F1 & F2 & B1 & B2).
    destruct (grid_entry _ _ _ c s Hids ltac:(lia) ltac:(lia)) as (row & id & I1 & I2).
    assert (Eid : id_at ids' (S c, s) = id) by (apply id_at_nth with (row := row); [exact I1 | exact I2]).
    rewrite Eid in *. unfold move_ring. cbn [fst snd]. rewrite (cell_ok _ _ _ _ _ _ _ _ _ F B F1 F2 B1 B2). cbn [bind].
    unfold ids'. cbn [index nth_error]. change (index (seq (length heap) n :: ids) (S c)) with (index ids c).
    rewrite (proj2 (index_Some _ _ _) I1). cbn [bind]. rewrite (proj2 (index_Some _ _ _) I2). cbn [bind].
    rewrite (proj2 (index_Some _ _ _) Hr). cbn [bind]. destruct step; [lia | reflexivity]. }
  { intros [c s] Hcs. apply in_prod_iff in Hcs. destruct Hcs as [Hc Hs]. apply in_seq in Hc. apply in_seq in Hs.
    destruct c as [|c]; [lia|]. destruct (grid_entry _ _ _ c s Hids ltac:(lia) ltac:(lia)) as (row & id & I1 & I2).
    assert (Eid : id_at ids' (S c, s) = id) by (apply id_at_nth with (row := row); [exact I1 | exact I2]).
    rewrite Eid, app_length. specialize (Hin id (in_concat_nth _ _ _ _ _ I1 I2)). lia. }
  { apply NoDup_map_in; [apply NoDup_list_prod; apply seq_NoDup|].
    intros [c s] [c' s'] Hx Hy Exy. apply in_prod_iff in Hx. apply in_prod_iff in Hy.
    destruct Hx as [X1 X2], Hy as [Y1 Y2]. apply in_seq in X1. apply in_seq in X2. apply in_seq in Y1. apply in_seq in Y2.
    destruct c as [|c]; [lia|]. destruct c' as [|c']; [lia|].
    destruct (grid_entry _ _ _ c s Hids ltac:(lia) ltac:(lia)) as (row & id & I1 & I2).
    destruct (grid_entry _ _ _ c' s' Hids ltac:(lia) ltac:(lia)) as (row' & id' & J1 & J2).
    assert (Eid : id_at ids' (S c, s) = id) by (apply id_at_nth with (row := row); [exact I1 | exact I2]).
    assert (Eid' : id_at ids' (S c', s') = id') by (apply id_at_nth with (row := row'); [exact J1 | exact J2]).
    rewrite Eid, Eid' in Exy. subst id'.
    destruct (grid_injective _ _ _ Hids HD _ _ _ _ _ _ _ I1 I2 J1 J2) as [-> ->]. reflexivity. }
  fold ids. fold ids'. rewrite E. cbn [bind]. exists heap'. split; [reflexivity|]. split; [rewrite Lh', app_length; lia|]. split.
  - assert (HR : grid (S k) n (rings_from dt 0 V' (g :: G))).
    { apply rings_from_grid; [exact HV|]. apply grid_cons; auto. }
    assert (HI : grid (S k) n ids') by (apply grid_cons; split; [apply seq_length | exact Hids]).
    apply Forall2_of_nth; [destruct HR as [-> _]; destruct HI as [-> _]; reflexivity|].
    intros c row rrow Hc Hr. apply Forall2_of_nth; [rewrite (grid_row _ _ _ _ _ HI Hc), (grid_row _ _ _ _ _ HR Hr); reflexivity|].
    intros s id r Hs Hx. destruct (in_grid_range _ _ _ _ _ _ _ HI Hc Hs) as [Lc Lcs].
    destruct (grid_cell _ _ _ c s HV ltac:(lia) ltac:(lia)) as (fr' & bk' & fl & fr & bl & br & F & B & F1 & F2 & B1 & B2).
    destruct c as [|c].
    + unfold ids' in Hc. cbn in Hc. apply Some_eq in Hc. subst row.
      rewrite nth_error_nth' with (d := 0%nat) in Hs by (rewrite seq_length; exact Lcs). rewrite seq_nth in Hs by exact Lcs.
      apply Some_eq in Hs. subst id.
      rewrite H2.
      * rewrite nth_error_app2 by lia. replace (length heap + s - length heap)%nat with s by lia.
        rewrite (rings_from_nth dt (g :: G) V' 0 0 _ _ g F B eq_refl) in Hr. apply Some_eq in Hr. subst rrow.
        rewrite Hf in F. rewrite Hb in B. apply Some_eq in F. apply Some_eq in B. subst fr' bk'.
        rewrite <- Hx, Esh. f_equal. replace (INR (0 + 0) * dt) with 0 by (cbn; ring). reflexivity.
      * intros X. apply in_map_iff in X. destruct X as ([c' s'] & E' & Y). apply in_prod_iff in Y. destruct Y as [Y1 Y2].
        apply in_seq in Y1. apply in_seq in Y2. destruct c' as [|c']; [lia|].
        destruct (grid_entry _ _ _ c' s' Hids ltac:(lia) ltac:(lia)) as (row & id & I1 & I2).
        assert (Eid : id_at ids' (S c', s') = id) by (apply id_at_nth with (row := row); [exact I1 | exact I2]).
        specialize (Hin id (in_concat_nth _ _ _ _ _ I1 I2)). lia.
    + change (nth_error ids c = Some row) in Hc.
      destruct (Hold _ _ _ _ Hc Hs) as (grow & x & ofl & ofr & obl & obr & Hg1 & Hg2 & Hh).
      assert (Eid : id_at ids' (S c, s) = id) by (apply id_at_nth with (row := row); [exact Hc | exact Hs]).
      rewrite <- Eid.
      assert (Hh' : nth_error (heap ++ shed) (id_at ids' (S c, s)) = Some (aged_ring (INR c * dt) ofl ofr obl obr x)).
      { rewrite Eid. rewrite nth_error_app1; [exact Hh|]. apply Hin. eapply in_concat_nth; eassumption. }
      rewrite (H1 (S c, s) (aged_ring (INR c * dt) ofl ofr obl obr x)); [| |exact Hh'].
      2:{ apply in_prod_iff. split; apply in_seq; lia. }
      cbn [fst snd]. rewrite (cell_ok _ _ _ _ _ _ _ _ _ F B F1 F2 B1 B2).
      rewrite (rings_from_nth dt (g :: G) V' 0 (S c) _ _ grow F B Hg1) in Hr. apply Some_eq in Hr. subst rrow.
      rewrite (rings_between_nth _ _ _ _ _ _ _ _ _ _ F1 F2 B1 B2 Hg2) in Hx. rewrite <- Hx. f_equal.
      unfold aged_ring, ring_set_age, ring_update_position, new_ring. cbn [rv_front_left rv_front_right rv_back_left rv_back_right rv_strength rv_front_leg rv_left_leg rv_back_leg rv_right_leg rv_center rv_age].
      replace (INR (0 + S c) * dt) with (INR c * dt + dt); [reflexivity|]. cbn [Nat.add]. rewrite S_INR. ring.
  - intros i Hi Hn. rewrite H2; [apply nth_error_app1; exact Hi|].
    intros X. apply in_map_iff in X. destruct X as ([c' s'] & E' & Y). apply in_prod_iff in Y. destruct Y as [Y1 Y2].
    apply in_seq in Y1. apply in_seq in Y2. destruct c' as [|c']; [lia|].
    destruct (grid_entry _ _ _ c' s' Hids ltac:(lia) ltac:(lia)) as (row & id & I1 & I2).
    assert (Eid : id_at ids' (S c', s') = id) by (apply id_at_nth with (row := row); [exact I1 | exact I2]).
    rewrite Eid in E'. subst i. apply Hn. eapply in_concat_nth; eassumption.
Qed.
