(** The convergence searches. *)
From Coq Require Import Lra Lia Sorted.
From Verif Require Import M_Convergence S_Convergence.
From Verif Require Import L_Base L_Loads L_Geometry L_Frames L_Search.

(** Results of [k] airplanes, none of whose coefficients is zero. *)
Definition regular (k : nat) (l : list (R * R)) : Prop := length l = k /\ Forall (fun p => fst p <> 0 /\ snd p <> 0) l.
Lemma py_max_close criteria new old k : length new = S k -> length old = S k -> Forall (fun y => y <> 0) old ->
  exists m, py_max_change (map2 percent_change new old) = Ok m /\ number m /\ (below criteria m = true <-> close criteria new old).
Proof.
  intros H1 H2 HF. destruct new as [|x new]; [discriminate|]. destruct old as [|y old]; [discriminate|]. cbn [map2 py_max_change]. eexists. split; [reflexivity|].
  assert (HN : number (percent_change x y) /\ Forall number (map2 percent_change new old)).
  { apply Forall_cons_iff in HF. destruct HF as [Hy HF]. split; [apply percent_number; tauto|]. clear -HF. revert old HF; induction new as [|x new IH]; intros [|y old] HF; cbn [map2]; try constructor.
    - apply Forall_cons_iff in HF. apply percent_number; tauto.
    - apply Forall_cons_iff in HF. apply IH, HF. }
  destruct (below_fold criteria _ _ (proj1 HN) (proj2 HN)) as [Hn Hb]. split; [exact Hn|]. rewrite Hb.
  rewrite <- (close_map2 criteria (x :: new) (y :: old)) by congruence. cbn [map2]. rewrite Forall_cons_iff. reflexivity.
Qed.
Lemma steady_change_settled criteria k new old : regular (S k) new -> regular (S k) old ->
  exists m, steady_change new old = Ok m /\ (below criteria m = true <-> settled criteria new old).
Proof.
  intros [L1 _] [L2 F2]. unfold steady_change.
  destruct (py_max_close criteria (map fst new) (map fst old) k) as (f & Ef & Nf & Bf).
  { rewrite map_length; exact L1. } { rewrite map_length; exact L2. } { apply Forall_map. revert F2. apply Forall_impl. tauto. }
  destruct (py_max_close criteria (map snd new) (map snd old) k) as (m & Em & Nm & Bm).
  { rewrite map_length; exact L1. } { rewrite map_length; exact L2. } { apply Forall_map. revert F2. apply Forall_impl. tauto. }
  rewrite Ef, Em. cbn [bind]. eexists. split; [reflexivity|]. rewrite below_max by assumption. unfold settled. tauto.
Qed.

Section Steady.
Variables (criteria : R) (ar_hi ar_lo chord_lo chord_hi : Z).
Variable trial : Z -> Z -> result (list (R * R)).
Variable c : Z -> Z -> list (R * R).
Variable k : nat.
Notation ok := (in_ranges ar_hi ar_lo chord_lo chord_hi).
Notation acc := (acceptable criteria ar_hi ar_lo chord_lo chord_hi c).
Hypothesis HC : forall ar n v, ok ar n -> trial ar n = Ok v -> v = c ar n /\ regular (S k) v.
Let ars := range_down ar_hi ar_lo.
Let chords := range_up chord_lo chord_hi.
Let key := (nat * Z * (nat * Z))%type.
Let full : list key := list_prod (enumerate ars) (enumerate chords).
Let before : key -> key -> Prop := lex (fun p q => (fst p < fst q)%nat) (fun p q => (fst p < fst q)%nat).
Let ar_of (x : key) : Z := snd (fst x).
Let n_of (x : key) : Z := snd (snd x).
Lemma full_In i ar j n : In ((i, ar), (j, n)) full <-> (ok ar n /\ ar = (ar_hi - Z.of_nat i)%Z /\ n = (chord_lo + Z.of_nat j)%Z).
Proof.
  unfold full. rewrite in_prod_iff, !enumerate_In. unfold ars, chords. rewrite range_down_nth, range_up_nth. unfold in_ranges. tauto.
Qed.
Lemma full_sorted : StronglySorted before full.
Proof. apply list_prod_sorted; apply enumerate_sorted. Qed.
Lemma before_irr x : ~ before x x.
Proof. unfold before, lex. lia. Qed.
Lemma before_trans x y z : before x y -> before y z -> before x z.
Proof. unfold before, lex. intros [H|[H1 H2]] [H'|[H1' H2']]; [left; lia | left; rewrite <- H1'; lia | left; rewrite H1; lia | right; split; [congruence | lia]]. Qed.
Lemma full_earlier l1 x l2 i ar j n : full = l1 ++ x :: l2 -> In ((i, ar), (j, n)) l1 <->
  (In ((i, ar), (j, n)) full /\ earlier ar n (ar_of x) (n_of x)).
Proof.
  intros HF. assert (HX : In x full) by (rewrite HF; apply in_elt). destruct x as [[i' ar'] [j' n']].
  pose proof full_sorted as HS. rewrite HF in HS. etransitivity; [exact (sorted_before before l1 _ l2 _ before_irr before_trans HS)|]. rewrite <- HF.
  apply full_In in HX. unfold ar_of, n_of. cbn [fst snd].
  split; intros [H1 H2]; (split; [exact H1|]); apply full_In in H1; unfold before, lex, earlier in *; cbn [fst snd] in *.
  - destruct H2 as [H2|[H2 H3]]; [left; lia | right; injection H2 as <- <-; lia].
  - destruct H2 as [H2|[H2 H3]]; [left; lia | right]. split; [f_equal; lia | lia].
Qed.
Lemma reach l1 x l2 ar n : full = l1 ++ x :: l2 -> ok ar n -> earlier ar n (ar_of x) (n_of x) ->
  exists i j, In ((i, ar), (j, n)) l1 /\ i = Z.to_nat (ar_hi - ar) /\ j = Z.to_nat (n - chord_lo).
Proof.
  intros HF HO HE. exists (Z.to_nat (ar_hi - ar)), (Z.to_nat (n - chord_lo)). split; [|auto].
  apply (full_earlier _ _ _ _ _ _ _ HF). split; [|exact HE]. apply full_In. unfold in_ranges in *. repeat split; try tauto; lia.
Qed.
Let good (done : list key) (memory : nat -> nat -> list (R * R)) : Prop :=
  forall i ar j n, In ((i, ar), (j, n)) done -> memory i j = c ar n /\ regular (S k) (c ar n).
Let ev (x : key) : result (list (R * R)) := trial (ar_of x) (n_of x).
Let cc (x : key) : list (R * R) := c (ar_of x) (n_of x).
Let acc' (x : key) : Prop := acc (ar_of x) (n_of x).
Let ans (x : key) (p : Z * Z) : Prop := answer criteria ar_hi chord_lo chord_hi c (ar_of x) (n_of x) (fst p) (snd p).
Lemma below_infinite : below criteria Infinite = false.
Proof. reflexivity. Qed.
Lemma loop_step done x rest memory : full = done ++ x :: rest -> ev x = Ok (cc x) -> good done memory ->
  (exists a, acc' x /\ ans x a /\ steady_loop trial criteria ars chords memory (x :: rest) = Ok (Some a)) \/
  (~ acc' x /\ exists m', good (done ++ [x]) m' /\
     steady_loop trial criteria ars chords memory (x :: rest) = steady_loop trial criteria ars chords m' rest).
Proof.
  intros HF HE HG. assert (HX : In x full) by (rewrite HF; apply in_elt). destruct x as [[i ar] [j n]].
  apply full_In in HX. destruct HX as (HO & Har & Hn). unfold ev, cc, acc', ans, ar_of, n_of in *. cbn [fst snd] in *.
  destruct (HC ar n _ HO HE) as [_ HR].
  cbn [steady_loop]. rewrite HE. cbn [bind].
  set (memory' := @set2 steady_coefficients i j (c ar n) memory).
  assert (HG' : good (done ++ [((i, ar), (j, n))]) memory').
  { intros i' ar' j' n' Hin. apply in_app_or in Hin. unfold memory', set2. destruct Hin as [Hin|[E|[]]].
    - assert (HE' : earlier ar' n' ar n) by (apply (full_earlier _ _ _ _ _ _ _ HF) in Hin; apply Hin).
      assert (HI' : In (i', ar', (j', n')) full) by (rewrite HF; apply in_or_app; left; exact Hin). apply full_In in HI'.
      replace (Nat.eqb i' i && Nat.eqb j' j) with false; [apply (HG _ _ _ _ Hin)|].
      symmetry. apply andb_false_iff. unfold earlier in HE'. rewrite !Nat.eqb_neq. lia.
    - injection E as <- <- <- <-. rewrite !Nat.eqb_refl. cbn [andb]. auto. }
  assert (HO' := HO). destruct HO' as [[HO1 HO2] [HO3 HO4]].
  assert (HA : exists m, @change_from steady_coefficients steady_change (c ar n) i (memory' (i - 1)%nat j) = Ok m /\
             (below criteria m = true <-> ar_settled criteria ar_hi c ar n)).
  { unfold change_from. destruct (Nat.ltb 0 i) eqn:Ei.
    - apply Nat.ltb_lt in Ei. assert (HIN : In ((i - 1)%nat, (ar + 1)%Z, (j, n)) done).
      { apply (full_earlier _ _ _ _ _ _ _ HF). split; [apply full_In; unfold in_ranges; lia|]. left. unfold ar_of. cbn [fst snd]. lia. }
      destruct (HG' _ _ _ _ (in_or_app _ _ _ (or_introl HIN))) as [-> HRo]. destruct (steady_change_settled criteria k _ _ HR HRo) as (m & Em & Hm).
      exists m. split; [exact Em|]. rewrite Hm. unfold ar_settled. intuition lia.
    - apply Nat.ltb_ge in Ei. exists Infinite. split; [reflexivity|]. unfold ar_settled. rewrite below_infinite. split; [discriminate | lia]. }
  assert (HB : exists m, @change_from steady_coefficients steady_change (c ar n) j (memory' i (j - 1)%nat) = Ok m /\
             (below criteria m = true <-> chord_settled criteria chord_lo c ar n)).
  { unfold change_from. destruct (Nat.ltb 0 j) eqn:Ei.
    - apply Nat.ltb_lt in Ei. assert (HIN : In (i, ar, ((j - 1)%nat, (n - 1)%Z)) done).
      { apply (full_earlier _ _ _ _ _ _ _ HF). split; [apply full_In; unfold in_ranges; lia|]. right. unfold ar_of, n_of. cbn [fst snd]. lia. }
      destruct (HG' _ _ _ _ (in_or_app _ _ _ (or_introl HIN))) as [-> HRo]. destruct (steady_change_settled criteria k _ _ HR HRo) as (m & Em & Hm).
      exists m. split; [exact Em|]. rewrite Hm. unfold chord_settled. intuition lia.
    - apply Nat.ltb_ge in Ei. exists Infinite. split; [reflexivity|]. unfold chord_settled. rewrite below_infinite. split; [discriminate | lia]. }
  destruct HA as (m1 & E1 & B1), HB as (m2 & E2 & B2). rewrite E1. cbn [bind]. rewrite E2. cbn [bind].
  assert (SA := range_down_single ar_hi ar_lo ltac:(lia)). assert (SC := range_up_single chord_lo chord_hi ltac:(lia)).
  fold ars in SA. fold chords in SC.
  assert (HI : forall b P, (b = true <-> P) -> (b = true /\ P) \/ (b = false /\ ~ P)).
  { intros [|] P H; [left; tauto | right; split; [reflexivity|]]. intros HP. apply H in HP. discriminate. }
  assert (SS := Z.eqb_eq ar 1).
  destruct (HI _ _ B1) as [[-> P1]|[-> P1]], (HI _ _ B2) as [[-> P2]|[-> P2]], (HI _ _ SA) as [[-> P3]|[-> P3]], (HI _ _ SC) as [[-> P4]|[-> P4]],
    (HI _ _ SS) as [[-> P5]|[-> P5]]; cbn [orb andb].
  all: try (right; split; [unfold acceptable; tauto|]; exists memory'; split; [exact HG' | reflexivity]).
  all: left; unfold index.
  all: match goal with |- context [nth_error chords ?u] => assert (HNc : nth_error chords u = Some (chord_lo + Z.of_nat u)%Z) by (apply range_up_nth; unfold chord_settled in *; lia) end.
  all: match goal with |- context [nth_error ars ?u] => assert (HNa : nth_error ars u = Some (ar_hi - Z.of_nat u)%Z) by (apply range_down_nth; unfold ar_settled in *; lia) end.
  all: rewrite HNc, HNa; cbn [bind]; eexists; (split; [unfold acceptable; tauto|]); (split; [|reflexivity]); unfold answer; cbn [fst snd].
  all: unfold chord_settled, ar_settled in *; repeat split; intros; try tauto; try lia.
Qed.
Notation run := (ran trial c).
Notation reach_ := (reached criteria ar_hi ar_lo chord_lo chord_hi trial c).
Lemma steady_outcome :
  outcome ev cc acc' ans full (steady_search trial ar_hi ar_lo chord_lo chord_hi criteria).
Proof.
  unfold steady_search. fold ars chords full.
  apply (loop_from ev cc acc' ans (fun m l => steady_loop trial criteria ars chords m l) good full) with (done := []).
  - reflexivity.
  - intros m [[i ar] [j n]] rest e He. unfold ev, ar_of, n_of in He. cbn [fst snd] in He. cbn [steady_loop]. rewrite He. reflexivity.
  - intros [[i ar] [j n]] v Hin Hv. apply full_In in Hin. apply (HC _ _ _ (proj1 Hin) Hv).
  - intros done x rest m H1 H2 H3. apply loop_step; assumption.
  - reflexivity.
  - constructor.
  - intros i ar j n [].
Qed.
Lemma prefix_reached l1 x l2 : full = l1 ++ x :: l2 -> Forall (passed_over ev cc acc') l1 -> reach_ (ar_of x) (n_of x).
Proof.
  intros HF HP. assert (HX : In x full) by (rewrite HF; apply in_elt). destruct x as [[i ar] [j n]] eqn:EX. apply full_In in HX. split; [apply HX|].
  intros ar' n' HO HE. destruct (reach _ _ _ _ _ HF HO HE) as (i' & j' & HI & _). rewrite Forall_forall in HP. exact (HP _ HI).
Qed.
Lemma all_passed : Forall (passed_over ev cc acc') full -> forall ar n, ok ar n -> run ar n /\ ~ acc ar n.
Proof.
  intros HP ar n HO. rewrite Forall_forall in HP. apply (HP ((Z.to_nat (ar_hi - ar), ar), (Z.to_nat (n - chord_lo), n))).
  apply full_In. unfold in_ranges in *. repeat split; try tauto; lia.
Qed.
(** The three kinds of result, each with what it means. *)
Lemma steady_search_cases :
  (exists ar n a b, steady_search trial ar_hi ar_lo chord_lo chord_hi criteria = Ok (Some (a, b)) /\
     reach_ ar n /\ run ar n /\ acc ar n /\ answer criteria ar_hi chord_lo chord_hi c ar n a b) \/
  (steady_search trial ar_hi ar_lo chord_lo chord_hi criteria = Ok None /\ forall ar n, ok ar n -> run ar n /\ ~ acc ar n) \/
  (exists ar n e, steady_search trial ar_hi ar_lo chord_lo chord_hi criteria = Err e /\ reach_ ar n /\ trial ar n = Err e).
Proof.
  destruct steady_outcome as [l1 x l2 [a b] HF HP HE HA Hans | HP | l1 x l2 e HF HP HE].
  - left. exists (ar_of x), (n_of x), a, b. split; [reflexivity|]. split; [exact (prefix_reached _ _ _ HF HP)|]. split; [exact HE|]. split; [exact HA | exact Hans].
  - right; left. split; [reflexivity|]. apply all_passed, HP.
  - right; right. exists (ar_of x), (n_of x), e. split; [reflexivity|]. split; [exact (prefix_reached _ _ _ HF HP) | exact HE].
Qed.
Lemma first_unique ar n ar' n' : reach_ ar n -> reach_ ar' n' -> (run ar n -> acc ar n) -> (run ar' n' -> acc ar' n') -> ar = ar' /\ n = n'.
Proof.
  intros [HO HE] [HO' HE'] H H'. destruct (Z.lt_trichotomy ar ar') as [L|[->|L]].
  - destruct (HE ar' n' HO' ltac:(left; lia)) as [h1 h2]. tauto.
  - split; [reflexivity|]. destruct (Z.lt_trichotomy n n') as [L|[->|L]]; [|reflexivity|].
    + destruct (HE' ar' n HO ltac:(right; lia)) as [h1 h2]. tauto.
    + destruct (HE ar' n' HO' ltac:(right; lia)) as [h1 h2]. tauto.
  - destruct (HE' ar n HO ltac:(left; lia)) as [h1 h2]. tauto.
Qed.
Lemma answer_unique ar n a b a' b' : ok ar n -> answer criteria ar_hi chord_lo chord_hi c ar n a b -> answer criteria ar_hi chord_lo chord_hi c ar n a' b' -> (a, b) = (a', b').
Proof.
  intros HO (H1 & H2 & H3 & H4) (H1' & H2' & H3' & H4'). assert (D : ar_settled criteria ar_hi c ar n \/ ~ ar_settled criteria ar_hi c ar n) by apply Classical_Prop.classic.
  unfold in_ranges in HO. f_equal; [destruct D as [D|D]; [rewrite (H1 D), (H1' D) | rewrite (H2 D), (H2' D)]; reflexivity|].
  destruct (Z.eq_dec chord_lo chord_hi) as [E|E]; [rewrite (H3 E), (H3' E); reflexivity | rewrite H4, H4' by lia; reflexivity].
Qed.
Lemma steady_found a b : steady_search trial ar_hi ar_lo chord_lo chord_hi criteria = Ok (Some (a, b)) <->
  exists ar n, reach_ ar n /\ run ar n /\ acc ar n /\ answer criteria ar_hi chord_lo chord_hi c ar n a b.
Proof.
  split.
  - intros H. destruct steady_search_cases as [(ar & n & a' & b' & E & HR)|[[E _]|(ar & n & e & E & _)]]; rewrite H in E; try discriminate E.
    injection E as <- <-. exists ar, n. exact HR.
  - intros (ar & n & H1 & H2 & H3 & H4). destruct steady_search_cases as [(ar' & n' & a' & b' & E & H1' & H2' & H3' & H4')|[[E HA]|(ar' & n' & e & E & H1' & H2')]].
    + destruct (first_unique _ _ _ _ H1 H1' (fun _ => H3) (fun _ => H3')) as [<- <-]. rewrite E. do 2 f_equal.
      symmetry. eapply answer_unique; [apply H1 | exact H4 | exact H4'].
    + destruct (HA _ _ (proj1 H1)) as [_ HN]. tauto.
    + unfold ran in *. destruct (first_unique _ _ ar' n' H1 H1' (fun _ => H3)) as [<- <-]; [unfold ran; intros Hr; congruence | congruence].
Qed.
Lemma steady_not_found : steady_search trial ar_hi ar_lo chord_lo chord_hi criteria = Ok None <->
  forall ar n, ok ar n -> run ar n /\ ~ acc ar n.
Proof.
  split.
  - intros H. destruct steady_search_cases as [(ar & n & a' & b' & E & HR)|[[E HA]|(ar & n & e & E & _)]]; rewrite H in E; try discriminate E. exact HA.
  - intros HA. destruct steady_search_cases as [(ar & n & a' & b' & E & H1 & H2 & H3 & _)|[[E _]|(ar & n & e & E & H1 & H2)]]; [| exact E |].
    + destruct (HA _ _ (proj1 H1)). tauto.
    + destruct (HA _ _ (proj1 H1)) as [HR _]. unfold ran in HR. congruence.
Qed.
Lemma steady_failed e : steady_search trial ar_hi ar_lo chord_lo chord_hi criteria = Err e <-> exists ar n, reach_ ar n /\ trial ar n = Err e.
Proof.
  split.
  - intros H. destruct steady_search_cases as [(ar & n & a' & b' & E & HR)|[[E HA]|(ar & n & e' & E & HR)]]; rewrite H in E; try discriminate E.
    injection E as <-. eauto.
  - intros (ar & n & H1 & H2). destruct steady_search_cases as [(ar' & n' & a' & b' & E & H1' & H2' & H3' & _)|[[E HA]|(ar' & n' & e' & E & H1' & H2')]].
    + destruct (first_unique _ _ _ _ H1 H1') as [<- <-]; [unfold ran; intros; congruence | intros _; exact H3' | unfold ran in H2'; congruence].
    + destruct (HA _ _ (proj1 H1)) as [HR _]. unfold ran in HR. congruence.
    + destruct (first_unique _ _ _ _ H1 H1') as [<- <-]; [unfold ran; intros; congruence | unfold ran; intros; congruence | congruence].
Qed.
(** Whatever the runs return, an answer is a mesh of the ranges that has been run. *)
Lemma steady_answer_ran a b : steady_search trial ar_hi ar_lo chord_lo chord_hi criteria = Ok (Some (a, b)) -> ok a b /\ exists v, trial a b = Ok v.
Proof.
  clear HC. unfold steady_search. fold ars chords. fold full. 
  assert (G : forall rest done memory, full = done ++ rest -> (forall x, In x done -> exists v, trial (ar_of x) (n_of x) = Ok v) ->
    steady_loop trial criteria ars chords memory rest = Ok (Some (a, b)) -> ok a b /\ exists v, trial a b = Ok v).
  2:{ intros H. apply (G full [] (fun _ _ => [])); [reflexivity | intros x [] | exact H]. }
  induction rest as [|x rest IH]; intros done memory HF HD H; [discriminate H|].
  assert (HX : In x full) by (rewrite HF; apply in_elt). destruct x as [[i ar] [j n]].
  cbn [steady_loop] in H. apply bind_Ok in H. destruct H as (v & Ev & H).
  assert (HD' : forall x, In x (done ++ [((i, ar), (j, n))]) -> exists v, trial (ar_of x) (n_of x) = Ok v).
  { intros x Hx. apply in_app_or in Hx. destruct Hx as [Hx|[<-|[]]]; [apply HD, Hx | exists v; exact Ev]. }
  cbn zeta in H. apply bind_Ok in H. destruct H as (m1 & E1 & H). apply bind_Ok in H. destruct H as (m2 & E2 & H).
  destruct ((below criteria m1 || Nat.eqb (length ars) 1 || Z.eqb ar 1) && (below criteria m2 || Nat.eqb (length chords) 1)) eqn:EP.
  2:{ eapply (IH (done ++ [((i, ar), (j, n))])); [rewrite <- app_assoc; exact HF | exact HD' | exact H]. }
  apply full_In in HX. destruct HX as (HO & Ha & Hn). assert (HO' := HO). destruct HO' as [[O1 O2] [O3 O4]].
  apply andb_true_iff in EP. destruct EP as [EP1 EP2].
  apply bind_Ok in H. destruct H as (b' & Eb & H). apply bind_Ok in H. destruct H as (a' & Ea & H). injection H as -> ->.
  apply index_Some in Eb, Ea. apply range_up_nth in Eb. apply range_down_nth in Ea.
  assert (B1 : below criteria m1 = true -> (0 < i)%nat).
  { intros B. unfold change_from in E1. destruct (Nat.ltb 0 i) eqn:L; [apply Nat.ltb_lt, L|]. injection E1 as <-. rewrite below_infinite in B. discriminate B. }
  assert (B2 : below criteria m2 = true -> (0 < j)%nat).
  { intros B. unfold change_from in E2. destruct (Nat.ltb 0 j) eqn:L; [apply Nat.ltb_lt, L|]. injection E2 as <-. rewrite below_infinite in B. discriminate B. }
  assert (HR : (ar <= a <= ar + 1)%Z /\ (n - 1 <= b <= n)%Z /\ ok a b).
  { unfold in_ranges. destruct (Nat.eqb (length ars) 1); destruct (below criteria m1); destruct (Nat.eqb (length chords) 1); destruct (below criteria m2); cbn [orb] in EP2; try discriminate EP2; lia. }
  destruct HR as (R1 & R2 & R3). split; [exact R3|].
  destruct (Z.eq_dec a ar) as [->|N1].
  - destruct (Z.eq_dec b n) as [->|N2]; [exists v; exact Ev|].
    apply (HD ((Z.to_nat (ar_hi - ar), ar), (Z.to_nat (b - chord_lo), b))). apply (full_earlier _ _ _ _ _ _ _ HF). split; [|right; cbn [ar_of n_of fst snd]; lia].
    apply full_In. split; [exact R3 | lia].
  - apply (HD ((Z.to_nat (ar_hi - a), a), (Z.to_nat (b - chord_lo), b))). apply (full_earlier _ _ _ _ _ _ _ HF). split; [|left; unfold ar_of; cbn [fst snd]; lia].
    apply full_In. unfold in_ranges in R3. split; [exact R3 | lia].
Qed.
End Steady.

(** ** Unsteady *)
Lemma wake_list_nth p f i w : nth_error (wake_list p f) i = Some w <->
  (wake_allowed p f w /\ i = (if w then 0 else if p then 1 else 0)%nat).
Proof.
  unfold wake_list, wake_allowed. destruct p, f, w; cbn [app].
  all: destruct i as [|[|[|i]]]; cbn; (split; [intros H; try discriminate H; auto | intros [H1 H2]; try discriminate H1; try discriminate H2; auto]).
Qed.
Lemma wake_single p f w : wake_allowed p f w -> Nat.eqb (length (wake_list p f)) 1 = true <-> p <> f.
Proof. destruct p, f, w; cbn; intros H; try discriminate H; intuition congruence. Qed.
(** Results of equally many coefficients, at least one. *)
Definition sized (k : nat) (l : list (list R)) : Prop := length (concat l) = S k.
Lemma unsteady_change_settled criteria k new old : sized k new -> sized k old ->
  exists m, unsteady_change new old = Ok m /\ (below criteria m = true <-> settled4 criteria new old).
Proof.
  unfold sized, unsteady_change, settled4, ravel. intros L1 L2.
  destruct (concat new) as [|x l]; [discriminate|]. destruct (concat old) as [|y l']; [discriminate|]. cbn [map2 np_max_change]. eexists. split; [reflexivity|].
  rewrite below_np_fold, <- (close_map2 criteria (x :: l) (y :: l')) by congruence. cbn [map2]. rewrite Forall_cons_iff. reflexivity.
Qed.
Section Unsteady.
Variables (criteria : R) (prescribed free : bool) (length_lo length_hi ar_hi ar_lo chord_lo chord_hi : Z).
Variable trial : bool -> Z -> Z -> Z -> result (list (list R)).
Variable c : bool -> Z -> Z -> Z -> list (list R).
Variable k : nat.
Notation ok := (in_ranges4 prescribed free length_lo length_hi ar_hi ar_lo chord_lo chord_hi).
Notation acc := (acceptable4 criteria prescribed free length_lo length_hi ar_hi ar_lo chord_lo chord_hi c).
Notation answer_ := (answer4 criteria prescribed length_lo length_hi ar_hi chord_lo chord_hi c).
Hypothesis HC : forall w l ar n v, ok w l ar n -> trial w l ar n = Ok v -> v = c w l ar n /\ sized k v.
Let wakes := wake_list prescribed free.
Let lengths := range_up length_lo length_hi.
Let ars := range_down ar_hi ar_lo.
Let chords := range_up chord_lo chord_hi.
Let key := (nat * bool * (nat * Z) * ((nat * Z) * (nat * Z)))%type.
Let full : list key := list_prod (list_prod (enumerate wakes) (enumerate lengths)) (list_prod (enumerate ars) (enumerate chords)).
Let less {X} (p q : nat * X) : Prop := (fst p < fst q)%nat.
Let before : key -> key -> Prop := lex (lex less less) (lex less less).
Let w_of (x : key) : bool := snd (fst (fst x)).
Let l_of (x : key) : Z := snd (snd (fst x)).
Let ar_of (x : key) : Z := snd (fst (snd x)).
Let n_of (x : key) : Z := snd (snd (snd x)).
Let wid (w : bool) : nat := if w then 0%nat else if prescribed then 1%nat else 0%nat.
Lemma full4_In h w i l j ar g n : In ((h, w), (i, l), ((j, ar), (g, n))) full <->
  (ok w l ar n /\ h = wid w /\ l = (length_lo + Z.of_nat i)%Z /\ ar = (ar_hi - Z.of_nat j)%Z /\ n = (chord_lo + Z.of_nat g)%Z).
Proof. clear HC.
  unfold full. rewrite !in_prod_iff, !enumerate_In. unfold wakes, lengths, ars, chords, wid.
  rewrite wake_list_nth, range_down_nth, !range_up_nth. unfold in_ranges4. tauto.
Qed.
Lemma full4_sorted : StronglySorted before full.
Proof. unfold before, full. repeat apply list_prod_sorted; apply enumerate_sorted. Qed.
Lemma lex_irr {X Y} (p : X -> X -> Prop) (q : Y -> Y -> Prop) : (forall a, ~ p a a) -> (forall a, ~ q a a) -> forall a, ~ lex p q a a.
Proof. unfold lex. intros Hp Hq [x y] [H|[_ H]]; [elim (Hp _ H) | elim (Hq _ H)]. Qed.
Lemma lex_trans {X Y} (p : X -> X -> Prop) (q : Y -> Y -> Prop) : (forall a b d, p a b -> p b d -> p a d) -> (forall a b d, q a b -> q b d -> q a d) ->
  forall a b d, lex p q a b -> lex p q b d -> lex p q a d.
Proof.
  unfold lex. intros Hp Hq a b d [H|[H1 H2]] [H'|[H1' H2']]; [left; eauto | left; rewrite <- H1'; exact H | left; rewrite H1; exact H' | right; split; [congruence | eauto]].
Qed.
Lemma before4_irr x : ~ before x x.
Proof. clear HC. apply lex_irr; apply lex_irr; unfold less; intros; lia. Qed.
Lemma before4_trans x y z : before x y -> before y z -> before x z.
Proof. clear HC. apply lex_trans; apply lex_trans; unfold less; intros; lia. Qed.
Lemma wid_lt w w' : wake_allowed prescribed free w -> wake_allowed prescribed free w' -> (wid w < wid w')%nat <-> (w = true /\ w' = false).
Proof. clear HC. unfold wid, wake_allowed. destruct prescribed, free, w, w'; intros H1 H2; try discriminate H1; try discriminate H2; (split; [intros; split; try reflexivity; lia | intros [E1 E2]; try discriminate E1; try discriminate E2; lia]). Qed.
Lemma wid_inj w w' : wake_allowed prescribed free w -> wake_allowed prescribed free w' -> wid w = wid w' -> w = w'.
Proof. clear HC. unfold wid, wake_allowed. destruct prescribed, free, w, w'; intros H1 H2; try discriminate H1; try discriminate H2; intros; try discriminate; reflexivity. Qed.
Lemma full4_earlier l1 x l2 h w i l j ar g n : full = l1 ++ x :: l2 -> In ((h, w), (i, l), ((j, ar), (g, n))) l1 <->
  (In ((h, w), (i, l), ((j, ar), (g, n))) full /\ earlier4 w l ar n (w_of x) (l_of x) (ar_of x) (n_of x)).
Proof. clear HC.
  intros HF. assert (HX : In x full) by (rewrite HF; apply in_elt). destruct x as [[[h' w'] [i' l']] [[j' ar'] [g' n']]].
  pose proof full4_sorted as HS. rewrite HF in HS. etransitivity; [exact (sorted_before before l1 _ l2 _ before4_irr before4_trans HS)|]. rewrite <- HF.
  apply full4_In in HX. unfold w_of, l_of, ar_of, n_of. cbn [fst snd].
  split; intros [H1 H2]; (split; [exact H1|]); apply full4_In in H1; unfold before, lex, less, earlier4 in *; cbn [fst snd] in *.
  - destruct H1 as (O1 & -> & HL & HA & HN), HX as (O1' & -> & HL' & HA' & HN').
    assert (WL := wid_lt w w' (proj1 O1) (proj1 O1')).
    destruct H2 as [[H2|[H2 H3]]|[H2 [H3|[H3 H4]]]].
    + left. tauto.
    + right. injection H2 as _ ->. split; [reflexivity|]. left. lia.
    + right. injection H2 as _ -> -> ->. split; [reflexivity|]. right. split; [reflexivity|]. left. lia.
    + right. injection H2 as _ -> -> ->. injection H3 as -> ->. split; [reflexivity|]. right. split; [reflexivity|]. right. lia.
  - destruct H1 as (O1 & -> & HL & HA & HN), HX as (O1' & -> & HL' & HA' & HN').
    destruct H2 as [H2|[<- [H2|[-> [H2|[-> H2]]]]]].
    + left. left. apply wid_lt; [apply O1 | apply O1' | exact H2].
    + left. right. split; [reflexivity | lia].
    + right. replace i with i' by lia. split; [reflexivity|]. left. lia.
    + right. replace i with i' by lia. split; [reflexivity|]. right. replace j with j' by lia. split; [reflexivity | lia].
Qed.
Let good (done : list key) (memory : nat -> nat -> nat -> nat -> list (list R)) : Prop :=
  forall h w i l j ar g n, In ((h, w), (i, l), ((j, ar), (g, n))) done -> memory h i j g = c w l ar n /\ sized k (c w l ar n).
Let ev (x : key) : result (list (list R)) := trial (w_of x) (l_of x) (ar_of x) (n_of x).
Let cc (x : key) : list (list R) := c (w_of x) (l_of x) (ar_of x) (n_of x).
Let acc' (x : key) : Prop := acc (w_of x) (l_of x) (ar_of x) (n_of x).
Let ans (x : key) (p : bool * Z * Z * Z) : Prop :=
  answer_ (w_of x) (l_of x) (ar_of x) (n_of x) (fst (fst (fst p))) (snd (fst (fst p))) (snd (fst p)) (snd p).
Lemma reflects b P : (b = true <-> P) -> (b = true /\ P) \/ (b = false /\ ~ P).
Proof. intros H. destruct b; [left; tauto | right; split; [reflexivity|]]. intros HP. apply H in HP. discriminate. Qed.
Lemma loop4_step done x rest memory : full = done ++ x :: rest -> ev x = Ok (cc x) -> good done memory ->
  (exists a, acc' x /\ ans x a /\ unsteady_loop trial criteria wakes lengths ars chords memory (x :: rest) = Ok (Some a)) \/
  (~ acc' x /\ exists m', good (done ++ [x]) m' /\
     unsteady_loop trial criteria wakes lengths ars chords memory (x :: rest) = unsteady_loop trial criteria wakes lengths ars chords m' rest).
Proof.
  intros HF HE HG. assert (HX : In x full) by (rewrite HF; apply in_elt). destruct x as [[[h w] [i l]] [[j ar] [g n]]].
  apply full4_In in HX. destruct HX as (HO & Hh & Hl & Har & Hn). unfold ev, cc, acc', ans, w_of, l_of, ar_of, n_of in *. cbn [fst snd] in *.
  destruct (HC w l ar n _ HO HE) as [_ HR].
  cbn [unsteady_loop]. rewrite HE. cbn [bind].
  set (memory' := @set4 unsteady_coefficients h i j g (c w l ar n) memory).
  assert (HG' : good (done ++ [((h, w), (i, l), ((j, ar), (g, n)))]) memory').
  { intros h' w' i' l' j' ar' g' n' Hin. apply in_app_or in Hin. unfold memory', set4. destruct Hin as [Hin|[E|[]]].
    - assert (HE' : earlier4 w' l' ar' n' w l ar n) by (apply (full4_earlier _ _ _ _ _ _ _ _ _ _ _ HF) in Hin; apply Hin).
      assert (HI' : In (h', w', (i', l'), (j', ar', (g', n'))) full) by (rewrite HF; apply in_or_app; left; exact Hin). apply full4_In in HI'.
      replace (Nat.eqb h' h && Nat.eqb i' i && Nat.eqb j' j && Nat.eqb g' g) with false; [apply (HG _ _ _ _ _ _ _ _ Hin)|].
      symmetry. rewrite !andb_false_iff, !Nat.eqb_neq. destruct HI' as (O' & -> & HI'). unfold earlier4 in HE'. destruct HE' as [HE'|HE'].
      + left; left; left. apply (wid_lt w' w (proj1 O') (proj1 HO)) in HE'. lia.
      + lia.
    - injection E as <- <- <- <- <- <- <- <-. rewrite !Nat.eqb_refl. cbn [andb]. auto. }
  assert (HO' := HO). destruct HO' as (HO0 & [HO1 HO2] & [HO3 HO4] & [HO5 HO6]).
  assert (HP : forall h' w' i' l' j' ar' g' n', ok w' l' ar' n' -> h' = wid w' -> l' = (length_lo + Z.of_nat i')%Z -> ar' = (ar_hi - Z.of_nat j')%Z ->
             n' = (chord_lo + Z.of_nat g')%Z -> earlier4 w' l' ar' n' w l ar n ->
             exists m, unsteady_change (c w l ar n) (memory' h' i' j' g') = Ok m /\ (below criteria m = true <-> settled4 criteria (c w l ar n) (c w' l' ar' n'))).
  { intros h' w' i' l' j' ar' g' n' O' Eh El Ea En HE'. assert (HIN : In (h', w', (i', l'), (j', ar', (g', n'))) done).
    { apply (full4_earlier _ _ _ _ _ _ _ _ _ _ _ HF). split; [apply full4_In; repeat split; try tauto; apply O' | exact HE']. }
    destruct (HG' _ _ _ _ _ _ _ _ (in_or_app _ _ _ (or_introl HIN))) as [-> HRo]. apply (unsteady_change_settled criteria k); assumption. }
  assert (HW : exists m, @change_from unsteady_coefficients unsteady_change (c w l ar n) h (memory' (h - 1)%nat i j g) = Ok m /\
             (below criteria m = true <-> wake_settled4 criteria prescribed c w l ar n)).
  { unfold change_from. destruct (Nat.ltb 0 h) eqn:Ei.
    - apply Nat.ltb_lt in Ei. assert (Ew : w = false /\ prescribed = true) by (rewrite Hh in Ei; unfold wid in Ei; destruct w; [lia|]; destruct prescribed; [auto | lia]).
      destruct Ew as [Ew Ep]. destruct (HP (h - 1)%nat true i l j ar g n) as (m & Em & Hm); try assumption.
      + split; [exact Ep | repeat split; assumption].
      + rewrite Hh. unfold wid. rewrite Ew, Ep. reflexivity.
      + left. auto.
      + exists m. split; [exact Em|]. rewrite Hm. unfold wake_settled4. rewrite Ew. tauto.
    - apply Nat.ltb_ge in Ei. exists Infinite. split; [reflexivity|]. unfold wake_settled4. rewrite below_infinite. split; [discriminate|].
      intros (Ew & Ep & _). rewrite Hh in Ei. unfold wid in Ei. rewrite Ew, Ep in Ei. lia. }
  assert (HL : exists m, @change_from unsteady_coefficients unsteady_change (c w l ar n) i (memory' h (i - 1)%nat j g) = Ok m /\
             (below criteria m = true <-> length_settled4 criteria length_lo c w l ar n)).
  { unfold change_from. destruct (Nat.ltb 0 i) eqn:Ei.
    - apply Nat.ltb_lt in Ei. destruct (HP h w (i - 1)%nat (l - 1)%Z j ar g n) as (m & Em & Hm); try assumption; [unfold in_ranges4; repeat split; try assumption; lia | lia | right; split; [reflexivity | left; lia] |].
      exists m. split; [exact Em|]. rewrite Hm. unfold length_settled4. intuition lia.
    - apply Nat.ltb_ge in Ei. exists Infinite. split; [reflexivity|]. unfold length_settled4. rewrite below_infinite. split; [discriminate | lia]. }
  assert (HA : exists m, @change_from unsteady_coefficients unsteady_change (c w l ar n) j (memory' h i (j - 1)%nat g) = Ok m /\
             (below criteria m = true <-> ar_settled4 criteria ar_hi c w l ar n)).
  { unfold change_from. destruct (Nat.ltb 0 j) eqn:Ei.
    - apply Nat.ltb_lt in Ei. destruct (HP h w i l (j - 1)%nat (ar + 1)%Z g n) as (m & Em & Hm); try assumption; [unfold in_ranges4; repeat split; try assumption; lia | lia | right; split; [reflexivity | right; split; [reflexivity | left; lia]] |].
      exists m. split; [exact Em|]. rewrite Hm. unfold ar_settled4. intuition lia.
    - apply Nat.ltb_ge in Ei. exists Infinite. split; [reflexivity|]. unfold ar_settled4. rewrite below_infinite. split; [discriminate | lia]. }
  assert (HB : exists m, @change_from unsteady_coefficients unsteady_change (c w l ar n) g (memory' h i j (g - 1)%nat) = Ok m /\
             (below criteria m = true <-> chord_settled4 criteria chord_lo c w l ar n)).
  { unfold change_from. destruct (Nat.ltb 0 g) eqn:Ei.
    - apply Nat.ltb_lt in Ei. destruct (HP h w i l j ar (g - 1)%nat (n - 1)%Z) as (m & Em & Hm); try assumption; [unfold in_ranges4; repeat split; try assumption; lia | lia | right; split; [reflexivity | right; split; [reflexivity | right; lia]] |].
      exists m. split; [exact Em|]. rewrite Hm. unfold chord_settled4. intuition lia.
    - apply Nat.ltb_ge in Ei. exists Infinite. split; [reflexivity|]. unfold chord_settled4. rewrite below_infinite. split; [discriminate | lia]. }
  destruct HW as (m0 & E0 & B0), HL as (m1 & E1 & B1), HA as (m2 & E2 & B2), HB as (m3 & E3 & B3).
  rewrite E0. cbn [bind]. rewrite E1. cbn [bind]. rewrite E2. cbn [bind]. rewrite E3. cbn [bind].
  assert (S0 := wake_single prescribed free w HO0). assert (S1 := range_up_single length_lo length_hi ltac:(lia)).
  assert (S2 := range_down_single ar_hi ar_lo ltac:(lia)). assert (S3 := range_up_single chord_lo chord_hi ltac:(lia)).
  fold wakes in S0. fold lengths in S1. fold ars in S2. fold chords in S3. assert (SS := Z.eqb_eq ar 1).
  set (b0 := below criteria m0) in *. set (b1 := below criteria m1) in *. set (b2 := below criteria m2) in *. set (b3 := below criteria m3) in *.
  set (s0 := Nat.eqb (length wakes) 1) in *. set (s1 := Nat.eqb (length lengths) 1) in *. set (s2 := Nat.eqb (length ars) 1) in *. set (s3 := Nat.eqb (length chords) 1) in *.
  set (sat := Z.eqb ar 1) in *.
  assert (HACC : ((b0 || s0 || negb w) && (b1 || s1) && (b2 || s2 || sat) && (b3 || s3) = true) <-> acc w l ar n).
  { unfold acceptable4. rewrite <- B0, <- B1, <- B2, <- B3, <- S0, <- S1, <- S2, <- S3, <- SS, !andb_true_iff, !orb_true_iff, negb_true_iff. clear. tauto. }
  destruct (reflects _ _ HACC) as [[-> HACC']|[-> HACC']]; [left | right; split; [exact HACC'|]; exists memory'; split; [exact HG' | reflexivity]].
  assert (I0 : exists w', index wakes (if s0 then h else if b0 then (h - 1)%nat else h) = Ok w' /\
            (wake_settled4 criteria prescribed c w l ar n -> w' = true) /\ (~ wake_settled4 criteria prescribed c w l ar n -> w' = w)).
  { assert (Hhere : index wakes h = Ok w) by (unfold index, wakes; rewrite (proj2 (wake_list_nth prescribed free h w) (conj HO0 Hh)); reflexivity).
    destruct (reflects _ _ S0) as [[-> P]|[-> P]].
    - exists w. split; [exact Hhere|]. split; [|reflexivity]. intros (Ew & Ep & _). subst w. unfold wake_allowed in HO0. congruence.
    - destruct (reflects _ _ B0) as [[-> Q]|[-> Q]]; [|exists w; split; [exact Hhere|]; split; [tauto | reflexivity]].
      exists true. split; [|split; [reflexivity | tauto]]. destruct Q as (Ew & Ep & _). unfold index, wakes.
      rewrite (proj2 (wake_list_nth prescribed free (h - 1) true)); [reflexivity|]. split; [exact Ep|]. rewrite Hh. unfold wid. rewrite Ew, Ep. reflexivity. }
  assert (I1 : exists l', index lengths (if s1 then i else (i - 1)%nat) = Ok l' /\ (length_lo = length_hi -> l' = l) /\ (length_lo < length_hi -> l' = l - 1)%Z).
  { unfold index, lengths. assert (Q : length_settled4 criteria length_lo c w l ar n \/ length_lo = length_hi) by (apply HACC').
    unfold length_settled4 in Q. destruct (reflects _ _ S1) as [[-> P]|[-> P]].
    - exists l. rewrite (proj2 (range_up_nth length_lo length_hi i l)) by lia. split; [reflexivity | lia].
    - exists (l - 1)%Z. rewrite (proj2 (range_up_nth length_lo length_hi (i - 1) (l - 1))) by lia. split; [reflexivity | lia]. }
  assert (I3 : exists n', index chords (if s3 then g else (g - 1)%nat) = Ok n' /\ (chord_lo = chord_hi -> n' = n) /\ (chord_lo < chord_hi -> n' = n - 1)%Z).
  { unfold index, chords. assert (Q : chord_settled4 criteria chord_lo c w l ar n \/ chord_lo = chord_hi) by (apply HACC').
    unfold chord_settled4 in Q. destruct (reflects _ _ S3) as [[-> P]|[-> P]].
    - exists n. rewrite (proj2 (range_up_nth chord_lo chord_hi g n)) by lia. split; [reflexivity | lia].
    - exists (n - 1)%Z. rewrite (proj2 (range_up_nth chord_lo chord_hi (g - 1) (n - 1))) by lia. split; [reflexivity | lia]. }
  assert (I2 : exists a, index ars (if s2 then j else if b2 then (j - 1)%nat else j) = Ok a /\
            (ar_settled4 criteria ar_hi c w l ar n -> a = (ar + 1)%Z) /\ (~ ar_settled4 criteria ar_hi c w l ar n -> a = ar)).
  { assert (Hhere : index ars j = Ok ar) by (unfold index, ars; rewrite (proj2 (range_down_nth ar_hi ar_lo j ar)) by lia; reflexivity).
    destruct (reflects _ _ S2) as [[-> P]|[-> P]].
    - exists ar. split; [exact Hhere|]. split; [|reflexivity]. intros [Q _]. lia.
    - destruct (reflects _ _ B2) as [[-> Q]|[-> Q]]; [|exists ar; split; [exact Hhere|]; split; [tauto | reflexivity]].
      exists (ar + 1)%Z. split; [|split; [reflexivity | tauto]]. unfold index, ars. destruct Q as [Q _].
      rewrite (proj2 (range_down_nth ar_hi ar_lo (j - 1) (ar + 1))) by lia. reflexivity. }
  destruct I0 as (w' & -> & A0), I1 as (l' & -> & A1), I2 as (a & -> & A2), I3 as (n' & -> & A3). cbn [bind].
  eexists. split; [exact HACC'|]. split; [|reflexivity]. unfold answer4. cbn [fst snd]. tauto.
Qed.
Notation run := (ran4 trial c).
Notation reach_ := (reached4 criteria prescribed free length_lo length_hi ar_hi ar_lo chord_lo chord_hi trial c).
Notation result_ := (unsteady_search trial prescribed free length_lo length_hi ar_hi ar_lo chord_lo chord_hi criteria).
Lemma unsteady_outcome : outcome ev cc acc' ans full result_.
Proof.
  unfold unsteady_search. fold wakes lengths ars chords full.
  apply (loop_from ev cc acc' ans (fun m l => unsteady_loop trial criteria wakes lengths ars chords m l) good full) with (done := []).
  - reflexivity.
  - intros m [[[h w] [i l]] [[j ar] [g n]]] rest e He. unfold ev, w_of, l_of, ar_of, n_of in He. cbn [fst snd] in He. cbn [unsteady_loop]. rewrite He. reflexivity.
  - intros [[[h w] [i l]] [[j ar] [g n]]] v Hin Hv. apply full4_In in Hin. apply (HC _ _ _ _ _ (proj1 Hin) Hv).
  - intros done x rest m H1 H2 H3. apply loop4_step; assumption.
  - reflexivity.
  - constructor.
  - intros h w i l j ar g n [].
Qed.
Lemma key_of w l ar n : ok w l ar n ->
  In ((wid w, w), (Z.to_nat (l - length_lo), l), ((Z.to_nat (ar_hi - ar), ar), (Z.to_nat (n - chord_lo), n))) full.
Proof. clear HC. intros HO. apply full4_In. unfold in_ranges4 in *. repeat split; try tauto; lia. Qed.
Lemma prefix4_reached l1 x l2 : full = l1 ++ x :: l2 -> Forall (passed_over ev cc acc') l1 -> reach_ (w_of x) (l_of x) (ar_of x) (n_of x).
Proof.
  intros HF HP. assert (HX : In x full) by (rewrite HF; apply in_elt). destruct x as [[[h w] [i l]] [[j ar] [g n]]] eqn:EX. apply full4_In in HX. split; [apply HX|].
  intros w' l' ar' n' HO HE. rewrite Forall_forall in HP.
  apply (HP ((wid w', w'), (Z.to_nat (l' - length_lo), l'), ((Z.to_nat (ar_hi - ar'), ar'), (Z.to_nat (n' - chord_lo), n')))).
  apply (full4_earlier _ _ _ _ _ _ _ _ _ _ _ HF). split; [apply key_of, HO | exact HE].
Qed.
Lemma unsteady_search_cases :
  (exists w l ar n w' l' a b, result_ = Ok (Some (w', l', a, b)) /\
     reach_ w l ar n /\ run w l ar n /\ acc w l ar n /\ answer_ w l ar n w' l' a b) \/
  (result_ = Ok None /\ forall w l ar n, ok w l ar n -> run w l ar n /\ ~ acc w l ar n) \/
  (exists w l ar n e, result_ = Err e /\ reach_ w l ar n /\ trial w l ar n = Err e).
Proof.
  destruct unsteady_outcome as [l1 x l2 [[[w' l'] a] b] HF HP HE HA Hans | HP | l1 x l2 e HF HP HE].
  - left. exists (w_of x), (l_of x), (ar_of x), (n_of x), w', l', a, b. split; [reflexivity|]. split; [exact (prefix4_reached _ _ _ HF HP)|]. split; [exact HE|]. split; [exact HA | exact Hans].
  - right; left. split; [reflexivity|]. intros w l ar n HO. rewrite Forall_forall in HP. exact (HP _ (key_of _ _ _ _ HO)).
  - right; right. exists (w_of x), (l_of x), (ar_of x), (n_of x), e. split; [reflexivity|]. split; [exact (prefix4_reached _ _ _ HF HP) | exact HE].
Qed.
Lemma earlier4_total w l ar n w' l' ar' n' : earlier4 w l ar n w' l' ar' n' \/ earlier4 w' l' ar' n' w l ar n \/ (w = w' /\ l = l' /\ ar = ar' /\ n = n').
Proof. clear HC.
  unfold earlier4. destruct (Bool.bool_dec w w') as [E|E]; [|destruct w, w'; try congruence; auto].
  destruct (Z.lt_trichotomy l l') as [L|[L|L]]; [tauto | | subst; tauto].
  destruct (Z.lt_trichotomy ar ar') as [A|[A|A]]; [subst; tauto | | subst; tauto].
  destruct (Z.lt_trichotomy n n') as [N|[N|N]]; subst; tauto.
Qed.
Lemma first4_unique w l ar n w' l' ar' n' : reach_ w l ar n -> reach_ w' l' ar' n' ->
  (run w l ar n -> acc w l ar n) -> (run w' l' ar' n' -> acc w' l' ar' n') -> w = w' /\ l = l' /\ ar = ar' /\ n = n'.
Proof.
  intros [HO HE] [HO' HE'] H H'. destruct (earlier4_total w l ar n w' l' ar' n') as [E|[E|E]]; [| | exact E].
  - destruct (HE' _ _ _ _ HO E). tauto.
  - destruct (HE _ _ _ _ HO' E). tauto.
Qed.
Lemma either {X} (P : Prop) (x y a b : X) : (P -> x = a) /\ (~ P -> x = b) -> (P -> y = a) /\ (~ P -> y = b) -> x = y.
Proof. intros [H1 H2] [H3 H4]. destruct (Classical_Prop.classic P) as [D|D]; [rewrite H1, H3 by exact D | rewrite H2, H4 by exact D]; reflexivity. Qed.
Lemma either_range (lo hi x y a b : Z) : (lo <= hi)%Z -> (lo = hi -> x = a) /\ (lo < hi -> x = b)%Z -> (lo = hi -> y = a) /\ (lo < hi -> y = b)%Z -> x = y.
Proof. lia. Qed.
Lemma answer4_unique w l ar n w1 l1 a1 b1 w2 l2 a2 b2 : ok w l ar n -> answer_ w l ar n w1 l1 a1 b1 -> answer_ w l ar n w2 l2 a2 b2 ->
  (w1, l1, a1, b1) = (w2, l2, a2, b2).
Proof.
  unfold answer4, in_ranges4. intros (_ & HO1 & HO2 & HO3) (A1 & A2 & A3 & A4 & A5 & A6 & A7 & A8) (B1 & B2 & B3 & B4 & B5 & B6 & B7 & B8).
  assert (w1 = w2) by exact (either _ _ _ _ _ (conj A1 A2) (conj B1 B2)). assert (a1 = a2) by exact (either _ _ _ _ _ (conj A5 A6) (conj B5 B6)).
  assert (l1 = l2) by (apply (either_range length_lo length_hi l1 l2 l (l - 1)%Z); [lia | auto | auto]).
  assert (b1 = b2) by (apply (either_range chord_lo chord_hi b1 b2 n (n - 1)%Z); [lia | auto | auto]). congruence.
Qed.
Lemma unsteady_found w' l' a b : result_ = Ok (Some (w', l', a, b)) <->
  exists w l ar n, reach_ w l ar n /\ run w l ar n /\ acc w l ar n /\ answer_ w l ar n w' l' a b.
Proof.
  split.
  - intros H. destruct unsteady_search_cases as [(w & l & ar & n & w2 & l2 & a2 & b2 & E & HR)|[[E _]|(w & l & ar & n & e & E & _)]]; rewrite H in E; try discriminate E.
    injection E as <- <- <- <-. exists w, l, ar, n. exact HR.
  - intros (w & l & ar & n & H1 & H2 & H3 & H4).
    destruct unsteady_search_cases as [(w1 & l1 & ar1 & n1 & w2 & l2 & a2 & b2 & E & H1' & H2' & H3' & H4')|[[E HA]|(w1 & l1 & ar1 & n1 & e & E & H1' & H2')]].
    + destruct (first4_unique _ _ _ _ _ _ _ _ H1 H1' (fun _ => H3) (fun _ => H3')) as (<- & <- & <- & <-). rewrite E. do 2 f_equal.
      symmetry. eapply answer4_unique; [apply H1 | exact H4 | exact H4'].
    + destruct (HA _ _ _ _ (proj1 H1)) as [_ HN]. tauto.
    + unfold ran4 in *. destruct (first4_unique _ _ _ _ w1 l1 ar1 n1 H1 H1' (fun _ => H3)) as (<- & <- & <- & <-); [unfold ran4; intros Hr; congruence | congruence].
Qed.
Lemma unsteady_not_found : result_ = Ok None <-> forall w l ar n, ok w l ar n -> run w l ar n /\ ~ acc w l ar n.
Proof.
  split.
  - intros H. destruct unsteady_search_cases as [(w & l & ar & n & w2 & l2 & a2 & b2 & E & HR)|[[E HA]|(w & l & ar & n & e & E & _)]]; rewrite H in E; try discriminate E. exact HA.
  - intros HA. destruct unsteady_search_cases as [(w & l & ar & n & w2 & l2 & a2 & b2 & E & H1 & H2 & H3 & _)|[[E _]|(w & l & ar & n & e & E & H1 & H2)]]; [| exact E |].
    + destruct (HA _ _ _ _ (proj1 H1)). tauto.
    + destruct (HA _ _ _ _ (proj1 H1)) as [HR _]. unfold ran4 in HR. congruence.
Qed.
Lemma unsteady_failed e : result_ = Err e <-> exists w l ar n, reach_ w l ar n /\ trial w l ar n = Err e.
Proof.
  split.
  - intros H. destruct unsteady_search_cases as [(w & l & ar & n & w2 & l2 & a2 & b2 & E & HR)|[[E HA]|(w & l & ar & n & e' & E & HR)]]; rewrite H in E; try discriminate E.
    injection E as <-. exists w, l, ar, n. exact HR.
  - intros (w & l & ar & n & H1 & H2).
    destruct unsteady_search_cases as [(w1 & l1 & ar1 & n1 & w2 & l2 & a2 & b2 & E & H1' & H2' & H3' & _)|[[E HA]|(w1 & l1 & ar1 & n1 & e' & E & H1' & H2')]].
    + destruct (first4_unique _ _ _ _ _ _ _ _ H1 H1') as (<- & <- & <- & <-); [unfold ran4; intros; congruence | intros _; exact H3' | unfold ran4 in H2'; congruence].
    + destruct (HA _ _ _ _ (proj1 H1)) as [HR _]. unfold ran4 in HR. congruence.
    + destruct (first4_unique _ _ _ _ _ _ _ _ H1 H1') as (<- & <- & <- & <-); [unfold ran4; intros; congruence | unfold ran4; intros; congruence | congruence].
Qed.
Lemma unsteady_answer_ran w' l' a b : result_ = Ok (Some (w', l', a, b)) -> ok w' l' a b /\ exists v, trial w' l' a b = Ok v.
Proof.
  clear HC. unfold unsteady_search. fold wakes lengths ars chords. fold full. 
  assert (G : forall rest done memory, full = done ++ rest -> (forall x, In x done -> exists v, ev x = Ok v) ->
    unsteady_loop trial criteria wakes lengths ars chords memory rest = Ok (Some (w', l', a, b)) -> ok w' l' a b /\ exists v, trial w' l' a b = Ok v).
  2:{ intros H. apply (G full [] (fun _ _ _ _ => [])); [reflexivity | intros x [] | exact H]. }
  induction rest as [|x rest IH]; intros done memory HF HD H; [discriminate H|].
  assert (HX : In x full) by (rewrite HF; apply in_elt). destruct x as [[[h w] [i l]] [[j ar] [g n]]].
  cbn [unsteady_loop] in H. apply bind_Ok in H. destruct H as (v & Ev & H).
  assert (HD' : forall x, In x (done ++ [((h, w), (i, l), ((j, ar), (g, n)))]) -> exists v, ev x = Ok v).
  { intros x Hx. apply in_app_or in Hx. destruct Hx as [Hx|[<-|[]]]; [apply HD, Hx | exists v; exact Ev]. }
  cbn zeta in H. apply bind_Ok in H. destruct H as (m0 & E0 & H). apply bind_Ok in H. destruct H as (m1 & E1 & H).
  apply bind_Ok in H. destruct H as (m2 & E2 & H). apply bind_Ok in H. destruct H as (m3 & E3 & H).
  destruct ((below criteria m0 || Nat.eqb (length wakes) 1 || negb w) && (below criteria m1 || Nat.eqb (length lengths) 1) &&
            (below criteria m2 || Nat.eqb (length ars) 1 || Z.eqb ar 1) && (below criteria m3 || Nat.eqb (length chords) 1)) eqn:EP.
  2:{ eapply (IH (done ++ [((h, w), (i, l), ((j, ar), (g, n)))])); [rewrite <- app_assoc; exact HF | exact HD' | exact H]. }
  apply full4_In in HX. destruct HX as (HO & Hh & Hl & Ha & Hn). assert (HO' := HO). destruct HO' as (O0 & [O1 O2] & [O3 O4] & [O5 O6]).
  rewrite !andb_true_iff in EP. destruct EP as [[[EP0 EP1] EP2] EP3].
  apply bind_Ok in H. destruct H as (w1 & Ew & H). apply bind_Ok in H. destruct H as (l1 & El & H).
  apply bind_Ok in H. destruct H as (b' & Eb & H). apply bind_Ok in H. destruct H as (a' & Ea & H). injection H as -> -> -> ->.
  apply index_Some in Ew, El, Eb, Ea. apply wake_list_nth in Ew. apply range_up_nth in El. apply range_up_nth in Eb. apply range_down_nth in Ea.
  assert (B : forall X (m : change) (k : nat) (x y : X) f, change_from f x k y = Ok m -> below criteria m = true -> (0 < k)%nat).
  { intros X m q x y f E Bm. unfold change_from in E. destruct (Nat.ltb 0 q) eqn:L; [apply Nat.ltb_lt, L|]. injection E as <-. rewrite below_infinite in Bm. discriminate Bm. }
  pose proof (B _ _ _ _ _ _ E0) as B0. pose proof (B _ _ _ _ _ _ E1) as B1. pose proof (B _ _ _ _ _ _ E2) as B2. pose proof (B _ _ _ _ _ _ E3) as B3.
  clear E0 E1 E2 E3 B.
  assert (HL : (l - 1 <= l' <= l)%Z) by (destruct (Nat.eqb (length lengths) 1); destruct (below criteria m1); cbn [orb] in EP1; try discriminate EP1; lia).
  assert (HB : (n - 1 <= b <= n)%Z) by (destruct (Nat.eqb (length chords) 1); destruct (below criteria m3); cbn [orb] in EP3; try discriminate EP3; lia).
  assert (HA : (ar <= a <= ar + 1)%Z) by (destruct (Nat.eqb (length ars) 1); destruct (below criteria m2); lia).
  assert (R : ok w' l' a b) by (unfold in_ranges4; split; [apply Ew | lia]). split; [exact R|].
  assert (HW : w' = w \/ (w' = true /\ w = false)).
  { destruct Ew as [Ew1 Ew2]. destruct w', w; auto. exfalso. unfold wake_allowed in O0. rewrite Hh in Ew2. unfold wid in Ew2. rewrite O0 in Ew2. destruct (Nat.eqb (length wakes) 1), (below criteria m0); discriminate Ew2. }
  assert (HD2 : earlier4 w' l' a b w l ar n -> exists v, trial w' l' a b = Ok v).
  { intros HE. apply (HD ((wid w', w'), (Z.to_nat (l' - length_lo), l'), ((Z.to_nat (ar_hi - a), a), (Z.to_nat (b - chord_lo), b)))).
    apply (full4_earlier _ _ _ _ _ _ _ _ _ _ _ HF). split; [apply key_of, R | exact HE]. }
  destruct (earlier4_total w' l' a b w l ar n) as [HE|[HE|(-> & -> & -> & ->)]]; [exact (HD2 HE) | | exists v; exact Ev].
  exfalso. unfold earlier4 in HE. destruct HE as [[-> ->]|[<- HE]]; [destruct HW as [HW|[HW _]]; discriminate HW | lia].
Qed.
End Unsteady.
