(** A movement with fewer time steps is the beginning of the one with more. *)
From Coq Require Import List ZArith Lia Lra Bool Reals String.
From Verif Require Import M_Unsteady S_UnsteadyRun S_Causal S_Solve L_Base L_Loads L_Geometry L_Movement L_Problems L_Causal.
Import ListNotations.
Local Open Scope R_scope.
Local Open Scope list_scope.

Lemma firstn_repeat {A} (x : A) n n' : (n <= n')%nat -> firstn n (repeat x n') = repeat x n.
Proof. revert n'. induction n as [|n IH]; intros n' H; [reflexivity|]. destruct n' as [|n']; [lia|]. cbn. rewrite IH by lia. reflexivity. Qed.
Lemma firstn_map2 {A B C} (f : A -> B -> C) n l m : firstn n (map2 f l m) = map2 f (firstn n l) (firstn n m).
Proof. revert l m. induction n as [|n IH]; intros l m; [reflexivity|]. destruct l, m; try reflexivity. cbn. rewrite IH. reflexivity. Qed.
Lemma firstn_seq n n' a : (n <= n')%nat -> firstn n (seq a n') = seq a n.
Proof. revert n' a. induction n as [|n IH]; intros n' a H; [reflexivity|]. destruct n' as [|n']; [lia|]. cbn. rewrite IH by lia. reflexivity. Qed.
Lemma mapM_firstn {A B} (f : A -> result B) l x n : mapM f l = Ok x -> mapM f (firstn n l) = Ok (firstn n x).
Proof.
  revert x n. induction l as [|a l IH]; intros x n E; cbn in E.
  - apply Ok_eq in E. subst x. destruct n; reflexivity.
  - apply bind_Ok in E. destruct E as (y & Ey & E). apply bind_Ok in E. destruct E as (ys & Eys & E). apply Ok_eq in E. subst x.
    destruct n as [|n]; [reflexivity|]. cbn. rewrite Ey. cbn [bind]. rewrite (IH _ n Eys). reflexivity.
Qed.
Lemma nth_firstn {A} n (l : list A) i : (i < n)%nat -> nth_error (firstn n l) i = nth_error l i.
Proof. revert l i. induction n as [|n IH]; intros l i H; [lia|]. destruct l; [destruct i; reflexivity|]. destruct i; [reflexivity|]. cbn. apply IH. lia. Qed.
Lemma index_firstn {A} n (l : list A) i : (i < n)%nat -> index (firstn n l) i = index l i.
Proof. intros H. unfold index. rewrite nth_firstn by exact H. reflexivity. Qed.
Lemma column_firstn {A} n (l : list (list A)) i : (i < n)%nat -> column (map (firstn n) l) i = column l i.
Proof. intros H. unfold column. induction l as [|r l IH]; [reflexivity|]. cbn [map mapM]. rewrite IH, index_firstn by exact H. reflexivity. Qed.
Lemma mapM_in_ext {A B} (f g : A -> result B) l : (forall x, In x l -> f x = g x) -> mapM f l = mapM g l.
Proof. induction l as [|a l IH]; intros H; [reflexivity|]. cbn [mapM]. rewrite H by (left; reflexivity). rewrite IH by (intros; apply H; right; assumption). reflexivity. Qed.
Lemma linspace_firstn n n' dt : (0 <= n <= n')%Z -> firstn (Z.to_nat n) (linspace_open 0 (IZR n' * dt) (Z.to_nat n')) = linspace_open 0 (IZR n * dt) (Z.to_nat n).
Proof.
  intros H. apply nth_error_ext. intros i. destruct (Nat.lt_ge_cases i (Z.to_nat n)) as [Hi|Hi].
  - rewrite nth_firstn, !times_nth by lia. reflexivity.
  - assert (L : forall a b k, List.length (linspace_open a b k) = k) by (intros; unfold linspace_open; rewrite map_length, seq_length; reflexivity).
    transitivity (@None R); [apply nth_error_None; rewrite firstn_length, L; lia | symmetry; apply nth_error_None; rewrite L; exact Hi].
Qed.

Section Shorter.
  Variables n n' : Z.
  Variable dt : R.
  Hypothesis Hn : (1 <= n <= n')%Z.
  Let N := Z.to_nat n.

  (** What a generator makes for [n] steps, from what it makes for [n']. *)
  Definition shorter {A} (r r' : result (list A)) : Prop := forall h', r' = Ok h' -> r = Ok (firstn N h').
  Lemma count_short : count n = Ok N /\ count n' = Ok (Z.to_nat n').
  Proof. unfold count. destruct (Z.leb_spec 0 n), (Z.leb_spec 0 n'); try lia. auto. Qed.
  Lemma repeat_short {A} (x : A) : firstn N (repeat x (Z.to_nat n')) = repeat x N.
  Proof. apply firstn_repeat. unfold N. lia. Qed.
  Lemma oscillate_custom_short o custom base : shorter (oscillate_custom o custom base n dt) (oscillate_custom o custom base n' dt).
  Proof.
    intros h'. destruct count_short as [C C']. unfold oscillate_custom, oscillating_sinspace, oscillating_linspace, oscillating_customspace. rewrite C, C'. cbn [bind].
    assert (Hn' : (0 <= n <= n')%Z) by lia.
    destruct (String.eqb (osc_spacing o) "sine"), (String.eqb (osc_spacing o) "uniform"), (String.eqb (osc_spacing o) "custom"), custom, (Reqb (osc_amplitude o) 0 || Reqb (osc_period o) 0); intros E; try discriminate E; apply Ok_eq in E; subst h';
      rewrite ?repeat_short, ?firstn_map; unfold N; rewrite ?(linspace_firstn n n' dt Hn'); reflexivity.
  Qed.
  Lemma oscillate_short o base : shorter (oscillate o base n dt) (oscillate o base n' dt).
  Proof.
    intros h'. destruct count_short as [C C']. unfold oscillate, oscillating_sinspace, oscillating_linspace. rewrite C, C'. cbn [bind].
    assert (Hn' : (0 <= n <= n')%Z) by lia.
    destruct (String.eqb (osc_spacing o) "sine"), (String.eqb (osc_spacing o) "uniform"), (Reqb (osc_amplitude o) 0 || Reqb (osc_period o) 0); intros E; try discriminate E; apply Ok_eq in E; subst h';
      rewrite ?repeat_short, ?firstn_map; unfold N; rewrite ?(linspace_firstn n n' dt Hn'); reflexivity.
  Qed.
  Lemma generate_sections_short m last vertical span sweep heave :
    shorter (generate_sections m n dt (firstn N last) vertical span sweep heave) (generate_sections m n' dt last vertical span sweep heave).
  Proof.
    intros h' E. destruct count_short as [C C']. unfold generate_sections in *. rewrite C. rewrite C' in E.
    apply bind_Ok in E. destruct E as (sw & E1 & E). apply bind_Ok in E. destruct E as (pi & E2 & E). apply bind_Ok in E. destruct E as (he & E3 & E). cbn [bind] in E.
    rewrite (oscillate_custom_short _ _ _ _ E1), (oscillate_custom_short _ _ _ _ E2), (oscillate_custom_short _ _ _ _ E3). cbn [bind].
    unfold map4M in *. apply (mapM_firstn _ _ _ N) in E. rewrite !combine_firstn in E. destruct vertical.
    - rewrite !repeat_short in E. exact E.
    - rewrite !firstn_map2, !combine_firstn in E. exact E.
  Qed.
  Lemma histories_short ms : forall last last' hs', (match last, last' with None, None => True | Some l, Some l' => l = firstn N l' | _, _ => False end) ->
    section_histories n' dt last' ms = Ok hs' -> section_histories n dt last ms = Ok (map (firstn N) hs').
  Proof.
    induction ms as [|m ms IH]; intros last last' hs' HL E; cbn [section_histories] in *; [apply Ok_eq in E; subst hs'; reflexivity|].
    apply bind_Ok in E. destruct E as (h & Eh & E). apply bind_Ok in E. destruct E as (rest & Er & E). apply Ok_eq in E. subst hs'.
    match goal with |- bind ?X _ = _ => assert (Eh' : X = Ok (firstn N h)) end.
    { destruct last as [l|], last' as [l'|]; try contradiction.
      - subst l. cbn zeta in *. apply bind_Ok in Eh. destruct Eh as (first & Ef & Eh). rewrite <- firstn_map, index_firstn by (unfold N; lia). rewrite Ef. cbn [bind].
        destruct (base_angles (cs_leading_edge (sm_base m)) first) as [[[span sweep] heave] vertical]. apply generate_sections_short. exact Eh.
      - destruct count_short as [C C']. rewrite C' in Eh. rewrite C. apply bind_Ok in Eh. destruct Eh as (u & Eu & Eh). rewrite Eu. cbn [bind] in *.
        rewrite <- (repeat_short vzero). apply generate_sections_short. exact Eh. }
    rewrite Eh'. cbn [bind]. rewrite (IH (Some (firstn N h)) (Some h) rest eq_refl Er). reflexivity.
  Qed.
  Lemma steps_firstn : firstn N (seq 0 (Z.to_nat n')) = seq 0 N.
  Proof. apply firstn_seq. unfold N. lia. Qed.
  Lemma generate_wings_short m : shorter (generate_wings m n dt) (generate_wings m n' dt).
  Proof.
    intros h' E. unfold generate_wings in *. apply bind_Ok in E. destruct E as (xs & E1 & E). apply bind_Ok in E. destruct E as (ys & E2 & E). apply bind_Ok in E. destruct E as (zs & E3 & E). apply bind_Ok in E. destruct E as (hs & E4 & E).
    rewrite (oscillate_short _ _ _ E1), (oscillate_short _ _ _ E2), (oscillate_short _ _ _ E3), (histories_short _ None None _ I E4). cbn [bind].
    apply (mapM_firstn _ _ _ N) in E. rewrite steps_firstn in E. rewrite <- E. apply mapM_in_ext. intros k Hk. apply in_seq in Hk. rewrite !index_firstn, column_firstn by lia. reflexivity.
  Qed.
  Lemma mapM_short {A B} (f f' : A -> result (list B)) l x : (forall a, shorter (f a) (f' a)) -> mapM f' l = Ok x -> mapM f l = Ok (map (firstn N) x).
  Proof.
    intros H. revert x. induction l as [|a l IH]; intros x E; cbn in E; [apply Ok_eq in E; subst x; reflexivity|].
    apply bind_Ok in E. destruct E as (y & Ey & E). apply bind_Ok in E. destruct E as (ys & Eys & E). apply Ok_eq in E. subst x. cbn. rewrite (H _ _ Ey), (IH _ Eys). reflexivity.
  Qed.
  Lemma generate_airplanes_short m : shorter (generate_airplanes m n dt) (generate_airplanes m n' dt).
  Proof.
    intros h' E. unfold generate_airplanes in *. apply bind_Ok in E. destruct E as (xs & E1 & E). apply bind_Ok in E. destruct E as (ys & E2 & E). apply bind_Ok in E. destruct E as (zs & E3 & E). apply bind_Ok in E. destruct E as (hs & E4 & E).
    rewrite (oscillate_short _ _ _ E1), (oscillate_short _ _ _ E2), (oscillate_short _ _ _ E3). cbn [bind].
    rewrite (mapM_short _ _ _ _ (fun w => generate_wings_short w) E4). cbn [bind].
    apply (mapM_firstn _ _ _ N) in E. rewrite steps_firstn in E. rewrite <- E. apply mapM_in_ext. intros k Hk. apply in_seq in Hk. rewrite !index_firstn, column_firstn by lia. reflexivity.
  Qed.
  Lemma generate_points_short m : shorter (generate_operating_points m n dt) (generate_operating_points m n' dt).
  Proof.
    intros h' E. unfold generate_operating_points in *. apply bind_Ok in E. destruct E as (vs & E1 & E). rewrite (oscillate_short _ _ _ E1). cbn [bind].
    apply (mapM_firstn _ _ _ N) in E. rewrite steps_firstn in E. rewrite <- E. apply mapM_in_ext. intros k Hk. apply in_seq in Hk. rewrite !index_firstn by lia. reflexivity.
  Qed.
End Shorter.

(** Movements *)
Lemma movement_beginning ams om steps cycles chords delta m' n : new_movement ams om steps cycles chords delta = Ok m' -> (1 <= n)%nat -> (Z.of_nat n <= mv_num_steps m')%Z ->
  exists m, new_movement ams om (Some (Z.of_nat n)) None None (Some (mv_delta_time m')) = Ok m /\ beginning n m m'.
Proof.
  intros E H1 H2. destruct (movement_built _ _ _ _ _ _ _ E) as (P1 & P2 & _ & _ & P3 & P4).
  set (n' := mv_num_steps m') in *. set (dt := mv_delta_time m') in *.
  assert (Hn : (1 <= Z.of_nat n <= n')%Z) by lia.
  unfold new_movement. cbn [is_some bind].
  rewrite (mapM_short (Z.of_nat n) _ _ _ _ (fun a => generate_airplanes_short (Z.of_nat n) n' dt Hn a) P3).
  cbn [bind]. rewrite (generate_points_short (Z.of_nat n) n' dt Hn om _ P4). cbn [bind]. eexists. split; [reflexivity|].
  constructor; cbn; try reflexivity; rewrite Nat2Z.id; reflexivity.
Qed.

(** Problems *)
Lemma problem_beginning m m' n up' only' : new_unsteady_problem m' only' = Ok up' -> beginning n m m' -> (Z.of_nat n <= mv_num_steps m')%Z -> mv_airplane_movements m = mv_airplane_movements m' -> mv_op_movement m = mv_op_movement m' ->
  only' = false -> exists up, new_unsteady_problem m false = Ok up /\ List.length (up_steady_problems up) = n /\ begin_alike n up up'.
Proof.
  intros E [B1 B2 B3 B4] Hn M1 M2 ->. unfold new_unsteady_problem in *. cbn zeta in *. unfold mv_max_period in *. rewrite M1, M2.
  apply bind_Ok in E. destruct E as (p & Ep & E). apply bind_Ok in E. destruct E as (ps & Eps & E). apply Ok_eq in E. rewrite Ep. cbn [bind].
  assert (Ln : List.length ps = Z.to_nat (mv_num_steps m')) by (rewrite <- (Forall2_length _ _ _ (mapM_Forall2 _ _ _ Eps)); apply seq_length).
  apply (mapM_firstn _ _ _ n) in Eps. rewrite firstn_seq in Eps by lia.
  assert (E' : mapM (fun step => let* airplanes := column (mv_airplanes m) step in let* op := index (mv_operating_points m) step in Ok (mksteady airplanes op)) (seq 0 (Z.to_nat (mv_num_steps m))) = Ok (firstn n ps)).
  { rewrite B1, Nat2Z.id, <- Eps. apply mapM_in_ext. intros k Hk. apply in_seq in Hk. rewrite B3, B4, column_firstn, index_firstn by lia. reflexivity. }
  rewrite E'. cbn [bind]. eexists. split; [reflexivity|]. subst up'. cbn [up_steady_problems].
  assert (L : List.length (firstn n ps) = n) by (rewrite firstn_length; lia). split; [exact L|].
  constructor; cbn [up_steady_problems up_delta_time up_first_results_step]; [symmetry; exact B2 | lia | lia | | reflexivity].
  intros k Hk. symmetry. apply nth_firstn. exact Hk.
Qed.

Section Longer.
  Variable solve : list (list R) -> list R -> result (list R).
  Hypothesis HS : SolveSpec solve.
  Variable prescribed : bool.
  Lemma longer_begins lines lines' ams om steps cycles chords delta m' up' s' n : new_movement ams om steps cycles chords delta = Ok m' -> new_unsteady_problem m' false = Ok up' ->
    (1 <= n <= List.length (up_steady_problems up'))%nat -> finished solve prescribed lines' up' s' ->
    exists m up s, new_movement ams om (Some (Z.of_nat n)) None None (Some (mv_delta_time m')) = Ok m /\ new_unsteady_problem m false = Ok up /\
      List.length (up_steady_problems up) = n /\ finished solve prescribed lines up s /\
      forall k, (k < n)%nat -> nth_error (up_steady_problems (us_problem s')) k = nth_error (up_steady_problems (us_problem s)) k /\ nth_error (us_wakes s') k = nth_error (us_wakes s) k.
  Proof.
    intros Em Eup Hn HF. destruct (unsteady_built _ _ _ Eup) as (_ & _ & _ & _ & _ & _ & _ & _ & _ & _ & UL & _).
    destruct (movement_beginning _ _ _ _ _ _ _ n Em ltac:(lia) ltac:(lia)) as (m & Em' & HB).
    destruct (movement_built _ _ _ _ _ _ _ Em) as (P1 & P2 & _). destruct (movement_built _ _ _ _ _ _ _ Em') as (Q1 & Q2 & _).
    destruct (problem_beginning m m' n up' false Eup HB ltac:(lia) ltac:(congruence) ltac:(congruence) eq_refl) as (up & Eup' & L & HA).
    assert (HC : created up) by (do 8 eexists; split; [exact Em' | exact Eup']). assert (HC' : created up') by (do 8 eexists; split; [exact Em | exact Eup]).
    rewrite <- L in HA. destruct (longer_repeats solve HS prescribed lines lines' up up' s' HC HC' ltac:(lia) HA HF) as (s & Hs & HR).
    exists m, up, s. rewrite L in HR. auto.
  Qed.
End Longer.
