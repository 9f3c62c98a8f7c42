(** Which contours are accepted, and contours with one side only. *)
From Coq Require Import List Ascii String Reals Lra Lia Arith.
From Verif Require Import M_Airfoil S_Airfoil S_Names L_Base L_Loads L_Geometry L_Camber L_Names.
Import ListNotations.
Local Open Scope R_scope.
Local Open Scope list_scope.

Lemma pairs_of_numbers c : pairs_of (numbers_of c) = Some c.
Proof. unfold numbers_of. induction c as [|[x y] c IH]; [reflexivity|]. cbn [map concat app pairs_of fst snd]. rewrite IH. reflexivity. Qed.
Lemma pairs_of_cases l : (exists c, l = numbers_of c) \/ Nat.Odd (length l) /\ pairs_of l = None.
Proof.
  assert (H : forall n l, (length l <= n)%nat -> (exists c, l = numbers_of c) \/ Nat.Odd (length l) /\ pairs_of l = None).
  { induction n as [|n IH]; intros [|x [|y m]] Hn; cbn [length] in Hn; try lia; try (left; exists []; reflexivity); try (right; split; [exists 0%nat; reflexivity | reflexivity]).
    destruct (IH m ltac:(lia)) as [(c & ->)|([k Hk] & E)].
    - left. exists ((x, y) :: c). reflexivity.
    - right. cbn [length]. split; [exists (S k); lia|]. cbn [pairs_of]. rewrite E. reflexivity. }
  exact (H (length l) l (le_n _)).
Qed.
Lemma file_names database name text : plain_name name text ->
  (forall c1 c2 c3 c4 d1 d2 d3 d4, follows (list_ascii_of_string "naca") text [c1; c2; c3; c4] -> ~ (digit c1 d1 /\ digit c2 d2 /\ digit c3 d3 /\ digit c4 d4)) ->
  (database text = None -> populate_coordinates database name = Err EAirfoilNotInDatabase) /\
  (forall points, database text = Some (numbers_of points) -> populate_coordinates database name = Ok points) /\
  (forall l, database text = Some l -> Nat.Odd (length l) -> populate_coordinates database name = Err EOddCoordinates).
Proof.
  intros HP HN. rewrite (plain_other database name text HP HN). split; [intros ->; reflexivity|]. split; [intros c ->; rewrite pairs_of_numbers; reflexivity|].
  intros l -> HO. destruct (pairs_of_cases l) as [(c & ->)|(_ & E)]; [|rewrite E; reflexivity]. exfalso.
  assert (EL : length (numbers_of c) = (2 * length c)%nat) by (clear; unfold numbers_of; induction c as [|p c IH]; [reflexivity|]; cbn [map concat app length] in *; lia).
  rewrite EL in HO. destruct HO as [k Hk]. lia.
Qed.
Lemma foremost_index c i le : foremost c i le -> leading_edge_index c = Ok i.
Proof.
  intros (Hi & HA & HB). unfold leading_edge_index. apply (argmin_first _ _ (fst le)).
  - rewrite nth_error_map, Hi. reflexivity.
  - intros j x Hj Hlt. rewrite nth_error_map in Hj. destruct (nth_error c j) as [p|] eqn:Ep; [|discriminate]. injection Hj as <-. exact (HB j p Ep Hlt).
  - intros x Hx. apply in_map_iff in Hx. destruct Hx as (p & <- & Hp). exact (HA p Hp).
Qed.
Lemma foremost_exists c : c <> [] -> exists i le, foremost c i le.
Proof.
  intros Hc. destruct (first_minimum (map fst c)) as (k & m & Hk & Hb & Hall); [destruct c; [congruence | discriminate]|].
  rewrite nth_error_map in Hk. destruct (nth_error c k) as [le|] eqn:E; [|discriminate]. injection Hk as <-. exists k, le. split; [exact E|]. split.
  - intros p Hp. apply Hall, in_map, Hp.
  - intros j p Hj Hlt. apply (Hb j); [rewrite nth_error_map, Hj; reflexivity | exact Hlt].
Qed.
Lemma broadcast_ok {A B C} (f : A -> B -> C) a b : (exists m, broadcast f a b = Ok m) <-> length a = length b \/ length a = 1%nat \/ length b = 1%nat.
Proof.
  split; [intros (m & E); exact (broadcast_lengths _ _ _ _ E)|]. unfold broadcast. destruct (Nat.eqb_spec (length a) (length b)) as [E|E]; [eauto|].
  destruct a as [|x [|x' a]], b as [|y [|y' b]]; cbn [length] in *; intros [H|[H|H]]; try lia; eauto.
Qed.
Lemma broadcast_size {A B C} (f : A -> B -> C) a b m : broadcast f a b = Ok m -> length m = length b \/ length a <> 1%nat /\ length m = length a.
Proof.
  unfold broadcast. destruct (Nat.eqb_spec (length a) (length b)) as [E|E]; [intros H; apply Ok_eq in H; subst m; left; rewrite map2_length; lia|].
  destruct a as [|x [|x' a]], b as [|y [|y' b]]; cbn [length] in *; intros H; try discriminate; apply Ok_eq in H; subst m; cbn [length map]; rewrite ?map_length; auto.
Qed.
Lemma accepted_contours pchip database name c np :
  (exists a, new_airfoil pchip database name (Some c) false np = Ok a) <-> exists i le, foremost c i le /\ (length c = 2 * i + 1 \/ i = 0 \/ S i = length c)%nat.
Proof.
  unfold new_airfoil. cbn [bind]. unfold with_mcl, upper_coordinates, lower_coordinates. split.
  - intros (a & H). destruct c as [|p c0] eqn:Ec; [discriminate|]. rewrite <- Ec in *. destruct (foremost_exists c ltac:(subst c; discriminate)) as (i & le & HF). exists i, le. split; [exact HF|].
    rewrite (foremost_index _ _ _ HF) in H. cbn [bind] in H. apply bind_Ok in H. destruct H as (m & E & _). apply broadcast_lengths in E. rewrite rev_length, firstn_length, skipn_length in E.
    assert (Hi : (i < length c)%nat) by (apply nth_error_Some; destruct HF as (-> & _); discriminate). lia.
  - intros (i & le & HF & HL). rewrite (foremost_index _ _ _ HF). cbn [bind]. assert (Hi : (i < length c)%nat) by (apply nth_error_Some; destruct HF as (-> & _); discriminate).
    destruct (proj2 (broadcast_ok pair_mean (rev (firstn (S i) c)) (skipn i c))) as (m & Em); [rewrite rev_length, firstn_length, skipn_length; lia|].
    rewrite Em. cbn [bind]. pose proof (broadcast_size _ _ _ _ Em) as HM. rewrite rev_length, firstn_length, skipn_length in HM.
    destruct (proj2 (broadcast_ok pair_sub (rev (firstn (S i) c)) m)) as (m2 & Em2); [rewrite rev_length, firstn_length; lia|]. rewrite Em2. cbn [bind]. eauto.
Qed.
Lemma half_distance u l : sqrt (fst (pair_sub u (mid2 u l)) ^ 2 + snd (pair_sub u (mid2 u l)) ^ 2) * 2 = dist2 u l.
Proof.
  unfold dist2, pair_sub, mid2. cbn [fst snd]. symmetry.
  match goal with |- sqrt ?A = sqrt ?B * 2 => replace A with (B * (2 * 2)) by field; assert (0 <= B) by (apply Rplus_le_le_0_compat; apply pow2_ge_0) end.
  rewrite sqrt_mult by (try assumption; lra). rewrite (sqrt_square 2) by lra. reflexivity.
Qed.
Lemma firstn_1 {A} (l : list A) x : nth_error l 0 = Some x -> firstn 1 l = [x].
Proof. destruct l; [discriminate|]. intros H. injection H as ->. reflexivity. Qed.
Lemma one_sided pchip database name c np a i le : new_airfoil pchip database name (Some c) false np = Ok a -> foremost c i le ->
  (i = 0%nat -> af_mcl_coordinates a = map (mid2 le) c /\ af_thickness a = map (fun p => (fst (mid2 le p), dist2 le p)) c) /\
  (S i = length c -> af_mcl_coordinates a = map (fun p => mid2 p le) (rev c) /\ af_thickness a = map (fun p => (fst (mid2 p le), dist2 p le)) (rev c)).
Proof.
  intros H HF. unfold new_airfoil in H. cbn [bind] in H. unfold with_mcl, upper_coordinates, lower_coordinates in H. rewrite (foremost_index _ _ _ HF) in H. cbn [bind] in H.
  apply bind_Ok in H. destruct H as (m & Em & H). apply bind_Ok in H. destruct H as (u & Eu & H). apply Ok_eq in H. subst a. cbn [af_mcl_coordinates af_thickness].
  assert (HT : forall l : list (R * R), forall f g : R * R -> R * R, (forall p, In p l -> sqrt (fst (g p) ^ 2 + snd (g p) ^ 2) * 2 = dist2 le p) ->
    combine (map fst (map f l)) (map (fun d => sqrt (fst d ^ 2 + snd d ^ 2) * 2) (map g l)) = map (fun p => (fst (f p), dist2 le p)) l).
  { intros l f g Hg. rewrite !map_map, L_Base.combine_map. apply map_ext_in. intros p Hp. rewrite (Hg p Hp). reflexivity. }
  assert (HS : forall p q, mid2 p q = mid2 q p) by (intros p q; unfold mid2; f_equal; lra).
  assert (HD : forall p q, dist2 p q = dist2 q p) by (intros p q; unfold dist2; f_equal; ring).
  destruct HF as (Hn & _). split.
  - intros ->. cbn [skipn] in Em. rewrite (firstn_1 _ _ Hn) in Em, Eu. cbn [rev app] in Em, Eu.
    assert (E1 : m = map (mid2 le) c).
    { unfold broadcast in Em. destruct (Nat.eqb_spec (length [le]) (length c)) as [EL|EL]; apply Ok_eq in Em; subst m; [|reflexivity]. destruct c as [|x [|]]; try discriminate EL. reflexivity. }
    assert (E2 : u = map (fun p => pair_sub le (mid2 le p)) c).
    { unfold broadcast in Eu. destruct (Nat.eqb_spec (length [le]) (length m)) as [EL|EL]; apply Ok_eq in Eu; subst u m; [|rewrite map_map; reflexivity]. rewrite map_length in EL. destruct c as [|x [|]]; try discriminate EL. reflexivity. }
    rewrite E1, E2. split; [reflexivity|]. apply (HT c (mid2 le) (fun p => pair_sub le (mid2 le p))). intros p _. apply half_distance.
  - intros EL. rewrite EL, firstn_all in Em, Eu.
    assert (ES : skipn i c = [le]).
    { clear -Hn EL. revert i Hn EL. induction c as [|x c IH]; intros i Hn EL; [destruct i; discriminate|]. destruct i as [|i].
      - destruct c; [|cbn [length] in EL; lia]. injection Hn as ->. reflexivity.
      - cbn [skipn nth_error] in *. apply IH; [exact Hn | cbn [length] in EL; lia]. }
    rewrite ES in Em.
    assert (E1 : m = map (fun p => mid2 p le) (rev c)).
    { unfold broadcast in Em. destruct (Nat.eqb_spec (length (rev c)) (length [le])) as [E|E]; [apply Ok_eq in Em; subst m; destruct (rev c) as [|x [|]]; try discriminate E; reflexivity|].
      destruct (rev c) as [|x [|y l]]; [apply Ok_eq in Em; subst m; reflexivity | cbn in E; lia | apply Ok_eq in Em; subst m; reflexivity]. }
    assert (E2 : u = map (fun p => pair_sub p (mid2 p le)) (rev c)).
    { unfold broadcast in Eu. rewrite E1, map_length, Nat.eqb_refl in Eu. apply Ok_eq in Eu. subst u. generalize (rev c). intros l. induction l as [|x l IH]; [reflexivity|]. cbn [map map2]. rewrite IH. reflexivity. }
    rewrite E1, E2. split; [reflexivity|]. rewrite (HT (rev c) (fun p => mid2 p le) (fun p => pair_sub p (mid2 p le))).
    + apply map_ext. intros p. rewrite HD. reflexivity.
    + intros p _. rewrite half_distance. apply HD.
Qed.
Lemma one_sided_example : foremost [(0, 0); (1, 2)] 0 (0, 0) /\ foremost [(1, 2); (0, 0)] 1 (0, 0) /\ forall i le, ~ (foremost [(2, 0); (1, 1); (0, 0); (2, 0)] i le /\ (4 = 2 * i + 1 \/ i = 0 \/ S i = 4)%nat).
Proof.
  split; [|split].
  - split; [reflexivity|]. split; [intros p [<-|[<-|[]]]; cbn; lra | intros; lia].
  - split; [reflexivity|]. split; [intros p [<-|[<-|[]]]; cbn; lra|]. intros [|j] p Hj Hlt; [|lia]. injection Hj as <-. cbn. lra.
  - intros i le ((Hn & HA & _) & H). pose proof (HA (0, 0) ltac:(cbn; auto)) as H0. destruct H as [H|[->|H]]; [lia | | replace i with 3%nat in Hn by lia]; injection Hn as <-; cbn in H0; lra.
Qed.
