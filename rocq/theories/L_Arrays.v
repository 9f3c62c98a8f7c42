(** Functions on whole arrays work row by row. *)
From Coq Require Import Lra Lia.
From Verif Require Import M_Arrays S_Arrays L_Base L_Loads L_Wake.
Local Open Scope R_scope.

Lemma cross_rows a b m : (m <= length a)%nat -> (m <= length b)%nat ->
  foldM (cross_row a b) (repeat vzero (length a)) (seq 0 m) = Ok (map2 vcross (firstn m a) (firstn m b) ++ repeat vzero (length a - m)).
Proof.
  induction m as [|m IH]; intros Ha Hb; [cbn [seq foldM firstn map2 app]; rewrite Nat.sub_0_r; reflexivity|].
  rewrite seq_S, foldM_app, IH by lia. cbn [bind foldM Nat.add]. unfold cross_row.
  destruct (nth_error a m) as [u|] eqn:Eu; [|apply nth_error_None in Eu; lia]. destruct (nth_error b m) as [v|] eqn:Ev; [|apply nth_error_None in Ev; lia].
  rewrite (proj2 (index_Some _ _ _) Eu), (proj2 (index_Some _ _ _) Ev). cbn [bind]. f_equal.
  assert (L : length (map2 vcross (firstn m a) (firstn m b)) = m) by (rewrite map2_length, !firstn_length; lia).
  assert (F : forall (l : list vec) x, nth_error l m = Some x -> firstn (S m) l = firstn m l ++ [x]).
  { clear. revert m. induction m as [|m IH]; intros [|y l] x H; try discriminate H; [injection H as ->; reflexivity|]. cbn [nth_error] in H. cbn [firstn app]. rewrite <- (IH l x H). reflexivity. }
  rewrite (F a u Eu), (F b v Ev). assert (A : forall (f : vec -> vec -> vec) p q x y, length p = length q -> map2 f (p ++ [x]) (q ++ [y]) = map2 f p q ++ [f x y]).
  { clear. intros f p. induction p as [|z p IH]; intros [|w q] x y H; try discriminate H; [reflexivity|]. cbn [app map2]. rewrite IH; [reflexivity|]. injection H as H. exact H. }
  rewrite A by (rewrite !firstn_length; lia). rewrite <- app_assoc. cbn [app].
  replace (length a - m)%nat with (S (length a - S m)) by lia. cbn [repeat].
  unfold set_at. rewrite firstn_app, L, Nat.sub_diag, firstn_O, app_nil_r. rewrite firstn_all2 by lia. f_equal.
  replace (S m) with (length (map2 vcross (firstn m a) (firstn m b)) + 1)%nat by lia.
  rewrite skipn_app. rewrite skipn_all2 by lia. rewrite Nat.add_comm. replace (1 + length (map2 vcross (firstn m a) (firstn m b)) - length (map2 vcross (firstn m a) (firstn m b)))%nat with 1%nat by lia. reflexivity.
Qed.
Lemma cross_of_arrays a b : (length a <= length b)%nat -> explicit_cross a b = Ok (map2 vcross a b).
Proof.
  intros H. unfold explicit_cross. rewrite cross_rows by lia. rewrite firstn_all, Nat.sub_diag. cbn [repeat]. rewrite app_nil_r. f_equal.
  clear H. revert b. induction a as [|x a IH]; intros [|y b]; try reflexivity. cbn [length firstn map2]. rewrite IH. reflexivity.
Qed.
Lemma cross_entries a b : (length a <= length b)%nat ->
  exists c, explicit_cross a b = Ok c /\ length c = length a /\ (forall i u v, nth_error a i = Some u -> nth_error b i = Some v -> nth_error c i = Some (vcross u v)).
Proof.
  intros H. exists (map2 vcross a b). split; [apply cross_of_arrays; exact H|]. split; [rewrite map2_length; lia|]. clear H. revert b.
  induction a as [|x a IH]; intros [|y b] [|i] u v Ha Hb; try discriminate Ha; try discriminate Hb; cbn [nth_error map2] in *; [injection Ha as ->; injection Hb as ->; reflexivity|]. exact (IH b i u v Ha Hb).
Qed.
Lemma cross_too_short a b : (length b < length a)%nat -> explicit_cross a b = Err EIndexError.
Proof.
  intros H. unfold explicit_cross. replace (length a) with (length b + (length a - length b))%nat at 2 by lia. rewrite seq_app, foldM_app, cross_rows by lia. cbn [bind].
  replace (length a - length b)%nat with (S (length a - length b - 1)) at 2 by lia. cbn [seq foldM]. unfold cross_row at 1.
  destruct (nth_error a (0 + length b)) as [u|] eqn:Eu; [|apply nth_error_None in Eu; lia]. rewrite (proj2 (index_Some _ _ _) Eu). cbn [bind].
  unfold index. rewrite (proj2 (nth_error_None b (0 + length b))) by lia. reflexivity.
Qed.

Lemma nth_map2_map (f : R -> R -> R) (g h : R -> R) l n : nth_error (map2 f (map g l) (map h l)) n = option_map (fun x => f (g x) (h x)) (nth_error l n).
Proof. revert n. induction l as [|x l IH]; intros [|n]; try reflexivity. cbn [map map2 nth_error]. apply IH. Qed.
Lemma nth_map_map (f g : R -> R) l n : nth_error (map f (map g l)) n = option_map (fun x => f (g x)) (nth_error l n).
Proof. rewrite map_map. apply nth_error_map. Qed.
Lemma slices angles axis b n : slice (rotation_matrices angles axis b) n = option_map (fun angle => entries (angle_axis_rotation_matrix angle axis b)) (nth_error angles n).
Proof.
  unfold rotation_matrices, slice. cbn [map]. rewrite !nth_map2_map, !nth_map_map. destruct (nth_error angles n) as [x|]; cbn [option_map]; [|reflexivity].
  unfold angle_axis_rotation_matrix, rodrigues, entries, components. cbn [r0 r1 r2 vx vy vz]. reflexivity.
Qed.
