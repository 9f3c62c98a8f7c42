(** Reading an airfoil's name. *)
From Coq Require Import List Ascii String Bool Lia.
From Verif Require Import M_Airfoil S_Airfoil S_Names L_Airfoil L_Surface.
Import ListNotations.
Open Scope list_scope.

Definition all_characters : list ascii := map ascii_of_nat (seq 0 256).
Lemma every_character (P : ascii -> bool) : forallb P all_characters = true -> forall c, P c = true.
Proof.
  intros H c. rewrite forallb_forall in H. apply H. unfold all_characters. rewrite <- (ascii_nat_embedding c). apply in_map, in_seq.
  pose proof (nat_ascii_bounded c). lia.
Qed.
Definition in_list (c : ascii) (l : list ascii) : bool := existsb (Ascii.eqb c) l.
Lemma in_list_iff c l : in_list c l = true <-> In c l.
Proof.
  unfold in_list. rewrite existsb_exists. split; [intros (x & H & E); apply Ascii.eqb_eq in E; subst; exact H | intros H; exists c; split; [exact H | apply Ascii.eqb_refl]].
Qed.
Lemma blank_iff c : blank c <-> is_space c = true.
Proof.
  assert (H : Bool.eqb (in_list c (map ascii_of_nat [9; 10; 11; 12; 13; 28; 29; 30; 31; 32]%nat)) (is_space c) = true).
  { revert c. apply every_character. vm_compute. reflexivity. }
  apply eqb_prop in H. rewrite <- H. unfold blank. symmetry. apply in_list_iff.
Qed.
Lemma lowered_space c : is_space (lower_char c) = is_space c.
Proof. apply eqb_prop. revert c. apply every_character. vm_compute. reflexivity. Qed.
Lemma lowered_letter c : lower_case c (lower_char c).
Proof.
  destruct (in_list c capitals) eqn:E.
  - left. apply in_list_iff in E. apply In_nth_error in E. destruct E as [i E]. exists i. split; [exact E|].
    assert (Hi : (i < 26)%nat) by (change 26%nat with (List.length capitals); apply nth_error_Some; congruence).
    do 26 (destruct i as [|i]; [cbn in E; injection E as <-; reflexivity|]). lia.
  - right. split; [rewrite <- in_list_iff; congruence|].
    assert (H : (if in_list c capitals then true else Ascii.eqb (lower_char c) c) = true).
    { clear E. revert c. apply every_character. vm_compute. reflexivity. }
    rewrite E in H. apply Ascii.eqb_eq. exact H.
Qed.
Lemma lower_case_unique c c' : lower_case c c' -> c' = lower_char c.
Proof.
  intros [(i & E & E')|[N ->]].
  - assert (Hi : (i < 26)%nat) by (change 26%nat with (List.length capitals); apply nth_error_Some; congruence).
    do 26 (destruct i as [|i]; [cbn in E, E'; injection E as <-; injection E' as <-; reflexivity|]). lia.
  - destruct (lowered_letter c) as [(i & E & _)|[_ E]]; [|congruence]. exfalso. apply N. apply nth_error_In in E. exact E.
Qed.
Lemma drop_blanks before l : Forall blank before -> (forall c, nth_error l 0 = Some c -> ~ blank c) -> drop_spaces (before ++ l) = l.
Proof.
  intros H Hl. induction H as [|c before Hc _ IH]; cbn [app].
  - destruct l as [|c l]; [reflexivity|]. specialize (Hl c eq_refl). rewrite blank_iff in Hl. cbn [drop_spaces]. destruct (is_space c); [exfalso; auto | reflexivity].
  - cbn [drop_spaces]. apply blank_iff in Hc. rewrite Hc. exact IH.
Qed.
Lemma blank_lowered l : Forall blank l -> Forall blank (map lower_char l).
Proof. intros H. rewrite Forall_map. eapply Forall_impl; [|exact H]. intros c. rewrite !blank_iff, lowered_space. auto. Qed.
Lemma lowered_first l : (forall c, nth_error l 0 = Some c -> ~ blank c) -> forall c, nth_error (map lower_char l) 0 = Some c -> ~ blank c.
Proof. destruct l as [|x l]; intros H c E; [discriminate|]. cbn [map nth_error] in E. injection E as <-. rewrite blank_iff, lowered_space, <- blank_iff. apply H. reflexivity. Qed.
Lemma all_blank_drop l : Forall blank l -> drop_spaces l = [].
Proof. intros H. rewrite <- (app_nil_r l). apply drop_blanks; [exact H|]. intros c E. discriminate. Qed.
Lemma plain_stripped name text : plain_name name text -> text = M_Airfoil.strip (map lower_char (list_ascii_of_string name)).
Proof.
  intros (b & m & a & E & Hb & Ha & H1 & H2 & F). rewrite E. unfold M_Airfoil.strip. rewrite !map_app.
  assert (Et : text = map lower_char m).
  { clear -F. induction F as [|c c' l l' H _ IH]; [reflexivity|]. cbn [map]. rewrite (lower_case_unique _ _ H), IH. reflexivity. }
  subst text. destruct m as [|c m].
  - cbn [map app]. rewrite (all_blank_drop (map lower_char b ++ map lower_char a)) by (apply Forall_app; split; apply blank_lowered; assumption). reflexivity.
  - rewrite drop_blanks.
    + rewrite rev_app_distr, drop_blanks; [rewrite rev_involutive; reflexivity | apply Forall_rev, blank_lowered; exact Ha|].
      rewrite <- map_rev. apply lowered_first. exact H2.
    + apply blank_lowered; exact Hb.
    + intros x Ex. apply (lowered_first _ H1 x). cbn in *. exact Ex.
Qed.
Lemma split_blanks l : exists b m, l = b ++ m /\ Forall blank b /\ (forall c, nth_error m 0 = Some c -> ~ blank c).
Proof.
  induction l as [|c l (b & m & -> & Hb & Hm)]; [exists [], []; repeat split; [constructor | intros c E; discriminate]|].
  destruct (is_space c) eqn:E.
  - exists (c :: b), m. split; [reflexivity|]. split; [constructor; [apply blank_iff; exact E | exact Hb] | exact Hm].
  - exists [], (c :: b ++ m). split; [reflexivity|]. split; [constructor|]. intros x Ex. cbn in Ex. injection Ex as <-. rewrite blank_iff. congruence.
Qed.
Lemma plain_exists name : exists text, plain_name name text.
Proof.
  destruct (split_blanks (list_ascii_of_string name)) as (b & l & E & Hb & Hl).
  destruct (split_blanks (rev l)) as (ra & rm & E' & Ha & Hm). apply (f_equal (@rev _)) in E'. rewrite rev_involutive, rev_app_distr in E'.
  exists (map lower_char (rev rm)), b, (rev rm), (rev ra). split; [rewrite E, E'; reflexivity|]. split; [exact Hb|]. split; [apply Forall_rev; exact Ha|]. split; [|split].
  - intros c Ec. apply Hl. rewrite E'. destruct (rev rm); [discriminate | exact Ec].
  - rewrite rev_involutive. exact Hm.
  - clear. induction (rev rm); cbn [map]; constructor; [apply lowered_letter | assumption].
Qed.
Lemma plain_four_digits : forall database name text c1 c2 c3 c4 d1 d2 d3 d4,
  plain_name name text -> follows (list_ascii_of_string "naca") text [c1; c2; c3; c4] ->
  digit c1 d1 -> digit c2 d2 -> digit c3 d3 -> digit c4 d4 ->
  populate_coordinates database name = Ok (naca_contour d1 d2 (10 * d3 + d4) 100).
Proof. intros database name text c1 c2 c3 c4 d1 d2 d3 d4 HP. rewrite (plain_stripped _ _ HP). apply four_digit_names. Qed.
Lemma plain_other : forall database name text,
  plain_name name text ->
  (forall c1 c2 c3 c4 d1 d2 d3 d4, follows (list_ascii_of_string "naca") text [c1; c2; c3; c4] -> ~ (digit c1 d1 /\ digit c2 d2 /\ digit c3 d3 /\ digit c4 d4)) ->
  populate_coordinates database name =
    match database text with
    | None => Err EAirfoilNotInDatabase
    | Some l => match pairs_of l with Some c => Ok c | None => Err EOddCoordinates end
    end.
Proof. intros database name text HP. rewrite (plain_stripped _ _ HP). apply other_names. Qed.
