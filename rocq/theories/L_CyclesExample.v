(** A plate that flaps through two cycles. *)
From Coq Require Import List ZArith Lia Lra Bool Reals String.
From Verif Require Import M_Unsteady S_Movement S_Cycles L_Base L_Loads L_Geometry L_Movement L_Problems L_Statements3 L_Cycles L_Example3.
Import ListNotations.
Local Open Scope R_scope.
Local Open Scope list_scope.

Lemma flap_cycles : exists m up, new_movement [ex_airplane_movement 0 flap] ex_op_movement (Some 8%Z) None None (Some (1 / 2)) = Ok m /\
  new_unsteady_problem m true = Ok up /\ Forall (comes_back 4 (mv_delta_time m)) (all_oscillations [ex_airplane_movement 0 flap] ex_op_movement) /\
  0 < up_max_period up /\ 0 < mv_delta_time m /\ INR 4 * mv_delta_time m = up_max_period up /\ (Z.of_nat 4 <= mv_num_steps m)%Z /\
  Forall (fun l => List.length l = 8%nat) (mv_airplanes m) /\ List.length (mv_airplanes m) = 1%nat.
Proof.
  destruct (proj2 (movement_succeeds [ex_airplane_movement 0 flap] ex_op_movement (Some 8%Z) None None (1 / 2) 8 eq_refl ltac:(lia))) as [m Hm].
  { split; [reflexivity|]. split; [reflexivity|]. split; [constructor; [apply ex_movable; left; reflexivity | constructor] | apply resting_good]. }
  assert (HP : populated [ex_airplane_movement 0 flap]).
  { apply movable_populated; [discriminate|]. constructor; [|constructor]. apply ex_movable. left; reflexivity. }
  destruct (unsteady_succeeds _ _ _ _ _ _ _ true Hm HP) as [up Hup]. exists m, up. split; [exact Hm|]. split; [exact Hup|].
  destruct (movement_built _ _ _ _ _ _ _ Hm) as (HA & HO & HD & (HN & _) & P3 & _).
  destruct (unsteady_built _ _ _ Hup) as (_ & _ & _ & _ & HMP & _). unfold mv_max_period in HMP. rewrite HA, HO, ex_periods in HMP. apply Ok_eq in HMP.
  rewrite <- HMP, HD, HN. split.
  { assert (C : comes_back 4 (1 / 2) (flap, None)) by (right; right; split; [exists 1%Z; cbn; lra | discriminate]).
    assert (Z : comes_back 4 (1 / 2) (resting, None)) by (left; reflexivity).
    change (all_oscillations [ex_airplane_movement 0 flap] ex_op_movement) with
      [(resting, @None (R -> R)); (resting, None); (resting, None); (resting, None); (resting, None); (resting, None); (resting, None); (resting, None); (resting, None); (resting, None); (flap, None); (resting, None); (resting, None)].
    repeat (apply Forall_cons; [first [exact Z | exact C]|]). apply Forall_nil. }
  split; [lra|]. split; [lra|]. split; [cbn; lra|]. split; [lia|].
  cbn [mapM] in P3. apply bind_Ok in P3. destruct P3 as (h & Eh & P3). cbn [bind] in P3. apply Ok_eq in P3. rewrite <- P3. split; [|reflexivity]. constructor; [|constructor].
  unfold generate_airplanes in Eh. repeat (apply bind_Ok in Eh; destruct Eh as (? & _ & Eh)). rewrite <- (Forall2_length _ _ _ (mapM_Forall2 _ _ _ Eh)), seq_length, HN. reflexivity.
Qed.
