(** Two runs that differ from the second time step on. *)
From Coq Require Import List ZArith Lia Lra Bool Reals String.
From Verif Require Import M_Unsteady S_UnsteadyRun S_Movement S_Causal S_Solve L_Base L_Frames L_Wake L_UnsteadyStep L_Unsteady L_UnsteadyRun L_Loads L_Geometry L_Movement L_Problems L_Gauss L_Example3 L_Example4 L_Example5 L_Causal L_CausalMovement.
Import ListNotations.
Local Open Scope R_scope.
Local Open Scope list_scope.

(** In the one the wind rises, in the other it does not. *)
Lemma windy_begin_alike prescribed lines up up' s s' : windy_case gust prescribed lines false up s -> windy_case resting prescribed lines false up' s' ->
  created up /\ created up' /\ begin_alike 1 up up' /\ nth_error (up_steady_problems up') 1 <> nth_error (up_steady_problems up) 1.
Proof.
  intros W W'. destruct (windy_facts _ _ _ _ _ _ (or_intror (or_introl eq_refl)) W) as (C & D & L & _ & _ & m & a & Em & Eup & _ & H).
  destruct (windy_facts _ _ _ _ _ _ (or_introl eq_refl) W') as (C' & D' & L' & _ & _ & m' & a' & Em' & Eup' & _ & H').
  assert (EA : mv_airplanes m' = mv_airplanes m).
  { destruct (movement_built _ _ _ _ _ _ _ Em) as (_ & _ & T & S1 & X & _). destruct (movement_built _ _ _ _ _ _ _ Em') as (_ & _ & T' & S1' & X' & _).
    destruct S1 as [S1 _], S1' as [S1' _]. rewrite S1, T in X. rewrite S1', T' in X'. congruence. }
  destruct (nth_in_range (up_steady_problems up) 0 ltac:(lia)) as [p0 P0]. destruct (nth_in_range (up_steady_problems up') 0 ltac:(lia)) as [q0 Q0].
  destruct (nth_in_range (up_steady_problems up) 1 ltac:(lia)) as [p1 P1]. destruct (nth_in_range (up_steady_problems up') 1 ltac:(lia)) as [q1 Q1].
  destruct (unsteady_built _ _ _ Eup) as (_ & _ & _ & _ & _ & _ & F & _ & _ & _ & _ & LU). destruct (unsteady_built _ _ _ Eup') as (_ & _ & _ & _ & _ & _ & F' & _ & _ & _ & _ & LU').
  split; [exact C|]. split; [exact C'|]. split.
  - constructor; [congruence | lia | lia | | intros; rewrite F, F'; reflexivity]. intros k Hk. assert (k = 0)%nat by lia. subst k. rewrite P0, Q0. f_equal.
    pose proof (LU _ _ P0) as [X1 X2]. pose proof (LU' _ _ Q0) as [Y1 Y2]. rewrite EA in Y1.
    destruct (H _ _ P0) as (Z1 & v & _ & V1 & V2 & _). destruct (H' _ _ Q0) as (Z2 & v' & _ & V1' & V2' & _). specialize (V2 eq_refl). specialize (V2' eq_refl).
    destruct p0 as [pa po], q0 as [qa qo]. cbn in *. subst v v'. f_equal; [|congruence].
    revert X1 Y1. clear. intros X1. revert qa. induction X1 as [|h x l xs Hh X IH]; intros qa Y; inversion Y as [|? ? ? ? Hy Y' e1 e2]; subst; [reflexivity|]. f_equal; [congruence | apply IH; exact Y'].
  - rewrite P1, Q1. intros E. apply Some_eq in E. destruct (H _ _ P1) as (_ & v & _ & V1 & _ & V2 & _). destruct (H' _ _ Q1) as (_ & v' & _ & V1' & _ & _ & V2').
    specialize (V2 eq_refl eq_refl). specialize (V2' eq_refl). subst v v' q1. rewrite V1 in V1'. apply (f_equal op_velocity) in V1'. cbn in V1'. lra.
Qed.
