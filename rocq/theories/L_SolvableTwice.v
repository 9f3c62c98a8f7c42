(** Wings in the same place cannot be solved for. *)
From Coq Require Import List ZArith Lia Lra Bool Reals String.
From Verif Require Import M_Unsteady M_Horseshoe M_SteadyRing S_Unsteady S_UnsteadyRun S_Loads S_Solve S_Movement S_Solvable L_Base L_Loads L_Gauss L_Geometry L_Problems L_Movement L_SteadyRing
  L_Example L_Example3 L_Example4 L_Solvable.
Import ListNotations.
Local Open Scope R_scope.
Local Open Scope list_scope.

Lemma twice (F : wing -> list path) ps ws l1 w l2 w' l3 : ws = l1 ++ w :: l2 ++ w' :: l3 -> F w = F w' -> F w <> [] -> ~ distinguishable ps (concat (map F ws)).
Proof.
  intros E EF HF. rewrite E, map_app. cbn [map]. rewrite map_app. cbn [map]. rewrite !concat_app. cbn [concat]. rewrite concat_app. cbn [concat]. rewrite <- EF. clear E EF.
  destruct (F w) as [|v vs]; [contradiction HF; reflexivity|]. set (x1 := concat (map F l1)). set (x2 := concat (map F l2)). set (x3 := concat (map F l3)).
  apply (indistinct _ _ (List.length x1) (List.length x1 + S (List.length vs + List.length x2))%nat v); [| |lia].
  - rewrite nth_error_app2, Nat.sub_diag by lia. reflexivity.
  - rewrite nth_error_app2 by lia. replace (List.length x1 + S (List.length vs + List.length x2) - List.length x1)%nat with (S (List.length vs + List.length x2)) by lia. cbn [app nth_error].
    rewrite nth_error_app2 by lia. replace (List.length vs + List.length x2 - List.length vs)%nat with (List.length x2) by lia. rewrite nth_error_app2, Nat.sub_diag by lia. reflexivity.
Qed.
Lemma numbered_length {A} (l : list A) : List.length (numbered l) = List.length l.
Proof. unfold numbered. rewrite combine_length, seq_length. lia. Qed.
Lemma on_mesh_empty {A} (f : nat -> nat -> panel -> A) m : on_mesh f m = [] -> concat m = [].
Proof.
  unfold on_mesh, numbered at 2. generalize 0%nat. induction m as [|row m IH]; intros k H; [reflexivity|]. cbn [List.length seq combine map concat fst snd] in *. apply app_eq_nil in H. destruct H as [H1 H2].
  rewrite (IH (S k)) by exact H2. apply map_eq_nil in H1. apply (f_equal (@List.length _)) in H1. rewrite numbered_length in H1. destruct row; [reflexivity | discriminate H1].
Qed.
Lemma steady_twice solve airplanes op l1 w l2 w' l3 : SolveSpec solve -> wings_of airplanes = l1 ++ w :: l2 ++ w' :: l3 ->
  w_panels w' = w_panels w -> w_span w' = w_span w -> concat (w_panels w) <> [] ->
  (~ exists s, hs_run solve (hs_new airplanes op) = Ok s) /\
  (fresh_ring (ring_new airplanes op) -> (forall a w, In a airplanes -> In w (a_wings a) -> well_meshed (w_panels w)) -> ~ exists s, ring_run solve (ring_new airplanes op) = Ok s).
Proof.
  intros HS E EP ES HN. split.
  - rewrite horseshoe_solvable by exact HS. unfold horseshoe_paths. apply (twice (fun w => map (horseshoe_path (freestream_direction op) w) (concat (w_panels w))) _ _ l1 w l2 w' l3 E).
    + rewrite EP. apply map_ext. intros p. unfold horseshoe_path. rewrite ES. reflexivity.
    + intros H. apply map_eq_nil in H. exact (HN H).
  - intros HF HM. rewrite (ring_solvable _ _ _ HS HF HM). unfold steady_ring_paths. apply (twice (fun w => on_mesh (steady_ring_path (freestream_direction op) w) (w_panels w)) _ _ l1 w l2 w' l3 E).
    + rewrite EP. unfold steady_ring_path. rewrite EP, ES. reflexivity.
    + intros H. apply on_mesh_empty in H. exact (HN H).
Qed.
Lemma unsteady_twice solve prescribed (lines : bool) up sp l1 w l2 w' l3 : SolveSpec solve -> created up -> In sp (up_steady_problems up) -> step_wings sp = l1 ++ w :: l2 ++ w' :: l3 ->
  w_panels w' = w_panels w -> concat (w_panels w) <> [] -> ~ exists s, finished solve prescribed lines up s.
Proof.
  intros HS HC Hin E EP HN H. apply (proj1 (unsteady_solvable solve HS prescribed up lines HC)) in H. destruct H as [_ H]. specialize (H sp Hin). revert H.
  unfold unsteady_ring_paths. apply (twice (fun w => on_mesh (ring_path (vscale (up_delta_time up / 4) (freestream_velocity (sp_operating_point sp))) (w_panels w)) (w_panels w)) _ _ l1 w l2 w' l3 E).
  - rewrite EP. reflexivity.
  - intros H. apply on_mesh_empty in H. exact (HN H).
Qed.

(** ** Examples: the same plate twice, in one airplane and as two airplanes that fly together. *)
Lemma plate_twice : wings_of [mkairplane [ex_wing false; ex_wing false] "pair" 0 0 0 0 8 4 3 1 None None None None] = [] ++ ex_wing false :: [] ++ ex_wing false :: [] /\ concat (w_panels (ex_wing false)) <> [].
Proof. split; [reflexivity | discriminate]. Qed.
Lemma plates_together only : exists m up sp w, new_movement [ex_airplane_movement 0 resting; ex_airplane_movement 0 resting] (windy resting) (Some 3%Z) None None (Some 1) = Ok m /\
  new_unsteady_problem m only = Ok up /\ In sp (up_steady_problems up) /\ step_wings sp = [] ++ w :: [] ++ w :: [] /\ concat (w_panels w) <> [].
Proof.
  destruct (windy_problem resting only (or_introl eq_refl)) as (m1 & up1 & a & Hm1 & Hup1 & _ & HL1 & Ea & Hst1).
  assert (HA : Forall airplane_movable [ex_airplane_movement 0 resting; ex_airplane_movement 0 resting]) by (constructor; [|constructor; [|constructor]]; apply ex_movable; left; reflexivity).
  destruct (proj2 (movement_succeeds [ex_airplane_movement 0 resting; ex_airplane_movement 0 resting] (windy resting) (Some 3%Z) None None 1 3 eq_refl ltac:(lia))) as [m Hm];
    [split; [reflexivity | split; [reflexivity | split; [exact HA | left; reflexivity]]]|].
  assert (HP : populated [ex_airplane_movement 0 resting; ex_airplane_movement 0 resting]) by (apply movable_populated; [discriminate | exact HA]).
  destruct (unsteady_succeeds _ _ _ _ _ _ _ only Hm HP) as [up Hup].
  destruct (movement_built _ _ _ _ _ _ _ Hm1) as (_ & _ & ED1 & (EN1 & _) & EA1 & _). destruct (movement_built _ _ _ _ _ _ _ Hm) as (_ & _ & ED & (EN & _) & EA & _). rewrite EN1, ED1 in EA1. rewrite EN, ED in EA.
  cbn [mapM] in EA, EA1. destruct (generate_airplanes (ex_airplane_movement 0 resting) 3 1) as [h|e] eqn:Eh; [|cbn [bind] in EA; discriminate EA]. cbn [bind] in EA, EA1. apply Ok_eq in EA, EA1.
  destruct (unsteady_built _ _ _ Hup1) as (_ & _ & _ & _ & _ & _ & _ & _ & _ & _ & _ & HS1). destruct (unsteady_built _ _ _ Hup) as (_ & _ & _ & _ & _ & _ & _ & _ & _ & _ & HL & HS).
  destruct (nth_error (up_steady_problems up1) 0) as [sp1|] eqn:E1; [|apply nth_error_None in E1; lia]. destruct (HS1 _ _ E1) as [F1 _]. rewrite <- EA1, (proj1 (Hst1 _ _ E1)) in F1.
  rewrite EN in HL. destruct (nth_error (up_steady_problems up) 0) as [sp|] eqn:E; [|apply nth_error_None in E; change (Z.to_nat 3) with 3%nat in HL; lia]. destruct (HS _ _ E) as [F _]. rewrite <- EA in F.
  inversion F1 as [|? ? ? ? Hh _]; subst. inversion F as [|? b1 ? r1 Hb1 Fr X1 X2]; subst. inversion Fr as [|? b2 ? r2 Hb2 Fr2 X3 X4]; subst. inversion Fr2; subst.
  exists m, up, sp, (ex_wing false). split; [exact Hm|]. split; [exact Hup|]. split; [exact (nth_error_In _ _ E)|]. split; [|discriminate].
  unfold step_wings. rewrite <- X2. cbn [map concat]. assert (b1 = a) as -> by congruence. assert (b2 = a) as -> by congruence. rewrite Ea. reflexivity.
Qed.
