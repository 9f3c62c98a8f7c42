(** Wings that are almost vertical, leaning inwards, and one that is vertical. *)
From Coq Require Import List Lia Lra Bool ZArith Reals String.
From Verif Require Import M_Movement S_Movement S_Continuous S_ContinuousShape S_ContinuousMovement
  L_Base L_Geometry L_Limits L_Loads L_Movement L_Problems L_Frames L_ContinuousExample L_ContinuousMovement L_ContinuousMovementRun L_Example3.
Import ListNotations.
Local Open Scope R_scope.
Local Open Scope list_scope.

Lemma resting_once b : oscillate_custom resting None b 1 1 = Ok [b].
Proof. cbn. unfold oscillating_sinspace. cbn. replace (Reqb 0 0) with true by (symmetry; apply Reqb_true; reflexivity). reflexivity. Qed.
Lemma section_once p n x y z t : exists s, section_at (section_of p n) x y z t = Ok s /\ cs_leading_edge s = mkvec x y z.
Proof. unfold section_at, new_section. cbn. replace (Rleb 4 0) with false by (symmetry; apply Rleb_false; lra). cbn. eexists. split; reflexivity. Qed.
Lemma generate_once p n l (vertical : bool) span sweep heave : exists s,
  generate_sections (moving (section_of p n) resting) 1 1 [l] vertical span sweep heave = Ok [s] /\
  cs_leading_edge s = (if vertical then p else mkvec (vx l + span * cos (sweep * PI / 180) * sin (heave * PI / 180)) (vy l + span * cos (sweep * PI / 180) * cos (heave * PI / 180)) (vz l + span * sin (sweep * PI / 180))).
Proof.
  unfold generate_sections. cbv zeta. cbn [moving sm_base sm_sweeping sm_custom_sweep sm_pitching sm_custom_pitch sm_heaving sm_custom_heave]. rewrite !resting_once. cbn [bind].
  unfold count. cbn [Z.leb Z.compare bind]. change (Z.to_nat 1) with 1%nat. unfold map4M. destruct vertical; cbn [map2 combine repeat mapM fst snd].
  - destruct (section_once p n (cs_x_le (section_of p n)) (cs_y_le (section_of p n)) (cs_z_le (section_of p n)) (cs_twist (section_of p n))) as (s & -> & Es). exists s. split; [reflexivity|]. rewrite Es. destruct p; reflexivity.
  - match goal with |- context [section_at _ ?x ?y ?z ?t] => destruct (section_once p n x y z t) as (s & -> & Es) end. exists s. split; [reflexivity | exact Es].
Qed.
Lemma tip_once b q n o w : (o = resting) -> generate_wings (plate_movement b q n o) 1 1 = Ok [w] -> exists tip, nth_error (w_sections w) 1 = Some tip /\
  cs_leading_edge tip = (if Reqb (vy q) 0 then q else let span := sqrt (vx q ^ 2 + vy q ^ 2 + vz q ^ 2) in
    let sweep := atan (vz q / vy q) * 180 / PI in let heave := atan (vx q / vy q) * 180 / PI in
    mkvec (span * cos (sweep * PI / 180) * sin (heave * PI / 180)) (span * cos (sweep * PI / 180) * cos (heave * PI / 180)) (span * sin (sweep * PI / 180))).
Proof.
  intros -> E. destruct (generated_wings _ _ _ _ E) as (_ & _ & xs & ys & zs & hs & _ & _ & _ & EH & HW). destruct (HW 0%nat w eq_refl) as (x & y & z & sections & _ & _ & _ & EC & EW).
  apply wing_attributes in EW. destruct EW as (_ & _ & _ & _ & _ & _ & _ & -> & _).
  cbn [plate_movement wm_sections section_histories] in EH. apply bind_Ok in EH. destruct EH as (h & Eh & EH). apply bind_Ok in Eh. destruct Eh as (u & _ & Eh). change (count 1) with (Ok 1%nat) in Eh. cbn [bind repeat] in Eh.
  destruct (generate_once vzero n vzero false 0 0 0) as (r & Er & Lr). rewrite Er in Eh. apply Ok_eq in Eh. subst h. cbn [map] in EH. apply bind_Ok in EH. destruct EH as (rest & Ere & EH). apply Ok_eq in EH. subst hs.
  assert (Hr : cs_leading_edge r = vzero) by (rewrite Lr; unfold vzero; f_equal; cbn; ring).
  apply bind_Ok in Ere. destruct Ere as (h & Eh & Ere). cbn [bind] in Ere. apply Ok_eq in Ere. subst rest.
  unfold index in Eh. cbn [nth_error bind] in Eh. rewrite Hr in Eh. change (cs_leading_edge (sm_base (moving (section_of q n) resting))) with (mkvec (vx q) (vy q) (vz q)) in Eh.
  unfold base_angles in Eh. cbv zeta in Eh. cbn [vx vy vz vzero] in Eh. rewrite !Rminus_0_r in Eh.
  destruct (Reqb (vy q) 0) eqn:Eq; cbn [negb] in Eh.
  - match type of Eh with generate_sections _ _ _ [?l] ?v ?a ?b ?c = _ => destruct (generate_once q n l v a b c) as (t & Et & Lt) end. rewrite Et in Eh. apply Ok_eq in Eh. subst h.
    cbn in EC. apply Ok_eq in EC. subst sections. cbn [map nth_error]. eexists. split; [reflexivity|]. change (cs_leading_edge t = q). exact Lt.
  - match type of Eh with generate_sections _ _ _ [?l] ?v ?a ?b ?c = _ => destruct (generate_once q n l v a b c) as (t & Et & Lt) end. rewrite Et in Eh. apply Ok_eq in Eh. subst h.
    cbn in EC. apply Ok_eq in EC. subst sections. cbn [map nth_error]. eexists. split; [reflexivity|]. change (cs_leading_edge t = let span := sqrt (vx q ^ 2 + vy q ^ 2 + vz q ^ 2) in
    let sweep := atan (vz q / vy q) * 180 / PI in let heave := atan (vx q / vy q) * 180 / PI in
    mkvec (span * cos (sweep * PI / 180) * sin (heave * PI / 180)) (span * cos (sweep * PI / 180) * cos (heave * PI / 180)) (span * sin (sweep * PI / 180))). rewrite Lt. cbv zeta. cbn [vx vy vz vzero]. f_equal; ring.
Qed.
Definition leaning (n : nat) : vec := mkvec 0 (- / INR (S n)) 1.
Lemma leaning_tip n : sqrt (vx (leaning n) ^ 2 + vy (leaning n) ^ 2 + vz (leaning n) ^ 2) * sin (atan (vz (leaning n) / vy (leaning n)) * 180 / PI * PI / 180) < 0.
Proof.
  cbn [leaning vx vy vz]. pose proof (small_pos n) as Hp. set (e := / INR (S n)) in *. assert (Hs : 0 < sqrt (0 ^ 2 + (- e) ^ 2 + 1 ^ 2)) by (apply sqrt_lt_R0; nra).
  replace (atan (1 / - e) * 180 / PI * PI / 180) with (atan (1 / - e)) by (field; apply PI_neq0).
  assert (Ha : atan (1 / - e) < 0) by (rewrite <- atan_0; apply atan_increasing; unfold Rdiv; rewrite Rmult_1_l, Rinv_opp; pose proof (Rinv_0_lt_compat e Hp); lra).
  pose proof (atan_bound (1 / - e)) as Hb. assert (Hsin : sin (atan (1 / - e)) < 0) by (apply sin_lt_0_var; [pose proof PI_RGT_0; lra | exact Ha]). nra.
Qed.
Lemma vertical_jump : exists U m W w tips tip, approaching_wing_movement (fun _ => 1) 1 U m /\
  (forall n, generate_wings (U n) 1 1 = Ok [W n]) /\ generate_wings m 1 1 = Ok [w] /\
  (forall n, nth_error (w_sections (W n)) 1 = Some (tips n)) /\ nth_error (w_sections w) 1 = Some tip /\
  (exists base, nth_error (wm_sections m) 1 = Some base /\ cs_leading_edge (sm_base base) = cs_leading_edge tip) /\
  cs_z_le tip = 1 /\ forall n, cs_z_le (tips n) < 0.
Proof.
  destruct (two_plates (mkvec 0 0 1) (mkvec 0 1 0) false right_nonzero eq_refl) as [b Hb]. pose proof (wing_attributes _ _ _ _ _ _ _ _ _ _ _ Hb) as (_ & _ & _ & _ & _ & Hnc & Hsp & _).
  assert (HG : forall q, exists w, generate_wings (plate_movement b q (mkvec 0 1 0) resting) 1 1 = Ok [w]).
  { intros q. destruct (proj2 (L_Snapshots.wings_succeed (plate_movement b q (mkvec 0 1 0) resting) 1 1 ltac:(lia)) (plate_movable b q (mkvec 0 1 0) resting resting_good Hsp Hnc)) as [ws Hws].
    destruct (generated_wings _ _ _ _ Hws) as [HL _]. change (Z.to_nat 1) with 1%nat in HL. destruct ws as [|w [|]]; try discriminate HL. exists w. exact Hws. }
  destruct (HG (mkvec 0 0 1)) as [w Hw]. destruct (tip_once _ _ _ _ _ eq_refl Hw) as (tip & Ht & Lt). cbn [vy] in Lt. replace (Reqb 0 0) with true in Lt by (symmetry; apply Reqb_true; reflexivity).
  assert (HW : exists W, forall n, generate_wings (plate_movement b (leaning n) (mkvec 0 1 0) resting) 1 1 = Ok [W n]).
  { exists (fun n => match generate_wings (plate_movement b (leaning n) (mkvec 0 1 0) resting) 1 1 with Ok [x] => x | _ => w end). intros n. destruct (HG (leaning n)) as [x ->]. reflexivity. }
  destruct HW as [W HW].
  assert (HT : exists T, forall n, nth_error (w_sections (W n)) 1 = Some (T n) /\ cs_z_le (T n) < 0).
  { exists (fun n => match nth_error (w_sections (W n)) 1 with Some t => t | None => tip end). intros n. destruct (tip_once _ _ _ _ _ eq_refl (HW n)) as (t & -> & L). split; [reflexivity|].
    replace (Reqb (vy (leaning n)) 0) with false in L by (symmetry; apply Reqb_false; cbn [leaning vy]; pose proof (small_pos n); lra). apply (f_equal vz) in L. change (cs_z_le t = sqrt (vx (leaning n) ^ 2 + vy (leaning n) ^ 2 + vz (leaning n) ^ 2) * sin (atan (vz (leaning n) / vy (leaning n)) * 180 / PI * PI / 180)) in L. rewrite L. apply leaning_tip. }
  destruct HT as [T HT].
  exists (fun n => plate_movement b (leaning n) (mkvec 0 1 0) resting), (plate_movement b (mkvec 0 0 1) (mkvec 0 1 0) resting), W, w, T, tip.
  split; [|split; [exact HW|split; [exact Hw|split; [intros n; apply HT|split; [exact Ht|split; [|split; [exact (f_equal vz Lt) | intros n; apply HT]]]]]]].
  - split; [exact (vtends_const (w_leading_edge b))|]. split; [|split; [intros n root H; injection H as <-; split; reflexivity | split; [exact (same_osc _) | split; [exact (same_osc _) | split; [exact (same_osc _) | intros n; repeat split]]]]].
    refine (each_cons _ _ (fun _ => moving (section_of vzero (mkvec 0 1 0)) resting) (fun n => [moving (section_of (leaning n) (mkvec 0 1 0)) resting]) _ _ (fun n => eq_refl) _ _);
      [|refine (each_cons _ _ (fun n => moving (section_of (leaning n) (mkvec 0 1 0)) resting) (fun _ => []) _ _ (fun n => eq_refl) _ _); [|constructor; reflexivity]].
    + split; [|split; [exact (same_osc _) | split; [exact (same_osc _) | split; [exact (same_osc _) | split; [apply no_custom | split; [apply no_custom | split; [apply no_custom | intros n; repeat split]]]]]]].
      split; [exact (vtends_const (cs_leading_edge (section_of vzero (mkvec 0 1 0))))|]. split; [exact (tends_const 4)|]. split; [exact (tends_const 0)|]. intros n. repeat split.
    + split; [|split; [exact (same_osc _) | split; [exact (same_osc _) | split; [exact (same_osc _) | split; [apply no_custom | split; [apply no_custom | split; [apply no_custom | intros n; repeat split]]]]]]].
      split; [split; [exact (tends_const 0)|split; [|exact (tends_const 1)]]|split; [exact (tends_const 4) | split; [exact (tends_const 0) | intros n; repeat split]]].
      change (tends (fun n => - / INR (S n)) 0). replace 0 with (- 0) by ring. apply tends_opp, inverse_tends.
  - eexists. split; [reflexivity|]. rewrite Lt. reflexivity.
Qed.
