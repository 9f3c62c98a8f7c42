(** Lemmas about one time step of the unsteady solver. *)
From Coq Require Import Lra Lia.
From Verif Require Import M_Unsteady S_Solve S_Loads S_Unsteady L_Base L_Loads L_Horseshoe L_SteadyRing L_Frames L_Geometry L_Wake L_WakeWings.

Lemma cons_eq {A} (x y : A) l m : x :: l = y :: m -> x = y /\ l = m.
Proof. intros H; injection H; auto. Qed.
(** ** The relations *)
Lemma same_panel_refl p : same_panel p p.
Proof. unfold same_panel; auto 12. Qed.
Lemma same_panel_trans p q r : same_panel p q -> same_panel q r -> same_panel p r.
Proof. unfold same_panel. intuition congruence. Qed.
Lemma solved_panel_refl p : solved_panel p p.
Proof. split; [apply same_panel_refl | left; reflexivity]. Qed.
Lemma solved_ring_trans o p q : solved_ring o p -> solved_ring p q -> solved_ring o q.
Proof.
  intros [->|[g ->]] [->|[h ->]]; [left; reflexivity | right; exists h; reflexivity | right; exists g; reflexivity | right; exists h].
  destruct o; reflexivity.
Qed.
Lemma solved_ring_some o r' : solved_ring o (Some r') -> exists r, o = Some r /\ (r' = r \/ r' = ring_update_strength (rv_strength r') r).
Proof.
  intros [H|[g H]]; [exists r'; split; [congruence | left; reflexivity]|]. destruct o as [r|]; [|discriminate]. apply Some_eq in H. exists r. subst r'. split; [reflexivity | right; reflexivity].
Qed.
Lemma solved_ring_none o : solved_ring o None -> o = None.
Proof. intros [H|[g H]]; [congruence|]. destruct o; [discriminate | reflexivity]. Qed.
Lemma solved_panel_trans p q r : solved_panel p q -> solved_panel q r -> solved_panel p r.
Proof. intros [H1 H2] [H3 H4]. split; [eapply same_panel_trans; eassumption | eapply solved_ring_trans; eassumption]. Qed.
Lemma Forall2_self {A} (P : A -> A -> Prop) l : (forall x, P x x) -> Forall2 P l l.
Proof. intros H; induction l; constructor; auto. Qed.
Lemma solved_wing_wake V ids w : solved_wing w (w_set_wake V ids w).
Proof. split; [destruct w; reflexivity | cbn; do 2 (apply Forall2_self; intros); apply solved_panel_refl]. Qed.
Lemma solved_wing_refl w : solved_wing w w.
Proof. split; [destruct w; reflexivity | do 2 (apply Forall2_self; intros); apply solved_panel_refl]. Qed.
Lemma Forall2_trans_on {A} (P Q S : A -> A -> Prop) : (forall x y z, P x y -> Q y z -> S x z) ->
  forall xs ys zs, Forall2 P xs ys -> Forall2 Q ys zs -> Forall2 S xs zs.
Proof. intros HT xs ys zs F. revert zs. induction F; intros zs G; inversion G; subst; constructor; eauto. Qed.
Lemma solved_wing_trans u v w : solved_wing u v -> solved_wing v w -> solved_wing u w.
Proof.
  intros [E1 F1] [E2 F2]. split.
  - rewrite E2 at 1. rewrite E1. reflexivity.
  - eapply Forall2_trans_on; [|exact F1|exact F2]. intros x y z. apply Forall2_trans_on. apply solved_panel_trans.
Qed.
Lemma solved_airplane_refl a : solved_airplane a a.
Proof. split; [apply Forall2_self, solved_wing_refl | auto 8]. Qed.
Lemma solved_airplane_trans a b c : solved_airplane a b -> solved_airplane b c -> solved_airplane a c.
Proof.
  intros (F & H1 & H2 & H3 & H4 & H5 & H6 & H7) (G & K1 & K2 & K3 & K4 & K5 & K6 & K7).
  split; [eapply Forall2_trans_on; [apply solved_wing_trans | exact F | exact G]|]. repeat split; congruence.
Qed.
Lemma solved_step_refl sp : solved_step sp sp.
Proof. split; [reflexivity | apply Forall2_self, solved_airplane_refl]. Qed.
Lemma solved_step_trans a b c : solved_step a b -> solved_step b c -> solved_step a c.
Proof. intros [H F] [K G]. split; [congruence | eapply Forall2_trans_on; [apply solved_airplane_trans | exact F | exact G]]. Qed.

Lemma solved_wing_fields w v : solved_wing w v -> w_num_chordwise_panels v = w_num_chordwise_panels w /\ w_num_spanwise_panels v = w_num_spanwise_panels w.
Proof. intros [E _]. rewrite E. cbn. auto. Qed.
Lemma solved_layout l m : Forall2 solved_airplane l m -> layout m = layout l.
Proof.
  intros F. induction F as [|a b l m (Fw & _) F IH]; [reflexivity|]. unfold layout in *. cbn [map]. rewrite IH. f_equal.
  clear IH F. induction Fw as [|w v ws vs Hw Fw IH]; [reflexivity|]. cbn [map]. rewrite IH. destruct (solved_wing_fields _ _ Hw) as [-> ->]. reflexivity.
Qed.
Lemma Forall2_in_r {A B} (P : A -> B -> Prop) l m y : Forall2 P l m -> In y m -> exists x, In x l /\ P x y.
Proof. intros F H. apply In_nth_error in H. destruct H as [i H]. destruct (Forall2_nth _ _ _ F _ _ H) as (x & Hx & HP). exists x. split; [eapply nth_error_In; exact Hx | exact HP]. Qed.
Lemma solved_well_meshed w v : solved_wing w v -> well_meshed (w_panels w) -> well_meshed (w_panels v).
Proof.
  intros [_ F] H. apply (well_meshed_same w (w_set_panels (w_panels v) w)); [|exact H]. split; [reflexivity|]. cbn.
  eapply Forall2_impl; [|exact F]. intros x y; apply Forall2_impl. intros p q [Hpq _]; exact Hpq.
Qed.
Lemma solved_ringed w v : solved_wing w v -> ringed_wing w -> ringed_wing v.
Proof.
  intros HS (H1 & H2 & [H3 H3'] & H4). pose proof (solved_wing_fields _ _ HS) as [Ec Es]. pose proof HS as [_ F].
  split; [eapply solved_well_meshed; eassumption|]. rewrite Ec, Es. split; [exact H2|]. split.
  - split; [rewrite <- (Forall2_length _ _ _ F); exact H3|]. rewrite Forall_forall in *. intros row Hr.
    destruct (Forall2_in_r _ _ _ _ F Hr) as (row0 & H0 & Fr). rewrite <- (Forall2_length _ _ _ Fr). auto.
  - intros q Hq. apply Forall2_concat in F. destruct (Forall2_in_r _ _ _ _ F Hq) as (p & Hp & [_ He]).
    destruct (H4 p Hp) as [r Hr]. rewrite Hr in He. destruct (p_ring_vortex q) as [r'|]; [eauto | apply solved_ring_none in He; discriminate].
Qed.
Lemma solved_trailing w v : solved_wing w v -> ringed_wing w -> trailing_vertices v = trailing_vertices w.
Proof.
  intros [_ F] _. unfold trailing_vertices.
  assert (FT : Forall2 solved_panel (trailing_panels w) (trailing_panels v)).
  { unfold trailing_panels. induction F as [|x y l m H F IH]; [constructor|]. cbn. destruct F; auto. }
  assert (E : map back_left_of (trailing_panels v) = map back_left_of (trailing_panels w) /\
              map back_right_of (trailing_panels v) = map back_right_of (trailing_panels w)).
  { induction FT as [|p q l m [_ H] FT [IH1 IH2]]; [auto|]. cbn [map]. rewrite IH1, IH2.
    assert (back_left_of q = back_left_of p /\ back_right_of q = back_right_of p) as [-> ->]; [|auto].
    unfold back_left_of, back_right_of. destruct (p_ring_vortex q) as [r'|].
    - apply solved_ring_some in H. destruct H as (r & -> & [->| ->]); auto.
    - apply solved_ring_none in H. rewrite H. auto. }
  destruct E as [-> ->]. reflexivity.
Qed.

(** ** The wake of all wings *)
Lemma layout_alike l m : layout l = layout m -> Forall2 (fun t n => length (a_wings n) = length (a_wings t)) l m /\
  Forall2 (fun t w => w_num_chordwise_panels t = w_num_chordwise_panels w /\ w_num_spanwise_panels t = w_num_spanwise_panels w)
    (concat (map a_wings l)) (concat (map a_wings m)).
Proof.
  revert m; induction l as [|a l IH]; intros [|b m] E; try discriminate; [split; constructor|].
  unfold layout in E. cbn [map] in E. apply cons_eq in E. destruct E as [E1 E2]. destruct (IH m E2) as [IH1 IH2].
  assert (A : forall x y : list wing, map (fun w => (w_num_chordwise_panels w, w_num_spanwise_panels w)) x =
      map (fun w => (w_num_chordwise_panels w, w_num_spanwise_panels w)) y ->
      Forall2 (fun t w => w_num_chordwise_panels t = w_num_chordwise_panels w /\ w_num_spanwise_panels t = w_num_spanwise_panels w) x y).
  { clear. induction x as [|w x IH]; intros [|v y] E; try discriminate; constructor; cbn in E.
    - apply (f_equal (hd (0,0)%nat)) in E. cbn in E. injection E as -> ->. auto.
    - apply IH. apply (f_equal (@tl _)) in E. exact E. }
  apply A in E1. split; [constructor; [symmetry; eapply Forall2_length; exact E1 | exact IH1]|].
  cbn [map concat]. apply Forall2_app; assumption.
Qed.
Lemma rewinged_solved a b : rewinged a b -> Forall2 solved_wing (a_wings a) (a_wings b) -> solved_airplane a b.
Proof. intros E F. split; [exact F|]. rewrite E. cbn. auto 8. Qed.
Lemma Forall2_split {A B} (P : A -> B -> Prop) : forall la lb, Forall2 (fun x y => length y = length x) la lb ->
  Forall2 P (concat la) (concat lb) -> Forall2 (Forall2 P) la lb.
Proof. intros la lb F. apply Forall2_unconcat. eapply Forall2_impl; [|exact F]. intros; symmetry; assumption. Qed.
Lemma Forall2_map_both {A B C D} (P : C -> D -> Prop) (f : A -> C) (g : B -> D) l m : Forall2 P (map f l) (map g m) <-> Forall2 (fun x y => P (f x) (g y)) l m.
Proof.
  split.
  - revert m; induction l as [|x l IH]; intros [|y m] F; cbn in F; inversion F; subst; constructor; auto.
  - intros F; induction F; cbn; constructor; auto.
Qed.
Lemma Forall2_both {A B} (P Q : A -> B -> Prop) l m : Forall2 P l m -> Forall2 Q l m -> Forall2 (fun x y => P x y /\ Q x y) l m.
Proof. intros F. induction F; intros G; inversion G; subst; constructor; auto. Qed.
Lemma Forall2_of_Forall {A B} (P : A -> Prop) (l : list A) (m : list B) : Forall P l -> length m = length l -> Forall2 (fun x _ => P x) l m.
Proof. intros F; revert m; induction F; intros [|y m] L; try discriminate; constructor; auto. Qed.
Lemma Forall2_of_Forall_r {A B} (P : B -> Prop) (l : list A) (m : list B) : Forall P m -> length m = length l -> Forall2 (fun _ y => P y) l m.
Proof. intros F; revert l; induction F; intros [|y l'] L; try discriminate; constructor; auto. Qed.
Lemma Forall2_flip {A B} (P : A -> B -> Prop) l m : Forall2 P l m -> Forall2 (fun y x => P x y) m l.
Proof. intros F; induction F; constructor; auto. Qed.
Lemma Forall3_of_nth {A B C} (P : A -> B -> C -> Prop) l m n : length m = length l -> length n = length l ->
  (forall i x y z, nth_error l i = Some x -> nth_error m i = Some y -> nth_error n i = Some z -> P x y z) -> Forall3 P l m n.
Proof.
  revert m n; induction l as [|x l IH]; intros [|y m] [|z n] L1 L2 H; try discriminate; constructor; auto.
  - apply (H 0%nat); reflexivity.
  - apply IH; auto. intros i; apply (H (S i)).
Qed.

(** The wings of the next step with their new vertices. *)
Definition moved_wing (step : nat) (convect : vec -> vec) (t w : wing) : wing :=
  w_set_wake (moved_vertices step convect t w) (w_wake_rings w) w.
Lemma moved_grid step convect t w heap dt G : wing_wake dt step heap t G -> ringed_wing w -> w_num_spanwise_panels t = w_num_spanwise_panels w ->
  grid (S (S step)) (S (w_num_spanwise_panels w)) (moved_vertices step convect t w).
Proof.
  intros [_ HV _ _ _] HW Es. pose proof (trailing_vertices_length _ HW) as L. unfold moved_vertices. apply grid_cons. split; [exact L|].
  destruct step as [|step].
  - apply grid_cons. split; [rewrite map_length; exact L | split; [reflexivity | constructor]].
  - rewrite <- Es. apply grid_map, HV.
Qed.
Lemma populate_ok step dt convect heap these nexts Gs :
  layout these = layout nexts -> Forall ringed_wing (concat (map a_wings nexts)) ->
  Forall2 (wing_wake dt step heap) (concat (map a_wings these)) Gs ->
  NoDup (concat (map wing_ids (concat (map a_wings these)))) ->
  exists heap' nexts', populate_wake step dt convect heap these nexts = Ok (heap', nexts') /\
    Forall2 solved_airplane nexts nexts' /\
    Forall3 (fun t w w' => w_wake_vertices w' = moved_vertices step convect t w /\ w_panels w' = w_panels w /\ exists row, w_wake_rings w' = row :: w_wake_rings t)
      (concat (map a_wings these)) (concat (map a_wings nexts)) (concat (map a_wings nexts')) /\
    Forall2 (wing_wake dt (S step) heap') (concat (map a_wings nexts')) (map2 cons (map trailing_strengths (concat (map a_wings these))) Gs) /\
    NoDup (concat (map wing_ids (concat (map a_wings nexts')))).
Proof.
  intros HL HR HW HD. destruct (layout_alike _ _ HL) as [A1 A2].
  set (ts := concat (map a_wings these)) in *. set (ns := concat (map a_wings nexts)) in *.
  assert (Ln : length ns = length ts) by (symmetry; eapply Forall2_length; exact A2).
  assert (LG : length Gs = length ts) by (symmetry; eapply Forall2_length; exact HW).
  set (ms := map2 (moved_wing step convect) ts ns).
  assert (Lm : length ms = length ts) by (unfold ms; rewrite map2_length; lia).
  assert (HN : forall i t w, nth_error ts i = Some t -> nth_error ns i = Some w ->
     ringed_wing w /\ w_num_chordwise_panels t = w_num_chordwise_panels w /\ w_num_spanwise_panels t = w_num_spanwise_panels w /\
     exists G, nth_error Gs i = Some G /\ wing_wake dt step heap t G).
  { intros i t w Ht Hw. rewrite Forall_forall in HR. split; [apply HR; eapply nth_error_In; exact Hw|].
    destruct (Forall2_nth_l _ _ _ A2 _ _ Ht) as (w' & Hw' & E1 & E2). assert (w' = w) by congruence. subst w'.
    split; [exact E1|]. split; [exact E2|]. destruct (Forall2_nth_l _ _ _ HW _ _ Ht) as (G & HG & Hww). eauto. }
  assert (W1 : walk (fun (st : unit) t n => let* w := next_wake_vertices step convect t n in Ok (st, w)) tt ts ns = Ok (tt, ms)).
  { apply walk_stateless. apply Forall3_of_nth; auto. intros i t w m Ht Hw Hm. unfold ms in Hm. rewrite nth_error_map2, Ht, Hw in Hm.
    apply Some_eq in Hm. subst m. destruct (HN _ _ _ Ht Hw) as (Rw & Ec & Es & G & _ & Hww).
    apply next_vertices_ok; auto. intros Hst. destruct Hww as [_ HV _ _ _]. destruct step; [contradiction | eauto]. }
  destruct (walk_concat _ these nexts A1 _ _ _ W1) as (nexts1 & E1 & C1 & F1 & F1').
  unfold populate_wake. rewrite for_airplanes_walk by exact A1. rewrite E1. cbn [bind snd].
  assert (A3 : Forall2 (fun t n => length (a_wings n) = length (a_wings t)) these nexts1).
  { eapply Forall2_trans_on with (P := fun t n : airplane => length (a_wings n) = length (a_wings t)) (Q := fun t n : airplane => length (a_wings n) = length (a_wings t)); [|exact A1|exact F1']. intros; congruence. }
  rewrite for_airplanes_walk by exact A3.
  set (L := combine (combine ts ms) Gs).
  assert (HL1 : map (fun x => fst (fst x)) L = ts).
  { rewrite <- (map_map fst fst). unfold L. rewrite map_fst_combine by (rewrite combine_length; lia). apply map_fst_combine. lia. }
  assert (HL2 : map (fun x => snd (fst x)) L = ms).
  { rewrite <- (map_map fst snd). unfold L. rewrite map_fst_combine by (rewrite combine_length; lia). apply map_snd_combine. lia. }
  assert (HLn : forall i x, nth_error L i = Some x -> exists w, nth_error ts i = Some (fst (fst x)) /\ nth_error ns i = Some w /\
             nth_error Gs i = Some (snd x) /\ snd (fst x) = moved_wing step convect (fst (fst x)) w).
  { intros i x Hx. unfold L in Hx. rewrite !nth_error_combine in Hx. destruct (nth_error ts i) as [t|] eqn:Ht; [|discriminate].
    destruct (nth_error ms i) as [m|] eqn:Hm; [|discriminate]. destruct (nth_error Gs i) as [G|] eqn:HG; [|discriminate].
    apply Some_eq in Hx. subst x. cbn [fst snd]. unfold ms in Hm. rewrite nth_error_map2, Ht in Hm.
    destruct (nth_error ns i) as [w|] eqn:Hw; [|discriminate]. apply Some_eq in Hm. eauto. }
  destruct (walk_rings step dt step L ltac:(lia) heap) as (heap' & ws & E2 & _ & _ & W2 & D2).
  { rewrite Forall_forall. intros x Hx. apply In_nth_error in Hx. destruct Hx as [i Hx]. destruct (HLn _ _ Hx) as (w & Ht & Hw & HG & Em).
    destruct (HN _ _ _ Ht Hw) as (Rw & Ec & Es & G & HG' & Hww). assert (G = snd x) by congruence. subst G. split; [exact Hww|].
    rewrite Em. split; [exact Rw|]. split; [exact Ec|]. split; [exact Es|]. exact (moved_grid step convect _ w heap dt _ Hww Rw Es). }
  { rewrite HL1. exact HD. }
  rewrite HL1, HL2 in E2. rewrite <- C1 in E2.
  destruct (walk_concat _ these nexts1 A3 _ _ _ E2) as (nexts2 & E3 & C2 & F2 & F2').
  exists heap', nexts2. split; [exact E3|]. rewrite C2.
  assert (Lw : length ws = length ts) by (rewrite <- (Forall2_length _ _ _ W2); unfold L; rewrite !combine_length; lia).
  assert (HX : forall i t w w', nth_error ts i = Some t -> nth_error ns i = Some w -> nth_error ws i = Some w' ->
     exists G row, nth_error Gs i = Some G /\ wing_wake dt (S step) heap' w' (trailing_strengths t :: G) /\
       w' = w_set_wake (moved_vertices step convect t w) (row :: w_wake_rings t) w).
  { intros i t w w' Ht Hw Hw'. destruct (Forall2_nth _ _ _ W2 _ _ Hw') as (x & Hx & Ha & row & Hb & _).
    destruct (HLn _ _ Hx) as (w0 & Ht0 & Hw0 & HG & Em). assert (w0 = w) by congruence. subst w0.
    assert (fst (fst x) = t) by congruence. rewrite H in *. rewrite Em in Hb. eauto. }
  split; [|split; [|split]].
  - assert (FW : Forall2 (Forall2 solved_wing) (map a_wings nexts) (map a_wings nexts2)).
    { apply Forall2_split.
      - apply Forall2_map_both. eapply Forall2_trans_on with (P := fun t n : airplane => length (a_wings n) = length (a_wings t)) (Q := fun t n : airplane => length (a_wings n) = length (a_wings t)); [|exact F1'|exact F2']. intros; congruence.
      - rewrite C2. fold ns. apply Forall2_of_nth; [lia|]. intros i w w' Hw Hw'. destruct (nth_in_range ts i) as [t Ht].
        { rewrite <- Lw. apply nth_error_Some. congruence. }
        destruct (HX _ _ _ _ Ht Hw Hw') as (G & row & _ & _ & ->). apply solved_wing_wake. }
    assert (FR : Forall2 rewinged nexts nexts2).
    { eapply Forall2_trans_on; [|exact F1|exact F2]. intros a b c Hb Hc. unfold rewinged in *. rewrite Hc. rewrite Hb. reflexivity. }
    apply (proj1 (Forall2_map_both (Forall2 solved_wing) a_wings a_wings nexts nexts2)) in FW. pose proof (Forall2_both _ _ _ _ FR FW) as FB. eapply Forall2_impl; [|exact FB].
    intros a b [H1 H2]. apply rewinged_solved; assumption.
  - apply Forall3_of_nth; auto. intros i t w w' Ht Hw Hw'. destruct (HX _ _ _ _ Ht Hw Hw') as (G & row & _ & _ & ->). split; [reflexivity|]. split; [reflexivity|]. exists row. reflexivity.
  - apply Forall2_of_nth; [rewrite map2_length, map_length; lia|]. intros i w' G' Hw' HG'. rewrite nth_error_map2, nth_error_map in HG'.
    destruct (nth_error ts i) as [t|] eqn:Ht; [|discriminate]. cbn in HG'. destruct (nth_error Gs i) as [G|] eqn:HG; [|discriminate].
    apply Some_eq in HG'. subst G'. destruct (nth_in_range ns i) as [w Hw]; [rewrite Ln, <- Lw; apply nth_error_Some; congruence|].
    destruct (HX _ _ _ _ Ht Hw Hw') as (G0 & row & HG0 & Hww & _). congruence.
  - exact D2.
Qed.

(** ** Collapsing *)
Lemma wake_references_flat airplanes : wake_references airplanes = concat (map wing_ids (concat (map a_wings airplanes))).
Proof.
  unfold wake_references. induction airplanes as [|a l IH]; [reflexivity|]. cbn [map concat]. rewrite IH, map_app, concat_app. reflexivity.
Qed.
Lemma holds_flat heap ids rings : holds heap ids rings -> Forall2 (fun i r => index heap i = Ok r) (concat ids) (concat rings).
Proof. intros H. apply Forall2_concat. eapply Forall2_impl; [|exact H]. intros x y; apply Forall2_impl. intros i r E. apply index_Some; exact E. Qed.
Lemma collapse_rings heap dt k ws Gs : Forall2 (wing_wake dt k heap) ws Gs ->
  mapM (index heap) (concat (map wing_ids ws)) =
  Ok (concat (map (@concat ring_vortex) (map2 (fun w G => rings_from dt 0 (w_wake_vertices w) G) ws Gs))).
Proof.
  intros F. apply Forall2_mapM. apply Forall2_concat. induction F as [|w G ws Gs H F IH]; cbn [map map2]; constructor; [|exact IH].
  destruct H as [_ _ _ _ H]. apply holds_flat; exact H.
Qed.
Lemma grid_total {A} r n (m : list (list A)) : grid r n m -> length (concat m) = (r * n)%nat.
Proof.
  revert m; induction r as [|r IH]; intros m [L F].
  - destruct m; [reflexivity | discriminate].
  - destruct m as [|row m]; [discriminate|]. apply Forall_cons_iff in F. destruct F as [E F]. cbn [concat]. rewrite app_length, E, (IH m); [lia|]. split; [cbn in L; lia | exact F].
Qed.
Lemma fold_left_sum {A} (f : A -> nat) l n0 : fold_left (fun n x => n + f x)%nat l n0 = (n0 + list_sum (map f l))%nat.
Proof. revert n0; induction l as [|x l IH]; intros n0; cbn; [lia|]. rewrite IH. unfold list_sum. cbn. lia. Qed.
Lemma total_spanwise_flat airplanes : total_spanwise airplanes = list_sum (map w_num_spanwise_panels (concat (map a_wings airplanes))).
Proof.
  unfold total_spanwise. assert (G : forall l n, fold_left (fun n a => fold_left (fun n w => n + w_num_spanwise_panels w) (a_wings a) n)%nat l n =
     (n + list_sum (map w_num_spanwise_panels (concat (map a_wings l))))%nat); [|rewrite G; reflexivity].
  induction l as [|a l IH]; intros n; [cbn; lia|]. cbn [fold_left map concat]. rewrite IH, fold_left_sum, map_app, list_sum_app. lia.
Qed.
Lemma wake_count heap dt k ws Gs : Forall2 (wing_wake dt k heap) ws Gs ->
  length (concat (map wing_ids ws)) = (k * list_sum (map w_num_spanwise_panels ws))%nat.
Proof.
  intros F. induction F as [|w G ws Gs H F IH]; [cbn; lia|]. cbn [map concat list_sum]. rewrite app_length, IH. unfold wing_ids.
  destruct H as [_ _ H _ _]. rewrite (grid_total _ _ _ H). unfold list_sum. cbn. lia.
Qed.
Lemma overwrite_all {A} (array values : list A) : length values = length array -> overwrite array values = Ok values.
Proof. intros L. unfold overwrite. rewrite L, Nat.leb_refl, skipn_all, app_nil_r. reflexivity. Qed.
Lemma collapse_wake_ok heap dt k airplanes Gs : Forall2 (wing_wake dt k heap) (concat (map a_wings airplanes)) Gs ->
  collapse_wake heap airplanes (zero_wake (k * total_spanwise airplanes)) =
  Ok (record_of (concat (map (@concat ring_vortex) (map2 (fun w G => rings_from dt 0 (w_wake_vertices w) G) (concat (map a_wings airplanes)) Gs)))).
Proof.
  intros F. unfold collapse_wake. rewrite wake_references_flat. pose proof (collapse_rings _ _ _ _ _ F) as E. rewrite E. cbn [bind].
  pose proof (mapM_Ok_length _ _ _ E) as L. rewrite (wake_count _ _ _ _ _ F), <- total_spanwise_flat in L.
  unfold zero_wake. cbn [wk_strengths wk_ages wk_front_right wk_front_left wk_back_left wk_back_right].
  rewrite !overwrite_all by (rewrite map_length, repeat_length, L; reflexivity). reflexivity.
Qed.

Definition row_matches (awp : airplane * wing * panel) (r : ring_row) : Prop :=
  let '(a, _, p) := awp in rr_panel r = p /\ rr_ref r = a_xyz_ref a /\ p_ring_vortex p = Some (rr_vortex r).
Lemma unsteady_collapse_ok airplanes : Forall ringed_wing (concat (map a_wings airplanes)) ->
  exists rows, unsteady_collapse airplanes = Ok rows /\ Forall2 row_matches (flat_panels airplanes) rows /\ map rr_panel rows = all_panels airplanes.
Proof.
  intros F. destruct (mapM_ok unsteady_make_row (flat_panels airplanes)) as [rows E].
  - intros [[a w] p] Hin. apply in_flat in Hin. destruct Hin as (Ha & Hw & Hp).
    rewrite Forall_forall in F. destruct (F w) as (_ & _ & _ & HR).
    { apply in_concat. exists (a_wings a). split; [apply in_map; exact Ha | exact Hw]. }
    destruct (HR p Hp) as [r Hr]. unfold unsteady_make_row. rewrite Hr. eauto.
  - exists rows. split; [exact E|]. apply mapM_Forall2 in E.
    assert (FM : Forall2 row_matches (flat_panels airplanes) rows).
    { eapply Forall2_impl; [|exact E]. intros [[a w] p] r Er. unfold unsteady_make_row in Er. destruct (p_ring_vortex p) as [v|] eqn:Ev; [|discriminate].
      apply Ok_eq in Er. subst r. cbn. auto. }
    split; [exact FM|]. rewrite <- flat_panels_snd. clear E. induction FM as [|[[a w] p] r l m (H & _) FM IH]; [reflexivity|]. cbn. rewrite H, IH. reflexivity.
Qed.
