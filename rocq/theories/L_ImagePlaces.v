(** Where wings and panels are in the flat lists, and where those of an image are. *)
From Coq Require Import List Lia Lra Reals Bool Permutation.
From Verif Require Import M_Unsteady S_Loads S_Mirror S_Rigid S_Unsteady S_UnsteadyRun S_Image
  L_Base L_Loads L_Mirror L_MirrorHorseshoe L_MirrorRing L_Pairs L_ImageGeometry.
Import ListNotations.
Local Open Scope R_scope.
Local Open Scope list_scope.

(** ** Rows *)
Lemma rows_image_pos {A B} (k : bool) (P : A -> B -> Prop) m m' c row : rows_image k P m m' -> nth_error m c = Some row ->
  exists row', nth_error m' c = Some row' /\ length row' = length row /\
    forall s p, nth_error row s = Some p -> exists p', nth_error row' (column_of k (length row) s) = Some p' /\ P p p'.
Proof.
  intros F Hc. destruct (Forall2_nth_l _ _ _ F c row Hc) as (row' & Hc' & Fr). exists row'. split; [exact Hc'|].
  pose proof (Forall2_length _ _ _ Fr) as L. rewrite (row_length k row') in L. split; [lia|]. intros s p Hs.
  destruct (Forall2_nth_l _ _ _ Fr s p Hs) as (p' & Hs' & HP). exists p'. split; [|exact HP].
  assert (s < length row)%nat by (apply nth_error_Some; congruence). rewrite nth_error_row in Hs' by lia. rewrite L. exact Hs'.
Qed.
Lemma rows_image_intro {A B} (k : bool) (P : A -> B -> Prop) m m' : length m = length m' ->
  (forall c row row', nth_error m c = Some row -> nth_error m' c = Some row' -> length row' = length row /\
     forall s p p', nth_error row s = Some p -> nth_error row' (column_of k (length row) s) = Some p' -> P p p') ->
  rows_image k P m m'.
Proof.
  intros L H. apply Forall2_from_nth; [exact L|]. intros c row row' Hc Hc'. destruct (H c row row' Hc Hc') as [Lr HP].
  apply Forall2_from_nth; [rewrite (row_length k row'); lia|]. intros s p p' Hs Hs'. apply (HP s); [exact Hs|].
  assert (s < length row)%nat by (apply nth_error_Some; congruence). rewrite nth_error_row in Hs' by lia. rewrite <- Lr. exact Hs'.
Qed.
Lemma rows_image_impl {A B} (k : bool) (P Q : A -> B -> Prop) m m' : (forall x y, P x y -> Q x y) -> rows_image k P m m' -> rows_image k Q m m'.
Proof. intros H. apply Forall2_impl. intros r r'. apply Forall2_impl. exact H. Qed.
Lemma column_of_lt k n s : (s < n)%nat -> (column_of k n s < n)%nat.
Proof. unfold column_of. destruct k; lia. Qed.
Lemma column_of_inj k n s s' : (s < n)%nat -> (s' < n)%nat -> column_of k n s = column_of k n s' -> s = s'.
Proof. unfold column_of. destruct k; lia. Qed.
Lemma column_of_twice k n s : (s < n)%nat -> column_of k n (column_of k n s) = s.
Proof. unfold column_of. destruct k; lia. Qed.
Lemma pairs_swap_impl {A B} f (P : nat -> A -> B -> Prop) (l : list A) (l' : list B) : pairs f P l l' -> forall k x x', nth_error l k = Some x -> nth_error l' (f k) = Some x' -> P k x x'.
Proof. intros (_ & _ & H) k x x' Hx Hx'. destruct (H k x Hx) as (y & Hy & HP). congruence. Qed.

(** ** Places of wings and panels *)
Definition lay : Type := list (list (nat * nat)).
Definition nwings (F : lay) (a : nat) : nat := length (nth a F []).
Definition dims (F : lay) (a w : nat) : nat * nat := nth w (nth a F []) (0, 0)%nat.
Definition wplace : Type := nat * nat.
Definition place : Type := nat * (nat * (nat * nat)).
Definition wplaces (F : lay) : list wplace := tagged (length F) (fun a => seq 0 (nwings F a)).
Definition places (F : lay) : list place :=
  tagged (length F) (fun a => tagged (nwings F a) (fun w => tagged (fst (dims F a w)) (fun _ => seq 0 (snd (dims F a w))))).
Definition at_wing (l : list airplane) (x : wplace) (w : wing) : Prop :=
  exists a, nth_error l (fst x) = Some a /\ nth_error (a_wings a) (snd x) = Some w.
Definition at_place (l : list airplane) (x : place) (y : airplane * wing * panel) : Prop :=
  nth_error l (fst x) = Some (fst (fst y)) /\ nth_error (a_wings (fst (fst y))) (fst (snd x)) = Some (snd (fst y)) /\
  at_position (w_panels (snd (fst y))) (fst (snd (snd x))) (snd (snd (snd x))) (snd y).
Definition gridded (a : airplane) : Prop :=
  Forall (fun w => grid (w_num_chordwise_panels w) (w_num_spanwise_panels w) (w_panels w)) (a_wings a).

Lemma layout_length l : length (layout l) = length l. Proof. apply map_length. Qed.
Lemma layout_nth l a ap : nth_error l a = Some ap -> nth a (layout l) [] = map (fun w => (w_num_chordwise_panels w, w_num_spanwise_panels w)) (a_wings ap).
Proof. intros H. apply nth_error_nth. unfold layout. rewrite nth_error_map, H. reflexivity. Qed.
Lemma layout_nwings l a ap : nth_error l a = Some ap -> nwings (layout l) a = length (a_wings ap).
Proof. intros H. unfold nwings. rewrite (layout_nth l a ap H). apply map_length. Qed.
Lemma layout_dims l a ap w wg : nth_error l a = Some ap -> nth_error (a_wings ap) w = Some wg -> dims (layout l) a w = (w_num_chordwise_panels wg, w_num_spanwise_panels wg).
Proof. intros H H'. unfold dims. rewrite (layout_nth l a ap H). apply nth_error_nth. rewrite nth_error_map, H'. reflexivity. Qed.

Lemma seq_Forall2 {A} (P : nat -> A -> Prop) (l : list A) : (forall i x, nth_error l i = Some x -> P i x) -> Forall2 P (seq 0 (length l)) l.
Proof.
  intros H. apply Forall2_from_nth; [apply seq_length|]. intros i x y Hx Hy.
  assert (i < length l)%nat by (apply nth_error_Some; congruence).
  rewrite (nth_error_nth' _ 0%nat) in Hx by (rewrite seq_length; lia). rewrite seq_nth in Hx by lia. apply H. injection Hx as <-. exact Hy.
Qed.
Lemma wplaces_ok l : Forall2 (at_wing l) (wplaces (layout l)) (concat (map a_wings l)).
Proof.
  unfold wplaces. rewrite layout_length. apply tagged_Forall2. intros a ap Ha. rewrite (layout_nwings l a ap Ha). apply seq_Forall2.
  intros i w Hw. exists ap. auto.
Qed.
Lemma places_ok l : Forall gridded l -> Forall2 (at_place l) (places (layout l)) (flat_panels l).
Proof.
  intros HG. unfold places, flat_panels. rewrite layout_length. apply tagged_Forall2. intros a ap Ha. rewrite (layout_nwings l a ap Ha). apply tagged_Forall2.
  intros w wg Hw. rewrite (layout_dims l a ap w wg Ha Hw). cbn [fst snd]. pose proof (proj1 (Forall_forall _ _) HG ap (nth_error_In _ _ Ha)) as G.
  pose proof (proj1 (Forall_forall _ _) G wg (nth_error_In _ _ Hw)) as [L R]. rewrite <- L. unfold ravel. rewrite concat_map. apply tagged_Forall2.
  intros c row Hc. rewrite <- (proj1 (Forall_forall _ _) R row (nth_error_In _ _ Hc)). rewrite <- (map_length (fun p => (ap, wg, p)) row). apply seq_Forall2.
  intros s x Hx. rewrite nth_error_map in Hx. destruct (nth_error row s) as [p|] eqn:Hs; [|discriminate]. cbn [option_map] in Hx. apply Some_eq' in Hx. subst x.
  split; [exact Ha|]. split; [exact Hw|]. exists row. split; [exact Hc | exact Hs].
Qed.
Lemma in_wplaces F a w : In (a, w) (wplaces F) <-> (a < length F)%nat /\ (w < nwings F a)%nat.
Proof. unfold wplaces. rewrite in_tagged, in_seq. intuition lia. Qed.
Lemma in_places F a w c s : In (a, (w, (c, s))) (places F) <-> (a < length F)%nat /\ (w < nwings F a)%nat /\ (c < fst (dims F a w))%nat /\ (s < snd (dims F a w))%nat.
Proof. unfold places. rewrite !in_tagged, in_seq. intuition lia. Qed.
Lemma wplaces_NoDup F : NoDup (wplaces F).
Proof. apply tagged_NoDup. intros. apply seq_NoDup. Qed.
Lemma places_NoDup F : NoDup (places F).
Proof. repeat (apply tagged_NoDup; intros). apply seq_NoDup. Qed.

(** ** The places of an image *)
Section Image.
Context (pr : pairing).
Definition wimage (x : wplace) : wplace := (partner pr (fst x), wing_partner pr (fst x) (snd x)).
Definition pimage (F : lay) (x : place) : place :=
  let '(a, (w, (c, s))) := x in (partner pr a, (wing_partner pr a w, (c, column_of (keeps_sides pr a w) (snd (dims F a w)) s))).
Definition wkeeps (x : wplace) : bool := keeps_sides pr (fst x) (snd x).
Definition pkeeps (x : place) : bool := keeps_sides pr (fst x) (fst (snd x)).
Definition lay_image (F F' : lay) : Prop :=
  pairs (partner pr) (fun a row row' => pairs (wing_partner pr a) (fun _ d d' => d' = d) row row') F F'.

Section Layouts.
Context (F F' : lay) (HL : lay_image F F').
Lemma lay_row a : (a < length F)%nat -> (partner pr a < length F')%nat /\ pairs (wing_partner pr a) (fun _ d d' => d' = d) (nth a F []) (nth (partner pr a) F' []).
Proof.
  intros H. destruct HL as (L & _ & T). destruct (T a (nth a F [])) as (row' & Hr & HP); [apply nth_error_nth'; exact H|].
  split; [apply nth_error_Some; congruence|]. rewrite (nth_error_nth _ _ [] Hr). exact HP.
Qed.
Lemma lay_nwings a : (a < length F)%nat -> nwings F' (partner pr a) = nwings F a.
Proof. intros H. exact (proj1 (proj2 (lay_row a H))). Qed.
Lemma lay_wing a w : (a < length F)%nat -> (w < nwings F a)%nat -> (wing_partner pr a w < nwings F a)%nat /\ dims F' (partner pr a) (wing_partner pr a w) = dims F a w.
Proof.
  intros H Hw. destruct (lay_row a H) as (_ & HP). pose proof HP as (L & _ & T). destruct (T w (dims F a w)) as (d' & Hd & E); [apply nth_error_nth'; exact Hw|].
  split; [unfold nwings; rewrite <- L; apply nth_error_Some; congruence|]. unfold dims at 1. rewrite (nth_error_nth _ _ _ Hd). exact E.
Qed.
Lemma lay_inj i j : (i < length F)%nat -> (j < length F)%nat -> partner pr i = partner pr j -> i = j.
Proof. exact (proj1 (proj2 HL) i j). Qed.
Lemma lay_wing_inj a i j : (a < length F)%nat -> (i < nwings F a)%nat -> (j < nwings F a)%nat -> wing_partner pr a i = wing_partner pr a j -> i = j.
Proof. intros H. exact (proj1 (proj2 (proj2 (lay_row a H))) i j). Qed.
Lemma lay_onto a' : (a' < length F')%nat -> exists a, (a < length F)%nat /\ partner pr a = a'.
Proof. apply (pairs_onto _ _ _ _ HL). Qed.
Lemma lay_wing_onto a w' : (a < length F)%nat -> (w' < nwings F a)%nat -> exists w, (w < nwings F a)%nat /\ wing_partner pr a w = w'.
Proof. intros H Hw. destruct (lay_row a H) as (_ & HP). apply (pairs_onto _ _ _ _ HP). rewrite (proj1 HP). exact Hw. Qed.

Lemma wings_renumbered : exists g, pairs g (fun _ x y => y = wimage x) (wplaces F) (wplaces F').
Proof.
  apply renumbered; [apply wplaces_NoDup | apply wplaces_NoDup | | |].
  - intros [a w] H. apply in_wplaces in H. destruct H as [Ha Hw]. unfold wimage. cbn [fst snd]. apply in_wplaces. split; [apply (lay_row a Ha)|].
    rewrite (lay_nwings a Ha). apply (lay_wing a w Ha Hw).
  - intros [a w] [b v] H1 H2 E. apply in_wplaces in H1, H2. unfold wimage in E. cbn [fst snd] in E. injection E as E1 E2. apply lay_inj in E1; [|tauto|tauto]. subst b.
    apply lay_wing_inj in E2; [congruence | tauto | tauto | tauto].
  - intros [a' w'] H. apply in_wplaces in H. destruct H as [Ha' Hw']. destruct (lay_onto a' Ha') as (a & Ha & <-). rewrite (lay_nwings a Ha) in Hw'.
    destruct (lay_wing_onto a w' Ha Hw') as (w & Hw & <-). exists (a, w). split; [apply in_wplaces; auto | reflexivity].
Qed.
Lemma panels_renumbered : exists f, pairs f (fun _ x y => y = pimage F x) (places F) (places F').
Proof.
  apply renumbered; [apply places_NoDup | apply places_NoDup | | |].
  - intros [a [w [c s]]] H. apply in_places in H. destruct H as (Ha & Hw & Hc & Hs). apply in_places. split; [apply (lay_row a Ha)|].
    rewrite (lay_nwings a Ha). destruct (lay_wing a w Ha Hw) as [Hw' D]. split; [exact Hw'|]. rewrite D. split; [exact Hc | apply column_of_lt; exact Hs].
  - intros [a [w [c s]]] [b [v [d u]]] H1 H2 E. apply in_places in H1, H2. cbn [pimage] in E. injection E as E1 E2 E3 E4. apply lay_inj in E1; [|tauto|tauto]. subst b.
    apply lay_wing_inj in E2; [|tauto|tauto|tauto]. subst v d. apply column_of_inj in E4; [congruence | tauto | tauto].
  - intros [a' [w' [c s']]] H. apply in_places in H. destruct H as (Ha' & Hw' & Hc & Hs'). destruct (lay_onto a' Ha') as (a & Ha & <-). rewrite (lay_nwings a Ha) in Hw'.
    destruct (lay_wing_onto a w' Ha Hw') as (w & Hw & <-). rewrite (proj2 (lay_wing a w Ha Hw)) in Hc, Hs'.
    exists (a, (w, (c, column_of (keeps_sides pr a w) (snd (dims F a w)) s'))). split; [apply in_places; repeat split; auto; apply column_of_lt; exact Hs'|].
    cbn [pimage]. rewrite column_of_twice by exact Hs'. reflexivity.
Qed.
End Layouts.

(** ** Images of airplanes, place by place *)
Section Airplanes.
Context (m : mat) (t : vec) (l l' : list airplane).
Lemma image_impl (W V : bool -> wing -> wing -> Prop) : airplanes_image m t pr W l l' ->
  (forall x w w', at_wing l x w -> at_wing l' (wimage x) w' -> W (wkeeps x) w w' -> V (wkeeps x) w w') -> airplanes_image m t pr V l l'.
Proof.
  intros H HV. apply (pairs_impl _ _ _ _ _ H). intros k a a' Ha Ha' (E1 & E2 & E3 & E4 & HP). split; [exact E1|]. split; [exact E2|]. split; [exact E3|]. split; [exact E4|].
  apply (pairs_impl _ _ _ _ _ HP). intros i w w' Hw Hw' HW. apply (HV (k, i) w w'); [exists a; auto | exists a'; auto | exact HW].
Qed.
Lemma image_wing (W : bool -> wing -> wing -> Prop) x w : airplanes_image m t pr W l l' -> at_wing l x w -> exists w', at_wing l' (wimage x) w' /\ W (wkeeps x) w w'.
Proof.
  intros (_ & _ & T) (a & Ha & Hw). destruct (T _ a Ha) as (a' & Ha' & _ & _ & _ & _ & (_ & _ & T')). destruct (T' _ w Hw) as (w' & Hw' & HW).
  exists w'. split; [exists a'; auto | exact HW].
Qed.
Lemma image_airplane (W : bool -> wing -> wing -> Prop) x a : airplanes_image m t pr W l l' -> nth_error l x = Some a ->
  exists a', nth_error l' (partner pr x) = Some a' /\ airplane_image m t (wing_partner pr x) (keeps_sides pr x) W a a'.
Proof. intros (_ & _ & T). apply T. Qed.
Lemma at_wing_unique (n : list airplane) x w w' : at_wing n x w -> at_wing n x w' -> w = w'.
Proof. intros (a & Ha & Hw) (b & Hb & Hv). congruence. Qed.

(** Panels. *)
Definition shaped (k : bool) (w w' : wing) : Prop := rows_image k (fun _ _ : panel => True) (w_panels w) (w_panels w').
Lemma image_layout : Forall gridded l -> Forall gridded l' -> Forall (fun a => Forall (fun w => (1 <= w_num_chordwise_panels w)%nat) (a_wings a)) l ->
  airplanes_image m t pr shaped l l' -> lay_image (layout l) (layout l').
Proof.
  intros G G' N H. unfold lay_image, layout. apply pairs_map. apply (pairs_impl _ _ _ _ _ H). intros k a a' Ha Ha' (_ & _ & _ & _ & HP).
  apply pairs_map. apply (pairs_impl _ _ _ _ _ HP). intros i w w' Hw Hw' HW.
  pose proof (proj1 (Forall_forall _ _) (proj1 (Forall_forall _ _) G a (nth_error_In _ _ Ha)) w (nth_error_In _ _ Hw)) as [L R].
  pose proof (proj1 (Forall_forall _ _) (proj1 (Forall_forall _ _) G' a' (nth_error_In _ _ Ha')) w' (nth_error_In _ _ Hw')) as [L' R'].
  pose proof (proj1 (Forall_forall _ _) (proj1 (Forall_forall _ _) N a (nth_error_In _ _ Ha)) w (nth_error_In _ _ Hw)) as N1. cbn beta in N1.
  pose proof (Forall2_length _ _ _ HW) as Lr. destruct (nth_error (w_panels w) 0) as [row|] eqn:E; [|apply nth_error_None in E; lia].
  destruct (rows_image_pos _ _ _ _ _ _ HW E) as (row' & E' & Lrow & _).
  apply (Forall_forall _ _) with (x := row) in R; [|exact (nth_error_In _ _ E)]. apply (Forall_forall _ _) with (x := row') in R'; [|exact (nth_error_In _ _ E')].
  f_equal; lia.
Qed.
Definition place_image (P : bool -> panel -> panel -> Prop) : Prop :=
  forall x y, at_place l x y -> exists y', at_place l' (pimage (layout l) x) y' /\ P (pkeeps x) (snd y) (snd y').
Lemma image_places (P : bool -> panel -> panel -> Prop) : Forall gridded l ->
  airplanes_image m t pr (fun k w w' => rows_image k (P k) (w_panels w) (w_panels w')) l l' -> place_image P.
Proof.
  intros G H [a [w [c s]]] [[ap wg] p] (Ha & Hw & row & Hc & Hs). cbn [fst snd] in *. destruct (image_airplane _ _ _ H Ha) as (a' & Ha' & _ & _ & _ & _ & (_ & _ & T)).
  destruct (T _ _ Hw) as (w' & Hw' & HW). destruct (rows_image_pos _ _ _ _ _ _ HW Hc) as (row' & Hc' & _ & Hp). destruct (Hp s p Hs) as (p' & Hs' & HP).
  pose proof (proj1 (Forall_forall _ _) (proj1 (Forall_forall _ _) G ap (nth_error_In _ _ Ha)) wg (nth_error_In _ _ Hw)) as [_ R].
  exists (a', w', p'). split; [|exact HP]. cbn [pimage]. split; [exact Ha'|]. split; [exact Hw'|]. exists row'. cbn [fst snd]. split; [exact Hc'|].
  rewrite (layout_dims l a ap w wg Ha Hw). cbn [snd]. rewrite <- (proj1 (Forall_forall _ _) R row (nth_error_In _ _ Hc)). exact Hs'.
Qed.
Lemma places_image_intro (P : bool -> panel -> panel -> Prop) : Forall gridded l ->
  airplanes_image m t pr shaped l l' -> place_image P -> airplanes_image m t pr (fun k w w' => rows_image k (P k) (w_panels w) (w_panels w')) l l'.
Proof.
  intros G H HP. apply (image_impl _ _ H). intros [a w] wg wg' (ap & Ha & Hw) (ap' & Ha' & Hw') HS. cbn [fst snd wimage wkeeps] in *.
  pose proof (proj1 (Forall_forall _ _) (proj1 (Forall_forall _ _) G ap (nth_error_In _ _ Ha)) wg (nth_error_In _ _ Hw)) as [_ R].
  apply rows_image_intro; [exact (Forall2_length _ _ _ HS)|]. intros c row row' Hc Hc'. destruct (rows_image_pos _ _ _ _ _ _ HS Hc) as (row1 & Hc1 & Lr & _).
  assert (E : row' = row1) by congruence. subst row1. split; [exact Lr|]. intros s p p' Hs Hs'.
  destruct (HP (a, (w, (c, s))) (ap, wg, p)) as ([[ap1 wg1] p1] & (E1 & E2 & row1 & E3 & E4) & HP').
  { split; [exact Ha|]. split; [exact Hw|]. exists row. split; [exact Hc | exact Hs]. }
  cbn [fst snd pimage pkeeps] in *. assert (Ea : ap1 = ap') by congruence. subst ap1. assert (Ew : wg1 = wg') by congruence. subst wg1. assert (Er : row1 = row') by congruence. subst row1.
  rewrite (layout_dims l a ap w wg Ha Hw) in E4. cbn [snd] in E4. rewrite <- (proj1 (Forall_forall _ _) R row (nth_error_In _ _ Hc)) in E4.
  change (wkeeps (a, w)) with (keeps_sides pr a w) in Hs'. assert (Ep : p1 = p') by congruence. subst p1. exact HP'.
Qed.
Lemma at_place_unique (n : list airplane) x y y' : at_place n x y -> at_place n x y' -> y = y'.
Proof.
  destruct y as [[a w] p], y' as [[a' w'] p']. intros (H1 & H2 & row & H3 & H4) (H1' & H2' & row' & H3' & H4'). cbn [fst snd] in *.
  assert (E : a' = a) by congruence. subst a'. assert (E : w' = w) by congruence. subst w'. assert (E : row' = row) by congruence. subst row'. congruence.
Qed.

(** The flat lists. *)
Lemma flat_wings (W : bool -> wing -> wing -> Prop) g : pairs g (fun _ x y => y = wimage x) (wplaces (layout l)) (wplaces (layout l')) ->
  airplanes_image m t pr W l l' ->
  pairs g (fun i w w' => exists x, nth_error (wplaces (layout l)) i = Some x /\ at_wing l x w /\ at_wing l' (wimage x) w' /\ W (wkeeps x) w w') (concat (map a_wings l)) (concat (map a_wings l')).
Proof.
  intros (L & Inj & T) H. pose proof (wplaces_ok l) as F. pose proof (wplaces_ok l') as F'. pose proof (Forall2_length _ _ _ F) as Ln. pose proof (Forall2_length _ _ _ F') as Ln'.
  split; [lia|]. split; [rewrite <- Ln; exact Inj|]. intros i w Hw. destruct (Forall2_nth _ _ _ F i w Hw) as (x & Hx & HA).
  destruct (T i x Hx) as (y & Hy & ->). destruct (Forall2_nth_l _ _ _ F' _ _ Hy) as (w' & Hw' & HA').
  destruct (image_wing W x w H HA) as (w1 & HA1 & HW). rewrite (at_wing_unique _ _ _ _ HA' HA1) in *. exists w1. split; [exact Hw'|]. exists x. auto.
Qed.
Lemma flat_places f : Forall gridded l -> Forall gridded l' -> pairs f (fun _ x y => y = pimage (layout l) x) (places (layout l)) (places (layout l')) ->
  pairs f (fun i y y' => exists x, nth_error (places (layout l)) i = Some x /\ at_place l x y /\ at_place l' (pimage (layout l) x) y') (flat_panels l) (flat_panels l').
Proof.
  intros G G' (L & Inj & T). pose proof (places_ok l G) as F. pose proof (places_ok l' G') as F'. pose proof (Forall2_length _ _ _ F) as Ln. pose proof (Forall2_length _ _ _ F') as Ln'.
  split; [lia|]. split; [rewrite <- Ln; exact Inj|]. intros i y Hy. destruct (Forall2_nth _ _ _ F i y Hy) as (x & Hx & HA).
  destruct (T i x Hx) as (z & Hz & ->). destruct (Forall2_nth_l _ _ _ F' _ _ Hz) as (y' & Hy' & HA'). exists y'. split; [exact Hy'|]. exists x. auto.
Qed.
Lemma flat_places_image (P : bool -> panel -> panel -> Prop) f : Forall gridded l -> Forall gridded l' -> pairs f (fun _ x y => y = pimage (layout l) x) (places (layout l)) (places (layout l')) ->
  place_image P ->
  pairs f (fun i y y' => exists x, nth_error (places (layout l)) i = Some x /\ at_place l x y /\ at_place l' (pimage (layout l) x) y' /\ P (pkeeps x) (snd y) (snd y')) (flat_panels l) (flat_panels l').
Proof.
  intros G G' HF HP. apply (pairs_impl _ _ _ _ _ (flat_places f G G' HF)). intros k y y' _ _ (x & Hx & H1 & H2). exists x. split; [exact Hx|]. split; [exact H1|]. split; [exact H2|].
  destruct (HP x y H1) as (y1 & H3 & H4). rewrite (at_place_unique _ _ _ _ H2 H3). exact H4.
Qed.
Lemma flat_places_intro (P : bool -> panel -> panel -> Prop) f : Forall gridded l -> Forall gridded l' -> pairs f (fun _ x y => y = pimage (layout l) x) (places (layout l)) (places (layout l')) ->
  pairs f (fun i y y' => forall x, nth_error (places (layout l)) i = Some x -> P (pkeeps x) (snd y) (snd y')) (flat_panels l) (flat_panels l') -> place_image P.
Proof.
  intros G G' HF HP x y Hxy. pose proof (flat_places f G G' HF) as HQ.
  assert (Hin : In x (places (layout l))).
  { destruct x as [a [w [c s]]], y as [[ap wg] p]. destruct Hxy as (H1 & H2 & row & H3 & H4). cbn [fst snd] in *.
    pose proof (proj1 (Forall_forall _ _) (proj1 (Forall_forall _ _) G ap (nth_error_In _ _ H1)) wg (nth_error_In _ _ H2)) as [L R].
    apply in_places. rewrite layout_length, (layout_nwings l a ap H1), (layout_dims l a ap w wg H1 H2). cbn [fst snd]. rewrite <- L, <- (proj1 (Forall_forall _ _) R row (nth_error_In _ _ H3)).
    repeat split; apply nth_error_Some; congruence. }
  apply In_nth_error in Hin. destruct Hin as (i & Hi). pose proof (places_ok l G) as F. destruct (Forall2_nth_l _ _ _ F i x Hi) as (y1 & Hy & HA).
  assert (E : y1 = y) by (exact (at_place_unique _ _ _ _ HA Hxy)). subst y1.
  destruct HQ as (_ & _ & T). destruct (T i y Hy) as (y' & Hy' & x1 & Hx1 & _ & HA'). assert (E : x1 = x) by congruence. subst x1.
  exists y'. split; [exact HA'|]. exact (pairs_swap_impl _ _ _ _ HP i y y' Hy Hy' x Hi).
Qed.
End Airplanes.
End Image.
