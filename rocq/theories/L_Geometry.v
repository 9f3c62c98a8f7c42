(** Lemmas about WingCrossSection, Wing and Airplane construction. *)
From Coq Require Import Lra Lia.
From Verif Require Import M_Geometry M_Loads S_Geometry S_Loads S_Wing.
From Verif Require Import L_Base L_Functions L_Rotations L_Panel L_Loads L_Meshing.

(** ** Ordered rules *)
Lemma all_hold_nil : all_hold [].
Proof. intros P e []. Qed.
Lemma all_hold_cons P e rs : all_hold ((P, e) :: rs) <-> P /\ all_hold rs.
Proof.
  split.
  - intros H. split; [apply (H P e); left; reflexivity | intros Q f Hin; apply (H Q f); right; exact Hin].
  - intros [HP H] Q f [[= <- <-]|Hin]; [exact HP | apply (H Q f Hin)].
Qed.
Lemma first_violated_cons P e rs e' : first_violated ((P, e) :: rs) e' <-> (~ P /\ e' = e) \/ (P /\ first_violated rs e').
Proof.
  split.
  - intros ([|[Q f] before] & P' & after & H & HB & HN).
    + injection H as H1 H2 H3. subst. left; auto.
    + injection H as H1 H2 H3. subst. apply all_hold_cons in HB. right. split; [apply HB|]. exists before, P', after. tauto.
  - intros [[HN ->]|[HP (before & P' & after & -> & HB & HN)]].
    + exists [], P, rs. repeat split; [apply all_hold_nil | exact HN].
    + exists ((P, e) :: before), P', after. repeat split; [apply all_hold_cons; tauto | exact HN].
Qed.
Lemma first_violated_nil e : ~ first_violated [] e.
Proof. intros ([|] & ? & ? & H & _); discriminate H. Qed.

(** ** C08 *)
Lemma negb_Rleb_true x : negb (Rleb x 0) = true <-> 0 < x.
Proof. rewrite negb_true_iff. apply Rleb_false. Qed.
Lemma one_of_two s a b : (String.eqb s a || String.eqb s b = true)%bool <-> In s [a; b].
Proof.
  rewrite orb_true_iff, !String.eqb_eq. cbn. intuition congruence.
Qed.
Lemma bool_cases (b : bool) (P : Prop) : (b = true <-> P) -> (b = true /\ P) \/ (b = false /\ ~ P).
Proof. intros H. destruct b; [left; split; [reflexivity | apply H; reflexivity] | right; split; [reflexivity|]]. rewrite <- H. discriminate. Qed.
Ltac rule H := let E := fresh "R" in let P := fresh "P" in destruct (bool_cases _ _ H) as [[E P]|[E P]]; rewrite E; cbn [check bind].
Section Sections.
  Variables (a : airfoil) (x y z chord : R) (n : vec) (twist : R) (ct : string) (hinge deflection : R) (ns : nat) (sp : string).
  Let made := new_section a x y z chord n twist ct hinge deflection ns sp.
  Lemma section_outcome :
    (all_hold (section_rules chord ct sp) /\
     made = Ok (mksection a x y z chord n twist ct hinge deflection ns sp None)) \/
    exists e, first_violated (section_rules chord ct sp) e /\ made = Err e.
  Proof.
    unfold made, new_section, section_rules. setoid_rewrite all_hold_cons. setoid_rewrite all_hold_cons. setoid_rewrite all_hold_cons.
    setoid_rewrite first_violated_cons. setoid_rewrite first_violated_cons. setoid_rewrite first_violated_cons.
    rule (negb_Rleb_true chord); [|right; eexists; split; [|reflexivity]; tauto].
    rule (one_of_two ct "symmetric" "asymmetric"); [|right; eexists; split; [|reflexivity]; tauto].
    rule (one_of_two sp "cosine" "uniform"); [|right; eexists; split; [|reflexivity]; tauto].
    left. split; [|reflexivity]. pose proof all_hold_nil. tauto.
  Qed.
End Sections.
Lemma rules_exclusive rs e : all_hold rs -> first_violated rs e -> False.
Proof. intros HA (b & P & c & -> & _ & HN). apply HN. apply (HA P e). apply in_or_app. right; left; reflexivity. Qed.
Lemma first_violated_fun rs e e' : first_violated rs e -> first_violated rs e' -> e = e'.
Proof.
  induction rs as [|[P f] rs IH]; intros H H'; [destruct (first_violated_nil _ H)|].
  rewrite first_violated_cons in H, H'. destruct H as [[HN ->]|[HP H]], H' as [[HN' ->]|[HP' H']]; first [reflexivity | contradiction | apply IH; assumption].
Qed.
Lemma section_created_iff a x y z chord n twist ct hinge deflection ns sp :
  (exists s, new_section a x y z chord n twist ct hinge deflection ns sp = Ok s) <-> all_hold (section_rules chord ct sp).
Proof.
  destruct (section_outcome a x y z chord n twist ct hinge deflection ns sp) as [[H E]|(e & H & E)]; split.
  - intros _; exact H.
  - intros _; eauto.
  - intros [s Hs]; congruence.
  - intros HA. destruct (rules_exclusive _ _ HA H).
Qed.
Lemma section_error_iff a x y z chord n twist ct hinge deflection ns sp e :
  new_section a x y z chord n twist ct hinge deflection ns sp = Err e <-> first_violated (section_rules chord ct sp) e.
Proof.
  destruct (section_outcome a x y z chord n twist ct hinge deflection ns sp) as [[H E]|(e' & H & E)]; split.
  - intros E'; congruence.
  - intros HA. destruct (rules_exclusive _ _ H HA).
  - intros E'. replace e with e' by congruence. exact H.
  - intros HA. rewrite E. f_equal. eapply first_violated_fun; eassumption.
Qed.
Lemma section_attributes a x y z chord n twist ct hinge deflection ns sp s :
  new_section a x y z chord n twist ct hinge deflection ns sp = Ok s ->
  cs_airfoil s = a /\ cs_leading_edge s = mkvec x y z /\ cs_chord s = chord /\ cs_unit_normal s = n /\ cs_twist s = twist /\
  cs_control_surface_type s = ct /\ cs_control_surface_hinge_point s = hinge /\ cs_control_surface_deflection s = deflection /\
  cs_num_spanwise_panels s = ns /\ cs_spanwise_spacing s = sp.
Proof.
  intros Hs. destruct (section_outcome a x y z chord n twist ct hinge deflection ns sp) as [[H E]|(e' & H & E)]; [|congruence].
  assert (s = mksection a x y z chord n twist ct hinge deflection ns sp None) by congruence. subst s. repeat split.
Qed.

(** ** C09 *)
Lemma plane_rule n c m : n <> vzero -> vdot c n = 0 -> (vcross (vcross n m) c = vzero <-> vdot c m = 0).
Proof.
  intros Hn Hc. assert (E : vcross (vcross n m) c = vscale (- vdot c m) n).
  { transitivity (vsub (vscale (vdot c n) m) (vscale (vdot c m) n)); [|rewrite Hc]; vring. }
  rewrite E. split.
  - intros H. apply Rmult_eq_reg_r with (vdot n n); [|pose proof (vdot_self_pos n Hn); lra].
    apply (f_equal (vdot n)) in H. rewrite vdot_scale_r, vdot_0_r in H. lra.
  - intros ->. rewrite Ropp_0. apply vscale_0_l.
Qed.
Lemma broadcast_nonempty {A B C} (f : A -> B -> C) a b l : a <> [] -> b <> [] -> broadcast f a b = Ok l -> l <> [].
Proof.
  intros Ha Hb. unfold broadcast. destruct a as [|x a]; [congruence|]. destruct b as [|y b]; [congruence|].
  destruct (Nat.eqb _ _); [intros [= <-]; discriminate|]. destruct a; [intros [= <-]; discriminate|].
  destruct b; [intros [= <-]; discriminate|discriminate].
Qed.
Lemma argmin_from_bound best_i best i l : (best_i < i)%nat -> (argmin_from best_i best i l < i + length l)%nat.
Proof.
  revert best_i best i; induction l as [|x l IH]; intros bi b i H; cbn [argmin_from length]; [lia|].
  destruct (Rltb x b); [specialize (IH i x (S i)) | specialize (IH bi b (S i))]; lia.
Qed.
Lemma argmin_bound l i : argmin l = Ok i -> (i < length l)%nat.
Proof.
  destruct l as [|x l]; [discriminate|]. intros [= <-]. pose proof (argmin_from_bound 0 x 1 l ltac:(lia)). cbn [length]; lia.
Qed.
Lemma with_mcl_nonempty name rp np c a : with_mcl name rp np c = Ok a -> af_mcl_coordinates a <> [].
Proof.
  unfold with_mcl, upper_coordinates, lower_coordinates, leading_edge_index. intros H. repeat inv_ok H. subst a. cbn.
  repeat inv_ok E. repeat inv_ok E0. subst.
  assert (v3 = v4) by congruence. subst v4. assert (L := argmin_bound _ _ E3). rewrite map_length in L.
  apply (broadcast_nonempty _ _ _ _) in E1; [exact E1 | |].
  - destruct c; [cbn in L; lia|]. cbn [firstn]. intros HR. apply (f_equal (@length _)) in HR. rewrite rev_length in HR. discriminate HR.
  - intros HR. apply (f_equal (@length _)) in HR. rewrite skipn_length in HR. cbn in HR. lia.
Qed.
Lemma np_interp_step x x0 y0 x1 y1 l : np_interp x ((x0, y0) :: (x1, y1) :: l) =
  if Rltb x x0 then Ok y0 else if Rltb x x1 then Ok ((y1 - y0) / (x1 - x0) * (x - x0) + y0) else np_interp x ((x1, y1) :: l).
Proof. destruct l as [|[x2 y2] l]; reflexivity. Qed.
Lemma np_interp_total x l : l <> [] -> exists y, np_interp x l = Ok y.
Proof.
  induction l as [|[x0 y0] [|[x1 y1] l] IH]; intros H; [congruence | eexists; reflexivity|].
  rewrite np_interp_step. destruct (Rltb x x0); [eauto|]. destruct (Rltb x x1); [eauto|]. apply IH. discriminate.
Qed.
Lemma cumsum_length a l : length (cumsum_from a l) = length l.
Proof. revert a; induction l as [|x l IH]; intro a; cbn; [reflexivity|]. rewrite IH; reflexivity. Qed.
Lemma arc_lengths_length mcl : mcl <> [] -> length (arc_lengths mcl) = length mcl.
Proof.
  intros H. destruct mcl as [|p mcl]; [congruence|]. unfold arc_lengths. cbn [tl length]. rewrite cumsum_length, map2_length. cbn [length]. lia.
Qed.
Lemma downsampled_total fr mcl : mcl <> [] -> exists line, get_downsampled_mcl fr mcl = Ok line.
Proof.
  intros H. assert (L := arc_lengths_length _ H). unfold get_downsampled_mcl.
  assert (NE : forall (l : list R), length l = length mcl -> combine (map (fun s => s / last (arc_lengths mcl) 0) (arc_lengths mcl)) l <> []).
  { intros l Hl HE. apply (f_equal (@length _)) in HE. rewrite combine_length, map_length in HE. destruct mcl; [congruence|]. cbn [length] in *. lia. }
  destruct mcl as [|p mcl]; [congruence|].
  destruct (mapM_ok (fun f => np_interp f (combine (map (fun s => s / last (arc_lengths (p :: mcl)) 0) (arc_lengths (p :: mcl))) (map fst (p :: mcl)))) fr) as [xs Hx].
  { intros f _. apply np_interp_total, NE. apply map_length. }
  destruct (mapM_ok (fun f => np_interp f (combine (map (fun s => s / last (arc_lengths (p :: mcl)) 0) (arc_lengths (p :: mcl))) (map snd (p :: mcl)))) fr) as [ys Hy].
  { intros f _. apply np_interp_total, NE. apply map_length. }
  rewrite Hx, Hy. cbn [bind]. eauto.
Qed.
Lemma flapped_nonempty a d h b : add_control_surface a d h = Ok b -> af_mcl_coordinates b <> [].
Proof. unfold add_control_surface. intros H. repeat inv_ok H. eapply with_mcl_nonempty; exact H. Qed.
Lemma camber_ok_iff le fr s d h : cs_wing_unit_chordwise s <> None ->
  ((exists P, camber_points le fr s d h = Ok P) <-> takes_flap s d h).
Proof.
  intros HC. split.
  - intros (P & HP). unfold camber_points in HP. inv_ok HP. exists v. exact E.
  - intros (a & Ha). unfold camber_points, cs_unit_up, cs_unit_chordwise. rewrite Ha. cbn [bind].
    destruct (downsampled_total fr _ (flapped_nonempty _ _ _ _ Ha)) as (line & ->). cbn [bind].
    destruct (cs_wing_unit_chordwise s); [|congruence]. cbn [bind]. eauto.
Qed.
Lemma adjacent_map {A B} (f : A -> B) l : adjacent (map f l) = map (fun ab => (f (fst ab), f (snd ab))) (adjacent l).
Proof.
  unfold adjacent. induction l as [|x [|y l] IH]; [reflexivity|reflexivity|].
  cbn [map tl combine] in *. rewrite IH. reflexivity.
Qed.
Lemma adjacent_In {A} (l : list A) a b : In (a, b) (adjacent l) -> In a l /\ In b l.
Proof.
  intros H. unfold adjacent in H. split; [eapply in_combine_l; exact H|]. apply in_combine_r in H. destruct l; [destruct H | right; exact H].
Qed.
Lemma strips_exist w d sections : (forall s, In s sections -> cs_wing_unit_chordwise s <> None) ->
  ((exists ms, strips_ok w d sections ms) <->
   forall i o, In (i, o) (adjacent sections) ->
     takes_flap i (d i) (cs_control_surface_hinge_point i) /\ takes_flap o (d i) (cs_control_surface_hinge_point i)).
Proof.
  intros HC. split.
  - intros (ms & H) i o Hio. destruct (adjacent_In _ _ _ Hio) as [Hi Ho]. apply In_nth_error in Hio. destruct Hio as (k & Hk).
    destruct (Forall2_nth_l _ _ _ H _ _ Hk) as (m & _ & Hm). cbn [fst snd] in Hm. apply strip_camber in Hm.
    destruct Hm as (P & Q & HP & HQ & _). split.
    + apply (camber_ok_iff (ms_leading_edge w) (fractions w)); [apply HC; exact Hi | eauto].
    + apply (camber_ok_iff (ms_leading_edge w) (fractions w)); [apply HC; exact Ho | eauto].
  - intros H. destruct (mapM_ok (fun io => strip w (fst io) (snd io) (d (fst io))) (adjacent sections)) as (ms & Hms).
    + intros [i o] Hio. destruct (adjacent_In _ _ _ Hio) as [Hi Ho]. destruct (H i o Hio) as [Hi' Ho'].
      destruct (proj2 (camber_ok_iff (ms_leading_edge w) (fractions w) i _ _ (HC _ Hi)) Hi') as (P & HP).
      destruct (proj2 (camber_ok_iff (ms_leading_edge w) (fractions w) o _ _ (HC _ Ho)) Ho') as (Q & HQ).
      eexists. apply strip_camber. cbn [fst snd]. eauto.
    + exists ms. apply mapM_Forall2. exact Hms.
Qed.

Section Wings.
  Variables (sections : list section) (name : string) (x y z : R) (n : vec) (sym : bool) (c : vec) (nc : nat) (sp : string).
  Let made := new_wing sections name x y z n sym c nc sp.
  Let placed := map (cs_set_wing_chordwise c) sections.
  Let spec := mkmesh (mkvec x y z) n sym nc sp.
  Let ns := count_spanwise sections sym.
  Lemma wing_outcome : n <> vzero ->
    (all_hold (wing_rules sections sp n c) /\
     made = (let* panels := mesh_wing spec ns placed in
             Ok (mkwing placed name x y z n sym c nc sp ns (ns * nc) panels [] []))) \/
    exists e, first_violated (wing_rules sections sp n c) e /\ made = Err e.
  Proof.
    intros Hn. unfold made, new_wing, wing_rules.
    do 6 (setoid_rewrite all_hold_cons). do 6 (setoid_rewrite first_violated_cons).
    rule (Nat.leb_le 2 (length sections)); [|right; eexists; split; [|reflexivity]; tauto].
    rule (one_of_two sp "cosine" "uniform"); [|right; eexists; split; [|reflexivity]; tauto].
    destruct (nth_error sections 0) as [root|] eqn:Er; [|apply nth_error_None in Er; lia].
    unfold index; rewrite Er; cbn [bind].
    assert (H3 : veqb n (cs_unit_normal root) = true <-> (forall r, Some root = Some r -> cs_unit_normal r = n)).
    { rewrite veqb_true. split; [intros H r [= <-]; auto | intros H; symmetry; auto]. }
    rule H3; [|right; eexists; split; [|reflexivity]; tauto].
    assert (H4 : veqb (cs_leading_edge root) vzero = true <-> (forall r, Some root = Some r -> cs_leading_edge r = vzero)).
    { rewrite veqb_true. split; [intros H r [= <-]; auto | intros H; auto]. }
    rule H4; [|right; eexists; split; [|reflexivity]; tauto].
    rule (Reqb_true (vdot c n) 0); [|right; eexists; split; [|reflexivity]; tauto].
    assert (H6 : forallb (fun s => veqb (vcross (vcross n (cs_unit_normal s)) c) vzero) sections = true <->
                 (forall s, In s sections -> vdot c (cs_unit_normal s) = 0)).
    { rewrite forallb_forall. split; intros H s Hs; specialize (H s Hs).
      - apply veqb_true in H. apply (plane_rule n); assumption.
      - apply veqb_true. apply (plane_rule n); assumption. }
    rule H6; [|right; eexists; split; [|reflexivity]; tauto].
    left. split; [|reflexivity]. pose proof all_hold_nil. tauto.
  Qed.
  Lemma placed_chordwise s : In s placed -> cs_wing_unit_chordwise s <> None.
  Proof. intros H. apply in_map_iff in H. destruct H as (s0 & <- & _). discriminate. Qed.
  Lemma placed_adjacent (P : section -> section -> Prop) (Q : section -> section -> Prop) :
    (forall i o, P (cs_set_wing_chordwise c i) (cs_set_wing_chordwise c o) <-> Q i o) ->
    ((forall i o, In (i, o) (adjacent placed) -> P i o) <-> (forall i o, In (i, o) (adjacent sections) -> Q i o)).
  Proof.
    intros HPQ. unfold placed. rewrite adjacent_map. split.
    - intros H i o Hio. apply HPQ. apply H. apply in_map_iff. exists (i, o). auto.
    - intros H i o Hio. apply in_map_iff in Hio. destruct Hio as ([i0 o0] & [= <- <-] & Hin). apply HPQ. auto.
  Qed.
  Let flap_r := fun (i o : section) => takes_flap i (cs_control_surface_deflection i) (cs_control_surface_hinge_point i) /\ takes_flap o (cs_control_surface_deflection i) (cs_control_surface_hinge_point i).
  Let flap_l := fun (i o : section) => takes_flap i (port_deflection i) (cs_control_surface_hinge_point i) /\ takes_flap o (port_deflection i) (cs_control_surface_hinge_point i).
  Let one_panel := fun (i o : section) => (1 <= cs_num_spanwise_panels i)%nat.
  Lemma mesh_ok_iff : (2 <= length sections)%nat -> ((exists m, mesh_wing spec ns placed = Ok m) <-> meshable sections sym nc).
  Proof.
    intros H2. assert (HA : adjacent placed <> []).
    { unfold placed. destruct sections as [|s0 [|s1 l]]; cbn in H2; try lia. discriminate. }
    assert (HR := strips_exist spec cs_control_surface_deflection placed placed_chordwise).
    assert (HL := strips_exist spec port_deflection placed placed_chordwise).
    split.
    - intros (m & Hm). apply mesh_wing_layout in Hm. destruct Hm as (m0 & (rights & lefts & H1 & HN & H3 & _) & _).
      split; [apply HN; exact HA|].
      assert (A1 := proj1 (placed_adjacent flap_r flap_r (fun i o => conj (fun H => H) (fun H => H))) (proj1 HR (ex_intro _ _ H1))).
      intros i o Hio. cbv zeta. destruct (A1 i o Hio) as [B1 B2]. split; [exact B1|]. split; [exact B2|].
      intros HS. unfold spec in H3. cbn [ms_symmetric] in H3. rewrite HS in H3. destruct H3 as [H3 H4].
      assert (A2 := proj1 (placed_adjacent flap_l flap_l (fun i o => conj (fun H => H) (fun H => H))) (proj1 HL (ex_intro _ _ H3))).
      assert (A3 := proj1 (placed_adjacent one_panel one_panel (fun i o => conj (fun H => H) (fun H => H))) H4).
      split; [exact (A3 i o Hio) | apply A2; exact Hio].
    - intros [HN HM]. cbv zeta in HM.
      destruct (proj2 HR) as (rights & H1).
      { refine (proj2 (placed_adjacent flap_r flap_r (fun i o => conj (fun H => H) (fun H => H))) _).
        intros i o Hio. destruct (HM i o Hio) as (B1 & B2 & _). split; assumption. }
      assert (HL' : sym = true -> exists lefts, strips_ok spec port_deflection placed lefts).
      { intros HS. apply HL. refine (proj2 (placed_adjacent flap_l flap_l (fun i o => conj (fun H => H) (fun H => H))) _).
        intros i o Hio. destruct (HM i o Hio) as (_ & _ & B3). apply (B3 HS). }
      assert (HK : sym = true -> forall i o, In (i, o) (adjacent placed) -> (1 <= cs_num_spanwise_panels i)%nat).
      { intros HS. refine (proj2 (placed_adjacent one_panel one_panel (fun i o => conj (fun H => H) (fun H => H))) _).
        intros i o Hio. destruct (HM i o Hio) as (_ & _ & B3). apply (B3 HS). }
      destruct sym eqn:ES.
      + destruct (HL' eq_refl) as (lefts & H3). eexists. apply mesh_wing_layout. eexists. split; [|reflexivity].
        exists rights, lefts. split; [exact H1|]. split; [intros _; exact HN|]. split; [|reflexivity]. split; [exact H3 | apply HK; reflexivity].
      + eexists. apply mesh_wing_layout. eexists. split; [|reflexivity].
        exists rights, []. split; [exact H1|]. split; [intros _; exact HN|]. split; reflexivity.
  Qed.
  Lemma wing_created_iff : n <> vzero ->
    ((exists w, made = Ok w) <-> all_hold (wing_rules sections sp n c) /\ meshable sections sym nc).
  Proof.
    intros Hn. destruct (wing_outcome Hn) as [[H E]|(e & H & E)].
    - assert (H2 : (2 <= length sections)%nat) by (unfold wing_rules in H; rewrite all_hold_cons in H; apply H).
      pose proof (mesh_ok_iff H2) as HM. rewrite E. split.
      + intros (w & Hw). inv_ok Hw. split; [exact H|]. apply HM. eauto.
      + intros [_ HA]. apply HM in HA. destruct HA as (m & ->). cbn [bind]. eauto.
    - split; [intros (w & Hw); congruence|]. intros [HA _]. destruct (rules_exclusive _ _ HA H).
  Qed.
  Lemma wing_rule_error e : n <> vzero -> first_violated (wing_rules sections sp n c) e -> made = Err e.
  Proof.
    intros Hn HV. destruct (wing_outcome Hn) as [[H E]|(e' & H & E)]; [destruct (rules_exclusive _ _ H HV)|].
    rewrite E. f_equal. eapply first_violated_fun; eassumption.
  Qed.
  (** What a created wing holds. *)
  Lemma wing_made w : n <> vzero -> made = Ok w ->
    all_hold (wing_rules sections sp n c) /\
    exists m0, layout spec placed m0 /\
      w = mkwing placed name x y z n sym c nc sp ns (ns * nc) (set_positions ns m0) [] [].
  Proof.
    intros Hn Hw. destruct (wing_outcome Hn) as [[H E]|(e & H & E)]; [|congruence]. rewrite E in Hw. inv_ok Hw. injection Hw as <-.
    split; [exact H|]. apply mesh_wing_layout in E0. destruct E0 as (m0 & HL & ->). exists m0. auto.
  Qed.
End Wings.

(** ** C11 *)
Lemma columns_placed c sections : columns (map (cs_set_wing_chordwise c) sections) = columns sections.
Proof. unfold columns. rewrite adjacent_map, map_map. reflexivity. Qed.
Lemma count_placed c sections sym : count_spanwise (map (cs_set_wing_chordwise c) sections) sym = count_spanwise sections sym.
Proof. rewrite !count_columns, columns_placed. reflexivity. Qed.
Lemma wing_mesh sections name x y z n sym c nc sp w : new_wing sections name x y z n sym c nc sp = Ok w ->
  exists m0, layout (mkmesh (mkvec x y z) n sym nc sp) (w_sections w) m0 /\
    w = mkwing (map (cs_set_wing_chordwise c) sections) name x y z n sym c nc sp (count_spanwise sections sym)
               (count_spanwise sections sym * nc) (set_positions (count_spanwise sections sym) m0) [] [].
Proof.
  unfold new_wing. intros H. do 6 inv_ok H. cbv zeta in H. do 2 inv_ok H. injection H as <-.
  match goal with E : mesh_wing _ _ _ = Ok _ |- _ => apply mesh_wing_layout in E; destruct E as (m0 & HL & ->) end.
  exists m0. split; [exact HL | reflexivity].
Qed.
Lemma wing_shape sections name x y z n sym c nc sp w : new_wing sections name x y z n sym c nc sp = Ok w ->
  well_meshed (w_panels w) /\ length (w_panels w) = nc /\
  (forall row, In row (w_panels w) -> length row = w_num_spanwise_panels w) /\
  w_num_spanwise_panels w = ((if sym then 2 else 1) * list_sum (map cs_num_spanwise_panels (removelast sections)))%nat /\
  w_num_panels w = length (concat (w_panels w)).
Proof.
  intros H. apply wing_mesh in H. destruct H as (m0 & HL & ->). cbn [w_panels w_num_spanwise_panels w_num_panels].
  assert (HM : mesh_wing (mkmesh (mkvec x y z) n sym nc sp)
                 (count_spanwise (map (cs_set_wing_chordwise c) sections) sym) (map (cs_set_wing_chordwise c) sections)
               = Ok (set_positions (count_spanwise sections sym) m0)).
  { apply mesh_wing_layout. exists m0. rewrite count_placed. split; [exact HL | reflexivity]. }
  apply (mesh_well_meshed (mkmesh (mkvec x y z) n sym nc sp)) in HM. cbn [ms_num_chordwise ms_symmetric] in HM.
  rewrite count_placed in HM. destruct HM as [HW HR]. split; [exact HW|]. split; [apply HR|].
  split; [apply HR|]. split.
  - rewrite count_columns. unfold columns. rewrite <- adjacent_fst, map_map. reflexivity.
  - rewrite (rect_concat _ _ _ HR). lia.
Qed.
Definition built_wing (w : wing) : Prop :=
  exists sections name x y z n sym c nc sp, new_wing sections name x y z n sym c nc sp = Ok w.
Lemma Ok_eq {A} (a b : A) : Ok a = Ok b -> a = b.
Proof. intros [= H]. exact H. Qed.
Lemma airplane_meshed wings name x y z weight s c b a : (forall w, In w wings -> built_wing w) ->
  new_airplane wings name x y z weight s c b = Ok a -> well_meshed_airplane a.
Proof.
  intros HW H. unfold new_airplane in H. remember wings as l eqn:El. destruct l as [|w0 l]; [discriminate|]. rewrite El in *.
  apply Ok_eq in H. subst a. split.
  - cbn [a_wings]. intros w Hw. destruct (HW w Hw) as (se & na & x' & y' & z' & n & sy & c' & nc & sp & E). apply (wing_shape _ _ _ _ _ _ _ _ _ _ _ E).
  - unfold airplane_panels. cbn [a_num_panels a_wings].
    assert (G : forall l k, (forall w, In w l -> built_wing w) ->
                fold_left (fun n w => n + w_num_panels w)%nat l k = (k + length (flat_map (fun w => concat (w_panels w)) l))%nat).
    { clear; intros l; induction l as [|w l IH]; intros k Hl; cbn [fold_left flat_map length]; [symmetry; apply Nat.add_0_r|].
      rewrite IH by (intros; apply Hl; right; assumption). rewrite app_length.
      destruct (Hl w (or_introl eq_refl)) as (se & na & x' & y' & z' & n & sy & c' & nc & sp & E).
      destruct (wing_shape _ _ _ _ _ _ _ _ _ _ _ E) as (_ & _ & _ & _ & ->). lia. }
    rewrite G by exact HW. rewrite Nat.add_0_l. f_equal. unfold ravel. rewrite flat_map_concat_map. reflexivity.
Qed.

(** ** C12 *)
Lemma set_positions_chordwise ns m : chordwise_ok m -> chordwise_watertight (set_positions ns m).
Proof.
  intros H c s row row' p q H1 H2 H3 H4.
  assert (Hp : cell (set_positions ns m) c s p) by (exists row; auto). assert (Hq : cell (set_positions ns m) (S c) s q) by (exists row'; auto).
  apply cell_positions in Hp, Hq. destruct Hp as (p' & Hp & ->), Hq as (q' & Hq & ->). exact (H _ _ _ _ Hp Hq).
Qed.
Lemma set_positions_spanwise ns m : spanwise_ok m -> spanwise_watertight (set_positions ns m).
Proof.
  intros H c s p q Hp Hq. change (cell (set_positions ns m) c s p) in Hp. change (cell (set_positions ns m) c (S s) q) in Hq.
  apply cell_positions in Hp, Hq. destruct Hp as (p' & Hp & ->), Hq as (q' & Hq & ->). exact (H _ _ _ _ Hp Hq).
Qed.
Lemma wing_chordwise_watertight sections name x y z n sym c nc sp w :
  new_wing sections name x y z n sym c nc sp = Ok w -> chordwise_watertight (w_panels w).
Proof.
  intros H. apply wing_mesh in H. destruct H as (m0 & HL & ->). cbn [w_panels]. apply set_positions_chordwise. eapply layout_chordwise; exact HL.
Qed.
(** The root section of a wing lies in the plane of symmetry. *)
Lemma root_in_plane le fr root d h A n c : vnorm n = 1 -> cs_unit_normal root = n -> cs_leading_edge root = vzero -> vdot c n = 0 ->
  cs_wing_unit_chordwise root = Some c -> camber_points le fr root d h = Ok A ->
  forall p, In p A -> reflect_point_across_plane p n le = p.
Proof.
  intros Hn Er El Hc Ew HA p Hp. unfold camber_points in HA. repeat inv_ok HA. subst A.
  apply in_map_iff in Hp. destruct Hp as (q & <- & _). apply reflect_fixes_iff; [exact Hn|]. unfold on_plane. rewrite El.
  unfold cs_unit_chordwise in E1. rewrite Ew in E1. injection E1 as <-. unfold cs_unit_up, cs_unit_chordwise in E2. rewrite Ew in E2.
  cbn [bind] in E2. injection E2 as <-. rewrite Er.
  set (back := mvmul (angle_axis_rotation_matrix (cs_twist root * PI / 180) n false) c).
  assert (Hn0 : n <> vzero) by (intros ->; rewrite vnorm_zero in Hn; lra).
  assert (HB : vdot n back = 0).
  { unfold back. replace n with (mvmul (angle_axis_rotation_matrix (cs_twist root * PI / 180) n false) n) at 1.
    - rewrite (proj1 (rotation_is_proper _ n false Hn0 ltac:(discriminate))). rewrite vdot_comm. exact Hc.
    - pose proof (rotation_fixes_axis (cs_twist root * PI / 180) n false Hn0 ltac:(discriminate) 1) as H. rewrite !vscale_1_l in H. exact H. }
  assert (HU : vdot n (vcross back n) = 0) by apply vdot_cross_r.
  replace (vsub (vadd (vadd le vzero) (vscale (cs_chord root) (vadd (vscale (fst q) back) (vscale (snd q) (vcross back n))))) le)
    with (vscale (cs_chord root) (vadd (vscale (fst q) back) (vscale (snd q) (vcross back n)))) by vring.
  rewrite vdot_scale_r, vdot_add_r, !vdot_scale_r, HB, HU. ring.
Qed.
Lemma map_id_In {A} (f : A -> A) l : (forall x, In x l -> f x = x) -> map f l = l.
Proof. intros H. induction l as [|x l IH]; [reflexivity|]. cbn. rewrite H, IH; auto using in_eq, in_cons. Qed.
Lemma new_wing_rules sections name x y z n sym c nc sp w : n <> vzero -> new_wing sections name x y z n sym c nc sp = Ok w ->
  all_hold (wing_rules sections sp n c).
Proof. intros Hn H. apply (wing_made sections name x y z n sym c nc sp w Hn H). Qed.
Lemma wing_spanwise_watertight sections name x y z n sym c nc sp w :
  new_wing sections name x y z n sym c nc sp = Ok w ->
  let le := mkvec x y z in
  let fr := spaced sp (S nc) in
  (forall i o, In (i, o) (adjacent sections) -> (1 <= cs_num_spanwise_panels i)%nat) ->
  flaps_agree le fr cs_control_surface_deflection (w_sections w) ->
  (sym = true -> vnorm n = 1 /\ flaps_agree le fr port_deflection (w_sections w) /\
     forall root, nth_error sections 0 = Some root -> port_deflection root = cs_control_surface_deflection root) ->
  spanwise_watertight (w_panels w).
Proof.
  intros H le fr HK HF HS. pose proof H as H'. apply wing_mesh in H'. destruct H' as (m0 & HL & EW).
  assert (ES : w_sections w = map (cs_set_wing_chordwise c) sections) by (rewrite EW; reflexivity).
  assert (EP : w_panels w = set_positions (count_spanwise sections sym) m0) by (rewrite EW; reflexivity).
  rewrite EP. apply set_positions_spanwise. eapply layout_spanwise; [exact HL | | exact HF |].
  - rewrite ES, adjacent_map. intros i o Hio. apply in_map_iff in Hio. destruct Hio as ([i0 o0] & [= <- <-] & Hin). cbn. eapply HK; exact Hin.
  - cbn [ms_symmetric]. intros Es. destruct (HS Es) as (Hn & HFp & HP). split; [exact HFp|].
    assert (Hn0 : n <> vzero) by (intros ->; rewrite vnorm_zero in Hn; lra).
    pose proof (new_wing_rules _ _ _ _ _ _ _ _ _ _ _ Hn0 H) as HR. unfold wing_rules in HR.
    rewrite !all_hold_cons in HR. destruct HR as (_ & _ & R1 & R2 & R3 & _).
    intros root A Hroot HA. rewrite ES in Hroot. rewrite nth_error_map in Hroot.
    destruct (nth_error sections 0) as [r|] eqn:Er; [|discriminate]. injection Hroot as <-. split.
    + exact (HP r eq_refl).
    + apply map_id_In. intros p Hp. eapply root_in_plane with (c := c); try eassumption.
      * exact (R1 r eq_refl).
      * exact (R2 r eq_refl).
      * reflexivity.
Qed.
(** All inner sections alike: nothing to disagree about. *)
Lemma uniform_flaps_agree le fr (d : section -> R) sections :
  (forall a b, In a (removelast sections) -> In b (removelast sections) ->
     d a = d b /\ cs_control_surface_hinge_point a = cs_control_surface_hinge_point b) ->
  flaps_agree le fr d sections.
Proof.
  intros H k a b e Ha Hb He. assert (L : (S (S k) < length sections)%nat) by (apply nth_error_Some; congruence).
  destruct (H a b) as [-> ->]; [| |reflexivity].
  - apply nth_error_In with k. rewrite nth_error_removelast by lia. exact Ha.
  - apply nth_error_In with (S k). rewrite nth_error_removelast by lia. exact Hb.
Qed.
Lemma wing_uniform_watertight sections name x y z n sym c nc sp w :
  new_wing sections name x y z n sym c nc sp = Ok w -> vnorm n = 1 ->
  (forall s, In s (removelast sections) -> (1 <= cs_num_spanwise_panels s)%nat) ->
  (forall s t, In s (removelast sections) -> In t (removelast sections) ->
     cs_control_surface_deflection s = cs_control_surface_deflection t /\
     cs_control_surface_hinge_point s = cs_control_surface_hinge_point t) ->
  (sym = true -> forall s, In s (removelast sections) ->
     cs_control_surface_type s = "symmetric"%string \/ cs_control_surface_deflection s = 0) ->
  spanwise_watertight (w_panels w).
Proof.
  intros H Hn HK HD HT. pose proof H as H'. apply wing_mesh in H'. destruct H' as (m0 & HL & EW).
  assert (ES : w_sections w = map (cs_set_wing_chordwise c) sections) by (rewrite EW; reflexivity).
  assert (HP : sym = true -> forall s, In s (removelast sections) -> port_deflection s = cs_control_surface_deflection s).
  { intros Es s Hs. unfold port_deflection. destruct (HT Es s Hs) as [-> | ->]; [reflexivity|]. rewrite Ropp_0. destruct (String.eqb _ _); reflexivity. }
  assert (HI : forall s, In s (removelast (w_sections w)) -> exists r, In r (removelast sections) /\ s = cs_set_wing_chordwise c r).
  { intros s. rewrite ES, <- adjacent_fst, adjacent_map, map_map. intros Hs. apply in_map_iff in Hs. destruct Hs as ([r o] & <- & Hr).
    exists r. split; [|reflexivity]. rewrite <- adjacent_fst. apply in_map_iff. exists (r, o). auto. }
  eapply wing_spanwise_watertight; [exact H | | |].
  - intros i o Hio. apply HK. rewrite <- adjacent_fst. apply in_map_iff. exists (i, o). auto.
  - apply uniform_flaps_agree. intros a b Ha Hb. destruct (HI _ Ha) as (a' & Ia & ->). destruct (HI _ Hb) as (b' & Ib & ->). exact (HD a' b' Ia Ib).
  - intros Es. split; [exact Hn|]. split.
    + apply uniform_flaps_agree. intros a b Ha Hb. destruct (HI _ Ha) as (a' & Ia & ->). destruct (HI _ Hb) as (b' & Ib & ->).
      destruct (HD a' b' Ia Ib) as [E1 E2]. split; [|exact E2]. change (port_deflection a' = port_deflection b'). rewrite !(HP Es) by assumption. exact E1.
    + intros root Hroot. apply (HP Es). assert (2 <= length sections)%nat.
      { assert (Hn0 : n <> vzero) by (intros ->; rewrite vnorm_zero in Hn; lra).
        apply (new_wing_rules _ _ _ _ _ _ _ _ _ _ _ Hn0 H _ ETooFewSections). left; reflexivity. }
      apply nth_error_In with 0%nat. rewrite nth_error_removelast by lia. exact Hroot.
Qed.

(** ** C13 *)
Lemma strip_ext w i o d i' o' d' : camber_points (ms_leading_edge w) (fractions w) i d (cs_control_surface_hinge_point i) =
    camber_points (ms_leading_edge w) (fractions w) i' d' (cs_control_surface_hinge_point i') ->
  camber_points (ms_leading_edge w) (fractions w) o d (cs_control_surface_hinge_point i) =
    camber_points (ms_leading_edge w) (fractions w) o' d' (cs_control_surface_hinge_point i') ->
  cs_spanwise_spacing i = cs_spanwise_spacing i' -> cs_num_spanwise_panels i = cs_num_spanwise_panels i' ->
  forall m, strip w i o d = Ok m <-> strip w i' o' d' = Ok m.
Proof. intros H1 H2 H3 H4 m. rewrite !strip_camber, H1, H2, H3, H4. reflexivity. Qed.
Lemma strips_opposed w sections ms : strips_ok w port_deflection sections ms <->
  strips_ok w cs_control_surface_deflection (map opposed sections) ms.
Proof.
  unfold strips_ok. rewrite adjacent_map. generalize (adjacent sections) as l. intros l; revert ms. induction l as [|[i o] l IH]; intros ms.
  - split; intros H; inversion H; constructor.
  - cbn [map]. split; intros H; inversion H; subst; constructor; try (apply IH; assumption); cbn [fst snd] in *.
    + eapply strip_ext; [| | | |eassumption]; reflexivity.
    + eapply strip_ext; [| | | |eassumption]; reflexivity.
Qed.
Lemma strips_fun w d sections ms ms' : strips_ok w d sections ms -> strips_ok w d sections ms' -> ms = ms'.
Proof.
  unfold strips_ok. intros H; revert ms'. induction H as [|io m l ms Hm _ IH]; intros ms' H'; inversion H'; subst; [reflexivity|].
  f_equal; [congruence | apply IH; assumption].
Qed.
(** The left half of a symmetric wing mirrors the right half of the wing with
    the asymmetric control surfaces deflected the other way. *)
Lemma half_mirror w sections m m' k : ms_symmetric w = true -> vnorm (ms_unit_normal w) = 1 -> k = columns sections ->
  layout w sections m -> layout w (map opposed sections) m' ->
  forall c j p p', (j < k)%nat -> cell m c j p' -> cell m' c (2 * k - 1 - j) p ->
  mirror_image (ms_unit_normal w) (ms_leading_edge w) p p'.
Proof.
  intros HS Hn -> (rights & lefts & HR & _ & HL & ->) (rights' & lefts' & HR' & _ & HL' & ->) c j p p' Hj Hp' Hp.
  rewrite HS in HL, HL'. destruct HL as [HL _], HL' as [HL' _].
  assert (EK : columns (map opposed sections) = columns sections) by (unfold columns; rewrite adjacent_map, map_map; reflexivity).
  apply strips_opposed in HL. rewrite (strips_fun _ _ _ _ _ HR' HL) in Hp.
  destruct (strips_rect _ _ _ _ HR) as [R1 _]. destruct (strips_rect _ _ _ _ HL) as [L1 _]. destruct (strips_rect _ _ _ _ HL') as [L2 _].
  rewrite EK in L1, L2.
  apply (cell_hstack _ _ _ _ _ _ _ _ (flip_rect w _ _ _ L1) R1) in Hp'. apply (cell_hstack _ _ _ _ _ _ _ _ (flip_rect w _ _ _ L2) L1) in Hp.
  destruct Hp' as [[_ Hp']|[? _]]; [|lia]. destruct Hp as [[? _]|[_ Hp]]; [lia|].
  apply (cell_flip _ _ _ _ _ _ _ L1) in Hp'. destruct Hp' as (_ & q & Hq & ->).
  replace (2 * columns sections - 1 - j - columns sections)%nat with (columns sections - 1 - j)%nat in Hp by lia.
  rewrite (cell_fun _ _ _ _ _ Hp Hq). unfold mirror_image, mirror_panel, reflect. cbn. rewrite !reflect_is_mirror. auto.
Qed.
Lemma opposed_id s : cs_control_surface_type s = "symmetric"%string \/ cs_control_surface_deflection s = 0 -> opposed s = s.
Proof.
  intros H. assert (E : port_deflection s = cs_control_surface_deflection s).
  { unfold port_deflection. destruct H as [-> | ->]; [reflexivity|]. rewrite Ropp_0. destruct (String.eqb _ _); reflexivity. }
  unfold opposed. rewrite E. destruct s; reflexivity.
Qed.
Lemma mirror_mirror n q p : vnorm n = 1 -> mirror n q (mirror n q p) = p.
Proof. intros H. rewrite <- !reflect_is_mirror. apply reflect_involution; exact H. Qed.
Lemma mirror_image_sym n q p p' : vnorm n = 1 -> mirror_image n q p p' -> mirror_image n q p' p.
Proof. intros Hn (H1 & H2 & H3 & H4). unfold mirror_image. rewrite H1, H2, H3, H4, !mirror_mirror by exact Hn. auto. Qed.
Lemma mirror_image_position n q p p' r l c s r' l' c' s' : mirror_image n q p p' ->
  mirror_image n q (p_set_position r l c s p) (p_set_position r' l' c' s' p').
Proof. intros H; exact H. Qed.
Lemma map_removelast_id {A} (f : A -> A) l : (forall x, In x (removelast l) -> f x = x) -> adjacent (map f l) = map (fun ab => (fst ab, f (snd ab))) (adjacent l).
Proof.
  intros H. rewrite adjacent_map. apply map_ext_in. intros [a b] Hab. cbn. rewrite H; [reflexivity|].
  rewrite <- adjacent_fst. apply in_map_iff. exists (a, b). auto.
Qed.
Lemma layout_self_opposed w sections m : (forall s, In s (removelast sections) -> opposed s = s) ->
  layout w sections m -> layout w (map opposed sections) m.
Proof.
  intros HO (rights & lefts & HR & HN & HL & ->).
  assert (G : forall d ms, d = cs_control_surface_deflection \/ d = port_deflection ->
              strips_ok w d sections ms -> strips_ok w d (map opposed sections) ms).
  { intros d ms Hd. unfold strips_ok. rewrite (map_removelast_id _ _ HO). generalize (adjacent sections) as l.
    intros l; revert ms. induction l as [|[i o] l IH]; intros ms H; inversion H; subst; cbn [map]; constructor; try (apply IH; assumption).
    cbn [fst snd] in *. eapply strip_ext; [| | | |eassumption]; reflexivity. }
  exists rights, lefts. split; [apply G; auto|].
  assert (EA : adjacent (map opposed sections) <> [] -> adjacent sections <> []).
  { rewrite adjacent_map. intros H E. apply H. rewrite E. reflexivity. }
  split; [auto|]. split; [|reflexivity]. destruct (ms_symmetric w); [|exact HL]. destruct HL as [HL HK]. split; [apply G; auto|].
  intros i o Hio. rewrite adjacent_map in Hio. apply in_map_iff in Hio. destruct Hio as ([i0 o0] & [= <- <-] & Hin). exact (HK i0 o0 Hin).
Qed.
Lemma opposed_placed c s : opposed (cs_set_wing_chordwise c s) = cs_set_wing_chordwise c (opposed s).
Proof. reflexivity. Qed.
Lemma wing_mirror sections name x y z n c nc sp w : new_wing sections name x y z n true c nc sp = Ok w -> vnorm n = 1 ->
  (forall s, In s (removelast sections) -> cs_control_surface_type s = "symmetric"%string \/ cs_control_surface_deflection s = 0) ->
  forall r j p p', (j < w_num_spanwise_panels w)%nat ->
    at_position (w_panels w) r j p' -> at_position (w_panels w) r (w_num_spanwise_panels w - 1 - j) p ->
    mirror_image n (mkvec x y z) p p'.
Proof.
  intros H Hn HO r j p p' Hj Hp' Hp. apply wing_mesh in H. destruct H as (m0 & HL & ->).
  cbn [w_sections w_panels w_num_spanwise_panels] in *. set (placed := map (cs_set_wing_chordwise c) sections) in *.
  assert (HO' : forall s, In s (removelast placed) -> opposed s = s).
  { intros s Hs. unfold placed in Hs. rewrite <- adjacent_fst, adjacent_map, map_map in Hs. apply in_map_iff in Hs. destruct Hs as ([s0 o] & <- & Hs).
    cbn [fst]. rewrite opposed_placed. f_equal. apply opposed_id, HO. rewrite <- adjacent_fst. apply in_map_iff. exists (s0, o). auto. }
  pose proof (layout_self_opposed _ _ _ HO' HL) as HL2.
  assert (EK : count_spanwise sections true = (2 * columns placed)%nat) by (unfold placed; rewrite columns_placed; apply count_columns).
  rewrite EK in *. set (k := columns placed) in *.
  change (cell (set_positions (2 * k) m0) r j p') in Hp'. change (cell (set_positions (2 * k) m0) r (2 * k - 1 - j) p) in Hp.
  apply cell_positions in Hp, Hp'. destruct Hp as (q & Hq & ->), Hp' as (q' & Hq' & ->). apply mirror_image_position.
  destruct (Nat.lt_ge_cases j k) as [Hjk|Hjk].
  - exact (half_mirror (mkmesh (mkvec x y z) n true nc sp) placed m0 m0 k eq_refl Hn eq_refl HL HL2 r j _ _ Hjk Hq' Hq).
  - apply mirror_image_sym; [exact Hn|]. eapply (half_mirror (mkmesh (mkvec x y z) n true nc sp) placed m0 m0 k eq_refl Hn eq_refl HL HL2 r (2 * k - 1 - j)%nat); [lia | exact Hq |].
    replace (2 * k - 1 - (2 * k - 1 - j))%nat with j by lia. exact Hq'.
Qed.
Lemma wing_mirror_opposed sections name x y z n c nc sp w w' : vnorm n = 1 ->
  new_wing sections name x y z n true c nc sp = Ok w -> new_wing (map opposed sections) name x y z n true c nc sp = Ok w' ->
  forall r j p p', (2 * j < w_num_spanwise_panels w)%nat ->
    at_position (w_panels w) r j p' -> at_position (w_panels w') r (w_num_spanwise_panels w - 1 - j) p ->
    mirror_image n (mkvec x y z) p p'.
Proof.
  intros Hn H H' r j p p' Hj Hp' Hp. apply wing_mesh in H, H'. destruct H as (m0 & HL & ->), H' as (m1 & HL' & ->).
  cbn [w_sections w_panels w_num_spanwise_panels] in *. set (placed := map (cs_set_wing_chordwise c) sections) in *.
  assert (EP : map (cs_set_wing_chordwise c) (map opposed sections) = map opposed placed) by (unfold placed; rewrite !map_map; reflexivity).
  rewrite EP in HL'.
  assert (EK : count_spanwise sections true = (2 * columns placed)%nat) by (unfold placed; rewrite columns_placed; apply count_columns).
  rewrite EK in *. set (k := columns placed) in *.
  change (cell (set_positions (2 * k) m0) r j p') in Hp'. 
  match type of Hp with at_position (set_positions ?ns _) _ _ _ => change (cell (set_positions ns m1) r (2 * k - 1 - j) p) in Hp end.
  apply cell_positions in Hp, Hp'. destruct Hp as (q & Hq & ->), Hp' as (q' & Hq' & ->). apply mirror_image_position.
  refine (half_mirror (mkmesh (mkvec x y z) n true nc sp) placed m0 m1 k eq_refl Hn eq_refl HL HL' r j _ _ _ Hq' Hq). lia.
Qed.

(** ** C10 *)
Lemma airplane_outcome wings name x y z weight s c b :
  (wings = [] -> new_airplane wings name x y z weight s c b = Err ENoWings) /\
  forall main_wing others, wings = main_wing :: others ->
  exists a, new_airplane wings name x y z weight s c b = Ok a /\
    a_wings a = wings /\ a_name a = name /\ a_xyz_ref a = mkvec x y z /\ a_weight a = weight /\
    (forall v, s = Some v -> a_s_ref a = v) /\ (s = None -> a_s_ref a = w_projected_area main_wing) /\
    (forall v, c = Some v -> a_c_ref a = v) /\ (c = None -> a_c_ref a = w_mean_aerodynamic_chord main_wing) /\
    (forall v, b = Some v -> a_b_ref a = v) /\ (b = None -> a_b_ref a = w_span main_wing) /\
    a_num_panels a = list_sum (map w_num_panels wings) /\
    a_force_wind a = None /\ a_force_coefficients a = None /\ a_moment_wind a = None /\ a_moment_coefficients a = None.
Proof.
  split; [intros ->; reflexivity|]. intros m others E.
  assert (G : forall l k, fold_left (fun n w => n + w_num_panels w)%nat l k = (k + list_sum (map w_num_panels l))%nat).
  { clear. induction l as [|w l IH]; intros k; cbn [fold_left map]; [cbn; lia|]. rewrite IH.
    change (list_sum (w_num_panels w :: map w_num_panels l)) with (w_num_panels w + list_sum (map w_num_panels l))%nat. lia. }
  subst wings. unfold new_airplane. eexists. split; [reflexivity|].
  cbn [a_wings a_name a_weight a_s_ref a_c_ref a_b_ref a_num_panels a_force_wind a_force_coefficients a_moment_wind a_moment_coefficients].
  repeat split; try (intros; subst; reflexivity). rewrite G. reflexivity.
Qed.

(** ** C14 *)
Lemma scaled_normal_norm n k : vnorm n = 1 -> vnorm (vscale k n) = Rabs k.
Proof. intros H. rewrite vnorm_scale, H. ring. Qed.
Lemma span_nonneg w : 0 <= w_span w.
Proof. unfold w_span. destruct (w_symmetric w); [apply Rmult_le_pos; [|lra]|]; apply vnorm_nonneg. Qed.
Lemma span_is_distance w root tip : vnorm (w_unit_normal w) = 1 ->
  nth_error (w_sections w) 0 = Some root -> nth_error (w_sections w) (length (w_sections w) - 1) = Some tip ->
  w_span w = (if w_symmetric w then 2 else 1) * Rabs (vdot (vsub (cs_leading_edge tip) (cs_leading_edge root)) (w_unit_normal w)).
Proof.
  intros Hn H0 H1. unfold w_span, nth_leading_edge. rewrite H0, H1, scaled_normal_norm by exact Hn. destruct (w_symmetric w); ring.
Qed.
Lemma projected_area_le_wetted w : vnorm (w_unit_up w) = 1 -> 0 <= w_projected_area w <= w_wetted_area w.
Proof.
  intros Hn. unfold w_projected_area, w_wetted_area. induction (ravel (w_panels w)) as [|p l IH]; cbn [map].
  - rewrite rsum_nil. lra.
  - rewrite !rsum_cons. pose proof (projected_area_bounds p (w_unit_up w) Hn). lra.
Qed.
Lemma smc_times_span w : w_span w <> 0 -> w_standard_mean_chord w * w_span w = w_projected_area w.
Proof. intros H. unfold w_standard_mean_chord. field. exact H. Qed.
Lemma mac_term_bounds n inner outer lo hi : 0 <= lo -> lo <= cs_chord inner <= hi -> lo <= cs_chord outer <= hi ->
  let span := vnorm (vscale (vdot (vsub (cs_leading_edge outer) (cs_leading_edge inner)) n) n) in
  lo ^ 2 * span <= mac_term n inner outer <= hi ^ 2 * span.
Proof.
  intros Hlo Hi Ho span. unfold mac_term. fold span. assert (Hs : 0 <= span) by apply vnorm_nonneg.
  set (a := cs_chord inner) in *. set (b := cs_chord outer) in *.
  assert (3 * lo ^ 2 <= a ^ 2 + a * b + b ^ 2) by nra. assert (a ^ 2 + a * b + b ^ 2 <= 3 * hi ^ 2) by nra.
  split; nra.
Qed.
Lemma map2_combine {A B C} (f : A -> B -> C) a b : map2 f a b = map (fun p => f (fst p) (snd p)) (combine a b).
Proof. revert b; induction a as [|x a IH]; intros [|y b]; cbn; try reflexivity. rewrite IH. reflexivity. Qed.
(** Sections that follow one another outward along the normal. *)
Definition outward (n : vec) (sections : list section) : Prop :=
  forall i o, In (i, o) (adjacent sections) -> 0 <= vdot (vsub (cs_leading_edge o) (cs_leading_edge i)) n.
Lemma outward_sum n sections first : vnorm n = 1 -> outward n (first :: sections) ->
  rsum (map (fun p => vnorm (vscale (vdot (vsub (cs_leading_edge (snd p)) (cs_leading_edge (fst p))) n) n)) (adjacent (first :: sections))) =
    vdot (vsub (nth_leading_edge (first :: sections) (length sections)) (cs_leading_edge first)) n /\
  0 <= vdot (vsub (nth_leading_edge (first :: sections) (length sections)) (cs_leading_edge first)) n.
Proof.
  intros Hn. revert first. induction sections as [|o l IH]; intros i Ho.
  - cbn [adjacent combine tl map length]. unfold nth_leading_edge; cbn [nth_error]. replace (vdot (vsub (cs_leading_edge i) (cs_leading_edge i)) n) with 0 by (vunfold; ring).
    split; [reflexivity | lra].
  - change (adjacent (i :: o :: l)) with ((i, o) :: adjacent (o :: l)) in *. cbn [map fst snd]. rewrite rsum_cons.
    destruct (IH o) as [E HE]; [intros a b Hab; apply Ho; right; exact Hab|].
    rewrite E, scaled_normal_norm by exact Hn. pose proof (Ho i o (or_introl eq_refl)) as H0. rewrite Rabs_pos_eq by exact H0.
    change (nth_leading_edge (i :: o :: l) (length (o :: l))) with (nth_leading_edge (o :: l) (length l)).
    set (t := nth_leading_edge (o :: l) (length l)) in *. revert HE H0. vunfold. intros. split; [ring | lra].
Qed.
Lemma mac_sum n c k sections : (forall s, In s sections -> cs_chord s = c) ->
  k = rsum (map (fun p => vnorm (vscale (vdot (vsub (cs_leading_edge (snd p)) (cs_leading_edge (fst p))) n) n)) (adjacent sections)) ->
  rsum (map2 (mac_term n) sections (tl sections)) = c ^ 2 * k.
Proof.
  intros Hc ->. rewrite map2_combine. change (combine sections (tl sections)) with (adjacent sections).
  assert (G : forall p, In p (adjacent sections) -> cs_chord (fst p) = c /\ cs_chord (snd p) = c).
  { intros [i o] Hio. unfold adjacent in Hio. split; apply Hc; cbn.
    - eapply in_combine_l; exact Hio.
    - apply in_combine_r in Hio. destruct sections; [contradiction | right; exact Hio]. }
  revert G. generalize (adjacent sections) as l. induction l as [|p l IH]; intros G; cbn [map]; [unfold rsum; cbn; ring|].
  rewrite !rsum_cons, IH by (intros; apply G; right; assumption). destruct (G p (or_introl eq_refl)) as [E1 E2].
  unfold mac_term. rewrite E1, E2. field.
Qed.
Lemma mac_equal_chords w c : vnorm (w_unit_normal w) = 1 -> w_sections w <> [] -> outward (w_unit_normal w) (w_sections w) ->
  (forall s, In s (w_sections w) -> cs_chord s = c) -> 
  w_mean_aerodynamic_chord w = c ^ 2 * w_span w / w_projected_area w.
Proof.
  intros Hn Hne Ho Hc. destruct (w_sections w) as [|root l] eqn:E; [contradiction|].
  unfold w_mean_aerodynamic_chord, w_span. rewrite E.
  destruct (outward_sum (w_unit_normal w) l root Hn Ho) as [H1 H2].
  rewrite (mac_sum (w_unit_normal w) c _ (root :: l) Hc (eq_sym H1)).
  cbn [length]. rewrite Nat.sub_succ, Nat.sub_0_r.
  change (nth_leading_edge (root :: l) 0) with (cs_leading_edge root).
  rewrite scaled_normal_norm, Rabs_pos_eq by assumption. destruct (w_symmetric w); unfold Rdiv; ring.
Qed.
Lemma mac_is_chord w c : vnorm (w_unit_normal w) = 1 -> w_sections w <> [] -> outward (w_unit_normal w) (w_sections w) ->
  (forall s, In s (w_sections w) -> cs_chord s = c) -> c <> 0 -> w_span w <> 0 ->
  w_projected_area w = c * w_span w -> w_mean_aerodynamic_chord w = c.
Proof. intros H1 H2 H3 H4 H5 H6 H7. rewrite (mac_equal_chords w c) by assumption. rewrite H7. field. auto. Qed.
Lemma mac_between w lo hi : vnorm (w_unit_normal w) = 1 -> w_sections w <> [] -> outward (w_unit_normal w) (w_sections w) ->
  0 <= lo -> (forall s, In s (w_sections w) -> lo <= cs_chord s <= hi) -> 0 < w_projected_area w ->
  lo ^ 2 * w_span w <= w_mean_aerodynamic_chord w * w_projected_area w <= hi ^ 2 * w_span w.
Proof.
  intros Hn Hne Ho Hlo Hc HA. destruct (w_sections w) as [|root l] eqn:E; [contradiction|].
  destruct (outward_sum (w_unit_normal w) l root Hn Ho) as [H1 H2].
  set (n := w_unit_normal w) in *.
  set (K := vdot (vsub (nth_leading_edge (root :: l) (length l)) (cs_leading_edge root)) n) in *.
  assert (HI : lo ^ 2 * K <= rsum (map2 (mac_term n) (root :: l) (tl (root :: l))) <= hi ^ 2 * K).
  { rewrite <- H1, map2_combine. change (combine (root :: l) (tl (root :: l))) with (adjacent (root :: l)).
    assert (G : forall p, In p (adjacent (root :: l)) -> lo <= cs_chord (fst p) <= hi /\ lo <= cs_chord (snd p) <= hi).
    { intros [i o] Hio. unfold adjacent in Hio. split; apply Hc; cbn [fst snd].
      - eapply in_combine_l; exact Hio.
      - apply in_combine_r in Hio. right; exact Hio. }
    revert G. generalize (adjacent (root :: l)) as q. induction q as [|p q IH]; intros G; cbn [map]; [unfold rsum; cbn; lra|].
    rewrite !rsum_cons. destruct (G p (or_introl eq_refl)) as [G1 G2].
    pose proof (mac_term_bounds n (fst p) (snd p) lo hi Hlo G1 G2) as B. cbn zeta in B.
    specialize (IH (fun x Hx => G x (or_intror Hx))). lra. }
  assert (EM : w_mean_aerodynamic_chord w * w_projected_area w = (if w_symmetric w then 2 else 1) * rsum (map2 (mac_term n) (root :: l) (tl (root :: l)))).
  { unfold w_mean_aerodynamic_chord. rewrite E. fold n. destruct (w_symmetric w); field; lra. }
  assert (ES : w_span w = (if w_symmetric w then 2 else 1) * K).
  { unfold w_span. rewrite E. fold n. cbn [length]. rewrite Nat.sub_succ, Nat.sub_0_r. change (nth_leading_edge (root :: l) 0) with (cs_leading_edge root).
    rewrite scaled_normal_norm, Rabs_pos_eq by assumption. fold K. destruct (w_symmetric w); ring. }
  rewrite EM, ES. destruct (w_symmetric w); lra.
Qed.
Lemma wing_attributes sections name x y z n sym c nc sp w : new_wing sections name x y z n sym c nc sp = Ok w ->
  w_name w = name /\ w_leading_edge w = mkvec x y z /\ w_unit_normal w = n /\ w_symmetric w = sym /\
  w_unit_chordwise w = c /\ w_num_chordwise_panels w = nc /\ w_chordwise_spacing w = sp /\
  w_sections w = map (cs_set_wing_chordwise c) sections /\
  w_num_spanwise_panels w = ((if sym then 2 else 1) * list_sum (map cs_num_spanwise_panels (removelast sections)))%nat /\
  w_num_panels w = (w_num_spanwise_panels w * nc)%nat.
Proof.
  intros H. pose proof (wing_shape _ _ _ _ _ _ _ _ _ _ _ H) as (_ & _ & _ & HN & _). apply wing_mesh in H. destruct H as (m0 & _ & ->).
  cbn [w_num_spanwise_panels] in HN. repeat split; exact HN.
Qed.
