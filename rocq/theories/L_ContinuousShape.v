(** The constructors of cross sections, wings and airplanes on arguments that come closer and closer to given ones. *)
From Coq Require Import List Lia Lra Bool Reals String.
From Verif Require Import M_Geometry S_Continuous S_ContinuousShape L_Base L_Geometry L_Limits L_Loads L_Continuous.
Import ListNotations.
Local Open Scope R_scope.
Local Open Scope list_scope.

(** ** Lists *)
Lemma each_removelast {A} (T : (nat -> A) -> A -> Prop) u l : each T u l -> each T (fun n => removelast (u n)) (removelast l).
Proof.
  intros H. induction H as [u H|u x v a m E Hx H IH]; [constructor; intros n; rewrite H; reflexivity|].
  destruct m as [|b m].
  - inversion H as [? E2|]; subst. constructor. intros n. rewrite E, E2. reflexivity.
  - destruct (each_tl _ _ _ _ H) as (y & w & E2 & _ & _). change (removelast (a :: b :: m)) with (a :: removelast (b :: m)).
    refine (each_cons _ _ x (fun n => removelast (v n)) a _ _ Hx IH). intros n. rewrite E, E2. reflexivity.
Qed.
Lemma each_tail {A} (T : (nat -> A) -> A -> Prop) u l : each T u l -> each T (fun n => tl (u n)) (tl l).
Proof. intros H. destruct H as [u H|u x v a m E Hx H]; [constructor; intros n; rewrite H; reflexivity|]. eapply each_ext; [intros n; rewrite E; reflexivity | exact H]. Qed.
Lemma each_rev {A} (T : (nat -> A) -> A -> Prop) u l : each T u l -> each T (fun n => rev (u n)) (rev l).
Proof.
  intros H. induction H as [u H|u x v a m E Hx H IH]; [constructor; intros n; rewrite H; reflexivity|]. cbn [rev].
  eapply each_ext; [intros n; rewrite E; reflexivity|]. cbn [rev]. apply each_app; [exact IH|]. eapply each_cons; [intros n; reflexivity | exact Hx | constructor; reflexivity].
Qed.
Lemma each_hstack {A} (T : (nat -> A) -> A -> Prop) u l v m : each (each T) u l -> each (each T) v m -> each (each T) (fun n => hstack (u n) (v n)) (hstack l m).
Proof.
  intros H. revert v m. induction H as [u H|u x u' a l E Hx H IH]; intros v m Hv; [constructor; intros n; rewrite H; reflexivity|].
  destruct Hv as [v Hv|v y v' b m Ev Hy Hv]; [constructor; intros n; rewrite E, Hv; reflexivity|]. cbn [hstack].
  refine (each_cons _ _ (fun n => x n ++ y n) (fun n => hstack (u' n) (v' n)) _ _ _ (each_app _ _ _ _ _ Hx Hy) (IH _ _ Hv)). intros n. rewrite E, Ev. reflexivity.
Qed.
Lemma each_mapi {A B} (T : (nat -> A) -> A -> Prop) (T' : (nat -> B) -> B -> Prop) (f : nat -> nat -> A -> B) g u l :
  (forall i x a, T x a -> T' (fun n => f n i (x n)) (g i a)) -> each T u l -> each T' (fun n => mapi (f n) (u n)) (mapi g l).
Proof.
  intros HF H. unfold mapi. generalize 0%nat. induction H as [u H|u x v a m E Hx H IH]; intros k; [constructor; intros n; rewrite H; reflexivity|].
  cbn [mapi_from]. refine (each_cons _ _ (fun n => f n k (x n)) (fun n => mapi_from (S k) (f n) (v n)) _ _ _ (HF k _ _ Hx) (IH (S k))). intros n. rewrite E. reflexivity.
Qed.
Lemma settles_const {A} (T : (nat -> A) -> A -> Prop) (r : result A) : (forall a, r = Ok a -> T (fun _ => a) a) -> settles T (fun _ => r) r.
Proof. intros H a E. exists (fun _ => a), 0%nat. split; [intros n _; exact E | apply H; exact E]. Qed.

Definition paired {A B} (TA : (nat -> A) -> A -> Prop) (TB : (nat -> B) -> B -> Prop) (w : nat -> A * B) (p : A * B) : Prop :=
  exists x y, (forall n : nat, w n = (x n, y n)) /\ TA x (fst p) /\ TB y (snd p).
Lemma each_both {A B} (TA : (nat -> A) -> A -> Prop) (TB : (nat -> B) -> B -> Prop) u l v m : each TA u l -> each TB v m -> each (paired TA TB) (fun n => combine (u n) (v n)) (combine l m).
Proof. exact (each_combine TA TB u l v m). Qed.

(** ** Cross sections *)
Definition section_tends (u : nat -> section) (s : section) : Prop :=
  approaching_section u s /\ forall n, cs_wing_unit_chordwise (u n) = cs_wing_unit_chordwise s.
Lemma rotation_tends U x axis : tends U x -> mtends (fun n => angle_axis_rotation_matrix (U n) axis false) (angle_axis_rotation_matrix x axis false).
Proof.
  intros H. unfold angle_axis_rotation_matrix. generalize (vdiv axis (vnorm axis)). intros u. unfold rodrigues, mtends, vtends. cbn [r0 r1 r2 vx vy vz].
  pose proof (tends_sin _ _ H) as HS. pose proof (tends_cos _ _ H) as HC.
  assert (H1 : tends (fun n => 1 - cos (U n)) (1 - cos x)) by (apply tends_minus; [apply tends_const | exact HC]).
  assert (HK : forall c, tends (fun n => c * (1 - cos (U n))) (c * (1 - cos x))) by (intros c; apply tends_mult; [apply tends_const | exact H1]).
  assert (HSc : forall c, tends (fun n => c * sin (U n)) (c * sin x)) by (intros c; apply tends_mult; [apply tends_const | exact HS]).
  repeat split; first [apply (tends_plus _ _ _ _ HC); apply HK | apply tends_minus; [apply HK | apply HSc] | apply tends_plus; [apply HK | apply HSc]].
Qed.
Lemma chordwise_settles U s : section_tends U s -> settles vtends (fun n => cs_unit_chordwise (U n)) (cs_unit_chordwise s).
Proof.
  intros ((_ & _ & HT & HE) & HC). unfold cs_unit_chordwise. eapply settles_ext; [intros n; rewrite HC; reflexivity|]. destruct (cs_wing_unit_chordwise s) as [v|]; [|apply settles_Err].
  apply (settles_Ok vtends (fun n => mvmul (angle_axis_rotation_matrix (cs_twist (U n) * PI / 180) (cs_unit_normal (U n)) false) v)).
  eapply vtends_ext; [intros n; destruct (HE n) as (_ & -> & _); reflexivity|]. apply vtends_mvmul; [|apply vtends_const]. apply rotation_tends. unfold Rdiv. apply tends_mult; [apply tends_mult; [exact HT | apply tends_const] | apply tends_const].
Qed.
Lemma mcl_settles P p U s mcl : vtends P p -> section_tends U s -> settles (each vtends) (fun n => section_mcl (P n) (U n) mcl) (section_mcl p s mcl).
Proof.
  intros HP HU. pose proof (chordwise_settles U s HU) as HC. destruct HU as ((HL & HCh & _ & HE) & _). unfold section_mcl, cs_unit_up.
  apply (settles_bind vtends _ _ _ _ _ HC). intros C c Ec HCc.
  eapply (settles_bind vtends).
  - apply (settles_bind vtends _ _ _ _ _ HC). intros C' c' _ HC'. apply (settles_Ok vtends (fun n => vcross (C' n) (cs_unit_normal (U n)))). apply vtends_cross; [exact HC'|]. eapply vtends_ext; [intros n; destruct (HE n) as (_ & -> & _); reflexivity | apply vtends_const].
  - intros V v _ HV. apply (settles_Ok (each vtends) (fun n => map (fun p0 => vadd (vadd (vadd (P n) (cs_leading_edge (U n))) (vscale (cs_chord (U n) * fst p0) (C n))) (vscale (cs_chord (U n) * snd p0) (V n))) mcl)).
    refine (each_map (fun x a => forall n : nat, x n = a) vtends (fun n p0 => vadd (vadd (vadd (P n) (cs_leading_edge (U n))) (vscale (cs_chord (U n) * fst p0) (C n))) (vscale (cs_chord (U n) * snd p0) (V n))) _ (fun _ => mcl) mcl _ (each_const _ mcl (fun _ _ _ => eq_refl))).
    intros x a _ Ex. eapply vtends_ext; [intros n; rewrite Ex; reflexivity|]. repeat apply vtends_add; try assumption; apply vtends_scale; try assumption; apply tends_mult; try assumption; apply tends_const.
Qed.
Definition grids (u : nat -> vertices) (v : vertices) : Prop :=
  each (each vtends) (fun n => v_front_inner (u n)) (v_front_inner v) /\ each (each vtends) (fun n => v_front_outer (u n)) (v_front_outer v) /\
  each (each vtends) (fun n => v_back_inner (u n)) (v_back_inner v) /\ each (each vtends) (fun n => v_back_outer (u n)) (v_back_outer v).
Lemma split_tends G g : each (each vtends) G g -> grids (fun n => split_vertices (G n)) (split_vertices g).
Proof.
  intros H. unfold grids, split_vertices, but_last. cbn [v_front_inner v_front_outer v_back_inner v_back_outer].
  assert (HR : forall U u, each (each vtends) U u -> each (each vtends) (fun n => map (@removelast vec) (U n)) (map (@removelast vec) u)) by (intros U u HU; refine (each_map _ _ (fun _ => @removelast vec) (@removelast vec) _ _ _ HU); intros x a _ Hx; apply each_removelast, Hx).
  assert (HT : forall U u, each (each vtends) U u -> each (each vtends) (fun n => map (@tl vec) (U n)) (map (@tl vec) u)) by (intros U u HU; refine (each_map _ _ (fun _ => @tl vec) (@tl vec) _ _ _ HU); intros x a _ Hx; apply each_tail, Hx).
  split; [apply HR, each_removelast, H|]. split; [apply HT, each_removelast, H|]. split; [apply HR, each_tail, H | apply HT, each_tail, H].
Qed.
Lemma vertices_settle P p I i O o mi mo ks : vtends P p -> section_tends I i -> section_tends O o ->
  settles grids (fun n => section_vertices (P n) (I n) (O n) mi mo ks) (section_vertices p i o mi mo ks).
Proof.
  intros HP HI HO. unfold section_vertices. apply (settles_bind (each vtends) _ _ _ _ _ (mcl_settles P p I i mi HP HI)). intros A a _ HA.
  apply (settles_bind (each vtends) _ _ _ _ _ (mcl_settles P p O o mo HP HO)). intros B b _ HB.
  apply (settles_Ok grids (fun n => split_vertices (interp_between_points (A n) (B n) ks))). apply split_tends. unfold interp_between_points.
  refine (each_map2 vtends vtends (each vtends) (fun _ s e => let vector := vsub e s in map (fun k => vadd s (vscale k vector)) ks) (fun s e => let vector := vsub e s in map (fun k => vadd s (vscale k vector)) ks) _ _ _ _ _ HA HB).
  intros S s E e _ _ HS HE. cbv zeta. refine (each_map (fun x a => forall n : nat, x n = a) vtends (fun n k => vadd (S n) (vscale k (vsub (E n) (S n)))) (fun k => vadd s (vscale k (vsub e s))) (fun _ => ks) ks _ (each_const _ ks (fun _ _ _ => eq_refl))).
  intros x k _ Ex. eapply vtends_ext; [intros n; rewrite Ex; reflexivity|]. apply vtends_add; [exact HS|]. apply vtends_scale; [apply tends_const | apply vtends_sub; assumption].
Qed.
Lemma panels_settle FL fl FR fr BL bl BR br : each (each vtends) FL fl -> each (each vtends) FR fr -> each (each vtends) BL bl -> each (each vtends) BR br ->
  each (each approaching_panel) (fun n => section_panels (FL n) (FR n) (BL n) (BR n)) (section_panels fl fr bl br).
Proof.
  intros H1 H2 H3 H4. pose proof (each_length _ _ _ H1) as HL. unfold section_panels. cbv zeta.
  eapply each_ext; [intros n; rewrite HL; reflexivity|].
  refine (each_mapi (paired (paired (paired (each vtends) (each vtends)) (each vtends)) (each vtends)) (each approaching_panel)
    (fun _ i rows => let '(rfl, rfr, rbl, rbr) := rows in map (fun v => let '(pfl, pfr, pbl, pbr) := v in new_panel pfr pfl pbl pbr (Nat.eqb i 0) (Nat.eqb (S i) (List.length fl))) (combine (combine (combine rfl rfr) rbl) rbr)) _ _ _ _
    (each_both _ _ _ _ _ _ (each_both _ _ _ _ _ _ (each_both _ _ _ _ _ _ H1 H2) H3) H4)).
  intros i X x (X1 & D & E1 & (X2 & C & E2 & (A & B & E3 & HA & HB) & HC) & HD).
  destruct x as [[[a b] c] d]. cbn [fst snd] in *.
  eapply each_ext; [intros n; rewrite E1, E2, E3; reflexivity|].
  refine (each_map (paired (paired (paired vtends vtends) vtends) vtends) approaching_panel
    (fun _ v => let '(pfl, pfr, pbl, pbr) := v in new_panel pfr pfl pbl pbr (Nat.eqb i 0) (Nat.eqb (S i) (List.length fl))) _ _ _ _
    (each_both _ _ _ _ _ _ (each_both _ _ _ _ _ _ (each_both _ _ _ _ _ _ HA HB) HC) HD)).
  intros Y y _ (Y1 & D' & F1 & (Y2 & C' & F2 & (A' & B' & F3 & HA' & HB') & HC') & HD'). destruct y as [[[a' b'] c'] d']. cbn [fst snd] in *.
  unfold approaching_panel. cbn [new_panel p_front_left p_front_right p_back_left p_back_right p_is_leading_edge p_is_trailing_edge p_is_right_edge p_is_left_edge p_local_chordwise p_local_spanwise].
  split; [eapply vtends_ext; [intros n; rewrite F1, F2, F3; reflexivity | exact HA']|].
  split; [eapply vtends_ext; [intros n; rewrite F1, F2, F3; reflexivity | exact HB']|].
  split; [eapply vtends_ext; [intros n; rewrite F1, F2, F3; reflexivity | exact HC']|].
  split; [eapply vtends_ext; [intros n; rewrite F1, F2, F3; reflexivity | exact HD']|].
  intros n. rewrite F1, F2, F3. repeat split.
Qed.
Lemma flapped_same U u O o ks n d : section_tends U u -> section_tends O o -> flapped_camber ks (U n) (O n) d = flapped_camber ks u o d.
Proof. intros ((_ & _ & _ & HU) & _) ((_ & _ & _ & HO) & _). destruct (HU n) as (E1 & _ & _ & E2 & _), (HO n) as (E3 & _). unfold flapped_camber. rewrite E1, E2, E3. reflexivity. Qed.
Lemma reflect_tends X x nrm P p : vtends X x -> vtends P p -> vtends (fun n => reflect_point_across_plane (X n) nrm (P n)) (reflect_point_across_plane x nrm p).
Proof.
  intros (X1 & X2 & X3) HP. unfold reflect_point_across_plane.
  assert (HD : tends (fun n => vdot (vopp (P n)) nrm) (vdot (vopp p) nrm)) by (apply tends_dot; [apply vtends_opp; exact HP | apply vtends_const]).
  assert (HK : forall c U v, tends U v -> tends (fun n => c * U n) (c * v)) by (intros c U v HU; apply tends_mult; [apply tends_const | exact HU]).
  assert (HE : forall c, tends (fun n => -2 * (c * vdot (vopp (P n)) nrm) * 1) (-2 * (c * vdot (vopp p) nrm) * 1)).
  { intros c. apply tends_mult; [|apply tends_const]. apply HK, HK, HD. }
  unfold vtends. cbn [vx vy vz]. repeat split; repeat apply tends_plus; first [apply HK; assumption | apply HE].
Qed.
Lemma reflect_grids S s G g : (forall n, ms_unit_normal (S n) = ms_unit_normal s) -> vtends (fun n => ms_leading_edge (S n)) (ms_leading_edge s) ->
  each (each vtends) G g -> each (each vtends) (fun n => reflect_grid (S n) (G n)) (reflect_grid s g).
Proof.
  intros HN HP HG. unfold reflect_grid.
  refine (each_map _ _ (fun n => map (fun p => reflect_point_across_plane p (ms_unit_normal (S n)) (ms_leading_edge (S n)))) (map (fun p => reflect_point_across_plane p (ms_unit_normal s) (ms_leading_edge s))) _ _ _ HG).
  intros R r _ HR. refine (each_map _ _ (fun n p => reflect_point_across_plane p (ms_unit_normal (S n)) (ms_leading_edge (S n))) (fun p => reflect_point_across_plane p (ms_unit_normal s) (ms_leading_edge s)) _ _ _ HR).
  intros X x _ HX. eapply vtends_ext; [intros n; rewrite HN; reflexivity|]. apply reflect_tends; assumption.
Qed.
Definition spec_tends (S : nat -> mesh_spec) (s : mesh_spec) : Prop :=
  vtends (fun n => ms_leading_edge (S n)) (ms_leading_edge s) /\
  forall n, ms_unit_normal (S n) = ms_unit_normal s /\ ms_symmetric (S n) = ms_symmetric s /\ ms_num_chordwise (S n) = ms_num_chordwise s /\ ms_chordwise_spacing (S n) = ms_chordwise_spacing s.
Lemma mesh_two w i o rest acc : mesh_sections w (i :: o :: rest) acc =
  (let* right_panels := right_section w i o in
   let* acc := if ms_symmetric w then let* left_panels := left_section w i o in Ok (hstack left_panels (hstack acc right_panels)) else Ok (hstack acc right_panels) in
   mesh_sections w (o :: rest) acc).
Proof. reflexivity. Qed.
Section Mesh.
Context (Sp : nat -> mesh_spec) (sp : mesh_spec) (HSp : spec_tends Sp sp).
Lemma right_settles I i O o : section_tends I i -> section_tends O o -> settles (each (each approaching_panel)) (fun n => right_section (Sp n) (I n) (O n)) (right_section sp i o).
Proof.
  intros HI HO. destruct HSp as [HP HE]. unfold right_section. cbv zeta.
  eapply settles_ext.
  { intros n. destruct (HE n) as (_ & _ & -> & ->). rewrite (flapped_same _ _ _ _ _ n _ HI HO). destruct HI as ((_ & _ & _ & HIe) & _). destruct (HIe n) as (_ & _ & _ & _ & -> & -> & ->). reflexivity. }
  eapply (settles_bind (fun x a => forall n : nat, x n = a)); [apply settles_const; intros a _ n; reflexivity|]. intros M m _ HM.
  eapply settles_ext; [intros n; rewrite HM; reflexivity|]. apply (settles_bind grids _ _ _ _ _ (vertices_settle _ _ _ _ _ _ _ _ _ HP HI HO)). intros V v _ (H1 & H2 & H3 & H4).
  destruct (check (Nat.leb 1 (ms_num_chordwise sp)) EValueError) as [u|e]; [|apply settles_Err]. cbn [bind].
  apply (settles_Ok (each (each approaching_panel)) (fun n => section_panels (v_front_inner (V n)) (v_front_outer (V n)) (v_back_inner (V n)) (v_back_outer (V n)))). apply panels_settle; assumption.
Qed.
Lemma left_settles I i O o : section_tends I i -> section_tends O o -> settles (each (each approaching_panel)) (fun n => left_section (Sp n) (I n) (O n)) (left_section sp i o).
Proof.
  intros HI HO. destruct HSp as [HP HE]. unfold left_section. cbv zeta.
  eapply settles_ext.
  { intros n. destruct (HE n) as (_ & _ & -> & ->). rewrite (flapped_same _ _ _ _ _ n _ HI HO). destruct HI as ((_ & _ & _ & HIe) & _). destruct (HIe n) as (_ & _ & -> & _ & -> & -> & ->). reflexivity. }
  eapply (settles_bind (fun x a => forall n : nat, x n = a)); [apply settles_const; intros a _ n; reflexivity|]. intros M m _ HM.
  eapply settles_ext; [intros n; rewrite HM; reflexivity|]. apply (settles_bind grids _ _ _ _ _ (vertices_settle _ _ _ _ _ _ _ _ _ HP HI HO)). intros V v _ (H1 & H2 & H3 & H4).
  destruct (check (Nat.leb 1 (cs_num_spanwise_panels i)) EValueError) as [u|e]; [|apply settles_Err]. cbn [bind].
  apply (settles_Ok (each (each approaching_panel)) (fun n => map (@rev _) (section_panels (reflect_grid (Sp n) (v_front_outer (V n))) (reflect_grid (Sp n) (v_front_inner (V n))) (reflect_grid (Sp n) (v_back_outer (V n))) (reflect_grid (Sp n) (v_back_inner (V n)))))).
  assert (HN : forall n, ms_unit_normal (Sp n) = ms_unit_normal sp) by (intros n; apply HE).
  refine (each_map (each approaching_panel) (each approaching_panel) (fun _ => @rev panel) (@rev panel) _ _ _ (panels_settle _ _ _ _ _ _ _ _ (reflect_grids _ _ _ _ HN HP H2) (reflect_grids _ _ _ _ HN HP H1) (reflect_grids _ _ _ _ HN HP H4) (reflect_grids _ _ _ _ HN HP H3))).
  intros R r _ HR. apply each_rev, HR.
Qed.
Lemma sections_settle sections : forall Ss A a, each section_tends Ss sections -> each (each approaching_panel) A a ->
  settles (each (each approaching_panel)) (fun n => mesh_sections (Sp n) (Ss n) (A n)) (mesh_sections sp sections a).
Proof.
  induction sections as [|i rest IH]; intros Ss A a HS HA.
  - inversion HS as [? E|]; subst. eapply settles_ext; [intros n; rewrite E; reflexivity|]. cbn [mesh_sections]. apply settles_Ok. exact HA.
  - destruct (each_tl _ _ _ _ HS) as (I & Ss' & E & HI & HR). destruct rest as [|o rest].
    + inversion HR as [? E'|]; subst. eapply settles_ext; [intros n; rewrite E, E'; reflexivity|]. cbn [mesh_sections]. apply settles_Ok. exact HA.
    + destruct (each_tl _ _ _ _ HR) as (O & Ss'' & E' & HO & _).
      eapply settles_ext; [intros n; rewrite E, E', mesh_two, <- E'; destruct HSp as [_ HE]; destruct (HE n) as (_ & -> & _); reflexivity|]. rewrite mesh_two.
      apply (settles_bind (each (each approaching_panel)) _ _ _ _ _ (right_settles I i O o HI HO)). intros Rp rp _ HRp.
      eapply (settles_bind (each (each approaching_panel))).
      * destruct (ms_symmetric sp).
        -- apply (settles_bind (each (each approaching_panel)) _ _ _ _ _ (left_settles I i O o HI HO)). intros Lp lp _ HLp. apply (settles_Ok _ (fun n => hstack (Lp n) (hstack (A n) (Rp n)))). apply each_hstack; [exact HLp | apply each_hstack; assumption].
        -- apply (settles_Ok _ (fun n => hstack (A n) (Rp n))). apply each_hstack; assumption.
      * intros A' a' _ HA'. cbv beta. apply IH; assumption.
Qed.
Lemma mesh_settles ns Ss sections : each section_tends Ss sections -> settles (each (each approaching_panel)) (fun n => mesh_wing (Sp n) ns (Ss n)) (mesh_wing sp ns sections).
Proof.
  intros HS. unfold mesh_wing. eapply (settles_bind (each (each approaching_panel))).
  - eapply settles_ext; [intros n; destruct HSp as [_ HE]; destruct (HE n) as (_ & _ & -> & _); reflexivity|]. apply sections_settle; [exact HS|].
    apply each_const. intros r Hr. apply repeat_spec in Hr. subst r. constructor. reflexivity.
  - intros M m _ HM. apply (settles_Ok _ (fun n => set_positions ns (M n))). unfold set_positions.
    refine (each_mapi _ _ (fun _ c row => mapi (fun s p => p_set_position (Nat.eqb (S s) ns) (Nat.eqb s 0) c s p) row) _ _ _ _ HM). intros c R r HR.
    refine (each_mapi _ _ (fun _ s p => p_set_position (Nat.eqb (S s) ns) (Nat.eqb s 0) c s p) _ _ _ _ HR). intros k P p (H1 & H2 & H3 & H4 & H5).
    unfold approaching_panel. cbn [p_set_position p_front_left p_front_right p_back_left p_back_right p_is_leading_edge p_is_trailing_edge p_is_right_edge p_is_left_edge p_local_chordwise p_local_spanwise].
    repeat (split; [assumption|]). intros n. destruct (H5 n) as (-> & -> & _). repeat split.
Qed.
End Mesh.

(** ** The constructors *)
Lemma section_settles a X x Y y Z z C c nrm T t ct hp d ns sp : tends X x -> tends Y y -> tends Z z -> tends C c -> tends T t ->
  settles section_tends (fun n => new_section a (X n) (Y n) (Z n) (C n) nrm (T n) ct hp d ns sp) (new_section a x y z c nrm t ct hp d ns sp).
Proof.
  intros HX HY HZ HC HT s E. unfold new_section in E. cbv zeta in E. apply bind_Ok in E. destruct E as (u & E1 & E).
  assert (Hc : 0 < c) by (unfold check in E1; destruct (Rleb c 0) eqn:B; [discriminate E1 | apply Rleb_false in B; exact B]).
  destruct (tends_above C c 0 HC Hc) as [N HN].
  exists (fun n => mksection a (X n) (Y n) (Z n) (C n) nrm (T n) ct hp d ns sp None), N. split.
  - intros n Hn. unfold new_section. cbv zeta. replace (Rleb (C n) 0) with false by (symmetry; apply Rleb_false; exact (HN n Hn)). cbn [negb check bind].
    apply bind_Ok in E. destruct E as (u2 & E2 & E). rewrite E2. cbn [bind]. apply bind_Ok in E. destruct E as (u3 & E3 & E). rewrite E3. reflexivity.
  - apply bind_Ok in E. destruct E as (u2 & E2 & E). apply bind_Ok in E. destruct E as (u3 & E3 & E). apply Ok_eq in E. subst s.
    split; [|intros n; reflexivity]. unfold approaching_section, cs_leading_edge, vtends. cbn. repeat split; assumption.
Qed.
Lemma sections_count U l sym : each approaching_section U l -> forall n, count_spanwise (U n) sym = count_spanwise l sym.
Proof.
  intros H n. unfold count_spanwise. pose proof (each_removelast _ _ _ H) as HR. replace (fold_left (fun k s => (k + cs_num_spanwise_panels s)%nat) (removelast (U n)) 0%nat) with (fold_left (fun k s => (k + cs_num_spanwise_panels s)%nat) (removelast l) 0%nat); [reflexivity|].
  clear H. revert HR. generalize (removelast l) as m. set (V := fun n => removelast (U n)). change (removelast (U n)) with (V n). generalize V. clear. intros V m H. generalize 0%nat.
  induction H as [V E|V x v a m E Hx H IH]; intros k; rewrite E; [reflexivity|]. cbn [fold_left]. rewrite <- IH. destruct Hx as (_ & _ & _ & HE). destruct (HE n) as (_ & _ & _ & _ & _ & -> & _). reflexivity.
Qed.
Lemma sections_plane (f : vec -> bool) U l : each approaching_section U l -> forall n, forallb (fun s => f (cs_unit_normal s)) (U n) = forallb (fun s => f (cs_unit_normal s)) l.
Proof.
  intros H n. induction H as [V E|V x v a m E Hx H IH]; rewrite E; [reflexivity|]. cbn [forallb]. rewrite IH. destruct Hx as (_ & _ & _ & HE). destruct (HE n) as (_ & -> & _). reflexivity.
Qed.
Lemma sections_set U l c : each approaching_section U l -> each section_tends (fun n => map (cs_set_wing_chordwise c) (U n)) (map (cs_set_wing_chordwise c) l).
Proof. intros H. refine (each_map _ _ (fun _ => cs_set_wing_chordwise c) (cs_set_wing_chordwise c) _ _ _ H). intros X x _ (H1 & H2 & H3 & H4). split; [|intros n; reflexivity]. split; [exact H1|]. split; [exact H2|]. split; [exact H3 | exact H4]. Qed.
Lemma edge_tends U l i : each section_tends U l -> vtends (fun n => nth_leading_edge (U n) i) (nth_leading_edge l i).
Proof.
  intros H. unfold nth_leading_edge. destruct (nth_error l i) as [s|] eqn:E.
  - destruct (each_nth _ _ _ _ _ H E) as (x & Ex & ((HL & _) & _)). eapply vtends_ext; [intros n; rewrite Ex; reflexivity | exact HL].
  - eapply vtends_ext; [|apply vtends_const]. intros n. assert (nth_error (U n) i = None) as -> by (apply nth_error_None; rewrite (each_length _ _ _ H); apply nth_error_None; exact E). reflexivity.
Qed.
Definition wing_tends (W : nat -> wing) (w : wing) : Prop :=
  each section_tends (fun n => w_sections (W n)) (w_sections w) /\ each (each approaching_panel) (fun n => w_panels (W n)) (w_panels w) /\
  forall n, w_unit_normal (W n) = w_unit_normal w /\ w_symmetric (W n) = w_symmetric w /\ w_unit_chordwise (W n) = w_unit_chordwise w /\ w_num_panels (W n) = w_num_panels w /\
    w_num_chordwise_panels (W n) = w_num_chordwise_panels w /\ w_num_spanwise_panels (W n) = w_num_spanwise_panels w /\
    w_wake_vertices (W n) = w_wake_vertices w /\ w_wake_rings (W n) = w_wake_rings w.
Lemma wing_settles Ss sections name X x Y y Z z nrm sym c nc sp : each approaching_section Ss sections -> root_at_zero Ss -> tends X x -> tends Y y -> tends Z z ->
  settles wing_tends (fun n => new_wing (Ss n) name (X n) (Y n) (Z n) nrm sym c nc sp) (new_wing sections name x y z nrm sym c nc sp).
Proof.
  intros HS HR HX HY HZ. unfold new_wing. cbv zeta.
  eapply settles_ext; [intros n; rewrite (each_length _ _ _ HS), (sections_count _ _ _ HS), (sections_plane (fun v => veqb (vcross (vcross nrm v) c) vzero) _ _ HS); reflexivity|].
  destruct (check (Nat.leb 2 (List.length sections)) ETooFewSections); [|apply settles_Err]. cbn [bind].
  destruct (check (String.eqb sp "cosine" || String.eqb sp "uniform") EBadChordwiseSpacing); [|apply settles_Err]. cbn [bind].
  eapply (settles_bind (fun U s => approaching_section U s /\ forall n, cs_leading_edge (U n) = vzero)).
  - unfold index. intros root E. destruct (nth_error sections 0) as [s|] eqn:En; [|discriminate E]. apply Ok_eq in E. subst root. destruct (each_nth _ _ _ _ _ HS En) as (U & EU & HU).
    exists U, 0%nat. split; [intros n _; rewrite EU; reflexivity|]. split; [exact HU|]. intros n. exact (HR n _ (EU n)).
  - intros U root _ ((_ & _ & _ & HU) & HU0).
    eapply settles_ext; [intros n; destruct (HU n) as (_ & -> & _); rewrite HU0; replace (veqb vzero vzero) with true by (symmetry; apply veqb_true; reflexivity); cbn [check]; reflexivity|].
    destruct (check (veqb nrm (cs_unit_normal root)) ERootNormalMismatch); [|apply settles_Err]. cbn [bind].
    destruct (check (veqb (cs_leading_edge root) vzero) ERootLeadingEdgeNotZero); [|apply settles_Err]. cbn [bind].
    destruct (check (Reqb (vdot c nrm) 0) EChordwiseNotPerpendicular); [|apply settles_Err]. cbn [bind].
    destruct (check (forallb (fun s => veqb (vcross (vcross nrm (cs_unit_normal s)) c) vzero) sections) ESectionPlane); [|apply settles_Err]. cbn [bind].
    pose proof (sections_set _ _ c HS) as HS'.
    assert (HSp : spec_tends (fun n => mkmesh (mkvec (X n) (Y n) (Z n)) nrm sym nc sp) (mkmesh (mkvec x y z) nrm sym nc sp)) by (split; [split; [exact HX | split; [exact HY | exact HZ]] | intros n; repeat split]).
    apply (settles_bind (each (each approaching_panel)) _ _ _ _ _ (mesh_settles _ _ HSp (count_spanwise sections sym) _ _ HS')). intros P p _ HP.
    apply (settles_Ok wing_tends (fun n => mkwing (map (cs_set_wing_chordwise c) (Ss n)) name (X n) (Y n) (Z n) nrm sym c nc sp (count_spanwise sections sym) (count_spanwise sections sym * nc) (P n) [] [])).
    split; [exact HS'|]. split; [exact HP|]. intros n. repeat split.
Qed.
Lemma wing_shape W w : wing_tends W w -> approaching_shape W w.
Proof.
  intros (HS & HP & HE).
  assert (HSpan : tends (fun n => w_span (W n)) (w_span w)).
  { unfold w_span. cbv zeta. eapply tends_ext; [intros n; destruct (HE n) as (-> & -> & _); rewrite (each_length _ _ _ HS); reflexivity|].
    assert (H : tends (fun n => vnorm (vscale (vdot (vsub (nth_leading_edge (w_sections (W n)) (List.length (w_sections w) - 1)) (nth_leading_edge (w_sections (W n)) 0)) (w_unit_normal w)) (w_unit_normal w)))
      (vnorm (vscale (vdot (vsub (nth_leading_edge (w_sections w) (List.length (w_sections w) - 1)) (nth_leading_edge (w_sections w) 0)) (w_unit_normal w)) (w_unit_normal w)))).
    { apply tends_norm. apply vtends_scale; [|apply vtends_const]. apply tends_dot; [|apply vtends_const]. apply vtends_sub; apply edge_tends; exact HS. }
    destruct (w_symmetric w); [apply tends_mult; [exact H | apply tends_const] | exact H]. }
  assert (HPp : each approaching_panel (fun n => ravel (w_panels (W n))) (ravel (w_panels w))) by (apply each_concat; exact HP).
  assert (HA : tends (fun n => w_projected_area (W n)) (w_projected_area w)).
  { unfold w_projected_area. apply tends_rsum. assert (EU : forall n, w_unit_up (W n) = w_unit_up w) by (intros n; unfold w_unit_up; destruct (HE n) as (-> & _ & -> & _); reflexivity).
    eapply each_ext; [intros n; rewrite EU; reflexivity|]. refine (each_map _ _ (fun _ p => p_projected_area p (w_unit_up w)) (fun p => p_projected_area p (w_unit_up w)) _ _ _ HPp). intros P p _ (H1 & H2 & H3 & H4 & _).
    unfold p_projected_area, p_first_diagonal, p_second_diagonal. cbv zeta. unfold Rdiv. apply tends_mult; [|apply tends_const]. apply tends_norm.
    assert (HD : forall A a B b, vtends A a -> vtends B b -> vtends (fun n => vsub (vsub (A n) (B n)) (vscale (vdot (vsub (A n) (B n)) (w_unit_up w)) (w_unit_up w))) (vsub (vsub a b) (vscale (vdot (vsub a b) (w_unit_up w)) (w_unit_up w)))).
    { intros A a B b HA HB. pose proof (vtends_sub _ _ _ _ HA HB) as HAB. apply vtends_sub; [exact HAB|]. apply vtends_scale; [|apply vtends_const]. apply tends_dot; [exact HAB | apply vtends_const]. }
    apply vtends_cross; apply HD; assumption. }
  split; [split; [exact HSpan | exact HP]|]. split; [intros n; apply HE|]. split; [exact HA|]. split.
  - unfold w_wetted_area. apply tends_rsum. refine (each_map _ _ (fun _ => p_area) p_area _ _ _ HPp). intros P p _ Hp. apply panel_area, Hp.
  - intros HN. unfold w_mean_aerodynamic_chord. cbv zeta.
    assert (HI : tends (fun n => rsum (map2 (mac_term (w_unit_normal w)) (w_sections (W n)) (tl (w_sections (W n))))) (rsum (map2 (mac_term (w_unit_normal w)) (w_sections w) (tl (w_sections w))))).
    { apply tends_rsum. refine (each_map2 section_tends section_tends tends (fun _ => mac_term (w_unit_normal w)) (mac_term (w_unit_normal w)) _ _ _ _ _ HS (each_tail _ _ _ HS)).
      intros A a B b _ _ ((LA & CA & _) & _) ((LB & CB & _) & _). unfold mac_term, Rdiv. cbv zeta. apply tends_mult; [|apply tends_const]. apply tends_mult.
      - apply tends_norm. apply vtends_scale; [|apply vtends_const]. apply tends_dot; [|apply vtends_const]. apply vtends_sub; assumption.
      - apply tends_plus; [apply tends_plus; [apply tends_pow; exact CA | apply tends_mult; assumption] | apply tends_pow; exact CB]. }
    eapply tends_ext; [intros n; destruct (HE n) as (-> & -> & _); reflexivity|]. destruct (w_symmetric w); apply tends_div; try assumption. apply tends_mult; [apply tends_const | exact HI].
Qed.
Lemma airplane_settles Ws wings name X x Y y Z z weight SR sr CR cr BR br : each approaching_shape Ws wings -> tends X x -> tends Y y -> tends Z z ->
  approaching_reference SR sr -> approaching_reference CR cr -> approaching_reference BR br -> (cr = None -> forall main, nth_error wings 0 = Some main -> w_projected_area main <> 0) ->
  settles (approaching_airplane approaching_panel) (fun n => new_airplane (Ws n) name (X n) (Y n) (Z n) weight (SR n) (CR n) (BR n)) (new_airplane wings name x y z weight sr cr br).
Proof.
  intros HW HX HY HZ HS HC HB HM. destruct wings as [|main wings]; [apply settles_Err|].
  destruct (each_tl _ _ _ _ HW) as (M & Ws' & E & (HMw & _ & HMa & _ & HMc) & HR).
  eapply settles_ext; [intros n; rewrite E; cbn [new_airplane]; reflexivity|]. cbn [new_airplane].
  assert (HO : forall U o D d, approaching_reference U o -> (o = None -> tends D d) -> tends (fun n => override (U n) (D n)) (override o d)).
  { intros U o D d [[-> HU]|(V & v & HU & -> & HV)] HD; cbn [override]; (eapply tends_ext; [intros n; rewrite HU; reflexivity|]); cbn [override]; [apply HD; reflexivity | exact HV]. }
  assert (HN : forall n, fold_left (fun k w => (k + w_num_panels w)%nat) (M n :: Ws' n) 0%nat = fold_left (fun k w => (k + w_num_panels w)%nat) (main :: wings) 0%nat).
  { intros n. rewrite <- E. revert HW. generalize (main :: wings) as l. generalize Ws as V. clear. intros V l H. generalize 0%nat. induction H as [V E|V x v a m E Hx H IH]; intros k; rewrite E; [reflexivity|]. cbn [fold_left]. rewrite IH. destruct Hx as (_ & -> & _). reflexivity. }
  eapply (settles_Ok (approaching_airplane approaching_panel) (fun n => mkairplane (M n :: Ws' n) name (X n) (Y n) (Z n) weight (override (SR n) (w_projected_area (M n))) (override (CR n) (w_mean_aerodynamic_chord (M n))) (override (BR n) (w_span (M n))) (fold_left (fun k w => (k + w_num_panels w)%nat) (M n :: Ws' n) 0%nat) None None None None)).
  unfold approaching_airplane. cbn [a_s_ref a_c_ref a_b_ref a_xyz_ref a_x_ref a_y_ref a_z_ref a_num_panels a_wings].
  split; [apply HO; [exact HS | intros _; exact HMa]|]. split; [apply HO; [exact HC | intros Hn; apply HMc; exact (HM Hn main eq_refl)]|]. split; [apply HO; [exact HB | intros _; apply HMw]|].
  split; [split; [exact HX | split; [exact HY | exact HZ]]|]. split; [exact HN|].
  refine (each_cons _ _ M Ws' _ _ (fun n => eq_refl) HMw _). eapply each_weaken; [|exact HR]. intros V v _ Hv. apply Hv.
Qed.
