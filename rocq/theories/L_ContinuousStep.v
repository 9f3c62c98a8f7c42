(** One time step of the unsteady solver on inputs that come closer and closer to given ones. *)
From Coq Require Import List Lia Lra ZArith Reals Bool.
From Verif Require Import M_Loads M_Horseshoe M_SteadyRing M_Unsteady S_Geometry S_Solve S_Loads S_Mirror S_Solvable S_Size S_Unsteady S_UnsteadyRun S_SizeUnsteady S_Continuous S_ContinuousUnsteady
  L_Base L_Rotations L_Loads L_Geometry L_Aero L_Horseshoe L_SteadyRing L_RingLegs L_Mirror L_Solvable L_Size L_SizeUnsteady L_UnsteadyStep L_UnsteadyRun L_Limits L_Continuous L_ContinuousRun L_ContinuousRing L_ContinuousWalk.
Import ListNotations.
Local Open Scope R_scope.

(** ** Rows *)
Definition row_near (u : nat -> ring_row) (r : ring_row) : Prop :=
  vtends (fun n => rr_collocation (u n)) (rr_collocation r) /\ vtends (fun n => rr_normal (u n)) (rr_normal r) /\
  tends (fun n => p_area (rr_panel (u n))) (p_area (rr_panel r)) /\ vtends (fun n => rr_ref (u n)) (rr_ref r) /\
  whole_ring (fun n => rr_vortex (u n)) (rr_vortex r).
Lemma rows_settle L l : each (flying_airplane live) L l -> settles (each row_near) (fun n => unsteady_collapse (L n)) (unsteady_collapse l).
Proof.
  intros HL. unfold unsteady_collapse. refine (settles_mapM _ _ (fun _ => unsteady_make_row) unsteady_make_row _ _ _ (flat_tends _ _ _ (all_approaching _ _ _ HL))).
  intros U x _ (A & W & P & E & HA & _ & ((HP & HC) & R & r & E1 & E2 & HR)). destruct x as [[a w] p]. cbn [fst snd] in *. unfold unsteady_make_row. rewrite E2.
  apply (settles_ext _ (fun n => Ok (mkringrow (P n) (a_xyz_ref (A n)) (R n) vzero vzero vzero vzero))); [intros n; rewrite E; cbn; rewrite E1; reflexivity|]. eapply (settles_Ok row_near).
  split; [apply (panel_points P p HP)|]. split; [exact (panel_normal P p HP HC)|]. split; [exact (panel_area P p HP)|]. split; [apply HA | exact HR].
Qed.
Lemma row_points U rows : each row_near U rows ->
  each vtends (fun n => map rr_collocation (U n)) (map rr_collocation rows) /\ each vtends (fun n => map rr_normal (U n)) (map rr_normal rows) /\
  each vtends (fun n => map rr_right_center (U n)) (map rr_right_center rows) /\ each vtends (fun n => map rr_front_center (U n)) (map rr_front_center rows) /\
  each vtends (fun n => map rr_left_center (U n)) (map rr_left_center rows) /\
  each vtends (fun n => map rr_back_right (U n)) (map rr_back_right rows) /\ each vtends (fun n => map rr_front_right (U n)) (map rr_front_right rows) /\
  each vtends (fun n => map rr_front_left (U n)) (map rr_front_left rows) /\ each vtends (fun n => map rr_back_left (U n)) (map rr_back_left rows) /\
  each tends (fun n => map (fun r => rv_strength (rr_vortex r)) (U n)) (map (fun r => rv_strength (rr_vortex r)) rows).
Proof.
  intros H. assert (M : forall f, (forall X x, row_near X x -> vtends (fun n => f (X n)) (f x)) -> each vtends (fun n => map f (U n)) (map f rows)).
  { intros f Hf. refine (each_map row_near vtends (fun _ => f) f _ _ _ H). intros X x _. apply Hf. }
  repeat split; try (apply M; intros X x (H1 & H2 & _ & _ & (_ & ((R1 & R2 & R3 & R4) & (R5 & R6 & R7 & R8) & (R9 & R10 & R11 & R12)))); assumption).
  refine (each_map row_near tends (fun _ r => rv_strength (rr_vortex r)) (fun r => rv_strength (rr_vortex r)) _ _ _ H). intros X x _ (_ & _ & _ & _ & ((H1 & _) & _)). exact H1.
Qed.

(** ** Velocities *)
Definition ages_near (AG : nat -> option (list R)) (ag : option (list R)) : Prop :=
  ((forall n, AG n = None) /\ ag = None) \/
  exists A a, (forall n, AG n = Some (A n)) /\ ag = Some a /\ each (fun X x => tends X x /\ 0 <= x) A a.
Definition seg_near (legs : path) (u : nat -> segment) (s : segment) : Prop :=
  vtends (fun n => sg_origin (u n)) (sg_origin s) /\ vtends (fun n => sg_termination (u n)) (sg_termination s) /\
  tends (fun n => sg_strength (u n)) (sg_strength s) /\ tends (fun n => sg_age (u n)) (sg_age s) /\ 0 <= sg_age s /\ In (sg_origin s, sg_termination s) legs.
Lemma segments_near OR o TE t G g AG ag : each vtends OR o -> each vtends TE t -> each tends G g -> ages_near AG ag ->
  each (seg_near (combine o t)) (fun n => segments (OR n) (TE n) (G n) (AG n)) (segments o t g ag).
Proof.
  intros HO HT HG HA.
  assert (HAA : each (fun X x => tends X x /\ 0 <= x) (fun n => match AG n with Some a => a | None => repeat 0 (length (OR n)) end) (match ag with Some a => a | None => repeat 0 (length o) end)).
  { destruct HA as [(E1 & ->)|(A & a & E1 & -> & HA)].
    - eapply each_ext; [intros n; rewrite E1, (each_length _ _ _ HO); reflexivity|]. apply each_const. intros x Hx. apply repeat_spec in Hx. subst x. split; [apply tends_const | apply Rle_refl].
    - eapply each_ext; [intros n; rewrite E1; reflexivity | exact HA]. }
  unfold segments. cbv zeta.
  refine (each_map2 _ _ (seg_near (combine o t)) (fun _ ot sa => mkseg (fst ot) (snd ot) (fst sa) (snd sa)) (fun ot sa => mkseg (fst ot) (snd ot) (fst sa) (snd sa)) _ _ _ _ _ (each_combine _ _ _ _ _ _ HO HT) (each_combine _ _ _ _ _ _ HG HAA)).
  intros X x Y y Hx _ (P & Q & EX & HP & HQ) (K & D & EY & HK & HD & Pd). destruct x as [x1 x2], y as [y1 y2]. cbn [fst snd] in *. unfold seg_near; cbn [sg_origin sg_termination sg_strength sg_age].
  split; [eapply vtends_ext; [intros n; rewrite EX; reflexivity | exact HP]|]. split; [eapply vtends_ext; [intros n; rewrite EX; reflexivity | exact HQ]|].
  split; [eapply tends_ext; [intros n; rewrite EY; reflexivity | exact HK]|]. split; [eapply tends_ext; [intros n; rewrite EY; reflexivity | exact HD]|]. split; [exact Pd | exact Hx].
Qed.
Lemma segment_near legs NU nu X x S s : tends NU nu -> 0 <= nu -> vtends X x -> (forall l, In l legs -> ~ on_edge x l) -> seg_near legs S s ->
  vtends (fun n => segment_velocity (NU n) (X n) (S n)) (segment_velocity nu x s).
Proof. intros HN Pn HX HE (H1 & H2 & H3 & H4 & H5 & H6). unfold segment_velocity. apply line_tends; try assumption. apply HE, H6. Qed.
Definition off_point (vs : list path) (X : nat -> vec) (x : vec) : Prop := vtends X x /\ off_edges vs x.
Lemma each_add X x Y y : each vtends X x -> each vtends Y y -> each vtends (fun n => add_rows (X n) (Y n)) (add_rows x y).
Proof. intros HX HY. refine (each_map2 vtends vtends vtends (fun _ => vadd) vadd _ _ _ _ _ HX HY). intros; apply vtends_add; assumption. Qed.
Lemma each_zeros k : each vtends (fun _ => zeros k) (zeros k).
Proof. apply each_const. intros x _. apply vtends_const. Qed.
Section Rings.
Context (NU : nat -> R) (nu : R) (HN : tends NU nu) (Pn : 0 <= nu).
Context (BR FR FL BL : nat -> list vec) (br fr fl bl : list vec) (G : nat -> list R) (g : list R) (AG : nat -> option (list R)) (ag : option (list R)).
Context (H1 : each vtends BR br) (H2 : each vtends FR fr) (H3 : each vtends FL fl) (H4 : each vtends BL bl) (HG : each tends G g) (HA : ages_near AG ag).
Let legs := leg_lists br fr fl bl.
Lemma collapsed_near PS ps : each (off_point legs) PS ps ->
  each vtends (fun n => collapsed_ring (PS n) (BR n) (FR n) (FL n) (BL n) (G n) (AG n) (NU n)) (collapsed_ring ps br fr fl bl g ag nu).
Proof.
  intros HP. assert (LINE : forall O o T t, each vtends O o -> each vtends T t -> In (combine o t) legs ->
     each vtends (fun n => collapsed_line (PS n) (segments (O n) (T n) (G n) (AG n)) (NU n)) (collapsed_line ps (segments o t g ag) nu)).
  { intros O o T t HO HT Hl. unfold collapsed_line.
    refine (each_map (off_point legs) vtends (fun n p => vsum (map (segment_velocity (NU n) p) (segments (O n) (T n) (G n) (AG n)))) (fun p => vsum (map (segment_velocity nu p) (segments o t g ag))) _ _ _ HP).
    intros X x _ (HX & Hx). apply (vtends_vsum (fun n => map (segment_velocity (NU n) (X n)) (segments (O n) (T n) (G n) (AG n)))).
    refine (each_map (seg_near (combine o t)) vtends (fun n => segment_velocity (NU n) (X n)) (segment_velocity nu x) _ _ _ (segments_near _ _ _ _ _ _ _ _ HO HT HG HA)).
    intros S s _ HS. apply (segment_near (combine o t)); try assumption. intros l. apply Hx, Hl. }
  unfold collapsed_ring. cbn [fold_left fst snd].
  eapply each_ext; [intros n; rewrite (each_length _ _ _ HP); reflexivity|].
  repeat apply each_add; [apply each_zeros | | | |]; apply LINE; try assumption; unfold legs, leg_lists; cbn; tauto.
Qed.
Lemma expanded_near PS ps : each (off_point legs) PS ps ->
  each (each vtends) (fun n => expanded_ring (PS n) (BR n) (FR n) (FL n) (BL n) (G n) (AG n) (NU n)) (expanded_ring ps br fr fl bl g ag nu).
Proof.
  intros HP. assert (LINE : forall O o T t, each vtends O o -> each vtends T t -> In (combine o t) legs ->
     each (each vtends) (fun n => expanded_line (PS n) (segments (O n) (T n) (G n) (AG n)) (NU n)) (expanded_line ps (segments o t g ag) nu)).
  { intros O o T t HO HT Hl. unfold expanded_line.
    refine (each_map (off_point legs) (each vtends) (fun n p => map (segment_velocity (NU n) p) (segments (O n) (T n) (G n) (AG n))) (fun p => map (segment_velocity nu p) (segments o t g ag)) _ _ _ HP).
    intros X x _ (HX & Hx).
    refine (each_map (seg_near (combine o t)) vtends (fun n => segment_velocity (NU n) (X n)) (segment_velocity nu x) _ _ _ (segments_near _ _ _ _ _ _ _ _ HO HT HG HA)).
    intros S s _ HS. apply (segment_near (combine o t)); try assumption. intros l. apply Hx, Hl. }
  unfold expanded_ring. cbn [fold_left fst snd].
  eapply each_ext; [intros n; rewrite (each_length _ _ _ HP), (each_length _ _ _ HG); reflexivity|].
  assert (ADD : forall X x Y y, each (each vtends) X x -> each (each vtends) Y y -> each (each vtends) (fun n => add_grids (X n) (Y n)) (add_grids x y)).
  { intros X x Y y HX HY. refine (each_map2 (each vtends) (each vtends) (each vtends) (fun _ => add_rows) add_rows _ _ _ _ _ HX HY). intros; apply each_add; assumption. }
  repeat apply ADD; [apply each_const; intros; apply each_const; intros; apply vtends_const | | | |]; apply LINE; try assumption; unfold legs, leg_lists; cbn; tauto.
Qed.
End Rings.

(** ** The wake and the step before *)
Definition wake_near (u : nat -> wake_arrays) (w : wake_arrays) : Prop := approaching_wake u w /\ Forall (fun a => 0 <= a) (wk_ages w).
Lemma references_same L l : each (flying_airplane live) L l -> forall n, wake_references (L n) = wake_references l.
Proof.
  intros H n. unfold wake_references. f_equal. induction H as [L E|L A m a l E Ha Hl IH]; rewrite E; cbn [map]; [reflexivity|]. rewrite IH. f_equal. f_equal.
  destruct Ha as (_ & _ & _ & _ & _ & HW). clear -HW. revert HW. generalize (a_wings a). intros ws HW.
  set (F := fun k => a_wings (A k)) in HW. change (a_wings (A n)) with (F n). clearbody F. induction HW as [F E|F W m w l E Hw Hl IH]; rewrite E; cbn [map]; [reflexivity|]. rewrite IH. f_equal. unfold ravel. f_equal. apply (proj2 (proj2 Hw)).
Qed.
Lemma wake_settles HP heap L l W w : each aged HP heap -> each (flying_airplane live) L l -> wake_near W w ->
  settles wake_near (fun n => collapse_wake (HP n) (L n) (W n)) (collapse_wake heap l w).
Proof.
  intros HH HL ((W1 & W2 & W3 & W4 & W5 & W6) & WA). unfold collapse_wake. eapply settles_ext; [intros n; rewrite (references_same L l HL n); reflexivity|].
  eapply (settles_bind (each aged)).
  { apply (settles_mapM (fun u a => forall n : nat, u n = a) aged (fun n => index (HP n)) _ (fun _ => wake_references l)); [|apply each_const; intros; reflexivity].
    intros S s _ E. eapply settles_ext; [intros n; rewrite E; reflexivity|]. apply settles_index, HH. }
  intros R r _ HR. cbv beta.
  assert (V : forall f, (forall X x, aged X x -> vtends (fun n => f (X n)) (f x)) -> each vtends (fun n => map f (R n)) (map f r)) by (intros f Hf; refine (each_map aged vtends (fun _ => f) f _ _ _ HR); intros X x _; apply Hf).
  eapply (settles_bind (each tends)). { apply settles_overwrite; [exact W1|]. refine (each_map aged tends (fun _ => rv_strength) rv_strength _ _ _ HR). intros X x _ Hx. apply Hx. }
  intros X1 x1 _ H1. cbv beta.
  eapply (settles_bind (each tends)). { apply settles_overwrite; [exact W2|]. refine (each_map aged tends (fun _ => rv_age) rv_age _ _ _ HR). intros X x _ Hx. apply Hx. }
  intros X2 x2 E2 H2. cbv beta.
  eapply (settles_bind (each vtends)). { apply settles_overwrite; [exact W3|]. apply V. intros X x Hx. apply Hx. } intros X3 x3 _ H3. cbv beta.
  eapply (settles_bind (each vtends)). { apply settles_overwrite; [exact W4|]. apply V. intros X x Hx. apply Hx. } intros X4 x4 _ H4. cbv beta.
  eapply (settles_bind (each vtends)). { apply settles_overwrite; [exact W5|]. apply V. intros X x Hx. apply Hx. } intros X5 x5 _ H5. cbv beta.
  eapply (settles_bind (each vtends)). { apply settles_overwrite; [exact W6|]. apply V. intros X x Hx. apply Hx. } intros X6 x6 _ H6. cbv beta.
  apply (settles_Ok wake_near (fun n => mkwake (X1 n) (X2 n) (X3 n) (X4 n) (X5 n) (X6 n))). split; [repeat (split; [assumption|]); assumption|].
  cbn [wk_ages]. unfold overwrite in E2. destruct (Nat.leb _ _); [|discriminate]. apply Ok_eq in E2. subst x2. apply Forall_app. split.
  - apply Forall_forall. intros a Ha. apply in_map_iff in Ha. destruct Ha as (x & <- & Hx). clear -HR Hx. induction HR as [R E|R X m a l E Ha Hl IH]; [contradiction|]. destruct Hx as [<-|Hx]; [apply Ha | apply IH, Hx].
  - apply Forall_forall. intros a Ha. rewrite Forall_forall in WA. apply WA. rewrite <- (firstn_skipn (length (map rv_age r)) (wk_ages w)). apply in_or_app. right. exact Ha.
Qed.
Definition last_near (u : nat -> last_arrays) (l : last_arrays) : Prop :=
  each vtends (fun n => la_collocations (u n)) (la_collocations l) /\ each tends (fun n => la_strengths (u n)) (la_strengths l) /\
  each vtends (fun n => la_right_centers (u n)) (la_right_centers l) /\ each vtends (fun n => la_front_centers (u n)) (la_front_centers l) /\
  each vtends (fun n => la_left_centers (u n)) (la_left_centers l).
Lemma last_settles k i ST steps : each (approaching_step live) ST steps -> settles last_near (fun n => last_step_arrays k i (ST n)) (last_step_arrays k i steps).
Proof.
  intros H. unfold last_step_arrays. assert (Z : each tends (fun _ => repeat 0 k) (repeat 0 k)) by (apply each_const; intros; apply tends_const). pose proof (each_zeros k) as ZV.
  destruct i as [|i]; [apply (settles_Ok last_near (fun _ => mklast (zeros k) (repeat 0 k) (zeros k) (zeros k) (zeros k))); split; [exact ZV|]; split; [exact Z|]; split; [exact ZV|]; split; exact ZV|].
  eapply (settles_bind (approaching_step live)); [apply settles_index, H|]. intros U sp _ (_ & HA). cbv beta.
  eapply (settles_bind (each row_near)); [apply rows_settle, HA|]. intros R rows _ HR. cbv beta. destruct (row_points R rows HR) as (P1 & _ & P3 & P4 & P5 & _ & _ & _ & _ & P6).
  eapply (settles_bind (each vtends)); [apply settles_overwrite; [exact ZV | exact P1]|]. intros X1 x1 _ H1. cbv beta.
  eapply (settles_bind (each tends)); [apply settles_overwrite; [exact Z | exact P6]|]. intros X2 x2 _ H2. cbv beta.
  eapply (settles_bind (each vtends)); [apply settles_overwrite; [exact ZV | exact P3]|]. intros X3 x3 _ H3. cbv beta.
  eapply (settles_bind (each vtends)); [apply settles_overwrite; [exact ZV | exact P4]|]. intros X4 x4 _ H4. cbv beta.
  eapply (settles_bind (each vtends)); [apply settles_overwrite; [exact ZV | exact P5]|]. intros X5 x5 _ H5. cbv beta.
  apply (settles_Ok last_near (fun n => mklast (X1 n) (X2 n) (X3 n) (X4 n) (X5 n))). split; [exact H1|]; split; [exact H2|]; split; [exact H3|]; split; assumption.
Qed.
Lemma flapping_near i DT dt X x Y y : dt <> 0 -> tends DT dt -> each vtends X x -> each vtends Y y ->
  each vtends (fun n => flapping_velocities i (DT n) (X n) (Y n)) (flapping_velocities i dt x y).
Proof.
  intros Nd HD HX HY. unfold flapping_velocities. destruct i; [eapply each_ext; [intros n; rewrite (each_length _ _ _ HX); reflexivity | apply each_zeros]|].
  refine (each_map2 vtends vtends vtends (fun n p q => vdiv (vopp (vsub p q)) (DT n)) (fun p q => vdiv (vopp (vsub p q)) dt) _ _ _ _ _ HX HY).
  intros P p Q q _ _ HP HQ. apply vtends_div; [exact Nd | | exact HD]. apply vtends_opp, vtends_sub; assumption.
Qed.

(** ** The system *)
Section Step.
Context (NU : nat -> R) (nu : R) (HN : tends NU nu) (Pn : 0 <= nu) (DT : nat -> R) (dt : R) (HD : tends DT dt) (Nd : dt <> 0).
Context (U : nat -> list ring_row) (rows : list ring_row) (HU : each row_near U rows) (W : nat -> wake_arrays) (wake : wake_arrays) (HW : wake_near W wake).
Context (LA : nat -> last_arrays) (la : last_arrays) (HLA : last_near LA la) (V : nat -> vec) (v : vec) (HV : vtends V v).
Definition step_legs : list path := row_legs rows ++ wake_legs wake.
Lemma off_rows x : off_edges step_legs x -> off_edges (row_legs rows) x /\ off_edges (wake_legs wake) x.
Proof. intros H. split; intros p s Hp Hs; apply (H p s); try assumption; apply in_or_app; auto. Qed.
Lemma wake_ages : ages_near (fun n => Some (wk_ages (W n))) (Some (wk_ages wake)).
Proof.
  right. exists (fun n => wk_ages (W n)), (wk_ages wake). split; [reflexivity|]. split; [reflexivity|]. destruct HW as ((_ & H & _) & HA). eapply each_weaken; [|exact H]. intros X x Hx HX. split; [exact HX|]. rewrite Forall_forall in HA. exact (HA x Hx).
Qed.
Lemma wake_velocities_near PS ps : each (off_point (wake_legs wake)) PS ps -> each vtends (fun n => wake_velocities (W n) (NU n) (PS n)) (wake_velocities wake nu ps).
Proof.
  intros HP. destruct HW as ((H1 & _ & H3 & H4 & H5 & H6) & _). unfold wake_velocities.
  apply (collapsed_near NU nu HN Pn (fun n => wk_back_right (W n)) (fun n => wk_front_right (W n)) (fun n => wk_front_left (W n)) (fun n => wk_back_left (W n)) _ _ _ _ (fun n => wk_strengths (W n)) _ (fun n => Some (wk_ages (W n))) _); try assumption. exact wake_ages.
Qed.
Lemma velocity_near G g PS ps : each tends G g -> each (off_point step_legs) PS ps ->
  each vtends (fun n => unsteady_velocity_of (U n) (G n) (W n) (NU n) (V n) (PS n)) (unsteady_velocity_of rows g wake nu v ps).
Proof.
  intros HG HP. destruct (row_points U rows HU) as (_ & _ & _ & _ & _ & P1 & P2 & P3 & P4 & _). unfold unsteady_velocity_of.
  refine (each_map vtends vtends (fun n x => vadd x (V n)) (fun x => vadd x v) _ _ _ _); [intros X x _ HX; apply vtends_add; assumption|]. apply each_add.
  - apply (collapsed_near NU nu HN Pn (fun n => map rr_back_right (U n)) (fun n => map rr_front_right (U n)) (fun n => map rr_front_left (U n)) (fun n => map rr_back_left (U n)) _ _ _ _ G g (fun _ => None) None); try assumption; [left; auto|].
    eapply each_weaken; [|exact HP]. intros X x _ (HX & Hx). split; [exact HX | apply (off_rows x Hx)].
  - apply wake_velocities_near. eapply each_weaken; [|exact HP]. intros X x _ (HX & Hx). split; [exact HX | apply (off_rows x Hx)].
Qed.
Lemma matrix_near k : (forall x, In x (map rr_collocation rows) -> off_edges (row_legs rows) x) ->
  each (each tends) (fun n => unsteady_wing_influences (U n) (repeat 1 k) (NU n)) (unsteady_wing_influences rows (repeat 1 k) nu).
Proof.
  intros HO. destruct (row_points U rows HU) as (P0 & PN & _ & _ & _ & P1 & P2 & P3 & P4 & _). unfold unsteady_wing_influences, normal_components.
  refine (each_map2 (each vtends) vtends (each tends) (fun _ row n => map (fun x => vdot x n) row) (fun row n => map (fun x => vdot x n) row) _ _ _ _ _ _ PN).
  - intros X x Y y _ _ HX HY. refine (each_map vtends tends (fun n q => vdot q (Y n)) (fun q => vdot q y) _ _ _ HX). intros Q q _ HQ. apply tends_dot; assumption.
  - apply (expanded_near NU nu HN Pn (fun n => map rr_back_right (U n)) (fun n => map rr_front_right (U n)) (fun n => map rr_front_left (U n)) (fun n => map rr_back_left (U n)) _ _ _ _ (fun _ => repeat 1 k) _ (fun _ => None) None); try assumption.
    + apply each_const. intros x _. apply tends_const.
    + left; auto.
    + eapply each_weaken; [|exact P0]. intros X x Hx HX. split; [exact HX | apply HO, Hx].
Qed.
Lemma dots_near A a B b : each vtends A a -> each vtends B b -> each tends (fun n => row_dots (A n) (B n)) (row_dots a b).
Proof. intros HA HB. refine (each_map2 vtends vtends tends (fun _ => vdot) vdot _ _ _ _ _ HA HB). intros; apply tends_dot; assumption. Qed.
Lemma freestream_near i : each tends (fun n => unsteady_freestream_influences i (DT n) (U n) (LA n) (V n)) (unsteady_freestream_influences i dt rows la v).
Proof.
  destruct (row_points U rows HU) as (P0 & PN & _). unfold unsteady_freestream_influences.
  refine (each_map2 tends tends tends (fun _ => Rplus) Rplus _ _ _ _ _ _ _).
  - intros; apply tends_plus; assumption.
  - unfold freestream_influences. refine (each_map vtends tends (fun n x => vdot x (V n)) (fun x => vdot x v) _ _ _ PN). intros X x _ HX. apply tends_dot; assumption.
  - apply dots_near; [exact PN|]. apply flapping_near; try assumption. apply HLA.
Qed.
Lemma wake_influences_near i k : (forall x, In x (map rr_collocation rows) -> off_edges (wake_legs wake) x) ->
  each tends (fun n => unsteady_wake_influences i k (U n) (W n) (NU n)) (unsteady_wake_influences i k rows wake nu).
Proof.
  intros HO. destruct (row_points U rows HU) as (P0 & PN & _). unfold unsteady_wake_influences. destruct i; [apply each_const; intros; apply tends_const|].
  apply dots_near; [|exact PN]. apply wake_velocities_near. eapply each_weaken; [|exact P0]. intros X x Hx HX. split; [exact HX | apply HO, Hx].
Qed.

(** ** Loads *)
Lemma loads_settle i D d VEL vel L l G gs : tends D d -> each (approaching_airplane (with_strength ring_strength)) L l -> each tends G gs ->
  (forall f PS, In f [rr_right_center; rr_front_center; rr_left_center] -> each vtends PS (map f rows) -> each vtends (fun n => VEL n (PS n)) (vel (map f rows))) ->
  settles (each pair_tends) (fun n => unsteady_loads (D n) (DT n) i (VEL n) (L n) (U n) (LA n) (G n)) (unsteady_loads d dt i vel l rows la gs).
Proof.
  intros HDn HL HGs HVL. unfold unsteady_loads. cbv zeta. destruct (row_points U rows HU) as (_ & _ & PR & PF & PL & _). destruct HLA as (_ & LS & LR & LF & LL).
  eapply (settles_bind (each three_tends) (each pair_tends)).
  - refine (settles_mapM _ three_tends (fun _ => effective_strengths) effective_strengths _ _ _ (each_combine _ _ _ _ _ _ (flat_tends _ _ _ HL) HGs)).
    intros X x _ (Y & K & E & HY & HK). destruct x as [x g]. cbn [fst snd] in *. apply (settles_ext _ (fun n => effective_strengths (Y n, K n))); [intros n; rewrite E; reflexivity|]. apply effective_settles; assumption.
  - intros EF ef _ HEF. cbv beta. eapply (settles_Ok (each pair_tends)).
    assert (MOV : forall f, In f [rr_right_center; rr_front_center; rr_left_center] -> each vtends (fun n => map f (U n)) (map f rows) -> forall Q q, each vtends Q q ->
       each vtends (fun n => add_rows (VEL n (map f (U n))) (flapping_velocities i (DT n) (map f (U n)) (Q n))) (add_rows (vel (map f rows)) (flapping_velocities i dt (map f rows) q))).
    { intros f Hf HP Q q HQ. apply each_add; [apply (HVL f (fun n => map f (U n))); assumption | apply flapping_near; assumption]. }
    pose proof (MOV rr_right_center (or_introl eq_refl) PR _ _ LR) as C1. pose proof (MOV rr_front_center (or_intror (or_introl eq_refl)) PF _ _ LF) as C2. pose proof (MOV rr_left_center (or_intror (or_intror (or_introl eq_refl))) PL _ _ LL) as C3. clear MOV.
    assert (FF : forall KK kk VV vv BB bb, tends KK kk -> vtends VV vv -> vtends BB bb -> vtends (fun n => leg_force (D n) (KK n) (VV n) (BB n)) (leg_force d kk vv bb)).
    { intros. unfold leg_force. apply vtends_scale; [apply tends_mult; assumption|]. apply vtends_cross; assumption. }
    refine (each_map2 _ pair_tends pair_tends (fun n rc l => unsteady_panel_loads (D n) (DT n) (fst rc) (snd rc) l) (fun rc l => unsteady_panel_loads d dt (fst rc) (snd rc) l) _ _ _ _ _ (each_combine _ _ _ _ _ _ HU (each_map2 tends tends tends (fun _ => Rminus) Rminus _ _ _ _ _ HGs LS))
      (each_map2 _ _ pair_tends (fun n re vs => ring_panel_loads (D n) (fst re) (snd re) (fst (fst vs)) (snd (fst vs)) (snd vs)) (fun re vs => ring_panel_loads d (fst re) (snd re) (fst (fst vs)) (snd (fst vs)) (snd vs)) _ _ _ _ _
       (each_combine _ _ _ _ _ _ HU HEF) (each_combine _ _ _ _ _ _ (each_combine _ _ _ _ _ _ C1 C2) C3))).
    + intros X x Y y _ _ (S & K & EX & (R1 & R2 & R3 & R4 & _) & HK) (Y1 & Y2). destruct x as [r c]. cbn [fst snd] in *. unfold unsteady_panel_loads.
      assert (HF : vtends (fun n => vdiv (vscale (D n * K n * p_area (rr_panel (S n))) (rr_normal (S n))) (DT n)) (vdiv (vscale (d * c * p_area (rr_panel r)) (rr_normal r)) dt)).
      { apply vtends_div; [exact Nd | | exact HD]. apply vtends_scale; [|exact R2]. apply tends_mult; [apply tends_mult; assumption | exact R3]. }
      split; cbn [fst snd]; (eapply vtends_ext; [intros n; rewrite EX; cbn [fst snd]; reflexivity|]).
      * apply vtends_add; assumption.
      * apply vtends_add; [exact Y2|]. apply vtends_cross; [apply vtends_sub; assumption | exact HF].
    + intros X x Y y _ _ HX HY. apply tends_minus; assumption.
    + intros X x Y y _ _ (S & K & EX & HS & (k1 & k2 & k3 & EK & H1 & H2 & H3)) (YY & V3 & EY & (V1 & V2 & EYY & HV1 & HV2) & HV3).
      destruct x as [r [[g1 g2] g3]], y as [[v1 v2] v3]. cbn [fst snd] in *.
      destruct HS as (_ & _ & _ & Hr & _ & ((_ & _ & B1 & D1) & (_ & _ & B2 & D2) & (_ & _ & B3 & D3))).
      split; cbn [fst snd ring_panel_loads].
      * eapply vtends_ext; [intros n; rewrite EX, EY; cbn [fst snd]; rewrite EYY, EK; reflexivity|]. cbn [fst snd ring_panel_loads]. apply vtends_add; [apply vtends_add|]; apply FF; assumption.
      * eapply vtends_ext; [intros n; rewrite EX, EY; cbn [fst snd]; rewrite EYY, EK; reflexivity|]. cbn [fst snd ring_panel_loads].
        apply vtends_add; [apply vtends_add|]; (apply vtends_cross; [apply vtends_sub; assumption | apply FF; assumption]).
Qed.
End Step.
Lemma strength_settles P p G g : live P p -> tends G g -> settles live (fun n => unsteady_set_strength (P n) (G n)) (unsteady_set_strength p g).
Proof.
  intros (HS & R & r & E1 & E2 & (H1 & H2)) HG. unfold unsteady_set_strength. rewrite E2. apply (settles_ext _ (fun n => Ok (p_set_ring (Some (ring_update_strength (G n) (R n))) (P n)))); [intros n; rewrite E1; reflexivity|].
  eapply (settles_Ok live). split; [exact HS|]. eexists _, _. split; [intros n; reflexivity|]. split; [reflexivity|]. split; [|exact H2]. destruct H1 as (_ & H1). split; [exact HG | exact H1].
Qed.
Lemma airplane_strength L l : each (flying_airplane live) L l -> each (approaching_airplane (with_strength ring_strength)) L l.
Proof. intros H. eapply each_weaken; [|exact H]. intros A a _ HA. refine (airplane_weaken live _ _ _ _ (flying_approaching _ _ _ HA)). intros P p. apply live_strength. Qed.

(** ** The start *)
Lemma init_step_settles DT dt U sp : tends DT dt -> approaching_step solid U sp -> settles (approaching_step live) (fun n => unsteady_init_step 0 (DT n) (U n)) (unsteady_init_step 0 dt sp).
Proof.
  intros HD (HO & HL). unfold unsteady_init_step. cbv zeta. pose proof (op_stream _ _ (proj1 HO)) as HV.
  assert (HDR : vtends (fun n => vscale (25 / 100) (vscale (DT n) (freestream_velocity (sp_operating_point (U n))))) (vscale (25 / 100) (vscale dt (freestream_velocity (sp_operating_point sp))))) by (apply vtends_scale; [apply tends_const|]; apply vtends_scale; assumption).
  set (DR := fun n => vscale (25 / 100) (vscale (DT n) (freestream_velocity (sp_operating_point (U n))))) in *. set (dr := vscale (25 / 100) _) in *.
  eapply (settles_bind (each (flying_airplane live))); [|intros L l _ H; eapply (settles_Ok (approaching_step live)); split; [exact HO | exact H]].
  apply (settles_mapM (flying_airplane solid) _ (fun n => unsteady_init_airplane 0 (DR n))); [|exact HL]. intros A a _ (H1 & H2 & H3 & H4 & H5 & HW). unfold unsteady_init_airplane.
  eapply (settles_bind (each (flying_wing live))); [|intros X x _ HX; cbv beta; eapply (settles_Ok (flying_airplane live)); repeat (split; [assumption|]); exact HX].
  apply (settles_mapM (flying_wing solid) _ (fun n => unsteady_init_wing 0 (DR n))); [|exact HW]. intros W w _ ((Hs & HM) & Hw). unfold unsteady_init_wing. cbv zeta.
  eapply (settles_bind (each (each live))); [|intros X x _ HX; cbv beta; eapply (settles_Ok (flying_wing live)); split; [split; [exact Hs | exact HX] | exact Hw]].
  apply (settles_mapiM (each solid) _ (fun n c row => mapiM (fun s p => unsteady_init_panel 0 (DR n) (w_panels (W n)) c s p) row)); [|exact HM]. intros c R r HR.
  apply (settles_mapiM solid _ (fun n s p => unsteady_init_panel 0 (DR n) (w_panels (W n)) c s p)); [|exact HR]. intros s P p (HP & HC).
  destruct (panel_points P p HP) as (F1 & F2 & _). pose proof HP as (V1 & V2 & V3 & V4 & HF). unfold unsteady_init_panel. cbv zeta.
  eapply settles_ext; [intros n; rewrite (proj1 (proj2 (HF n))); reflexivity|]. destruct (p_is_trailing_edge p).
  - eapply (settles_Ok live). split; [split; assumption|]. eexists _, _. split; [intros n; reflexivity|]. split; [reflexivity|]. apply (new_whole_ring _ _ _ _ _ _ _ _ (fun _ => 0) 0); [exact F1 | exact F2 | | | apply tends_const].
    + apply vtends_add; [|exact HDR]. apply vtends_add; [exact F1|]. apply vtends_sub; assumption.
    + apply vtends_add; [|exact HDR]. apply vtends_add; [exact F2|]. apply vtends_sub; assumption.
  - eapply (settles_bind solid live); [apply panel_at_settles, HM|]. intros Q q _ (HQ & _). destruct (panel_points Q q HQ) as (G1 & G2 & _). cbv beta. eapply (settles_Ok live). split; [split; assumption|].
    eexists _, _. split; [intros n; reflexivity|]. split; [reflexivity|]. apply (new_whole_ring _ _ _ _ _ _ _ _ (fun _ => 0) 0); [exact F1 | exact F2 | exact G1 | exact G2 | apply tends_const].
Qed.
