(** Pictures, plots and printed results. *)
From Coq Require Import List ZArith Lia Lra Bool Reals String Arith.
From Verif Require Import M_Output S_Output S_Loads S_Convergence S_Unsteady S_UnsteadyRun S_Vortices S_Solve L_Base L_Loads L_Horseshoe L_SteadyRing L_Frames L_Functions L_Movement L_Geometry L_Remesh
  L_Problems L_Wake L_UnsteadyStep L_UnsteadyRun L_UnsteadyFinal L_UnsteadyProps L_UnsteadyProps2 L_UnsteadyFlow L_UnsteadyStill L_NoLoads L_UnsteadyLoads L_Statements4.
Import ListNotations.
Local Open Scope R_scope.
Local Open Scope list_scope.

(** ** Loops over panels *)
Lemma fold_concat {A B} (f : A -> B -> A) ls : forall acc, fold_left (fun acc l => fold_left f l acc) ls acc = fold_left f (concat ls) acc.
Proof. induction ls as [|l ls IH]; intros acc; cbn [fold_left concat]; [reflexivity|]. rewrite fold_left_app. apply IH. Qed.
Lemma fold_map {A B C} (f : A -> B -> A) (g : C -> B) ls : forall acc, fold_left (fun acc l => f acc (g l)) ls acc = fold_left f (map g ls) acc.
Proof. induction ls as [|l ls IH]; intros acc; cbn [fold_left map]; [reflexivity|]. apply IH. Qed.
Lemma fold_panels {A} (f : A -> panel -> A) airplanes acc :
  fold_left (fun acc a => fold_left (fun acc w => fold_left f (ravel (w_panels w)) acc) (a_wings a) acc) airplanes acc = fold_left f (all_panels airplanes) acc.
Proof.
  revert acc. induction airplanes as [|a l IH]; intros acc; cbn [fold_left]; [reflexivity|].
  change (all_panels (a :: l)) with (airplane_panels a ++ all_panels l). rewrite fold_left_app, IH. f_equal.
  rewrite (fold_map (fun acc l => fold_left f l acc) (fun w => ravel (w_panels w))), fold_concat. unfold airplane_panels. reflexivity.
Qed.

(** ** Meshes *)
Lemma reads_more points extra faces quads : reads points faces quads -> reads (points ++ extra) faces quads.
Proof.
  induction 1 as [|is cs fs qs F R IH]; constructor; [|exact IH]. clear - F. induction F as [|i v is cs H F IH]; constructor; [|exact IH].
  rewrite nth_error_app1; [exact H|]. apply nth_error_Some. congruence.
Qed.
Lemma reads_app points f1 q1 f2 q2 : reads points f1 q1 -> reads points f2 q2 -> reads points (f1 ++ f2) (q1 ++ q2).
Proof.
  intros H1 H2. induction H1 as [|is cs fs qs F R IH]; [exact H2|]. change (reads points ((List.length is :: (is ++ fs)) ++ f2) (cs :: (qs ++ q2))).
  rewrite <- app_comm_cons, <- app_assoc. constructor; [exact F | exact IH].
Qed.
(** A mesh that shows [quads], four corners each. *)
Definition built (m : mesh) (quads : list (list vec)) : Prop := shows m quads /\ List.length (mesh_points m) = (4 * List.length quads)%nat.
Lemma add_face_built fl fr br bl num m quads : built m quads -> num = List.length quads -> built (add_face fl fr br bl num m) (quads ++ [[fl; fr; br; bl]]).
Proof.
  intros [S L] ->. set (n := List.length quads) in *. split.
  - unfold shows, add_face. cbn [mesh_points mesh_faces]. apply reads_app; [apply reads_more, S|].
    change [4; n * 4; n * 4 + 1; n * 4 + 2; n * 4 + 3]%nat with (List.length [n * 4; n * 4 + 1; n * 4 + 2; n * 4 + 3] :: [n * 4; n * 4 + 1; n * 4 + 2; n * 4 + 3] ++ [])%nat.
    constructor; [|constructor].
    assert (G : forall d v, nth_error [fl; fr; br; bl] d = Some v -> nth_error (mesh_points m ++ [fl; fr; br; bl]) (n * 4 + d) = Some v).
    { intros d v Hd. rewrite nth_error_app2 by lia. rewrite L. replace (n * 4 + d - 4 * n)%nat with d by lia. exact Hd. }
    repeat constructor; [replace (n * 4)%nat with (n * 4 + 0)%nat by lia| | |]; apply G; reflexivity.
  - cbn [add_face mesh_points]. rewrite !app_length, L. fold n. cbn. lia.
Qed.
Lemma panel_surfaces_built airplanes : built (get_panel_surfaces airplanes) (map outline (all_panels airplanes)).
Proof.
  unfold get_panel_surfaces. rewrite fold_panels.
  assert (G : forall ps m quads n, built m quads -> n = List.length quads -> built (fst (fold_left surface_panel ps (m, n))) (quads ++ map outline ps)).
  { induction ps as [|p ps IH]; intros m quads n HB Hn; cbn [fold_left map]; [rewrite app_nil_r; exact HB|].
    cbn [surface_panel]. replace (quads ++ outline p :: map outline ps) with ((quads ++ [outline p]) ++ map outline ps) by (rewrite <- app_assoc; reflexivity).
    apply IH; [apply add_face_built; assumption|]. rewrite app_length, Hn. cbn. lia. }
  apply (G _ (mkmesh [] []) [] O); [|reflexivity]. split; [constructor | reflexivity].
Qed.
Lemma panel_surfaces airplanes : shows (get_panel_surfaces airplanes) (map outline (all_panels airplanes)) /\
  List.length (mesh_points (get_panel_surfaces airplanes)) = (4 * List.length (all_panels airplanes))%nat.
Proof. destruct (panel_surfaces_built airplanes) as [H L]. rewrite map_length in L. auto. Qed.
Lemma wake_surfaces_built s k rings : nth_error (us_num_wake s) k = Some (List.length rings) -> nth_error (us_wakes s) k = Some (record_of rings) ->
  exists m, get_wake_ring_vortex_surfaces s k = Ok m /\ built m (map ring_outline rings).
Proof.
  intros Hn Hw. unfold get_wake_ring_vortex_surfaces. rewrite (proj2 (index_Some _ _ _) Hn). cbn [bind]. rewrite (proj2 (index_Some _ _ _) Hw). cbn [bind]. clear Hn Hw.
  assert (G : forall b a m, rings = a ++ b -> built m (map ring_outline a) ->
    exists m', foldM (surface_ring (record_of rings)) m (seq (List.length a) (List.length b)) = Ok m' /\ built m' (map ring_outline rings)).
  { induction b as [|r b IH]; intros a m E HB; cbn [List.length seq foldM].
    - exists m. rewrite E, app_nil_r. auto.
    - assert (X : forall B (f : ring_vortex -> B), index (map f rings) (List.length a) = Ok (f r)).
      { intros B f. apply index_Some. rewrite nth_error_map, E, nth_error_app2 by lia. rewrite Nat.sub_diag. reflexivity. }
      unfold surface_ring at 1. unfold record_of. cbn [wk_front_right wk_front_left wk_back_left wk_back_right]. rewrite !X. cbn [bind].
      replace (S (List.length a)) with (List.length (a ++ [r])) by (rewrite app_length; cbn; lia).
      apply IH; [rewrite <- app_assoc; exact E|]. rewrite map_app. cbn [map].
      apply add_face_built; [exact HB|]. rewrite map_length. reflexivity. }
  apply (G rings [] (mkmesh [] []) eq_refl). split; [constructor | reflexivity].
Qed.

(** ** Scalars *)
Lemma scalars_concat t airplanes : get_scalars airplanes t = concat (map (panel_scalar t) (all_panels airplanes)).
Proof.
  unfold get_scalars. rewrite fold_panels. assert (G : forall ps acc, fold_left (fun acc p => acc ++ panel_scalar t p) ps acc = acc ++ concat (map (panel_scalar t) ps)).
  { induction ps as [|p ps IH]; intros acc; cbn [fold_left map concat]; [rewrite app_nil_r; reflexivity|]. rewrite IH, app_assoc. reflexivity. }
  apply G.
Qed.
Lemma scalars_are airplanes t coefficient : In (t, coefficient) scalar_types -> get_scalars airplanes t = map coefficient (all_panels airplanes).
Proof.
  intros H. rewrite scalars_concat. generalize (all_panels airplanes). intros ps. induction ps as [|p ps IH]; [reflexivity|]. cbn [map concat]. rewrite IH.
  destruct H as [H|[H|[H|[]]]]; injection H as <- <-; reflexivity.
Qed.
Lemma other_scalars airplanes t : ~ In t (map fst scalar_types) -> get_scalars airplanes t = [].
Proof.
  intros H. rewrite scalars_concat. generalize (all_panels airplanes). intros ps.
  assert (E : forall p, panel_scalar t p = []).
  { intros p. unfold panel_scalar. destruct (String.eqb_spec t "induced drag") as [->|_]; [destruct H; cbn; tauto|].
    destruct (String.eqb_spec t "side force") as [->|_]; [destruct H; cbn; tauto|]. destruct (String.eqb_spec t "lift") as [->|_]; [destruct H; cbn; tauto|]. reflexivity. }
  induction ps as [|p ps IH]; [reflexivity|]. cbn [map concat]. rewrite E, IH. reflexivity.
Qed.
Lemma shown_scalars_in t coefficient : In (t, coefficient) scalar_types -> shown_scalars (Some t) = Some t.
Proof. intros [H|[H|[H|[]]]]; injection H as <- _; reflexivity. Qed.
Lemma shown_scalars_not st : (forall t, st = Some t -> ~ In t (map fst scalar_types)) -> shown_scalars st = None.
Proof.
  destruct st as [t|]; [|reflexivity]. intros H. specialize (H t eq_refl). cbn [shown_scalars].
  destruct (String.eqb_spec t "induced drag") as [->|_]; [destruct H; cbn; tauto|].
  destruct (String.eqb_spec t "side force") as [->|_]; [destruct H; cbn; tauto|]. destruct (String.eqb_spec t "lift") as [->|_]; [destruct H; cbn; tauto|]. reflexivity.
Qed.
Lemma all_numbers_some cs : all_numbers (map Some cs) = Some cs.
Proof. induction cs as [|c cs IH]; [reflexivity|]. cbn [map all_numbers]. rewrite IH. reflexivity. Qed.
Lemma numbers_some cs : cs <> [] -> numbers (map Some cs) = Ok cs.
Proof. destruct cs as [|c cs]; [congruence|]. intros _. unfold numbers. rewrite all_numbers_some. reflexivity. Qed.
Lemma numbers_none l : In None l -> numbers l = Err ETypeError.
Proof.
  intros H. assert (G : all_numbers l = None). { clear -H. induction l as [|[x|] l IH]; cbn [all_numbers]; [destruct H| |reflexivity]. destruct H as [H|H]; [discriminate|]. rewrite (IH H). reflexivity. }
  unfold numbers. destruct l; [destruct H|]. rewrite G. reflexivity.
Qed.

(** ** Colours *)
Lemma fold_Rmin l : forall x, is_least (x :: l) (fold_left Rmin l x).
Proof.
  induction l as [|y l IH]; intros x; cbn [fold_left].
  - split; [left; reflexivity|]. intros z [<-|[]]. lra.
  - destruct (IH (Rmin x y)) as [H1 H2]. split.
    + destruct H1 as [<-|H1]; [|right; right; exact H1]. unfold Rmin. destruct (Rle_dec x y); [left | right; left]; reflexivity.
    + intros z [<-|[<-|Hz]]; [| |apply H2; right; exact Hz]; (eapply Rle_trans; [apply H2; left; reflexivity|]); [apply Rmin_l | apply Rmin_r].
Qed.
Lemma fold_Rmax l : forall x, is_greatest (x :: l) (fold_left Rmax l x).
Proof.
  induction l as [|y l IH]; intros x; cbn [fold_left].
  - split; [left; reflexivity|]. intros z [<-|[]]. lra.
  - destruct (IH (Rmax x y)) as [H1 H2]. split.
    + destruct H1 as [<-|H1]; [|right; right; exact H1]. unfold Rmax. destruct (Rle_dec x y); [right; left | left]; reflexivity.
    + intros z [<-|[<-|Hz]]; [| |apply H2; right; exact Hz]; (eapply Rle_trans; [|apply H2; left; reflexivity]); [apply Rmax_l | apply Rmax_r].
Qed.
Lemma average_is l : l <> [] -> is_average l (average l).
Proof. intros H. unfold is_average, average. field. apply not_0_INR. destruct l; [congruence | cbn; lia]. Qed.
Lemma rsum_nonneg l : (forall x, In x l -> 0 <= x) -> 0 <= rsum l.
Proof. induction l as [|x l IH]; intros H; [unfold rsum; cbn; lra|]. rewrite rsum_cons. specialize (IH (fun y Hy => H y (or_intror Hy))). specialize (H x (or_introl eq_refl)). lra. Qed.
Lemma deviation_is l : l <> [] -> is_deviation l (average l) (deviation l).
Proof.
  intros H. split; [apply sqrt_pos|]. unfold deviation. set (m := average l). set (sq := map (fun x => (x - m) * (x - m)) l).
  assert (L : List.length sq = List.length l) by (unfold sq; apply map_length).
  assert (HP : 0 < INR (List.length l)) by (apply lt_0_INR; destruct l; [congruence | cbn; lia]).
  assert (Hs : 0 <= rsum sq). { apply rsum_nonneg. intros x Hx. unfold sq in Hx. apply in_map_iff in Hx. destruct Hx as (y & <- & _). apply Rle_0_sqr. }
  assert (E : sqrt (average sq) ^ 2 = average sq). { replace (sqrt (average sq) ^ 2) with (sqrt (average sq) * sqrt (average sq)) by ring. apply sqrt_sqrt. unfold average. rewrite L. apply Rmult_le_pos; [exact Hs|]. left. apply Rinv_0_lt_compat, HP. }
  rewrite E. unfold average. rewrite L. replace (INR (List.length l) * (rsum sq / INR (List.length l))) with (rsum sq) by (field; lra).
  unfold sq. f_equal. apply map_ext. intros x. ring.
Qed.
Lemma round_to_rounded digits x : rounded digits x (round_to digits x).
Proof. exists (py_round (x * 10 ^ digits)). split; [apply py_round_nearest|]. unfold round_to. field. apply pow_nonzero. lra. Qed.
Lemma rounded_close digits x y : rounded digits x y -> Rabs (y - x) <= / 2 / 10 ^ digits.
Proof.
  intros (k & HN & E). assert (P : 0 < 10 ^ digits) by (apply pow_lt; lra). assert (H : Rabs (x * 10 ^ digits - IZR k) <= 1 / 2) by (destruct HN as [H|[H _]]; lra).
  rewrite <- E in H. replace (x * 10 ^ digits - y * 10 ^ digits) with ((x - y) * 10 ^ digits) in H by ring. rewrite Rabs_mult, (Rabs_right (10 ^ digits)) in H by lra.
  rewrite Rabs_minus_sym. apply (Rmult_le_reg_r (10 ^ digits)); [exact P|]. unfold Rdiv. rewrite Rmult_assoc, Rinv_l by lra. lra.
Qed.
Lemma sum_bounds l lo hi : (forall x, In x l -> lo <= x <= hi) -> INR (List.length l) * lo <= rsum l <= INR (List.length l) * hi.
Proof.
  induction l as [|x l IH]; intros H; [unfold rsum; cbn; lra|]. rewrite rsum_cons. change (List.length (x :: l)) with (S (List.length l)). rewrite S_INR.
  specialize (IH (fun y Hy => H y (or_intror Hy))). specialize (H x (or_introl eq_refl)). lra.
Qed.
Lemma sign_eq lo hi : lo <= hi -> Reqb (sign lo) (sign hi) = true <-> 0 < lo \/ hi < 0 \/ lo = 0 /\ hi = 0.
Proof.
  intros H. rewrite Reqb_true. unfold sign. destruct (Rltb 0 lo) eqn:A; destruct (Rltb 0 hi) eqn:B;
  try (destruct (Rltb lo 0) eqn:C); try (destruct (Rltb hi 0) eqn:D);
  repeat match goal with E : Rltb _ _ = true |- _ => apply Rltb_true in E | E : Rltb _ _ = false |- _ => apply Rltb_false in E end; split; intros X; try lra.
Qed.
Lemma colours_good l : l <> [] -> colouring l (colours_of l).
Proof.
  intros Hl. pose proof (average_is l Hl) as HA. pose proof (deviation_is l Hl) as HD.
  assert (HL : is_least l (smallest l)) by (destruct l as [|x l]; [congruence | apply fold_Rmin]).
  assert (HG : is_greatest l (greatest l)) by (destruct l as [|x l]; [congruence | apply fold_Rmax]).
  exists (smallest l), (greatest l), (average l), (deviation l). repeat (split; [assumption|]). unfold colours_of.
  set (lo := smallest l) in *. set (hi := greatest l) in *. set (m := average l) in *. set (sd := deviation l) in *.
  assert (Hlh : lo <= hi) by (destruct HL as [H1 _]; apply (proj2 HG), H1). assert (Hsd : 0 <= sd) by apply HD.
  assert (HP : 0 < INR (List.length l)) by (apply lt_0_INR; destruct l; [congruence | cbn; lia]).
  assert (Hm : lo <= m <= hi).
  { destruct (sum_bounds l lo hi) as [S1 S2]; [intros x Hx; split; [apply HL | apply HG]; exact Hx|]. unfold is_average in HA. rewrite <- HA in S1, S2.
    split; apply (Rmult_le_reg_l (INR (List.length l))); assumption. }
  pose proof (sign_eq lo hi Hlh) as HS. destruct (Reqb (sign lo) (sign hi)) eqn:E; cbn [co_text_min co_text_max co_diverging co_min co_max];
  (split; [apply round_to_rounded|]; split; [apply round_to_rounded|]).
  - split; [split; [intros _; apply HS; reflexivity | reflexivity]|]. split; [discriminate|]. intros _. split; [split; [apply Rmax_r|]|split; [apply Rmin_r|]].
    + apply Rmax_lub; apply Rmin_glb; lra.
    + intros x Hx HC. pose proof (proj2 HL x Hx). pose proof (proj2 HG x Hx). assert (m - 3 * sd <= x <= m + 3 * sd) by (unfold Rabs in HC; destruct (Rcase_abs _); lra).
      split; [apply Rmax_lub | apply Rmin_glb]; lra.
  - split; [split; [discriminate | intros X; apply HS in X; discriminate]|]. split; [intros _; split; [ring | reflexivity] | discriminate].
Qed.

(** ** Streamlines *)
Lemma in_consecutive {A} (l : list A) p q : In (p, q) (combine l (tl l)) <-> exists i, nth_error l i = Some p /\ nth_error l (S i) = Some q.
Proof.
  split.
  - intros H. apply In_nth_error in H. destruct H as [i H]. rewrite nth_error_combine in H. exists i.
    destruct (nth_error l i) as [x|] eqn:E1; [|discriminate]. destruct l as [|y l]; [destruct i; discriminate|]. cbn [tl] in H. cbn [nth_error] in *.
    destruct (nth_error l i) as [z|] eqn:E2; [|discriminate]. apply Some_eq in H. injection H as -> ->. auto.
  - intros (i & H1 & H2). apply (nth_error_In _ i). rewrite nth_error_combine, H1. destruct l as [|y l]; [destruct i; discriminate|]. cbn [tl]. cbn [nth_error] in H2. rewrite H2. reflexivity.
Qed.
Lemma spanwise_line_ok points j n : (forall row, In row points -> List.length row = n) -> (j < n)%nat ->
  exists segs, spanwise_line points j = Ok segs /\ forall pq, In pq segs <-> exists i row next, nth_error points i = Some row /\ nth_error points (S i) = Some next /\
    nth_error row j = Some (fst pq) /\ nth_error next j = Some (snd pq).
Proof.
  intros HL Hj. unfold spanwise_line. destruct (mapM_all_ok (fun row => index row j) points) as [col E].
  { intros row Hr. apply HL in Hr. destruct (nth_in_range row j ltac:(lia)) as [v Hv]. exists v. apply index_Some, Hv. }
  rewrite E. cbn [bind]. apply mapM_Forall2 in E. eexists. split; [reflexivity|]. intros [p q]. rewrite in_consecutive. cbn [fst snd]. split.
  - intros (i & H1 & H2). destruct (Forall2_nth _ _ _ E _ _ H1) as (row & R1 & I1). destruct (Forall2_nth _ _ _ E _ _ H2) as (next & R2 & I2).
    apply index_Some in I1, I2. exists i, row, next. auto.
  - intros (i & row & next & R1 & R2 & I1 & I2). exists i. destruct (Forall2_nth_l _ _ _ E _ _ R1) as (p' & P1 & P2). destruct (Forall2_nth_l _ _ _ E _ _ R2) as (q' & Q1 & Q2).
    apply index_Some in P2, Q2. split; congruence.
Qed.
Lemma streamlines_ok points n : (forall row, In row points -> List.length row = n) ->
  exists segs, streamlines (Some points) = Ok segs /\ forall pq, In pq segs <-> piece points pq.
Proof.
  intros HL. unfold streamlines. destruct points as [|row0 points0].
  { exists []. split; [reflexivity|]. intros pq. split; [intros []|]. intros (i & j & row & next & H & _). destruct i; discriminate. }
  set (points := row0 :: points0) in *. assert (E0 : List.length row0 = n) by (apply HL; left; reflexivity). rewrite E0.
  destruct (mapM_all_ok (spanwise_line points) (seq 0 n)) as [lines E].
  { intros j Hj. apply in_seq in Hj. destruct (spanwise_line_ok points j n HL ltac:(lia)) as (segs & H & _). eauto. }
  rewrite E. cbn [bind]. exists (concat lines). split; [reflexivity|]. apply mapM_Forall2 in E. intros pq. split.
  - intros H. apply in_concat in H. destruct H as (segs & Hs & Hp). apply In_nth_error in Hs. destruct Hs as [k Hs]. destruct (Forall2_nth _ _ _ E _ _ Hs) as (j & Hj & Ej).
    apply nth_error_In, in_seq in Hj. destruct (spanwise_line_ok points j n HL ltac:(lia)) as (segs' & H1 & H2). assert (segs' = segs) by congruence. subst segs'.
    apply H2 in Hp. destruct Hp as (i & row & next & Hp). exists i, j, row, next. exact Hp.
  - intros (i & j & row & next & R1 & R2 & I1 & I2). assert (Hj : (j < n)%nat). { rewrite <- (HL row (nth_error_In _ _ R1)). apply nth_error_Some. congruence. }
    assert (Hs : nth_error (seq 0 n) j = Some j) by (rewrite nth_error_seq0; destruct (Nat.ltb_spec j n); [reflexivity | lia]).
    destruct (Forall2_nth_l _ _ _ E _ _ Hs) as (segs & Hk & Ej). destruct (spanwise_line_ok points j n HL Hj) as (segs' & H1 & H2). assert (segs' = segs) by congruence. subst segs'.
    apply in_concat. exists segs. split; [exact (nth_error_In _ _ Hk)|]. apply H2. exists i, row, next. auto.
Qed.
Lemma collapsed_horseshoe_length points br fr fl bl gs ages nu : List.length (collapsed_horseshoe points br fr fl bl gs ages nu) = List.length points.
Proof. unfold collapsed_horseshoe, add_rows, collapsed_line, zeros. cbn [fold_left]. rewrite !map2_length, !map_length, repeat_length. lia. Qed.

(** ** Solved problems *)
Definition has_scalars (p : panel) : Prop := forall t coefficient, In (t, coefficient) scalar_types -> exists c, coefficient p = Some c.
Lemma process_scalars op forces moments l l' : process_forces op forces moments l = Ok l' -> Forall has_scalars (all_panels l').
Proof.
  intros E. apply process_forces_sound in E. destruct E as (us & rest & _ & F). clear forces moments rest. induction F as [|a fms a' l us l' H F IH]; [constructor|].
  change (all_panels (a' :: l')) with (airplane_panels a' ++ all_panels l'). apply Forall_app. split; [|exact IH]. destruct H as (_ & -> & _).
  generalize (airplane_panels a). clear. intros ps. revert fms. induction ps as [|p ps IH]; intros [|fm fms]; cbn [map2]; constructor; [|apply IH].
  intros t c [X|[X|[X|[]]]]; injection X as <- <-; unfold loaded, p_set_loads; cbn; eauto.
Qed.
Lemma scalars_there ps t coefficient : Forall has_scalars ps -> In (t, coefficient) scalar_types -> exists cs, map coefficient ps = map Some cs.
Proof.
  intros F H. induction F as [|p ps Hp F (cs & IH)]; [exists []; reflexivity|]. destruct (Hp t coefficient H) as [c Hc]. exists (c :: cs). cbn [map]. rewrite Hc, IH. reflexivity.
Qed.
Section Runs.
  Variable solve : list (list R) -> list R -> result (list R).
  Hypothesis HS : SolveSpec solve.
  Lemma step_scalars prescribed up n s k sp : created up -> has_run solve prescribed up n s -> (k < n)%nat -> (up_first_results_step up <= Z.of_nat k)%Z -> step_at s k sp -> Forall has_scalars (step_panels sp).
  Proof.
    intros HC HR Hk Hfirst Hsp. destruct (has_run_earlier _ HS _ up n s (Datatypes.S k) HC HR Hk) as [s' HR'].
    apply (proj2 (record_kept _ HS _ _ _ _ _ _ k HC HR' HR (le_n _) Hk)) in Hsp.
    destruct (newest_ok _ HS prescribed up k s' HC HR') as (sp1 & rows & la & xs & grids & HN).
    assert (sp1 = sp) by (pose proof (nw_step _ _ _ _ _ _ _ _ HN); unfold step_at in *; congruence). subst sp1.
    pose proof (nw_loads _ _ _ _ _ _ _ _ HN) as HL. destruct (Z.leb_spec (up_first_results_step up) (Z.of_nat k)) as [_|X]; [|lia]. destruct HL as (l1 & loads & _ & Ep).
    exact (process_scalars _ _ _ _ _ Ep).
  Qed.
  Lemma finished_fields prescribed lines up s : created up -> finished solve prescribed lines up s ->
    has_run solve prescribed up (List.length (up_steady_problems up)) s /\ (0 < List.length (up_steady_problems up))%nat /\
    List.length (up_steady_problems (us_problem s)) = List.length (up_steady_problems up) /\ up_num_steps (us_problem s) = Z.of_nat (List.length (up_steady_problems up)) /\
    up_delta_time (us_problem s) = up_delta_time up /\ up_first_results_step (us_problem s) = up_first_results_step up /\
    (exists v, us_streamline_points s = (if lines then Some v else None) /\ exists n, forall row, In row v -> List.length row = n).
  Proof.
    intros HC HF. destruct (finished_meshed _ _ _ _ _ HC HF) as [F HM]. assert (HR : has_run solve prescribed up (List.length (up_steady_problems up)) s) by (right; split; [exists lines; exact HF | reflexivity]).
    split; [exact HR|]. split; [exact (mp_some _ _ HM)|].
    destruct (finished_inv _ _ _ _ _ F HF HM) as (sf & f & m & r & HA & _ & Eset & Esteps & _ & _ & _ & _ & Els). pose proof (after_problem solve HS _ _ _ _ F HA HM (le_n _)) as EP.
    split; [symmetry; exact (Forall2_length _ _ _ (steps_kept _ HS _ _ _ _ HC HR))|]. rewrite Eset, EP. cbn [up_set_final up_set_steps up_num_steps up_delta_time up_first_results_step].
    rewrite (mp_size _ _ HM). repeat (split; [reflexivity|]). destruct lines.
    - pose proof (mp_some _ _ HM) as Hpos. destruct (List.length (up_steady_problems up)) as [|n] eqn:EN; [lia|].
      destruct (newest_ok _ HS prescribed up n sf HC (or_introl HA)) as (sp & rows & la & xs & grids & HN).
      rewrite (nw_current _ _ _ _ _ _ _ _ HN) in Els. eexists. split; [exact Els|]. eexists. apply streamlines_rows. intros l. unfold current_velocity, unsteady_velocity_of, wake_velocities.
      rewrite map_length. unfold add_rows. rewrite map2_length, !collapsed_ring_length. lia.
    - exists []. split; [|exists O; intros row []]. rewrite Els. destruct (after_ran solve HS prescribed F up _ sf HM HA (le_n _)) as (s1 & conv & X & R).
      exact (rn_lines _ _ _ _ _ _ _ _ R).
  Qed.
  Lemma run_wake prescribed up n s k sp : created up -> has_run solve prescribed up n s -> (k < n)%nat -> step_at s k sp -> exists m, get_wake_ring_vortex_surfaces s k = Ok m /\ shows_wake s k m.
  Proof.
    intros HC HR Hk Hsp. destruct (wake_recorded _ HS _ _ _ _ _ HC HR Hk) as (grids & HW & Ew). destruct (wake_arrays_sizes _ HS _ _ _ _ _ _ HC HR Hsp) as (En & wk & Ewk & L1 & _).
    rewrite Ew in Ewk. apply Some_eq in Ewk. subst wk. unfold record_of in L1. cbn [wk_strengths] in L1. rewrite map_length in L1. rewrite <- L1 in En.
    destruct (wake_surfaces_built s k _ En Ew) as (m & E & [B _]). exists m. split; [exact E|]. exists grids. auto.
  Qed.
  (** The parts of a picture. *)
  Lemma drawn_parts s airplanes wake : solved solve s airplanes ->
    drawn s = Ok airplanes /\ Forall has_scalars (all_panels airplanes) /\
    (exists w, drawn_wake s wake = Ok w /\ match w with
       | Some m => wake = true /\ exists u, s = UnsteadySolver u /\ shows_wake u (List.length (up_steady_problems (us_problem u)) - 1) m
       | None => wake = false \/ forall u, s <> UnsteadySolver u end) /\
    forall points, streamline_points s = Some points -> exists n, forall row, In row points -> List.length row = n.
  Proof.
    intros H. destruct H as [s0 s E|s0 s E|prescribed lines up s sp HC HF Hfirst Hsp].
    - split; [reflexivity|]. apply hs_run_inv in E. cbv zeta in E. destruct E as (_ & _ & _ & _ & _ & El & l & _ & Ep). split; [exact (process_scalars _ _ _ _ _ Ep)|].
      split; [exists None; split; [reflexivity | right; discriminate]|]. cbn [streamline_points]. rewrite El. intros points X. apply Some_eq in X. subst points. eexists. apply streamlines_rows.
      intros l0. unfold hs_velocity_of. rewrite map_length. apply collapsed_horseshoe_length.
    - split; [reflexivity|]. pose proof E as E0. apply ring_run_inv in E. cbv zeta in E. destruct E as (l0 & l1 & loads & _ & _ & _ & _ & _ & _ & _ & _ & _ & Ep). split; [exact (process_scalars _ _ _ _ _ Ep)|].
      split; [exists None; split; [reflexivity | right; discriminate]|]. cbn [streamline_points].
      assert (X : exists V seeds, rso_streamline_points s = Some (calculate_streamlines V seeds 25 (2 / 100)) /\ forall l, List.length (V l) = List.length l).
      { unfold ring_run in E0. repeat (apply bind_Ok in E0; destruct E0 as (? & ? & E0); cbn beta zeta in E0). apply Ok_eq in E0. subst s. cbn [rso_streamline_points]. do 2 eexists. split; [reflexivity|].
        intros l. unfold ring_velocity_of. rewrite map_length. unfold add_rows. rewrite map2_length, collapsed_ring_length, collapsed_horseshoe_length. lia. }
      destruct X as (V & seeds & -> & HV). intros points X. apply Some_eq in X. subst points. eexists. apply streamlines_rows. exact HV.
    - destruct (finished_fields _ _ _ _ HC HF) as (HR & Hpos & HL & HN & _ & _ & v & Ev & n & Hv). set (N := List.length (up_steady_problems up)) in *.
      assert (EN : Z.to_nat (up_num_steps (us_problem s) - 1) = (N - 1)%nat) by lia. split.
      { unfold drawn. rewrite EN, (proj2 (index_Some _ _ _) Hsp). reflexivity. }
      assert (H1 : (N - 1 < N)%nat) by lia. assert (H2 : (up_first_results_step up <= Z.of_nat (N - 1))%Z) by lia. split; [exact (step_scalars _ _ _ _ _ _ HC HR H1 H2 Hsp)|]. split.
      + unfold drawn_wake. destruct wake; [|exists None; auto]. rewrite EN. destruct (run_wake _ _ _ _ _ _ HC HR H1 Hsp) as (m & -> & Hm). cbn [bind]. exists (Some m). split; [reflexivity|].
        split; [reflexivity|]. exists s. rewrite HL. auto.
      + cbn [streamline_points]. rewrite Ev. destruct lines; [|discriminate]. intros points X. apply Some_eq in X. subst points. exists n. exact Hv.
  Qed.
  Lemma draw_lines s airplanes lines : solved solve s airplanes -> (lines = false \/ streamline_points s <> None) ->
    exists segs, (if lines then streamlines (streamline_points s) else Ok []) = Ok segs /\
      forall pq, In pq segs <-> lines = true /\ exists points, streamline_points s = Some points /\ piece points pq.
  Proof.
    intros H HL. destruct (drawn_parts s airplanes false H) as (_ & _ & _ & Hp). destruct lines.
    - destruct HL as [HL|HL]; [discriminate|]. destruct (streamline_points s) as [points|] eqn:E; [|congruence]. destruct (Hp _ eq_refl) as [n Hn]. destruct (streamlines_ok points n Hn) as (segs & -> & HI).
      exists segs. split; [reflexivity|]. intros pq. rewrite HI. split; [intros X; split; [reflexivity | eauto]|]. intros [_ (q & Hq & X)]. congruence.
    - exists []. split; [reflexivity|]. intros pq. split; [intros [] | intros [X _]; discriminate].
  Qed.
  Lemma draw_coloured s airplanes t coefficient lines wake : solved solve s airplanes -> all_panels airplanes <> [] -> In (t, coefficient) scalar_types ->
    (lines = false \/ streamline_points s <> None) ->
    exists pic, draw s (Some t) lines wake = Ok pic /\ drawing s airplanes lines wake pic /\ coloured t airplanes (pic_scalars pic).
  Proof.
    intros H Hne Ht HL. destruct (drawn_parts s airplanes wake H) as (Ed & Hs & (w & Ew & Hw) & _). destruct (draw_lines s airplanes lines H HL) as (segs & El & Hsegs).
    destruct (scalars_there _ _ _ Hs Ht) as (cs & Ecs). assert (Hcs : cs <> []) by (intros ->; destruct (all_panels airplanes); [congruence | discriminate]).
    unfold draw. rewrite Ed. cbn [bind]. rewrite Ew. cbn [bind]. rewrite (shown_scalars_in _ _ Ht). cbn [bind]. rewrite (scalars_are _ _ _ Ht), Ecs, (numbers_some _ Hcs). cbn [bind]. rewrite El. cbn [bind].
    eexists. split; [reflexivity|]. unfold drawing. cbn [pic_panels pic_lines pic_wake pic_scalars]. split; [split; [apply panel_surfaces_built | split; [exact Hsegs | exact Hw]]|].
    exists coefficient, cs, (colours_of cs). split; [exact Ht|]. split; [exact Ecs|]. split; [reflexivity | apply colours_good, Hcs].
  Qed.
  Lemma draw_plain s airplanes st lines wake : solved solve s airplanes -> (forall t, st = Some t -> ~ In t (map fst scalar_types)) ->
    (lines = false \/ streamline_points s <> None) ->
    exists pic, draw s st lines wake = Ok pic /\ drawing s airplanes lines wake pic /\ pic_scalars pic = None.
  Proof.
    intros H Hst HL. destruct (drawn_parts s airplanes wake H) as (Ed & Hs & (w & Ew & Hw) & _). destruct (draw_lines s airplanes lines H HL) as (segs & El & Hsegs).
    unfold draw. rewrite Ed. cbn [bind]. rewrite Ew. cbn [bind]. rewrite (shown_scalars_not _ Hst). cbn [bind]. rewrite El. cbn [bind].
    eexists. split; [reflexivity|]. split; [|reflexivity]. unfold drawing. cbn [pic_panels pic_lines pic_wake]. split; [apply panel_surfaces_built | split; [exact Hsegs | exact Hw]].
  Qed.
  Lemma draw_no_streamlines s airplanes st wake : solved solve s airplanes -> streamline_points s = None -> (forall t, st = Some t -> ~ In t (map fst scalar_types)) \/ all_panels airplanes <> [] ->
    draw s st true wake = Err EAttributeError.
  Proof.
    intros H HN Hst. destruct (drawn_parts s airplanes wake H) as (Ed & Hs & (w & Ew & Hw) & _). unfold draw. rewrite Ed. cbn [bind]. rewrite Ew. cbn [bind]. rewrite HN.
    destruct (shown_scalars st) as [t|] eqn:Es; [|reflexivity]. assert (Ht : exists coefficient, In (t, coefficient) scalar_types).
    { destruct st as [t0|]; [|discriminate]. cbn [shown_scalars] in Es. destruct (String.eqb_spec t0 "induced drag") as [->|_]; [apply Some_eq in Es; subst t; eexists; left; reflexivity|].
      destruct (String.eqb_spec t0 "side force") as [->|_]; [apply Some_eq in Es; subst t; eexists; right; left; reflexivity|].
      destruct (String.eqb_spec t0 "lift") as [->|_]; [apply Some_eq in Es; subst t; eexists; right; right; left; reflexivity | discriminate]. }
    destruct Ht as [coefficient Ht]. destruct Hst as [Hst|Hne]; [rewrite (shown_scalars_not _ Hst) in Es; discriminate|].
    destruct (scalars_there _ _ _ Hs Ht) as (cs & Ecs). assert (Hcs : cs <> []) by (intros ->; destruct (all_panels airplanes); [congruence | discriminate]).
    rewrite (scalars_are _ _ _ Ht), Ecs, (numbers_some _ Hcs). reflexivity.
  Qed.

  (** ** Animations *)
  Lemma later_frames prescribed lines up s first shown wake rest : created up -> finished solve prescribed lines up s ->
    forall k0, (forall i a, nth_error rest i = Some a -> exists sp, step_at s (k0 + i) sp /\ sp_airplanes sp = a) ->
    exists frames, mapM (fun sa => later_frame s first shown wake (fst sa) (snd sa)) (combine (seq k0 (List.length rest)) rest) = Ok frames /\ List.length frames = List.length rest /\
      forall i a pic, nth_error rest i = Some a -> nth_error frames i = Some pic ->
        pic_panels pic = get_panel_surfaces a /\ pic_lines pic = [] /\ pic_scalars pic = frame_scalars first shown (k0 + i) a /\
        match pic_wake pic with Some m => wake = true /\ shows_wake s (k0 + i) m | None => wake = false end.
  Proof.
    intros HC HF. destruct (finished_fields _ _ _ _ HC HF) as (HR & Hpos & HL & _). induction rest as [|a rest IH]; intros k0 H0.
    - exists []. split; [reflexivity|]. split; [reflexivity|]. intros [|i]; discriminate.
    - destruct (IH (S k0)) as (frames & E & L & HI). { intros i b Hi. destruct (H0 (S i) b Hi) as (sp & Hsp & X). exists sp. rewrite <- plus_n_Sm in Hsp. auto. }
      destruct (H0 0%nat a eq_refl) as (sp & Hsp & Ea). rewrite Nat.add_0_r in Hsp. cbn [List.length seq combine mapM fst snd].
      assert (W : exists w, (if wake then let* m := get_wake_ring_vortex_surfaces s k0 in Ok (Some m) else Ok None) = Ok w /\ match w with Some m => wake = true /\ shows_wake s k0 m | None => wake = false end).
      { destruct wake; [|exists None; auto]. assert (Hk : (k0 < List.length (up_steady_problems up))%nat). { rewrite <- HL. apply nth_error_Some. unfold step_at in Hsp. congruence. }
        destruct (run_wake _ _ _ _ _ _ HC HR Hk Hsp) as (m & -> & Hm). exists (Some m). auto. }
      destruct W as (w & Ew & Hw). unfold later_frame at 1. rewrite Ew. cbn [bind]. rewrite E. cbn [bind]. eexists. split; [reflexivity|]. split; [cbn [List.length]; lia|].
      intros [|i] b pic Hb Hp.
      + cbn in Hb, Hp. apply Some_eq in Hb. apply Some_eq in Hp. subst b pic. cbn [pic_panels pic_lines pic_scalars pic_wake]. rewrite Nat.add_0_r. repeat (split; [reflexivity|]). exact Hw.
      + cbn in Hb, Hp. destruct (HI i b pic Hb Hp) as (A1 & A2 & A3 & A4). rewrite <- plus_n_Sm in *. auto.
  Qed.
  Lemma animate_frames prescribed lines up s st wake shown : created up -> finished solve prescribed lines up s -> up_delta_time up <> 0 ->
    match shown_scalars st with
    | None => Ok None
    | Some t => let* xs := numbers (concat (map (fun airplanes => get_scalars airplanes t) (map sp_airplanes (up_steady_problems (us_problem s))))) in Ok (Some (t, colours_of xs))
    end = Ok shown ->
    exists an, animate s st wake = Ok an /\ frames_of s wake (an_frames an) /\ (an_speed an, an_fps an) = frame_rate (up_delta_time up) /\
      forall k sp pic, step_at s k sp -> nth_error (an_frames an) k = Some pic -> pic_scalars pic =
        match shown with Some (t, c) => if (up_first_results_step up <=? Z.of_nat k)%Z then Some (t, get_scalars (sp_airplanes sp) t, c) else None | None => None end.
  Proof.
    intros HC HF Hdt Hsh. destruct (finished_fields _ _ _ _ HC HF) as (HR & Hpos & HL & HN & Hd & Hfr & _). unfold animate. rewrite Hd, Hfr, Hsh. cbn zeta.
    destruct (Reqb (up_delta_time up) 0) eqn:E0; [apply Reqb_true in E0; contradiction|]. cbn [negb check bind].
    destruct (up_steady_problems (us_problem s)) as [|sp0 sps] eqn:Es; [cbn in HL; lia|]. cbn [map].
    destruct (later_frames _ _ _ _ (up_first_results_step up) shown wake (map sp_airplanes sps) HC HF 1%nat) as (frames & E & L & HI).
    { intros i a Hi. rewrite nth_error_map in Hi. destruct (nth_error sps i) as [sp|] eqn:Ei; [|discriminate]. exists sp. split; [unfold step_at; rewrite Es; exact Ei | apply Some_eq in Hi; exact Hi]. }
    rewrite E. cbn [bind]. eexists. split; [reflexivity|]. cbn [an_frames an_speed an_fps]. rewrite map_length in L.
    assert (FR : (0 <= up_first_results_step up)%Z). { destruct (created_fields _ HC) as (_ & _ & _ & C4 & C5 & C6). rewrite C5. destruct (up_only_final_results up); [|lia]. rewrite C4. unfold first_averaging_step.
      destruct (finished_meshed _ _ _ _ _ HC HF) as [F HM]. pose proof (mp_size _ _ HM) as MS. destruct (Reqb (up_max_period up) 0); [rewrite <- MS; lia | apply Z.le_max_l]. }
    split; [|split].
    - unfold frames_of. rewrite Es. split; [cbn [List.length]; lia|]. unfold step_at. rewrite Es. intros [|k] sp pic Hsp Hp; cbn in Hsp, Hp; apply Some_eq in Hsp || idtac.
      + apply Some_eq in Hp. subst sp pic. cbn [first_frame pic_panels pic_lines pic_wake]. split; [apply panel_surfaces_built | auto].
      + destruct (HI k (sp_airplanes sp) pic) as (A1 & A2 & A3 & A4); [rewrite nth_error_map, Hsp; reflexivity | exact Hp|]. rewrite A1. split; [apply panel_surfaces_built|]. split; [exact A2|].
        destruct (pic_wake pic) as [m|]; [destruct A4 as [A4 A5]; split; [exact A4|]; split; [lia | exact A5] | left; exact A4].
    - destruct (frame_rate _). reflexivity.
    - unfold step_at. rewrite Es. intros [|k] sp pic Hsp Hp; cbn in Hsp, Hp.
      + apply Some_eq in Hp. apply Some_eq in Hsp. subst sp pic. cbn [first_frame pic_scalars]. destruct shown as [[t c]|]; [|reflexivity].
        destruct (Z.eqb_spec (up_first_results_step up) 0), (Z.leb_spec (up_first_results_step up) (Z.of_nat 0)); first [reflexivity | lia].
      + destruct (HI k (sp_airplanes sp) pic) as (A1 & A2 & A3 & A4); [rewrite nth_error_map, Hsp; reflexivity | exact Hp|]. rewrite A3. reflexivity.
  Qed.
  Lemma run_scalars s t coefficient : In (t, coefficient) scalar_types ->
    concat (map (fun airplanes => get_scalars airplanes t) (map sp_airplanes (up_steady_problems (us_problem s)))) = map coefficient (concat (map step_panels (up_steady_problems (us_problem s)))).
  Proof using.
    intros Ht. generalize (up_steady_problems (us_problem s)). intros l. induction l as [|sp l IH]; [reflexivity|]. cbn [map concat]. rewrite map_app, IH, (scalars_are _ _ _ Ht). reflexivity.
  Qed.
  Lemma animate_coloured prescribed lines up s t coefficient wake : created up -> finished solve prescribed lines up s -> up_delta_time up <> 0 ->
    up_first_results_step up = 0%Z -> In (t, coefficient) scalar_types -> (exists k sp p, step_at s k sp /\ In p (step_panels sp)) ->
    exists an cs c, animate s (Some t) wake = Ok an /\ frames_of s wake (an_frames an) /\ scalars_of_run s coefficient cs /\ colouring cs c /\
      forall k sp pic, step_at s k sp -> nth_error (an_frames an) k = Some pic -> pic_scalars pic = Some (t, map coefficient (step_panels sp), c).
  Proof.
    intros HC HF Hdt Hfirst Ht (k0 & sp0 & p0 & Hk0 & Hp0). destruct (finished_fields _ _ _ _ HC HF) as (HR & Hpos & HL & _).
    assert (FS : Forall has_scalars (concat (map step_panels (up_steady_problems (us_problem s))))).
    { apply Forall_forall. intros p Hp. apply in_concat in Hp. destruct Hp as (ps & Hps & Hp). apply in_map_iff in Hps. destruct Hps as (sp & <- & Hsp). apply In_nth_error in Hsp. destruct Hsp as [k Hk].
      assert (Hlt : (k < List.length (up_steady_problems up))%nat) by (rewrite <- HL; apply nth_error_Some; congruence).
      assert (Hk1 : (up_first_results_step up <= Z.of_nat k)%Z) by lia. pose proof (step_scalars _ _ _ _ k sp HC HR Hlt Hk1 Hk) as F. rewrite Forall_forall in F. apply F, Hp. }
    destruct (scalars_there _ _ _ FS Ht) as (cs & Ecs).
    assert (Hcs : cs <> []). { intros ->. destruct (concat (map step_panels (up_steady_problems (us_problem s)))) as [|x y] eqn:E; [|discriminate].
      assert (X : In p0 []) by (rewrite <- E; apply in_concat; exists (step_panels sp0); split; [apply in_map, (nth_error_In _ _ Hk0) | exact Hp0]). destruct X. }
    destruct (animate_frames prescribed lines up s (Some t) wake (Some (t, colours_of cs)) HC HF Hdt) as (an & Ea & Hfr & _ & Hsc).
    { rewrite (shown_scalars_in _ _ Ht), (run_scalars _ _ _ Ht), Ecs, (numbers_some _ Hcs). reflexivity. }
    exists an, cs, (colours_of cs). split; [exact Ea|]. split; [exact Hfr|]. split; [exact Ecs|]. split; [apply colours_good, Hcs|].
    intros k sp pic Hsp Hp. rewrite (Hsc k sp pic Hsp Hp), Hfirst, (scalars_are _ _ _ Ht). destruct (Z.leb_spec 0 (Z.of_nat k)); [reflexivity | lia].
  Qed.
  Lemma animate_plain prescribed lines up s st wake : created up -> finished solve prescribed lines up s -> up_delta_time up <> 0 ->
    (forall t, st = Some t -> ~ In t (map fst scalar_types)) ->
    exists an, animate s st wake = Ok an /\ frames_of s wake (an_frames an) /\ forall pic, In pic (an_frames an) -> pic_scalars pic = None.
  Proof.
    intros HC HF Hdt Hst. destruct (animate_frames prescribed lines up s st wake None HC HF Hdt) as (an & Ea & Hfr & _ & Hsc); [rewrite (shown_scalars_not _ Hst); reflexivity|].
    exists an. split; [exact Ea|]. split; [exact Hfr|]. intros pic Hp. apply In_nth_error in Hp. destruct Hp as [k Hk]. destruct Hfr as [HLn _].
    destruct (nth_in_range (up_steady_problems (us_problem s)) k) as [sp Hsp]; [rewrite <- HLn; apply nth_error_Some; congruence|]. exact (Hsc k sp pic Hsp Hk).
  Qed.
  (** Without the loads of the first steps there is no picture at all. *)
  Lemma animate_late prescribed lines up s t coefficient wake k sp p : created up -> finished solve prescribed lines up s -> up_delta_time up <> 0 -> In (t, coefficient) scalar_types ->
    (Z.of_nat k < up_first_results_step up)%Z -> step_at s k sp -> In p (step_panels sp) -> animate s (Some t) wake = Err ETypeError.
  Proof.
    intros HC HF Hdt Ht Hk Hsp Hp. destruct (finished_fields _ _ _ _ HC HF) as (HR & Hpos & HL & HN & Hd & _). unfold animate. rewrite Hd. cbn zeta.
    destruct (Reqb (up_delta_time up) 0) eqn:E0; [apply Reqb_true in E0; contradiction|]. cbn [negb check bind]. rewrite (shown_scalars_in _ _ Ht), (run_scalars _ _ _ Ht).
    rewrite numbers_none; [reflexivity|]. apply in_map_iff. exists p. split; [|apply in_concat; exists (step_panels sp); split; [apply in_map, (nth_error_In _ _ Hsp) | exact Hp]].
    unfold step_panels, all_panels in Hp. apply in_concat in Hp. destruct Hp as (ps & Hps & Hp). apply in_map_iff in Hps. destruct Hps as (a & <- & Ha).
    pose proof (loads_skipped _ _ _ _ _ _ _ _ HC HR (or_intror Hk) Hsp Ha) as (_ & _ & _ & _ & HW). unfold airplane_panels in Hp. apply in_concat in Hp. destruct Hp as (row & Hrow & Hp).
    apply in_map_iff in Hrow. destruct Hrow as (w & <- & Hw). unfold ravel in Hp. apply in_concat in Hp. destruct Hp as (row & Hrow & Hp). destruct (HW _ _ _ Hw Hrow Hp) as (_ & _ & _ & _ & P1 & P2 & P3).
    destruct Ht as [X|[X|[X|[]]]]; injection X as <- <-; assumption.
  Qed.
End Runs.
