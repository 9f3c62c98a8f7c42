(** Lemmas about meshing.py: shape, flags, shared edges, mirror images. *)
From Coq Require Import Lra Lia.
From Verif Require Import M_Geometry S_Geometry S_Loads S_Wing.
From Verif Require Import L_Base L_Functions L_Panel L_Loads.

(** ** Cells of matrices *)
Definition cell {A} (m : list (list A)) (c s : nat) (x : A) : Prop :=
  exists row, nth_error m c = Some row /\ nth_error row s = Some x.
Definition rect {A} (n k : nat) (m : list (list A)) : Prop :=
  length m = n /\ forall row, In row m -> length row = k.
Lemma rect_nth {A} n k (m : list (list A)) c : rect n k m -> (c < n)%nat ->
  exists row, nth_error m c = Some row /\ length row = k.
Proof.
  intros [H1 H2] Hc. destruct (nth_error m c) as [row|] eqn:E.
  - exists row. split; [reflexivity|]. apply H2. eapply nth_error_In; exact E.
  - apply nth_error_None in E. lia.
Qed.
Lemma rect_cell {A} n k (m : list (list A)) c s : rect n k m -> (c < n)%nat -> (s < k)%nat -> exists x, cell m c s x.
Proof.
  intros H Hc Hs. destruct (rect_nth _ _ _ _ H Hc) as (row & Hr & Hl).
  destruct (nth_error row s) as [x|] eqn:E; [|apply nth_error_None in E; lia]. exists x, row. auto.
Qed.
Lemma rect_bounds {A} n k (m : list (list A)) c s x : rect n k m -> cell m c s x -> (c < n)%nat /\ (s < k)%nat.
Proof.
  intros [H1 H2] (row & Hr & Hx). split.
  - rewrite <- H1. apply nth_error_Some. congruence.
  - rewrite <- (H2 row (nth_error_In _ _ Hr)). apply nth_error_Some. congruence.
Qed.
Lemma cell_fun {A} (m : list (list A)) c s x y : cell m c s x -> cell m c s y -> x = y.
Proof. intros (r & H1 & H2) (r' & H3 & H4). congruence. Qed.
Lemma nth_error_combine {A B} (a : list A) (b : list B) i :
  nth_error (combine a b) i = match nth_error a i, nth_error b i with Some x, Some y => Some (x, y) | _, _ => None end.
Proof.
  revert b i; induction a as [|x a IH]; intros [|y b] [|i]; cbn; try reflexivity.
  - destruct (nth_error a i); reflexivity.
  - apply IH.
Qed.
Lemma nth_error_tl {A} (l : list A) i : nth_error (tl l) i = nth_error l (S i).
Proof. destruct l; [destruct i|]; reflexivity. Qed.
Lemma removelast_length {A} (l : list A) : length (removelast l) = (length l - 1)%nat.
Proof. induction l as [|x [|y l] IH]; [reflexivity|reflexivity|]. cbn [removelast length] in *. rewrite IH. lia. Qed.
Lemma nth_error_removelast {A} (l : list A) i : (S i < length l)%nat -> nth_error (removelast l) i = nth_error l i.
Proof.
  revert i; induction l as [|x [|y l] IH]; intros i Hi; cbn in Hi; [lia|lia|].
  destruct i as [|i]; [reflexivity|]. change (removelast (x :: y :: l)) with (x :: removelast (y :: l)).
  cbn [nth_error]. apply IH. cbn; lia.
Qed.
Lemma nth_error_map_inv {A B} (f : A -> B) l i y : nth_error (map f l) i = Some y -> exists x, nth_error l i = Some x /\ y = f x.
Proof. rewrite nth_error_map. destruct (nth_error l i) as [x|]; [|discriminate]. intros [= <-]. exists x; auto. Qed.
Lemma nth_error_rev {A} (l : list A) i : (i < length l)%nat -> nth_error (rev l) i = nth_error l (length l - 1 - i).
Proof.
  intros Hi. destruct l as [|d l'] eqn:El; [cbn in Hi; lia|]. rewrite <- El in *.
  rewrite !(nth_error_nth' _ d) by (rewrite ?rev_length; lia). f_equal. rewrite rev_nth by exact Hi. f_equal; lia.
Qed.

(** ** Panels from vertex arrays *)
Definition panel_row (le te : bool) (a b d e : list vec) : list panel :=
  map (fun v => let '(pfl, pfr, pbl, pbr) := v in new_panel pfr pfl pbl pbr le te) (combine (combine (combine a b) d) e).
Lemma panel_row_nth le te a b d e s :
  nth_error (panel_row le te a b d e) s =
  match nth_error a s, nth_error b s, nth_error d s, nth_error e s with
  | Some fl, Some fr, Some bl, Some br => Some (new_panel fr fl bl br le te) | _, _, _, _ => None end.
Proof.
  unfold panel_row. rewrite nth_error_map, !nth_error_combine.
  destruct (nth_error a s), (nth_error b s), (nth_error d s), (nth_error e s); reflexivity.
Qed.
Lemma section_panels_nth fl fr bl br c :
  nth_error (section_panels fl fr bl br) c =
  match nth_error fl c, nth_error fr c, nth_error bl c, nth_error br c with
  | Some a, Some b, Some d, Some e => Some (panel_row (Nat.eqb c 0) (Nat.eqb (S c) (length fl)) a b d e)
  | _, _, _, _ => None end.
Proof.
  unfold section_panels. rewrite nth_error_mapi, !nth_error_combine.
  destruct (nth_error fl c), (nth_error fr c), (nth_error bl c), (nth_error br c); reflexivity.
Qed.
Lemma rect_intro {A} n k (m : list (list A)) : length m = n ->
  (forall c row, nth_error m c = Some row -> length row = k) -> rect n k m.
Proof. intros H1 H2. split; [exact H1|]. intros row Hin. apply In_nth_error in Hin. destruct Hin as [c Hc]. eauto. Qed.

(** The panels of a grid of points. *)
Definition grid_panels (grid : list (list vec)) : list (list panel) :=
  let v := split_vertices grid in
  section_panels (v_front_inner v) (v_front_outer v) (v_back_inner v) (v_back_outer v).
Lemma cell_split grid n k : rect (S n) (S k) grid -> forall c, (c < n)%nat ->
  exists r r', nth_error grid c = Some r /\ nth_error grid (S c) = Some r' /\ length r = S k /\ length r' = S k /\
    nth_error (grid_panels grid) c = Some (panel_row (Nat.eqb c 0) (Nat.eqb (S c) n) (removelast r) (tl r) (removelast r') (tl r')).
Proof.
  intros H c Hc. destruct (rect_nth _ _ _ c H ltac:(lia)) as (r & Hr & Lr). destruct (rect_nth _ _ _ (S c) H ltac:(lia)) as (r' & Hr' & Lr').
  exists r, r'. repeat split; try assumption. destruct H as [H1 H2].
  unfold grid_panels. rewrite section_panels_nth. unfold split_vertices, but_last; cbn [v_front_inner v_front_outer v_back_inner v_back_outer].
  rewrite !nth_error_map. rewrite nth_error_removelast by lia. rewrite nth_error_tl, Hr, Hr'. cbn [option_map].
  rewrite map_length, removelast_length, H1. replace (S n - 1)%nat with n by lia. reflexivity.
Qed.
Lemma grid_rect grid n k : rect (S n) (S k) grid -> rect n k (grid_panels grid).
Proof.
  intros H. assert (L : length (grid_panels grid) = n).
  { unfold grid_panels, section_panels. rewrite mapi_length, !combine_length.
    unfold split_vertices, but_last; cbn [v_front_inner v_front_outer v_back_inner v_back_outer]. rewrite !map_length, removelast_length.
    destruct H as [H1 _]. destruct grid; cbn in *; lia. }
  apply rect_intro; [exact L|]. intros c row Hr.
  assert (Hc : (c < n)%nat) by (rewrite <- L; apply nth_error_Some; congruence).
  destruct (cell_split _ _ _ H c Hc) as (r & r' & _ & _ & Lr & Lr' & E). rewrite Hr in E. injection E as ->.
  unfold panel_row. rewrite map_length, !combine_length, !removelast_length.
  destruct r; [discriminate|]; destruct r'; [discriminate|]. cbn in *; lia.
Qed.
Lemma grid_cells grid n k : rect (S n) (S k) grid -> forall c s p, cell (grid_panels grid) c s p ->
  exists fl fr bl br, cell grid c s fl /\ cell grid c (S s) fr /\ cell grid (S c) s bl /\ cell grid (S c) (S s) br /\
    p = new_panel fr fl bl br (Nat.eqb c 0) (Nat.eqb (S c) n).
Proof.
  intros H c s p Hp. destruct (rect_bounds _ _ _ _ _ _ (grid_rect _ _ _ H) Hp) as [Hc Hs].
  destruct (cell_split _ _ _ H c Hc) as (r & r' & Hr & Hr' & Lr & Lr' & E).
  destruct Hp as (row & Hrow & Hp). rewrite E in Hrow. injection Hrow as <-.
  rewrite panel_row_nth, !nth_error_tl, !nth_error_removelast in Hp by lia.
  destruct (nth_error r s) as [fl|] eqn:E1; [|discriminate]. destruct (nth_error r (S s)) as [fr|] eqn:E2; [|discriminate].
  destruct (nth_error r' s) as [bl|] eqn:E3; [|discriminate]. destruct (nth_error r' (S s)) as [br|] eqn:E4; [|discriminate].
  injection Hp as <-. exists fl, fr, bl, br. repeat split; eexists; eauto.
Qed.

(** Mirrored panels. *)
Definition mirror_panel (f : vec -> vec) (q : panel) : panel :=
  new_panel (f (p_front_left q)) (f (p_front_right q)) (f (p_back_right q)) (f (p_back_left q))
            (p_is_leading_edge q) (p_is_trailing_edge q).
Lemma section_panels_mirror f fi fo bi bo : length fi = length fo ->
  section_panels (map (map f) fo) (map (map f) fi) (map (map f) bo) (map (map f) bi) =
  map (map (mirror_panel f)) (section_panels fi fo bi bo).
Proof.
  intros L. apply nth_error_ext; intro c. rewrite nth_error_map, !section_panels_nth, !nth_error_map, map_length, L.
  destruct (nth_error fi c) as [a|], (nth_error fo c) as [b|], (nth_error bi c) as [d|], (nth_error bo c) as [e|]; cbn [option_map]; try reflexivity.
  f_equal. apply nth_error_ext; intro s. rewrite nth_error_map, !panel_row_nth, !nth_error_map.
  destruct (nth_error a s), (nth_error b s), (nth_error d s), (nth_error e s); reflexivity.
Qed.

(** ** One wing section *)
Definition strip (w : mesh_spec) (inner outer : section) (deflection : R) : result (list (list panel)) :=
  let* mcls := flapped_camber (spaced (ms_chordwise_spacing w) (S (ms_num_chordwise w))) inner outer deflection in
  let* P := section_mcl (ms_leading_edge w) inner (fst mcls) in
  let* Q := section_mcl (ms_leading_edge w) outer (snd mcls) in
  Ok (grid_panels (interp_between_points P Q (spaced (cs_spanwise_spacing inner) (S (cs_num_spanwise_panels inner))))).
Definition reflect (w : mesh_spec) (p : vec) : vec := reflect_point_across_plane p (ms_unit_normal w) (ms_leading_edge w).
Lemma right_strip w i o : right_section w i o =
  let* m := strip w i o (cs_control_surface_deflection i) in
  let* _ := check (Nat.leb 1 (ms_num_chordwise w)) EValueError in Ok m.
Proof.
  unfold right_section, strip, section_vertices. destruct (flapped_camber _ _ _ _) as [mcls|e]; [|reflexivity]. cbn [bind].
  destruct (section_mcl _ i _) as [P|e]; [|reflexivity]. cbn [bind]. destruct (section_mcl _ o _) as [Q|e]; reflexivity.
Qed.
Definition flip (w : mesh_spec) (m : list (list panel)) : list (list panel) := map (@rev _) (map (map (mirror_panel (reflect w))) m).
Lemma left_strip w i o : left_section w i o =
  let* m := strip w i o (port_deflection i) in
  let* _ := check (Nat.leb 1 (cs_num_spanwise_panels i)) EValueError in Ok (flip w m).
Proof.
  unfold left_section, strip, section_vertices, port_deflection. destruct (flapped_camber _ _ _ _) as [mcls|e]; [|reflexivity]. cbn [bind].
  destruct (section_mcl _ i _) as [P|e]; [|reflexivity]. cbn [bind]. destruct (section_mcl _ o _) as [Q|e]; [|reflexivity]. cbn [bind].
  destruct (check _ _) as [[]|e]; [|reflexivity]. cbn [bind].
  unfold flip, grid_panels, reflect_grid. fold (reflect w).
  change (fun p => reflect_point_across_plane p (ms_unit_normal w) (ms_leading_edge w)) with (reflect w).
  do 2 f_equal. apply section_panels_mirror. unfold split_vertices; cbn. rewrite !map_length. reflexivity.
Qed.

Lemma camber_points_eq le fr s d h : camber_points le fr s d h =
  let* a := add_control_surface (cs_airfoil s) d h in
  let* line := get_downsampled_mcl fr (af_mcl_coordinates a) in section_mcl le s line.
Proof.
  unfold camber_points, section_mcl. destruct (add_control_surface _ _ _) as [a|e]; [|reflexivity]. cbn [bind].
  destruct (get_downsampled_mcl _ _) as [line|e]; [|reflexivity]. cbn [bind].
  destruct (cs_unit_chordwise s) as [b|e]; [|reflexivity]. cbn [bind]. destruct (cs_unit_up s) as [u|e]; [|reflexivity]. cbn [bind].
  f_equal. apply map_ext. intros p. vring.
Qed.
Lemma mapM_interp_length fr l ys : mapM (fun f => np_interp f l) fr = Ok ys -> length ys = length fr.
Proof. apply mapM_Ok_length. Qed.
Lemma downsampled_length fr mcl line : get_downsampled_mcl fr mcl = Ok line -> length line = length fr.
Proof.
  unfold get_downsampled_mcl. destruct mcl as [|q mcl]; [discriminate|]. intros H. repeat inv_ok H. subst line.
  apply mapM_Ok_length in E. apply mapM_Ok_length in E0. rewrite combine_length. lia.
Qed.
Lemma section_mcl_length le s line P : section_mcl le s line = Ok P -> length P = length line.
Proof. unfold section_mcl. intros H. repeat inv_ok H. subst P. apply map_length. Qed.
Lemma camber_points_length le fr s d h P : camber_points le fr s d h = Ok P -> length P = length fr.
Proof.
  rewrite camber_points_eq. intros H. repeat inv_ok H. apply section_mcl_length in H. rewrite H. eapply downsampled_length; eassumption.
Qed.
Lemma spaced_length sp n : length (spaced sp n) = n.
Proof. unfold spaced. destruct (String.eqb sp "uniform"); [apply linspace_length | apply cosspace_length]. Qed.
Lemma spaced_first sp n : (1 <= n)%nat -> nth_error (spaced sp n) 0 = Some 0.
Proof.
  intros Hn. unfold spaced. destruct (String.eqb sp "uniform").
  - unfold linspace. destruct n; [lia|]. cbn [seq map nth_error]. f_equal. cbn [INR]. ring.
  - apply cosspace_first; exact Hn.
Qed.
Lemma spaced_last sp n : (1 <= n)%nat -> nth_error (spaced sp (S n)) n = Some 1.
Proof.
  intros Hn. unfold spaced. destruct (String.eqb sp "uniform").
  - unfold linspace. rewrite nth_error_map, nth_error_seq0. replace (n <? S n)%nat with true by (symmetry; apply Nat.ltb_lt; lia).
    cbn [option_map]. f_equal. replace (S n - 1)%nat with n by lia. field. apply not_0_INR; lia.
  - replace n with (S n - 1)%nat at 2 by lia. apply cosspace_last; lia.
Qed.

(** A section's panels lie between its two sections' camber points. *)
Definition fractions (w : mesh_spec) : list R := spaced (ms_chordwise_spacing w) (S (ms_num_chordwise w)).
Lemma strip_camber w i o d m : strip w i o d = Ok m <->
  exists P Q, camber_points (ms_leading_edge w) (fractions w) i d (cs_control_surface_hinge_point i) = Ok P /\
    camber_points (ms_leading_edge w) (fractions w) o d (cs_control_surface_hinge_point i) = Ok Q /\
    m = grid_panels (interp_between_points P Q (spaced (cs_spanwise_spacing i) (S (cs_num_spanwise_panels i)))).
Proof.
  rewrite !camber_points_eq. unfold strip, flapped_camber. fold (fractions w). split.
  - intros H. repeat inv_ok H. repeat (inv_ok E). subst. cbn [fst snd] in *.
    repeat match goal with H : ?x = Ok _ |- _ => rewrite H; clear H; cbn [bind] end.
    do 2 eexists. repeat split; try eassumption; try reflexivity.
  - intros (P & Q & H1 & H2 & ->). repeat inv_ok H1. repeat inv_ok H2.
    repeat match goal with H : ?x = Ok _ |- _ => rewrite H; clear H; cbn [bind fst snd] end. reflexivity.
Qed.
Lemma interp_rect P Q ks n : length P = n -> length Q = n -> rect n (length ks) (interp_between_points P Q ks).
Proof.
  intros HP HQ. split; [rewrite interp_length; lia|]. intros row. apply interp_row_length.
Qed.
Lemma interp_cell P Q ks c s v : cell (interp_between_points P Q ks) c s v ->
  exists p q t, nth_error P c = Some p /\ nth_error Q c = Some q /\ nth_error ks s = Some t /\ v = along p q t.
Proof.
  intros (row & Hr & Hv). unfold interp_between_points in Hr. rewrite nth_error_map2 in Hr.
  destruct (nth_error P c) as [p|]; [|discriminate]. destruct (nth_error Q c) as [q|]; [|discriminate]. injection Hr as <-.
  apply nth_error_map_inv in Hv. destruct Hv as (t & Ht & ->). exists p, q, t. repeat split; try assumption.
  unfold along. vring.
Qed.
Lemma strip_cells w i o d m : strip w i o d = Ok m ->
  let ks := spaced (cs_spanwise_spacing i) (S (cs_num_spanwise_panels i)) in
  exists P Q, camber_points (ms_leading_edge w) (fractions w) i d (cs_control_surface_hinge_point i) = Ok P /\
    camber_points (ms_leading_edge w) (fractions w) o d (cs_control_surface_hinge_point i) = Ok Q /\
    rect (ms_num_chordwise w) (cs_num_spanwise_panels i) m /\
    forall c s p, cell m c s p ->
      exists a b a' b' t t', nth_error P c = Some a /\ nth_error Q c = Some b /\
        nth_error P (S c) = Some a' /\ nth_error Q (S c) = Some b' /\
        nth_error ks s = Some t /\ nth_error ks (S s) = Some t' /\
        p = new_panel (along a b t') (along a b t) (along a' b' t) (along a' b' t')
                      (Nat.eqb c 0) (Nat.eqb (S c) (ms_num_chordwise w)).
Proof.
  intros H ks. apply strip_camber in H. destruct H as (P & Q & HP & HQ & ->). fold ks. exists P, Q.
  assert (LP : length P = S (ms_num_chordwise w)) by (rewrite (camber_points_length _ _ _ _ _ _ HP); apply spaced_length).
  assert (LQ : length Q = S (ms_num_chordwise w)) by (rewrite (camber_points_length _ _ _ _ _ _ HQ); apply spaced_length).
  pose proof (interp_rect P Q ks _ LP LQ) as HG. assert (LK : length ks = S (cs_num_spanwise_panels i)) by apply spaced_length.
  rewrite LK in HG. split; [exact HP|]. split; [exact HQ|]. split; [apply grid_rect; exact HG|].
  intros c s p Hp. destruct (grid_cells _ _ _ HG _ _ _ Hp) as (fl & fr & bl & br & H1 & H2 & H3 & H4 & ->).
  apply interp_cell in H1, H2, H3, H4.
  destruct H1 as (a & b & t & A1 & B1 & T1 & ->). destruct H2 as (a2 & b2 & t' & A2 & B2 & T2 & ->).
  destruct H3 as (a' & b' & t3 & A3 & B3 & T3 & ->). destruct H4 as (a4 & b4 & t4 & A4 & B4 & T4 & ->).
  assert (a2 = a) by congruence. assert (b2 = b) by congruence. assert (t3 = t) by congruence.
  assert (a4 = a') by congruence. assert (b4 = b') by congruence. assert (t4 = t') by congruence. subst.
  exists a, b, a', b', t, t'. repeat split; assumption.
Qed.

(** ** The whole wing: left strips, then right strips *)
Fixpoint hcat {A} (n : nat) (ms : list (list (list A))) : list (list A) :=
  match ms with [] => repeat [] n | m :: rest => hstack m (hcat n rest) end.
Lemma hstack_rect {A} n k l (a b : list (list A)) : rect n k a -> rect n l b -> rect n (k + l) (hstack a b).
Proof.
  intros [A1 A2] [B1 B2]. apply rect_intro; [rewrite hstack_length; lia|].
  intros c row Hr. rewrite nth_error_hstack in Hr.
  destruct (nth_error a c) as [x|] eqn:Ex; [|discriminate]. destruct (nth_error b c) as [y|] eqn:Ey; [|discriminate].
  injection Hr as <-. rewrite app_length, (A2 x), (B2 y) by (eapply nth_error_In; eassumption). reflexivity.
Qed.
Lemma repeat_rect {A} n : rect n 0 (repeat (@nil A) n).
Proof. split; [apply repeat_length|]. intros row H. apply repeat_spec in H. subst; reflexivity. Qed.
Lemma hstack_nil_r {A} (a : list (list A)) n : length a = n -> hstack a (repeat [] n) = a.
Proof. revert n; induction a as [|x a IH]; intros [|n] H; try discriminate H; [reflexivity|]. cbn. rewrite app_nil_r, IH by (cbn in H; lia). reflexivity. Qed.
Lemma hstack_nil_l {A} (a : list (list A)) n : length a = n -> hstack (repeat [] n) a = a.
Proof. revert n; induction a as [|x a IH]; intros [|n] H; try discriminate H; [reflexivity|]. cbn. rewrite IH by (cbn in H; lia). reflexivity. Qed.
Lemma hstack_assoc {A} (a b c : list (list A)) : hstack (hstack a b) c = hstack a (hstack b c).
Proof. revert b c; induction a as [|x a IH]; intros [|y b] [|z c]; try reflexivity. cbn. rewrite IH, app_assoc. reflexivity. Qed.
Lemma hcat_app {A} n (a b : list (list (list A))) : (forall m, In m b -> length m = n) -> 
  hcat n (a ++ b) = hstack (hcat n a) (hcat n b).
Proof.
  intros Hb. assert (L : length (hcat n b) = n).
  { clear a. induction b as [|m b IH]; [apply repeat_length|]. cbn. rewrite hstack_length; [apply Hb; left; reflexivity|].
    rewrite IH; [apply Hb; left; reflexivity|]. intros; apply Hb; right; assumption. }
  induction a as [|m a IH]; cbn [app hcat]; [rewrite hstack_nil_l by exact L; reflexivity|].
  rewrite IH, hstack_assoc. reflexivity.
Qed.
Lemma flip_rect w n k m : rect n k m -> rect n k (flip w m).
Proof.
  intros [H1 H2]. split; [unfold flip; rewrite !map_length; exact H1|]. unfold flip. intros row Hr.
  apply in_map_iff in Hr. destruct Hr as (r & <- & Hr). apply in_map_iff in Hr. destruct Hr as (r' & <- & Hr').
  rewrite rev_length, map_length. auto.
Qed.
Lemma flip_hstack w a b : flip w (hstack a b) = hstack (flip w b) (flip w a).
Proof.
  unfold flip. revert b; induction a as [|x a IH]; intros [|y b]; cbn [hstack map].
  - reflexivity.
  - reflexivity.
  - reflexivity.
  - rewrite IH, map_app, rev_app_distr. reflexivity.
Qed.
Lemma flip_repeat w n : flip w (repeat [] n) = repeat [] n.
Proof. unfold flip. induction n as [|n IH]; [reflexivity|]. cbn [repeat map]. rewrite IH. reflexivity. Qed.
Lemma check_Ok b e u : check b e = Ok u <-> b = true.
Proof. destruct b, u; cbn; split; congruence. Qed.

Definition strips_ok (w : mesh_spec) (deflection : section -> R) (sections : list section) (ms : list (list (list panel))) : Prop :=
  Forall2 (fun io m => strip w (fst io) (snd io) (deflection (fst io)) = Ok m) (adjacent sections) ms.
Lemma strips_cons w d i o tail ms : strips_ok w d (i :: o :: tail) ms ->
  exists m ms', ms = m :: ms' /\ strip w i o (d i) = Ok m /\ strips_ok w d (o :: tail) ms'.
Proof. intros H. inversion H as [|? m ? ms' Hm Hms]; subst. exists m, ms'. auto. Qed.
Lemma strip_rows w i o d m : strip w i o d = Ok m -> length m = ms_num_chordwise w.
Proof. intros H. destruct (strip_cells _ _ _ _ _ H) as (P & Q & _ & _ & [HR _] & _). exact HR. Qed.
Lemma strips_rows w d sections ms : strips_ok w d sections ms -> forall m, In m ms -> length m = ms_num_chordwise w.
Proof.
  intros H m Hm. apply In_nth_error in Hm. destruct Hm as (k & Hk). destruct (Forall2_nth _ _ _ H _ _ Hk) as (io & _ & E).
  eapply strip_rows; exact E.
Qed.
Lemma hcat_rows {A} n (ms : list (list (list A))) : (forall m, In m ms -> length m = n) -> length (hcat n ms) = n.
Proof.
  induction ms as [|m ms IH]; intros H; [apply repeat_length|]. cbn [hcat]. rewrite hstack_length; [apply H; left; reflexivity|].
  rewrite IH; [apply H; left; reflexivity|]. intros; apply H; right; assumption.
Qed.
(** meshing succeeds exactly when every section does; the result is laid out
    left strips (outermost first), then right strips. *)
Lemma mesh_sections_iff w sections : forall acc m, length acc = ms_num_chordwise w ->
  (mesh_sections w sections acc = Ok m <->
   exists rights lefts,
    strips_ok w cs_control_surface_deflection sections rights /\
    (adjacent sections <> [] -> (1 <= ms_num_chordwise w)%nat) /\
    (if ms_symmetric w
     then strips_ok w port_deflection sections lefts /\
          (forall i o, In (i, o) (adjacent sections) -> (1 <= cs_num_spanwise_panels i)%nat)
     else lefts = []) /\
    m = hstack (flip w (hcat (ms_num_chordwise w) lefts)) (hstack acc (hcat (ms_num_chordwise w) rights))).
Proof.
  set (n := ms_num_chordwise w).
  induction sections as [|i [|o tail] IH]; intros acc m Hacc.
  1, 2: cbn [mesh_sections]; split;
    [ intros [= <-]; exists [], []; split; [constructor|]; split; [intros []; reflexivity|];
      split; [destruct (ms_symmetric w); [split; [constructor | intros ? ? []] | reflexivity] |];
      cbn [hcat]; rewrite flip_repeat, hstack_nil_r, hstack_nil_l by exact Hacc; reflexivity
    | intros (rights & lefts & HR & _ & HL & ->);
      assert (HR' : rights = []) by (inversion HR; reflexivity);
      assert (HL' : lefts = []) by (destruct (ms_symmetric w); [destruct HL as [HL _]; inversion HL; reflexivity | exact HL]);
      subst rights lefts; cbn [hcat]; rewrite flip_repeat, hstack_nil_r, hstack_nil_l by exact Hacc; reflexivity ].
  change (mesh_sections w (i :: o :: tail) acc) with
    (let* right_panels := right_section w i o in
     let acc := hstack acc right_panels in
     let* acc := if ms_symmetric w
                 then let* left_panels := left_section w i o in Ok (hstack left_panels acc)
                 else Ok acc in
     mesh_sections w (o :: tail) acc).
  rewrite right_strip, left_strip. fold n.
  assert (EA : adjacent (i :: o :: tail) = (i, o) :: adjacent (o :: tail)) by reflexivity.
  unfold strips_ok in *. rewrite EA.
  destruct (strip w i o (cs_control_surface_deflection i)) as [mr|e] eqn:Er.
  2: { cbn [check bind]; split; [intros HX; discriminate HX|]. intros (rights & lefts & HR & _). inversion HR as [|? ? ? ? HR1 HR2]; subst. cbn [fst snd] in HR1. congruence. }
  cbn [bind]. assert (Lr : length mr = n) by (eapply strip_rows; exact Er).
  destruct (Nat.leb 1 n) eqn:En.
  2: { cbn [check bind]; split; [intros HX; discriminate HX|]. intros (rights & lefts & _ & HN & _). apply Nat.leb_gt in En.
       specialize (HN ltac:(discriminate)). lia. }
  cbn [check bind]. apply Nat.leb_le in En.
  destruct (ms_symmetric w) eqn:ES.
  - destruct (strip w i o (port_deflection i)) as [ml|e] eqn:El.
    2: { cbn [check bind]; split; [intros HX; discriminate HX|]. intros (rights & lefts & _ & _ & [HL _] & _). inversion HL as [|? ? ? ? HL1 HL2]; subst. cbn [fst snd] in HL1. congruence. }
    cbn [bind]. assert (Ll : length ml = n) by (eapply strip_rows; exact El).
    destruct (Nat.leb 1 (cs_num_spanwise_panels i)) eqn:Ei.
    2: { cbn [check bind]; split; [intros HX; discriminate HX|]. intros (rights & lefts & _ & _ & [_ HL] & _). apply Nat.leb_gt in Ei.
         specialize (HL i o (or_introl eq_refl)). lia. }
    cbn [check bind]. apply Nat.leb_le in Ei.
    assert (Lf : length (flip w ml) = n) by (unfold flip; rewrite !map_length; exact Ll).
    rewrite IH by (rewrite !hstack_length; rewrite ?hstack_length; unfold n in *; congruence). split.
    + intros (rights & lefts & HR & _ & [HL HS] & ->). exists (mr :: rights), (ml :: lefts).
      split; [constructor; assumption|]. split; [intros _; exact En|].
      split; [split; [constructor; assumption | intros i' o' [[= <- <-]|Hin]; [exact Ei | eapply HS; exact Hin]]|].
      cbn [hcat]. rewrite flip_hstack, !hstack_assoc. reflexivity.
    + intros (rights & lefts & HR & _ & [HL HS] & ->).
      inversion HR as [|? mr' ? rights' HR1 HR2]; subst. inversion HL as [|? ml' ? lefts' HL1 HL2]; subst. cbn [fst snd] in *.
      exists rights', lefts'. split; [assumption|]. split; [intros _; exact En|].
      split; [split; [assumption | intros i' o' Hin; apply (HS i' o'); right; exact Hin]|].
      replace mr' with mr by congruence. replace ml' with ml by congruence.
      cbn [hcat]. rewrite flip_hstack, !hstack_assoc. reflexivity.
  - cbn [bind]. rewrite IH by (rewrite hstack_length; unfold n in *; congruence). split.
    + intros (rights & lefts & HR & _ & -> & ->). exists (mr :: rights), [].
      split; [constructor; assumption|]. split; [intros _; exact En|]. split; [reflexivity|].
      cbn [hcat]. rewrite !hstack_assoc. reflexivity.
    + intros (rights & lefts & HR & _ & -> & ->). inversion HR as [|? mr' ? rights' HR1 HR2]; subst. cbn [fst snd] in *.
      exists rights', []. split; [assumption|]. split; [intros _; exact En|]. split; [reflexivity|].
      replace mr' with mr by congruence. cbn [hcat]. rewrite !hstack_assoc. reflexivity.
Qed.

Lemma cell_hstack {A} n k l (a b : list (list A)) c s x : rect n k a -> rect n l b ->
  (cell (hstack a b) c s x <-> ((s < k)%nat /\ cell a c s x) \/ ((k <= s)%nat /\ cell b c (s - k) x)).
Proof.
  intros HA HB. split.
  - intros (row & Hr & Hx). rewrite nth_error_hstack in Hr.
    destruct (nth_error a c) as [ra|] eqn:Ea; [|discriminate]. destruct (nth_error b c) as [rb|] eqn:Eb; [|discriminate].
    injection Hr as <-. assert (La : length ra = k) by (apply HA; eapply nth_error_In; exact Ea).
    destruct (Nat.lt_ge_cases s k) as [Hs|Hs]; [left|right]; split; try exact Hs.
    + exists ra. split; [exact Ea|]. rewrite nth_error_app1 in Hx by lia. exact Hx.
    + exists rb. split; [exact Eb|]. rewrite nth_error_app2 in Hx by lia. rewrite La in Hx. exact Hx.
  - intros [[Hs (ra & Ea & Hx)]|[Hs (rb & Eb & Hx)]].
    + assert (Hc : (c < n)%nat) by (rewrite <- (proj1 HA); apply nth_error_Some; congruence).
      destruct (rect_nth _ _ _ _ HB Hc) as (rb & Eb & _). exists (ra ++ rb). rewrite nth_error_hstack, Ea, Eb. split; [reflexivity|].
      rewrite nth_error_app1; [exact Hx|]. apply nth_error_Some; congruence.
    + assert (Hc : (c < n)%nat) by (rewrite <- (proj1 HB); apply nth_error_Some; congruence).
      destruct (rect_nth _ _ _ _ HA Hc) as (ra & Ea & La). exists (ra ++ rb). rewrite nth_error_hstack, Ea, Eb. split; [reflexivity|].
      rewrite nth_error_app2 by lia. rewrite La. exact Hx.
Qed.
Lemma cell_flip w n k m c s x : rect n k m ->
  (cell (flip w m) c s x <-> (s < k)%nat /\ exists q, cell m c (k - 1 - s) q /\ x = mirror_panel (reflect w) q).
Proof.
  intros HM. split.
  - intros Hx. destruct (rect_bounds _ _ _ _ _ _ (flip_rect w _ _ _ HM) Hx) as [Hc Hs]. split; [exact Hs|].
    destruct Hx as (row & Hr & Hx). unfold flip in Hr. apply nth_error_map_inv in Hr. destruct Hr as (r1 & Hr & ->).
    apply nth_error_map_inv in Hr. destruct Hr as (r & Hr & ->).
    assert (Lr : length r = k) by (apply HM; eapply nth_error_In; exact Hr).
    rewrite nth_error_rev in Hx by (rewrite map_length; lia). rewrite map_length, Lr in Hx.
    apply nth_error_map_inv in Hx. destruct Hx as (q & Hq & ->). exists q. split; [exists r; auto | reflexivity].
  - intros (Hs & q & (r & Hr & Hq) & ->). assert (Lr : length r = k) by (apply HM; eapply nth_error_In; exact Hr).
    exists (rev (map (mirror_panel (reflect w)) r)). split.
    + unfold flip. rewrite !nth_error_map, Hr. reflexivity.
    + rewrite nth_error_rev by (rewrite map_length; lia). rewrite map_length, Lr, nth_error_map, Hq. reflexivity.
Qed.

(** Properties of every panel that may depend on its row. *)
Definition each (P : nat -> panel -> Prop) (m : list (list panel)) : Prop := forall c s p, cell m c s p -> P c p.
Lemma each_hstack (P : nat -> panel -> Prop) n k l a b : rect n k a -> rect n l b -> each P a -> each P b -> each P (hstack a b).
Proof. intros HA HB Pa Pb c s p Hp. apply (cell_hstack _ _ _ _ _ _ _ _ HA HB) in Hp. destruct Hp as [[_ H]|[_ H]]; eauto. Qed.
Lemma each_flip (P : nat -> panel -> Prop) w n k (m : list (list panel)) : rect n k m -> (forall c p, P c p -> P c (mirror_panel (reflect w) p)) -> each P m -> each P (flip w m).
Proof. intros HM HP Pm c s p Hp. apply (cell_flip _ _ _ _ _ _ _ HM) in Hp. destruct Hp as (_ & q & Hq & ->). apply HP. eapply Pm; exact Hq. Qed.
Lemma cell_repeat {A} n c s (x : A) : ~ cell (repeat [] n) c s x.
Proof. intros H. destruct (rect_bounds _ _ _ _ _ _ (repeat_rect n) H) as [_ H']. lia. Qed.

Definition columns (sections : list section) : nat := list_sum (map (fun io => cs_num_spanwise_panels (fst io)) (adjacent sections)).
Definition row_flags (n : nat) (c : nat) (p : panel) : Prop :=
  p_is_leading_edge p = Nat.eqb c 0 /\ p_is_trailing_edge p = Nat.eqb (S c) n.
Lemma strips_rect w d sections ms : strips_ok w d sections ms ->
  rect (ms_num_chordwise w) (columns sections) (hcat (ms_num_chordwise w) ms) /\
  each (row_flags (ms_num_chordwise w)) (hcat (ms_num_chordwise w) ms).
Proof.
  unfold strips_ok, columns. induction 1 as [|io m ios ms Hm HF [IH1 IH2]].
  - split; [apply repeat_rect|]. intros c s p Hp. destruct (cell_repeat _ _ _ _ Hp).
  - destruct (strip_cells _ _ _ _ _ Hm) as (P & Q & _ & _ & HR & HC). cbn [hcat map list_sum fold_right]. split.
    + apply hstack_rect; assumption.
    + eapply each_hstack; [exact HR | exact IH1 | | exact IH2].
      intros c s p Hp. destruct (HC _ _ _ Hp) as (a & b & a' & b' & t & t' & _ & _ & _ & _ & _ & _ & ->). split; reflexivity.
Qed.
Lemma adjacent_fst {A} (l : list A) : map fst (adjacent l) = removelast l.
Proof.
  unfold adjacent. induction l as [|x [|y l] IH]; [reflexivity|reflexivity|].
  change (removelast (x :: y :: l)) with (x :: removelast (y :: l)). rewrite <- IH. reflexivity.
Qed.
Lemma fold_left_count l a : fold_left (fun n s => n + cs_num_spanwise_panels s)%nat l a = (a + list_sum (map cs_num_spanwise_panels l))%nat.
Proof. revert a; induction l as [|s l IH]; intro a; cbn [fold_left map list_sum fold_right]; [lia|]. rewrite IH. fold (list_sum (map cs_num_spanwise_panels l)). lia. Qed.
Lemma count_columns sections sym : count_spanwise sections sym = ((if sym then 2 else 1) * columns sections)%nat.
Proof.
  unfold count_spanwise, columns. rewrite fold_left_count, <- adjacent_fst, map_map. cbn [Nat.add].
  set (k := list_sum _). destruct sym; lia.
Qed.

(** The mesh before positions are stored. *)
Definition layout (w : mesh_spec) (sections : list section) (m : list (list panel)) : Prop :=
  exists rights lefts,
    strips_ok w cs_control_surface_deflection sections rights /\
    (adjacent sections <> [] -> (1 <= ms_num_chordwise w)%nat) /\
    (if ms_symmetric w
     then strips_ok w port_deflection sections lefts /\
          (forall i o, In (i, o) (adjacent sections) -> (1 <= cs_num_spanwise_panels i)%nat)
     else lefts = []) /\
    m = hstack (flip w (hcat (ms_num_chordwise w) lefts)) (hcat (ms_num_chordwise w) rights).
Lemma mesh_wing_layout w ns sections m : mesh_wing w ns sections = Ok m <->
  exists m0, layout w sections m0 /\ m = set_positions ns m0.
Proof.
  unfold mesh_wing. split.
  - intros H. inv_ok H. inv_ok H. subst m. apply mesh_sections_iff in E; [|apply repeat_length].
    destruct E as (rights & lefts & H1 & H2 & H3 & ->). eexists; split; [|reflexivity].
    exists rights, lefts. repeat split; try assumption. rewrite hstack_nil_l; [reflexivity|].
    apply hcat_rows. apply (strips_rows _ _ _ _ H1).
  - intros (m0 & (rights & lefts & H1 & H2 & H3 & ->) & ->).
    assert (E : mesh_sections w sections (repeat [] (ms_num_chordwise w)) =
                Ok (hstack (flip w (hcat (ms_num_chordwise w) lefts)) (hcat (ms_num_chordwise w) rights))).
    { apply mesh_sections_iff; [apply repeat_length|]. exists rights, lefts. repeat split; try assumption.
      rewrite hstack_nil_l; [reflexivity|]. apply hcat_rows. apply (strips_rows _ _ _ _ H1). }
    rewrite E. reflexivity.
Qed.
Lemma layout_rect w sections m : layout w sections m ->
  rect (ms_num_chordwise w) (count_spanwise sections (ms_symmetric w)) m /\ each (row_flags (ms_num_chordwise w)) m.
Proof.
  intros (rights & lefts & H1 & _ & H3 & ->). rewrite count_columns.
  destruct (strips_rect _ _ _ _ H1) as [R1 R2]. destruct (ms_symmetric w).
  - destruct H3 as [H3 _]. destruct (strips_rect _ _ _ _ H3) as [L1 L2].
    assert (F1 := flip_rect w _ _ _ L1). split.
    + replace (2 * columns sections)%nat with (columns sections + columns sections)%nat by lia. apply hstack_rect; assumption.
    + eapply each_hstack; [exact F1 | exact R1 | | exact R2]. eapply each_flip; [exact L1 | | exact L2].
      intros c p Hp. exact Hp.
  - subst lefts. cbn [hcat]. rewrite flip_repeat. rewrite hstack_nil_l by (apply R1). rewrite Nat.mul_1_l. split; assumption.
Qed.
Lemma cell_positions ns m c s p : cell (set_positions ns m) c s p <->
  exists q, cell m c s q /\ p = p_set_position (Nat.eqb (S s) ns) (Nat.eqb s 0) c s q.
Proof.
  unfold set_positions, cell. rewrite nth_error_mapi. destruct (nth_error m c) as [row|] eqn:E; cbn [option_map].
  - split.
    + intros (r & [= <-] & Hp). rewrite nth_error_mapi in Hp. destruct (nth_error row s) as [q|] eqn:Eq; [|discriminate].
      injection Hp as <-. exists q. split; [exists row; auto | reflexivity].
    + intros (q & (r & [= <-] & Hq) & ->). eexists. split; [reflexivity|]. rewrite nth_error_mapi, Hq. reflexivity.
  - split; [intros (r & H & _); discriminate | intros (q & (r & H & _) & _); discriminate].
Qed.
Lemma positions_rect ns n k m : rect n k m -> rect n k (set_positions ns m).
Proof.
  intros H. apply rect_intro; [unfold set_positions; rewrite mapi_length; apply H|].
  intros c row Hr. unfold set_positions in Hr. rewrite nth_error_mapi in Hr. destruct (nth_error m c) as [r|] eqn:E; [|discriminate].
  injection Hr as <-. rewrite mapi_length. apply H. eapply nth_error_In; exact E.
Qed.
Lemma rect_concat {A} n k (m : list (list A)) : rect n k m -> length (concat m) = (n * k)%nat.
Proof.
  intros [H1 H2]. subst n. induction m as [|row m IH]; [reflexivity|]. cbn [concat length]. rewrite app_length, IH, (H2 row).
  - cbn; lia.
  - left; reflexivity.
  - intros r Hr. apply H2. right; exact Hr.
Qed.
Lemma mesh_well_meshed w sections m : mesh_wing w (count_spanwise sections (ms_symmetric w)) sections = Ok m ->
  well_meshed m /\ rect (ms_num_chordwise w) (count_spanwise sections (ms_symmetric w)) m.
Proof.
  intros H. apply mesh_wing_layout in H. destruct H as (m0 & HL & ->). destruct (layout_rect _ _ _ HL) as [HR HF].
  set (ns := count_spanwise _ _) in *. assert (HP := positions_rect ns _ _ _ HR). split; [|exact HP]. split.
  - intros row Hrow. rewrite (proj2 HP row Hrow). destruct (set_positions ns m0) as [|r ms] eqn:E; [destruct Hrow|].
    symmetry. apply HP. left; reflexivity.
  - intros c row s p Hc Hs. assert (Hp : cell (set_positions ns m0) c s p) by (exists row; auto).
    assert (Lr : length row = ns) by (apply HP; eapply nth_error_In; exact Hc).
    apply cell_positions in Hp. destruct Hp as (q & Hq & ->). destruct (HF _ _ _ Hq) as [F1 F2].
    rewrite (proj1 HP), Lr. repeat split; assumption.
Qed.

(** ** Shared edges *)
Definition spanwise_ok (m : list (list panel)) : Prop := forall c s p q, cell m c s p -> cell m c (S s) q -> shares_edge p q.
Definition chordwise_ok (m : list (list panel)) : Prop := forall c s p q, cell m c s p -> cell m (S c) s q ->
  p_back_left p = p_front_left q /\ p_back_right p = p_front_right q.
Definition starts (m : list (list panel)) (A : list vec) : Prop := forall c p, cell m c 0 p ->
  nth_error A c = Some (p_front_left p) /\ nth_error A (S c) = Some (p_back_left p).
Definition ends (k : nat) (m : list (list panel)) (A : list vec) : Prop := forall c s p, S s = k -> cell m c s p ->
  nth_error A c = Some (p_front_right p) /\ nth_error A (S c) = Some (p_back_right p).
Lemma spanwise_hstack n k l a b A : rect n k a -> rect n l b -> spanwise_ok a -> spanwise_ok b -> ends k a A -> starts b A ->
  spanwise_ok (hstack a b).
Proof.
  intros HA HB Sa Sb HE HS c s p q Hp Hq. apply (cell_hstack _ _ _ _ _ _ _ _ HA HB) in Hp, Hq.
  destruct Hp as [[Hs Hp]|[Hs Hp]], Hq as [[Hs' Hq]|[Hs' Hq]]; try lia.
  - eapply Sa; eassumption.
  - assert (E : S s = k) by lia. replace (S s - k)%nat with 0%nat in Hq by lia.
    destruct (HE _ _ _ E Hp) as [E1 E2]. destruct (HS _ _ Hq) as [E3 E4]. split; congruence.
  - replace (S s - k)%nat with (S (s - k)) in Hq by lia. eapply Sb; eassumption.
Qed.
Lemma chordwise_hstack n k l a b : rect n k a -> rect n l b -> chordwise_ok a -> chordwise_ok b -> chordwise_ok (hstack a b).
Proof.
  intros HA HB Sa Sb c s p q Hp Hq. apply (cell_hstack _ _ _ _ _ _ _ _ HA HB) in Hp, Hq.
  destruct Hp as [[Hs Hp]|[Hs Hp]], Hq as [[Hs' Hq]|[Hs' Hq]]; try lia; eauto.
Qed.
Lemma starts_hstack n k l a b A : rect n k a -> rect n l b -> (1 <= k)%nat -> starts a A -> starts (hstack a b) A.
Proof.
  intros HA HB Hk H c p Hp. apply (cell_hstack _ _ _ _ _ _ _ _ HA HB) in Hp. destruct Hp as [[_ Hp]|[Hs _]]; [eauto | lia].
Qed.
Lemma strip_edges w i o d m : strip w i o d = Ok m ->
  spanwise_ok m /\ chordwise_ok m /\
  forall A B, camber_points (ms_leading_edge w) (fractions w) i d (cs_control_surface_hinge_point i) = Ok A ->
    camber_points (ms_leading_edge w) (fractions w) o d (cs_control_surface_hinge_point i) = Ok B ->
    starts m A /\ ((1 <= cs_num_spanwise_panels i)%nat -> ends (cs_num_spanwise_panels i) m B).
Proof.
  intros H. destruct (strip_cells _ _ _ _ _ H) as (P & Q & HP & HQ & HR & HC). repeat split.
  - destruct (HC _ _ _ H0) as (a & b & a' & b' & t & t' & A1 & A2 & A3 & A4 & T1 & T2 & ->).
    destruct (HC _ _ _ H1) as (a1 & b1 & a1' & b1' & t1 & t1' & B1 & B2 & B3 & B4 & U1 & U2 & ->). cbn [new_panel p_front_left p_front_right p_back_left p_back_right].
    congruence.
  - destruct (HC _ _ _ H0) as (a & b & a' & b' & t & t' & A1 & A2 & A3 & A4 & T1 & T2 & ->).
    destruct (HC _ _ _ H1) as (a1 & b1 & a1' & b1' & t1 & t1' & B1 & B2 & B3 & B4 & U1 & U2 & ->). cbn [new_panel p_front_left p_front_right p_back_left p_back_right].
    congruence.
  - destruct (HC _ _ _ H0) as (a & b & a' & b' & t & t' & A1 & A2 & A3 & A4 & T1 & T2 & ->).
    destruct (HC _ _ _ H1) as (a1 & b1 & a1' & b1' & t1 & t1' & B1 & B2 & B3 & B4 & U1 & U2 & ->). cbn [new_panel p_front_left p_front_right p_back_left p_back_right].
    congruence.
  - destruct (HC _ _ _ H0) as (a & b & a' & b' & t & t' & A1 & A2 & A3 & A4 & T1 & T2 & ->).
    destruct (HC _ _ _ H1) as (a1 & b1 & a1' & b1' & t1 & t1' & B1 & B2 & B3 & B4 & U1 & U2 & ->). cbn [new_panel p_front_left p_front_right p_back_left p_back_right].
    congruence.
  - destruct (HC _ _ _ H2) as (a & b & a' & b' & t & t' & A1 & A2 & A3 & A4 & T1 & T2 & ->). cbn [new_panel p_front_left p_front_right p_back_left p_back_right].
    rewrite spaced_first in T1 by lia. injection T1 as <-. rewrite along_0. congruence.
  - destruct (HC _ _ _ H2) as (a & b & a' & b' & t & t' & A1 & A2 & A3 & A4 & T1 & T2 & ->). cbn [new_panel p_front_left p_front_right p_back_left p_back_right].
    rewrite spaced_first in T1 by lia. injection T1 as <-. rewrite along_0. congruence.
  - destruct (HC _ _ _ H4) as (a & b & a' & b' & t & t' & A1 & A2 & A3 & A4 & T1 & T2 & ->). cbn [new_panel p_front_left p_front_right p_back_left p_back_right].
    rewrite H3, spaced_last in T2 by exact H2. injection T2 as <-. rewrite along_1. congruence.
  - destruct (HC _ _ _ H4) as (a & b & a' & b' & t & t' & A1 & A2 & A3 & A4 & T1 & T2 & ->). cbn [new_panel p_front_left p_front_right p_back_left p_back_right].
    rewrite H3, spaced_last in T2 by exact H2. injection T2 as <-. rewrite along_1. congruence.
Qed.
Lemma strips_chordwise w d sections ms : strips_ok w d sections ms -> chordwise_ok (hcat (ms_num_chordwise w) ms).
Proof.
  revert ms; induction sections as [|i [|o tail] IH]; intros ms H.
  1, 2: inversion H; subst; intros c s p q Hp; destruct (cell_repeat _ _ _ _ Hp).
  apply strips_cons in H. destruct H as (m & ms' & -> & Hm & Hms).
  cbn [hcat]. destruct (strip_cells _ _ _ _ _ Hm) as (P & Q & _ & _ & HR & _).
  eapply chordwise_hstack; [exact HR | apply (strips_rect _ _ _ _ Hms) | apply (strip_edges _ _ _ _ _ Hm) | apply IH; exact Hms].
Qed.
Lemma strips_spanwise w d sections ms : strips_ok w d sections ms ->
  (forall i o, In (i, o) (adjacent sections) -> (1 <= cs_num_spanwise_panels i)%nat) ->
  flaps_agree (ms_leading_edge w) (fractions w) d sections ->
  spanwise_ok (hcat (ms_num_chordwise w) ms) /\
  forall root A, nth_error sections 0 = Some root ->
    camber_points (ms_leading_edge w) (fractions w) root (d root) (cs_control_surface_hinge_point root) = Ok A ->
    starts (hcat (ms_num_chordwise w) ms) A.
Proof.
  revert ms; induction sections as [|i [|o tail] IH]; intros ms H HK HF.
  1, 2: inversion H; subst; split; [intros c s p q Hp; destruct (cell_repeat _ _ _ _ Hp) | intros root A _ _ c p Hp; destruct (cell_repeat _ _ _ _ Hp)].
  apply strips_cons in H. destruct H as (m & ms' & -> & Hm & Hms).
  cbn [hcat]. destruct (strip_cells _ _ _ _ _ Hm) as (P & Q & HP & HQ & HR & _).
  destruct (strip_edges _ _ _ _ _ Hm) as (S1 & _ & S2). destruct (S2 _ _ HP HQ) as [S3 S4].
  assert (Hk : (1 <= cs_num_spanwise_panels i)%nat) by (apply (HK i o); left; reflexivity). specialize (S4 Hk).
  destruct (strips_rect _ _ _ _ Hms) as [R1 _].
  destruct (IH ms' Hms) as [I1 I2].
  { intros i' o' Hin. apply (HK i' o'). right; exact Hin. }
  { intros k a b c Ha Hb Hc. apply (HF (S k) a b c); assumption. }
  split.
  - destruct tail as [|o2 tail].
    + inversion Hms; subst. cbn [hcat]. rewrite hstack_nil_r by (apply HR). exact S1.
    + eapply spanwise_hstack; [exact HR | exact R1 | exact S1 | exact I1 | exact S4 |].
      apply (I2 o Q eq_refl). rewrite <- (HF 0%nat i o o2 eq_refl eq_refl eq_refl). exact HQ.
  - intros root A [= <-] HA. eapply starts_hstack; [exact HR | exact R1 | exact Hk |]. replace A with P by congruence. exact S3.
Qed.
Lemma flip_chordwise w n k m : rect n k m -> chordwise_ok m -> chordwise_ok (flip w m).
Proof.
  intros HM H c s p q Hp Hq. apply (cell_flip _ _ _ _ _ _ _ HM) in Hp, Hq.
  destruct Hp as (_ & p' & Hp & ->), Hq as (_ & q' & Hq & ->). cbn. destruct (H _ _ _ _ Hp Hq) as [-> ->]. auto.
Qed.
Lemma flip_spanwise w n k m : rect n k m -> spanwise_ok m -> spanwise_ok (flip w m).
Proof.
  intros HM H c s p q Hp Hq. apply (cell_flip _ _ _ _ _ _ _ HM) in Hp, Hq.
  destruct Hp as (_ & p' & Hp & ->), Hq as (Hs & q' & Hq & ->). unfold shares_edge; cbn.
  replace (k - 1 - s)%nat with (S (k - 1 - S s)) in Hp by lia. destruct (H _ _ _ _ Hq Hp) as [-> ->]. auto.
Qed.
Lemma flip_ends w n k m A : rect n k m -> starts m A -> ends k (flip w m) (map (reflect w) A).
Proof.
  intros HM H c s p Hs Hp. apply (cell_flip _ _ _ _ _ _ _ HM) in Hp. destruct Hp as (_ & q & Hq & ->). cbn [mirror_panel new_panel p_front_left p_front_right p_back_left p_back_right].
  replace (k - 1 - s)%nat with 0%nat in Hq by lia. destruct (H _ _ Hq) as [E1 E2]. rewrite !nth_error_map, E1, E2. auto.
Qed.
Lemma layout_chordwise w sections m : layout w sections m -> chordwise_ok m.
Proof.
  intros (rights & lefts & H1 & _ & H3 & ->). destruct (strips_rect _ _ _ _ H1) as [R1 _]. destruct (ms_symmetric w).
  - destruct H3 as [H3 _]. destruct (strips_rect _ _ _ _ H3) as [L1 _].
    eapply chordwise_hstack; [apply flip_rect; exact L1 | exact R1 | eapply flip_chordwise; [exact L1|] |]; eapply strips_chordwise; eassumption.
  - subst lefts. cbn [hcat]. rewrite flip_repeat, hstack_nil_l by (apply R1). eapply strips_chordwise; eassumption.
Qed.
Lemma layout_spanwise w sections m : layout w sections m ->
  (forall i o, In (i, o) (adjacent sections) -> (1 <= cs_num_spanwise_panels i)%nat) ->
  flaps_agree (ms_leading_edge w) (fractions w) cs_control_surface_deflection sections ->
  (ms_symmetric w = true ->
     flaps_agree (ms_leading_edge w) (fractions w) port_deflection sections /\
     forall root A, nth_error sections 0 = Some root ->
       camber_points (ms_leading_edge w) (fractions w) root (cs_control_surface_deflection root) (cs_control_surface_hinge_point root) = Ok A ->
       port_deflection root = cs_control_surface_deflection root /\ map (reflect w) A = A) ->
  spanwise_ok m.
Proof.
  intros (rights & lefts & H1 & _ & H3 & ->) HK HF HS. destruct (strips_rect _ _ _ _ H1) as [R1 _].
  destruct (strips_spanwise _ _ _ _ H1 HK HF) as [S1 S2]. destruct (ms_symmetric w).
  - destruct H3 as [H3 _]. destruct (HS eq_refl) as [HFp HR]. destruct (strips_rect _ _ _ _ H3) as [L1 _].
    destruct (strips_spanwise _ _ _ _ H3 HK HFp) as [T1 T2].
    destruct sections as [|i [|o tail]].
    1, 2: inversion H3; subst; inversion H1; subst; cbn [hcat]; rewrite flip_repeat, hstack_nil_l by (apply repeat_length); exact S1.
    destruct (strips_cons _ _ _ _ _ _ H1) as (m & ms' & _ & Hm & _).
    destruct (strip_cells _ _ _ _ _ Hm) as (P & Q & HP & _ & _ & _).
    destruct (HR i P eq_refl HP) as [E1 E2].
    eapply spanwise_hstack with (A := P); [apply flip_rect; exact L1 | exact R1 | eapply flip_spanwise; [exact L1 | exact T1] | exact S1 | |].
    + rewrite <- E2. eapply flip_ends; [exact L1|]. apply (T2 i P eq_refl). rewrite E1. exact HP.
    + apply (S2 i P eq_refl HP).
  - subst lefts. cbn [hcat]. rewrite flip_repeat, hstack_nil_l by (apply R1). exact S1.
Qed.
