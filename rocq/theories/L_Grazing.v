(** Wings that only graze the stream: the steady solvers. *)
From Coq Require Import List ZArith Lia Lra Bool Reals.
From Verif Require Import M_Unsteady M_Horseshoe M_SteadyRing S_Solve S_Loads S_Mirror S_Streamlines S_Unsteady S_UnsteadyRun S_Solvable S_Grazing L_Base L_Loads L_Aero L_Horseshoe L_SteadyRing L_RingLegs L_Frames
  L_Geometry L_Mirror L_MirrorHorseshoe L_Tighten L_Solvable.
Import ListNotations.
Local Open Scope R_scope.
Local Open Scope list_scope.

(** ** Zero in, zero out *)
Lemma matvec_zeros a x : (forall g, In g x -> g = 0) -> forall g, In g (matvec a x) -> g = 0.
Proof.
  intros H g Hg. unfold matvec in Hg. apply in_map_iff in Hg. destruct Hg as (row & <- & _). revert row. induction x as [|y x IH]; intros [|b row]; try reflexivity.
  cbn [map2]. rewrite rsum_cons, (H y) by (left; reflexivity). rewrite IH by (intros z Hz; apply H; right; exact Hz). ring.
Qed.
Lemma zeros_same (l m : list R) : length l = length m -> (forall g, In g l -> g = 0) -> (forall g, In g m -> g = 0) -> l = m.
Proof. intros L Hl Hm. rewrite (proj1 (all_zero l) Hl), (proj1 (all_zero m) Hm), L. reflexivity. Qed.
Lemma solve_zero solve a b x : SolveSpec solve -> square a -> length b = length a -> solve a b = Ok x ->
  ((forall g, In g b -> g = 0) <-> (forall g, In g x -> g = 0)).
Proof.
  intros HS Ha Lb E. apply HS in E; [|exact Ha | exact Lb]. destruct E as [[Lx M] U]. split.
  - intros Hb. assert (Z : forall g, In g (repeat 0 (length a)) -> g = 0) by apply repeat_spec. rewrite <- (U (repeat 0 (length a))); [exact Z|].
    split; [apply repeat_length|]. apply zeros_same; [unfold matvec; rewrite map_length; symmetry; exact Lb | apply matvec_zeros; exact Z | exact Hb].
  - intros Hx. rewrite <- M. apply matvec_zeros. exact Hx.
Qed.
Lemma freestream_zero ns v : (forall g, In g (map Ropp (freestream_influences ns v)) -> g = 0) <-> forall n, In n ns -> vdot v n = 0.
Proof.
  unfold freestream_influences. rewrite map_map. split.
  - intros H n Hn. specialize (H (- vdot n v)). rewrite vdot_comm. apply Ropp_eq_0_compat in H; [rewrite Ropp_involutive in H; exact H|].
    apply in_map_iff. exists n. auto.
  - intros H g Hg. apply in_map_iff in Hg. destruct Hg as (n & <- & Hn). rewrite vdot_comm, (H n Hn). ring.
Qed.

(** ** Loads *)
Lemma vsum_zeros l : (forall v, In v l -> v = vzero) -> vsum l = vzero.
Proof. intros H. induction l as [|v l IH]; [reflexivity|]. rewrite vsum_cons, (H v), IH; [apply vec_ext; cbn; ring | |]; intros; try apply H; [right; assumption | left; reflexivity]. Qed.
Lemma unloaded_from op a fms a' : totalled op a fms a' ->
  (forall p, In p (airplane_panels a') -> p_force_geometry p = Some vzero /\ p_moment_geometry p = Some vzero) -> unloaded op a'.
Proof.
  intros (HA & EP & L & Ef & Em & Ecf & Ecm) HP. assert (HZ : forall fm, In fm fms -> fm = (vzero, vzero)).
  { intros fm Hfm. apply In_nth_error in Hfm. destruct Hfm as [i Hi]. assert (Hlt : (i < length (airplane_panels a))%nat) by (rewrite <- L; apply nth_error_Some; congruence).
    destruct (nth_error (airplane_panels a) i) as [p|] eqn:Ep; [|apply nth_error_None in Ep; lia].
    destruct (HP (loaded op p fm)) as [H1 H2]; [rewrite EP; apply (nth_error_In _ i); rewrite nth_error_map2, Ep, Hi; reflexivity|].
    cbn in H1, H2. apply Some_eq in H1, H2. destruct fm; cbn in *; congruence. }
  assert (F0 : vsum (map fst fms) = vzero) by (apply vsum_zeros; intros v Hv; apply in_map_iff in Hv; destruct Hv as (fm & <- & Hv); rewrite (HZ _ Hv); reflexivity).
  assert (M0 : vsum (map snd fms) = vzero) by (apply vsum_zeros; intros v Hv; apply in_map_iff in Hv; destruct Hv as (fm & <- & Hv); rewrite (HZ _ Hv); reflexivity).
  rewrite F0, mvmul_zero in Ef, Ecf. rewrite M0, mvmul_zero in Em, Ecm.
  assert (ER : a_s_ref a' = a_s_ref a /\ a_b_ref a' = a_b_ref a /\ a_c_ref a' = a_c_ref a) by (destruct HA as (_ & _ & _ & _ & H1 & H2 & H3 & _); auto).
  destruct ER as (R1 & R2 & R3). unfold unloaded. rewrite R1, R2, R3. split; [|split; [exact Ef | split; [exact Em | split]]].
  - intros p Hp. rewrite EP in Hp. apply In_nth_error in Hp. destruct Hp as [i Hi]. rewrite nth_error_map2 in Hi.
    destruct (nth_error (airplane_panels a) i) as [p0|]; [|discriminate]. destruct (nth_error fms i) as [fm|] eqn:Efm; [|discriminate]. apply Some_eq in Hi. subst p.
    rewrite (HZ fm) by (eapply nth_error_In; exact Efm). unfold unloaded_panel, loaded. cbn [p_set_loads p_force_geometry p_moment_geometry p_force_wind p_moment_wind fst snd p_induced_drag_coefficient p_side_force_coefficient p_lift_coefficient].
    rewrite mvmul_zero. repeat split. all: intros; cbn [vx vy vz vzero]; f_equal; unfold p_area; cbn; unfold Rdiv; ring.
  - intros _ _. rewrite Ecf. f_equal. apply vec_ext; cbn; unfold Rdiv; ring.
  - intros _ _ _ _. rewrite Ecm. f_equal. apply vec_ext; cbn; unfold Rdiv; ring.
Qed.

(** ** Streamlines *)
Lemma traced_straight velocity v seeds lines : uniform velocity v -> traced velocity seeds lines -> straight_on v seeds lines.
Proof.
  intros HU (L & H0 & HN). unfold straight_on. apply nth_error_ext. intros i. rewrite nth_error_map.
  assert (G : forall i, (i < 26)%nat -> nth_error lines i = Some (map (fun x => vadd x (vscale (INR i * (2 / 100)) v)) seeds)).
  { clear i. induction i as [|i IH]; intros Hi.
    - rewrite H0. f_equal. rewrite <- (map_id seeds) at 1. apply map_ext. intros x. cbn [INR]. apply vec_ext; cbn; ring.
    - specialize (IH ltac:(lia)). destruct (nth_error lines (S i)) as [next|] eqn:E; [|apply nth_error_None in E; lia]. f_equal.
      rewrite (HN i _ next IH E), HU, map_map, map2_map_map. apply map_ext. intros x. rewrite S_INR. apply vec_ext; cbn; ring. }
  destruct (Nat.lt_ge_cases i 26) as [Hi|Hi].
  - rewrite (G i Hi), nth_error_seq0. destruct (Nat.ltb_spec i 26); [reflexivity | lia].
  - rewrite (proj2 (nth_error_None lines i)) by lia. rewrite (proj2 (nth_error_None (seq 0 26) i)) by (rewrite seq_length; lia). reflexivity.
Qed.

(** ** The horseshoe solver *)
Lemma all_some {A} (ps : list A) f (xs : list R) : map f ps = map Some xs -> ((forall p, In p ps -> f p = Some 0) <-> forall g, In g xs -> g = 0).
Proof.
  revert xs. induction ps as [|p ps IH]; intros [|x xs] E; try discriminate; [split; intros _ ? []|]. cbn [map] in E. apply cons_eq' in E. destruct E as [E1 E2]. apply Some_eq in E1 || idtac.
  destruct (IH xs E2) as [I1 I2]. split.
  - intros H g [<-|Hg]; [specialize (H p (or_introl eq_refl)); congruence | apply I1; [intros q Hq; apply H; right; exact Hq | exact Hg]].
  - intros H q [<-|Hq]; [rewrite E1, (H x) by (left; reflexivity); reflexivity | apply I2; [intros g Hg; apply H; right; exact Hg | exact Hq]].
Qed.
Lemma same_grazes op l m : Forall2 same_airplane l m -> ((forall p, In p (panels_of l) -> grazes op p) <-> forall p, In p (panels_of m) -> grazes op p).
Proof.
  rewrite !panels_of_all. intros F. apply same_all_panels in F. induction F as [|p q ps qs H F IH]; [tauto|].
  assert (E : grazes op p <-> grazes op q) by (unfold grazes; rewrite (proj2 (same_panel_collocation _ _ H)); tauto).
  destruct IH as [I1 I2]. split; intros G x [<-|Hx].
  - apply E, G. left. reflexivity.
  - apply I1; [intros y Hy; apply G; right; exact Hy | exact Hx].
  - apply E, G. left. reflexivity.
  - apply I2; [intros y Hy; apply G; right; exact Hy | exact Hx].
Qed.
Lemma hs_zero solve airplanes op s : SolveSpec solve -> hs_run solve (hs_new airplanes op) = Ok s ->
  ((forall p, In p (panels_of airplanes) -> grazes op p) <-> forall g, In g (hso_strengths s) -> g = 0).
Proof.
  intros HS E. apply hs_run_inv in E. destruct E as (_ & _ & _ & E & _). cbn [hs_new hso_op hso_airplanes hso_freestream] in E.
  set (rows := hs_rows_of op airplanes) in *. rewrite <- (solve_zero solve _ _ _ HS (hs_system_square rows) (hs_system_length rows _) E), freestream_zero.
  rewrite panels_of_all, <- flat_panels_snd. unfold rows, hs_rows_of, grazes. rewrite !map_map. split.
  - intros H n Hn. apply in_map_iff in Hn. destruct Hn as ([[a w] p] & <- & Hp). apply (H p). apply in_map_iff. exists (a, w, p). auto.
  - intros H p Hp. apply in_map_iff in Hp. destruct Hp as ([[a w] p'] & <- & Hp). apply H. apply in_map_iff. exists (a, w, p'). split; [reflexivity | exact Hp].
Qed.
Lemma horseshoe_grazing solve airplanes op s : SolveSpec solve -> hs_run solve (hs_new airplanes op) = Ok s ->
  ((forall p, In p (panels_of airplanes) -> grazes op p) <-> forall p, In p (panels_of (hso_airplanes s)) -> horseshoe_strength p = Some 0).
Proof.
  intros HS E. rewrite (hs_zero _ _ _ _ HS E), (panels_of_all (hso_airplanes s)). symmetry. apply all_some. exact (hs_final_strengths _ _ _ HS E).
Qed.
Lemma zero_terms {A} (f : A * R -> vec) (rows : list A) xs : (forall g, In g xs -> g = 0) -> (forall r, f (r, 0) = vzero) -> vsum (map f (combine rows xs)) = vzero.
Proof. intros H H0. apply vsum_zeros. intros v Hv. apply in_map_iff in Hv. destruct Hv as ([r g] & <- & Hv). apply in_combine_r in Hv. rewrite (H _ Hv). apply H0. Qed.
Lemma vadd_0_l' v : vadd vzero v = v.
Proof. apply vec_ext; cbn; ring. Qed.
Lemma shoe_zero x br fr fl bl nu : shoe_velocity x br fr fl bl 0 0 nu = vzero.
Proof. unfold shoe_velocity. rewrite !line_velocity_zero_strength. apply vec_ext; cbn; ring. Qed.
Lemma quad_zero x br fr fl bl age nu : quad_velocity x br fr fl bl 0 age nu = vzero.
Proof. unfold quad_velocity. rewrite !line_velocity_zero_strength. apply vec_ext; cbn; ring. Qed.
Lemma horseshoe_unloaded solve airplanes op s : SolveSpec solve -> hs_run solve (hs_new airplanes op) = Ok s ->
  (forall p, In p (panels_of airplanes) -> grazes op p) ->
  (forall a, In a (hso_airplanes s) -> unloaded op a) /\
  uniform (hs_solution_velocity s) (freestream_velocity op) /\
  exists lines, hso_streamline_points s = Some lines /\ straight_on (freestream_velocity op) (trailing_midpoints (all_panels (hso_airplanes s))) lines.
Proof.
  intros HS E HG. pose proof (proj1 (horseshoe_grazing _ _ _ _ HS E) HG) as HZ. pose proof (proj1 (hs_zero _ _ _ _ HS E) HG) as HX.
  assert (HU : uniform (hs_solution_velocity s) (freestream_velocity op)).
  { intros points. destruct (hs_solution_length _ _ _ HS E) as [Lx _]. unfold hs_solution_velocity. rewrite hs_velocity_explicit by exact Lx. apply map_ext. intros x.
    assert (Ev : hso_freestream s = freestream_velocity op) by (apply hs_run_inv in E; destruct E as (_ & -> & _); reflexivity). rewrite Ev. unfold hs_velocity_at. rewrite zero_terms; [apply vadd_0_l' | exact HX|].
    intros r. cbn [fst snd]. unfold hs_row_velocity. apply shoe_zero. }
  split; [|split; [exact HU|]].
  - intros a Ha. pose proof E as E'. apply hs_run_inv in E'. destruct E' as (_ & _ & _ & _ & _ & _ & a1 & _ & Ep). cbn [hs_new hso_op] in Ep. apply process_forces_sound in Ep. destruct Ep as (us & rest & _ & F).
    apply In_nth_error in Ha. destruct Ha as [i Hi]. assert (X : exists b fms, totalled op b fms a).
    { revert i Hi. clear -F. induction F as [|b fms a' bs fs as' H F IH]; intros [|i] Hi; try discriminate; [cbn in Hi; apply Some_eq in Hi; subst; eauto | exact (IH i Hi)]. }
    destruct X as (b & fms & HT). apply (unloaded_from op b fms a HT). intros p Hp. apply nth_error_In in Hi.
    specialize (HZ p). rewrite panels_of_all in HZ. specialize (HZ (proj2 (in_all_panels _ _) (ex_intro _ a (conj Hi Hp)))). unfold horseshoe_strength in HZ.
    destruct (p_horseshoe_vortex p) as [h|] eqn:Eh; [|discriminate]. cbn in HZ. apply Some_eq in HZ. exact (hs_no_load _ _ _ HS E a p h Hi Hp Eh HZ).
  - destruct (hs_streamlines _ _ _ _ E) as (lines & El & HT). exists lines. split; [exact El|]. exact (traced_straight _ _ _ _ HU HT).
Qed.

(** ** The ring solver *)
Lemma ring_zero solve airplanes op s : SolveSpec solve -> fresh_ring (ring_new airplanes op) -> ring_run solve (ring_new airplanes op) = Ok s ->
  ((forall p, In p (panels_of airplanes) -> grazes op p) <-> forall g, In g (rso_strengths s) -> g = 0).
Proof.
  intros HS [F1 F2] E. pose proof (ring_rows_count _ _ _ E) as Lc. pose proof (ring_rows_ok _ _ _ E) as Fr.
  apply ring_run_inv in E. destruct E as (a0 & a1 & loads & Ei & Ec & _ & _ & _ & Ex & _). cbn [ring_new rso_op rso_airplanes rso_freestream] in *.
  rewrite F1, F2 in Ex. rewrite ring_influences_explicit in Ex by auto. set (rows := rso_rows s) in *.
  match type of Ex with solve ?a ?b = _ => assert (Sq : square a) by apply square_map_map; assert (Lb : length b = length a) by (unfold freestream_influences; rewrite !map_length; reflexivity) end.
  rewrite <- (solve_zero solve _ _ _ HS Sq Lb Ex), freestream_zero, (same_grazes op _ _ (ring_init_same _ _ _ Ei)), panels_of_all, <- (ring_collapse_panels _ _ Ec).
  fold rows. unfold grazes. split.
  - intros H n Hn. apply in_map_iff in Hn. destruct Hn as (r & <- & Hr). apply (H (rr_panel r)). apply in_map. exact Hr.
  - intros H p Hp. apply in_map_iff in Hp. destruct Hp as (r & <- & Hr). apply (H (rr_normal r)). apply in_map. exact Hr.
Qed.
Lemma ring_grazing solve airplanes op s : SolveSpec solve -> fresh_ring (ring_new airplanes op) -> ring_run solve (ring_new airplanes op) = Ok s ->
  ((forall p, In p (panels_of airplanes) -> grazes op p) <-> forall p, In p (panels_of (rso_airplanes s)) -> ring_strength p = Some 0).
Proof.
  intros HS HF E. rewrite (ring_zero _ _ _ _ HS HF E), (panels_of_all (rso_airplanes s)). symmetry. apply all_some. exact (ring_final_strengths _ _ _ HS (fresh_sized _ HF) E).
Qed.
Lemma ring_unloaded solve airplanes op s : SolveSpec solve -> fresh_ring (ring_new airplanes op) ->
  (forall a w, In a airplanes -> In w (a_wings a) -> well_meshed (w_panels w)) -> ring_run solve (ring_new airplanes op) = Ok s ->
  (forall p, In p (panels_of airplanes) -> grazes op p) ->
  (forall a, In a (rso_airplanes s) -> unloaded op a) /\
  uniform (ring_solution_velocity s) (freestream_velocity op) /\
  exists lines, rso_streamline_points s = Some lines /\ straight_on (freestream_velocity op) (trailing_midpoints (all_panels (rso_airplanes s))) lines.
Proof.
  intros HS HF HM E HG. pose proof (proj1 (ring_grazing _ _ _ _ HS HF E) HG) as HZ. pose proof (proj1 (ring_zero _ _ _ _ HS HF E) HG) as HX.
  assert (HU : uniform (ring_solution_velocity s) (freestream_velocity op)).
  { destruct (ring_solution _ _ _ HS HF E) as (Lx & Lh & Hv & _). assert (Ev : rso_freestream s = freestream_velocity op) by (apply ring_run_inv in E; destruct E as (? & ? & ? & _ & _ & _ & -> & _); reflexivity).
    intros points. unfold ring_solution_velocity. rewrite ring_velocity_explicit by assumption. apply map_ext. intros x. specialize (Hv x). unfold ring_solution_velocity in Hv. rewrite ring_velocity_explicit in Hv by assumption.
    cbn [map] in Hv. apply cons_eq' in Hv. destruct Hv as [Hv _]. etransitivity; [exact Hv|]. rewrite Ev, zero_terms; [apply vadd_0_l' | exact HX|].
    intros r. cbn [fst snd]. unfold ring_row_velocity. rewrite quad_zero, shoe_zero. apply vec_ext; cbn; ring. }
  split; [|split; [exact HU|]].
  - intros a Ha. pose proof E as E'. apply ring_run_inv in E'. destruct E' as (a0 & a1 & loads & _ & _ & _ & _ & _ & _ & _ & _ & _ & Ep). cbn [ring_new rso_op] in Ep. apply process_forces_sound in Ep. destruct Ep as (us & rest & _ & F).
    apply In_nth_error in Ha. destruct Ha as [i Hi]. assert (X : exists b fms, totalled op b fms a).
    { revert i Hi. clear -F. induction F as [|b fms a' bs fs as' H F IH]; intros [|i] Hi; try discriminate; [cbn in Hi; apply Some_eq in Hi; subst; eauto | exact (IH i Hi)]. }
    destruct X as (b & fms & HT). apply (unloaded_from op b fms a HT). intros p Hp. apply nth_error_In in Hi.
    apply in_airplane_panels in Hp. destruct Hp as (w & Hw & Hp). apply in_ravel_position in Hp. destruct Hp as (c & j & Hp).
    assert (HC : forall c' j', circulation (w_panels w) c' j' = 0).
    { intros c' j'. unfold circulation. destruct (nth_error (w_panels w) c') as [row|] eqn:Er; [|reflexivity]. destruct (nth_error row j') as [q|] eqn:Eq; [|reflexivity].
      assert (Hq : In q (all_panels (rso_airplanes s))).
      { apply in_all_panels. exists a. split; [exact Hi|]. apply in_airplane_panels. exists w. split; [exact Hw|]. apply in_ravel_position. exists c', j', row. auto. }
      rewrite <- panels_of_all in Hq. specialize (HZ q Hq). unfold ring_strength in HZ. destruct (p_ring_vortex q); [|discriminate]. cbn in HZ. apply Some_eq in HZ. exact HZ. }
    apply (ring_no_load _ _ _ HS (fresh_sized _ HF) HM E a w c j p Hi Hw Hp); unfold net_right, net_front, net_left; [|destruct c | destruct j]; rewrite ?HC; ring.
  - destruct (ring_streamlines _ _ _ _ E) as (lines & El & HT). exists lines. split; [exact El|]. exact (traced_straight _ _ _ _ HU HT).
Qed.
