(** Runs of a problem and of its image, step by step. *)
From Coq Require Import List ZArith Lia Lra Reals Bool Permutation.
From Verif Require Import M_Unsteady S_Solve S_Vortices S_Loads S_Mirror S_Rigid
  L_Base L_Loads L_Aero L_Horseshoe L_SteadyRing L_Frames L_Mirror L_MirrorHorseshoe L_MirrorRing L_Rigid L_Wake L_WakeWings L_Unsteady L_UnsteadyStep L_UnsteadyRun L_UnsteadyFlow
  L_UnsteadyProps L_UnsteadyProps2 L_UnsteadyLoads L_UnsteadyFinal S_Unsteady S_UnsteadyRun S_Image L_Pairs L_ImageGeometry L_ImagePlaces L_ImageWake L_ImageSteps L_ImageFlow L_UnsteadyStill L_ImageNets.
Import ListNotations.
Local Open Scope R_scope.
Local Open Scope list_scope.

Lemma add_swap (u v w : vec) : vadd (vadd u v) w = vadd (vadd u w) v. Proof. vring. Qed.

Lemma scale_zero k : vscale k vzero = vzero. Proof. vring. Qed.

Section Runs.
Context (solve : list (list R) -> list R -> result (list R)) (HS : SolveSpec solve) (prescribed mirror : bool) (m : mat) (t : vec) (HI : isometric mirror m) (pr : pairing).
Context (up up' : unsteady_problem) (HC : created up) (HC' : created up') (HP : problem_image mirror m t pr up up').
Context (F F' : list (list (nat * nat))) (HM : meshed_problem F up) (HM' : meshed_problem F' up').
Context (g f : nat -> nat) (Hg : pairs g (fun _ x y => y = wimage pr x) (wplaces F) (wplaces F')) (Hf : pairs f (fun _ x y => y = pimage pr F x) (places F) (places F')).
Notation mv := (moved m t).
Notation lin := (mvmul m).
Notation sg := (sense mirror).
Notation geo := (geo mirror m t pr F F').
Definition kw (i : nat) : bool := match nth_error (wplaces F) i with Some x => wkeeps pr x | None => true end.
Definition kp (i : nat) : bool := match nth_error (places F) i with Some x => pkeeps pr x | None => true end.

(** ** Between lists of wings or panels and airplanes *)
Lemma flat_w W sp sp' : geo sp sp' -> airplanes_image m t pr W (sp_airplanes sp) (sp_airplanes sp') -> pairs g (fun i => W (kw i)) (step_wings sp) (step_wings sp').
Proof.
  intros G H. pose proof (proj1 (ge_ready _ _ _ _ _ _ _ _ G)) as E. pose proof (proj1 (ge_ready' _ _ _ _ _ _ _ _ G)) as E'.
  assert (X : pairs g (fun _ x y => y = wimage pr x) (wplaces (layout (sp_airplanes sp))) (wplaces (layout (sp_airplanes sp')))) by (rewrite E, E'; exact Hg).
  apply (pairs_impl g _ _ _ _ (flat_wings pr m t _ _ W g X H)). intros i w w' _ _ (x & Hx & _ & _ & HW). rewrite E in Hx. unfold kw. rewrite Hx. exact HW.
Qed.
Lemma flat_p P sp sp' : geo sp sp' -> airplanes_image m t pr (fun k w w' => rows_image k (P k) (w_panels w) (w_panels w')) (sp_airplanes sp) (sp_airplanes sp') ->
  pairs f (fun i y y' => P (kp i) (snd y) (snd y') /\ a_xyz_ref (fst (fst y')) = mv (a_xyz_ref (fst (fst y)))) (flat_panels (sp_airplanes sp)) (flat_panels (sp_airplanes sp')).
Proof.
  intros G H. pose proof (proj1 (ge_ready _ _ _ _ _ _ _ _ G)) as E. pose proof (proj1 (ge_ready' _ _ _ _ _ _ _ _ G)) as E'.
  destruct (ready_gridded _ _ (ge_ready _ _ _ _ _ _ _ _ G)) as [G1 _]. destruct (ready_gridded _ _ (ge_ready' _ _ _ _ _ _ _ _ G)) as [G2 _].
  assert (X : pairs f (fun _ x y => y = pimage pr (layout (sp_airplanes sp)) x) (places (layout (sp_airplanes sp))) (places (layout (sp_airplanes sp')))) by (rewrite E, E'; exact Hf).
  pose proof (image_places pr m t _ _ P G1 H) as HPl.
  apply (pairs_impl f _ _ _ _ (flat_places_image pr _ _ P f G1 G2 X HPl)). intros i y y' _ _ (x & Hx & A1 & A2 & HW). rewrite E in Hx. unfold kp. rewrite Hx. split; [exact HW|].
  destruct x as [a [w [c s]]]. destruct A1 as (A1 & _). destruct A2 as (A2 & _). cbn [fst snd pimage] in A1, A2.
  destruct (image_airplane pr m t _ _ _ a _ H A1) as (a' & Ha' & (Er & _)). rewrite A2 in Ha'. apply Some_eq in Ha'. subst a'. exact Er.
Qed.
Lemma nest_p P sp sp' : geo sp sp' -> pairs f (fun i p p' => P (kp i) p p') (step_panels sp) (step_panels sp') ->
  airplanes_image m t pr (fun k w w' => rows_image k (P k) (w_panels w) (w_panels w')) (sp_airplanes sp) (sp_airplanes sp').
Proof.
  intros G H. pose proof (proj1 (ge_ready _ _ _ _ _ _ _ _ G)) as E. pose proof (proj1 (ge_ready' _ _ _ _ _ _ _ _ G)) as E'.
  destruct (ready_gridded _ _ (ge_ready _ _ _ _ _ _ _ _ G)) as [G1 _]. destruct (ready_gridded _ _ (ge_ready' _ _ _ _ _ _ _ _ G)) as [G2 _].
  assert (X : pairs f (fun _ x y => y = pimage pr (layout (sp_airplanes sp)) x) (places (layout (sp_airplanes sp))) (places (layout (sp_airplanes sp')))) by (rewrite E, E'; exact Hf).
  apply places_image_intro; [exact G1 | |].
  - apply (image_impl pr m t _ _ _ _ (ge_rings _ _ _ _ _ _ _ _ G)). intros x w w' _ _. unfold shaped. apply rows_image_impl. auto.
  - apply (flat_places_intro pr _ _ P f G1 G2 X). unfold step_panels in H. rewrite <- !flat_panels_snd in H. apply pairs_map_inv in H.
    apply (pairs_impl f _ _ _ _ H). intros i y y' _ _ HW x Hx. rewrite E in Hx. unfold kp in HW. rewrite Hx in HW. exact HW.
Qed.
Lemma nest_w (W : bool -> wing -> wing -> Prop) sp sp' : geo sp sp' -> pairs g (fun i => W (kw i)) (step_wings sp) (step_wings sp') -> airplanes_image m t pr W (sp_airplanes sp) (sp_airplanes sp').
Proof.
  intros G H. pose proof (proj1 (ge_ready _ _ _ _ _ _ _ _ G)) as E. pose proof (proj1 (ge_ready' _ _ _ _ _ _ _ _ G)) as E'.
  apply (image_impl pr m t _ _ _ _ (ge_wings _ _ _ _ _ _ _ _ G)). intros x w w' Hw Hw' _.
  pose proof (wplaces_ok (sp_airplanes sp)) as FW. pose proof (wplaces_ok (sp_airplanes sp')) as FW'. rewrite E in FW. rewrite E' in FW'.
  assert (Hin : In x (wplaces F)).
  { rewrite <- E. destruct x as [a i]. destruct Hw as (ap & Ha & Hi). cbn [fst snd] in *. apply in_wplaces. rewrite layout_length. split; [apply nth_error_Some; congruence|].
    rewrite (layout_nwings _ _ _ Ha). apply nth_error_Some. congruence. }
  apply In_nth_error in Hin. destruct Hin as [i Hi]. destruct (Forall2_nth_l _ _ _ FW i x Hi) as (w1 & Hw1 & A1). pose proof (at_wing_unique _ _ _ _ Hw A1) as X1. subst w1.
  destruct Hg as (_ & _ & Hg'). destruct (Hg' i x Hi) as (x' & Hx' & ->). destruct (Forall2_nth_l _ _ _ FW' _ _ Hx') as (w1 & Hw1' & A1'). pose proof (at_wing_unique _ _ _ _ Hw' A1') as X1. subst w1.
  pose proof (pairs_swap_impl _ _ _ _ H i w w' Hw1 Hw1') as HW. unfold kw in HW. rewrite Hi in HW. exact HW.
Qed.

(** ** Wakes *)
Section States.
Context (n : nat) (s s' : unsteady_solver) (up1 up1' : unsteady_problem) (conv conv' : nat -> vec -> vec).
Context (HA : after solve prescribed up n s) (HA' : after solve prescribed up' n s').
Context (HR : ran solve prescribed F up up1 conv n s) (HR' : ran solve prescribed F' up' up1' conv' n s').
Notation ST := (up_steady_problems (us_problem s)).
Notation ST' := (up_steady_problems (us_problem s')).
Lemma states_geo k sp sp' : nth_error ST k = Some sp -> nth_error ST' k = Some sp' -> geo sp sp'.
Proof. intros H H'. exact (steps_geo solve HS prescribed mirror m t HI pr up up' HC HC' HP F F' HM HM' n n s s' k sp sp' (or_introl HA) (or_introl HA') H H'). Qed.
Lemma states_length : length ST' = length ST /\ length ST = length (up_steady_problems up1) /\ length ST' = length (up_steady_problems up1').
Proof.
  rewrite <- (Forall2_length _ _ _ (ri_kept _ _ _ _ (rn_inv _ _ _ _ _ _ _ _ HR))), <- (Forall2_length _ _ _ (ri_kept _ _ _ _ (rn_inv _ _ _ _ _ _ _ _ HR'))).
  rewrite <- (Forall2_length _ _ _ (rn_started _ _ _ _ _ _ _ _ HR)), <- (Forall2_length _ _ _ (rn_started _ _ _ _ _ _ _ _ HR')). split; [|auto]. symmetry. exact (Forall2_length _ _ _ (pi_steps _ _ _ _ _ _ HP)).
Qed.
Lemma states_time : up_delta_time up1 = up_delta_time up /\ up_delta_time up1' = up_delta_time up.
Proof. rewrite (rn_start _ _ _ _ _ _ _ _ HR), (rn_start _ _ _ _ _ _ _ _ HR'). split; [reflexivity|]. exact (pi_time _ _ _ _ _ _ HP). Qed.
Lemma both_steps k sp : nth_error ST k = Some sp -> exists sp', nth_error ST' k = Some sp'.
Proof. intros H. apply nth_in_range. rewrite (proj1 states_length). apply nth_error_Some. congruence. Qed.

Context (Hconv : forall k v, (k < n)%nat -> conv' k (mv v) = mv (conv k v)).
Lemma wakes_image k sp sp' : (k <= n)%nat -> nth_error ST k = Some sp -> nth_error ST' k = Some sp' ->
  pairs g (fun i => wake_image m t (kw i)) (step_wings sp) (step_wings sp').
Proof.
  pose proof (rn_inv _ _ _ _ _ _ _ _ HR) as RI. pose proof (rn_inv _ _ _ _ _ _ _ _ HR') as RI'. destruct states_length as (L1 & L2 & L3).
  revert sp sp'. induction k as [|k IH]; intros sp sp' Hk Hsp Hsp'; pose proof (states_geo _ _ _ Hsp Hsp') as G.
  - pose proof (ri_grids _ _ _ _ RI 0%nat ltac:(lia) ltac:(rewrite <- L2; apply nth_error_Some; congruence)) as R0. rewrite (wings_at_some _ _ _ Hsp) in R0.
    pose proof (ri_grids _ _ _ _ RI' 0%nat ltac:(lia) ltac:(rewrite <- L3; apply nth_error_Some; congruence)) as R0'. rewrite (wings_at_some _ _ _ Hsp') in R0'.
    apply (pairs_impl g _ _ _ _ (flat_w _ _ _ G (ge_wings _ _ _ _ _ _ _ _ G))). intros i w w' Hw Hw' _.
    destruct (Forall2_nth_l _ _ _ R0 _ _ Hw) as (? & _ & _ & E & _). destruct (Forall2_nth_l _ _ _ R0' _ _ Hw') as (? & _ & _ & E' & _). unfold wake_image. rewrite E, E'. constructor.
  - assert (Hlt : (S k < length ST)%nat) by (apply nth_error_Some; congruence).
    destruct (nth_in_range ST k ltac:(lia)) as [sp0 Hsp0]. destruct (both_steps _ _ Hsp0) as [sp0' Hsp0']. specialize (IH sp0 sp0' ltac:(lia) Hsp0 Hsp0').
    pose proof (ri_vertices _ _ _ _ RI k ltac:(lia) ltac:(lia)) as V. rewrite (wings_at_some _ _ _ Hsp), (wings_at_some _ _ _ Hsp0) in V.
    pose proof (ri_vertices _ _ _ _ RI' k ltac:(lia) ltac:(lia)) as V'. rewrite (wings_at_some _ _ _ Hsp'), (wings_at_some _ _ _ Hsp0') in V'.
    apply (pairs_impl g _ _ _ _ (flat_w _ _ _ G (ge_edges _ _ _ _ _ _ _ _ G))). intros i w w' Hw Hw' HE.
    destruct (Forall2_nth _ _ _ V _ _ Hw) as (t0 & Ht & E & _). destruct (Forall2_nth _ _ _ V' _ _ Hw') as (t0' & Ht' & E' & _).
    unfold wake_image. rewrite E, E'. unfold moved_vertices. unfold edge_images in HE. constructor; [exact HE|]. destruct k as [|k].
    + constructor; [|constructor]. rewrite rev_if. apply Forall2_map_both. eapply Forall2_impl; [|exact HE]. cbn beta. intros v v' ->. apply Hconv. lia.
    + pose proof (pairs_swap_impl _ _ _ _ IH i t0 t0' Ht Ht') as W. unfold wake_image, rows_image in W. apply Forall2_map_both. eapply Forall2_impl; [|exact W]. cbn beta. intros row row' Hr.
      rewrite rev_if. apply Forall2_map_both. eapply Forall2_impl; [|exact Hr]. cbn beta. intros v v' ->. apply Hconv. lia.
Qed.
Context (Hstr : forall k sp sp', (k < n)%nat -> nth_error ST k = Some sp -> nth_error ST' k = Some sp' ->
  pairs f (fun i p p' => strength_of p' = sg (kp i) * strength_of p) (step_panels sp) (step_panels sp')).
Definition shed_image (k : bool) (w w' : wing) : Prop :=
  Forall2 (fun x x' => x' = sg k * x) (trailing_strengths w) (if k then trailing_strengths w' else rev (trailing_strengths w')).
Lemma trailing_image k sp sp' : (k < n)%nat -> nth_error ST k = Some sp -> nth_error ST' k = Some sp' -> pairs g (fun i => shed_image (kw i)) (step_wings sp) (step_wings sp').
Proof.
  intros Hk Hsp Hsp'. pose proof (states_geo _ _ _ Hsp Hsp') as G. apply flat_w; [exact G|].
  pose proof (nest_p (fun k p p' => strength_of p' = sg k * strength_of p) _ _ G (Hstr _ _ _ Hk Hsp Hsp')) as H. apply (image_impl pr m t _ _ _ _ H). intros x w w' _ _ HW.
  unfold shed_image, trailing_strengths. rewrite rev_if. apply Forall2_map_both. unfold trailing_panels. pose proof (last_Forall2 _ _ _ [] [] HW) as FL. cbn beta in FL. apply FL.
  destruct (wkeeps pr x); constructor.
Qed.
Lemma shed_images k : (k <= n)%nat -> (k < length ST)%nat -> pairs g (fun i => rows_image (kw i) (fun x x' => x' = sg (kw i) * x)) (shed ST k) (shed ST' k).
Proof.
  induction k as [|k IH]; intros Hk Hlt.
  - destruct (nth_in_range ST 0 Hlt) as [sp Hsp]. destruct (both_steps _ _ Hsp) as [sp' Hsp']. cbn [shed]. rewrite (wings_at_some _ _ _ Hsp), (wings_at_some _ _ _ Hsp').
    apply pairs_map. pose proof (states_geo _ _ _ Hsp Hsp') as G. apply (pairs_impl g _ _ _ _ (flat_w _ _ _ G (ge_wings _ _ _ _ _ _ _ _ G))). intros. constructor.
  - destruct (nth_in_range ST k ltac:(lia)) as [sp Hsp]. destruct (both_steps _ _ Hsp) as [sp' Hsp']. cbn [shed]. rewrite (wings_at_some _ _ _ Hsp), (wings_at_some _ _ _ Hsp').
    eapply (pairs_map2 g cons cons (fun i x x' => Forall2 (fun x x' => x' = sg (kw i) * x) x (if kw i then x' else rev x'))); [| | | exact (IH ltac:(lia) ltac:(lia))].
    + cbn beta. intros i x y x' y' _ _ H1 H2. constructor; assumption.
    + rewrite map_length. pose proof (rn_inv _ _ _ _ _ _ _ _ HR) as RI. pose proof (ri_grids _ _ _ _ RI k ltac:(lia) ltac:(rewrite <- (proj1 (proj2 states_length)); lia)) as R0.
      rewrite (wings_at_some _ _ _ Hsp) in R0. exact (Forall2_length _ _ _ R0).
    + apply pairs_map. exact (trailing_image k sp sp' ltac:(lia) Hsp Hsp').
Qed.
Lemma grids_image k : (k <= n)%nat -> (k < length ST)%nat -> pairs g (fun i => rows_image (kw i) (wake_ring_image m t (sg (kw i)) (kw i)))
  (wake_grids (up_delta_time up) ST k) (wake_grids (up_delta_time up) ST' k).
Proof.
  intros Hk Hlt. destruct (nth_in_range ST k Hlt) as [sp Hsp]. destruct (both_steps _ _ Hsp) as [sp' Hsp']. unfold wake_grids.
  pose proof (rn_inv _ _ _ _ _ _ _ _ HR) as RI. pose proof (ri_grids _ _ _ _ RI k ltac:(lia) ltac:(rewrite <- (proj1 (proj2 states_length)); lia)) as R0.
  rewrite (wings_at_some _ _ _ Hsp) in *. rewrite (wings_at_some _ _ _ Hsp').
  eapply pairs_map2; [| exact (Forall2_length _ _ _ R0) | exact (wakes_image k sp sp' Hk Hsp Hsp') | exact (shed_images k Hk Hlt)].
  cbn beta. intros i w G w' G' Hw HG' HW HG. destruct (Forall2_nth_l _ _ _ R0 _ _ Hw) as (G0 & HG0 & RW & V & _ & [_ GG]). assert (G0 = G) by congruence. subst G0.
  apply (rings_from_image m t _ (kw i) _ (w_num_spanwise_panels w)); [| exact GG | exact HW | exact HG].
  destruct k as [|k]; [rewrite V; constructor | exact (proj2 V)].
Qed.
Definition all_grids (ST0 : list steady_problem) (k : nat) : list ring_vortex := concat (map (@concat ring_vortex) (wake_grids (up_delta_time up) ST0 k)).
Lemma wake_velocities_image k nu x : (k <= n)%nat -> (k < length ST)%nat -> rings_velocity nu (mv x) (all_grids ST' k) = lin (rings_velocity nu x (all_grids ST k)).
Proof.
  intros Hk Hlt. unfold all_grids. rewrite !rings_velocity_concat, !map_map. apply (pairs_vsum g); [apply lin_zero | apply lin_add|]. apply pairs_map.
  apply (pairs_impl g _ _ _ _ (grids_image k Hk Hlt)). cbn beta. intros i R R' _ _ H. exact (rings_velocity_image mirror m t _ nu x R R' HI H).
Qed.
(** Rows of the arrays of a step. *)
Lemma rows_pairs sp sp' rows rows' : geo sp sp' -> Forall2 row_matches (flat_panels (sp_airplanes sp)) rows -> Forall2 row_matches (flat_panels (sp_airplanes sp')) rows' ->
  pairs f (fun i => row_rel m t (kp i)) rows rows'.
Proof.
  intros G R R'. pose proof (flat_p _ _ _ G (ge_rings _ _ _ _ _ _ _ _ G)) as H. apply (pairs_impl f _ _ _ _ (pairs_along f _ _ _ _ _ _ _ H R R')).
  intros i r r' _ _ ([[a w] p] & [[a' w'] p'] & _ & _ & [(HPI & v & v' & Ev & Ev' & HV) Href] & (M1 & M2 & M3) & (M1' & M2' & M3')). cbn [fst snd] in *.
  rewrite Ev in M3. apply Some_eq in M3. rewrite Ev' in M3'. apply Some_eq in M3'. subst v v'. unfold row_rel. rewrite M1, M1', M2, M2'. auto.
Qed.
End States.

(** ** The induction *)
Record sim (n : nat) (s s' : unsteady_solver) (up1 up1' : unsteady_problem) (conv conv' : nat -> vec -> vec) : Prop := {
  sm_after : after solve prescribed up n s;
  sm_after' : after solve prescribed up' n s';
  sm_ran : ran solve prescribed F up up1 conv n s;
  sm_ran' : ran solve prescribed F' up' up1' conv' n s';
  sm_conv : forall k v, (k < n)%nat -> conv' k (mv v) = mv (conv k v);
  sm_strengths : forall k sp sp', (k < n)%nat -> step_at s k sp -> step_at s' k sp' ->
    pairs f (fun i p p' => strength_of p' = sg (kp i) * strength_of p) (step_panels sp) (step_panels sp');
  sm_velocity : forall x u, unsteady_solution_velocity s [x] = Ok [u] -> unsteady_solution_velocity s' [mv x] = Ok [lin u] }.

Lemma last_points n s s' up1 up1' conv conv' sp sp' (rows rows' : list ring_row) la la' : sim n s s' up1 up1' conv conv' ->
  nth_error (up_steady_problems (us_problem s)) n = Some sp -> nth_error (up_steady_problems (us_problem s')) n = Some sp' ->
  length rows = layout_panels F -> length rows' = layout_panels F' ->
  last_step_arrays (length rows) n (up_steady_problems (us_problem s)) = Ok la -> last_step_arrays (length rows') n (up_steady_problems (us_problem s')) = Ok la' ->
  match n with O => True | S _ => pairs f (fun _ v v' => v' = mv v) (la_collocations la) (la_collocations la') end.
Proof.
  intros [A A' R R' HV HX _] Hsp Hsp' L L' El El'. destruct n as [|k]; [exact I|].
  assert (Hlt : (k < length (up_steady_problems (us_problem s)))%nat) by (assert (X : (S k < length (up_steady_problems (us_problem s)))%nat) by (apply nth_error_Some; congruence); lia).
  destruct (nth_in_range _ k Hlt) as [sp0 Hsp0]. destruct (both_steps (S k) s s' up1 up1' conv conv' R R' _ _ Hsp0) as [sp0' Hsp0'].
  pose proof (states_geo (S k) s s' A A' _ _ _ Hsp0 Hsp0') as G. pose proof (ge_ready _ _ _ _ _ _ _ _ G) as RD. pose proof (ge_ready' _ _ _ _ _ _ _ _ G) as RD'.
  destruct (unsteady_collapse_ok _ (proj1 (proj2 RD))) as (rows1 & E1 & F1 & P1). destruct (unsteady_collapse_ok _ (proj1 (proj2 RD'))) as (rows1' & E1' & F1' & P1').
  assert (L1 : length rows1 = length rows) by (rewrite L, <- (proj1 (ready_count _ _ RD)), <- P1, map_length; reflexivity).
  assert (L1' : length rows1' = length rows') by (rewrite L', <- (proj1 (ready_count _ _ RD')), <- P1', map_length; reflexivity).
  rewrite (last_ok _ _ _ _ _ Hsp0 E1 L1) in El. apply Ok_eq in El. subst la. rewrite (last_ok _ _ _ _ _ Hsp0' E1' L1') in El'. apply Ok_eq in El'. subst la'.
  cbn [la_collocations last_of]. exact (points_image m t f kp _ _ (rows_pairs _ _ _ _ G F1 F1')).
Qed.
Lemma sim_step n s s' up1 up1' conv conv' s1 : sim n s s' up1 up1' conv conv' -> (n < length (up_steady_problems up))%nat -> after solve prescribed up (S n) s1 ->
  exists s1' conv1 conv1', sim (S n) s1 s1' up1 up1' conv1 conv1'.
Proof.
  intros HSim Hn HA1. pose proof HSim as [A A' R R' HV HX _].
  destruct (proj1 (after_S _ _ _ _ _) HA1) as (s0 & A0 & Estep). rewrite (after_unique _ _ _ _ _ _ A0 A) in Estep. clear s0 A0.
  destruct (states_length n s s' up1 up1' conv conv' R R') as (L1 & L2 & L3). destruct (states_time n s s' up1 up1' conv conv' R R') as (T1 & T1').
  assert (Nn : (n < length (up_steady_problems up1))%nat) by (rewrite <- (Forall2_length _ _ _ (rn_started _ _ _ _ _ _ _ _ R)); exact Hn).
  destruct (ran_step solve HS prescribed F up up1 conv n s R Hn A) as [(e & _ & X)|(s2 & conv1 & E2 & R1 & St & Cv)]; [congruence|].
  assert (s2 = s1) by congruence. subst s2. clear E2.
  destruct St as (sp & rows & la & xs & a1 & an & Hsp & Ec & FR & PR & El & Sl & St). cbn zeta in St. destruct St as (Esol & Lx & _ & _ & Ex & FA & Ecur & Hnew & Hk & _).
  destruct (unsteady_step_ok solve prescribed F' up1' conv' n s' (rn_ready _ _ _ _ _ _ _ _ R') (rn_inv _ _ _ _ _ _ _ _ R') ltac:(lia)) as (sp' & rows' & la' & Hsp' & Ec' & FR' & PR' & El' & Sl' & _ & Hok).
  rewrite T1 in Esol, Ecur. rewrite T1' in Hok.
  pose proof (states_geo n s s' A A' _ _ _ Hsp Hsp') as G.
  pose proof (rows_pairs _ _ _ _ G FR FR') as HRP.
  assert (Lr : length rows = layout_panels F) by (rewrite <- (proj1 (ready_count _ _ (ge_ready _ _ _ _ _ _ _ _ G))), <- PR, map_length; reflexivity).
  assert (Lr' : length rows' = layout_panels F') by (rewrite <- (proj1 (ready_count _ _ (ge_ready' _ _ _ _ _ _ _ _ G))), <- PR', map_length; reflexivity).
  pose proof (last_points _ _ _ _ _ _ _ _ _ _ _ _ _ HSim Hsp Hsp' Lr Lr' El El') as HLA.
  pose proof (ge_flow _ _ _ _ _ _ _ _ G) as HFl. set (op := sp_operating_point sp) in *. set (op' := sp_operating_point sp') in *.
  assert (HWV : forall x, rings_velocity (op_nu op) (mv x) (all_grids (up_steady_problems (us_problem s')) n) = lin (rings_velocity (op_nu op) x (all_grids (up_steady_problems (us_problem s)) n))).
  { intros x. apply (wake_velocities_image n s s' up1 up1' conv conv' A A' R R' HV HX n); [lia | rewrite L2; exact Nn]. }
  assert (Enu : op_nu op' = op_nu op) by exact (proj1 (proj2 (proj2 HFl))).
  match type of Esol with solve ?a ?b = _ => destruct (paired_solution f solve (fun i => sg (kp i)) a (step_matrix rows' (op_nu op')) b (map2 Rminus (map Ropp (step_wake n rows' (wake_record (up_delta_time up) (up_steady_problems (us_problem s')) n) op')) (step_freestream n (up_delta_time up) rows' la' op')) xs HS) as (xs' & Esol' & HXP) end.
  - intros i. apply sense_sq.
  - apply step_matrix_square.
  - apply step_matrix_square.
  - rewrite step_matrix_length. apply step_rhs_length. apply Sl.
  - rewrite Enu. exact (system_matrix mirror m t HI f kp rows rows' (op_nu op) HRP).
  - exact (rhs_image mirror m t HI f kp n (up_delta_time up) rows rows' la la' _ _ op op' HFl (proj1 Sl) HWV HRP HLA).
  - exact Esol.
  - assert (Lx' : length xs' = length rows') by (rewrite (proj1 HXP), Lx, (proj1 HRP); reflexivity).
    destruct (Hok xs' Esol' Lx') as (a1' & an' & s1' & _ & _ & Ex' & FA' & Estep' & Ecur' & _ & _ & Hnew' & Hk' & _ & _).
    assert (Hn' : (n < length (up_steady_problems up'))%nat) by (rewrite <- (Forall2_length _ _ _ (pi_steps _ _ _ _ _ _ HP)); exact Hn).
    destruct (ran_step solve HS prescribed F' up' up1' conv' n s' R' Hn' A') as [(e & _ & X)|(s2 & conv1' & E2 & R1' & _ & Cv')]; [congruence|].
    assert (s2 = s1') by congruence. subst s2. clear E2.
    assert (HA1' : after solve prescribed up' (S n) s1') by (apply after_S; eauto).
    assert (HVel : forall x u, unsteady_solution_velocity s1 [x] = Ok [u] -> unsteady_solution_velocity s1' [mv x] = Ok [lin u]).
    { intros x u. unfold unsteady_solution_velocity. rewrite Ecur, Ecur'. unfold current_velocity, step_current. cbn [cu_rows cu_strengths cu_wake cu_op cu_freestream]. rewrite !velocity_pointwise. cbn [map].
      intros Eu. apply Ok_eq, cons_eq' in Eu. destruct Eu as [Eu _]. f_equal. f_equal. rewrite <- Eu.
      exact (velocity_image mirror m t HI f kp rows rows' xs xs' _ _ op op' x HFl Lx Lx' HWV HRP HXP). }
    exists s1', conv1, conv1'. constructor; try assumption.
    + intros k v Hlt. destruct (Nat.eq_dec k n) as [->|Hne]; [|rewrite Cv, Cv' by lia; apply HV; lia].
      destruct (rn_moves _ _ _ _ _ _ _ _ R1 n _ Hlt Hnew) as (sk & Ak & Vk). rewrite (after_unique _ _ _ _ _ _ Ak HA1) in Vk. clear sk Ak.
      destruct (rn_moves _ _ _ _ _ _ _ _ R1' n _ Hlt Hnew') as (sk & Ak & Vk'). rewrite (after_unique _ _ _ _ _ _ Ak HA1') in Vk'. clear sk Ak.
      destruct (Vk v) as (u & Eu & ->). destruct (Vk' (mv v)) as (u' & Eu' & ->). rewrite (HVel _ _ Eu) in Eu'. apply Ok_eq, cons_eq' in Eu'. destruct Eu' as [<- _].
      cbn [sp_operating_point]. rewrite (pi_time _ _ _ _ _ _ HP), <- moved_add, lin_scale. destruct prescribed; [|reflexivity]. rewrite (image_freestream mirror m HI op op' HFl). reflexivity.
    + intros k spk spk' Hlt Hspk Hspk'. unfold step_at in Hspk, Hspk'. destruct (Nat.eq_dec k n) as [->|Hne].
      * rewrite Hnew in Hspk. apply Some_eq in Hspk. rewrite Hnew' in Hspk'. apply Some_eq in Hspk'. subst spk spk'. unfold step_panels. cbn [sp_airplanes].
        apply pairs_map_inv with (P := fun i x x' => x' = sg (kp i) * x). rewrite Ex, Ex'. exact HXP.
      * rewrite Hk in Hspk by lia. rewrite Hk' in Hspk' by lia. exact (HX k _ _ ltac:(lia) Hspk Hspk').
Qed.
Lemma sim_start : exists s s' up1 up1', forall conv conv', sim 0 s s' up1 up1' conv conv'.
Proof.
  destruct (ran_start solve prescribed F up HM) as (s & A & R). destruct (ran_start solve prescribed F' up' HM') as (s' & A' & R').
  exists s, s', (us_problem s), (us_problem s'). intros conv conv'. constructor; auto; try (intros; lia). intros x u E. exfalso.
  destruct (unsteady_start_ok 0 F up HM) as (s0 & s1 & E0 & E1 & _ & _ & _ & Ec & _). destruct A as (s0' & s1' & E0' & E1' & E2).
  assert (s0' = s0) by congruence. subst s0'. assert (s1' = s1) by congruence. subst s1'. cbn in E2. apply Ok_eq in E2. subst s1. unfold unsteady_solution_velocity in E. rewrite Ec in E. discriminate.
Qed.
Lemma sim_all n s : after solve prescribed up n s -> (n <= length (up_steady_problems up))%nat -> exists s' up1 up1' conv conv', sim n s s' up1 up1' conv conv'.
Proof.
  revert s. induction n as [|n IH]; intros s A Hn.
  - destruct sim_start as (s0 & s' & up1 & up1' & H). exists s', up1, up1', (fun _ v => v), (fun _ v => v). rewrite (after_unique _ _ _ _ _ _ A (sm_after _ _ _ _ _ _ _ (H (fun _ v => v) (fun _ v => v)))). apply H.
  - destruct (proj1 (after_S _ _ _ _ _) A) as (s0 & A0 & _). destruct (IH s0 A0 ltac:(lia)) as (s' & up1 & up1' & conv & conv' & H).
    destruct (sim_step _ _ _ _ _ _ _ s H ltac:(lia) A) as (s1' & conv1 & conv1' & H1). exists s1', up1, up1', conv1, conv1'. exact H1.
Qed.

(** ** Loads *)
Lemma flat_at P sp sp' : geo sp sp' -> airplanes_image m t pr (fun k w w' => rows_image k (P k) (w_panels w) (w_panels w')) (sp_airplanes sp) (sp_airplanes sp') ->
  pairs f (fun i y y' => exists x, nth_error (places F) i = Some x /\ at_place (sp_airplanes sp) x y /\ at_place (sp_airplanes sp') (pimage pr F x) y' /\ P (kp i) (snd y) (snd y'))
    (flat_panels (sp_airplanes sp)) (flat_panels (sp_airplanes sp')).
Proof.
  intros G H. pose proof (proj1 (ge_ready _ _ _ _ _ _ _ _ G)) as E. pose proof (proj1 (ge_ready' _ _ _ _ _ _ _ _ G)) as E'.
  destruct (ready_gridded _ _ (ge_ready _ _ _ _ _ _ _ _ G)) as [G1 _]. destruct (ready_gridded _ _ (ge_ready' _ _ _ _ _ _ _ _ G)) as [G2 _].
  assert (X : pairs f (fun _ x y => y = pimage pr (layout (sp_airplanes sp)) x) (places (layout (sp_airplanes sp))) (places (layout (sp_airplanes sp')))) by (rewrite E, E'; exact Hf).
  pose proof (image_places pr m t _ _ P G1 H) as HPl.
  apply (pairs_impl f _ _ _ _ (flat_places_image pr _ _ P f G1 G2 X HPl)). intros i y y' _ _ (x & Hx & A1 & A2 & HW). rewrite E in Hx, A2. exists x. split; [exact Hx|]. split; [exact A1|]. split; [exact A2|].
  unfold kp. rewrite Hx. exact HW.
Qed.
Lemma step_flat sp i y : nth_error (flat_panels (sp_airplanes sp)) i = Some y -> nth_error (step_panels sp) i = Some (snd y).
Proof. intros H. unfold step_panels. rewrite <- flat_panels_snd, nth_error_map, H. reflexivity. Qed.
Lemma flat_step sp i p : nth_error (step_panels sp) i = Some p -> exists y, nth_error (flat_panels (sp_airplanes sp)) i = Some y /\ snd y = p.
Proof.
  unfold step_panels. rewrite <- flat_panels_snd, nth_error_map. destruct (nth_error (flat_panels (sp_airplanes sp)) i) as [y|]; [|discriminate]. cbn. intros H. apply Some_eq in H. eauto.
Qed.
Lemma panels_ringed n s s' up1 up1' conv conv' k sp sp' i p p' : sim n s s' up1 up1' conv conv' -> step_at s k sp -> step_at s' k sp' ->
  nth_error (step_panels sp) i = Some p -> nth_error (step_panels sp') (f i) = Some p' -> ringed_image m t (kp i) p p'.
Proof.
  intros [A A' R R' _ _ _] Hsp Hsp' Hp Hp'. pose proof (states_geo n s s' A A' _ _ _ Hsp Hsp') as G. pose proof (flat_p _ _ _ G (ge_rings _ _ _ _ _ _ _ _ G)) as H.
  destruct (flat_step _ _ _ Hp) as (y & Hy & <-). destruct (flat_step _ _ _ Hp') as (y' & Hy' & <-). exact (proj1 (pairs_swap_impl _ _ _ _ H i y y' Hy Hy')).
Qed.
Lemma apparent_image n s s' up1 up1' conv conv' k i (pt pt' : panel -> vec) v v' : sim n s s' up1 up1' conv conv' -> up_delta_time up <> 0 ->
  (forall p p', ringed_image m t (kp i) p p' -> pt' p' = mv (pt p)) -> apparent_velocity pt s k i v -> apparent_velocity pt' s' k (f i) v' -> v' = lin v.
Proof.
  intros HSim Hdt Hpt. pose proof HSim as [A A' R R' _ _ _]. unfold apparent_velocity. destruct k as [|k]; [intros -> ->; symmetry; apply lin_zero|].
  intros (p & q & (sp & Hsp & Hp) & (sq & Hsq & Hq) & E) (p' & q' & (sp' & Hsp' & Hp') & (sq' & Hsq' & Hq') & E').
  destruct (has_run_history _ HS _ _ _ _ HC (or_introl A)) as (Fa & upa & conva & sa & HH). destruct (has_run_history _ HS _ _ _ _ HC' (or_introl A')) as (Fb & upb & convb & sb & HH').
  rewrite (hi_time _ _ _ _ _ _ _ _ _ HH) in E. rewrite (hi_time _ _ _ _ _ _ _ _ _ HH'), (pi_time _ _ _ _ _ _ HP) in E'. clear HH HH'.
  rewrite (Hpt p p' (panels_ringed _ _ _ _ _ _ _ _ _ _ _ _ _ HSim Hsp Hsp' Hp Hp')), (Hpt q q' (panels_ringed _ _ _ _ _ _ _ _ _ _ _ _ _ HSim Hsq Hsq' Hq Hq')), moved_sub, <- E in E'.
  assert (Inj : forall u w, vscale (up_delta_time up) u = vscale (up_delta_time up) w -> u = w).
  { intros u w X. apply (f_equal (vscale (/ up_delta_time up))) in X. rewrite !scale_scale, Rinv_l, !scale_one in X by exact Hdt. exact X. }
  rewrite lin_scale in E'. exact (Inj _ _ E').
Qed.
Lemma centers_image k p p' : ringed_image m t k p p' -> right_center p' = mv (pick k (right_center p) (left_center p)) /\ front_center p' = mv (front_center p) /\
  left_center p' = mv (pick k (left_center p) (right_center p)).
Proof.
  intros (_ & r & r' & Hr & Hr' & HI'). apply image_legs in HI'. destruct HI' as [L1 L2 L3 _ _ _]. unfold right_center, front_center, left_center. rewrite Hr, Hr', L1, L2, L3.
  destruct k; cbn [pick]; auto.
Qed.
Lemma newest_forces n s s' up1 up1' conv conv' sp sp' : sim (S n) s s' up1 up1' conv conv' -> up_delta_time up <> 0 -> (up_first_results_step up <= Z.of_nat n)%Z -> step_at s n sp -> step_at s' n sp' ->
  pairs f (fun _ p p' => exists fo mo, p_force_geometry p = Some fo /\ p_moment_geometry p = Some mo /\ p_force_geometry p' = Some (lin fo) /\ p_moment_geometry p' = Some (vscale (mdet m) (lin mo)))
    (step_panels sp) (step_panels sp').
Proof.
  intros HSim Hdt Hfirst Hsp Hsp'. pose proof HSim as [A A' R R' _ HX HVel]. pose proof (states_geo (S n) s s' A A' _ _ _ Hsp Hsp') as G.
  pose proof (flat_at _ _ _ G (ge_rings _ _ _ _ _ _ _ _ G)) as H. pose proof (flat_p _ _ _ G (ge_rings _ _ _ _ _ _ _ _ G)) as H2.
  pose proof (HX n sp sp' ltac:(lia) Hsp Hsp') as HSt. pose proof (nest_p (fun k p p' => strength_of p' = sg k * strength_of p) _ _ G HSt) as HNest.
  unfold step_panels at 1 2. rewrite <- !flat_panels_snd. apply pairs_map. apply (pairs_impl f _ _ _ _ (pairs_both f _ _ _ _ H H2)).
  intros i [[a w] p] [[a' w'] p'] Hy Hy' [(x & Hx & HAt & HAt' & HRI) [_ Href]]. cbn [fst snd] in *. destruct x as [ia [iw [c j]]]. destruct HAt as (P1 & P2 & P3). destruct HAt' as (P1' & P2' & P3'). cbn [fst snd pimage] in *.
  assert (Ek : kp i = keeps_sides pr ia iw) by (unfold kp; rewrite Hx; reflexivity).
  destruct (unsteady_kutta_joukowski solve HS prescribed up n s i a w c j p HC (or_introl A) Hdt Hfirst) as (op & r & ur & uf & ul & vr & vf & vl & g0 & (sp1 & Hsp1 & ->) & Er & Cr & U1 & V1 & U2 & V2 & U3 & V3 & Hlc & KF & KM).
  { exists sp. auto. }
  destruct (unsteady_kutta_joukowski solve HS prescribed up' n s' (f i) a' w' c (column_of (keeps_sides pr ia iw) (snd (dims F ia iw)) j) p' HC' (or_introl A')) as (op' & r' & ur' & uf' & ul' & vr' & vf' & vl' & g0' & (sp1' & Hsp1' & ->) & Er' & Cr' & U1' & V1' & U2' & V2' & U3' & V3' & Hlc' & KF' & KM').
  { rewrite (pi_time _ _ _ _ _ _ HP). exact Hdt. } { rewrite (pi_results _ _ _ _ _ _ HP). exact Hfirst. } { exists sp'. auto. }
  assert (sp1 = sp) by (unfold step_at in *; congruence). subst sp1. assert (sp1' = sp') by (unfold step_at in *; congruence). subst sp1'.
  destruct HRI as (HPI & r0 & r0' & Er0 & Er0' & HRI). rewrite Er in Er0. apply Some_eq in Er0. rewrite Er' in Er0'. apply Some_eq in Er0'. subst r0 r0'.
  pose proof (image_legs _ _ _ _ _ HRI) as [L1 L2 L3 L4 L5 L6].
  assert (RImg : ringed_image m t (kp i) p p') by (split; [exact HPI|]; exists r, r'; auto).
  (* velocities *)
  rewrite L1 in U1'. rewrite L2 in U2'. rewrite L3 in U3'.
  assert (EU2 : uf' = lin uf) by (rewrite (HVel _ _ U2) in U2'; apply Ok_eq, cons_eq' in U2'; symmetry; apply U2').
  assert (EU1 : ur' = lin (pick (kp i) ur ul)).
  { destruct (kp i); cbn [pick] in *; [rewrite (HVel _ _ U1) in U1' | rewrite (HVel _ _ U3) in U1']; apply Ok_eq, cons_eq' in U1'; symmetry; apply U1'. }
  assert (EU3 : ul' = lin (pick (kp i) ul ur)).
  { destruct (kp i); cbn [pick] in *; [rewrite (HVel _ _ U3) in U3' | rewrite (HVel _ _ U1) in U3']; apply Ok_eq, cons_eq' in U3'; symmetry; apply U3'. }
  assert (EV2 : vf' = lin vf) by (apply (apparent_image _ _ _ _ _ _ _ n i front_center front_center vf vf' HSim Hdt); [intros q q' X; apply (centers_image _ _ _ X) | exact V2 | exact V2']).
  assert (EV1 : vr' = lin (pick (kp i) vr vl)).
  { apply (apparent_image _ _ _ _ _ _ _ n i (pick (kp i) right_center left_center) right_center _ vr' HSim Hdt); [| |exact V1'].
    - intros q q' X. destruct (centers_image _ _ _ X) as (-> & _). destruct (kp i); reflexivity.
    - destruct (kp i); assumption. }
  assert (EV3 : vl' = lin (pick (kp i) vl vr)).
  { apply (apparent_image _ _ _ _ _ _ _ n i (pick (kp i) left_center right_center) left_center _ vl' HSim Hdt); [| |exact V3'].
    - intros q q' X. destruct (centers_image _ _ _ X) as (_ & _ & ->). destruct (kp i); reflexivity.
    - destruct (kp i); assumption. }
  (* circulations *)
  assert (Hw : at_wing (sp_airplanes sp) (ia, iw) w) by (exists a; auto). assert (Hw' : at_wing (sp_airplanes sp') (wimage pr (ia, iw)) w') by (exists a'; auto).
  destruct (image_wing pr m t _ _ _ _ _ HNest Hw) as (w1 & Hw1 & HWst). pose proof (at_wing_unique _ _ _ _ Hw' Hw1) as X1. subst w1. clear Hw1.
  change (wkeeps pr (ia, iw)) with (keeps_sides pr ia iw) in HWst.
  destruct (ready_gridded _ _ (ge_ready _ _ _ _ _ _ _ _ G)) as [_ RW].
  pose proof (proj1 (Forall_forall _ _) (proj1 (Forall_forall _ _) RW a (nth_error_In _ _ P1)) w (nth_error_In _ _ P2)) as ((U & _) & _ & (_ & Gr) & _).
  destruct P3 as (row & Hrow & Hj).
  assert (Lrow : length row = snd (dims F ia iw)).
  { rewrite (proj1 (Forall_forall _ _) Gr row (nth_error_In _ _ Hrow)). rewrite <- (proj1 (ge_ready _ _ _ _ _ _ _ _ G)), (layout_dims _ _ _ _ _ P1 P2). reflexivity. }
  assert (Hjl : (j < length row)%nat) by (apply nth_error_Some; congruence).
  destruct (nets_image _ _ _ _ HWst c row j U Hrow Hjl) as (N1 & N2 & N3). rewrite Lrow in N1, N2, N3. rewrite N1, N2, N3 in KF', KM'. clear N1 N2 N3. rewrite <- Ek in *.
  assert (Eg : rv_strength r' = sg (kp i) * rv_strength r).
  { pose proof (pairs_swap_impl _ _ _ _ HSt i p p' (step_flat _ _ _ Hy) (step_flat _ _ _ Hy')) as X. unfold strength_of in X. rewrite Er, Er' in X. exact X. }
  assert (Eg0 : g0' = sg (kp i) * g0).
  { unfold last_circulation in Hlc, Hlc'. destruct n as [|n0]; [subst g0 g0'; lra|]. destruct Hlc as (q & (sq & Hsq & Hq) & ->). destruct Hlc' as (q' & (sq' & Hsq' & Hq') & ->).
    exact (pairs_swap_impl _ _ _ _ (HX n0 sq sq' ltac:(lia) Hsq Hsq') i q q' Hq Hq'). }
  destruct (image_normal mirror m t HI _ _ _ HPI) as [En Ea]. pose proof (image_collocation _ _ _ _ _ HPI) as Eco. pose proof (proj1 (ge_flow _ _ _ _ _ _ _ _ G)) as Erho.
  rewrite (pi_time _ _ _ _ _ _ HP) in KF', KM'. rewrite L4, L5, L6, EU1, EU2, EU3, EV1, EV2, EV3, Eg, Eg0, En, Ea, Erho in KF', KM'. rewrite L1, L2, L3, Eco, Href in KM'.
  assert (Efu : forall rho gr gl dt ar nv, vscale (rho * ((sg (kp i) * gr - sg (kp i) * gl) / dt) * ar) (vscale (sg (kp i)) (lin nv)) = lin (vscale (rho * ((gr - gl) / dt) * ar) nv)).
  { intros. rewrite scale_scale, lin_scale. f_equal. pose proof (sense_sq mirror (kp i)) as Sq. unfold Rdiv.
    transitivity (sg (kp i) * sg (kp i) * (rho * ((gr - gl) * / dt) * ar)); [ring|]. rewrite Sq. ring. }
  rewrite Efu in KF', KM'. clear Efu. rewrite <- !lin_add in KF', KM'.
  assert (Lf : forall rho net u vec, vscale (rho * (sg (kp i) * net)) (vcross (lin u) (vscale (pick (kp i) 1 (- (1))) (lin vec))) = lin (vscale (rho * net) (vcross u vec))) by (intros; exact (image_leg_force mirror m HI (kp i) rho net u vec)).
  rewrite !Lf in KF', KM'. clear Lf. rewrite !(image_moment mirror m t HI) in KM'. rewrite <- !scale_add, <- !lin_add in KM'. rewrite <- !lin_add in KF'.
  do 2 eexists. split; [exact KF|]. split; [exact KM|]. rewrite KF', KM'. clear.
  split; f_equal; destruct (kp i); cbn [pick]; try reflexivity.
  - f_equal. f_equal. apply add_swap.
  - f_equal. f_equal. f_equal. apply add_swap.
Qed.
Lemma newest_from u n s sp : created u -> after solve prescribed u (S n) s -> (up_first_results_step u <= Z.of_nat n)%Z -> step_at s n sp ->
  forall a, In a (sp_airplanes sp) -> totals_from (sp_operating_point sp) a /\ forall p, In p (airplane_panels a) -> loads_from (sp_operating_point sp) p.
Proof.
  intros C A Hfirst Hsp. destruct (newest_ok _ HS prescribed u n s C (or_introl A)) as (sp1 & rows & la & xs & grids & [N1 _ _ _ _ _ _ _ N9]).
  assert (sp1 = sp) by (unfold step_at in *; congruence). subst sp1. rewrite (proj2 (Z.leb_le _ _) Hfirst) in N9. destruct N9 as (a1 & loads & _ & E). exact (processed _ _ _ _ _ E).
Qed.
Lemma in_step sp p : In p (step_panels sp) -> exists a, In a (sp_airplanes sp) /\ In p (airplane_panels a).
Proof.
  unfold step_panels, all_panels. intros H. apply in_concat in H. destruct H as (l & Hl & Hp). apply in_map_iff in Hl. destruct Hl as (a & <- & Ha). eauto.
Qed.
Definition force_of (p : panel) : vec := match p_force_geometry p with Some v => v | None => vzero end.
Definition moment_of (p : panel) : vec := match p_moment_geometry p with Some v => v | None => vzero end.
Lemma airplane_sum (P : panel -> panel -> Prop) (q : panel -> vec) (L : vec -> vec) a a' (wings : nat -> nat) (keeps : nat -> bool) : L vzero = vzero -> (forall u v, L (vadd u v) = vadd (L u) (L v)) ->
  (forall p p', P p p' -> q p' = L (q p)) -> pairs wings (fun i w w' => rows_image (keeps i) P (w_panels w) (w_panels w')) (a_wings a) (a_wings a') ->
  vsum (map q (airplane_panels a')) = L (vsum (map q (airplane_panels a))).
Proof.
  intros L0 LA HQ H. unfold airplane_panels.
  assert (E : forall l : list wing, vsum (map q (concat (map (fun w => ravel (w_panels w)) l))) = vsum (map (fun w => vsum (map q (concat (w_panels w)))) l)).
  { intros l. induction l as [|w l IH]; [reflexivity|]. cbn [map concat]. rewrite map_app, vsum_app, IH, vsum_cons. reflexivity. }
  rewrite !E. clear E. apply (pairs_vsum wings); [exact L0 | exact LA|]. apply pairs_map. apply (pairs_impl wings _ _ _ _ H). cbn beta. intros i w w' _ _ HR.
  destruct (rows_image_flat _ _ _ _ HR) as (l & Pl & Fl). rewrite <- (vsum_perm _ _ (Permutation_map _ Pl)). clear -Fl L0 LA HQ.
  induction Fl as [|p p' l1 l2 Hp _ IH]; [symmetry; exact L0|]. cbn [map]. rewrite !vsum_cons, IH, LA, (HQ _ _ Hp). reflexivity.
Qed.
Definition forces_related (p p' : panel) : Prop :=
  exists fo mo, p_force_geometry p = Some fo /\ p_moment_geometry p = Some mo /\ p_force_geometry p' = Some (lin fo) /\ p_moment_geometry p' = Some (vscale (mdet m) (lin mo)).
Lemma newest_loads n s s' up1 up1' conv conv' sp sp' : sim (S n) s s' up1 up1' conv conv' -> up_delta_time up <> 0 -> (up_first_results_step up <= Z.of_nat n)%Z -> step_at s n sp -> step_at s' n sp' ->
  airplanes_image m t pr (fun k w w' => rows_image k (loads_image mirror m) (w_panels w) (w_panels w')) (sp_airplanes sp) (sp_airplanes sp') /\
  pairs (partner pr) (fun _ => totals_image mirror) (sp_airplanes sp) (sp_airplanes sp').
Proof.
  intros HSim Hdt Hfirst Hsp Hsp'. pose proof HSim as [A A' R R' _ HX HVel]. pose proof (states_geo (S n) s s' A A' _ _ _ Hsp Hsp') as G.
  pose proof (newest_forces _ _ _ _ _ _ _ _ _ HSim Hdt Hfirst Hsp Hsp') as HF.
  pose proof (newest_from up n s sp HC A Hfirst Hsp) as T. assert (Hfirst' : (up_first_results_step up' <= Z.of_nat n)%Z) by (rewrite (pi_results _ _ _ _ _ _ HP); exact Hfirst).
  pose proof (newest_from up' n s' sp' HC' A' Hfirst' Hsp') as T'. pose proof (ge_flow _ _ _ _ _ _ _ _ G) as HFl.
  split.
  - apply (nest_p (fun _ => loads_image mirror m) _ _ G). apply (pairs_impl f _ _ _ _ HF). intros i p p' Hp Hp' (fo & mo & E1 & E2 & E3 & E4).
    destruct (panels_ringed _ _ _ _ _ _ _ _ _ _ _ _ _ HSim Hsp Hsp' Hp Hp') as [HPI _].
    destruct (in_step _ _ (nth_error_In _ _ Hp)) as (a & Ha & Hpa). destruct (in_step _ _ (nth_error_In _ _ Hp')) as (a' & Ha' & Hpa').
    exact (image_loads_from mirror m t HI _ _ HFl _ _ _ _ _ HPI (proj2 (T a Ha) p Hpa) (proj2 (T' a' Ha') p' Hpa') E1 E2 E3 E4).
  - pose proof (nest_p (fun _ => forces_related) _ _ G HF) as HN. apply (pairs_impl _ _ _ _ _ HN). intros i a a' Ha Ha' (_ & Es & Ec & Eb & HW).
    destruct (T a (nth_error_In _ _ Ha)) as [Ta _]. destruct (T' a' (nth_error_In _ _ Ha')) as [Ta' _].
    assert (Inj : forall (q : panel -> option vec) (l : list panel) vs, map q l = map Some vs -> map (fun p => match q p with Some v => v | None => vzero end) l = vs).
    { intros q l. induction l as [|p l IH]; intros [|v vs] E; try discriminate; [reflexivity|]. cbn [map] in *. apply cons_eq' in E. destruct E as [E1 E2]. rewrite E1, (IH vs E2). reflexivity. }
    pose proof Ta as (fs & ms & Ef & Em & _).
    apply (image_totals_from mirror m HI _ _ HFl a a' fs ms Ta Ta' Es Ec Eb Ef Em). intros fs' ms' Ef' Em'.
    rewrite <- (Inj _ _ _ Ef), <- (Inj _ _ _ Em), <- (Inj _ _ _ Ef'), <- (Inj _ _ _ Em'). split.
    + apply (airplane_sum forces_related force_of (fun v => lin v) a a' _ _ (lin_zero m) (lin_add m)) in HW; [exact HW|]. intros p p' (fo & mo & E1 & E2 & E3 & E4). unfold force_of. rewrite E1, E3. reflexivity.
    + apply (airplane_sum forces_related moment_of (fun v => vscale (mdet m) (lin v)) a a') in HW; [exact HW | | |].
      * rewrite lin_zero. apply scale_zero.
      * intros u v. rewrite lin_add. apply scale_add.
      * intros p p' (fo & mo & E1 & E2 & E3 & E4). unfold moment_of. rewrite E2, E4. reflexivity.
Qed.
(** ** All steps *)
Lemma sim_image n s s' up1 up1' conv conv' : sim n s s' up1 up1' conv conv' -> (n <= length (up_steady_problems up))%nat -> up_delta_time up <> 0 -> run_image mirror m t pr (up_first_results_step up) n s s'.
Proof.
  intros HSim Hn Hdt. pose proof HSim as [A A' R R' HV HX HVel]. constructor; [| | |exact HVel].
  - intros k sp sp' Hk Hsp Hsp'. pose proof (states_geo n s s' A A' _ _ _ Hsp Hsp') as G. unfold strength_image.
    apply (nest_p (fun k p p' => panel_image m t k p p' /\ exists r r', p_ring_vortex p = Some r /\ p_ring_vortex p' = Some r' /\ rv_strength r' = sg k * rv_strength r) _ _ G).
    apply (pairs_impl f _ _ _ _ (HX k sp sp' Hk Hsp Hsp')). intros i p p' Hp Hp' E. destruct (panels_ringed _ _ _ _ _ _ _ _ _ _ _ _ _ HSim Hsp Hsp' Hp Hp') as (HPI & r & r' & Er & Er' & _).
    split; [exact HPI|]. exists r, r'. split; [exact Er|]. split; [exact Er'|]. unfold strength_of in E. rewrite Er, Er' in E. exact E.
  - intros k sp sp' Hk Hsp Hsp'. pose proof (states_geo n s s' A A' _ _ _ Hsp Hsp') as G. apply nest_w; [exact G|].
    exact (wakes_image n s s' up1 up1' conv conv' A A' R R' HV k sp sp' Hk Hsp Hsp').
  - intros k sp sp' Hk Hfirst Hsp Hsp'. destruct (after_prefix _ prescribed up n s (S k) A ltac:(lia)) as [sk Ak]. destruct (sim_all (S k) sk Ak ltac:(lia)) as (sk' & u1 & u1' & cv & cv' & HSk).
    pose proof (sm_after' _ _ _ _ _ _ _ HSk) as Ak'. pose proof (Forall2_length _ _ _ (pi_steps _ _ _ _ _ _ HP)) as LL.
    destruct (after_later _ HS _ up (S k) n sk s F HM Ak A ltac:(lia) Hn k ltac:(lia)) as [E _]. destruct (after_later _ HS _ up' (S k) n sk' s' F' HM' Ak' A' ltac:(lia) ltac:(lia) k ltac:(lia)) as [E' _].
    apply (newest_loads k sk sk' u1 u1' cv cv' sp sp' HSk Hdt Hfirst); unfold step_at in *; congruence.
Qed.
End Runs.

Lemma created_some up : created up -> (0 < length (up_steady_problems up))%nat -> exists F, meshed_problem F up.
Proof.
  intros HC L. destruct (up_steady_problems up) as [|sp l] eqn:E; [cbn [length] in L; lia|]. apply (created_meshed up (mkus up [] [] [] None None) HC).
  unfold unsteady_new. rewrite E. reflexivity.
Qed.
Lemma image_layouts mirror m t pr up up' F F' (solve : list (list R) -> list R -> result (list R)) (prescribed : bool) : SolveSpec solve -> isometric mirror m -> created up -> created up' -> problem_image mirror m t pr up up' ->
  meshed_problem F up -> meshed_problem F' up' -> lay_image pr F F'.
Proof.
  intros HS HI HC HC' HP HM HM'. destruct (ran_start solve prescribed F up HM) as (s & A & _). destruct (ran_start solve prescribed F' up' HM') as (s' & A' & _).
  assert (L : (0 < length (up_steady_problems (us_problem s)))%nat).
  { rewrite <- (Forall2_length _ _ _ (L_UnsteadyStill.steps_kept _ HS _ _ _ _ HC (or_introl A))). exact (mp_some _ _ HM). }
  assert (L' : (0 < length (up_steady_problems (us_problem s')))%nat).
  { rewrite <- (Forall2_length _ _ _ (L_UnsteadyStill.steps_kept _ HS _ _ _ _ HC' (or_introl A'))). exact (mp_some _ _ HM'). }
  destruct (nth_in_range _ 0 L) as [sp Hsp]. destruct (nth_in_range _ 0 L') as [sp' Hsp'].
  exact (geo_layout mirror m t pr F F' sp sp' (steps_geo solve HS prescribed mirror m t HI pr up up' HC HC' HP F F' HM HM' 0 0 s s' 0 sp sp' (or_introl A) (or_introl A') Hsp Hsp')).
Qed.
Lemma image_run mirror m t pr up up' (solve : list (list R) -> list R -> result (list R)) prescribed n s : SolveSpec solve -> isometric mirror m -> created up -> created up' -> up_delta_time up <> 0 ->
  problem_image mirror m t pr up up' -> after solve prescribed up n s ->
  exists s', after solve prescribed up' n s' /\ run_image mirror m t pr (up_first_results_step up) n s s'.
Proof.
  intros HS HI HC HC' Hdt HP A. destruct (has_run_history _ HS _ _ _ _ HC (or_introl A)) as (F & up1 & conv & sa & HH). pose proof (hi_meshed _ _ _ _ _ _ _ _ _ HH) as HM. pose proof (hi_bound _ _ _ _ _ _ _ _ _ HH) as Hn.
  destruct (created_some up' HC') as [F' HM']; [rewrite <- (Forall2_length _ _ _ (pi_steps _ _ _ _ _ _ HP)); exact (mp_some _ _ HM)|].
  pose proof (image_layouts _ _ _ _ _ _ _ _ solve prescribed HS HI HC HC' HP HM HM') as HL.
  destruct (wings_renumbered pr F F' HL) as [g Hg]. destruct (panels_renumbered pr F F' HL) as [f Hf].
  destruct (sim_all solve HS prescribed mirror m t HI pr up up' HC HC' HP F F' HM HM' g f Hg Hf n s A Hn) as (s' & u1 & u1' & cv & cv' & HSim).
  exists s'. split; [exact (sm_after' _ _ _ _ _ _ _ _ _ _ _ _ _ _ _ _ _ _ HSim)|].
  exact (sim_image solve HS prescribed mirror m t HI pr up up' HC HC' HP F F' HM HM' g f Hg Hf n s s' u1 u1' cv cv' HSim Hn Hdt).
Qed.
