(** Moving the reference point: the runs of the two steady solvers. *)
From Coq Require Import List ZArith Lia Lra Bool Reals.
From Verif Require Import M_Horseshoe M_Unsteady S_Loads S_Reference L_Base L_Loads L_Horseshoe L_RigidShift L_Rigid L_Similar L_Again L_AgainRun L_Reference.
Import ListNotations.
Local Open Scope R_scope.
Local Open Scope list_scope.

Definition kept (a b : airplane) : Prop := a_xyz_ref b = a_xyz_ref a /\ length (airplane_panels b) = length (airplane_panels a).
Lemma update_kept {B} (g : panel -> B -> result panel) l bs l' : update_panels g l bs = Ok l' -> Forall2 kept l l'.
Proof.
  intros H. apply update_panels_sound in H. destruct H as (useds & rest & _ & F). induction F as [|a u a' l us l' Hu F IH]; constructor; [|exact IH].
  pose proof (airplane_updated_panels _ _ _ _ Hu) as Hp. destruct Hu as (ws & us' & E & _). split; [rewrite E; reflexivity|]. symmetry. eapply Forall3_13 in Hp; [apply (Forall2_length _ _ _ Hp)|]. intros ? ? ? _. exact I.
Qed.
Lemma Forall2_shift {B} (P : B -> B -> Prop) (shift : vec -> B -> B) ds rows : (forall d r, P r (shift d r)) -> length ds = length rows -> Forall2 P rows (map2 shift ds rows).
Proof. intros H. revert ds. induction rows as [|r rows IH]; intros [|d ds] E; try discriminate; constructor; [apply H | apply IH; cbn in E; lia]. Qed.
Lemma minus_plus d x : vsub (vadd d x) x = d.
Proof. vring. Qed.
Lemma hs_shift_about op d r : hs_row_about op r (hs_shift op d r).
Proof. unfold hs_row_about, hs_shift. cbn [hr_ref]. rewrite minus_plus. reflexivity. Qed.
Lemma ring_shift_about op d r : ring_row_about op r (ring_shift op d r).
Proof. unfold ring_row_about, ring_shift. cbn [rr_ref]. rewrite minus_plus. reflexivity. Qed.

Lemma hs_velocity_shift op ds rows g v points : length ds = length rows -> hs_velocity_of (map2 (hs_shift op) ds rows) g v points = hs_velocity_of rows g v points.
Proof. intros E. unfold hs_velocity_of. rewrite !(shift_map _ (hs_shift op)) by (assumption || reflexivity). reflexivity. Qed.
Lemma hs_forces_shift op density ds rows g v : length ds = length rows -> hs_forces density (map2 (hs_shift op) ds rows) g v = hs_forces density rows g v.
Proof.
  intros E. unfold hs_forces. rewrite hs_velocity_shift by exact E. rewrite (shift_map _ (hs_shift op)) by (assumption || reflexivity).
  generalize (hs_velocity_of rows g v (map hr_bound_center rows)) as us. revert ds E g. induction rows as [|r rows IH]; intros [|d ds] E [|x g] us; try discriminate; try reflexivity. cbn in E. cbn [map2 combine]. destruct us as [|u us]; [reflexivity|].
  cbn [map2 fst snd]. f_equal. apply IH. lia.
Qed.
Lemma hs_moved solve op vs l : length vs = length l -> rrel (hs_about vs) (hs_run solve (hs_new l op)) (hs_run solve (hs_new (map2 (airplane_about op) vs l) op)).
Proof.
  intros E. unfold hs_run. cbn [hso_op hso_airplanes hso_freestream hso_seed_points hs_new].
  assert (EI : hs_init op (map2 (airplane_about op) vs l) = map2 (airplane_about op) vs (hs_init op l)).
  { unfold hs_init. rewrite map_map2, map2_map_r. apply map2_ext. intros v a. apply about_hs_init. }
  rewrite EI. assert (EN : length vs = length (hs_init op l)) by (unfold hs_init; rewrite map_length; exact E). revert EN. generalize (hs_init op l) as l1. intros l1 EN.
  rewrite about_hs_collapse by exact EN. destruct (hs_collapse l1) as [rows|e] eqn:Er; cbn [bind result_map]; [|reflexivity].
  assert (ED : length (levers vs l1) = length rows) by (rewrite levers_length by exact EN; symmetry; apply (mapM_same_length _ _ _ Er)).
  rewrite (shift_seeds op _ (hs_shift op)) by (assumption || reflexivity).
  assert (EF : hs_influences (map2 (hs_shift op) (levers vs l1) rows) = hs_influences rows) by (unfold hs_influences; rewrite !(shift_map _ (hs_shift op)) by (assumption || reflexivity); reflexivity).
  rewrite EF, (shift_map hr_normal (hs_shift op)) by (assumption || reflexivity).
  destruct (solve _ _) as [g|e]; cbn [bind]; [|reflexivity]. rewrite about_update by (exact (about_hs_set op) || exact EN).
  destruct (update_panels hs_set_strength l1 g) as [l2|e] eqn:Eu; cbn [bind result_map]; [|reflexivity]. rewrite hs_forces_shift by exact ED.
  assert (EN2 : length vs = length l2) by (rewrite (update_length _ _ _ _ Eu); exact EN).
  rewrite (about_process op (hs_forces (op_density op) rows g (freestream_velocity op)) (hs_moments rows (hs_forces (op_density op) rows g (freestream_velocity op)))); [|exact EN2|].
  2: { rewrite (levers_same vs l1 l2) by (apply (update_kept _ _ _ _ Eu)). apply moved_hs_loads. exact ED. }
  destruct (process_forces _ _ _ l2) as [l3|e]; cbn [bind result_map]; [|reflexivity]. cbn [rrel]. unfold hs_about. cbn. split; [reflexivity|]. split; [reflexivity|]. split; [reflexivity|].
  split; [apply Forall2_shift; [apply hs_shift_about | exact ED]|]. repeat split.
  - f_equal. apply streamlines_ext. intros points. apply hs_velocity_shift. exact ED.
  - intros points. unfold hs_solution_velocity. cbn. apply hs_velocity_shift. exact ED.
Qed.

Lemma ring_velocity_shift op ds rows g h v points : length ds = length rows -> ring_velocity_of (map2 (ring_shift op) ds rows) g h v points = ring_velocity_of rows g h v points.
Proof. intros E. unfold ring_velocity_of. rewrite !(shift_map _ (ring_shift op)) by (assumption || reflexivity). reflexivity. Qed.
Lemma about_num op vs l : length vs = length l -> num_panels_of (map2 (airplane_about op) vs l) = num_panels_of l.
Proof.
  unfold num_panels_of. generalize 0%nat. revert vs. induction l as [|a l IH]; intros [|v vs] k E; try discriminate; [reflexivity|]. cbn in E. cbn [map2 fold_left]. apply IH. lia.
Qed.
Lemma ring_loads_ext density u u' l rows g : (forall points, u' points = u points) -> ring_loads density u' l rows g = ring_loads density u l rows g.
Proof. intros H. unfold ring_loads. rewrite !H. reflexivity. Qed.
Lemma ring_moved solve op vs l : length vs = length l -> rrel (ring_about vs) (ring_run solve (ring_new l op)) (ring_run solve (ring_new (map2 (airplane_about op) vs l) op)).
Proof.
  intros E. unfold ring_run. cbn [rso_op rso_airplanes rso_freestream rso_seed_points rso_strengths rso_hs_strengths ring_new]. rewrite about_num by exact E. generalize (num_panels_of l) as n. intros n.
  assert (EI : ring_init op (map2 (airplane_about op) vs l) = result_map (map2 (airplane_about op) vs) (ring_init op l)) by (apply mapM_map2; [apply about_ring_init | exact E]).
  rewrite EI. destruct (ring_init op l) as [l1|e] eqn:Ei; cbn [bind result_map]; [|reflexivity]. assert (EN : length vs = length l1) by (rewrite (mapM_same_length _ _ _ Ei); exact E). clear EI Ei.
  rewrite about_ring_collapse by exact EN. destruct (ring_collapse l1) as [rows|e] eqn:Er; cbn [bind result_map]; [|reflexivity].
  assert (ED : length (levers vs l1) = length rows) by (rewrite levers_length by exact EN; symmetry; apply (mapM_same_length _ _ _ Er)).
  rewrite (shift_seeds op _ (ring_shift op)) by (assumption || reflexivity).
  assert (EO : forall old, ring_collapse_hs_strengths (map2 (ring_shift op) (levers vs l1) rows) old = ring_collapse_hs_strengths rows old).
  { revert ED. generalize (levers vs l1) as ds. clear. induction rows as [|r rows IH]; intros [|d ds] E [|o old]; try discriminate; try reflexivity. unfold ring_collapse_hs_strengths in *. cbn in E. cbn [map2]. rewrite IH by lia. reflexivity. }
  rewrite EO. generalize (ring_collapse_hs_strengths rows (repeat 0 n)) as ones. intros ones.
  assert (EF : ring_influences (map2 (ring_shift op) (levers vs l1) rows) (repeat 1 n) ones = ring_influences rows (repeat 1 n) ones) by (unfold ring_influences; rewrite !(shift_map _ (ring_shift op)) by (assumption || reflexivity); reflexivity).
  rewrite EF, (shift_map rr_normal (ring_shift op)) by (assumption || reflexivity).
  destruct (solve _ _) as [g|e]; cbn [bind]; [|reflexivity]. rewrite about_update by (exact (about_ring_set op) || exact EN).
  destruct (update_panels ring_set_strength l1 g) as [l2|e] eqn:Eu; cbn [bind result_map]; [|reflexivity].
  assert (EH : ring_solved_hs_strengths (map2 (ring_shift op) (levers vs l1) rows) g ones = ring_solved_hs_strengths rows g ones).
  { revert ED. generalize (levers vs l1) as ds. clear. revert g ones. unfold ring_solved_hs_strengths. induction rows as [|r rows IH]; intros [|x g] [|o ones] [|d ds] E; try discriminate; try reflexivity. cbn in E. cbn [map2 combine fst snd]. rewrite IH by lia. reflexivity. }
  rewrite EH. generalize (ring_solved_hs_strengths rows g ones) as hs. intros hs.
  assert (EN2 : length vs = length l2) by (rewrite (update_length _ _ _ _ Eu); exact EN).
  rewrite moved_ring_loads by assumption. rewrite (ring_loads_ext _ (ring_velocity_of rows g hs (freestream_velocity op)) (ring_velocity_of (map2 (ring_shift op) (levers vs l1) rows) g hs (freestream_velocity op))) by (intros; apply ring_velocity_shift; exact ED).
  destruct (ring_loads _ _ l2 rows g) as [loads|e]; cbn [bind result_map]; [|reflexivity].
  rewrite (about_process op (map fst loads) (map snd loads)); [|exact EN2|].
  2: { rewrite !combine_split', (levers_same vs l1 l2) by (apply (update_kept _ _ _ _ Eu)). reflexivity. }
  destruct (process_forces _ _ _ l2) as [l3|e]; cbn [bind result_map]; [|reflexivity]. cbn [rrel]. unfold ring_about. cbn. split; [reflexivity|]. split; [reflexivity|]. split; [reflexivity|].
  split; [apply Forall2_shift; [apply ring_shift_about | exact ED]|]. repeat split.
  - f_equal. apply streamlines_ext. intros points. apply ring_velocity_shift. exact ED.
  - intros points. unfold ring_solution_velocity. cbn. apply ring_velocity_shift. exact ED.
Qed.
