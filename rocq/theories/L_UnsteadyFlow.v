(** The flow of a time step: boundary condition, velocity field, flapping velocities. *)
From Coq Require Import List ZArith Lia Lra Bool Reals.
From Verif Require Import M_Unsteady S_Unsteady S_UnsteadyRun S_Geometry S_Vortices S_Loads S_Solve S_Movement L_Base L_Loads L_Horseshoe L_SteadyRing L_RingLegs L_Aero L_Frames
  L_Geometry L_Problems L_Wake L_WakeWings L_Unsteady L_UnsteadyStep L_UnsteadyRun L_UnsteadyFinal L_UnsteadyProps L_UnsteadyProps2.
Import ListNotations.
Local Open Scope R_scope.
Local Open Scope list_scope.

(** A row of the collapsed geometry and the panel it comes from. *)
Definition row_like (r : ring_row) (p : panel) : Prop :=
  same_panel (rr_panel r) p /\ exists ring, p_ring_vortex p = Some ring /\ ring_consistent ring /\
    rr_back_right r = rv_back_right ring /\ rr_front_right r = rv_front_right ring /\ rr_front_left r = rv_front_left ring /\ rr_back_left r = rv_back_left ring /\
    rr_right_center r = lv_center (rv_right_leg ring) /\ rr_front_center r = lv_center (rv_front_leg ring) /\ rr_left_center r = lv_center (rv_left_leg ring) /\
    rr_right_vector r = lv_vector (rv_right_leg ring) /\ rr_front_vector r = lv_vector (rv_front_leg ring) /\ rr_left_vector r = lv_vector (rv_left_leg ring).
Lemma row_like_solved (r : ring_row) p ring : p_ring_vortex p = Some ring -> ring_consistent ring -> same_panel (rr_panel r) p ->
  (ring = rr_vortex r \/ ring = ring_update_strength (rv_strength ring) (rr_vortex r)) -> row_like r p.
Proof.
  intros Hr HC HS HE. split; [exact HS|]. exists ring. split; [exact Hr|]. split; [exact HC|].
  unfold rr_back_right, rr_front_right, rr_front_left, rr_back_left, rr_right_center, rr_front_center, rr_left_center, rr_right_vector, rr_front_vector, rr_left_vector.
  destruct HC as ((A1 & A2 & _) & (B1 & B2 & _) & _ & (D1 & D2 & _) & _).
  assert (G : lv_origin (rv_right_leg (rr_vortex r)) = lv_origin (rv_right_leg ring) /\ lv_termination (rv_right_leg (rr_vortex r)) = lv_termination (rv_right_leg ring) /\
    lv_origin (rv_left_leg (rr_vortex r)) = lv_origin (rv_left_leg ring) /\ lv_termination (rv_left_leg (rr_vortex r)) = lv_termination (rv_left_leg ring) /\
    lv_center (rv_right_leg (rr_vortex r)) = lv_center (rv_right_leg ring) /\ lv_center (rv_front_leg (rr_vortex r)) = lv_center (rv_front_leg ring) /\ lv_center (rv_left_leg (rr_vortex r)) = lv_center (rv_left_leg ring) /\
    lv_vector (rv_right_leg (rr_vortex r)) = lv_vector (rv_right_leg ring) /\ lv_vector (rv_front_leg (rr_vortex r)) = lv_vector (rv_front_leg ring) /\ lv_vector (rv_left_leg (rr_vortex r)) = lv_vector (rv_left_leg ring)).
  { destruct HE as [->|HE]; [auto 12|]. rewrite HE. cbn. auto 12. }
  destruct G as (G1 & G2 & G3 & G4 & G5 & G6 & G7 & G8 & G9 & G10). rewrite G1, G2, G3, G4. auto 14.
Qed.
Lemma ring_velocity_quad nu age x r : ring_consistent r ->
  ring_velocity nu age x r = quad_velocity x (rv_back_right r) (rv_front_right r) (rv_front_left r) (rv_back_left r) (rv_strength r) age nu.
Proof.
  intros ((A1 & A2 & _) & (B1 & B2 & _) & (C1 & C2 & _) & (D1 & D2 & _) & _). unfold ring_velocity, quad_velocity. cbn [map]. rewrite A1, A2, B1, B2, C1, C2, D1, D2.
  rewrite !vsum_cons, vsum_nil, vadd_0_r, !vadd_assoc. reflexivity.
Qed.
Lemma combine_maps {A B} (l : list A) (m : list B) : length l = length m -> map fst (combine l m) = l /\ map snd (combine l m) = m.
Proof. intros L. split; [apply map_fst_combine | apply map_snd_combine]; lia. Qed.
(** The velocity of the bound rings, in rows and in objects. *)
Lemma bound_velocity rows xs nu x : length xs = length rows ->
  collapsed_ring [x] (map rr_back_right rows) (map rr_front_right rows) (map rr_front_left rows) (map rr_back_left rows) xs None nu =
  [vsum (map (fun rg => quad_velocity x (rr_back_right (fst rg)) (rr_front_right (fst rg)) (rr_front_left (fst rg)) (rr_back_left (fst rg)) (snd rg) 0 nu) (combine rows xs))].
Proof.
  intros L. destruct (combine_maps rows xs (eq_sym L)) as [E1 E2].
  match goal with |- _ = [vsum (map ?f ?l)] => change ([vsum (map f l)]) with (map (fun y => vsum (map (fun rg : ring_row * R => quad_velocity y (rr_back_right (fst rg)) (rr_front_right (fst rg)) (rr_front_left (fst rg)) (rr_back_left (fst rg)) (snd rg) 0 nu) l)) [x]) end.
  rewrite <- (collapsed_ring_map_None (fun rg : ring_row * R => rr_back_right (fst rg)) (fun rg => rr_front_right (fst rg)) (fun rg => rr_front_left (fst rg)) (fun rg => rr_back_left (fst rg)) snd (combine rows xs) nu [x]).
  rewrite E2. rewrite <- (map_map fst rr_back_right), <- (map_map fst rr_front_right), <- (map_map fst rr_front_left), <- (map_map fst rr_back_left), E1. reflexivity.
Qed.
Lemma wake_velocity rings nu points : wake_velocities (record_of rings) nu points =
  map (fun x => vsum (map (fun r => quad_velocity x (rv_back_right r) (rv_front_right r) (rv_front_left r) (rv_back_left r) (rv_strength r) (rv_age r) nu) rings)) points.
Proof. unfold wake_velocities, record_of. cbn. apply collapsed_ring_map. Qed.

Section Flow.
  Variable solve : list (list R) -> list R -> result (list R).
  Hypothesis HS : SolveSpec solve.
  Variable prescribed : bool.

  Lemma step_writes s n s' : unsteady_step solve prescribed s n = Ok s' -> exists c, us_current s' = Some c /\ us_wakes s' = set_at n (cu_wake c) (us_wakes s).
  Proof.
    unfold unsteady_step. cbn zeta. intros E. do 7 (apply bind_Ok in E; destruct E as (? & _ & E)). apply bind_Ok in E; destruct E as (? & _ & E).
    apply bind_Ok in E; destruct E as (? & _ & E). apply bind_Ok in E; destruct E as (? & _ & E). apply Ok_eq in E. subst s'. eexists. split; reflexivity.
  Qed.
  Lemma panels_of_wings sp : step_panels sp = concat (map (fun w => concat (w_panels w)) (step_wings sp)).
  Proof.
    unfold step_panels, step_wings, all_panels, airplane_panels. induction (sp_airplanes sp) as [|a l IH]; [reflexivity|]. cbn [map concat]. rewrite map_app, concat_app, IH. reflexivity.
  Qed.
  Lemma panel_position sp i p : nth_error (step_panels sp) i = Some p -> exists j w c k, nth_error (step_wings sp) j = Some w /\ at_position (w_panels w) c k p.
  Proof.
    intros H. apply nth_error_In in H. rewrite panels_of_wings in H. apply in_concat in H. destruct H as (l & Hl & Hp). apply in_map_iff in Hl. destruct Hl as (w & <- & Hw).
    apply in_concat in Hp. destruct Hp as (row & Hr & Hp). apply In_nth_error in Hw, Hr, Hp. destruct Hw as [j Hw], Hr as [c Hr], Hp as [k Hp]. exists j, w, c, k. split; [exact Hw|]. exists row. auto.
  Qed.
  (** The rows of a step's geometry and the panels of the same step in another state. *)
  Lemma rows_like up n s k sp sp' rows : created up -> has_run solve prescribed up n s -> step_at s k sp' -> solved_step sp sp' ->
    Forall2 row_matches (flat_panels (sp_airplanes sp)) rows -> Forall2 row_like rows (step_panels sp').
  Proof.
    intros HC HR Hsp FA FR. assert (FP : Forall2 solved_panel (step_panels sp) (step_panels sp')).
    { rewrite !panels_of_wings. apply Forall2_concat. apply Forall2_map_both. eapply Forall2_impl; [|exact (solved_step_wings sp sp' FA)].
      intros w v [_ H]. apply Forall2_concat. exact H. }
    assert (FC : Forall (fun p => exists r, p_ring_vortex p = Some r /\ ring_consistent r) (step_panels sp')).
    { rewrite Forall_forall. intros p Hp. apply In_nth_error in Hp. destruct Hp as [i Hi]. destruct (panel_position _ _ _ Hi) as (j & w & c & l & Hw & Hpos).
      destruct (bound_rings _ HS _ up n s k j w c l p HC HR) as (r & Hr & HB); [exists sp'; auto | exact Hpos|]. exists r. split; [exact Hr | apply HB]. }
    assert (E : step_panels sp = map snd (flat_panels (sp_airplanes sp))) by (symmetry; apply flat_panels_snd).
    rewrite E in FP. clear E. revert FP FC. generalize (step_panels sp'). clear -FR. induction FR as [|[[a w] p] r fps rows HM FR IH]; intros ps FP FC.
    - inversion FP. constructor.
    - cbn [map] in FP. inversion FP as [|? q ? qs [HP1 HP2] FP' E1 E2]; subst. apply Forall_cons_iff in FC. destruct FC as [(ring & Hr & Hcons) FC]. constructor; [|apply IH; assumption].
      destruct HM as (H1 & _ & H3). cbn [snd] in *. rewrite H3, Hr in HP2. apply solved_ring_some in HP2. destruct HP2 as (r0 & E0 & HE). apply Some_eq in E0. subst r0.
      eapply row_like_solved; [exact Hr | exact Hcons | rewrite H1; exact HP1|]. exact HE.
  Qed.
  Lemma solved_step_refl' sp : solved_step sp sp.
  Proof. apply solved_step_refl. Qed.

  (** Everything about the newest step. *)
  Record newest (up : unsteady_problem) (n : nat) (s : unsteady_solver) (sp : steady_problem) (rows : list ring_row) (la : last_arrays) (xs : list R) (grids : list (list (list ring_vortex))) : Prop := {
    nw_step : step_at s n sp;
    nw_rows : Forall2 row_like rows (step_panels sp);
    nw_strengths : map strength_of (step_panels sp) = xs;
    nw_grids : wake_is s n grids;
    nw_current : us_current s = Some (step_current n (up_delta_time up) (sp_operating_point sp) rows la (record_of (concat (map (@concat ring_vortex) grids))) xs);
    nw_solved : matvec (step_matrix rows (op_nu (sp_operating_point sp))) xs =
       map2 Rminus (map Ropp (step_wake n rows (record_of (concat (map (@concat ring_vortex) grids))) (sp_operating_point sp))) (step_freestream n (up_delta_time up) rows la (sp_operating_point sp));
    nw_last : match n with O => la = no_last (length rows) | S m => exists sp1 rows1, step_at s m sp1 /\ Forall2 row_like rows1 (step_panels sp1) /\ la = last_of rows1 /\ length rows1 = length rows /\
                           la_strengths la = map strength_of (step_panels sp1) end;
    nw_refs : Forall2 (fun r x => rr_ref r = a_xyz_ref (fst (fst x))) rows (flat_panels (sp_airplanes sp));
    nw_loads : if (up_first_results_step up <=? Z.of_nat n)%Z then
       exists a1 loads, unsteady_loads (op_density (sp_operating_point sp)) (up_delta_time up) n
           (current_velocity (step_current n (up_delta_time up) (sp_operating_point sp) rows la (record_of (concat (map (@concat ring_vortex) grids))) xs)) a1 rows la xs = Ok loads /\
         process_forces (sp_operating_point sp) (map fst loads) (map snd loads) a1 = Ok (sp_airplanes sp)
     else True }.
  Lemma newest_ok up n s : created up -> has_run solve prescribed up (S n) s -> exists sp rows la xs grids, newest up n s sp rows la xs grids.
  Proof.
    intros HC HR. pose proof HR as HR0. apply (has_run_history _ HS _ _ _ _ HC) in HR. destruct HR as (F & up1 & conv & sa & HR).
    pose proof (hi_meshed _ _ _ _ _ _ _ _ _ HR) as HM. pose proof (hi_bound _ _ _ _ _ _ _ _ _ HR) as Hb. pose proof (hi_after _ _ _ _ _ _ _ _ _ HR) as HA.
    destruct (after_stepped solve HS prescribed F up n sa HM HA Hb) as (s1 & s' & conv0 & conv1 & A1 & As' & R & R' & St & _).
    destruct (proj1 (after_S _ _ _ _ _) HA) as (s'' & As'' & Es). pose proof (after_unique _ _ _ _ _ _ As'' As') as X. subst s''.
    destruct St as (sp & rows & la & xs & a1 & a' & Hsp & Ec & FR & PR & El & Sl & St). cbn zeta in St. destruct St as (Esol & Lx & _ & Eload & Ex & FA & Ecur & Hn & Hk & _).
    assert (Edt : up_delta_time (us_problem s1) = up_delta_time up) by (rewrite (rn_start _ _ _ _ _ _ _ _ R); reflexivity). rewrite Edt in *.
    set (sp' := mksteady a' (sp_operating_point sp)) in *.
    assert (Hsp' : step_at s n sp') by (unfold step_at; rewrite (hi_steps _ _ _ _ _ _ _ _ _ HR); exact Hn).
    destruct (wake_recorded _ HS _ _ _ _ n HC HR0 (le_n _)) as (grids & HG & Erec).
    assert (Ewk : wake_record (up_delta_time up) (up_steady_problems (us_problem s')) n = record_of (concat (map (@concat ring_vortex) grids))).
    { destruct (step_writes _ _ _ Es) as (c & Ecur' & Ew). rewrite Ecur in Ecur'. apply Some_eq in Ecur'. rewrite (hi_wakes _ _ _ _ _ _ _ _ _ HR), Ew in Erec. rewrite set_at_nth in Erec.
      - rewrite Nat.eqb_refl in Erec. apply Some_eq in Erec. rewrite <- Erec, <- Ecur'. reflexivity.
      - rewrite (ri_size _ _ _ _ (rn_inv _ _ _ _ _ _ _ _ R)). rewrite <- (Forall2_length _ _ _ (rn_started _ _ _ _ _ _ _ _ R)). exact Hb. }
    rewrite Ewk in Esol, Ecur, Eload.
    assert (Efr : up_first_results_step (us_problem s1) = up_first_results_step up) by (rewrite (rn_start _ _ _ _ _ _ _ _ R); reflexivity). rewrite Efr in Eload.
    exists sp', rows, la, xs, grids. constructor.
    - exact Hsp'.
    - eapply (rows_like up (S n) s n sp sp'); [exact HC | exact HR0 | exact Hsp' | split; [reflexivity | exact FA] | exact FR].
    - exact Ex.
    - exact HG.
    - rewrite (hi_current _ _ _ _ _ _ _ _ _ HR). exact Ecur.
    - apply HS in Esol; [apply Esol | apply step_matrix_square|]. rewrite step_matrix_length. apply step_rhs_length. apply Sl.
    - destruct n as [|m]; [cbn in El; apply Ok_eq in El; subst la; reflexivity|].
      pose proof El as El0. cbn [last_step_arrays] in El. apply bind_Ok in El. destruct El as (sp1 & E1 & El). apply bind_Ok in El. destruct El as (rows1 & Er1 & _). apply index_Some in E1.
      assert (Hrdy : forall k q, nth_error (up_steady_problems (us_problem s')) k = Some q -> ready_step F q).
      { intros k q Hq. destruct (Forall2_nth _ _ _ (ri_kept _ _ _ _ (rn_inv _ _ _ _ _ _ _ _ R)) _ _ Hq) as (q1 & H1 & S1).
        exact (solved_ready _ _ _ S1 (rp_steps _ _ (rn_ready _ _ _ _ _ _ _ _ R) q1 (nth_error_In _ _ H1))). }
      destruct (unsteady_collapse_ok _ (proj1 (proj2 (Hrdy _ _ E1)))) as (rows1' & Er1' & FR1 & PR1). assert (rows1' = rows1) by congruence. subst rows1'.
      assert (L1 : length rows1 = length rows).
      { transitivity (length (map rr_panel rows1)); [rewrite map_length; reflexivity|]. transitivity (length (map rr_panel rows)); [|apply map_length]. rewrite PR, PR1.
        rewrite (proj1 (ready_count _ _ (Hrdy _ _ E1))), (proj1 (ready_count _ _ (Hrdy _ _ Hsp))). reflexivity. }
      exists sp1, rows1. assert (Hst : step_at s m sp1) by (unfold step_at; rewrite (hi_steps _ _ _ _ _ _ _ _ _ HR), Hk by lia; exact E1).
      split; [exact Hst|]. split; [eapply (rows_like up (S (S m)) s m sp1 sp1); [exact HC | exact HR0 | exact Hst | apply solved_step_refl | exact FR1]|].
      pose proof (last_ok (length rows) m _ sp1 rows1 E1 Er1 L1) as El'. assert (Ela : la = last_of rows1) by congruence. split; [exact Ela|]. split; [exact L1|].
      rewrite Ela. cbn [la_strengths last_of]. unfold step_panels. rewrite <- flat_panels_snd. revert FR1. clear. generalize (flat_panels (sp_airplanes sp1)). intros l FR.
      induction FR as [|[[a w] p] r l rows HM FR IH]; [reflexivity|]. cbn [map snd]. rewrite IH. f_equal. destruct HM as (_ & _ & H). unfold strength_of. rewrite H. reflexivity.
    - pose proof (flat_rel solved_airplane solved_wing solved_panel _ _ (fun _ _ H => proj1 H) (fun _ _ H => proj2 H) FA) as FF. revert FR FF. clear.
      cbn [sp' sp_airplanes]. generalize (flat_panels (sp_airplanes sp)) (flat_panels a'). intros l l' FR FF. revert l' FF.
      induction FR as [|[[a w] p] r l rows HM FR IH]; intros l' FF; inversion FF as [|? [[b v] q] ? l'' (HA & _) FF' X1 X2]; subst; [constructor|].
      constructor; [|apply IH; exact FF']. destruct HM as (_ & H & _). cbn [fst snd] in *. rewrite H. symmetry. apply HA.
    - destruct (up_first_results_step up <=? Z.of_nat n)%Z; [|exact I]. destruct Eload as (loads & El1 & El2). exists a1, loads. split; [exact El1 | exact El2].
  Qed.

  (** ** The velocity field *)
  Lemma map_combine_Forall2 {A B C} (P : A -> C -> Prop) (f : A * B -> vec) (g : C -> vec) l m n : length m = length l -> Forall2 P l n ->
    (forall i x y z, nth_error l i = Some x -> nth_error m i = Some y -> nth_error n i = Some z -> P x z -> f (x, y) = g z) -> map f (combine l m) = map g n.
  Proof.
    intros L HF. revert m L. induction HF as [|x z l n HP HF IH]; intros [|y m] L H; try discriminate; [reflexivity|]. cbn [combine map].
    rewrite (H 0%nat x y z eq_refl eq_refl eq_refl HP). f_equal. apply IH; [cbn in L; lia|]. intros i. apply (H (S i)).
  Qed.
  Lemma bound_ring_list rows ps : Forall2 row_like rows ps -> exists rs, Forall2 (fun p r => p_ring_vortex p = Some r) ps rs.
  Proof.
    intros HF. induction HF as [|row p rows ps (_ & r & Hr & _) HF [rs IH]]; [exists []; constructor|]. exists (r :: rs). constructor; assumption.
  Qed.
  Lemma bound_sum rows ps rs nu x : Forall2 row_like rows ps -> Forall2 (fun p r => p_ring_vortex p = Some r) ps rs ->
    map (fun rg => quad_velocity x (rr_back_right (fst rg)) (rr_front_right (fst rg)) (rr_front_left (fst rg)) (rr_back_left (fst rg)) (snd rg) 0 nu)
        (combine rows (map strength_of ps)) = map (ring_velocity nu 0 x) rs.
  Proof.
    intros HF. revert rs. induction HF as [|row p rows ps (_ & r & Hr & HC & E1 & E2 & E3 & E4 & _) HF IH]; intros rs HR; inversion HR as [|? r' ? rs' Hr' HR' X1 X2]; subst; [reflexivity|].
    cbn [map combine fst snd]. rewrite (IH rs' HR'). f_equal. assert (r' = r) by congruence. subst r'. rewrite (ring_velocity_quad _ _ _ _ HC), E1, E2, E3, E4. unfold strength_of. rewrite Hr. reflexivity.
  Qed.
  Lemma wake_consistent s k grids : wake_is s k grids -> Forall ring_consistent (concat (map (@concat ring_vortex) grids)).
  Proof.
    intros (sp & _ & _ & HW). rewrite Forall_forall. intros r Hr. apply in_concat in Hr. destruct Hr as (l & Hl & Hr). apply in_map_iff in Hl. destruct Hl as (g & <- & Hg).
    apply in_concat in Hr. destruct Hr as (row & Hrow & Hr). apply In_nth_error in Hg, Hrow, Hr. destruct Hg as [i Hg], Hrow as [a Hrow], Hr as [b Hr].
    apply (HW i g a b r Hg). exists row. auto.
  Qed.
  Lemma velocity_field up n s : created up -> has_run solve prescribed up (S n) s -> exists sp rs grids, step_at s n sp /\
    Forall2 (fun p r => p_ring_vortex p = Some r) (step_panels sp) rs /\ wake_is s n grids /\
    let nu := op_nu (sp_operating_point sp) in
    forall x, unsteady_solution_velocity s [x] =
      Ok [vadd (vadd (vsum (map (ring_velocity nu 0 x) rs))
                     (vsum (map (fun r => ring_velocity nu (rv_age r) x r) (concat (map (@concat ring_vortex) grids)))))
               (freestream_velocity (sp_operating_point sp))].
  Proof.
    intros HC HR. destruct (newest_ok up n s HC HR) as (sp & rows & la & xs & grids & HN). destruct HN as [N1 N2 N3 N4 N5 N6 N7 N8 N9].
    destruct (bound_ring_list _ _ N2) as [rs Hrs]. exists sp, rs, grids. split; [exact N1|]. split; [exact Hrs|]. split; [exact N4|]. cbn zeta. intros x.
    unfold unsteady_solution_velocity. rewrite N5. f_equal. unfold current_velocity, unsteady_velocity_of, step_current. cbn [cu_rows cu_strengths cu_wake cu_op cu_freestream].
    assert (Lx : length xs = length rows) by (rewrite <- N3, map_length; symmetry; exact (Forall2_length _ _ _ N2)).
    rewrite bound_velocity by exact Lx. rewrite wake_velocity. cbn [map]. unfold add_rows. cbn [map2 map]. rewrite <- N3, (bound_sum _ _ _ _ _ N2 Hrs). do 4 f_equal.
    pose proof (wake_consistent _ _ _ N4) as FC. rewrite Forall_forall in FC. apply map_ext_in. intros r Hr. symmetry. apply ring_velocity_quad. apply FC; exact Hr.
  Qed.

  (** ** Apparent velocities *)
  (** The arrays of points and the points of a panel they stand for. *)
  Definition flapping_points : list ((ring_row -> vec) * (last_arrays -> list vec) * (panel -> vec)) :=
    [(rr_collocation, la_collocations, p_collocation_point); (rr_right_center, la_right_centers, right_center);
     (rr_front_center, la_front_centers, front_center); (rr_left_center, la_left_centers, left_center)].
  Lemma flapping_point_row point lasts point' row p : In (point, lasts, point') flapping_points -> row_like row p -> point row = point' p.
  Proof.
    intros Hin (HSP & r & Hr & _ & _ & _ & _ & _ & E1 & E2 & E3 & _). unfold flapping_points in Hin. cbn in Hin.
    destruct Hin as [H|[H|[H|[H|[]]]]]; apply pair_equal_spec in H; destruct H as [H <-]; apply pair_equal_spec in H; destruct H as [<- _].
    - unfold rr_collocation. symmetry. apply (same_panel_collocation _ _ HSP).
    - unfold right_center. rewrite Hr. exact E1.
    - unfold front_center. rewrite Hr. exact E2.
    - unfold left_center. rewrite Hr. exact E3.
  Qed.
  Lemma flapping_point_last point lasts point' rows : In (point, lasts, point') flapping_points -> lasts (last_of rows) = map point rows.
  Proof.
    intros Hin. unfold flapping_points in Hin. cbn in Hin.
    destruct Hin as [H|[H|[H|[H|[]]]]]; apply pair_equal_spec in H; destruct H as [H _]; apply pair_equal_spec in H; destruct H as [<- <-]; reflexivity.
  Qed.
  Lemma flapping_nth up n s sp rows la xs grids point lasts point' : newest up n s sp rows la xs grids -> up_delta_time up <> 0 -> up_delta_time (us_problem s) = up_delta_time up ->
    In (point, lasts, point') flapping_points ->
    length (flapping_velocities n (up_delta_time up) (map point rows) (lasts la)) = length rows /\
    forall i v, nth_error (flapping_velocities n (up_delta_time up) (map point rows) (lasts la)) i = Some v -> apparent_velocity point' s n i v.
  Proof.
    intros [N1 N2 N3 N4 N5 N6 N7 N8 N9] Hdt Et Hin. destruct n as [|m]; cbn [flapping_velocities].
    - split; [rewrite zeros_length; apply map_length|]. intros i v Hi. apply nth_error_In in Hi. apply repeat_spec in Hi. exact Hi.
    - destruct N7 as (sp1 & rows1 & H1 & F1 & -> & L1 & _). rewrite (flapping_point_last _ _ _ _ Hin).
      split; [rewrite map2_length, !map_length; lia|]. intros i v Hi. rewrite nth_error_map2, !nth_error_map in Hi.
      destruct (nth_error rows i) as [row|] eqn:E; [|discriminate]. destruct (nth_error rows1 i) as [row1|] eqn:E1; [|discriminate]. cbn in Hi. apply Some_eq in Hi. subst v.
      destruct (Forall2_nth_l _ _ _ N2 _ _ E) as (q & Hq & Lq). destruct (Forall2_nth_l _ _ _ F1 _ _ E1) as (p & Hp & Lp).
      exists p, q. split; [exists sp1; auto|]. split; [exists sp; auto|]. rewrite Et, <- (flapping_point_row _ _ _ _ _ Hin Lp), <- (flapping_point_row _ _ _ _ _ Hin Lq).
      unfold vscale, vdiv, vopp, vsub; apply vec_ext; cbn [vx vy vz]; field; exact Hdt.
  Qed.
  Lemma flapping_spec up n s point lasts point' : created up -> has_run solve prescribed up (S n) s -> up_delta_time up <> 0 -> In (point, lasts, point') flapping_points ->
    exists vs sp, flapping_at point lasts s = Ok vs /\ step_at s n sp /\ length vs = length (step_panels sp) /\
      forall i v, nth_error vs i = Some v -> apparent_velocity point' s n i v.
  Proof.
    intros HC HR Hdt Hin. destruct (newest_ok up n s HC HR) as (sp & rows & la & xs & grids & HN).
    destruct (has_run_history _ HS _ _ _ _ HC HR) as (F & up1 & conv & sa & HH). pose proof (hi_time _ _ _ _ _ _ _ _ _ HH) as Et.
    destruct (flapping_nth _ _ _ _ _ _ _ _ _ _ _ HN Hdt Et Hin) as [L HV]. destruct HN as [N1 N2 N3 N4 N5 N6 N7 N8 N9].
    exists (flapping_velocities n (up_delta_time up) (map point rows) (lasts la)), sp. unfold flapping_at. rewrite N5, Et. split; [reflexivity|]. split; [exact N1|].
    split; [rewrite L; exact (Forall2_length _ _ _ N2) | exact HV].
  Qed.
  Lemma flapping_first up s point lasts point' : created up -> has_run solve prescribed up 1 s -> In (point, lasts, point') flapping_points ->
    exists vs sp, flapping_at point lasts s = Ok vs /\ step_at s 0 sp /\ length vs = length (step_panels sp) /\ forall v, In v vs -> v = vzero.
  Proof.
    intros HC HR Hin. destruct (newest_ok up 0 s HC HR) as (sp & rows & la & xs & grids & [N1 N2 N3 N4 N5 N6 N7 N8 N9]).
    eexists _, sp. unfold flapping_at. rewrite N5. cbn [step_current cu_step cu_rows cu_last flapping_velocities]. split; [reflexivity|]. split; [exact N1|].
    split; [rewrite zeros_length, map_length; exact (Forall2_length _ _ _ N2) | apply repeat_spec].
  Qed.

  (** ** No penetration *)
  Lemma no_penetration up n s i p : created up -> has_run solve prescribed up (S n) s -> up_delta_time up <> 0 -> panel_of_step s n i p ->
    exists u v, unsteady_solution_velocity s [p_collocation_point p] = Ok [u] /\ apparent_velocity p_collocation_point s n i v /\
      vdot (vadd u v) (p_unit_normal p) = 0.
  Proof.
    intros HC HR Hdt (sp' & Hsp' & Hp). destruct (newest_ok up n s HC HR) as (sp & rows & la & xs & grids & HN).
    destruct (has_run_history _ HS _ _ _ _ HC HR) as (F & up1 & conv & sa & HH). pose proof (hi_time _ _ _ _ _ _ _ _ _ HH) as Et.
    destruct (flapping_nth _ _ _ _ _ _ _ _ rr_collocation la_collocations p_collocation_point HN Hdt Et (or_introl eq_refl)) as [L HV].
    destruct HN as [N1 N2 N3 N4 N5 N6 N7 N8 N9]. assert (sp' = sp) by (unfold step_at in *; congruence). subst sp'.
    destruct (Forall2_nth _ _ _ N2 _ _ Hp) as (row & Hrow & HL). set (FV := flapping_velocities n (up_delta_time up) (map rr_collocation rows) (la_collocations la)) in *.
    assert (Hi : (i < length FV)%nat) by (rewrite L; apply nth_error_Some; congruence). destruct (nth_in_range FV i Hi) as [v Hv].
    assert (Lx : length xs = length rows) by (rewrite <- N3, map_length; symmetry; exact (Forall2_length _ _ _ N2)).
    set (nu := op_nu (sp_operating_point sp)) in *. set (V := freestream_velocity (sp_operating_point sp)) in *. set (rings := concat (map (@concat ring_vortex) grids)) in *.
    set (x := rr_collocation row). set (nv := rr_normal row).
    set (bound := fun g (rg : ring_row * R) => quad_velocity x (rr_back_right (fst rg)) (rr_front_right (fst rg)) (rr_front_left (fst rg)) (rr_back_left (fst rg)) (g rg) 0 nu).
    set (wv := vsum (map (fun r => quad_velocity x (rv_back_right r) (rv_front_right r) (rv_front_left r) (rv_back_left r) (rv_strength r) (rv_age r) nu) rings)).
    assert (Ex : p_collocation_point p = x /\ p_unit_normal p = nv) by apply (same_panel_collocation _ _ (proj1 HL)). destruct Ex as [-> ->].
    exists (vadd (vadd (vsum (map (bound snd) (combine rows xs))) wv) V), v. split; [|split].
    - unfold unsteady_solution_velocity. rewrite N5. f_equal. unfold current_velocity, unsteady_velocity_of, step_current. cbn [cu_rows cu_strengths cu_wake cu_op cu_freestream].
      rewrite bound_velocity by exact Lx. rewrite wake_velocity. reflexivity.
    - apply HV. exact Hv.
    - assert (E0 : n = 0%nat -> rings = []).
      { intros ->. destruct N4 as (sp' & _ & FG & _). unfold rings. clear -FG. induction FG as [|w g ws gs [L _] FG IH]; [reflexivity|]. cbn [map concat]. rewrite IH. destruct g; [reflexivity | discriminate]. }
      pose proof (f_equal (fun l => nth_error l i) N6) as M. cbn beta in M. rewrite step_matrix_explicit in M. unfold matvec in M. rewrite map_map, nth_error_map, Hrow in M. cbn [option_map] in M.
      rewrite nth_error_map2, nth_error_map in M.
      assert (W : nth_error (step_wake n rows (record_of rings) (sp_operating_point sp)) i = Some (vdot wv nv)).
      { unfold step_wake, unsteady_wake_influences. destruct n as [|m].
        - assert (Ew : wv = vzero) by (unfold wv; rewrite (E0 eq_refl); reflexivity). rewrite Ew, vdot_0_l.
          assert (Hl : (i < length (repeat 0%R (length rows)))%nat) by (rewrite repeat_length, <- L; exact Hi).
          destruct (nth_in_range _ _ Hl) as [y Hy]. rewrite Hy. f_equal. apply nth_error_In in Hy. apply repeat_spec in Hy. exact Hy.
        - unfold row_dots. rewrite nth_error_map2, wake_velocity, !nth_error_map, Hrow. reflexivity. }
      rewrite W in M. cbn [option_map] in M. unfold step_freestream, unsteady_freestream_influences, freestream_influences, row_dots in M.
      rewrite nth_error_map2, nth_error_map, nth_error_map2, !nth_error_map, Hrow in M. cbn [option_map] in M. fold FV in M. rewrite Hv in M. apply Some_eq in M.
      fold nv V in M. rewrite (rsum_map2_combine (fun q => vdot (quad_velocity x (rr_back_right q) (rr_front_right q) (rr_front_left q) (rr_back_left q) 1 0 nu) nv)) in M by exact Lx.
      rewrite !vdot_add_l, (vdot_comm (vsum _) nv), vdot_vsum, map_map.
      assert (EB : rsum (map (fun rg => vdot nv (bound snd rg)) (combine rows xs)) =
        rsum (map (fun rg => snd rg * vdot (quad_velocity x (rr_back_right (fst rg)) (rr_front_right (fst rg)) (rr_front_left (fst rg)) (rr_back_left (fst rg)) 1 0 nu) nv) (combine rows xs))).
      { apply rsum_map_ext. intros [q g] _. unfold bound. cbn [fst snd]. rewrite <- (Rmult_1_r g) at 1. rewrite quad_velocity_linear, vdot_scale_r, vdot_comm. reflexivity. }
      rewrite EB, M, (vdot_comm nv V), (vdot_comm nv v). ring.
  Qed.
End Flow.
