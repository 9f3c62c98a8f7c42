(** One time step of the unsteady solver keeps the invariant of the run. *)
From Coq Require Import Lra Lia.
From Verif Require Import M_Unsteady S_Solve S_Loads S_Unsteady L_Base L_Aero L_Loads L_Horseshoe L_SteadyRing L_Frames L_Geometry L_Wake L_WakeWings L_Unsteady.

(** ** Steps that can be solved *)
Definition ready_step (F : list (list (nat * nat))) (sp : steady_problem) : Prop :=
  layout (sp_airplanes sp) = F /\ Forall ringed_wing (step_wings sp) /\
  forall a, In a (sp_airplanes sp) -> a_num_panels a = length (airplane_panels a).
Definition layout_panels (F : list (list (nat * nat))) : nat :=
  list_sum (map (fun ws => list_sum (map (fun cs => fst cs * snd cs)%nat ws)) F).
Lemma list_sum_cons x l : list_sum (x :: l) = (x + list_sum l)%nat.
Proof. reflexivity. Qed.
Lemma layout_count l : Forall ringed_wing (concat (map a_wings l)) -> length (all_panels l) = layout_panels (layout l).
Proof.
  unfold all_panels, layout_panels, layout. induction l as [|a l IH]; intros F; [reflexivity|]. cbn [map concat] in *. apply Forall_app in F. destruct F as [Fa Fl].
  rewrite app_length, list_sum_cons, (IH Fl). f_equal. unfold airplane_panels. clear IH Fl.
  induction (a_wings a) as [|w ws IH]; [reflexivity|]. apply Forall_cons_iff in Fa. destruct Fa as [Hw Fa]. cbn [map concat].
  rewrite app_length, list_sum_cons, (IH Fa). f_equal. destruct Hw as (_ & _ & G & _). apply grid_total; exact G.
Qed.
Lemma ready_count F sp : ready_step F sp -> length (all_panels (sp_airplanes sp)) = layout_panels F /\ num_panels_of (sp_airplanes sp) = layout_panels F.
Proof. intros (HL & HR & HN). pose proof (layout_count _ HR) as E. rewrite HL in E. split; [exact E|]. rewrite <- E. apply num_panels_all; exact HN. Qed.
Lemma Forall_from2 {A B} (P : A -> B -> Prop) (Q : A -> Prop) (S : B -> Prop) l m : (forall x y, P x y -> Q x -> S y) -> Forall2 P l m -> Forall Q l -> Forall S m.
Proof. intros H F. induction F; intros G; [constructor|]. apply Forall_cons_iff in G. destruct G. constructor; eauto. Qed.
Lemma solved_step_wings sp sp' : solved_step sp sp' -> Forall2 solved_wing (step_wings sp) (step_wings sp').
Proof.
  intros [_ F]. unfold step_wings. apply Forall2_concat. apply Forall2_map_both. eapply Forall2_impl; [|exact F]. intros a b (H & _); exact H.
Qed.
Lemma solved_airplane_count a b : solved_airplane a b -> length (airplane_panels b) = length (airplane_panels a).
Proof.
  intros (F & _). unfold airplane_panels. assert (G : Forall2 solved_panel (concat (map (fun w => ravel (w_panels w)) (a_wings a))) (concat (map (fun w => ravel (w_panels w)) (a_wings b)))).
  { apply Forall2_concat, Forall2_map_both. eapply Forall2_impl; [|exact F]. intros w v [_ H]. apply Forall2_concat; exact H. }
  symmetry. exact (Forall2_length _ _ _ G).
Qed.
Lemma solved_ready F sp sp' : solved_step sp sp' -> ready_step F sp -> ready_step F sp'.
Proof.
  intros HS (HL & HR & HN). pose proof (solved_step_wings _ _ HS) as FW. destruct HS as [_ FA]. split; [|split].
  - rewrite (solved_layout _ _ FA). exact HL.
  - eapply Forall_from2; [|exact FW|exact HR]. apply solved_ringed.
  - intros b Hb. destruct (Forall2_in_r _ _ _ _ FA Hb) as (a & Ha & Hab). rewrite (solved_airplane_count _ _ Hab). destruct Hab as (_ & _ & _ & _ & _ & _ & _ & ->). auto.
Qed.

(** ** The previous step's arrays *)
Definition last_of (rows : list ring_row) : last_arrays :=
  mklast (map rr_collocation rows) (map (fun r => rv_strength (rr_vortex r)) rows) (map rr_right_center rows)
         (map rr_front_center rows) (map rr_left_center rows).
Definition no_last (n : nat) : last_arrays := mklast (zeros n) (repeat 0 n) (zeros n) (zeros n) (zeros n).
Lemma zeros_length n : length (zeros n) = n.
Proof. apply repeat_length. Qed.
Lemma last_ok n k steps sp rows : nth_error steps k = Some sp -> unsteady_collapse (sp_airplanes sp) = Ok rows -> length rows = n ->
  last_step_arrays n (S k) steps = Ok (last_of rows).
Proof.
  intros Hs Hr L. unfold last_step_arrays. rewrite (proj2 (index_Some _ _ _) Hs). cbn [bind]. rewrite Hr. cbn [bind].
  rewrite !overwrite_all by (rewrite map_length, ?zeros_length, ?repeat_length; exact L). reflexivity.
Qed.

(** ** New strengths and loads *)
Definition rewound (w v : wing) : Prop := w_wake_vertices v = w_wake_vertices w /\ w_wake_rings v = w_wake_rings w.
Lemma solved_from_flat l m : Forall2 same_airplane l m -> Forall2 solved_panel (all_panels l) (all_panels m) ->
  Forall2 solved_airplane l m /\ Forall2 rewound (concat (map a_wings l)) (concat (map a_wings m)).
Proof.
  intros F G. unfold all_panels in G. apply Forall2_unconcat in G.
  2:{ clear G. induction F as [|a b l m H F IH]; cbn; constructor; auto. destruct H as (H & _). unfold airplane_panels.
      assert (X : Forall2 same_panel (concat (map (fun w => ravel (w_panels w)) (a_wings a))) (concat (map (fun w => ravel (w_panels w)) (a_wings b)))).
      { apply Forall2_concat, Forall2_map_both. eapply Forall2_impl; [|exact H]. intros w v [_ X]. apply Forall2_concat; exact X. }
      exact (Forall2_length _ _ _ X). }
  apply (proj1 (Forall2_map_both _ airplane_panels airplane_panels l m)) in G.
  pose proof (Forall2_both _ _ _ _ F G) as FG. clear F G.
  assert (X : forall a b, same_airplane a b /\ Forall2 solved_panel (airplane_panels a) (airplane_panels b) ->
              solved_airplane a b /\ Forall2 rewound (a_wings a) (a_wings b)).
  { intros a b [(Fw & Hr) Fp].
    assert (Y : Forall2 (fun w v => solved_wing w v /\ rewound w v) (a_wings a) (a_wings b)).
    { unfold airplane_panels in Fp. apply Forall2_unconcat in Fp.
      - apply (proj1 (Forall2_map_both _ (fun w => ravel (w_panels w)) (fun w => ravel (w_panels w)) _ _)) in Fp.
        pose proof (Forall2_both _ _ _ _ Fw Fp) as FF. eapply Forall2_impl; [|exact FF]. intros w v [[E Fs] Fl].
        split; [split|].
        + rewrite E at 1. rewrite E. cbn. destruct w; reflexivity.
        + apply Forall2_unconcat; [|exact Fl]. eapply Forall2_impl; [|exact Fs]. intros x y; apply Forall2_length.
        + rewrite E. split; reflexivity.
      - clear Fp. apply Forall2_map_both. eapply Forall2_impl; [|exact Fw]. intros w v [_ Fs]. apply Forall2_concat, Forall2_length in Fs. exact Fs. }
    split; [split; [|exact Hr]|]; (eapply Forall2_impl; [|exact Y]; intros w v [H1 H2]; assumption). }
  split; [eapply Forall2_impl; [|exact FG]; intros a b H; apply X, H|].
  apply Forall2_concat, Forall2_map_both. eapply Forall2_impl; [|exact FG]; intros a b H; apply X, H.
Qed.
Lemma set_strength_spec p g q : unsteady_set_strength p g = Ok q -> solved_panel p q /\ strength_of q = g.
Proof.
  unfold unsteady_set_strength. destruct (p_ring_vortex p) as [r|] eqn:E; [|discriminate]. intros H. apply Ok_eq in H. subst q.
  split; [split; [unfold same_panel; cbn; auto 12 | cbn; rewrite E; right; exists g; reflexivity] | reflexivity].
Qed.
Lemma update_ok l xs : Forall ringed_wing (concat (map a_wings l)) -> length xs = length (all_panels l) ->
  exists l', update_panels unsteady_set_strength l xs = Ok l' /\ Forall2 same_airplane l l' /\ Forall2 solved_panel (all_panels l) (all_panels l') /\
    map strength_of (all_panels l') = xs.
Proof.
  intros HR L. destruct (update_panels_complete unsteady_set_strength l xs) as [l' E].
  - intros a w row p b Ha Hw Hrow Hp. rewrite Forall_forall in HR. destruct (HR w) as (_ & _ & _ & Hp').
    { apply in_concat. exists (a_wings a). split; [apply in_map; exact Ha | exact Hw]. }
    destruct (Hp' p) as [r Hr]; [apply in_concat; eauto|]. unfold unsteady_set_strength. rewrite Hr. eauto.
  - lia.
  - exists l'. split; [exact E|]. apply update_panels_sound in E. destruct E as (us & rest & Eb & F).
    split; [eapply airplanes_updated_same; [|exact F]; intros p b q H; apply set_strength_spec in H; apply H|].
    apply airplanes_updated_panels in F.
    assert (rest = []).
    { destruct (Forall3_length _ _ _ _ F) as [L1 _]. apply (f_equal (@length _)) in Eb. rewrite app_length in Eb. apply length_zero_iff_nil. lia. }
    subst rest. rewrite app_nil_r in Eb. rewrite Eb. clear Eb L HR. split.
    + revert F; apply Forall3_13. intros p b q H; apply set_strength_spec in H; apply H.
    + clear -F. induction F as [|p b q l1 xs1 l2 H F IH]; [reflexivity|]. cbn. apply set_strength_spec in H. destruct H as [_ ->]. rewrite IH. reflexivity.
Qed.
Lemma strength_at_ok w : ringed_wing w -> wing_strengths_ok (w_panels w).
Proof. intros (_ & _ & _ & H) row p Hr Hp. apply H. apply in_concat. eauto. Qed.
Lemma collapsed_ring_pointwise points br fr fl bl gs ages nu : collapsed_ring points br fr fl bl gs ages nu =
  map (fun x => hd vzero (collapsed_ring [x] br fr fl bl gs ages nu)) points.
Proof.
  unfold collapsed_ring, collapsed_line; cbn [fold_left fst snd]. rewrite zeros_map. unfold add_rows. rewrite !map2_map_map. reflexivity.
Qed.
(** The velocity at a point. *)
Definition velocity_at (rows : list ring_row) (xs : list R) (wake : wake_arrays) (nu : R) (v x : vec) : vec :=
  hd vzero (unsteady_velocity_of rows xs wake nu v [x]).
Lemma velocity_pointwise rows xs wake nu v points : unsteady_velocity_of rows xs wake nu v points = map (velocity_at rows xs wake nu v) points.
Proof.
  unfold velocity_at, unsteady_velocity_of, wake_velocities, add_rows.
  rewrite collapsed_ring_pointwise, (collapsed_ring_pointwise points (wk_back_right wake)), map2_map_map, map_map. apply map_ext. intros x.
  rewrite (collapsed_ring_pointwise [x]), (collapsed_ring_pointwise [x] (wk_back_right wake)). reflexivity.
Qed.
Definition sized_last (n : nat) (la : last_arrays) : Prop :=
  length (la_collocations la) = n /\ length (la_strengths la) = n /\ length (la_right_centers la) = n /\
  length (la_front_centers la) = n /\ length (la_left_centers la) = n.
Lemma flapping_length step dt these last : length last = length these -> length (flapping_velocities step dt these last) = length these.
Proof. intros L. unfold flapping_velocities. destruct step; [apply zeros_length | rewrite map2_length; lia]. Qed.
Lemma loads_total density dt step f airplanes rows la xs :
  Forall ringed_wing (concat (map a_wings airplanes)) -> length rows = length (all_panels airplanes) -> length xs = length rows ->
  sized_last (length rows) la ->
  exists loads, unsteady_loads density dt step (map f) airplanes rows la xs = Ok loads /\ length loads = length rows.
Proof.
  intros HR Lr Lx (L1 & L2 & L3 & L4 & L5). unfold unsteady_loads.
  destruct (mapM_ok effective_strengths (combine (flat_panels airplanes) xs)) as [eff Ee].
  { intros [[[a w] p] g] Hin. apply in_combine_l in Hin. apply in_flat in Hin. destruct Hin as (Ha & Hw & Hp).
    rewrite Forall_forall in HR. assert (HW : ringed_wing w). { apply HR. apply in_concat. exists (a_wings a). split; [apply in_map; exact Ha | exact Hw]. }
    apply in_ravel_position in Hp. destruct Hp as (c & j & Hp).
    eapply effective_total; [apply HW | apply strength_at_ok; exact HW | exact Hp]. }
  rewrite Ee; cbn [bind]. eexists; split; [reflexivity|].
  pose proof (mapM_Ok_length _ _ _ Ee) as Le. rewrite combine_length, flat_panels_length in Le.
  unfold add_rows. rewrite map2_length, combine_length, !map2_length, !combine_length, !map2_length.
  rewrite !flapping_length by (rewrite map_length; congruence). rewrite !map_length. lia.
Qed.

(** ** The invariant *)
Record run_inv (up0 : unsteady_problem) (conv : nat -> vec -> vec) (n : nat) (s : unsteady_solver) : Prop := {
  ri_problem : us_problem s = up_set_steps (up_steady_problems (us_problem s)) up0;
  ri_kept : Forall2 solved_step (up_steady_problems up0) (up_steady_problems (us_problem s));
  ri_future : forall k, (n < k)%nat -> nth_error (up_steady_problems (us_problem s)) k = nth_error (up_steady_problems up0) k;
  ri_size : length (us_wakes s) = length (up_steady_problems up0);
  ri_pending : forall k sp, (n <= k)%nat -> nth_error (up_steady_problems up0) k = Some sp ->
     nth_error (us_wakes s) k = Some (zero_wake (k * total_spanwise (sp_airplanes sp)));
  ri_now : (n < length (up_steady_problems up0))%nat ->
     Forall2 (wing_wake (up_delta_time up0) n (us_heap s)) (wings_at (up_steady_problems (us_problem s)) n) (shed (up_steady_problems (us_problem s)) n) /\
     NoDup (concat (map wing_ids (wings_at (up_steady_problems (us_problem s)) n)));
  ri_grids : forall k, (k <= n)%nat -> (k < length (up_steady_problems up0))%nat ->
     Forall2 (fun w G => ringed_wing w /\
         match k with O => w_wake_vertices w = [] | S _ => grid (S k) (S (w_num_spanwise_panels w)) (w_wake_vertices w) end /\
         grid k (w_num_spanwise_panels w) (w_wake_rings w) /\ grid k (w_num_spanwise_panels w) G)
       (wings_at (up_steady_problems (us_problem s)) k) (shed (up_steady_problems (us_problem s)) k);
  ri_records : forall k, (k < n)%nat -> nth_error (us_wakes s) k = Some (wake_record (up_delta_time up0) (up_steady_problems (us_problem s)) k);
  ri_vertices : forall k, (k < n)%nat -> (S k < length (up_steady_problems up0))%nat ->
     Forall2 (fun t w => w_wake_vertices w = moved_vertices k (conv k) t w /\ exists row, w_wake_rings w = row :: w_wake_rings t)
       (wings_at (up_steady_problems (us_problem s)) k) (wings_at (up_steady_problems (us_problem s)) (S k));
  ri_last : forall m, n = S m -> n = length (up_steady_problems up0) ->
     Forall2 (wing_wake (up_delta_time up0) m (us_heap s)) (wings_at (up_steady_problems (us_problem s)) m) (shed (up_steady_problems (us_problem s)) m) }.

Record ready_problem (F : list (list (nat * nat))) (up : unsteady_problem) : Prop := {
  rp_size : Z.of_nat (length (up_steady_problems up)) = up_num_steps up;
  rp_steps : forall sp, In sp (up_steady_problems up) -> ready_step F sp }.

Lemma shed_agrees steps steps' k : (forall j, (j < k)%nat -> nth_error steps' j = nth_error steps j) ->
  (k = 0%nat -> length (wings_at steps' 0) = length (wings_at steps 0)) -> shed steps' k = shed steps k.
Proof.
  induction k as [|k IH]; intros H H0; cbn [shed].
  - specialize (H0 eq_refl). revert H0. generalize (wings_at steps' 0) (wings_at steps 0). intros l; induction l as [|x l IH]; intros [|y m] L; try discriminate; [reflexivity|].
    cbn. f_equal. apply IH. cbn in L; lia.
  - unfold wings_at at 1. rewrite H by lia. fold (wings_at steps k). rewrite IH; [reflexivity | intros; apply H; lia|].
    intros ->. unfold wings_at. rewrite H by lia. reflexivity.
Qed.

Lemma up_set_steps_twice l m up : up_set_steps l (up_set_steps m up) = up_set_steps l up.
Proof. reflexivity. Qed.
Lemma wings_at_some steps k sp : nth_error steps k = Some sp -> wings_at steps k = step_wings sp.
Proof. intros H. unfold wings_at. rewrite H. reflexivity. Qed.
Lemma wing_wake_grids dt k heap ws Gs : Forall2 (wing_wake dt k heap) ws Gs ->
  Forall2 (fun w G => ringed_wing w /\
         match k with O => w_wake_vertices w = [] | S _ => grid (S k) (S (w_num_spanwise_panels w)) (w_wake_vertices w) end /\
         grid k (w_num_spanwise_panels w) (w_wake_rings w) /\ grid k (w_num_spanwise_panels w) G) ws Gs.
Proof. apply Forall2_impl. intros w G [A B C D _]. auto. Qed.
(** A wing whose panels were solved has the same wake. *)
Lemma wing_wake_kept dt k heap w v G : solved_wing w v -> rewound w v -> wing_wake dt k heap w G -> wing_wake dt k heap v G.
Proof.
  intros HS [E1 E2] [A B C D H]. pose proof (solved_wing_fields _ _ HS) as [_ Es]. constructor.
  - eapply solved_ringed; eassumption.
  - rewrite E1, Es. exact B.
  - rewrite E2, Es. exact C.
  - rewrite Es. exact D.
  - rewrite E1, E2. exact H.
Qed.
Lemma Forall2_kept {A B C} (P : A -> B -> Prop) (Q : A -> C -> Prop) (S : B -> C -> Prop) l m n :
  (forall x y z, P x y -> Q x z -> S y z) -> Forall2 P l m -> Forall2 Q l n -> Forall2 S m n.
Proof. intros H F. revert n. induction F; intros n G; inversion G; subst; constructor; eauto. Qed.
Lemma rewound_ids ws vs : Forall2 rewound ws vs -> map wing_ids vs = map wing_ids ws.
Proof. intros F; induction F as [|w v ws vs [_ E] F IH]; [reflexivity|]. cbn. rewrite IH. unfold wing_ids. rewrite E. reflexivity. Qed.
Lemma totalled_all op l us l' : Forall3 (totalled op) l us l' -> Forall2 same_airplane l l' /\ Forall2 (fun p q => solved_panel p q /\ strength_of q = strength_of p) (all_panels l) (all_panels l').
Proof.
  intros F. split; [revert F; apply Forall3_13; intros a u a' H; apply H|]. unfold all_panels. apply Forall2_concat, Forall2_map_both.
  revert F; apply Forall3_13. intros a u a' (_ & -> & L & _). apply map2_Forall2; [exact L|]. intros p fm. split; [|reflexivity].
  split; [apply loaded_same | left; reflexivity].
Qed.
Lemma wake_record_agrees dt steps steps' k : (forall j, (j < k)%nat -> nth_error steps' j = nth_error steps j) ->
  map w_wake_vertices (wings_at steps' k) = map w_wake_vertices (wings_at steps k) ->
  wake_record dt steps' k = wake_record dt steps k.
Proof.
  intros H E. unfold wake_record, wake_grids. f_equal. f_equal. f_equal.
  assert (L : length (wings_at steps' k) = length (wings_at steps k)) by (apply (f_equal (@length _)) in E; rewrite !map_length in E; exact E).
  rewrite (shed_agrees steps steps' k H) by (intros ->; exact L).
  revert E. generalize (wings_at steps' k) (wings_at steps k) (shed steps k). clear.
  induction l as [|x l IH]; intros [|y m] G E; try discriminate; [reflexivity|]. cbn [map] in E. apply cons_eq in E. destruct E as [E1 E2].
  destruct G as [|g G]; [reflexivity|]. cbn [map2]. rewrite E1, (IH m G E2). reflexivity.
Qed.
Lemma rewound_vertices ws vs : Forall2 rewound ws vs -> map w_wake_vertices vs = map w_wake_vertices ws.
Proof. intros F; induction F as [|w v ws vs [E _] F IH]; [reflexivity|]. cbn. rewrite IH, E. reflexivity. Qed.
Lemma Forall2_set_at {A B} (P : A -> B -> Prop) l m i y : Forall2 P l m -> (i < length m)%nat -> (forall x, nth_error l i = Some x -> P x y) -> Forall2 P l (set_at i y m).
Proof.
  intros F Hi H. apply Forall2_of_nth; [rewrite set_at_length by exact Hi; eapply Forall2_length; exact F|].
  intros k x z Hx Hz. rewrite set_at_nth in Hz by exact Hi. destruct (Nat.eqb_spec k i) as [->|Hk].
  - apply Some_eq in Hz. subst z. auto.
  - destruct (Forall2_nth _ _ _ F _ _ Hz) as (x' & Hx' & HP). congruence.
Qed.

Lemma Forall2_trans_on' {A B C} (P : A -> B -> Prop) (Q : B -> C -> Prop) (S : A -> C -> Prop) : (forall x y z, P x y -> Q y z -> S x z) ->
  forall xs ys zs, Forall2 P xs ys -> Forall2 Q ys zs -> Forall2 S xs zs.
Proof. intros HT xs ys zs F. revert zs. induction F; intros zs G; inversion G; subst; constructor; eauto. Qed.
Lemma Forall3_13' {A B C} (P : A -> B -> C -> Prop) (Q : A -> C -> Prop) : (forall x y z, P x y z -> Q x z) ->
  forall xs ys zs, Forall3 P xs ys zs -> Forall2 Q xs zs.
Proof. intros H xs ys zs F. induction F; constructor; eauto. Qed.
Section Step.
  Variable solve : list (list R) -> list R -> result (list R).
  Variable prescribed : bool.
  (** The linear system of a step. *)
  Definition step_matrix (rows : list ring_row) (nu : R) : list (list R) := unsteady_wing_influences rows (repeat 1 (length rows)) nu.
  Definition step_freestream (n : nat) (dt : R) (rows : list ring_row) (la : last_arrays) (op : operating_point) : list R :=
    unsteady_freestream_influences n dt rows la (freestream_velocity op).
  Definition step_wake (n : nat) (rows : list ring_row) (wake : wake_arrays) (op : operating_point) : list R :=
    unsteady_wake_influences n (length rows) rows wake (op_nu op).
  Definition step_current (n : nat) (dt : R) (op : operating_point) (rows : list ring_row) (la : last_arrays) (wake : wake_arrays) (xs : list R) : current_step :=
    mkcurrent n op (freestream_velocity op) rows la (seeds_of (map rr_panel rows)) (step_matrix rows (op_nu op))
              (step_freestream n dt rows la op) (step_wake n rows wake op) xs wake.

  Lemma unsteady_step_ok F up0 conv n s : ready_problem F up0 -> run_inv up0 conv n s -> (n < length (up_steady_problems up0))%nat ->
    let ST := up_steady_problems (us_problem s) in
    let dt := up_delta_time up0 in
    exists sp rows la, nth_error ST n = Some sp /\ unsteady_collapse (sp_airplanes sp) = Ok rows /\
      Forall2 row_matches (flat_panels (sp_airplanes sp)) rows /\ map rr_panel rows = all_panels (sp_airplanes sp) /\
      last_step_arrays (length rows) n ST = Ok la /\ sized_last (length rows) la /\
      let op := sp_operating_point sp in
      let wake := wake_record dt ST n in
      let b := map2 Rminus (map Ropp (step_wake n rows wake op)) (step_freestream n dt rows la op) in
      (forall e, solve (step_matrix rows (op_nu op)) b = Err e -> unsteady_step solve prescribed s n = Err e) /\
      forall xs, solve (step_matrix rows (op_nu op)) b = Ok xs -> length xs = length rows ->
        let c := step_current n dt op rows la wake xs in
        exists airplanes1 airplanes' s',
          update_panels unsteady_set_strength (sp_airplanes sp) xs = Ok airplanes1 /\
          (if (up_first_results_step up0 <=? Z.of_nat n)%Z then
             exists loads, unsteady_loads (op_density op) dt n (current_velocity c) airplanes1 rows la xs = Ok loads /\
                           process_forces op (map fst loads) (map snd loads) airplanes1 = Ok airplanes'
           else airplanes' = airplanes1) /\
          map strength_of (all_panels airplanes') = xs /\
          Forall2 solved_airplane (sp_airplanes sp) airplanes' /\
          unsteady_step solve prescribed s n = Ok s' /\ us_current s' = Some c /\ us_num_wake s' = us_num_wake s /\
          us_streamline_points s' = us_streamline_points s /\
          nth_error (up_steady_problems (us_problem s')) n = Some (mksteady airplanes' op) /\
          (forall k, (k < n)%nat -> nth_error (up_steady_problems (us_problem s')) k = nth_error ST k) /\
          (forall k, (k < n)%nat -> nth_error (us_wakes s') k = nth_error (us_wakes s) k) /\
          run_inv up0 (fun k => if Nat.eqb k n then convect_vertex prescribed (freestream_velocity op) (current_velocity c) dt else conv k) (S n) s'.
  Proof.
    intros [Rsize Rsteps] [Iprob Ikept Ifut Isize Ipend Inow Igrids Irec Ivert] Hn ST dt. destruct (Inow Hn) as [Iwake Iids].
    assert (LST : length ST = length (up_steady_problems up0)) by (symmetry; eapply Forall2_length; exact Ikept).
    assert (HR : forall sp, In sp ST -> ready_step F sp).
    { intros sp Hsp. destruct (Forall2_in_r _ _ _ _ Ikept Hsp) as (sp0 & H0 & HS). eapply solved_ready; [exact HS | auto]. }
    destruct (nth_in_range ST n ltac:(lia)) as [sp Hsp].
    pose proof (HR sp (nth_error_In _ _ Hsp)) as Rsp. destruct (ready_count _ _ Rsp) as [Cn Cn'].
    fold ST dt in Inow, Iwake, Iids, Igrids, Irec, Ivert, Ifut, Ikept. clear Inow.
    rewrite (wings_at_some _ _ _ Hsp) in Iwake, Iids.
    destruct (unsteady_collapse_ok (sp_airplanes sp) (proj1 (proj2 Rsp))) as (rows & Erows & Frows & Prows).
    assert (Lrows : length rows = layout_panels F) by (rewrite <- Cn, <- Prows, map_length; reflexivity).
    assert (Hla : exists la, last_step_arrays (length rows) n ST = Ok la /\ sized_last (length rows) la).
    { destruct n as [|m].
      - eexists; split; [reflexivity|]. unfold sized_last. cbn. rewrite !zeros_length, repeat_length. auto.
      - destruct (nth_in_range ST m ltac:(lia)) as [sp1 Hsp1]. pose proof (HR sp1 (nth_error_In _ _ Hsp1)) as Rsp1.
        destruct (unsteady_collapse_ok (sp_airplanes sp1) (proj1 (proj2 Rsp1))) as (rows1 & Erows1 & _ & Prows1).
        assert (Lrows1 : length rows1 = length rows). { rewrite Lrows. destruct (ready_count _ _ Rsp1) as [C1 _]. rewrite <- C1, <- Prows1, map_length. reflexivity. }
        exists (last_of rows1). split; [eapply last_ok; eassumption|]. unfold sized_last, last_of. cbn. rewrite !map_length. auto. }
    destruct Hla as (la & Ela & Sla). exists sp, rows, la. split; [exact Hsp|]. split; [exact Erows|]. split; [exact Frows|]. split; [exact Prows|]. split; [exact Ela|]. split; [exact Sla|].
    intros op wake b.
    assert (Hsp0 : exists sp0, nth_error (up_steady_problems up0) n = Some sp0 /\ solved_step sp0 sp).
    { destruct (Forall2_nth _ _ _ Ikept _ _ Hsp) as (sp0 & H0 & HS). eauto. }
    destruct Hsp0 as (sp0 & Hsp0 & HS0).
    assert (Ewake : collapse_wake (us_heap s) (sp_airplanes sp) (zero_wake (n * total_spanwise (sp_airplanes sp0))) = Ok wake).
    { assert (Et : total_spanwise (sp_airplanes sp0) = total_spanwise (sp_airplanes sp)).
      { rewrite !total_spanwise_flat. f_equal. pose proof (solved_step_wings _ _ HS0) as FW. unfold step_wings in FW.
        induction FW as [|w v ws vs Hw FW IH]; [reflexivity|]. cbn. rewrite IH. destruct (solved_wing_fields _ _ Hw) as [_ ->]. reflexivity. }
      rewrite Et, (collapse_wake_ok _ dt n _ (shed ST n) Iwake). unfold wake, wake_record, wake_grids. rewrite (wings_at_some _ _ _ Hsp). reflexivity. }
    assert (Hnum : up_num_steps up0 = Z.of_nat (length ST)) by lia.
    unfold unsteady_step. rewrite Iprob. fold ST. cbn [up_set_steps up_steady_problems up_delta_time up_first_results_step up_num_steps]. fold dt.
    rewrite (proj2 (index_Some _ _ _) Hsp). cbn [bind]. rewrite (proj2 (index_Some _ _ _) (Ipend n sp0 (le_n n) Hsp0)). cbn [bind].
    rewrite Erows. cbn [bind]. rewrite Ewake. cbn [bind].
    replace (num_panels_of (sp_airplanes sp)) with (length rows) by congruence. rewrite Ela. cbn [bind].
    fold op. fold (step_matrix rows (op_nu op)). fold (step_freestream n dt rows la op). fold (step_wake n rows wake op). fold b.
    split; [intros e He; rewrite He; reflexivity|].
    intros xs Hxs Lxs. set (c := step_current n dt op rows la wake xs). rewrite Hxs. cbn [bind].
    destruct (update_ok (sp_airplanes sp) xs (proj1 (proj2 Rsp))) as (airplanes1 & Eu & Su & Pu & Xu); [congruence|].
    rewrite Eu. cbn [bind]. change (mkcurrent n op (freestream_velocity op) rows la (seeds_of (map rr_panel rows)) (step_matrix rows (op_nu op)) (step_freestream n dt rows la op) (step_wake n rows wake op) xs wake) with c.
    destruct (solved_from_flat _ _ Su Pu) as [Fu Wu].
    assert (R1 : Forall ringed_wing (concat (map a_wings airplanes1))).
    { pose proof (solved_ready F sp (mksteady airplanes1 op) (conj eq_refl Fu) Rsp) as (_ & H & _). exact H. }
    assert (L1 : length (all_panels airplanes1) = length rows) by (rewrite <- Lxs, <- Xu, map_length; reflexivity).
    assert (HA : exists airplanes',
       (if (up_first_results_step up0 <=? Z.of_nat n)%Z then
             exists loads, unsteady_loads (op_density op) dt n (current_velocity c) airplanes1 rows la xs = Ok loads /\
                           process_forces op (map fst loads) (map snd loads) airplanes1 = Ok airplanes'
           else airplanes' = airplanes1) /\
       (if (up_first_results_step up0 <=? Z.of_nat n)%Z then
          let* loads := unsteady_loads (op_density op) dt n (current_velocity c) airplanes1 rows la xs in
          process_forces op (map fst loads) (map snd loads) airplanes1
        else Ok airplanes1) = Ok airplanes' /\
       Forall2 same_airplane (sp_airplanes sp) airplanes' /\ Forall2 solved_panel (all_panels (sp_airplanes sp)) (all_panels airplanes') /\
       map strength_of (all_panels airplanes') = xs).
    { destruct (up_first_results_step up0 <=? Z.of_nat n)%Z.
      - destruct (loads_total (op_density op) dt n (velocity_at rows xs wake (op_nu op) (freestream_velocity op)) airplanes1 rows la xs R1 (eq_sym L1) Lxs Sla) as (loads & El & Ll).
        assert (El' : unsteady_loads (op_density op) dt n (current_velocity c) airplanes1 rows la xs = Ok loads).
        { rewrite <- El. unfold unsteady_loads, current_velocity. cbn [c step_current cu_rows cu_strengths cu_wake cu_op cu_freestream].
          rewrite !velocity_pointwise. reflexivity. }
        destruct (proj2 (process_forces_complete op (map fst loads) (map snd loads) airplanes1)) as [airplanes' Ep]; [rewrite !map_length; lia|].
        exists airplanes'. split; [eauto|]. rewrite El'. cbn [bind]. split; [exact Ep|].
        apply process_forces_sound in Ep. destruct Ep as (us & rest & _ & Fp). apply totalled_all in Fp. destruct Fp as [Sp Pp].
        split; [eapply same_airplanes_trans; eassumption|]. split.
        + eapply Forall2_trans_on; [|exact Pu|exact Pp]. intros x y z H [H' _]. eapply solved_panel_trans; eassumption.
        + rewrite <- Xu. clear -Pp. induction Pp as [|p q l m [_ H] Pp IH]; [reflexivity|]. cbn. rewrite IH, H. reflexivity.
      - exists airplanes1. auto. }
    destruct HA as (airplanes' & HA1 & HA2 & SA & PA & XA). rewrite HA2. cbn [bind].
    destruct (solved_from_flat _ _ SA PA) as [FA WA].
    assert (Wk : Forall2 (wing_wake dt n (us_heap s)) (concat (map a_wings airplanes')) (shed ST n)).
    { eapply (Forall2_kept (fun w v => solved_wing w v /\ rewound w v)); [|eapply Forall2_both; [exact (solved_step_wings sp (mksteady airplanes' op) (conj eq_refl FA)) | exact WA]|exact Iwake].
      intros w v G [H1 H2] H3. eapply wing_wake_kept; eassumption. }
    assert (Dk : NoDup (concat (map wing_ids (concat (map a_wings airplanes'))))) by (rewrite (rewound_ids _ _ WA); exact Iids).
    unfold set_airplanes at 1. rewrite (proj2 (index_Some _ _ _) Hsp). cbn [bind].
    set (sp' := mksteady airplanes' (sp_operating_point sp)). set (ST1 := set_at n sp' ST).
    assert (LST1 : length ST1 = length ST) by (apply set_at_length; lia).
    assert (N1 : forall k, nth_error ST1 k = if Nat.eqb k n then Some sp' else nth_error ST k) by (intros k; apply set_at_nth; lia).
    assert (Ssp : solved_step sp sp') by (split; [reflexivity | exact FA]).
    assert (Kept1 : Forall2 solved_step (up_steady_problems up0) ST1).
    { apply Forall2_set_at; [exact Ikept | lia|]. intros x Hx. assert (x = sp0) by congruence. subst x. eapply solved_step_trans; eassumption. }
    set (wakes' := set_at n wake (us_wakes s)).
    assert (Lwk : length wakes' = length (us_wakes s)) by (apply set_at_length; lia).
    assert (Nwk : forall k, nth_error wakes' k = if Nat.eqb k n then Some wake else nth_error (us_wakes s) k) by (intros k; apply set_at_nth; lia).
    assert (Hlow1 : forall k, (k < n)%nat -> nth_error ST1 k = nth_error ST k).
    { intros k Hk. rewrite N1. destruct (Nat.eqb_spec k n); [lia | reflexivity]. }
    assert (Hwn1 : wings_at ST1 n = concat (map a_wings airplanes')) by (unfold wings_at; rewrite N1, Nat.eqb_refl; reflexivity).
    assert (Hwl1 : forall k, (k < n)%nat -> wings_at ST1 k = wings_at ST k) by (intros k Hk; unfold wings_at; rewrite Hlow1 by exact Hk; reflexivity).
    assert (Hvn1 : map w_wake_vertices (wings_at ST1 n) = map w_wake_vertices (wings_at ST n)).
    { rewrite Hwn1, (wings_at_some _ _ _ Hsp). apply rewound_vertices; exact WA. }
    assert (Hshn : shed ST1 n = shed ST n).
    { apply shed_agrees; [exact Hlow1|]. intros E0. clear -E0 Hvn1. subst n. apply (f_equal (@length _)) in Hvn1. rewrite !map_length in Hvn1. exact Hvn1. }
    set (conv' := fun k => if Nat.eqb k n then convect_vertex prescribed (freestream_velocity op) (current_velocity c) dt else conv k).
    (* facts about all steps up to n, for any list of steps that agrees with ST1 there *)
    assert (Common : forall steps, (forall k, (k <= n)%nat -> nth_error steps k = nth_error ST1 k) ->
       (forall k, (k <= n)%nat -> shed steps k = shed ST k) /\
       (forall k, (k < S n)%nat -> nth_error wakes' k = Some (wake_record dt steps k)) /\
       (forall k, (k <= n)%nat -> wings_at steps k = wings_at ST1 k)).
    { intros steps Hs. assert (Hw : forall k, (k <= n)%nat -> wings_at steps k = wings_at ST1 k) by (intros k Hk; unfold wings_at; rewrite Hs by exact Hk; reflexivity).
      split; [|split; [|exact Hw]].
      - intros k Hk. apply shed_agrees; [intros j Hj; rewrite Hs by lia; apply Hlow1; lia|].
        intros ->. rewrite Hw by lia. destruct (Nat.eq_dec n 0) as [E0|E0].
        + clear -E0 Hvn1. subst n. apply (f_equal (@length _)) in Hvn1. rewrite !map_length in Hvn1. exact Hvn1.
        + rewrite Hwl1 by lia. reflexivity.
      - intros k Hk. rewrite Nwk. destruct (Nat.eqb_spec k n) as [->|Hkn].
        + f_equal. unfold wake. symmetry. apply wake_record_agrees; [intros j Hj; rewrite Hs by lia; apply Hlow1; lia|]. rewrite Hw by lia. exact Hvn1.
        + rewrite Irec by lia. f_equal. symmetry. apply wake_record_agrees; [intros j Hj; rewrite Hs by lia; apply Hlow1; lia|].
          rewrite Hw, Hwl1 by lia. reflexivity. }
    assert (GridsN : forall k, (k <= n)%nat -> Forall2 (fun w G => ringed_wing w /\
         match k with O => w_wake_vertices w = [] | S _ => grid (S k) (S (w_num_spanwise_panels w)) (w_wake_vertices w) end /\
         grid k (w_num_spanwise_panels w) (w_wake_rings w) /\ grid k (w_num_spanwise_panels w) G) (wings_at ST1 k) (shed ST k)).
    { intros k Hk. destruct (Nat.eq_dec k n) as [->|Hkn].
      - rewrite Hwn1. eapply wing_wake_grids. exact Wk.
      - rewrite Hwl1 by lia. apply Igrids; lia. }
    assert (VertN : forall k, (k < n)%nat -> Forall2 (fun t w => w_wake_vertices w = moved_vertices k (conv' k) t w /\ exists row, w_wake_rings w = row :: w_wake_rings t) (wings_at ST1 k) (wings_at ST1 (S k))).
    { intros k Hk. rewrite (Hwl1 k Hk). unfold conv'. destruct (Nat.eqb_spec k n) as [E0|_]; [lia|].
      pose proof (Ivert k Hk ltac:(lia)) as V. destruct (Nat.eq_dec (S k) n) as [E0|E0]; [|rewrite Hwl1 by lia; exact V].
      rewrite E0 in *. rewrite Hwn1. rewrite (wings_at_some _ _ _ Hsp) in V.
      eapply (Forall2_trans_on' (fun t w => w_wake_vertices w = moved_vertices k (conv k) t w /\ exists row, w_wake_rings w = row :: w_wake_rings t) (fun w v => solved_wing w v /\ rewound w v /\ ringed_wing w)); [|exact V|].
      - intros t w v [Hv Hi] (H1 & [H2 H2'] & H3). cbn beta in Hv. rewrite H2, Hv. split; [unfold moved_vertices; rewrite (solved_trailing _ _ H1 H3); reflexivity | rewrite H2'; exact Hi].
      - apply Forall2_both; [exact (solved_step_wings sp (mksteady airplanes' op) (conj eq_refl FA))|]. apply Forall2_both; [exact WA|].
        apply Forall2_of_Forall; [exact (proj1 (proj2 Rsp)) | symmetry; eapply Forall2_length; exact WA]. }
    rewrite Hnum. destruct (Z.of_nat n <? Z.of_nat (length ST) - 1)%Z eqn:Hlast.
    - apply Z.ltb_lt in Hlast. destruct (nth_in_range ST1 (S n) ltac:(lia)) as [next Hnext].
      rewrite (proj2 (index_Some _ _ _) Hnext). cbn [bind].
      assert (Hnext0 : nth_error (up_steady_problems up0) (S n) = Some next).
      { rewrite <- Hnext, N1. destruct (Nat.eqb_spec (S n) n); [lia|]. symmetry. apply Ifut. lia. }
      pose proof (Rsteps next (nth_error_In _ _ Hnext0)) as Rnext.
      assert (HL : layout airplanes' = layout (sp_airplanes next)).
      { rewrite (solved_layout _ _ FA). rewrite (proj1 Rsp), (proj1 Rnext). reflexivity. }
      destruct (populate_ok n dt (convect_vertex prescribed (freestream_velocity op) (current_velocity c) dt) (us_heap s) airplanes' (sp_airplanes next) (shed ST n) HL (proj1 (proj2 Rnext)) Wk Dk)
        as (heap' & nexts' & Epop & Fpop & Vpop & Wpop & Dpop).
      rewrite Epop. cbn [bind fst snd]. unfold set_airplanes. rewrite (proj2 (index_Some _ _ _) Hnext). cbn [bind fst snd].
      set (next' := mksteady nexts' (sp_operating_point next)). set (ST2 := set_at (S n) next' ST1).
      assert (LST2 : length ST2 = length ST1) by (apply set_at_length; lia).
      assert (N2 : forall k, nth_error ST2 k = if Nat.eqb k (S n) then Some next' else nth_error ST1 k) by (intros k; apply set_at_nth; lia).
      assert (Hle : forall k, (k <= n)%nat -> nth_error ST2 k = nth_error ST1 k) by (intros k Hk; rewrite N2; destruct (Nat.eqb_spec k (S n)); [lia | reflexivity]).
      destruct (Common ST2 Hle) as (C1 & C2 & C3).
      assert (HwS : wings_at ST2 (S n) = concat (map a_wings nexts')) by (unfold wings_at; rewrite N2, Nat.eqb_refl; reflexivity).
      assert (HshS : shed ST2 (S n) = map2 cons (map trailing_strengths (concat (map a_wings airplanes'))) (shed ST n)).
      { cbn [shed]. rewrite C1, C3, Hwn1 by lia. reflexivity. }
      eexists airplanes1, airplanes', _. split; [exact eq_refl|]. split; [exact HA1|]. split; [exact XA|]. split; [exact FA|]. split; [reflexivity|].
      cbn [us_current us_num_wake us_streamline_points us_problem us_wakes up_set_steps up_steady_problems].
      split; [reflexivity|]. split; [reflexivity|]. split; [reflexivity|].
      split; [rewrite Hle, N1, Nat.eqb_refl by lia; reflexivity|].
      split; [intros k Hk; rewrite Hle by lia; apply Hlow1; exact Hk|].
      split; [intros k Hk; fold wakes'; rewrite Nwk; destruct (Nat.eqb_spec k n); [lia | reflexivity]|].
      constructor; cbn [us_current us_num_wake us_streamline_points us_problem us_wakes up_set_steps up_steady_problems us_heap]; fold dt; fold wakes'; fold ST2.
      + reflexivity.
      + apply Forall2_set_at; [exact Kept1 | lia|]. intros x Hx. assert (x = next) by congruence. subst x. split; [reflexivity | exact Fpop].
      + intros k Hk. rewrite N2. destruct (Nat.eqb_spec k (S n)); [lia|]. rewrite N1. destruct (Nat.eqb_spec k n); [lia|]. apply Ifut. lia.
      + lia.
      + intros k spk Hk Hspk. rewrite Nwk. destruct (Nat.eqb_spec k n); [lia|]. apply Ipend; [lia | exact Hspk].
      + intros _. rewrite HwS, HshS. split; [exact Wpop | exact Dpop].
      + intros k Hk Hk'. destruct (Nat.eq_dec k (S n)) as [->|Hkn].
        * rewrite HwS, HshS. exact (wing_wake_grids dt (S n) heap' _ _ Wpop).
        * rewrite C1, C3 by lia. apply GridsN. lia.
      + exact C2.
      + intros k Hk Hk'. destruct (Nat.eq_dec k n) as [->|Hkn].
        * rewrite HwS, C3, Hwn1 by lia. fold conv'. assert (Ecv : conv' n = convect_vertex prescribed (freestream_velocity op) (current_velocity c) dt) by (unfold conv'; rewrite Nat.eqb_refl; reflexivity). rewrite Ecv. revert Vpop.
          apply Forall3_13'. intros t w w' (V1 & V2 & V3). rewrite V1. split; [unfold moved_vertices, trailing_vertices, trailing_panels; rewrite V2; reflexivity | exact V3].
        * rewrite !C3 by lia. apply VertN. lia.
      + intros m Hm HN. exfalso. lia.
    - apply Z.ltb_ge in Hlast. cbn [bind fst snd].
      destruct (Common ST1 (fun k _ => eq_refl)) as (C1 & C2 & C3).
      eexists airplanes1, airplanes', _. split; [exact eq_refl|]. split; [exact HA1|]. split; [exact XA|]. split; [exact FA|]. split; [reflexivity|].
      cbn [us_current us_num_wake us_streamline_points us_problem us_wakes up_set_steps up_steady_problems].
      split; [reflexivity|]. split; [reflexivity|]. split; [reflexivity|].
      split; [rewrite N1, Nat.eqb_refl by lia; reflexivity|].
      split; [intros k Hk; apply Hlow1; exact Hk|].
      split; [intros k Hk; fold wakes'; rewrite Nwk; destruct (Nat.eqb_spec k n); [lia | reflexivity]|].
      constructor; cbn [us_current us_num_wake us_streamline_points us_problem us_wakes up_set_steps up_steady_problems us_heap]; fold dt; fold wakes'; fold ST1.
      + reflexivity.
      + exact Kept1.
      + intros k Hk. rewrite N1. destruct (Nat.eqb_spec k n); [lia|]. apply Ifut. lia.
      + lia.
      + intros k spk Hk Hspk. rewrite Nwk. destruct (Nat.eqb_spec k n); [lia|]. apply Ipend; [lia | exact Hspk].
      + intros Hc. lia.
      + intros k Hk Hk'. rewrite C1 by lia. apply GridsN. lia.
      + exact C2.
      + intros k Hk Hk'. apply VertN. lia.
      + intros m Hm _. assert (m = n) by lia. subst m. rewrite C1, Hwn1 by lia. exact Wk.
  Qed.
End Step.
