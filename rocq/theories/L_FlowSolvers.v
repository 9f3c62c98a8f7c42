(** The flow of the three solvers, as vortices along the paths that the panels give. *)
From Coq Require Import Reals Lra Lia.
From Verif Require Import M_Base M_Aero M_Horseshoe M_SteadyRing M_Unsteady S_Solve S_Loads S_Mirror S_Unsteady S_UnsteadyRun S_Solvable S_Flow
  L_Base L_Aero L_Loads L_Geometry L_Mirror L_Horseshoe L_MirrorHorseshoe L_SteadyRing L_RingLegs L_MirrorRing L_Solvable L_Size L_SizeSolvers L_UnsteadyRun L_UnsteadyProps L_Flow L_Flow2 L_Flow3.
Local Open Scope R_scope.

Definition path_segments (v : path) (g : R) : list segment := map (fun s => mkseg (fst s) (snd s) g 0) v.
Lemma flow_streamed vs gs stream y : flow_of vs gs stream y = streamed 0 (concat (map2 path_segments vs gs)) stream y.
Proof.
  unfold flow_of, streamed. f_equal. revert gs. induction vs as [|v vs IH]; intros [|g gs]; cbn [map2 concat]; try reflexivity.
  rewrite vsum_cons, map_app, vsum_app, IH. f_equal. unfold path_segments. rewrite map_map. reflexivity.
Qed.
Lemma path_ends vs gs s : In s (concat (map2 path_segments vs gs)) -> sg_age s = 0 /\ exists v, In v vs /\ In (ends s) v.
Proof.
  revert gs. induction vs as [|v vs IH]; intros [|g gs]; cbn [map2 concat]; try (intros []).
  intros H. apply in_app_or in H. destruct H as [H|H].
  - unfold path_segments in H. apply in_map_iff in H. destruct H as ([a b] & <- & H). split; [reflexivity|]. exists v. split; [left; reflexivity | exact H].
  - destruct (IH gs H) as (A & w & Hw & K). split; [exact A|]. exists w. split; [right; exact Hw | exact K].
Qed.
Lemma flow_incompressible vs gs stream x : (forall v s, In v vs -> In s v -> off_threshold x s) -> incompressible (flow_of vs gs stream) x.
Proof.
  intros H. destruct (streamed_incompressible 0 (concat (map2 path_segments vs gs)) stream x) as (J & A & B).
  { intros s Hs. destruct (path_ends _ _ _ Hs) as (_ & v & Hv & K). exact (H v _ Hv K). }
  exists J. split; [|exact B]. apply (ext_field (streamed 0 (concat (map2 path_segments vs gs)) stream)); [intros y; symmetry; apply flow_streamed | exact A].
Qed.
Lemma flow_settles vs gs stream : settles (flow_of vs gs stream) stream.
Proof.
  destruct (streamed_settles 0 (concat (map2 path_segments vs gs)) stream) as (K & D & HD & H). exists K, D. split; [exact HD|]. intros y Hy. rewrite flow_streamed. exact (H y Hy).
Qed.
Lemma path_scaled g y v : vscale g (path_velocity y v) = vsum (map (fun s => line_velocity y (fst s) (snd s) g 0 0) v).
Proof.
  unfold path_velocity. rewrite <- vsum_map_scale. f_equal. apply map_ext. intros s. rewrite <- line_velocity_linear, Rmult_1_r. reflexivity.
Qed.

Lemma hs_flow solve airplanes op s : SolveSpec solve -> hs_run solve (hs_new airplanes op) = Ok s ->
  exists gs, map horseshoe_strength (panels_of (hso_airplanes s)) = map Some gs /\ length gs = length (horseshoe_paths op airplanes) /\
    forall y, hs_solution_velocity s [y] = [flow_of (horseshoe_paths op airplanes) gs (freestream_velocity op) y].
Proof.
  intros HS E. destruct (hs_solution_length _ _ _ HS E) as [L1 _]. pose proof (hs_final_strengths _ _ _ HS E) as X. exists (hso_strengths s). rewrite panels_of_all. split; [exact X|].
  pose proof E as E0. apply hs_run_inv in E0. cbv zeta in E0. cbn [hs_new hso_op hso_airplanes hso_freestream] in E0. destruct E0 as (_ & Ev & Er & _).
  assert (EP : horseshoe_paths op airplanes = map (fun awp => horseshoe_path (freestream_direction op) (snd (fst awp)) (snd awp)) (flat_panels airplanes)) by (unfold horseshoe_paths; apply walk_flat).
  split. { rewrite L1, Er, EP. unfold hs_rows_of. rewrite !map_length. reflexivity. }
  intros y. rewrite hs_velocity_at_spec by exact L1. f_equal. rewrite hs_sys_velocity. unfold sys_velocity, flow_of. rewrite Ev. f_equal. f_equal. rewrite Er, EP. unfold hs_rows_of.
  generalize (hso_strengths s). generalize (flat_panels airplanes). clear. intros l. induction l as [|[[a w] p] l IH]; intros [|g gs]; cbn [map combine map2]; try reflexivity.
  f_equal; [|apply IH]. cbn [fst snd]. rewrite horseshoe_path_unit. apply path_scaled.
Qed.
Lemma ring_flow solve airplanes op s : SolveSpec solve -> (forall a, In a airplanes -> well_meshed_airplane a) -> ring_run solve (ring_new airplanes op) = Ok s ->
  exists gs, map ring_strength (panels_of (rso_airplanes s)) = map Some gs /\ length gs = length (steady_ring_paths op airplanes) /\
    forall y, ring_solution_velocity s [y] = [flow_of (steady_ring_paths op airplanes) gs (freestream_velocity op) y].
Proof.
  intros HS W E. assert (Fr : fresh_ring (ring_new airplanes op)) by (apply ring_new_fresh; intros a Ha; apply W, Ha).
  assert (Wm : forall a w, In a airplanes -> In w (a_wings a) -> well_meshed (w_panels w)) by (intros a w Ha Hw; exact (proj1 (W a Ha) w Hw)).
  pose proof (ring_final_strengths _ _ _ HS (fresh_sized _ Fr) E) as X. exists (rso_strengths s). rewrite panels_of_all. split; [exact X|].
  destruct (final_core _ _ _ E) as (l0 & Ei & Ec & Rc). cbn [ring_new rso_op rso_airplanes] in Ei. pose proof (ring_core_paths op airplanes l0 Wm Ei) as P0.
  destruct (ring_solution _ _ _ HS Fr E) as (L1 & _ & Vs & _). pose proof (ring_collapse_core _ _ Ec) as EC.
  pose proof E as E0. apply ring_run_inv in E0. cbv zeta in E0. destruct E0 as (z0 & z1 & loads & _ & _ & _ & Ev & _). cbn [ring_new rso_freestream] in Ev.
  split. { rewrite L1, <- (Forall2_length _ _ _ P0). rewrite <- (map_length core_of), <- EC, map_length. reflexivity. }
  intros y. rewrite Vs. f_equal. rewrite ring_sys_velocity. unfold sys_velocity, flow_of. rewrite Ev. f_equal. f_equal. rewrite EC. revert P0. generalize (rso_strengths s) (steady_ring_paths op airplanes). clear.
  generalize (all_panels l0). intros l gs vs F. revert gs. induction F as [|p v l vs H _ IH]; intros [|g gs]; cbn [map combine map2]; try reflexivity.
  f_equal; [|apply IH]. cbn [fst snd]. rewrite (core_path_velocity _ _ y H). apply path_scaled.
Qed.

Lemma hs_incompressible solve airplanes op s : SolveSpec solve -> hs_run solve (hs_new airplanes op) = Ok s ->
  exists V, (forall y, hs_solution_velocity s [y] = [V y]) /\
    forall x, (forall v g, In v (horseshoe_paths op airplanes) -> In g v -> off_threshold x g) -> incompressible V x.
Proof. intros HS E. destruct (hs_flow _ _ _ _ HS E) as (gs & _ & _ & HV). eexists. split; [exact HV|]. intros x Hx. apply flow_incompressible. exact Hx. Qed.
Lemma ring_incompressible solve airplanes op s : SolveSpec solve -> (forall a, In a airplanes -> well_meshed_airplane a) -> ring_run solve (ring_new airplanes op) = Ok s ->
  exists V, (forall y, ring_solution_velocity s [y] = [V y]) /\
    forall x, (forall v g, In v (steady_ring_paths op airplanes) -> In g v -> off_threshold x g) -> incompressible V x.
Proof. intros HS HW E. destruct (ring_flow _ _ _ _ HS HW E) as (gs & _ & _ & HV). eexists. split; [exact HV|]. intros x Hx. apply flow_incompressible. exact Hx. Qed.
Lemma hs_settles solve airplanes op s : SolveSpec solve -> hs_run solve (hs_new airplanes op) = Ok s ->
  exists V, (forall y, hs_solution_velocity s [y] = [V y]) /\ settles V (freestream_velocity op).
Proof. intros HS E. destruct (hs_flow _ _ _ _ HS E) as (gs & _ & _ & HV). eexists. split; [exact HV|]. apply flow_settles. Qed.
Lemma ring_settles solve airplanes op s : SolveSpec solve -> (forall a, In a airplanes -> well_meshed_airplane a) -> ring_run solve (ring_new airplanes op) = Ok s ->
  exists V, (forall y, ring_solution_velocity s [y] = [V y]) /\ settles V (freestream_velocity op).
Proof. intros HS HW E. destruct (ring_flow _ _ _ _ HS HW E) as (gs & _ & _ & HV). eexists. split; [exact HV|]. apply flow_settles. Qed.

(** ** Spin *)
Definition joined (v : path) : Prop := forall i s s', nth_error v i = Some s -> nth_error v (S i) = Some s' -> snd s = fst s'.
Lemma joined_spin x g v : joined v -> vsum (map (fun s => vsub (spin x g (fst s)) (spin x g (snd s))) v) = vsub (spin x g (start v)) (spin x g (finish v)).
Proof.
  induction v as [|s v IH]; intros HJ; [cbn [map]; rewrite vsum_nil; unfold start, finish; cbn [hd last fst snd]; vring|].
  cbn [map]. rewrite vsum_cons. destruct v as [|s' v]; [cbn [map]; rewrite vsum_nil; apply vadd_0_r|].
  rewrite IH by (intros i a b Ha Hb; exact (HJ (S i) a b Ha Hb)). unfold start, finish. cbn [hd]. change (last (s :: s' :: v) (vzero, vzero)) with (last (s' :: v) (vzero, vzero)).
  rewrite (HJ O s s' eq_refl eq_refl). generalize (spin x g (fst s)) (spin x g (fst s')) (spin x g (snd (last (s' :: v) (vzero, vzero)))). intros a b c. vring.
Qed.
Lemma open_joined a b c d : joined (open_path a b c d).
Proof. intros [|[|[|i]]] s s' H H'; try discriminate H'; cbn in H, H'; injection H as <-; injection H' as <-; reflexivity. Qed.
Lemma closed_joined a b c d : joined (closed_path a b c d).
Proof. intros [|[|[|[|i]]]] s s' H H'; try discriminate H'; cbn in H, H'; injection H as <-; injection H' as <-; reflexivity. Qed.
Lemma segments_spin x v g : vsum (map (fun s => vsub (spin x (sg_strength s) (sg_origin s)) (spin x (sg_strength s) (sg_termination s))) (path_segments v g)) = vsum (map (fun s => vsub (spin x g (fst s)) (spin x g (snd s))) v).
Proof. unfold path_segments. rewrite map_map. reflexivity. Qed.
Lemma flow_curl vs gs stream x : (forall v s, In v vs -> In s v -> well_clear x s) ->
  exists J, field_derivative (flow_of vs gs stream) x J /\ curl J = vsum (map2 (fun v g => vsum (map (fun s => vsub (spin x g (fst s)) (spin x g (snd s))) v)) vs gs).
Proof.
  intros H. destruct (streamed_curl 0 (concat (map2 path_segments vs gs)) stream x) as (J & A & B).
  - intros s Hs. destruct (path_ends _ _ _ Hs) as (_ & v & Hv & K). exact (H v _ Hv K).
  - intros s Hs. exact (proj1 (path_ends _ _ _ Hs)).
  - exists J. split; [apply (ext_field (streamed 0 (concat (map2 path_segments vs gs)) stream)); [intros y; symmetry; apply flow_streamed | exact A]|].
    rewrite B. clear. revert gs. induction vs as [|v vs IH]; intros [|g gs]; cbn [map2 concat]; try reflexivity. rewrite map_app, vsum_app, vsum_cons, IH, segments_spin. reflexivity.
Qed.
Lemma horseshoe_joined op airplanes v : In v (horseshoe_paths op airplanes) -> joined v.
Proof.
  intros H. unfold horseshoe_paths in H. apply in_concat in H. destruct H as (l & Hl & Hv). apply in_map_iff in Hl. destruct Hl as (w & <- & _). apply in_map_iff in Hv. destruct Hv as (p & <- & _). apply open_joined.
Qed.
Lemma hs_curl solve airplanes op s : SolveSpec solve -> hs_run solve (hs_new airplanes op) = Ok s ->
  exists V gs, (forall y, hs_solution_velocity s [y] = [V y]) /\ map horseshoe_strength (panels_of (hso_airplanes s)) = map Some gs /\
    forall x, (forall v g, In v (horseshoe_paths op airplanes) -> In g v -> well_clear x g) ->
    exists J, field_derivative V x J /\ curl J = vsum (map2 (fun v g => vsub (spin x g (start v)) (spin x g (finish v))) (horseshoe_paths op airplanes) gs).
Proof.
  intros HS E. destruct (hs_flow _ _ _ _ HS E) as (gs & Hg & _ & HV). eexists _, gs. split; [exact HV|]. split; [exact Hg|]. intros x Hx. destruct (flow_curl _ gs (freestream_velocity op) x Hx) as (J & A & B). exists J. split; [exact A|].
  rewrite B. f_equal. assert (HJ : forall v, In v (horseshoe_paths op airplanes) -> joined v) by apply horseshoe_joined. revert HJ. clear. generalize (horseshoe_paths op airplanes). intros vs HJ. revert gs.
  induction vs as [|v vs IH]; intros [|g gs]; cbn [map2]; try reflexivity. f_equal; [apply joined_spin, HJ; left; reflexivity|]. apply IH. intros u Hu. apply HJ. right. exact Hu.
Qed.
(** The ring solver: only the horseshoes at the trailing edge leave spin. *)
Lemma closed_spin x g a b c d v : vsum (map (fun s => vsub (spin x g (fst s)) (spin x g (snd s))) (closed_path a b c d ++ v)) = vsum (map (fun s => vsub (spin x g (fst s)) (spin x g (snd s))) v).
Proof.
  rewrite map_app, vsum_app, joined_spin by apply closed_joined. unfold start, finish, closed_path. cbn [hd last fst snd]. generalize (spin x g a) (vsum (map (fun s => vsub (spin x g (fst s)) (spin x g (snd s))) v)). intros p q. vring.
Qed.
Lemma ring_spins op airplanes v x g : In v (steady_ring_paths op airplanes) ->
  vsum (map (fun s => vsub (spin x g (fst s)) (spin x g (snd s))) v) = vsub (spin x g (start (skipn 4 v))) (spin x g (finish (skipn 4 v))).
Proof.
  intros H. unfold steady_ring_paths in H. apply in_concat in H. destruct H as (l & Hl & Hv). apply in_map_iff in Hl. destruct Hl as (w & <- & _).
  unfold on_mesh in Hv. apply in_concat in Hv. destruct Hv as (l & Hl & Hv). apply in_map_iff in Hl. destruct Hl as (row & <- & _). apply in_map_iff in Hv. destruct Hv as (p & <- & _).
  unfold steady_ring_path, ring_path. destruct (back_ends vzero (w_panels w) (fst row) (fst p) (snd p)) as [bl br]. rewrite closed_spin.
  destruct (behind (w_panels w) (fst row) (fst p)).
  - cbn [skipn app closed_path]. apply joined_spin. intros [|i] s s' Hs; discriminate Hs.
  - cbn [skipn app closed_path]. apply joined_spin, open_joined.
Qed.
Lemma ring_curl solve airplanes op s : SolveSpec solve -> (forall a, In a airplanes -> well_meshed_airplane a) -> ring_run solve (ring_new airplanes op) = Ok s ->
  exists V gs, (forall y, ring_solution_velocity s [y] = [V y]) /\ map ring_strength (panels_of (rso_airplanes s)) = map Some gs /\
    forall x, (forall v g, In v (steady_ring_paths op airplanes) -> In g v -> well_clear x g) ->
    exists J, field_derivative V x J /\ curl J = vsum (map2 (fun v g => vsub (spin x g (start (skipn 4 v))) (spin x g (finish (skipn 4 v)))) (steady_ring_paths op airplanes) gs).
Proof.
  intros HS HW E. destruct (ring_flow _ _ _ _ HS HW E) as (gs & Hg & _ & HV). eexists _, gs. split; [exact HV|]. split; [exact Hg|]. intros x Hx. destruct (flow_curl _ gs (freestream_velocity op) x Hx) as (J & A & B). exists J. split; [exact A|].
  rewrite B. f_equal. assert (HJ : forall v g, In v (steady_ring_paths op airplanes) -> vsum (map (fun s => vsub (spin x g (fst s)) (spin x g (snd s))) v) = vsub (spin x g (start (skipn 4 v))) (spin x g (finish (skipn 4 v)))) by (intros v g Hv; exact (ring_spins _ _ _ _ _ Hv)).
  revert HJ. clear. generalize (steady_ring_paths op airplanes). intros vs HJ. revert gs. induction vs as [|v vs IH]; intros [|g gs]; cbn [map2]; try reflexivity. f_equal; [apply HJ; left; reflexivity|]. apply IH. intros u h Hu. apply HJ. right. exact Hu.
Qed.
