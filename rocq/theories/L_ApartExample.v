(** Two plates that get farther and farther apart. *)
From Coq Require Import List Reals Lra Lia Bool String.
From Verif Require Import M_Geometry M_Loads M_Horseshoe M_SteadyRing S_Geometry S_Solve S_Loads S_Mirror S_Solvable S_Size S_Continuous S_Apart S_Reference
  L_Base L_Rotations L_Loads L_Aero L_Gauss L_Horseshoe L_SteadyRing L_Example L_Solvable L_Size L_SizeSolvers L_Limits L_Continuous L_RigidShift L_ContinuousExample L_ApartRun L_ApartHorseshoe L_ApartRing.
Import ListNotations.
Local Open Scope R_scope.

Lemma hs_distant solve op near far ts fars s1 s2 : SolveSpec solve -> receding ts -> (forall n, Forall2 (S_Apart.shifted_airplane (ts n)) far (fars n)) ->
  (forall p, In p (panels_of (near ++ far)) -> p_area p <> 0) ->
  hs_run solve (hs_new near op) = Ok s1 -> hs_run solve (hs_new far op) = Ok s2 ->
  exists ss N, (forall n, (N <= n)%nat -> hs_run solve (hs_new (near ++ fars n) op) = Ok (ss n)) /\
    each_from N (approaching_results (dynamic_pressure op) horseshoe_strength) (fun n => hso_airplanes (ss n)) (hso_airplanes s1 ++ hso_airplanes s2) /\
    (forall x, each_from N vtends (fun n => hs_solution_velocity (ss n) [x]) (hs_solution_velocity s1 [x])) /\
    (forall x, each_from N vtends (fun n => hs_solution_velocity (ss n) [vadd x (ts n)]) (hs_solution_velocity s2 [x])).
Proof. intros HS Ht HF HA. apply hs_apart; try assumption. intros p Hp. apply area_cross, HA, Hp. Qed.
Lemma ring_distant solve op near far ts fars s1 s2 : SolveSpec solve -> receding ts -> (forall n, Forall2 (S_Apart.shifted_airplane (ts n)) far (fars n)) ->
  (forall p, In p (panels_of (near ++ far)) -> p_area p <> 0) -> (forall n a, In a (near ++ far ++ fars n) -> well_meshed_airplane a) ->
  ring_run solve (ring_new near op) = Ok s1 -> ring_run solve (ring_new far op) = Ok s2 ->
  exists ss N, (forall n, (N <= n)%nat -> ring_run solve (ring_new (near ++ fars n) op) = Ok (ss n)) /\
    each_from N (approaching_results (dynamic_pressure op) ring_strength) (fun n => rso_airplanes (ss n)) (rso_airplanes s1 ++ rso_airplanes s2) /\
    (forall x, each_from N vtends (fun n => ring_solution_velocity (ss n) [x]) (ring_solution_velocity s1 [x])) /\
    (forall x, each_from N vtends (fun n => ring_solution_velocity (ss n) [vadd x (ts n)]) (ring_solution_velocity s2 [x])).
Proof.
  intros HS Ht HF HA W. apply ring_apart; try assumption.
  - intros p Hp. apply area_cross, HA, Hp.
  - intros a Ha. apply (W 0%nat). apply in_or_app. auto.
  - intros a Ha. apply (W 0%nat). apply in_or_app. right. apply in_or_app. auto.
  - intros n a Ha. apply (W n). apply in_or_app. right. apply in_or_app. auto.
Qed.
Lemma Rinv_lt_cancel x y : 0 < y -> / x < / y -> y < x \/ x <= 0.
Proof. intros Hy H. destruct (Rle_or_lt x 0); [right; assumption|]. left. apply Rnot_le_lt. intros H1. apply Rinv_le_contravar in H1; lra. Qed.
Definition sideways (n : nat) : vec := mkvec 0 (INR n) 0.
Definition displaced (t : vec) (a : airplane) : airplane := moved_reference t (shift_plane t a).
Lemma displaced_shifted t a : S_Apart.shifted_airplane t a (displaced t a).
Proof.
  repeat (split; [reflexivity|]). cbn [displaced moved_reference with_reference shift_plane a_set_wings a_wings].
  induction (a_wings a) as [|w ws IH]; constructor; [|exact IH]. split; [reflexivity|]. cbn [shift_wing w_set_panels w_panels]. unfold shift_panels.
  induction (w_panels w) as [|r rs IHr]; constructor; [|exact IHr]. induction r as [|p r IHp]; constructor; [|exact IHp]. repeat split.
Qed.
Lemma distant_example : exists ts near far fars op, receding ts /\ (forall n, Forall2 (S_Apart.shifted_airplane (ts n)) far (fars n)) /\
  (forall n m, ts n = ts m -> n = m) /\ length (panels_of near) = 1%nat /\ length (panels_of far) = 1%nat /\
  (forall p, In p (panels_of (near ++ far)) -> p_area p <> 0) /\ (forall n a, In a (near ++ far ++ fars n) -> well_meshed_airplane a) /\
  (exists s1 s2, hs_run gauss_solve (hs_new near op) = Ok s1 /\ hs_run gauss_solve (hs_new far op) = Ok s2) /\
  (exists s1 s2, ring_run gauss_solve (ring_new near op) = Ok s1 /\ ring_run gauss_solve (ring_new far op) = Ok s2).
Proof.
  destruct plate_near as (_ & _ & H3 & H4 & _ & _ & (s1 & H7) & (s2 & H8)).
  assert (LP : length (panels_of (plate_of 1)) = 1%nat) by (destruct (plate_of_panels 1 ltac:(lra)) as (p & -> & _); reflexivity).
  exists sideways, (plate_of 1), (plate_of 1), (fun n => map (displaced (sideways n)) (plate_of 1)), (ex_op 1 10). split; [|split; [|split; [|split; [|split; [|split; [|split; [|split]]]]]]].
  - intros d. pose proof (Rmax_r d 0) as H0. destruct (archimed_cor1 (/ (Rmax d 0 + 1)) ltac:(apply Rinv_0_lt_compat; lra)) as (N & HN & HN'). apply Rinv_lt_cancel in HN; [|lra]. apply lt_INR in HN'. cbn [INR] in HN'. exists N. intros n Hn. apply le_INR in Hn. unfold sideways.
    pose proof (pos_INR n). unfold vnorm, vdot. cbn [vx vy vz]. replace (0 * 0 + INR n * INR n + 0 * 0) with (INR n * INR n) by ring. rewrite sqrt_square by lra. pose proof (Rmax_l d 0). lra.
  - intros n. clear. induction (plate_of 1) as [|a l IH]; cbn [map]; [constructor|]. constructor; [apply displaced_shifted | exact IH].
  - intros n m E. apply (f_equal vy) in E. cbn in E. apply INR_eq, E.
  - exact LP.
  - exact LP.
  - intros p Hp. apply cross_area, H3. apply in_panels_of in Hp. rewrite all_panels_app in Hp. apply in_panels_of. apply in_app_or in Hp. destruct Hp; assumption.
  - intros n a Ha. apply in_app_or in Ha. destruct Ha as [Ha|Ha]; [apply H4, Ha|]. apply in_app_or in Ha. destruct Ha as [Ha|Ha]; [apply H4, Ha|].
    apply in_map_iff in Ha. destruct Ha as (a0 & <- & Ha0). exact (shift_plane_meshed (sideways n) a0 (H4 a0 Ha0)).
  - exists s1, s1. auto.
  - exists s2, s2. auto.
Qed.
