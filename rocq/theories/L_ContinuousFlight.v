(** The plate in the wind for three steps, and problems close to it. *)
From Coq Require Import List ZArith Lia Lra Bool Reals String.
From Verif Require Import M_Unsteady S_Unsteady S_UnsteadyRun S_Geometry S_Vortices S_Loads S_Solve S_Movement S_Mirror S_Solvable S_Similar S_Size S_SizeUnsteady S_Continuous S_ContinuousUnsteady
  L_Base L_Loads L_Horseshoe L_Frames L_Geometry L_Movement L_Problems L_Example L_Example3 L_Example4 L_Example5 L_Gauss L_SizeExample L_SizeRunExample L_Limits L_Continuous L_ContinuousRun L_ContinuousExample L_ContinuousUnsteady.
Import ListNotations.
Local Open Scope R_scope.
Local Open Scope list_scope.

Ltac off_node := first [ apply on_edge_line; [lengthy | lengthy | vunfold; apply vec_ext; cbn; lra] | apply on_edge_clear; lengthy ].
Lemma nodes_off c d x a b : 0 < d -> 0 < c < 1 -> spot d x -> node c d a -> node c d b -> ~ on_edge x (a, b).
Proof.
  intros Hd Hc Hx (y & Hy & Ha) (z & Hz & Hb).
  destruct Hx as [<-|[<-|[<-|[<-|[]]]]]; destruct Hy as [->| ->]; destruct Ha as [->|[->|[->| ->]]]; destruct Hz as [->| ->]; destruct Hb as [->|[->|[->| ->]]]; off_node.
Qed.
Lemma calm_off lines only up s : windy_case resting true lines only up s -> steps_off_edges gauss_solve true up 3.
Proof.
  intros HW i t Hi HA sp w x Hsp Hwk Hx v [a b] Hv Hsg. destruct (calm_nodes _ _ _ _ HW i t Hi HA sp w x Hsp Hwk Hx v (a, b) Hv Hsg) as (c & Hc & HX & HN). exact (nodes_off c c x a b (proj1 Hc) Hc HX (proj1 HN) (proj2 HN)).
Qed.
(** A little denser, faster, longer lasting, and from a slightly different direction. *)
Definition nudged (e : R) (sp : steady_problem) : steady_problem :=
  let op := sp_operating_point sp in mksteady (sp_airplanes sp) (mkop (op_density op + e) (op_velocity op + e) (op_alpha op + e) (op_beta op + e) (op_external_thrust op) (op_nu op + e)).
Definition nudged_problem (e : R) (up : unsteady_problem) : unsteady_problem :=
  mkunsteady (up_movement up) (up_num_steps up) (up_delta_time up + e) (up_only_final_results up) (up_max_period up) (up_first_averaging_step up) (up_first_results_step up)
    (up_final up) (up_final_mean up) (up_final_rms up) (map (nudged e) (up_steady_problems up)).
Lemma small_sum c : tends (fun n => c + / INR (S n)) c.
Proof. assert (X : tends (fun n => c + / INR (S n)) (c + 0)) by (apply tends_plus; [exact (tends_const c) | exact inverse_tends]). rewrite Rplus_0_r in X. exact X. Qed.
Lemma still_panel p : approaching_panel (fun _ => p) p.
Proof. unfold approaching_panel. repeat (split; [apply vtends_const|]). intros _. repeat split. Qed.
Lemma still_airplane a : flying_airplane approaching_panel (fun _ => a) a.
Proof.
  split; [apply tends_const|]. split; [apply tends_const|]. split; [apply tends_const|]. split; [apply vtends_const|]. split; [reflexivity|]. apply each_const. intros w _.
  split; [split; [apply tends_const|]|].
  - apply each_const. intros row _. apply each_const. intros p _. apply still_panel.
  - split; [|intros _; repeat split]. apply each_const. intros row _. apply each_const. intros v _. apply vtends_const.
Qed.
Lemma nudged_near up : approaching_problem (fun n => nudged_problem (/ INR (S n)) up) up.
Proof.
  split.
  - split; [cbn [nudged_problem up_delta_time]; apply small_sum|]. intros n. cbn [nudged_problem up_num_steps up_first_results_step up_first_averaging_step up_max_period up_final up_final_mean up_final_rms]. repeat split; auto.
  - cbn [nudged_problem up_steady_problems]. induction (up_steady_problems up) as [|sp l IH]; [apply each_nil; reflexivity|].
    apply (each_cons _ _ (fun n => nudged (/ INR (S n)) sp) (fun n => map (nudged (/ INR (S n))) l) sp l); [reflexivity | | exact IH].
    split; [|cbn [nudged sp_airplanes]; apply each_const; intros a _; apply still_airplane].
    unfold nudged. cbn [sp_operating_point]. split; [|cbn [op_nu]; apply small_sum]. unfold approaching_op. cbn [op_density op_velocity op_alpha op_beta]. repeat (split; [apply small_sum|]). apply small_sum.
Qed.
Lemma calm_near (lines : bool) : exists UP up s, SolveSpec gauss_solve /\ created up /\ approaching_problem UP up /\ (forall n, up_delta_time (UP n) <> up_delta_time up) /\ 0 < up_delta_time up /\
  solid_steps up /\ viscous up /\ List.length (up_steady_problems up) = 3%nat /\ steps_off_edges gauss_solve true up 3 /\ finished gauss_solve true lines up s.
Proof.
  destruct (windy_runs resting true lines false (or_introl eq_refl)) as (up & s & HW). destruct (windy_facts _ _ _ _ _ _ (or_introl eq_refl) HW) as (HC & Ed & HL & _ & _ & m & a & Hm & Hup & Ea & Hst).
  exists (fun n => nudged_problem (/ INR (S n)) up), up, s. split; [exact gauss_solve_spec|]. split; [exact HC|]. split; [apply nudged_near|].
  split; [intros n; cbn [nudged_problem up_delta_time]; pose proof (Rinv_0_lt_compat _ (lt_0_INR (S n) ltac:(lia))); lra|]. split; [rewrite Ed; lra|].
  split; [|split; [|split; [exact HL|split; [exact (calm_off _ _ _ _ HW) | exact (proj2 HW)]]]].
  - intros sp p Hsp Hp. apply In_nth_error in Hsp. destruct Hsp as [k Hk]. destruct (Hst k sp Hk) as (EA & _). rewrite EA in Hp. unfold all_panels, airplane_panels in Hp. cbn [map concat] in Hp. rewrite Ea in Hp. cbn in Hp. destruct Hp as [<-|[]].
    apply cross_area. intros H. apply (f_equal vz) in H. revert H. unfold p_cross, p_first_diagonal, p_second_diagonal. unfold ex_panel, plain_panel, p_set_position, new_panel; cbn [p_front_right p_front_left p_back_left p_back_right]; vunfold; cbn. lra.
  - intros sp Hsp. apply In_nth_error in Hsp. destruct Hsp as [k Hk]. destruct (Hst k sp Hk) as (_ & v & _ & -> & _). cbn [op_nu]. lra.
Qed.
