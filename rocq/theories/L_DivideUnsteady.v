(** Unsteady runs of airplanes with an extra section. *)
From Coq Require Import List ZArith Reals Lra Lia String.
From Verif Require Import M_Unsteady S_Geometry S_Solve S_Mirror S_Rigid S_Movement S_Unsteady S_UnsteadyRun S_Image S_Divide L_Base L_Frames L_Loads L_Mirror L_Pairs L_RigidShift L_Geometry L_Movement L_Snapshots L_Problems L_ImageMovement L_ImageRun L_ImageFinal L_DivideRun L_DivideMove.
Import ListNotations.
Local Open Scope R_scope.

Lemma here_movements ams : (forall am w, In am ams -> In w (am_wings am) -> has_panels w) -> movements_elsewhere vzero (fun k => k) (fun _ k => k) ams ams.
Proof.
  intros HP. split; [reflexivity|]. split; [auto|]. intros i am Ham. exists am. split; [exact Ham|]. unfold airplane_movement_elsewhere. rewrite vadd_0_r. repeat (split; [reflexivity|]). split; [|intros w Hw; exact (HP am w (nth_error_In _ _ Ham) Hw)].
  split; [reflexivity|]. split; [auto|]. intros j w Hw. exists w. split; [exact Hw|]. unfold wing_movement_elsewhere. rewrite vadd_0_r. repeat split.
Qed.
Lemma wing_image_same w v v' : wing_image mid vzero true w v -> w_panels v' = w_panels v -> wing_image mid vzero true w v'.
Proof. unfold wing_image. intros H E. rewrite E. exact H. Qed.
Lemma same_id a : same_airplane a a.
Proof. unfold same_airplane. repeat (split; [reflexivity|]). apply F2_refl. intros w. split; reflexivity. Qed.

Lemma problem_divided ams ams' om ns cy ch dt mv only up : Forall2 airplane_movement_divided ams ams' -> (forall am w, In am ams -> In w (am_wings am) -> has_panels w) ->
  new_movement ams om ns cy ch dt = Ok mv -> new_unsteady_problem mv only = Ok up ->
  exists mv' up', new_movement ams' om ns cy ch dt = Ok mv' /\ new_unsteady_problem mv' only = Ok up' /\ problem_image false mid vzero as_listed up up' /\
    up_max_period up' = up_max_period up /\ up_num_steps up' = up_num_steps up /\ up_first_averaging_step up' = up_first_averaging_step up.
Proof.
  intros HF HP Em Eup. destruct (problem_elsewhere vzero _ _ ams ams om _ _ _ _ _ _ _ _ mv mv only up up (here_movements ams HP) Em Em eq_refl eq_refl Eup Eup) as [H0 _].
  destruct (movement_divided _ _ _ _ _ _ _ _ HF Em) as (mv' & Em' & EN & _ & _ & ED & EO & HA).
  destruct (unsteady_built _ _ _ Eup) as (_ & U1 & U2 & _ & U4 & U5 & U6 & _ & _ & _ & UL & UN).
  destruct (movement_built _ _ _ _ _ _ _ Em) as (B1 & B2 & _). destruct (movement_built _ _ _ _ _ _ _ Em') as (B1' & B2' & _).
  unfold mv_max_period in U4. rewrite B1, B2 in U4.
  assert (PO : populated ams') by (apply (populated_divided _ _ HF), (max_period_total ams om); eexists; exact U4).
  destruct (unsteady_succeeds _ _ _ _ _ _ _ only Em' PO) as [up' Eup']. exists mv', up'. split; [exact Em'|]. split; [exact Eup'|].
  destruct (unsteady_built _ _ _ Eup') as (_ & U1' & U2' & _ & U4' & U5' & U6' & _ & _ & _ & UL' & UN').
  assert (EP : up_max_period up' = up_max_period up). { unfold mv_max_period in U4'. rewrite B1', B2', (period_divided _ _ _ _ HF U4) in U4'. apply Ok_eq in U4'. symmetry. exact U4'. }
  assert (EA : up_first_averaging_step up' = up_first_averaging_step up) by (rewrite U5, U5', EP, EN, ED; reflexivity).
  split; [|split; [exact EP | split; [congruence | exact EA]]].
  constructor; [congruence | rewrite U6, U6', EA; reflexivity|].
  destruct H0 as [_ _ H0]. apply Forall2_from_nth; [congruence|]. intros i sp sp' Hsp Hsp'. destruct (Forall2_nth_l _ _ _ H0 _ _ Hsp) as (sp2 & Hsp2 & H1 & H2). assert (sp2 = sp) by congruence. subst sp2.
  destruct (UN i sp Hsp) as [FL HOp]. destruct (UN' i sp' Hsp') as [FL' HOp']. rewrite EO in HOp'. assert (EOP : sp_operating_point sp' = sp_operating_point sp) by congruence.
  split; [rewrite EOP; exact H1|].
  assert (HS : Forall2 same_airplane (sp_airplanes sp) (sp_airplanes sp')).
  { apply Forall2_from_nth.
    - rewrite <- (Forall2_length _ _ _ FL), <- (Forall2_length _ _ _ FL'). apply (Forall2_length _ _ _ HA).
    - intros x a a' Ha Ha'. destruct (Forall2_nth _ _ _ FL _ _ Ha) as (h & Hh & Hi). destruct (Forall2_nth _ _ _ FL' _ _ Ha') as (h' & Hh' & Hi'). destruct (Forall2_nth_l _ _ _ HA _ _ Hh) as (h2 & Hh2 & HR). assert (h2 = h') by congruence. subst h2.
      destruct (Forall2_nth_l _ _ _ HR _ _ Hi) as (a2 & Ha2 & HSA). assert (a2 = a') by congruence. subst a2. exact HSA. }
  destruct H2 as (P1 & P2 & P3). split; [rewrite (Forall2_length _ _ _ HS); reflexivity|]. split; [exact P2|]. intros x a Ha. destruct (P3 x a Ha) as (a2 & Ha2 & HI). cbn [as_listed in_order partner] in Ha2. assert (a2 = a) by congruence. subst a2.
  destruct (Forall2_nth_l _ _ _ HS _ _ Ha) as (a' & Ha' & HSA). exists a'. split; [exact Ha'|]. destruct HSA as (S1 & S2 & S3 & S4 & _ & SW). destruct HI as (I1 & _ & _ & _ & Q1 & Q2 & Q3).
  unfold airplane_image. rewrite S1, S2, S3, S4. split; [exact I1|]. repeat (split; [reflexivity|]). split; [symmetry; apply (Forall2_length _ _ _ SW)|]. split; [exact Q2|].
  intros y w Hw. destruct (Q3 y w Hw) as (w2 & Hw2 & HW). destruct (Forall2_nth_l _ _ _ SW _ _ Hw2) as (w' & Hw' & _ & SP). exists w'. split; [exact Hw'|]. exact (wing_image_same _ _ _ HW SP).
Qed.

Lemma same_pairs {A} (l l' : list A) : pairs (fun k => k) (fun _ v v' => v' = v) l l' -> l' = l.
Proof.
  intros (HL & _ & H). apply nth_Forall2_eq; [exact HL|]. intros i x y Hx Hy. destruct (H i x Hx) as (x' & Hx' & E). congruence.
Qed.
Lemma same_final l l' : final_image as_listed (fun v => v) (fun v => v) l l' -> l' = l.
Proof.
  intros (H1 & H2 & H3 & H4). cbn [as_listed in_order partner] in H1, H2, H3, H4. apply same_pairs in H1, H2, H3, H4. destruct l, l'. cbn in H1, H2, H3, H4. congruence.
Qed.
Lemma finished_divided ams ams' om ns cy ch dt mv only up (solve : list (list R) -> list R -> result (list R)) (prescribed lines : bool) s : SolveSpec solve ->
  Forall2 airplane_movement_divided ams ams' -> (forall am w, In am ams -> In w (am_wings am) -> has_panels w) ->
  new_movement ams om ns cy ch dt = Ok mv -> new_unsteady_problem mv only = Ok up -> mv_delta_time mv <> 0 -> (up_first_averaging_step up < up_num_steps up)%Z -> finished solve prescribed lines up s ->
  exists mv' up' s', new_movement ams' om ns cy ch dt = Ok mv' /\ new_unsteady_problem mv' only = Ok up' /\ finished solve prescribed lines up' s' /\
    run_image false mid vzero as_listed (up_first_results_step up) (length (up_steady_problems up)) s s' /\
    up_final (us_problem s') = up_final (us_problem s) /\ up_final_mean (us_problem s') = up_final_mean (us_problem s) /\ up_final_rms (us_problem s') = up_final_rms (us_problem s).
Proof.
  intros HS HF HP Em Eup Hdt Hwin HFin. destruct (problem_divided _ _ _ _ _ _ _ _ _ _ HF HP Em Eup) as (mv' & up' & Em' & Eup' & HI & EP & _). destruct (unsteady_built _ _ _ Eup) as (_ & _ & U2 & _).
  destruct (image_finished solve HS prescribed lines false mid vzero mid_isometric as_listed up up') with (s := s) as (s' & HF' & HR & F1 & F2 & F3);
    [do 8 eexists; split; [exact Em | exact Eup] | do 8 eexists; split; [exact Em' | exact Eup'] | exact HI | congruence | exact EP | exact Hwin | exact HFin|].
  exists mv', up', s'. repeat (split; [assumption|]). split; [apply same_final; exact F1 | split; [apply same_final; exact F2 | apply same_final; exact F3]].
Qed.
Lemma run_divided ams ams' om ns cy ch dt mv only up (solve : list (list R) -> list R -> result (list R)) (prescribed : bool) n s : SolveSpec solve ->
  Forall2 airplane_movement_divided ams ams' -> (forall am w, In am ams -> In w (am_wings am) -> has_panels w) ->
  new_movement ams om ns cy ch dt = Ok mv -> new_unsteady_problem mv only = Ok up -> mv_delta_time mv <> 0 -> after solve prescribed up n s ->
  exists mv' up' s', new_movement ams' om ns cy ch dt = Ok mv' /\ new_unsteady_problem mv' only = Ok up' /\ after solve prescribed up' n s' /\
    run_image false mid vzero as_listed (up_first_results_step up) n s s' /\
    forall x u, unsteady_solution_velocity s [x] = Ok [u] -> unsteady_solution_velocity s' [x] = Ok [u].
Proof.
  intros HS HF HP Em Eup Hdt HA. destruct (problem_divided _ _ _ _ _ _ _ _ _ _ HF HP Em Eup) as (mv' & up' & Em' & Eup' & HI & _). destruct (unsteady_built _ _ _ Eup) as (_ & _ & U2 & _).
  destruct (image_run false mid vzero as_listed up up' solve prescribed n s HS mid_isometric) as (s' & HA' & HR);
    [do 8 eexists; split; [exact Em | exact Eup] | do 8 eexists; split; [exact Em' | exact Eup'] | congruence | exact HI | exact HA|].
  exists mv', up', s'. repeat (split; [assumption|]). intros x u E. pose proof (ri_velocity _ _ _ _ _ _ _ _ HR x u E) as E'. rewrite mid_moved, vadd_0_r, mid_id in E'. exact E'.
Qed.
