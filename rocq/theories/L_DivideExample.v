(** A plate of two panels between its two sections, and the same plate with a section between the panels. *)
From Coq Require Import List ZArith Lia Lra Bool Reals String.
From Verif Require Import M_Unsteady M_Horseshoe M_SteadyRing S_Unsteady S_UnsteadyRun S_Geometry S_Loads S_Solve S_Movement S_Mirror S_Image S_Divide L_Base L_Functions L_Rotations L_Loads L_Gauss L_Horseshoe L_SteadyRing
  L_Geometry L_Movement L_Snapshots L_Problems L_Wake L_UnsteadyFlow L_Example L_Example2 L_Example3 L_Example4 L_Example6 L_SymmetricFlight L_SymmetricExample L_Divide L_DivideRun L_DivideMove L_DivideUnsteady.
Import ListNotations.
Local Open Scope R_scope.
Local Open Scope list_scope.

Definition long_root : section := with_panels 2 (ex_section 0).
Definition long_placed : section := cs_set_wing_chordwise (mkvec 1 0 0) long_root.
Definition long_tip : section := cs_set_wing_chordwise (mkvec 1 0 0) (ex_section 2).
Definition long_wing : wing :=
  mkwing [long_placed; long_tip] "wing" 0 (-1) 0 (mkvec 0 1 0) false (mkvec 1 0 0) 1 "uniform" 2 2 (ex_panels true) [] [].
Lemma uniform_3 : spaced "uniform" 3 = [0; 1 / 2; 1].
Proof. unfold spaced, linspace; cbn. repeat (f_equal; try field). Qed.
Lemma long_mcl s y : cs_unit_chordwise s = Ok (mkvec 1 0 0) -> cs_leading_edge s = mkvec 0 y 0 -> cs_chord s = 4 -> cs_unit_normal s = mkvec 0 1 0 ->
  section_mcl (mkvec 0 (-1) 0) s [(0, 0); (1, 0)] = Ok [mkvec 0 (y - 1) 0; mkvec 4 (y - 1) 0].
Proof.
  intros H1 H2 H3 H4. unfold section_mcl, cs_unit_up. rewrite H1. cbn [bind map fst snd]. rewrite H2, H3, H4. cbn. repeat f_equal; apply vec_ext; cbn; ring.
Qed.
Lemma long_right : right_section (mkmesh (mkvec 0 (-1) 0) (mkvec 0 1 0) false 1 "uniform") long_placed long_tip = Ok [[plain_panel (-1) (- 0); plain_panel 0 1]].
Proof.
  unfold right_section; cbn [ms_chordwise_spacing ms_num_chordwise ms_leading_edge].
  change (cs_spanwise_spacing long_placed) with "uniform"%string. change (cs_num_spanwise_panels long_placed) with 2%nat.
  rewrite uniform_2, uniform_3. change (flapped_camber [0; 1] long_placed long_tip (cs_control_surface_deflection long_placed)) with (flapped_camber [0; 1] (ex_placed 0) (ex_placed 2) 0). rewrite ex_camber by reflexivity. cbn [bind fst snd]. unfold section_vertices.
  rewrite (long_mcl long_placed 0), (long_mcl long_tip 2) by (reflexivity || exact (ex_chordwise 2) || exact (ex_chordwise 0)). cbn [bind].
  unfold interp_between_points, split_vertices, but_last; cbn [map2 map removelast tl v_front_inner v_front_outer v_back_inner v_back_outer].
  cbn [check Nat.leb bind]. unfold section_panels, plain_panel; cbn [combine mapi mapi_from map length Nat.eqb].
  repeat f_equal; vunfold; apply vec_ext; cbn; lra.
Qed.
Lemma long_wing_ok : new_wing [long_root; ex_section 2] "wing" 0 (-1) 0 (mkvec 0 1 0) false (mkvec 1 0 0) 1 "uniform" = Ok long_wing.
Proof.
  unfold new_wing. cbn [length Nat.leb check bind String.eqb Ascii.eqb Bool.eqb orb index nth_error forallb].
  assert (E : forall u v, u = v -> veqb u v = true) by (intros; apply veqb_true; assumption).
  rewrite (E (mkvec 0 1 0) (cs_unit_normal long_root) eq_refl).
  rewrite (E (cs_leading_edge long_root) vzero eq_refl).
  rewrite (E (vcross (vcross (mkvec 0 1 0) (cs_unit_normal long_root)) (mkvec 1 0 0)) vzero)
    by (cbn; vunfold; apply vec_ext; cbn; ring).
  rewrite (E (vcross (vcross (mkvec 0 1 0) (cs_unit_normal (ex_section 2))) (mkvec 1 0 0)) vzero)
    by (cbn; vunfold; apply vec_ext; cbn; ring).
  replace (Reqb (vdot (mkvec 1 0 0) (mkvec 0 1 0)) 0) with true by (symmetry; apply Reqb_true; vunfold; ring).
  cbn [check bind andb map]. fold long_placed long_tip.
  unfold mesh_wing. cbn [mesh_sections]. rewrite long_right. cbn [bind ms_symmetric ms_num_chordwise repeat]. reflexivity.
Qed.
Definition long_airplane : airplane := mkairplane [long_wing] "plane" 0 0 0 0 8 4 2 2 None None None None.
Lemma long_airplane_ok : new_airplane [long_wing] "plane" 0 0 0 0 (Some 8) (Some 4) (Some 2) = Ok long_airplane.
Proof. reflexivity. Qed.

(** The same plate with a section halfway. *)
Definition parted_sections : list section := divided [] 1 1 long_root (ex_section 2) [].
Definition parted_wing : wing := with_sections (map (cs_set_wing_chordwise (mkvec 1 0 0)) parted_sections) long_wing.
Definition parted_airplane : airplane := mkairplane [parted_wing] "plane" 0 0 0 0 8 4 2 2 None None None None.
Lemma long_alike : (1 <= 1)%nat /\ cs_num_spanwise_panels long_root = (1 + 1)%nat /\ cs_spanwise_spacing long_root = "uniform"%string /\ alike long_root (ex_section 2).
Proof. repeat split; lia. Qed.
Lemma parted_wing_ok : new_wing parted_sections "wing" 0 (-1) 0 (mkvec 0 1 0) false (mkvec 1 0 0) 1 "uniform" = Ok parted_wing.
Proof.
  unfold parted_sections. rewrite wing_divided by (lia || apply long_alike). cbn [app]. rewrite long_wing_ok. reflexivity.
Qed.
Lemma parted_places : map cs_leading_edge parted_sections = [vzero; mkvec 0 1 0; mkvec 0 2 0] /\ map cs_num_spanwise_panels parted_sections = [1; 1; 1]%nat.
Proof.
  split; [|reflexivity]. unfold parted_sections, divided, long_root, with_panels, section_between, cs_leading_edge, part_way, ex_section. cbn.
  repeat (apply (f_equal2 cons); [apply vec_ext; cbn; field|]). reflexivity.
Qed.
Lemma parted_like : like_wing long_wing parted_wing.
Proof.
  destruct (dimensions_divided [] long_root (ex_section 2) [] 1 1 _ _ _ _ _ _ _ _ _ _ _ ltac:(lia) ltac:(lia) eq_refl eq_refl (proj2 (proj2 (proj2 long_alike))) long_wing_ok parted_wing_ok) as (D1 & D2 & D3 & _ & _ & D6).
  repeat split; assumption.
Qed.
Lemma parted_airplane_ok : new_airplane [parted_wing] "plane" 0 0 0 0 (Some 8) (Some 4) (Some 2) = Ok parted_airplane /\ same_airplane long_airplane parted_airplane.
Proof.
  destruct (airplane_like [long_wing] [parted_wing] "plane" "plane" 0 0 0 0 0 (Some 8) (Some 4) (Some 2) long_airplane) as (a' & E & H); [constructor; [apply parted_like | constructor] | reflexivity|].
  assert (a' = parted_airplane) by (apply Ok_eq; rewrite <- E; reflexivity). subst a'. auto.
Qed.

(** ** Steady solutions *)
Lemma long_span : w_span long_wing = 2 /\ w_span (ex_wing true) = 2.
Proof.
  split; unfold w_span; cbn [ex_wing long_wing w_sections w_symmetric w_unit_normal length Nat.sub nth_leading_edge nth_error].
  - replace (vscale _ _) with (vscale 2 (mkvec 0 1 0)).
    + rewrite vnorm_scale, (vdot_1_norm (mkvec 0 1 0)) by (vunfold; ring). rewrite Rabs_pos_eq; lra.
    + unfold long_placed, long_tip, long_root, ex_section, with_panels, cs_set_wing_chordwise, cs_leading_edge; cbn. vunfold; apply vec_ext; cbn; ring.
  - replace (vscale _ _) with (vscale 1 (mkvec 0 1 0)).
    + rewrite vnorm_scale, (vdot_1_norm (mkvec 0 1 0)) by (vunfold; ring). rewrite Rabs_pos_eq; lra.
    + unfold ex_placed, ex_section, cs_set_wing_chordwise, cs_leading_edge; cbn. vunfold; apply vec_ext; cbn; ring.
Qed.
Lemma long_as_symmetric : same_airplane (ex_airplane true) long_airplane.
Proof. repeat (split; [reflexivity|]). constructor; [|constructor]. split; [rewrite (proj1 long_span), (proj2 long_span); reflexivity | reflexivity]. Qed.
Lemma long_meshed : well_meshed_airplane long_airplane.
Proof. apply (same_meshed _ _ long_as_symmetric), ex_well_meshed. Qed.
Lemma long_runs solve rho v : SolveSpec solve ->
  (exists s, hs_run solve (hs_new [long_airplane] (ex2_op rho v)) = Ok s) /\ exists s, ring_run solve (ring_new [long_airplane] (ex2_op rho v)) = Ok s.
Proof.
  intros HS. assert (HF : Forall2 same_airplane [ex_airplane true] [long_airplane]) by (constructor; [apply long_as_symmetric | constructor]). split.
  - destruct (sym_horseshoe_run solve rho v HS) as [s Es]. destruct (hs_same _ _ _ _ _ HS HF Es) as (s' & Es' & _). eauto.
  - destruct (sym_ring_run solve rho v HS) as [s Es]. destruct (ring_same solve _ _ (ex2_op rho v) s HS HF) as (s' & Es' & _); [intros a [<-|[]]; apply ex_well_meshed | exact Es | eauto].
Qed.

(** ** An unsteady run *)
Definition long_movement : wing_movement := mkwingmove long_wing [moving long_root resting; moving (ex_section 2) resting] resting resting resting.
Definition parted_movement : wing_movement :=
  mkwingmove parted_wing (movements_divided [] 1 1 (moving long_root resting) (moving (ex_section 2) resting) []) resting resting resting.
Definition parted_flight : airplane_movement := mkairmove parted_airplane [parted_movement] resting resting resting.
Lemma movement_parted : wing_movement_divided long_movement parted_movement.
Proof.
  exists [], 1%nat, 1%nat, (moving long_root resting), (moving (ex_section 2) resting), []. split; [reflexivity|]. split; [reflexivity|]. split; [lia|]. split; [lia|]. split; [reflexivity|]. split; [reflexivity|]. split; [repeat split|].
  split.
  - split; [reflexivity|]. intros [|[|i]] p q Hp Hq; [|discriminate Hq|destruct i; discriminate Hq]. injection Hp as <-. injection Hq as <-. split; [cbn; lra|]. right. cbn. lra.
  - split; [intros s [<-|[<-|[]]]; split; left; reflexivity|]. repeat split.
Qed.
Lemma flight_parted : airplane_movement_divided (still_airplane long_movement) parted_flight.
Proof. repeat (split; [reflexivity|]). constructor; [right; apply movement_parted | constructor]. Qed.
Lemma long_flight (only prescribed lines : bool) : exists mv up s,
  new_movement [still_airplane long_movement] (windy gust) (Some 3%Z) None None (Some 1) = Ok mv /\ new_unsteady_problem mv only = Ok up /\
  mv_delta_time mv <> 0 /\ (up_first_averaging_step up < up_num_steps up)%Z /\ List.length (up_steady_problems up) = 3%nat /\ finished gauss_solve prescribed lines up s.
Proof.
  destruct (still_problem long_movement only) as (mv & up & Hm & Hdt & Hup & Edt & L & HW & Hst).
  - split; [cbn; lia|]. split; [right; left; reflexivity|]. split; [|split].
    + exact (proj2 (proj1 (wing_created_iff [long_root; ex_section 2] "wing" 0 (-1) 0 (mkvec 0 1 0) false (mkvec 1 0 0) 1 "uniform" right_nonzero) (ex_intro _ _ long_wing_ok))).
    + constructor; [|constructor; [exact (moving_movable (mkvec 0 2 0) (mkvec 0 1 0) resting resting_good) | constructor]]. split; [|split; [left; apply resting_good | split; left; apply resting_good]].
      intros P e H. repeat (destruct H as [[= <- <-]|H]; [first [cbn; lra | cbn; tauto]|]). destruct H.
    + split; [intros root [= <-]; repeat split | repeat split; apply resting_good].
  - split; [repeat constructor; left; reflexivity | repeat split; left; reflexivity].
  - split; [exact long_wing_ok|]. split; [intros sm [<-|[<-|[]]]; reflexivity|].
    intros [|[|i]] p q Hp Hq; [|discriminate Hq|destruct i; discriminate Hq]. injection Hp as <-. injection Hq as <-. right. cbn. lra.
  - assert (HC : created up) by (do 7 eexists; exists only; split; [exact Hm | exact Hup]).
    assert (EP : w_panels long_wing = [[left_panel 0; right_panel 0]]).
    { change (w_panels long_wing) with [[p_set_position false true 0 0 (plain_panel (- 1) (- 0)); p_set_position true false 0 1 (plain_panel 0 1)]].
      unfold left_panel, right_panel. rewrite Rplus_0_l. reflexivity. }
    destruct (flight_run gauss_solve gauss_solve_spec prescribed up 0 long_wing HC) with (lines := lines) as [s Hs]; [rewrite Edt; lra | lia | lra | exact EP | |].
    { intros k sp Hk. destruct (Hst k sp Hk) as (H1 & v & H2 & H3). split; [exact H1|]. exists v. split; [lra | exact H3]. }
    exists mv, up, s. split; [exact Hm|]. split; [exact Hup|]. split; [rewrite Hdt; lra|]. auto.
Qed.
Lemma long_divided : Forall2 airplane_movement_divided [still_airplane long_movement] [parted_flight].
Proof. constructor; [apply flight_parted | constructor]. Qed.
Lemma long_panels : forall am w, In am [still_airplane long_movement] -> In w (am_wings am) -> has_panels w.
Proof. intros am w [<-|[]] [<-|[]]. exists (moving long_root resting). split; [left; reflexivity | cbn; lia]. Qed.
