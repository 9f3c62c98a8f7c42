(** Symmetric airplanes: a solved symmetric wing for both steady solvers, and a wing with a fin. *)
From Coq Require Import Lra Lia.
From Verif Require Import M_Geometry M_Horseshoe M_SteadyRing S_Solve S_Loads S_Geometry S_Wing S_Mirror.
From Verif Require Import L_Base L_Functions L_Rotations L_Panel L_Aero L_Loads L_Horseshoe L_SteadyRing L_Gauss L_Example L_Example2 L_Symmetry.

(** ** The symmetric wing *)
Lemma sym_wing : mirrored_wing mirrored_panel (ex_wing true) (ex_wing true).
Proof.
  apply (symmetric_wing_mirrored _ _ _ _ _ _ _ _ _ (ex_wing_ok true)); try reflexivity.
  - apply vdot_1_norm. vunfold; ring.
  - intros s [<-|[]]. left; reflexivity.
Qed.
Lemma sym_airplane : symmetric_airplane (ex_airplane true).
Proof.
  apply (airplane_symmetric _ _ _ _ _ _ _ _ _ (fun k => k) (ex_airplane_ok true)). apply own_wings. intros w [<-|[]]. exact sym_wing.
Qed.
Lemma sym_problem : mirrored (fun k => k) [ex_airplane true] [ex_airplane true].
Proof. apply symmetric_mirrored. intros a [<-|[]]. exact sym_airplane. Qed.
Lemma ex2_no_sideslip rho v : no_sideslip (ex2_op rho v).
Proof. reflexivity. Qed.

(** ** Its solution: the stream is along z *)
Lemma sym_span : w_span (ex_wing true) = 2.
Proof.
  unfold w_span; cbn [ex_wing w_sections w_symmetric w_unit_normal length Nat.sub nth_leading_edge nth_error].
  replace (vscale _ _) with (mkvec 0 1 0).
  - rewrite vdot_1_norm; [ring|]. vunfold; ring.
  - unfold ex_placed, ex_section, cs_set_wing_chordwise, cs_leading_edge; cbn. vunfold; apply vec_ext; cbn; ring.
Qed.
Definition sym_left : panel := p_set_position false true 0 0 (plain_panel (- 1) (- 0)).
Definition sym_right : panel := p_set_position true false 0 1 (plain_panel 0 1).
Lemma sym_flat : flat_panels [ex_airplane true] = [(ex_airplane true, ex_wing true, sym_left); (ex_airplane true, ex_wing true, sym_right)].
Proof. reflexivity. Qed.
(** Normal velocity at (3, y, 0) of a unit horseshoe whose front leg goes from (1, y1, 0) to (1, y0, 0). *)
Definition sym_normal (y y0 y1 : R) : R := / 2 * ((y1 - y) * ex_u (y1 - y) - (y0 - y) * ex_u (y0 - y)).
Lemma sym_influence y y0 y1 z nu : 1 <= y1 - y0 ->
  vdot (shoe_velocity (mkvec 3 y 0) (vadd (mkvec 1 y1 0) (vscale z (mkvec 0 0 1))) (mkvec 1 y1 0) (mkvec 1 y0 0)
          (vadd (mkvec 1 y0 0) (vscale z (mkvec 0 0 1))) 1 0 nu) (mkvec 0 0 1) = / (4 * PI) * sym_normal y y0 y1.
Proof.
  intros H. unfold shoe_velocity.
  replace (vadd (mkvec 1 y1 0) (vscale z (mkvec 0 0 1))) with (mkvec 1 y1 z) by (vunfold; apply vec_ext; cbn; ring).
  replace (vadd (mkvec 1 y0 0) (vscale z (mkvec 0 0 1))) with (mkvec 1 y0 z) by (vunfold; apply vec_ext; cbn; ring).
  rewrite !vdot_add_l, front_leg, !vertical_leg_z by assumption. unfold sym_normal. ring.
Qed.
Lemma ex_u_even d : ex_u (- d) = ex_u d.
Proof. unfold ex_u; do 2 f_equal; ring. Qed.
Lemma sym_numbers :
  let a := sym_normal (- (1 / 2)) (- 1) 0 in let b := sym_normal (- (1 / 2)) 0 1 in
  sym_normal (1 / 2) 0 1 = a /\ sym_normal (1 / 2) (- 1) 0 = b /\ 0 < b < a.
Proof.
  cbv zeta. unfold sym_normal.
  replace (0 - - (1 / 2)) with (1 / 2) by lra. replace (- 1 - - (1 / 2)) with (- (1 / 2)) by lra. replace (1 - - (1 / 2)) with (3 / 2) by lra.
  replace (1 - 1 / 2) with (1 / 2) by lra. replace (0 - 1 / 2) with (- (1 / 2)) by lra. replace (- 1 - 1 / 2) with (- (3 / 2)) by lra.
  rewrite !ex_u_even.
  assert (B1 : 4850 / 10000 <= ex_u (1 / 2) <= 4851 / 10000) by (apply inv_sqrt_bounds; lra).
  assert (B2 : 4000 / 10000 <= ex_u (3 / 2) <= 4000 / 10000) by (apply inv_sqrt_bounds; lra).
  split; [lra|]. split; [lra|]. lra.
Qed.
Lemma sym_points : 
  (p_collocation_point sym_left = mkvec 3 (- (1 / 2)) 0 /\ p_unit_normal sym_left = mkvec 0 0 1 /\
   p_front_right_vortex_vertex sym_left = mkvec 1 0 0 /\ p_front_left_vortex_vertex sym_left = mkvec 1 (- 1) 0) /\
  (p_collocation_point sym_right = mkvec 3 (1 / 2) 0 /\ p_unit_normal sym_right = mkvec 0 0 1 /\
   p_front_right_vortex_vertex sym_right = mkvec 1 1 0 /\ p_front_left_vortex_vertex sym_right = mkvec 1 0 0).
Proof.
  assert (HL : - 1 < - 0) by lra. assert (HR : 0 < 1) by lra.
  destruct (plain_points (- 1) (- 0) true false 0 0 HL) as (H1 & H2 & H3 & H4).
  destruct (plain_points 0 1 false true 0 1 HR) as (G1 & G2 & G3 & G4).
  fold sym_left in H1, H2, H3, H4. fold sym_right in G1, G2, G3, G4. rewrite H1, H2, H3, H4, G1, G2, G3, G4.
  repeat split; apply vec_ext; cbn; lra.
Qed.
Lemma sym_horseshoe_run solve rho v : SolveSpec solve -> exists s, hs_run solve (hs_new [ex_airplane true] (ex2_op rho v)) = Ok s.
Proof.
  intros HS. destruct sym_points as ((Lc & Ln & Lr & Ll) & (Rc & Rn & Rr & Rl)). destruct sym_numbers as (Ea & Eb & Hab).
  set (a := sym_normal (- (1 / 2)) (- 1) 0) in *. set (b := sym_normal (- (1 / 2)) 0 1) in *.
  pose (k := / (4 * PI)). assert (Hk : 0 < k) by (unfold k; apply Rinv_0_lt_compat; pose proof PI_RGT_0; lra).
  eapply (hs_run_succeeds_iff solve _ HS). eexists.
  cbn [hs_new hso_op hso_airplanes hso_freestream]. unfold hs_rows_of. rewrite sym_flat, hs_influences_explicit.
  cbn [map]. unfold freestream_influences; cbn [map].
  unfold hs_row_velocity, hs_row_of, hs_vortex_of, hr_collocation, hr_normal, hr_back_right, hr_front_right, hr_front_left, hr_back_left.
  cbn [hr_vortex hr_panel new_horseshoe hs_right_leg hs_left_leg new_line_vortex lv_origin lv_termination].
  rewrite ex2_direction, sym_span.
  repeat match goal with
  | |- context [p_unit_normal (hs_init_panel ?x ?y ?p)] => change (p_unit_normal (hs_init_panel x y p)) with (p_unit_normal p)
  | |- context [p_collocation_point (hs_init_panel ?x ?y ?p)] => change (p_collocation_point (hs_init_panel x y p)) with (p_collocation_point p)
  end.
  rewrite Lc, Ln, Lr, Ll, Rc, Rn, Rr, Rl. rewrite !sym_influence by lra. rewrite Ea, Eb. fold a b k.
  apply solve_2x2; [exact HS|].
  replace (k * a * (k * a) - k * b * (k * b)) with (k * k * ((a - b) * (a + b))) by ring.
  assert (0 < k * k) by (apply Rmult_lt_0_compat; lra). assert (0 < (a - b) * (a + b)) by (apply Rmult_lt_0_compat; lra). nra.
Qed.

(** ** The ring solver on the same wing *)
Definition sym_ring_row (y0 y1 : R) (p : panel) : ring_row :=
  mkringrow p vzero (new_ring (mkvec 1 y0 0) (mkvec 1 y1 0) (mkvec 5 y0 0) (mkvec 5 y1 0) 0)
    (mkvec 5 y1 40) (mkvec 5 y1 0) (mkvec 5 y0 0) (mkvec 5 y0 40).
Lemma sym_ring_influence y y0 y1 p : 1 <= y1 - y0 -> 1 <= 16 * ((y1 - y) * (y1 - y)) -> 1 <= 16 * ((y0 - y) * (y0 - y)) ->
  vdot (ring_row_velocity (mkvec 3 y 0) (sym_ring_row y0 y1 p) 1 1) (mkvec 0 0 1) = / (4 * PI) * ex2_normal y y0 y1.
Proof.
  intros H H1 H0. unfold ring_row_velocity, quad_velocity, shoe_velocity.
  unfold rr_back_right, rr_front_right, rr_front_left, rr_back_left.
  cbn [sym_ring_row rr_vortex rr_hs_back_right rr_hs_front_right rr_hs_front_left rr_hs_back_left new_ring rv_right_leg rv_left_leg new_line_vortex lv_origin lv_termination].
  rewrite !vdot_add_l, chord_leg, chord_leg_back, front_leg, !vertical_leg_z by assumption.
  rewrite (line_velocity_reverse _ (mkvec 5 y1 0) (mkvec 5 y0 0)), vopp_scale, vdot_scale_l.
  unfold ex2_normal. ring.
Qed.
Lemma sym_rows rho v l0 rows : ring_init (ex2_op rho v) [ex_airplane true] = Ok l0 -> ring_collapse l0 = Ok rows ->
  exists p q, same_panel sym_left p /\ same_panel sym_right q /\ rows = [sym_ring_row (- 1) 0 p; sym_ring_row 0 1 q].
Proof.
  intros E0 Er.
  unfold ring_init in E0. cbn [mapM] in E0. unfold ring_init_airplane in E0. cbn [ex_airplane a_wings mapM] in E0.
  unfold ring_init_wing in E0. rewrite ex2_direction, sym_span in E0. cbn [ex_wing w_panels] in E0.
  change (ex_panels true) with [[sym_left; sym_right]] in E0. unfold sym_left, sym_right in E0.
  unfold mapiM in E0. cbn [length seq combine mapM fst snd] in E0.
  unfold ring_init_panel in E0. cbn [p_set_position plain_panel new_panel p_is_trailing_edge bind] in E0.
  injection E0 as <-.
  unfold ring_collapse, flat_panels in Er. cbn [map a_wings a_set_wings w_set_panels w_panels ravel concat app mapM] in Er.
  unfold ring_make_row in Er. cbn [p_set_ring p_set_horseshoe p_ring_vortex p_horseshoe_vortex p_is_trailing_edge] in Er.
  cbn [p_set_position plain_panel new_panel p_is_trailing_edge bind] in Er.
  injection Er as <-.
  match goal with |- exists p q, _ /\ _ /\ [mkringrow ?x _ _ _ _ _ _; mkringrow ?y _ _ _ _ _ _] = _ => exists x, y end.
  split; [repeat split; reflexivity|]. split; [repeat split; reflexivity|].
  unfold p_front_right_vortex_vertex, p_front_left_vortex_vertex, p_right_leg, p_left_leg.
  cbn [p_set_position plain_panel new_panel p_front_right p_front_left p_back_left p_back_right].
  unfold sym_ring_row. f_equal; [|f_equal]; f_equal; try reflexivity; try (apply vec_ext; cbn; lra).
  all: f_equal; apply vec_ext; cbn; lra.
Qed.
Lemma sym_ring_numbers :
  let a := ex2_normal (- (1 / 2)) (- 1) 0 in let b := ex2_normal (- (1 / 2)) 0 1 in
  ex2_normal (1 / 2) 0 1 = a /\ ex2_normal (1 / 2) (- 1) 0 = b /\ b < 0 /\ - b < a.
Proof.
  cbv zeta. unfold ex2_normal.
  replace (0 - - (1 / 2)) with (1 / 2) by lra. replace (- 1 - - (1 / 2)) with (- (1 / 2)) by lra. replace (1 - - (1 / 2)) with (3 / 2) by lra.
  replace (1 - 1 / 2) with (1 / 2) by lra. replace (0 - 1 / 2) with (- (1 / 2)) by lra. replace (- 1 - 1 / 2) with (- (3 / 2)) by lra.
  rewrite !ex_u_even.
  assert (B1 : 4850 / 10000 <= ex_u (1 / 2) <= 4851 / 10000) by (apply inv_sqrt_bounds; lra).
  assert (B2 : 4000 / 10000 <= ex_u (3 / 2) <= 4000 / 10000) by (apply inv_sqrt_bounds; lra).
  replace (4 / (1 / 2)) with 8 by field. replace (4 / (- (1 / 2))) with (-8) by field.
  replace (4 / (3 / 2)) with (8 / 3) by field. replace (4 / (- (3 / 2))) with (- (8 / 3)) by field.
  split; [lra|]. split; [lra|]. split; lra.
Qed.
Lemma sym_ring_run solve rho v : SolveSpec solve -> exists s, ring_run solve (ring_new [ex_airplane true] (ex2_op rho v)) = Ok s.
Proof.
  intros HS. set (s := ring_new [ex_airplane true] (ex2_op rho v)).
  destruct (ring_run_total solve s HS) as (l0 & rows & E0 & Er & Hrun).
  - apply fresh_sized, ring_new_fresh. intros a [<-|[]]. apply (proj2 (ex_well_meshed true)).
  - intros a w [<-|[]]. apply (proj1 (ex_well_meshed true)).
  - destruct (sym_rows _ _ _ _ E0 Er) as (p & q & Hp & Hq & ->).
    destruct sym_points as ((Lc & Ln & Lr & Ll) & (Rc & Rn & Rr & Rl)). destruct sym_ring_numbers as (Ea & Eb & Hb & Hab).
    destruct (same_panel_collocation _ _ Hp) as [Hpc Hpn]. rewrite Lc in Hpc. rewrite Ln in Hpn.
    destruct (same_panel_collocation _ _ Hq) as [Hqc Hqn]. rewrite Rc in Hqc. rewrite Rn in Hqn.
    set (a := ex2_normal (- (1 / 2)) (- 1) 0) in *. set (b := ex2_normal (- (1 / 2)) 0 1) in *.
    pose (k := / (4 * PI)). assert (Hk : 0 < k) by (unfold k; apply Rinv_0_lt_compat; pose proof PI_RGT_0; lra).
    edestruct Hrun as (s' & E & _); [|exists s'; exact E].
    change (rso_strengths s) with (repeat 1 2). change (rso_hs_strengths s) with (repeat 0 2).
    rewrite ring_influences_explicit; [| |reflexivity].
    2:{ eapply Forall_impl with (P := row_ok); [auto|].
        apply ring_collapse_ok in Er. clear -Er. inversion Er as [|? ? ? ? [H1 _] Er2]; subst. inversion Er2 as [|? ? ? ? [H2 _] Er3]; subst. inversion Er3; subst.
        repeat constructor; apply H1 || apply H2. }
    cbn [map]. unfold freestream_influences; cbn [map]. unfold rr_normal, rr_collocation.
    change (rr_panel (sym_ring_row (- 1) 0 p)) with p. change (rr_panel (sym_ring_row 0 1 q)) with q.
    rewrite Hpc, Hpn, Hqc, Hqn. rewrite !sym_ring_influence by lra. rewrite Ea, Eb. fold a b k.
    apply solve_2x2; [exact HS|].
    replace (k * a * (k * a) - k * b * (k * b)) with (k * k * ((a - b) * (a + b))) by ring.
    assert (0 < k * k) by (apply Rmult_lt_0_compat; lra). assert (0 < (a - b) * (a + b)) by (apply Rmult_lt_0_compat; lra). nra.
Qed.

(** ** A fin in the plane of symmetry *)
Definition fin_section (z : R) : section :=
  mksection (flat_named "plate") 0 0 z 4 (mkvec 0 0 1) 0 "symmetric" (75 / 100) 0 1 "uniform" None.
Definition fin_placed (z : R) : section := cs_set_wing_chordwise (mkvec 1 0 0) (fin_section z).
Lemma fin_chordwise z : cs_unit_chordwise (fin_placed z) = Ok (mkvec 1 0 0).
Proof.
  unfold cs_unit_chordwise, fin_placed, cs_set_wing_chordwise, fin_section; cbn [cs_wing_unit_chordwise cs_twist cs_unit_normal].
  rewrite aarm. replace (0 * PI / 180) with 0 by field. rewrite rodrigues_0, mvmul_mid. reflexivity.
Qed.
Lemma fin_mcl z : section_mcl vzero (fin_placed z) [(0, 0); (1, 0)] = Ok [mkvec 0 0 z; mkvec 4 0 z].
Proof.
  unfold section_mcl, cs_unit_up. rewrite fin_chordwise. cbn [bind map fst snd]. cbn.
  repeat f_equal; apply vec_ext; cbn; ring.
Qed.
Definition fin_panel : panel := new_panel (mkvec 0 0 1) (mkvec 0 0 0) (mkvec 4 0 0) (mkvec 4 0 1) true true.
Definition fin : wing :=
  mkwing [fin_placed 0; fin_placed 1] "fin" 0 0 0 (mkvec 0 0 1) false (mkvec 1 0 0) 1 "uniform" 1 1
         (set_positions 1 [[fin_panel]]) [] [].
Lemma fin_right : right_section (mkmesh vzero (mkvec 0 0 1) false 1 "uniform") (fin_placed 0) (fin_placed 1) = Ok [[fin_panel]].
Proof.
  unfold right_section; cbn [ms_chordwise_spacing ms_num_chordwise ms_leading_edge].
  change (cs_spanwise_spacing (fin_placed 0)) with "uniform"%string. change (cs_num_spanwise_panels (fin_placed 0)) with 1%nat.
  change (flapped_camber ?x (fin_placed 0) (fin_placed 1) ?d) with (flapped_camber x (ex_placed 0) (ex_placed 1) d).
  rewrite uniform_2, ex_camber by reflexivity. cbn [bind fst snd]. unfold section_vertices. rewrite !fin_mcl. cbn [bind].
  unfold interp_between_points, split_vertices, but_last; cbn [map2 map removelast tl v_front_inner v_front_outer v_back_inner v_back_outer].
  cbn [check Nat.leb bind]. unfold section_panels, fin_panel; cbn [combine mapi mapi_from map length Nat.eqb].
  repeat f_equal; vring.
Qed.
Lemma fin_ok :
  new_wing [fin_section 0; fin_section 1] "fin" 0 0 0 (mkvec 0 0 1) false (mkvec 1 0 0) 1 "uniform" = Ok fin.
Proof.
  unfold new_wing. cbn [length Nat.leb check bind String.eqb Ascii.eqb Bool.eqb orb index nth_error forallb].
  assert (E : forall u v, u = v -> veqb u v = true) by (intros; apply veqb_true; assumption).
  rewrite (E (mkvec 0 0 1) (cs_unit_normal (fin_section 0)) eq_refl).
  rewrite (E (cs_leading_edge (fin_section 0)) vzero eq_refl).
  rewrite (E (vcross (vcross (mkvec 0 0 1) (cs_unit_normal (fin_section 0))) (mkvec 1 0 0)) vzero)
    by (cbn; vunfold; apply vec_ext; cbn; ring).
  rewrite (E (vcross (vcross (mkvec 0 0 1) (cs_unit_normal (fin_section 1))) (mkvec 1 0 0)) vzero)
    by (cbn; vunfold; apply vec_ext; cbn; ring).
  replace (Reqb (vdot (mkvec 1 0 0) (mkvec 0 0 1)) 0) with true by (symmetry; apply Reqb_true; vunfold; ring).
  cbn [check bind andb map]. fold (fin_placed 0) (fin_placed 1).
  change (mkvec 0 0 0) with vzero. unfold mesh_wing. cbn [mesh_sections]. rewrite fin_right. reflexivity.
Qed.
Definition finned_airplane : airplane :=
  mkairplane [ex_wing true; fin] "plane" 0 0 0 0 8 4 2 3 None None None None.
Lemma finned_airplane_ok : new_airplane [ex_wing true; fin] "plane" 0 0 0 0 (Some 8) (Some 4) (Some 2) = Ok finned_airplane.
Proof. reflexivity. Qed.
Lemma finned_symmetric : symmetric_airplane finned_airplane.
Proof.
  apply (airplane_symmetric _ _ _ _ _ _ _ _ _ (fun k => k) finned_airplane_ok). apply own_wings. intros w [<-|[<-|[]]]; [exact sym_wing|].
  apply fin_mirrored. intros p [<-|[]]. repeat split.
Qed.
