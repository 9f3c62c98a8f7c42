(** Property theorems C39 and C57 (the loads of the unsteady solver;
    pterasoftware/unsteady_ring_vortex_lattice_method.py and problems.py).  [has_run solve
    prescribed up n s] says that [s] is the solver for the problem [up] after [n] time steps. *)
From Coq Require Import Reals List ZArith.
From Verif Require Import M_Unsteady S_Solve S_Geometry S_Vortices S_Loads S_Movement S_Unsteady S_UnsteadyRun L_Gauss L_OnlyFinal L_NoLoads L_UnsteadyLoads L_Statements4.
Import ListNotations.
Local Open Scope R_scope.

(** ** C39  only_final_results.  Two problems made from the same movement, one with and
    one without it, run alike: both runs fail with the same error or both finish with
    the same wake, solution, streamlines and final loads.  Their steps agree but for
    the loads of the panels and airplanes before the first step that is averaged. *)
Theorem C39_same_flow : forall solve, SolveSpec solve -> forall prescribed streamlines ams om num_steps num_cycles num_chords delta_time m late early s0 t0,
  new_movement ams om num_steps num_cycles num_chords delta_time = Ok m -> new_unsteady_problem m true = Ok late -> new_unsteady_problem m false = Ok early ->
  unsteady_new late = Ok s0 -> unsteady_new early = Ok t0 ->
  match unsteady_run solve prescribed streamlines s0, unsteady_run solve prescribed streamlines t0 with
  | Ok s, Ok t => same_flow (up_first_averaging_step late) s t
  | Err e, Err e' => e = e'
  | _, _ => False
  end.
Proof. exact only_final_same. Qed.
Print Assumptions C39_same_flow.

(** The loads that are skipped are not there. *)
Theorem C39_loads_skipped : forall solve prescribed up n s k sp a,
  created up -> has_run solve prescribed up n s -> (n <= k)%nat \/ (Z.of_nat k < up_first_results_step up)%Z ->
  step_at s k sp -> In a (sp_airplanes sp) -> airplane_without_loads a.
Proof. exact loads_skipped. Qed.
Print Assumptions C39_loads_skipped.

Theorem C39_first_step_with_loads : forall up, created up ->
  up_first_results_step up = (if up_only_final_results up then up_first_averaging_step up else 0%Z).
Proof. exact first_results_step. Qed.
Print Assumptions C39_first_step_with_loads.

Example C39_applies : exists ams om m late early s t, new_movement ams om (Some 3%Z) None None (Some 1) = Ok m /\
  new_unsteady_problem m true = Ok late /\ new_unsteady_problem m false = Ok early /\
  finished gauss_solve false true late s /\ finished gauss_solve false true early t /\ up_first_averaging_step late = 2%Z.
Proof. exact windy_late. Qed.

(** ** C57  Loads of the unsteady solver.  The force on a panel is the Kutta-Joukowski
    force on the right, front and left legs of its ring vortex, with the circulation
    that is net of the neighbouring rings' and the velocity relative to the moving leg,
    plus density times the rate of change of the circulation times the panel's area
    along its normal.  The moment is that of these forces about the airplane's
    reference point. *)
Theorem C57_kutta_joukowski : forall solve, SolveSpec solve -> forall prescribed up n s i a w c j p,
  created up -> has_run solve prescribed up (S n) s -> up_delta_time up <> 0 ->
  (up_first_results_step up <= Z.of_nat n)%Z -> panel_place s n i a w c j p ->
  exists op r ur uf ul vr vf vl g,
    (exists sp, step_at s n sp /\ op = sp_operating_point sp) /\
    p_ring_vortex p = Some r /\ ring_consistent r /\
    unsteady_solution_velocity s [lv_center (rv_right_leg r)] = Ok [ur] /\ apparent_velocity right_center s n i vr /\
    unsteady_solution_velocity s [lv_center (rv_front_leg r)] = Ok [uf] /\ apparent_velocity front_center s n i vf /\
    unsteady_solution_velocity s [lv_center (rv_left_leg r)] = Ok [ul] /\ apparent_velocity left_center s n i vl /\
    last_circulation s n i g /\
    let rho := op_density op in
    let fr := vscale (rho * net_right (w_panels w) c j) (vcross (vadd ur vr) (lv_vector (rv_right_leg r))) in
    let ff := vscale (rho * net_front (w_panels w) c j) (vcross (vadd uf vf) (lv_vector (rv_front_leg r))) in
    let fl := vscale (rho * net_left (w_panels w) c j) (vcross (vadd ul vl) (lv_vector (rv_left_leg r))) in
    let fu := vscale (rho * ((rv_strength r - g) / up_delta_time up) * p_area p) (p_unit_normal p) in
    p_force_geometry p = Some (vadd (vadd (vadd ff fl) fr) fu) /\
    p_moment_geometry p =
      Some (vadd (vadd (vadd (vcross (vsub (lv_center (rv_front_leg r)) (a_xyz_ref a)) ff)
                             (vcross (vsub (lv_center (rv_left_leg r)) (a_xyz_ref a)) fl))
                       (vcross (vsub (lv_center (rv_right_leg r)) (a_xyz_ref a)) fr))
                 (vcross (vsub (p_collocation_point p) (a_xyz_ref a)) fu)).
Proof. exact unsteady_kutta_joukowski. Qed.
Print Assumptions C57_kutta_joukowski.

(** The loads of the airplanes are the sums of those of their own panels, in wind axes,
    and their coefficients. *)
Theorem C57_totals : forall solve, SolveSpec solve -> forall prescribed up n s k sp a,
  created up -> has_run solve prescribed up n s -> (k < n)%nat -> (up_first_results_step up <= Z.of_nat k)%Z ->
  step_at s k sp -> In a (sp_airplanes sp) ->
  let op := sp_operating_point sp in
  let q := op_density op * (op_velocity op * op_velocity op) / 2 in
  let S := a_s_ref a in let b := a_b_ref a in let c := a_c_ref a in
  exists fs ms fw mw cf cm,
    map p_force_geometry (airplane_panels a) = map Some fs /\ map p_moment_geometry (airplane_panels a) = map Some ms /\
    a_force_wind a = Some fw /\ a_moment_wind a = Some mw /\ a_force_coefficients a = Some cf /\ a_moment_coefficients a = Some cm /\
    mvmul (rotation_wind_to_geometry op) fw = vsum fs /\ mvmul (rotation_wind_to_geometry op) mw = vsum ms /\
    (q <> 0 -> S <> 0 -> vx cf * q * S = - vx fw /\ vy cf * q * S = vy fw /\ vz cf * q * S = - vz fw) /\
    (q <> 0 -> S <> 0 -> b <> 0 -> c <> 0 -> vx cm * q * S * b = vx mw /\ vy cm * q * S * c = vy mw /\ vz cm * q * S * b = vz mw).
Proof. exact unsteady_totals. Qed.
Print Assumptions C57_totals.

Example C57_applies : exists up s i a w c j p, created up /\ has_run gauss_solve false up 2 s /\ up_delta_time up <> 0 /\
  (up_first_results_step up <= 1)%Z /\ panel_place s 1 i a w c j p.
Proof. exact windy_loads. Qed.
