(** Property theorems C25, C26 (load processing in pterasoftware/functions.py). *)
From Coq Require Import Lra.
From Verif Require Import M_Loads M_Horseshoe M_SteadyRing S_Geometry S_Solve S_Loads
  L_Base L_Rotations L_Loads L_Horseshoe L_SteadyRing L_Gauss L_Example L_Example2 L_Frames.

(** ** C25  Each airplane's total load is the sum over exactly its own panels.
    [own_entries airplanes k l] is the block of the array [l] that belongs to
    airplane number [k]; together the blocks are the whole array. *)
Theorem C25_totals_of_own_panels : forall op forces moments airplanes airplanes',
  length moments = length forces ->
  process_forces op forces moments airplanes = Ok airplanes' ->
  Forall2 same_airplane airplanes airplanes' /\
  forall k a', nth_error airplanes' k = Some a' ->
    let to_wind := mvmul (mtrans (rotation_wind_to_geometry op)) in
    a_force_wind a' = Some (to_wind (vsum (own_entries airplanes k forces))) /\
    a_moment_wind a' = Some (to_wind (vsum (own_entries airplanes k moments))) /\
    map p_force_geometry (airplane_panels a') = map Some (own_entries airplanes k forces) /\
    map p_moment_geometry (airplane_panels a') = map Some (own_entries airplanes k moments) /\
    map p_force_wind (airplane_panels a') = map Some (map to_wind (own_entries airplanes k forces)) /\
    map p_moment_wind (airplane_panels a') = map Some (map to_wind (own_entries airplanes k moments)).
Proof. exact totals_of_own_panels. Qed.
Print Assumptions C25_totals_of_own_panels.

Theorem C25_every_panel_once : forall (B : Type) airplanes (l : list B),
  length l = length (all_panels airplanes) ->
  concat (map (fun k => own_entries airplanes k l) (seq 0 (length airplanes))) = l.
Proof. exact (@own_entries_partition). Qed.
Print Assumptions C25_every_panel_once.

(** Processing fails exactly when there are fewer loads than panels. *)
Theorem C25_processing_succeeds_iff : forall op forces moments airplanes,
  (exists airplanes', process_forces op forces moments airplanes = Ok airplanes') <->
  (length (all_panels airplanes) <= length forces /\ length (all_panels airplanes) <= length moments)%nat.
Proof. exact process_forces_complete. Qed.
Print Assumptions C25_processing_succeeds_iff.

(** What the two steady solvers leave on the airplanes. *)
Theorem C25_horseshoe_totals : forall solve s s', hs_run solve s = Ok s' ->
  forall a, In a (hso_airplanes s') -> exists fs ms,
    map p_force_geometry (airplane_panels a) = map Some fs /\
    map p_moment_geometry (airplane_panels a) = map Some ms /\
    a_force_wind a = Some (mvmul (mtrans (rotation_wind_to_geometry (hso_op s))) (vsum fs)) /\
    a_moment_wind a = Some (mvmul (mtrans (rotation_wind_to_geometry (hso_op s))) (vsum ms)).
Proof. exact hs_run_totals. Qed.
Print Assumptions C25_horseshoe_totals.

Theorem C25_ring_totals : forall solve s s', ring_run solve s = Ok s' ->
  forall a, In a (rso_airplanes s') -> exists fs ms,
    map p_force_geometry (airplane_panels a) = map Some fs /\
    map p_moment_geometry (airplane_panels a) = map Some ms /\
    a_force_wind a = Some (mvmul (mtrans (rotation_wind_to_geometry (rso_op s))) (vsum fs)) /\
    a_moment_wind a = Some (mvmul (mtrans (rotation_wind_to_geometry (rso_op s))) (vsum ms)).
Proof. exact ring_run_totals. Qed.
Print Assumptions C25_ring_totals.

Example C25_two_airplanes : exists airplanes',
  process_forces (ex_op 1 10) [mkvec 1 2 3; mkvec 4 5 6; mkvec 7 8 9] [mkvec 1 0 0; mkvec 0 1 0; mkvec 0 0 1]
                 [ex2_airplane; ex_airplane false] = Ok airplanes' /\
  own_entries [ex2_airplane; ex_airplane false] 0 [10; 20; 30] = [10; 20] /\
  own_entries [ex2_airplane; ex_airplane false] 1 [10; 20; 30] = [30].
Proof.
  destruct (proj2 (process_forces_complete (ex_op 1 10) [mkvec 1 2 3; mkvec 4 5 6; mkvec 7 8 9] [mkvec 1 0 0; mkvec 0 1 0; mkvec 0 0 1]
    [ex2_airplane; ex_airplane false])) as [m E]; [cbn; split; repeat constructor|].
  exists m. split; [exact E | split; reflexivity].
Qed.

(** ** C26  Frames and coefficients. *)
Theorem C26_airplane_frames_and_coefficients : forall op forces moments airplanes airplanes',
  length moments = length forces ->
  process_forces op forces moments airplanes = Ok airplanes' ->
  forall k a', nth_error airplanes' k = Some a' ->
  let fg := vsum (own_entries airplanes k forces) in
  let mg := vsum (own_entries airplanes k moments) in
  let q := op_density op * (op_velocity op * op_velocity op) / 2 in
  let S := a_s_ref a' in let b := a_b_ref a' in let c := a_c_ref a' in
  exists fw mw cf cm,
    a_force_wind a' = Some fw /\ a_moment_wind a' = Some mw /\
    a_force_coefficients a' = Some cf /\ a_moment_coefficients a' = Some cm /\
    mvmul (rotation_wind_to_geometry op) fw = fg /\ mvmul (rotation_wind_to_geometry op) mw = mg /\
    vnorm fw = vnorm fg /\ vnorm mw = vnorm mg /\ vdot fw mw = vdot fg mg /\
    (q <> 0 -> S <> 0 -> vx cf * q * S = - vx fw /\ vy cf * q * S = vy fw /\ vz cf * q * S = - vz fw) /\
    (q <> 0 -> S <> 0 -> b <> 0 -> c <> 0 ->
     vx cm * q * S * b = vx mw /\ vy cm * q * S * c = vy mw /\ vz cm * q * S * b = vz mw).
Proof. exact totals_frames. Qed.
Print Assumptions C26_airplane_frames_and_coefficients.

Theorem C26_panel_frames_and_coefficients : forall op forces moments airplanes airplanes',
  length moments = length forces ->
  process_forces op forces moments airplanes = Ok airplanes' ->
  forall p, In p (all_panels airplanes') ->
  let q := op_density op * (op_velocity op * op_velocity op) / 2 in
  exists fg mg fw mw cd cy cl,
    In (fg, mg) (combine forces moments) /\
    p_force_geometry p = Some fg /\ p_moment_geometry p = Some mg /\ p_force_wind p = Some fw /\ p_moment_wind p = Some mw /\
    p_induced_drag_coefficient p = Some cd /\ p_side_force_coefficient p = Some cy /\ p_lift_coefficient p = Some cl /\
    mvmul (rotation_wind_to_geometry op) fw = fg /\ mvmul (rotation_wind_to_geometry op) mw = mg /\
    vnorm fw = vnorm fg /\ vnorm mw = vnorm mg /\ vdot fw mw = vdot fg mg /\
    (q <> 0 -> p_area p <> 0 -> cd * q * p_area p = - vx fw /\ cy * q * p_area p = vy fw /\ cl * q * p_area p = - vz fw).
Proof. exact panels_frames. Qed.
Print Assumptions C26_panel_frames_and_coefficients.

(** The divisors are not zero for a solved flying airplane. *)
Example C26_divisors : op_density (ex_op 1 10) * (op_velocity (ex_op 1 10) * op_velocity (ex_op 1 10)) / 2 <> 0 /\
  a_s_ref ex2_airplane <> 0 /\ a_b_ref ex2_airplane <> 0 /\ a_c_ref ex2_airplane <> 0.
Proof. cbn. repeat split; lra. Qed.
