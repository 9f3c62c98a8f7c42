(** Property theorems C64 (moving and turning a whole problem). *)
From Verif Require Import M_Geometry M_Horseshoe M_SteadyRing S_Geometry S_Solve S_Loads S_Mirror S_Rigid
  L_Gauss L_Example L_Example2 L_Example6 L_RigidSolvers L_RigidShift L_RigidExample.

(** ** C64  A problem whose panels, and whose flow, are moved and turned as a whole is solved as
    well.  Velocities and loads turn along; loads and coefficients in wind axes stay the same,
    except that moments are taken about the airplane's reference point wherever that now is. *)
Theorem C64_horseshoe_moved : forall m t, proper_rotation m -> forall solve l l' op op' s, SolveSpec solve ->
  turned_flow m op op' -> moved_airplanes m t l l' -> hs_run solve (hs_new l op) = Ok s ->
  exists s', hs_run solve (hs_new l' op') = Ok s' /\
    (forall x v, hs_solution_velocity s [x] = [v] -> hs_solution_velocity s' [moved m t x] = [mvmul m v]) /\
    Forall2 (moved_solution m t op' horseshoe_strength) (hso_airplanes s) (hso_airplanes s').
Proof. exact hs_moved. Qed.
Print Assumptions C64_horseshoe_moved.

Theorem C64_ring_moved : forall m t, proper_rotation m -> forall solve l l' op op' s, SolveSpec solve ->
  turned_flow m op op' -> moved_airplanes m t l l' ->
  (forall a, In a l -> well_meshed_airplane a) -> (forall a, In a l' -> well_meshed_airplane a) ->
  ring_run solve (ring_new l op) = Ok s ->
  exists s', ring_run solve (ring_new l' op') = Ok s' /\
    (forall x v, ring_solution_velocity s [x] = [v] -> ring_solution_velocity s' [moved m t x] = [mvmul m v]) /\
    Forall2 (moved_solution m t op' ring_strength) (rso_airplanes s) (rso_airplanes s').
Proof. exact ring_moved. Qed.
Print Assumptions C64_ring_moved.

(** Instances: no turn, so the flow is the same; a flow that differs in the angle of attack
    alone is turned about the y axis; any two flows of one density and speed differ by a turn. *)
Theorem C64_no_turn : proper_rotation mid /\ (forall t x, moved mid t x = vadd x t) /\ forall op, turned_flow mid op op.
Proof. exact (conj mid_proper (conj mid_moved same_flow)). Qed.
Print Assumptions C64_no_turn.

Theorem C64_pitch : forall density velocity alpha beta thrust thrust' nu nu' theta,
  proper_rotation (pitch theta) /\
  turned_flow (pitch theta) (mkop density velocity alpha beta thrust nu)
              (mkop density velocity (alpha + theta) beta thrust' nu').
Proof. exact pitch_is_turn. Qed.
Print Assumptions C64_pitch.

Theorem C64_any_turn : forall op op', op_density op' = op_density op -> op_velocity op' = op_velocity op ->
  proper_rotation (turn op op') /\ turned_flow (turn op op') op op'.
Proof. exact turn_between. Qed.
Print Assumptions C64_any_turn.

(** Changing reference points alone moves nothing. *)
Theorem C64_other_reference : forall l l', Forall2 other_reference l l' -> moved_airplanes mid vzero l l'.
Proof. exact other_reference_moved. Qed.
Print Assumptions C64_other_reference.

(** Building a wing with its leading edge elsewhere shifts its panels, symmetric or not, and
    nothing more; airplanes built of such wings are shifted. *)
Theorem C64_wing_elsewhere : forall sections name x y z n sym c nc sp dx dy dz w,
  new_wing sections name x y z n sym c nc sp = Ok w ->
  exists w', new_wing sections name (x + dx) (y + dy) (z + dz) n sym c nc sp = Ok w' /\
    moved_wing (moved_panel mid (mkvec dx dy dz)) w w' /\
    w_projected_area w' = w_projected_area w /\ w_mean_aerodynamic_chord w' = w_mean_aerodynamic_chord w /\
    (well_meshed (w_panels w) /\ well_meshed (w_panels w')).
Proof. exact wing_elsewhere. Qed.
Print Assumptions C64_wing_elsewhere.

Theorem C64_airplane_elsewhere : forall wings wings' name name' x y z x' y' z' weight weight' s c b a a' m t,
  new_airplane wings name x y z weight s c b = Ok a -> new_airplane wings' name' x' y' z' weight' s c b = Ok a' ->
  Forall2 (fun w w' => moved_wing (moved_panel m t) w w' /\ w_projected_area w' = w_projected_area w /\
             w_mean_aerodynamic_chord w' = w_mean_aerodynamic_chord w) wings wings' ->
  moved_airplane (fun _ _ => moved_panel m t) a a'.
Proof. exact airplane_elsewhere. Qed.
Print Assumptions C64_airplane_elsewhere.

(** A symmetric wing pitched and shifted; both solvers solve its problem. *)
Example C64_case : forall theta t,
  moved_airplanes (pitch theta) t [ex_airplane true] [carried_airplane (pitch theta) t (ex_airplane true)] /\
  well_meshed_airplane (ex_airplane true) /\ well_meshed_airplane (carried_airplane (pitch theta) t (ex_airplane true)) /\
  (exists s, hs_run gauss_solve (hs_new [ex_airplane true] (ex2_op 1 10)) = Ok s) /\
  exists s, ring_run gauss_solve (ring_new [ex_airplane true] (ex2_op 1 10)) = Ok s.
Proof.
  intros theta t. split; [repeat constructor; apply carried_moved|]. split; [exact (ex_well_meshed true)|].
  split; [exact (carried_meshed _ _ _ (ex_well_meshed true))|].
  split; [exact (sym_horseshoe_run gauss_solve 1 10 gauss_solve_spec)|]. exact (sym_ring_run gauss_solve 1 10 gauss_solve_spec).
Qed.
Example C64_wing_case :
  new_wing [ex_section 0; ex_section 1] "wing" 0 0 0 (mkvec 0 1 0) true (mkvec 1 0 0) 1 "uniform" = Ok (ex_wing true) /\
  new_airplane [ex_wing true] "plane" 0 0 0 0 (Some 8) (Some 4) (Some 2) = Ok (ex_airplane true).
Proof. exact (conj (ex_wing_ok true) (ex_airplane_ok true)). Qed.
