(** Property theorems C67 (larger and smaller copies). *)
From Coq Require Import List ZArith Reals String.
From Verif Require Import M_Geometry M_Loads M_Horseshoe M_SteadyRing S_Solve S_Loads S_Mirror S_Solvable S_Size
  L_Gauss L_SteadyRing L_Example L_SizeSolvers L_SizeWing L_SizeSmall L_SizeExample.
Import ListNotations.
Local Open Scope R_scope.

(** ** C67  The results of the steady solvers do not depend on the unit of length: for
    a problem built [k] times as large in the same flow, strengths are [k] times, forces [k^2] times and
    moments [k^3] times as large, while coefficients, and velocities at corresponding points,
    stay the same - as long as the same vortices are cut off at the points the solvers use. *)
Theorem C67_horseshoe : forall k, 0 < k -> forall solve airplanes airplanes' op op' s,
  SolveSpec solve -> same_stream op op' -> enlarged_airplanes k airplanes airplanes' ->
  (forall p x, In p (panels_of airplanes) -> In x (horseshoe_points p) -> resolved k (horseshoe_paths op airplanes) x) ->
  hs_run solve (hs_new airplanes op) = Ok s ->
  exists s', hs_run solve (hs_new airplanes' op') = Ok s' /\
    (forall x, resolved k (horseshoe_paths op airplanes) x -> hs_solution_velocity s' [vscale k x] = hs_solution_velocity s [x]) /\
    Forall2 (enlarged_solution k horseshoe_strength) (hso_airplanes s) (hso_airplanes s').
Proof. exact hs_big. Qed.
Print Assumptions C67_horseshoe.

Theorem C67_ring : forall k, 0 < k -> forall solve airplanes airplanes' op op' s,
  SolveSpec solve -> same_stream op op' -> enlarged_airplanes k airplanes airplanes' ->
  (forall a, In a airplanes -> well_meshed_airplane a) -> (forall a, In a airplanes' -> well_meshed_airplane a) ->
  (forall x, In x (ring_points (panels_of airplanes) (steady_ring_paths op airplanes)) -> resolved k (steady_ring_paths op airplanes) x) ->
  ring_run solve (ring_new airplanes op) = Ok s ->
  exists s', ring_run solve (ring_new airplanes' op') = Ok s' /\
    (forall x, resolved k (steady_ring_paths op airplanes) x -> ring_solution_velocity s' [vscale k x] = ring_solution_velocity s [x]) /\
    Forall2 (enlarged_solution k ring_strength) (rso_airplanes s) (rso_airplanes s').
Proof. exact ring_big. Qed.
Print Assumptions C67_ring.

(** A larger copy loses no vortex that the original feels. *)
Theorem C67_larger : forall k vortices x, 1 <= k ->
  (forall v s, In v vortices -> In s v -> vcross (vsub (fst s) x) (vsub (snd s) x) = vzero \/ ~ cut_off x s) -> resolved k vortices x.
Proof. exact larger_resolved. Qed.
Print Assumptions C67_larger.

(** Multiplying all lengths given to the constructors gives such a copy. *)
Theorem C67_wing : forall k sections name x y z n sym c num_chordwise spacing w, 0 < k ->
  new_wing sections name x y z n sym c num_chordwise spacing = Ok w ->
  exists w', new_wing (map (enlarged_section k) sections) name (k * x) (k * y) (k * z) n sym c num_chordwise spacing = Ok w' /\
    enlarged_wing k (enlarged_panel k) w w' /\
    w_projected_area w' = k ^ 2 * w_projected_area w /\ w_mean_aerodynamic_chord w' = k * w_mean_aerodynamic_chord w /\
    (well_meshed (w_panels w) /\ well_meshed (w_panels w')).
Proof. exact wing_enlarged. Qed.
Print Assumptions C67_wing.

Theorem C67_airplane : forall k wings wings' name name' x y z weight weight' s_ref c_ref b_ref a a',
  new_airplane wings name x y z weight s_ref c_ref b_ref = Ok a ->
  new_airplane wings' name' (k * x) (k * y) (k * z) weight' (option_map (Rmult (k ^ 2)) s_ref) (option_map (Rmult k) c_ref) (option_map (Rmult k) b_ref) = Ok a' ->
  Forall2 (fun w w' => enlarged_wing k (enlarged_panel k) w w' /\ w_projected_area w' = k ^ 2 * w_projected_area w /\
             w_mean_aerodynamic_chord w' = k * w_mean_aerodynamic_chord w) wings wings' ->
  enlarged_airplane k (enlarged_panel k) a a'.
Proof. exact airplane_enlarged. Qed.
Print Assumptions C67_airplane.

(** Without the condition on the cut-offs the claim is false: a plate that both solvers solve has
    a smaller copy that neither can solve. *)
Theorem C67_any_size_refuted : exists k airplanes airplanes' op s s0, 0 < k /\ enlarged_airplanes k airplanes airplanes' /\
  (forall a, In a airplanes -> well_meshed_airplane a) /\ (forall a, In a airplanes' -> well_meshed_airplane a) /\
  hs_run gauss_solve (hs_new airplanes op) = Ok s /\ ring_run gauss_solve (ring_new airplanes op) = Ok s0 /\
  forall solve, SolveSpec solve ->
    (~ exists s', hs_run solve (hs_new airplanes' op) = Ok s') /\ (~ exists s', ring_run solve (ring_new airplanes' op) = Ok s').
Proof. exact size_matters. Qed.
Print Assumptions C67_any_size_refuted.

(** Indeed no case at all can be solved at every size. *)
Theorem C67_too_small_fails : forall solve airplanes op, SolveSpec solve -> panels_of airplanes <> [] ->
  exists k0, 0 < k0 /\ forall k airplanes' op', 0 < k < k0 -> same_stream op op' -> enlarged_airplanes k airplanes airplanes' ->
    (~ exists s, hs_run solve (hs_new airplanes' op') = Ok s) /\
    (fresh_ring (ring_new airplanes' op') -> (forall a w, In a airplanes' -> In w (a_wings a) -> well_meshed (w_panels w)) ->
     ~ exists s, ring_run solve (ring_new airplanes' op') = Ok s).
Proof. exact too_small. Qed.
Print Assumptions C67_too_small_fails.

(** How small: a panel of the trailing edge in the shape of a parallelogram does not feel its own
    ring vortex when its area is less than 2^-25 square metres, 0.03 square millimetres. *)
Theorem C67_small_panel : forall mesh c j p, behind mesh c j = None ->
  vsub (p_back_left p) (p_front_left p) = vsub (p_back_right p) (p_front_right p) -> p_area p < / 2 ^ 25 ->
  felt p (ring_path vzero mesh c j p) = 0.
Proof. exact small_unfelt. Qed.
Print Assumptions C67_small_panel.

(** A plate of any larger size that meets the hypotheses. *)
Example C67_plate : forall k, 1 <= k -> exists w a,
  new_wing (map (enlarged_section k) [ex_section 0; ex_section 1]) "wing" 0 0 0 (mkvec 0 1 0) false (mkvec 1 0 0) 1 "uniform" = Ok w /\
  new_airplane [w] "plane" 0 0 0 0 (Some (k ^ 2 * 8)) (Some (k * 4)) (Some (k * 1)) = Ok a /\
  well_meshed_airplane a /\ enlarged_airplanes k [ex_airplane false] [a] /\
  (forall p x, In p (panels_of [ex_airplane false]) -> In x (horseshoe_points p) -> resolved k (horseshoe_paths (ex_op 1 10) [ex_airplane false]) x) /\
  (forall x, In x (ring_points (panels_of [ex_airplane false]) (steady_ring_paths (ex_op 1 10) [ex_airplane false])) ->
    resolved k (steady_ring_paths (ex_op 1 10) [ex_airplane false]) x) /\
  (exists s, hs_run gauss_solve (hs_new [ex_airplane false] (ex_op 1 10)) = Ok s) /\
  (exists s, ring_run gauss_solve (ring_new [ex_airplane false] (ex_op 1 10)) = Ok s).
Proof. exact plate_example. Qed.
Example C67_small_plate : exists p, behind [[p]] 0 0 = None /\ vsub (p_back_left p) (p_front_left p) = vsub (p_back_right p) (p_front_right p) /\
  0 < p_area p < / 2 ^ 25.
Proof. exact tiny_panel. Qed.
