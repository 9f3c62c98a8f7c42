(** Property theorems C66 (which cases have an answer). *)
From Coq Require Import List ZArith Reals String.
From Verif Require Import M_Unsteady M_Horseshoe M_SteadyRing S_Solve S_Loads S_Unsteady S_UnsteadyRun S_Solvable S_Geometry S_Folded
  L_Gauss L_SteadyRing L_Solvable L_Example L_Example2 L_SolvableExample L_Example3 L_Example4 L_SolvableTwice L_SolvableFolded.
Import ListNotations.
Local Open Scope R_scope.

(** ** C66  A case can be solved exactly when no strengths but zero go unnoticed, that is, when
    no combination of the panels' vortices induces no velocity through any panel.  This is
    a matter of the panels and the direction of the flow (and the drift in a quarter of a time
    step) alone. *)
Theorem C66_horseshoe : forall solve airplanes op, SolveSpec solve ->
  (exists s, hs_run solve (hs_new airplanes op) = Ok s) <-> distinguishable (panels_of airplanes) (horseshoe_paths op airplanes).
Proof. exact horseshoe_solvable. Qed.
Print Assumptions C66_horseshoe.

Theorem C66_ring : forall solve airplanes op, SolveSpec solve -> fresh_ring (ring_new airplanes op) ->
  (forall a w, In a airplanes -> In w (a_wings a) -> well_meshed (w_panels w)) ->
  (exists s, ring_run solve (ring_new airplanes op) = Ok s) <-> distinguishable (panels_of airplanes) (steady_ring_paths op airplanes).
Proof. exact ring_solvable. Qed.
Print Assumptions C66_ring.

Theorem C66_unsteady : forall solve, SolveSpec solve -> forall prescribed up streamlines, created up ->
  (exists s, finished solve prescribed streamlines up s) <->
  up_steady_problems up <> [] /\
  forall sp, In sp (up_steady_problems up) -> distinguishable (step_panels sp) (unsteady_ring_paths (up_delta_time up) sp).
Proof. exact unsteady_solvable. Qed.
Print Assumptions C66_unsteady.

(** So speed, density and viscosity do not matter for the steady solvers, and it does not matter
    for the unsteady solver whether the wake is free. *)
Theorem C66_any_speed : forall solve solve' airplanes op op', SolveSpec solve -> SolveSpec solve' ->
  op_alpha op' = op_alpha op -> op_beta op' = op_beta op ->
  ((exists s, hs_run solve (hs_new airplanes op) = Ok s) <-> (exists s, hs_run solve' (hs_new airplanes op') = Ok s)) /\
  (fresh_ring (ring_new airplanes op) -> (forall a w, In a airplanes -> In w (a_wings a) -> well_meshed (w_panels w)) ->
   ((exists s, ring_run solve (ring_new airplanes op) = Ok s) <-> (exists s, ring_run solve' (ring_new airplanes op') = Ok s))).
Proof. exact steady_any_speed. Qed.
Print Assumptions C66_any_speed.

Theorem C66_any_wake : forall solve solve' prescribed prescribed' streamlines streamlines' up,
  SolveSpec solve -> SolveSpec solve' -> created up ->
  (exists s, finished solve prescribed streamlines up s) <-> (exists s, finished solve' prescribed' streamlines' up s).
Proof. exact unsteady_any_wake. Qed.
Print Assumptions C66_any_wake.

(** A wing listed twice cannot be solved. *)
Theorem C66_wing_twice_fails : forall solve airplanes op pre a post w before between after p ps, SolveSpec solve ->
  airplanes = pre ++ a :: post -> a_wings a = before ++ w :: between ++ w :: after -> concat (w_panels w) = p :: ps ->
  ~ exists s, hs_run solve (hs_new airplanes op) = Ok s.
Proof. exact wing_twice. Qed.
Print Assumptions C66_wing_twice_fails.

(** The same holds of wings of one airplane or of several that are in the same place, and of all three solvers; in the unsteady one,
    it is enough that they are in the same place at one time step. *)
Theorem C66_same_place : forall solve airplanes op l1 w l2 w' l3, SolveSpec solve -> wings_of airplanes = l1 ++ w :: l2 ++ w' :: l3 ->
  w_panels w' = w_panels w -> w_span w' = w_span w -> concat (w_panels w) <> [] ->
  (~ exists s, hs_run solve (hs_new airplanes op) = Ok s) /\
  (fresh_ring (ring_new airplanes op) -> (forall a w, In a airplanes -> In w (a_wings a) -> well_meshed (w_panels w)) ->
   ~ exists s, ring_run solve (ring_new airplanes op) = Ok s).
Proof. exact steady_twice. Qed.
Print Assumptions C66_same_place.

Theorem C66_same_place_once : forall solve prescribed streamlines up sp l1 w l2 w' l3, SolveSpec solve -> created up ->
  In sp (up_steady_problems up) -> step_wings sp = l1 ++ w :: l2 ++ w' :: l3 -> w_panels w' = w_panels w -> concat (w_panels w) <> [] ->
  ~ exists s, finished solve prescribed streamlines up s.
Proof. exact unsteady_twice. Qed.
Print Assumptions C66_same_place_once.

(** It is enough that two columns of panels of one wing are in the same place, with left and right exchanged. *)
Theorem C66_folded : forall solve airplanes op w j k, SolveSpec solve -> In w (wings_of airplanes) -> w_panels w <> [] -> j <> k -> folded (w_panels w) j k ->
  (~ exists s, hs_run solve (hs_new airplanes op) = Ok s) /\
  (fresh_ring (ring_new airplanes op) -> (forall a w, In a airplanes -> In w (a_wings a) -> well_meshed (w_panels w)) ->
   ~ exists s, ring_run solve (ring_new airplanes op) = Ok s).
Proof. exact steady_folded. Qed.
Print Assumptions C66_folded.

Theorem C66_folded_once : forall solve prescribed streamlines up sp w j k, SolveSpec solve -> created up -> In sp (up_steady_problems up) ->
  In w (step_wings sp) -> w_panels w <> [] -> j <> k -> folded (w_panels w) j k -> ~ exists s, finished solve prescribed streamlines up s.
Proof. exact unsteady_folded. Qed.
Print Assumptions C66_folded_once.

(** So a wing that lies within its own plane of symmetry must not be made with [symmetric = True]: every column of it is in the same
    place as its mirror image.  The constructors accept such a wing; no solver can solve an airplane that has it. *)
Theorem C66_own_mirror_image : forall sections name x y z n c nc sp w, new_wing sections name x y z n true c nc sp = Ok w -> vnorm n = 1 ->
  (forall s, In s sections -> cs_unit_normal s = n /\ vdot n (cs_leading_edge s) = 0) ->
  (forall s, In s (removelast sections) -> cs_control_surface_type s = "symmetric"%string \/ cs_control_surface_deflection s = 0) ->
  w_panels w <> [] /\ (1 < w_num_spanwise_panels w)%nat /\
  forall j, (j < w_num_spanwise_panels w)%nat -> folded (w_panels w) (w_num_spanwise_panels w - 1 - j) j.
Proof. exact wing_folded. Qed.
Print Assumptions C66_own_mirror_image.

Theorem C66_symmetric_fin_fails : forall solve airplanes op sections name x y z n c nc sp w, SolveSpec solve -> In w (wings_of airplanes) ->
  new_wing sections name x y z n true c nc sp = Ok w -> vnorm n = 1 ->
  (forall s, In s sections -> cs_unit_normal s = n /\ vdot n (cs_leading_edge s) = 0) ->
  (forall s, In s (removelast sections) -> cs_control_surface_type s = "symmetric"%string \/ cs_control_surface_deflection s = 0) ->
  (~ exists s, hs_run solve (hs_new airplanes op) = Ok s) /\
  (fresh_ring (ring_new airplanes op) -> (forall a w, In a airplanes -> In w (a_wings a) -> well_meshed (w_panels w)) ->
   ~ exists s, ring_run solve (ring_new airplanes op) = Ok s).
Proof. exact own_image. Qed.
Print Assumptions C66_symmetric_fin_fails.

Theorem C66_symmetric_fin_fails_once : forall solve prescribed streamlines up sp sections name x y z n c nc spacing w, SolveSpec solve -> created up ->
  In sp (up_steady_problems up) -> In w (step_wings sp) -> new_wing sections name x y z n true c nc spacing = Ok w -> vnorm n = 1 ->
  (forall s, In s sections -> cs_unit_normal s = n /\ vdot n (cs_leading_edge s) = 0) ->
  (forall s, In s (removelast sections) -> cs_control_surface_type s = "symmetric"%string \/ cs_control_surface_deflection s = 0) ->
  ~ exists s, finished solve prescribed streamlines up s.
Proof. exact own_image_once. Qed.
Print Assumptions C66_symmetric_fin_fails_once.

(** A fin upright in the plane of symmetry, made with [symmetric = True]. *)
Example C66_fin : exists w, new_wing fin_sections "wing" 0 0 0 (mkvec 0 1 0) true (mkvec 1 0 0) 1 "uniform" = Ok w /\ vnorm (mkvec 0 1 0) = 1 /\
  (forall s, In s fin_sections -> cs_unit_normal s = mkvec 0 1 0 /\ vdot (mkvec 0 1 0) (cs_leading_edge s) = 0) /\
  (forall s, In s (removelast fin_sections) -> cs_control_surface_type s = "symmetric"%string \/ cs_control_surface_deflection s = 0) /\
  exists a, new_airplane [w] "fin" 0 0 0 0 None None None = Ok a /\ In w (wings_of [a]).
Proof. exact fin_folded. Qed.

(** A plate given twice, and two plates that fly in the same place. *)
Example C66_pair : wings_of [mkairplane [ex_wing false; ex_wing false] "pair" 0 0 0 0 8 4 3 1 None None None None] = [] ++ ex_wing false :: [] ++ ex_wing false :: [] /\
  concat (w_panels (ex_wing false)) <> [].
Proof. exact plate_twice. Qed.
Example C66_together : exists m up sp w,
  new_movement [ex_airplane_movement 0 resting; ex_airplane_movement 0 resting] (windy resting) (Some 3%Z) None None (Some 1) = Ok m /\
  new_unsteady_problem m true = Ok up /\ In sp (up_steady_problems up) /\ step_wings sp = [] ++ w :: [] ++ w :: [] /\ concat (w_panels w) <> [].
Proof. exact (plates_together true). Qed.

(** A plate and a wing with flaps that can be solved. *)
Example C66_plate : length (panels_of [ex_airplane false]) = 1%nat /\ distinguishable (panels_of [ex_airplane false]) (horseshoe_paths (ex_op 1 10) [ex_airplane false]) /\
  distinguishable (panels_of [ex_airplane false]) (steady_ring_paths (ex_op 1 10) [ex_airplane false]).
Proof. exact plate_distinguishable. Qed.
Example C66_flaps : exists up sp, created up /\ In sp (up_steady_problems up) /\ length (step_panels sp) = 4%nat /\
  distinguishable (step_panels sp) (unsteady_ring_paths (up_delta_time up) sp).
Proof. exact flap_distinguishable. Qed.
