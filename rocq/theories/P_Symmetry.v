(** Property theorems C29 (mirror images in the x-z plane, for the two steady solvers).
    [S_Mirror] says what the mirror image of a point, a panel, an airplane and a solution is. *)
From Coq Require Import Lra.
From Verif Require Import M_Geometry M_Horseshoe M_SteadyRing S_Solve S_Loads S_Wing S_Mirror
  L_Gauss L_Example L_Example2 L_MirrorHorseshoe L_MirrorRing L_Symmetry L_Example6.

(** ** C29  Mirroring the airplanes and the sideslip mirrors the solution: the solver succeeds on
    the mirrored problem too, and every strength, load and velocity is the mirror image. *)
Theorem C29_horseshoe_mirrored : forall solve partner l l' op op' s, SolveSpec solve ->
  mirrored_flow op op' -> mirrored partner l l' -> hs_run solve (hs_new l op) = Ok s ->
  exists s', hs_run solve (hs_new l' op') = Ok s' /\
    (forall x v, hs_solution_velocity s [x] = [v] -> hs_solution_velocity s' [across x] = [across v]) /\
    paired partner (mirrored_solution horseshoe_strength) (hso_airplanes s) (hso_airplanes s').
Proof. exact hs_mirrored. Qed.
Print Assumptions C29_horseshoe_mirrored.

Theorem C29_ring_mirrored : forall solve partner l l' op op' s, SolveSpec solve ->
  mirrored_flow op op' -> mirrored partner l l' ->
  (forall a, In a l -> well_meshed_airplane a) -> (forall a, In a l' -> well_meshed_airplane a) ->
  ring_run solve (ring_new l op) = Ok s ->
  exists s', ring_run solve (ring_new l' op') = Ok s' /\
    (forall x v, ring_solution_velocity s [x] = [v] -> ring_solution_velocity s' [across x] = [across v]) /\
    paired partner (mirrored_solution ring_strength) (rso_airplanes s) (rso_airplanes s').
Proof. exact ring_mirrored. Qed.
Print Assumptions C29_ring_mirrored.

(** A problem that is its own mirror image, at no sideslip, has a symmetric solution, and an
    airplane that is its own image has no side force and no rolling or yawing moment.  [partner]
    need not be the identity: two airplanes flying side by side may be each other's images. *)
Theorem C29_horseshoe_symmetric : forall solve partner l op s, SolveSpec solve ->
  no_sideslip op -> mirrored partner l l -> hs_run solve (hs_new l op) = Ok s ->
  (forall x v, hs_solution_velocity s [x] = [v] -> hs_solution_velocity s [across x] = [across v]) /\
  paired partner (mirrored_solution horseshoe_strength) (hso_airplanes s) (hso_airplanes s) /\
  forall k a, partner k = k -> nth_error (hso_airplanes s) k = Some a -> no_lateral_loads a.
Proof. exact hs_symmetric. Qed.
Print Assumptions C29_horseshoe_symmetric.

Theorem C29_ring_symmetric : forall solve partner l op s, SolveSpec solve ->
  no_sideslip op -> mirrored partner l l -> (forall a, In a l -> well_meshed_airplane a) ->
  ring_run solve (ring_new l op) = Ok s ->
  (forall x v, ring_solution_velocity s [x] = [v] -> ring_solution_velocity s [across x] = [across v]) /\
  paired partner (mirrored_solution ring_strength) (rso_airplanes s) (rso_airplanes s) /\
  forall k a, partner k = k -> nth_error (rso_airplanes s) k = Some a -> no_lateral_loads a.
Proof. exact ring_symmetric. Qed.
Print Assumptions C29_ring_symmetric.

(** Which airplanes are symmetric: those made of wings given as symmetric about the x-z plane whose
    control surfaces are symmetric or undeflected, of fins in that plane, and of pairs of wings that
    are each other's images. *)
Theorem C29_symmetric_wing : forall sections name x z n c nc sp w,
  new_wing sections name x 0 z n true c nc sp = Ok w -> vx n = 0 -> vz n = 0 -> vnorm n = 1 ->
  (forall s, In s (removelast sections) ->
     cs_control_surface_type s = "symmetric"%string \/ cs_control_surface_deflection s = 0) ->
  mirrored_wing mirrored_panel w w.
Proof. exact symmetric_wing_mirrored. Qed.
Print Assumptions C29_symmetric_wing.

Theorem C29_fin : forall w,
  (forall p, In p (concat (w_panels w)) ->
     vy (p_front_left p) = 0 /\ vy (p_front_right p) = 0 /\ vy (p_back_left p) = 0 /\ vy (p_back_right p) = 0) ->
  mirrored_wing mirrored_panel w w.
Proof. exact fin_mirrored. Qed.
Print Assumptions C29_fin.

Theorem C29_symmetric_airplane : forall wings name x z weight s c b a partner,
  new_airplane wings name x 0 z weight s c b = Ok a -> paired partner (mirrored_wing mirrored_panel) wings wings ->
  symmetric_airplane a.
Proof. exact airplane_symmetric. Qed.
Print Assumptions C29_symmetric_airplane.

Theorem C29_symmetric_airplanes : forall l, (forall a, In a l -> symmetric_airplane a) -> mirrored (fun k => k) l l.
Proof. exact symmetric_mirrored. Qed.
Print Assumptions C29_symmetric_airplanes.

(** Reversing the asymmetric control surfaces ([opposed]) mirrors the wing, and so the airplane. *)
Theorem C29_opposed_wing : forall sections name x z n c nc sp w w',
  vx n = 0 -> vz n = 0 -> vnorm n = 1 ->
  new_wing sections name x 0 z n true c nc sp = Ok w -> new_wing (map opposed sections) name x 0 z n true c nc sp = Ok w' ->
  mirrored_wing mirrored_panel w w'.
Proof. exact opposed_wing_mirrored. Qed.
Print Assumptions C29_opposed_wing.

Theorem C29_mirrored_airplane : forall wings wings' name name' x z weight weight' s c b s' c' b' a a' partner,
  new_airplane wings name x 0 z weight s c b = Ok a -> new_airplane wings' name' x 0 z weight' s' c' b' = Ok a' ->
  a_s_ref a' = a_s_ref a -> a_c_ref a' = a_c_ref a -> a_b_ref a' = a_b_ref a ->
  paired partner (mirrored_wing mirrored_panel) wings wings' -> mirrored_airplane mirrored_panel a a'.
Proof. exact airplane_mirrored. Qed.
Print Assumptions C29_mirrored_airplane.

(** A symmetric airplane that the constructors accept, in a flow without sideslip, solved by both solvers. *)
Example C29_case :
  new_airplane [ex_wing true] "plane" 0 0 0 0 (Some 8) (Some 4) (Some 2) = Ok (ex_airplane true) /\
  no_sideslip (ex2_op 1 10) /\ mirrored (fun k => k) [ex_airplane true] [ex_airplane true] /\
  well_meshed_airplane (ex_airplane true) /\
  (exists s, hs_run gauss_solve (hs_new [ex_airplane true] (ex2_op 1 10)) = Ok s) /\
  exists s, ring_run gauss_solve (ring_new [ex_airplane true] (ex2_op 1 10)) = Ok s.
Proof.
  split; [exact (ex_airplane_ok true)|]. split; [exact (ex2_no_sideslip 1 10)|]. split; [exact sym_problem|].
  split; [exact (ex_well_meshed true)|]. split; [exact (sym_horseshoe_run gauss_solve 1 10 gauss_solve_spec)|].
  exact (sym_ring_run gauss_solve 1 10 gauss_solve_spec).
Qed.
Example C29_fin_case :
  new_wing [fin_section 0; fin_section 1] "fin" 0 0 0 (mkvec 0 0 1) false (mkvec 1 0 0) 1 "uniform" = Ok fin /\
  new_airplane [ex_wing true; fin] "plane" 0 0 0 0 (Some 8) (Some 4) (Some 2) = Ok finned_airplane /\
  symmetric_airplane finned_airplane.
Proof. exact (conj fin_ok (conj finned_airplane_ok finned_symmetric)). Qed.
