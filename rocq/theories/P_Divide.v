(** Property theorems C74 (an extra section that changes no geometry).  [divided],
    [same_airplane], [same_solution] and [airplane_movement_divided] are in S_Divide. *)
From Coq Require Import List ZArith Reals String.
From Verif Require Import M_Geometry M_Horseshoe M_SteadyRing M_Movement M_Unsteady S_Solve S_Loads S_Mirror S_Movement S_Rigid S_Image S_Unsteady S_UnsteadyRun S_Divide
  L_Gauss L_Example L_Example2 L_Example4 L_SymmetricExample L_Divide L_DivideRun L_DivideMove L_DivideUnsteady L_DivideExample.
Import ListNotations.
Local Open Scope R_scope.

(** ** C74  Describing the same wing by one more cross section, placed where two of its panels
    meet, changes nothing: neither the mesh and the reference dimensions nor any result of a solver. *)
Theorem C74_wing : forall pre a b post j k name x y z n symmetric c num_chordwise spacing,
  (1 <= j)%nat -> (1 <= k)%nat -> cs_num_spanwise_panels a = (j + k)%nat -> cs_spanwise_spacing a = "uniform"%string -> alike a b ->
  new_wing (divided pre j k a b post) name x y z n symmetric c num_chordwise spacing =
  match new_wing (pre ++ a :: b :: post) name x y z n symmetric c num_chordwise spacing with
  | Ok w => Ok (with_sections (map (cs_set_wing_chordwise c) (divided pre j k a b post)) w)
  | Err e => Err e
  end.
Proof. exact wing_divided. Qed.
Print Assumptions C74_wing.

Theorem C74_dimensions : forall pre a b post j k name x y z n symmetric c num_chordwise spacing w w',
  (1 <= j)%nat -> (1 <= k)%nat -> cs_num_spanwise_panels a = (j + k)%nat -> cs_spanwise_spacing a = "uniform"%string -> alike a b ->
  new_wing (pre ++ a :: b :: post) name x y z n symmetric c num_chordwise spacing = Ok w ->
  new_wing (divided pre j k a b post) name x y z n symmetric c num_chordwise spacing = Ok w' ->
  w_panels w' = w_panels w /\ w_span w' = w_span w /\ w_projected_area w' = w_projected_area w /\ w_wetted_area w' = w_wetted_area w /\
  w_standard_mean_chord w' = w_standard_mean_chord w /\ w_mean_aerodynamic_chord w' = w_mean_aerodynamic_chord w.
Proof. exact dimensions_divided. Qed.
Print Assumptions C74_dimensions.

Theorem C74_airplane : forall wings wings' name name' x y z weight weight' s_ref c_ref b_ref a,
  Forall2 like_wing wings wings' -> new_airplane wings name x y z weight s_ref c_ref b_ref = Ok a ->
  exists a', new_airplane wings' name' x y z weight' s_ref c_ref b_ref = Ok a' /\ same_airplane a a'.
Proof. exact airplane_like. Qed.
Print Assumptions C74_airplane.

(** The plate of the examples: two panels between two sections, then a section between the panels. *)
Example C74_plate :
  new_wing [long_root; ex_section 2] "wing" 0 (-1) 0 (mkvec 0 1 0) false (mkvec 1 0 0) 1 "uniform" = Ok long_wing /\
  cs_num_spanwise_panels long_root = (1 + 1)%nat /\ cs_spanwise_spacing long_root = "uniform"%string /\ alike long_root (ex_section 2) /\
  parted_sections = divided [] 1 1 long_root (ex_section 2) [] /\
  map cs_leading_edge parted_sections = [vzero; mkvec 0 1 0; mkvec 0 2 0] /\ map cs_num_spanwise_panels parted_sections = [1; 1; 1]%nat /\
  new_wing parted_sections "wing" 0 (-1) 0 (mkvec 0 1 0) false (mkvec 1 0 0) 1 "uniform" = Ok parted_wing /\
  like_wing long_wing parted_wing.
Proof. exact (conj long_wing_ok (conj eq_refl (conj eq_refl (conj (proj2 (proj2 (proj2 long_alike))) (conj eq_refl (conj (proj1 parted_places) (conj (proj2 parted_places) (conj parted_wing_ok parted_like)))))))). Qed.

(** The steady solvers see panels, spans and reference dimensions only. *)
Theorem C74_horseshoe : forall solve airplanes airplanes' op s,
  SolveSpec solve -> Forall2 same_airplane airplanes airplanes' ->
  hs_run solve (hs_new airplanes op) = Ok s ->
  exists s', hs_run solve (hs_new airplanes' op) = Ok s' /\
    (forall x, hs_solution_velocity s' [x] = hs_solution_velocity s [x]) /\
    Forall2 (same_solution horseshoe_strength) (hso_airplanes s) (hso_airplanes s').
Proof. exact hs_same. Qed.
Print Assumptions C74_horseshoe.

Theorem C74_ring : forall solve airplanes airplanes' op s,
  SolveSpec solve -> Forall2 same_airplane airplanes airplanes' -> (forall a, In a airplanes -> well_meshed_airplane a) ->
  ring_run solve (ring_new airplanes op) = Ok s ->
  exists s', ring_run solve (ring_new airplanes' op) = Ok s' /\
    (forall x, ring_solution_velocity s' [x] = ring_solution_velocity s [x]) /\
    Forall2 (same_solution ring_strength) (rso_airplanes s) (rso_airplanes s').
Proof. exact ring_same. Qed.
Print Assumptions C74_ring.

Example C74_solved_plate :
  new_airplane [long_wing] "plane" 0 0 0 0 (Some 8) (Some 4) (Some 2) = Ok long_airplane /\
  new_airplane [parted_wing] "plane" 0 0 0 0 (Some 8) (Some 4) (Some 2) = Ok parted_airplane /\
  same_airplane long_airplane parted_airplane /\ well_meshed_airplane long_airplane /\
  (exists s, hs_run gauss_solve (hs_new [long_airplane] (ex2_op 1 10)) = Ok s) /\
  exists s, ring_run gauss_solve (ring_new [long_airplane] (ex2_op 1 10)) = Ok s.
Proof. exact (conj long_airplane_ok (conj (proj1 parted_airplane_ok) (conj (proj2 parted_airplane_ok) (conj long_meshed (long_runs gauss_solve 1 10 gauss_solve_spec))))). Qed.

(** Moving wings: the new section sweeps and heaves like its outer neighbour and pitches
    like its inner one, and the wing takes the same shape at every step. *)
Theorem C74_movement : forall ams ams' om num_steps num_cycles num_chords dt mv,
  Forall2 airplane_movement_divided ams ams' -> new_movement ams om num_steps num_cycles num_chords dt = Ok mv ->
  exists mv', new_movement ams' om num_steps num_cycles num_chords dt = Ok mv' /\
    mv_num_steps mv' = mv_num_steps mv /\ mv_num_cycles mv' = mv_num_cycles mv /\ mv_num_chords mv' = mv_num_chords mv /\
    mv_delta_time mv' = mv_delta_time mv /\ mv_operating_points mv' = mv_operating_points mv /\
    Forall2 (Forall2 same_airplane) (mv_airplanes mv) (mv_airplanes mv').
Proof. exact movement_divided. Qed.
Print Assumptions C74_movement.

(** Strengths, wakes, loads and velocities of an unsteady run are the same after every number of
    steps ([run_image] with the identity says so), and so are the final loads. *)
Theorem C74_run : forall ams ams' om num_steps num_cycles num_chords dt mv only up
    (solve : list (list R) -> list R -> result (list R)) (prescribed : bool) n s,
  SolveSpec solve -> Forall2 airplane_movement_divided ams ams' -> (forall am w, In am ams -> In w (am_wings am) -> has_panels w) ->
  new_movement ams om num_steps num_cycles num_chords dt = Ok mv -> new_unsteady_problem mv only = Ok up -> mv_delta_time mv <> 0 ->
  after solve prescribed up n s ->
  exists mv' up' s', new_movement ams' om num_steps num_cycles num_chords dt = Ok mv' /\ new_unsteady_problem mv' only = Ok up' /\
    after solve prescribed up' n s' /\
    run_image false mid vzero as_listed (up_first_results_step up) n s s' /\
    forall x u, unsteady_solution_velocity s [x] = Ok [u] -> unsteady_solution_velocity s' [x] = Ok [u].
Proof. exact run_divided. Qed.
Print Assumptions C74_run.

Theorem C74_finished : forall ams ams' om num_steps num_cycles num_chords dt mv only up
    (solve : list (list R) -> list R -> result (list R)) (prescribed lines : bool) s,
  SolveSpec solve -> Forall2 airplane_movement_divided ams ams' -> (forall am w, In am ams -> In w (am_wings am) -> has_panels w) ->
  new_movement ams om num_steps num_cycles num_chords dt = Ok mv -> new_unsteady_problem mv only = Ok up -> mv_delta_time mv <> 0 ->
  (up_first_averaging_step up < up_num_steps up)%Z -> finished solve prescribed lines up s ->
  exists mv' up' s', new_movement ams' om num_steps num_cycles num_chords dt = Ok mv' /\ new_unsteady_problem mv' only = Ok up' /\
    finished solve prescribed lines up' s' /\
    run_image false mid vzero as_listed (up_first_results_step up) (length (up_steady_problems up)) s s' /\
    up_final (us_problem s') = up_final (us_problem s) /\ up_final_mean (us_problem s') = up_final_mean (us_problem s) /\
    up_final_rms (us_problem s') = up_final_rms (us_problem s).
Proof. exact finished_divided. Qed.
Print Assumptions C74_finished.

Example C74_flight :
  Forall2 airplane_movement_divided [still_airplane long_movement] [parted_flight] /\
  (forall am w, In am [still_airplane long_movement] -> In w (am_wings am) -> has_panels w) /\
  forall only prescribed lines : bool, exists mv up s,
    new_movement [still_airplane long_movement] (windy gust) (Some 3%Z) None None (Some 1) = Ok mv /\ new_unsteady_problem mv only = Ok up /\
    mv_delta_time mv <> 0 /\ (up_first_averaging_step up < up_num_steps up)%Z /\ List.length (up_steady_problems up) = 3%nat /\
    finished gauss_solve prescribed lines up s.
Proof. exact (conj long_divided (conj long_panels long_flight)). Qed.
