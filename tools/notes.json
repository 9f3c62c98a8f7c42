{
 "C01": {
  "status": "proved",
  "note": "Scalar angles; C01_rotation_of_arrays carries every statement over to arrays of angles."
 },
 "C20": {
  "status": "proved",
  "note": "Over the reals. The absolute cut-offs make the unguarded Biot-Savart law false; that is C20_biot_savart_everywhere_refuted and a finding in DESIGN.md."
 },
 "C30": {
  "status": "partial",
  "note": "Refuted as stated: the ring solver's second run gives other strengths and the horseshoe solver's seed points double. Proved: the horseshoe solver reproduces strengths, loads and velocities."
 },
 "C31": {
  "status": "partial",
  "note": "Refuted: the leg shared by spanwise neighbours is added to both panels, so the total counts it twice. Proved in general for watertight wings, with a solved witness where the leg's force is not zero."
 },
 "C09": {
  "status": "proved",
  "note": "The exact condition also includes what meshing itself needs (a chordwise panel, airfoils that accept the control surfaces, spanwise panels for the reflected half); the wing normal is assumed not to be the zero vector."
 },
 "C12": {
  "status": "partial",
  "note": "Refuted as stated for spanwise neighbours (three witnesses). Proved: chordwise neighbours always share their edge; spanwise neighbours do when the three causes are absent."
 },
 "C17": {
  "status": "proved",
  "note": "Turning is stated for contours with as many points on the upper as on the lower side. C17_contours shows that this covers every airfoil the constructor accepts except one whose first or last given point is its leading edge; every repanelled airfoil is covered. A hinge behind the last camber point ends in an IndexError (C17_hinge_behind_trailing_edge)."
 },
 "C32": {
  "status": "proved",
  "note": "Over the reals; the least-number-of-steps statements assume a positive time step (and speed). Float rounding in ceil is outside the model."
 },
 "C34": {
  "status": "proved",
  "note": "scipy.signal.sawtooth is modelled by SciPy's formula; custom functions act elementwise."
 },
 "C36": {
  "status": "partial",
  "note": "Refuted as stated: unit normals and chordwise directions, airplane weight and reference dimensions, kinematic viscosity and external thrust are replaced by defaults (three witnesses). Proved: everything else is kept, and what the replaced attributes become."
 },
 "C37": {
  "status": "partial",
  "note": "Refuted as stated (two witnesses). Proved: the exact condition under which the first snapshot has the base leading edges, and that an unmoving plain wing is reproduced at every step."
 },
 "C24": {
  "status": "proved",
  "note": "Needs delta_time <> 0: the model's reals give x/0 = 0 where NumPy gives nan. np.linalg.solve is an oracle with SolveSpec, met by gauss_solve."
 },
 "C45": {
  "status": "proved",
  "note": "The recorded arrays and the earlier steps' problems never change. The ring vortex objects reachable from earlier steps' wings do change; that is C45_objects_kept_refuted and a finding in DESIGN.md."
 },
 "C54": {
  "status": "proved",
  "note": "Needs delta_time <> 0. For identical airplanes in a changing wind the side legs of trailing edge panels do get an apparent velocity: C54_still_wing_legs_refuted, a finding in DESIGN.md."
 },
 "C44": {
  "status": "partial",
  "note": "Refuted where the mesh has a spanwise gap along the trailing edge (C44_attached_right_refuted): the first wake row takes the next panel's back left vertex, which is then not the panel's own back right vertex. Proved: left ends and the wing tip are always attached, right ends without such gaps, and neighbouring wake rings always share their vertices."
 },
 "C46": {
  "status": "proved",
  "note": "Runs of the modelled solvers. Needs nonzero coefficients; what happens with zero ones is C46_zero_moments_refuted and C46_zero_loads_refuted. That the answer itself settled is not part of the property and false: C46_answer_settled_refuted."
 },
 "C47": {
  "status": "proved",
  "note": "The average iteration times and progress messages are not modelled. In the unsteady search a NaN change is kept by np.max and never converges, which the comparison with strict inequalities expresses."
 },
 "C48": {
  "status": "partial",
  "note": "Refuted as stated: a strip for which at most half a panel is wanted gets no panel (C48_at_least_one_refuted). Proved: the counts are the wanted ones up to rounding, when they are at least one, and that nothing else of the geometry changes except unit vectors and reference dimensions."
 },
 "C49": {
  "status": "partial",
  "note": "The last part is refuted: the operating point passed in keeps the speed and angles tried last (C49_operating_point_kept_refuted). The rest is proved for every optimiser, modelled as a function of all values seen so far."
 },
 "C50": {
  "status": "partial",
  "note": "Refuted: every evaluation of the objective raises, an AttributeError when the unsteady run succeeds (C50_refuted). It returns only when no point is evaluated, and then NaNs (C50_never_trims)."
 },
 "C55": {
  "status": "partial",
  "note": "Refuted as stated: a static problem is an IndexError (C55_refuted, C55_static). Proved for periodic problems (C55_periodic)."
 },
 "C59": {
  "status": "partial",
  "note": "Refuted as stated: coloured animations of a run with only_final_results are a TypeError (C59_refuted). Proved for all runs without colours and for coloured runs that have all loads."
 },
 "C60": {
  "status": "partial",
  "note": "Refuted as stated: the rate is rounded down and may be zero (C60_refuted). C60_playback says exactly when the label is right."
 },
 "C62": {
  "status": "partial",
  "note": "The printed values are proved for both solvers; that force and coefficient share their sign is refuted (C62_same_sign_refuted), and C62_*_signs give the sign each has."
 },
 "C65": {
  "status": "partial",
  "note": "Refuted for symmetric wings with control surfaces deflected on part of the span only: the wake they shed is not symmetric (C65_flap_refuted). Proved: the image theorems in full, and symmetric flight for wings whose sections are deflected alike."
 },
 "C67": {
  "status": "partial",
  "note": "Refuted without a condition on the cut-offs of the Biot-Savart law (C67_any_size_refuted, C67_too_small_fails). Proved for both steady solvers whenever the same vortices are cut off at both sizes, which every larger copy of an uncut case meets (C67_larger). Unsteady simulations: proved under the same condition for every step and for the final results (C67_unsteady_finished, C67_unsteady_steps, C67_unsteady_run); movements drop the viscosity, so it has to be assigned to the steps (C67_viscosity_refuted). Streamlines of the solvers use an absolute time step and are not compared."
 },
 "C68": {
  "status": "proved",
  "note": "At movement level the viscosity must be assigned to the steps (C68_movement), because movements drop it (C68_viscosity_refuted). Streamlines use an absolute step of 0.02 s and are not part of the claim."
 },
 "C69": {
  "status": "partial",
  "note": "Refuted for the final loads: they are appended to those of earlier runs (C69_final_refuted, C69_entries), so the entries of the first run stay in place and are what is printed (C69_stale, C69_printed). Everything else of a run is that of a first run, errors included (C69_again). Earlier runs that stopped with an exception are not part of the history."
 },
 "C70": {
  "status": "partial",
  "note": "Refuted as equality: three cycles of a period of 0.1 s in steps of 0.1 / 30 s give 91 steps (C70_divided_refuted, C70_cycles_refuted), and a time step of 0.0105 s gives 49 instead of 50 frames per second (C70_frames_refuted). Proved: the counts are within one of the exact ones and differ only where the exact quotient is within one part in 2^51 of a whole number (C70_cycles, C70_chords, C70_window, C70_frames), are equal when product and quotient are doubles (C70_exact), and are c*n or c*n+1 for a period divided into n steps (C70_divided). Overflow and NaN are outside the model of doubles."
 },
 "C14": {
  "status": "proved",
  "note": "The area of trapezoids is proved for sections in planes normal to the wing's normal direction, without deflected control surfaces, whose camber lines nowhere turn forward; repanelled airfoils without twist always qualify."
 },
 "C71": {
  "status": "partial",
  "note": "Refuted: the bar is full before the last step begins (C71_full_only_at_the_end_refuted), because after each step it is advanced by the cost of the next one. Proved: the amounts, their order, that the bar never goes back, never passes its total and ends there (C71_amounts, C71_standing), when it is shown (C71_shown) and which levels are rejected (C71_bad_level). The drawing by tqdm is not modelled; the sums of whole numbers are exact below 2^53."
 },
 "C72": {
  "status": "partial",
  "note": "Incompressible: proved for all three solvers. Irrotational: refuted for the two steady solvers (C72_irrotational_refuted, C72_ring_irrotational_refuted), whose horseshoe vortices end twenty spans behind the wing; C72_horseshoe_curl and C72_ring_curl give the curl, which comes from those ends alone. Proved for a ring vortex without a core and for the first step of an unsteady run (C72_ring_vortex, C72_first_step). Later steps have a wake with cores, inside which the flow is meant to spin; their curl is not computed."
 },
 "C78": {
  "status": "partial",
  "note": "How a file is read is proved for every text. That every file that comes with the program can be loaded is refuted (C78_every_file_refuted): three of them are in the model, the others are listed in DESIGN.md."
 },
 "C79": {
  "status": "partial",
  "note": "Proved for both steady solvers unless a point the solver uses lies exactly on the edge of where a vortex is cut off (C79_horseshoe, C79_ring); refuted there (C79_edge_refuted). The constructors are continuous in positions, chords, twists and reference values (C79_section, C79_wing, C79_airplane). Streamlines are not compared: they may run through such edges."
 },
 "C84": {
  "status": "partial",
  "note": "Proved where no section is at the y of the section inboard of it (C84_movement, C84_flight); refuted there (C84_vertical_refuted): a tip that leans inwards however little jumps from above the root to below it. Periods and the time step may change as long as rounding gives the same number of steps and averaging window (C84_clock, C84_same_times; otherwise C70)."
 },
 "C86": {
  "status": "partial",
  "note": "Holds of panels without vortices (C86_new_wing); refuted for every solved panel (C86_velocity_refuted, C86_horseshoe_fails, C86_ring_fails, C86_unsteady_fails): the vortex classes lack the methods it calls."
 },
 "C89": {
  "status": "partial",
  "note": "Proved for every airfoil without camber, and in general exactly if the nose is the foremost point (C89_made). Refuted for the NACA 2412, which cannot be made without repanelling (C89_cambered_refuted) and is fitted to the wrong points with it (C89_repanelled_refuted)."
 }
}