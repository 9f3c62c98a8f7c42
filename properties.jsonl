{"id": "C01", "title": "Angle-axis rotation is a proper rotation", "statement": "angle_axis_rotation_matrix(angle, axis) returns a matrix that preserves all lengths and dot products, has determinant +1, leaves the axis fixed, turns by exactly the requested angle, is undone by the opposite angle, composes additively about a fixed axis, and does not depend on the length of the axis when axis_already_normalized is False.", "quantifier": "every real angle and every nonzero axis", "why_tests_cant": "The laws are universally quantified identities; tests sample a few angles and axes.", "anchors": ["pterasoftware/functions.py:angle_axis_rotation_matrix"]}
{"id": "C02", "title": "Operating point frames and freestream", "statement": "For any operating point, the wind-to-geometry rotation is a proper rotation; the freestream direction is a unit vector, is the image of the wind-axes vector (-1,0,0), and equals (cos a cos b, -sin b, sin a cos b); the freestream velocity has magnitude |velocity|; dynamic pressure is rho V^2 / 2. An operating point made without arguments stands for air of 1.225 kg/m3 at 10 m/s and an angle of attack of 5 degrees.", "quantifier": "every density, velocity, angle of attack and sideslip", "why_tests_cant": "Trigonometric identities over two continuous angles.", "anchors": ["pterasoftware/operating_point.py:OperatingPoint"]}
{"id": "C03", "title": "Reflection across a plane", "statement": "reflect_point_across_plane is an involution, an isometry, fixes exactly the points of the plane, and moves every other point along the plane normal so that the midpoint lies on the plane.", "quantifier": "every point, plane point and unit normal", "why_tests_cant": "Universal geometric identities.", "anchors": ["pterasoftware/functions.py:reflect_point_across_plane"]}
{"id": "C04", "title": "Cosine spacing", "statement": "cosspace(min, max, n) returns n values; the first is min, the last is max (with endpoint), they are strictly increasing when min < max, symmetric about the midpoint, and all within [min, max].", "quantifier": "every min, max and n >= 2", "why_tests_cant": "Monotonicity and symmetry over every n and every index.", "anchors": ["pterasoftware/functions.py:cosspace"]}
{"id": "C05", "title": "Interpolation between point pairs", "statement": "interp_between_points(start, end, norm_spacings) returns, for every pair i and every spacing s_j, the affine point start_i + s_j (end_i - start_i); s=0 gives the start, s=1 the end, s in [0,1] a point of the segment at the matching fraction of its length; the result has one row per pair and one column per spacing.", "quantifier": "every list of point pairs and spacings", "why_tests_cant": "Holds for arrays of every size.", "anchors": ["pterasoftware/functions.py:interp_between_points"]}
{"id": "C06", "title": "Panel aerodynamic points", "statement": "On every panel the bound vortex vertices lie on the side edges a quarter of the way from the leading vertex, the collocation point is the midpoint of the two three-quarter points of the side edges, and all of these move with the panel under any translation and any rotation.", "quantifier": "every quadrilateral panel", "why_tests_cant": "Affine identities over twelve real coordinates and equivariance over all rigid motions.", "anchors": ["pterasoftware/panel.py:Panel"]}
{"id": "C07", "title": "Panel normal and areas", "statement": "For a non-degenerate panel the unit normal has length one and is perpendicular to both diagonals; the area is half the length of the diagonals' cross product, is non-negative and is unchanged by rigid motions; the projected area onto any unit vector is between 0 and the area and equals the area for the panel's own normal.", "quantifier": "every non-degenerate quadrilateral and every unit direction", "why_tests_cant": "Continuous geometry; bounds over all directions.", "anchors": ["pterasoftware/panel.py:Panel.unit_normal", "pterasoftware/panel.py:Panel.area", "pterasoftware/panel.py:Panel.calculate_projected_area"]}
{"id": "C08", "title": "WingCrossSection validation", "statement": "A WingCrossSection is created exactly when chord > 0, the control surface type is symmetric or asymmetric and the spanwise spacing is cosine or uniform; otherwise the first violated rule, in that order, determines the exception; attributes are stored unchanged on success.", "quantifier": "every combination of arguments", "why_tests_cant": "The accept set is an exact characterisation over an infinite argument space.", "anchors": ["pterasoftware/geometry.py:WingCrossSection.__init__"]}
{"id": "C09", "title": "Wing validation", "statement": "A Wing is created exactly when it has at least two cross sections, a valid chordwise spacing, a wing normal equal to its root section's normal, a root leading edge at the origin, a chordwise vector perpendicular to the normal, every section's normal lies in the plane perpendicular to the chordwise vector, and a mesh can be generated (at least one chordwise panel, airfoils that accept the deflection and hinge point of the section inboard of them, and at least one spanwise panel per section if the wing is symmetric); the first violated rule determines the exception; on success num_spanwise_panels is the sum over all sections but the last (doubled when symmetric) and num_panels is the product of spanwise and chordwise counts.", "quantifier": "every list of cross sections and every argument combination", "why_tests_cant": "Exact accept set and counts for lists of any length.", "anchors": ["pterasoftware/geometry.py:Wing.__init__"]}
{"id": "C10", "title": "Airplane reference quantities", "statement": "An Airplane without wings is rejected; otherwise s_ref, c_ref and b_ref are the first wing's projected area, mean aerodynamic chord and span unless given explicitly, and num_panels is the sum of the wings' panel counts.", "quantifier": "every list of wings and every subset of overrides", "why_tests_cant": "All combinations of optional arguments and wing lists.", "anchors": ["pterasoftware/geometry.py:Airplane.__init__"]}
{"id": "C11", "title": "Mesh shape and edge flags", "statement": "Meshing produces a rectangular matrix with exactly num_chordwise_panels rows and num_spanwise_panels columns; a panel is flagged leading edge iff it is in the first row, trailing edge iff in the last row, left edge iff in the first column, right edge iff in the last column, and its stored local position is its own matrix position; symmetric wings have twice the columns.", "quantifier": "every accepted wing", "why_tests_cant": "Counting and flag placement for every number of sections and panels.", "anchors": ["pterasoftware/meshing.py:mesh_wing", "pterasoftware/meshing.py:get_wing_section_panels"]}
{"id": "C12", "title": "Mesh has no gaps", "statement": "Chordwise and spanwise neighbouring panels share their common edge's two vertices exactly (a watertight wing surface).", "quantifier": "every accepted wing and every pair of neighbouring panels", "why_tests_cant": "Adjacency over every mesh size, and across section borders and the symmetry plane.", "anchors": ["pterasoftware/meshing.py:mesh_wing", "pterasoftware/meshing.py:get_wing_section_panel_vertices"]}
{"id": "C13", "title": "Symmetric wings are mirror images", "statement": "For a symmetric wing whose control surfaces are symmetric (or undeflected), the panel in column j from the left is the mirror image, across the plane through the wing's leading edge point with the wing normal, of the panel in column j from the right, with left and right vertices exchanged.", "quantifier": "every symmetric wing and every panel", "why_tests_cant": "Mirror identity for all sizes and geometries.", "anchors": ["pterasoftware/meshing.py:mesh_wing"]}
{"id": "C14", "title": "Wing planform quantities", "statement": "Wing.span, projected_area, standard_mean_chord and mean_aerodynamic_chord obey span >= 0, SMC * span = projected area, and for a wing with equal chords, no sweep-induced dependence: the MAC equals that chord whenever the projected area equals chord times span; section contributions to MAC always lie between the squared minimum and maximum chord times the section span. The projected area does not depend on the mesh: with no control surface deflected and no camber line turning forward, it is the sum of the trapezoids between neighbouring sections, counted twice for a symmetric wing. With untwisted, repanelled airfoils the shortest chord <= SMC <= MAC <= the longest chord, a rectangular wing has area chord * span and both mean chords equal to the chord, and a straight-tapered wing has the textbook area, SMC and MAC.", "quantifier": "every wing", "why_tests_cant": "Inequalities over continuous geometries and section lists.", "anchors": ["pterasoftware/geometry.py:Wing.span", "pterasoftware/geometry.py:Wing.standard_mean_chord", "pterasoftware/geometry.py:Wing.mean_aerodynamic_chord", "pterasoftware/meshing.py:mesh_wing"]}
{"id": "C15", "title": "NACA airfoil generation", "statement": "A name is treated as a four-digit NACA airfoil exactly when the text after 'naca' is four digits; the generated contour starts and ends at the trailing edge, passes through the leading edge, has matched upper and lower points around the camber line, and a 00xx name gives a contour symmetric about the chord.", "quantifier": "every airfoil name and every four-digit code", "why_tests_cant": "10^4 codes and arbitrary strings; continuous contour.", "anchors": ["pterasoftware/geometry.py:Airfoil.populate_coordinates"]}
{"id": "C16", "title": "Camber line and its resampling", "statement": "The mean camber line of an airfoil runs half way between the two sides of its contour, and its thickness is the distance between them; a contour given without repanelling is kept, and is accepted exactly if its two sides have the same number of points or one of them is the leading edge alone; repanelling puts the points of each side on that side's interpolating curve at cosine-spaced stations. Resampling the mean camber line returns one point per requested fraction, preserves the first and last camber point, never leaves the polyline, and is monotone in the fraction.", "quantifier": "every camber polyline with distinct successive points and every increasing list of fractions in [0,1]", "why_tests_cant": "Piecewise-linear interpolation over lists of any length.", "anchors": ["pterasoftware/geometry.py:Airfoil.get_downsampled_mcl", "pterasoftware/geometry.py:Airfoil.populate_mcl_coordinates", "pterasoftware/geometry.py:Airfoil.repanel"]}
{"id": "C17", "title": "Control surface deflection", "statement": "add_control_surface rejects deflections outside [-90, 90]; inside, points ahead of the hinge are unchanged, points behind it keep their distance to the hinge point and turn by exactly minus the deflection, and zero deflection leaves all coordinates unchanged.", "quantifier": "every airfoil, deflection and hinge position", "why_tests_cant": "Geometric identities over all coordinate lists.", "anchors": ["pterasoftware/geometry.py:Airfoil.add_control_surface"]}
{"id": "C18", "title": "Vortex objects stay consistent", "statement": "After any sequence of update_strength and update_position calls a RingVortex's four legs form a closed loop through its current vertices, all legs carry its current strength, its centre is the mean of its vertices and its age is unchanged by those calls; a HorseshoeVortex's three legs form an open chain and share one strength.", "quantifier": "every operation sequence on every vortex", "why_tests_cant": "Unbounded operation histories.", "anchors": ["pterasoftware/aerodynamics.py:RingVortex", "pterasoftware/aerodynamics.py:HorseshoeVortex"]}
{"id": "C19", "title": "Collapsed velocities are the sum of expanded velocities", "statement": "For line, ring and horseshoe vortices, the collapsed induced velocity at each point equals the sum over vortices of the expanded velocities, and concatenating vortex lists adds their velocities (superposition).", "quantifier": "every set of points and vortices", "why_tests_cant": "Array sizes are unbounded.", "anchors": ["pterasoftware/aerodynamics.py:collapsed_velocities_from_line_vortices", "pterasoftware/aerodynamics.py:expanded_velocities_from_line_vortices"]}
{"id": "C20", "title": "Biot-Savart laws", "statement": "The velocity induced by a line vortex is finite everywhere (zero on the filament and its end points), perpendicular to the plane of the point and the filament, odd in the strength, odd under reversing the filament, proportional to the strength when the vortex age is zero, and equivariant under translations, rotations and (with a sign) mirror reflections. Away from the filament and at age zero it is the Biot-Savart integral of strength/(4 pi) dl x r/|r|^3 along the filament.", "quantifier": "every point, filament, strength, age and viscosity", "why_tests_cant": "Continuous domain including the singular set.", "anchors": ["pterasoftware/aerodynamics.py:collapsed_velocities_from_line_vortices"]}
{"id": "C21", "title": "Ring and horseshoe vortices are made of their legs", "statement": "A ring vortex induces the sum of its four directed edges' velocities, a horseshoe the sum of its three; for zero age two adjacent rings of equal strength induce exactly what the outer circuit without the shared edge induces.", "quantifier": "every point and vortex geometry", "why_tests_cant": "Cancellation identity over continuous geometry.", "anchors": ["pterasoftware/aerodynamics.py:collapsed_velocities_from_ring_vortices", "pterasoftware/aerodynamics.py:collapsed_velocities_from_horseshoe_vortices"]}
{"id": "C22", "title": "Horseshoe solver enforces no penetration", "statement": "After a successful run of the steady horseshoe solver, the reported solution velocity at every panel's collocation point has zero component along that panel's normal.", "quantifier": "every steady problem for which the linear solve succeeds", "why_tests_cant": "Couples every panel of every mesh.", "anchors": ["pterasoftware/steady_horseshoe_vortex_lattice_method.py:SteadyHorseshoeVortexLatticeMethodSolver.run"]}
{"id": "C23", "title": "Ring solver enforces no penetration", "statement": "After a successful first run of the steady ring solver, the reported solution velocity at every panel's collocation point (including the trailing horseshoe vortices) has zero component along that panel's normal. Each trailing-edge panel's horseshoe vortex has its ring's strength and runs from the ring's back leg along the freestream.", "quantifier": "every steady problem for which the linear solve succeeds", "why_tests_cant": "Couples every panel of every mesh.", "anchors": ["pterasoftware/steady_ring_vortex_lattice_method.py:SteadyRingVortexLatticeMethodSolver.run"]}
{"id": "C24", "title": "Unsteady solver enforces no penetration at each step", "statement": "At every time step of the unsteady solver, after the strengths are found, the solution velocity plus the apparent velocity of the panel's own motion has zero component along the normal at every collocation point, including the wake's contribution.", "quantifier": "every unsteady problem and every step", "why_tests_cant": "Unbounded number of steps and wake vortices.", "anchors": ["pterasoftware/unsteady_ring_vortex_lattice_method.py:UnsteadyRingVortexLatticeMethodSolver.run"]}
{"id": "C25", "title": "Airplane loads are the sums of their own panels' loads", "statement": "Each airplane's total force and moment is the sum over exactly its own panels (in any number of wings), rotated to wind axes; every panel is counted once and no other airplane's panels are counted.", "quantifier": "every list of airplanes with every number of wings and panels", "why_tests_cant": "Global index bookkeeping across arbitrary nesting.", "anchors": ["pterasoftware/functions.py:process_steady_solver_forces", "pterasoftware/functions.py:process_unsteady_solver_forces"]}
{"id": "C26", "title": "Load frames and coefficients", "statement": "Changing between geometry and wind axes preserves the magnitude of every force and moment and the dot product between them; coefficients satisfy CD*q*S = -Fx, CY*q*S = Fy, CL*q*S = -Fz and the corresponding moment relations with b, c, b as lengths.", "quantifier": "every operating point and every load", "why_tests_cant": "Identities over continuous data.", "anchors": ["pterasoftware/functions.py:process_steady_solver_forces", "pterasoftware/panel.py:Panel.update_coefficients"]}
{"id": "C27", "title": "Kutta-Joukowski panel loads", "statement": "In the steady solvers every leg force is perpendicular to the local velocity and to the leg, so it does no work on the local flow; panel moments about the reference point are the leg-centre moments; with zero strengths all loads are zero.", "quantifier": "every solved problem and every panel", "why_tests_cant": "Holds on every mesh and operating point.", "anchors": ["pterasoftware/steady_horseshoe_vortex_lattice_method.py:calculate_near_field_forces_and_moments", "pterasoftware/steady_ring_vortex_lattice_method.py:calculate_near_field_forces_and_moments"]}
{"id": "C28", "title": "Steady coefficients do not depend on density or speed", "statement": "Running a steady solver at the same angles with another positive density or speed scales all strengths with speed and all forces with the dynamic pressure, so every force and moment coefficient is unchanged.", "quantifier": "every problem, every pair of densities and speeds", "why_tests_cant": "Metamorphic property across the whole pipeline.", "anchors": ["pterasoftware/steady_horseshoe_vortex_lattice_method.py", "pterasoftware/steady_ring_vortex_lattice_method.py"]}
{"id": "C29", "title": "Mirror images and bilateral symmetry", "statement": "For both steady solvers, mirroring the airplanes in the x-z plane and reversing the sideslip mirrors every vortex strength, load and velocity; in particular an airplane that is its own mirror image, flown without sideslip, has a left-right symmetric strength distribution, zero side force, and zero rolling and yawing moment. Wings built as symmetric with symmetric or undeflected control surfaces, and fins in the plane, are their own images; reversing asymmetric control surfaces mirrors the wing.", "quantifier": "every mirrored pair of problems with any number of airplanes and wings, every angle of attack and sideslip", "why_tests_cant": "Needs uniqueness of the solution and equivariance of every kernel.", "anchors": ["pterasoftware/steady_horseshoe_vortex_lattice_method.py:run", "pterasoftware/steady_ring_vortex_lattice_method.py:run", "pterasoftware/geometry.py:Wing", "pterasoftware/meshing.py:mesh_wing"]}
{"id": "C30", "title": "Solving again gives the same answer", "statement": "Running a steady solver a second time on the same object reproduces the first run's strengths, loads and streamline seeds.", "quantifier": "every problem", "why_tests_cant": "History-dependent state.", "anchors": ["pterasoftware/steady_ring_vortex_lattice_method.py:run", "pterasoftware/steady_horseshoe_vortex_lattice_method.py:run"]}
{"id": "C31", "title": "Interior legs are counted once", "statement": "In the ring solvers the leg shared by two spanwise neighbours contributes its net circulation to the total load exactly once.", "quantifier": "every wing with at least two spanwise panels", "why_tests_cant": "Accounting over every mesh.", "anchors": ["pterasoftware/steady_ring_vortex_lattice_method.py:calculate_near_field_forces_and_moments", "pterasoftware/unsteady_ring_vortex_lattice_method.py:calculate_near_field_forces_and_moments"]}
{"id": "C32", "title": "Movement length rules", "statement": "A Movement rejects num_cycles for static motion, num_chords for periodic motion and either together with num_steps; otherwise num_steps is the given value or the least number of steps whose duration reaches the requested chords (default 10 largest reference chords) or cycles (default 3 longest periods).", "quantifier": "every combination of optional arguments", "why_tests_cant": "Exact decision table and minimality over reals.", "anchors": ["pterasoftware/movement.py:Movement.__init__"]}
{"id": "C33", "title": "Snapshots and steady problems line up", "statement": "A movement has exactly num_steps operating points and, for every base airplane, num_steps airplanes, each with as many wings and sections as the base; an UnsteadyProblem has one steady problem per step holding step i's airplane of every base airplane, in order, and step i's operating point.", "quantifier": "every movement and every step", "why_tests_cant": "Transposition of nested lists of every size.", "anchors": ["pterasoftware/problems.py:UnsteadyProblem.__init__", "pterasoftware/movement.py:Movement.__init__", "pterasoftware/movement.py:AirplaneMovement.generate_airplanes"]}
{"id": "C34", "title": "Oscillation profiles", "statement": "The sine, uniform and custom profiles return num_steps values, start at the base (sine, custom with f(0)=0) , stay within amplitude of the base, repeat after one period, and are constant when amplitude or period is zero.", "quantifier": "every amplitude, period, base, step count and time step", "why_tests_cant": "Bounds and periodicity over unbounded time.", "anchors": ["pterasoftware/movement.py:oscillating_sinspace", "pterasoftware/movement.py:oscillating_linspace", "pterasoftware/movement.py:oscillating_customspace"]}
{"id": "C35", "title": "Maximum period", "statement": "The max period of a movement is an upper bound of every sub-movement's period (airplane, wing, section) and is attained by one of them; it is zero exactly when nothing moves periodically.", "quantifier": "every nesting of movements with non-negative periods", "why_tests_cant": "Maxima over arbitrary trees.", "anchors": ["pterasoftware/movement.py:get_max_period"]}
{"id": "C36", "title": "Snapshots keep what does not move", "statement": "Every generated airplane, wing, cross section and operating point keeps every base attribute that the movement does not move.", "quantifier": "every movement and every step", "why_tests_cant": "Field-by-field copy across all steps.", "anchors": ["pterasoftware/movement.py:generate_airplanes", "pterasoftware/movement.py:generate_wings", "pterasoftware/movement.py:generate_wing_cross_sections", "pterasoftware/movement.py:generate_operating_points"]}
{"id": "C37", "title": "The first snapshot is the base geometry", "statement": "With sine spacing the leading edges of the cross sections at step 0 equal the base wing's leading edges.", "quantifier": "every base wing", "why_tests_cant": "Round trip through angles over all geometries.", "anchors": ["pterasoftware/movement.py:WingMovement.generate_wings", "pterasoftware/movement.py:WingCrossSectionMovement.generate_wing_cross_sections"]}
{"id": "C38", "title": "Averaging window", "statement": "The averaging window of an UnsteadyProblem is the last step for static problems and otherwise the shortest trailing run of steps covering one maximum period (all steps if the simulation is shorter); 0 <= first_averaging_step, and first_results_step is that step or 0.", "quantifier": "every num_steps, delta_time and max_period", "why_tests_cant": "Rounding over continuous time.", "anchors": ["pterasoftware/problems.py:UnsteadyProblem.__init__"]}
{"id": "C39", "title": "only_final_results does not change the final results", "statement": "Running the unsteady solver with only_final_results True gives the same strengths, wake and final loads as with False; it only skips the earlier steps' loads.", "quantifier": "every unsteady problem", "why_tests_cant": "Equality of two whole executions.", "anchors": ["pterasoftware/unsteady_ring_vortex_lattice_method.py:run", "pterasoftware/problems.py:UnsteadyProblem.__init__"]}
{"id": "C40", "title": "Final load statistics", "statement": "For static problems the final loads are the last step's; otherwise the mean and root-mean-square over the averaging window, with |mean| <= rms in every component, one entry per airplane, and every step outside the window ignored.", "quantifier": "every history of loads", "why_tests_cant": "Inequality over windows of every length.", "anchors": ["pterasoftware/unsteady_ring_vortex_lattice_method.py:finalize_near_field_forces_and_moments"]}
{"id": "C41", "title": "Wake size bookkeeping", "statement": "At step k every wing has a wake of k rows of ring vortices with one vortex per spanwise panel, k+1 rows of vertices when k>0 (0 when k=0), and the pre-allocated wake arrays at step k have exactly as many entries as there are wake vortices, so collapsing never overruns and leaves no unset entry.", "quantifier": "every problem and every step", "why_tests_cant": "Induction over steps.", "anchors": ["pterasoftware/unsteady_ring_vortex_lattice_method.py:run", "pterasoftware/unsteady_ring_vortex_lattice_method.py:populate_next_airplanes_wake_vortices"]}
{"id": "C42", "title": "Prescribed wake convection", "statement": "With a prescribed wake, a wake vertex r rows behind the trailing edge at step k is the trailing edge vertex of the step k-r in which it was shed plus delta_time times the sum of the freestream velocities of the steps k-r..k-1. The oldest row (r=k) starts at the trailing edge of step 1, because step 0 has no wake vertices. A free wake moves each step with the velocity the solver reports.", "quantifier": "every problem, step, row and column", "why_tests_cant": "Closed form for unbounded step counts.", "anchors": ["pterasoftware/unsteady_ring_vortex_lattice_method.py:populate_next_airplanes_wake_vortex_vertices"]}
{"id": "C43", "title": "Wake strengths are frozen and ages count time", "statement": "A wake ring vortex keeps forever the strength of the trailing edge panel that shed it; at step k the ring in row r has the strength of the panel in its column at step k-1-r and age r*delta_time.", "quantifier": "every problem, step, row and column", "why_tests_cant": "History property.", "anchors": ["pterasoftware/unsteady_ring_vortex_lattice_method.py:populate_next_airplanes_wake_vortices"]}
{"id": "C44", "title": "The wake is attached and continuous", "statement": "At every step the front vertices of the first wake row coincide with the back vertices of the trailing edge ring vortices, and neighbouring wake rings share their common vertices.", "quantifier": "every problem and step, prescribed or free wake", "why_tests_cant": "Adjacency for all sizes.", "anchors": ["pterasoftware/unsteady_ring_vortex_lattice_method.py:populate_next_airplanes_wake_vortices"]}
{"id": "C45", "title": "Recorded wake history is not rewritten", "statement": "The wake geometry recorded for step k is not changed by later steps.", "quantifier": "every run and every pair of steps", "why_tests_cant": "Aliasing across steps.", "anchors": ["pterasoftware/unsteady_ring_vortex_lattice_method.py:populate_next_airplanes_wake_vortices", "pterasoftware/output.py:get_wake_ring_vortex_surfaces"]}
{"id": "C46", "title": "Steady convergence search", "statement": "analyze_steady_convergence returns either all None, when no combination in the ranges passes, or the coarser member of the first (in search order) combination whose changes in both parameters are below the criteria or whose range is a singleton or whose aspect ratio is already 1; returned values lie in the user's ranges.", "quantifier": "every result history and every range", "why_tests_cant": "Search over arbitrary solver outcomes.", "anchors": ["pterasoftware/convergence.py:analyze_steady_convergence"]}
{"id": "C47", "title": "Unsteady convergence search", "statement": "analyze_unsteady_convergence behaves likewise over wake type, wake length, aspect ratio and chordwise count.", "quantifier": "every result history and every range", "why_tests_cant": "Search over arbitrary solver outcomes.", "anchors": ["pterasoftware/convergence.py:analyze_unsteady_convergence"]}
{"id": "C48", "title": "Convergence meshes", "statement": "Every mesh generated in the convergence search has at least one spanwise panel in each section but the last, and the panel count follows the requested aspect ratio to within rounding.", "quantifier": "every base geometry and every parameter pair", "why_tests_cant": "Rounding over continuous geometry.", "anchors": ["pterasoftware/convergence.py:analyze_steady_convergence"]}
{"id": "C49", "title": "Steady trim", "statement": "analyze_steady_trim returns either four NaNs or an operating point at which the evaluated objective was below the cut-off; base values outside the bounds are rejected; the operating point passed in is not changed.", "quantifier": "every optimiser behaviour", "why_tests_cant": "The optimiser may query any points in any order.", "anchors": ["pterasoftware/trim.py:analyze_steady_trim"]}
{"id": "C50", "title": "Unsteady trim", "statement": "analyze_unsteady_trim returns either NaNs or a trimmed point.", "quantifier": "every optimiser behaviour", "why_tests_cant": "Every optimiser query sequence.", "anchors": ["pterasoftware/trim.py:analyze_unsteady_trim"]}
{"id": "C51", "title": "Logging level names", "statement": "Exactly the five documented names are accepted and map, order-preserving and injectively, to 10, 20, 30, 40, 50; every other name is rejected.", "quantifier": "every string", "why_tests_cant": "Infinite input space.", "anchors": ["pterasoftware/functions.py:convert_logging_level_name_to_value"]}
{"id": "C52", "title": "Streamlines", "statement": "calculate_streamlines produces num_steps+1 rows with one point per seed, the first row being the seeds and every further row the previous row advanced by delta_time times the solution velocity there; each streamline depends only on its own seed. The streamlines a solver reports start at the middles of the trailing edges and follow its own solution velocity for 25 steps of 0.02 s.", "quantifier": "every solver, step count and time step", "why_tests_cant": "Induction over steps.", "anchors": ["pterasoftware/functions.py:calculate_streamlines", "pterasoftware/steady_horseshoe_vortex_lattice_method.py:SteadyHorseshoeVortexLatticeMethodSolver.run", "pterasoftware/steady_ring_vortex_lattice_method.py:SteadyRingVortexLatticeMethodSolver.run", "pterasoftware/unsteady_ring_vortex_lattice_method.py:UnsteadyRingVortexLatticeMethodSolver.run"]}
{"id": "C53", "title": "Drawn surfaces match panels and scalars", "statement": "get_panel_surfaces produces, for every panel in order, one quadrilateral face whose four indices point at that panel's front-left, front-right, back-right and back-left vertices, and get_scalars returns one scalar per panel in the same order.", "quantifier": "every list of airplanes", "why_tests_cant": "Index arithmetic over nested lists.", "anchors": ["pterasoftware/output.py:get_panel_surfaces", "pterasoftware/output.py:get_scalars"]}
{"id": "C54", "title": "A wing that does not move has no flapping velocity", "statement": "In an unsteady problem with identical snapshots the apparent flapping velocities are zero at all points and steps; at step 0 they are always zero.", "quantifier": "every static problem", "why_tests_cant": "All steps.", "anchors": ["pterasoftware/unsteady_ring_vortex_lattice_method.py:calculate_current_flapping_velocities_at_collocation_points"]}
{"id": "C55", "title": "Printing unsteady results", "statement": "print_unsteady_results can print the results of every solved unsteady problem.", "quantifier": "static and variable geometry problems", "why_tests_cant": "Depends on which result lists were filled.", "anchors": ["pterasoftware/output.py:print_unsteady_results"]}
{"id": "C56", "title": "A run leaves the geometry alone and places the bound vortices", "statement": "Running the unsteady solver changes no operating point, panel corner, wing or airplane attribute of any step (only vortices, loads and wake). At every step each panel's ring vortex starts at the panel's quarter chord and ends at the quarter chord of the panel behind, or at the trailing edge one panel length behind plus a quarter of a step's drift.", "quantifier": "every unsteady problem, step, wing and panel", "why_tests_cant": "Must hold for every mesh and every number of steps, including what must not change.", "anchors": ["pterasoftware/unsteady_ring_vortex_lattice_method.py:initialize_panel_vortices", "pterasoftware/unsteady_ring_vortex_lattice_method.py:run"]}
{"id": "C57", "title": "Loads of the unsteady solver", "statement": "In every time step whose loads are computed, the force on each panel is the Kutta-Joukowski force on its vortex legs, taken with the net circulation and the velocity relative to the moving leg, plus the unsteady pressure term density * dGamma/dt * area along the normal; its moment is about the airplane's reference point; airplane totals and coefficients are those of its own panels.", "quantifier": "every unsteady problem, time step, airplane and panel", "why_tests_cant": "A law for every panel of every step of every run, including moving wings and several airplanes.", "anchors": ["pterasoftware/unsteady_ring_vortex_lattice_method.py:calculate_near_field_forces_and_moments", "pterasoftware/functions.py:process_unsteady_solver_forces"]}
{"id": "C58", "title": "Panel directions and average dimensions", "statement": "The unit spanwise vector of a panel has length one and points from the middle of the left edge to the middle of the right edge, the unit chordwise vector from the middle of the front edge to the middle of the back edge; the average span and chord are the means of the lengths of the opposite edges; under a rigid motion the directions turn with the panel and the averages stay.", "quantifier": "every quadrilateral panel with distinct edge middles, every rigid motion", "why_tests_cant": "Continuous geometry over twelve real coordinates and all rotations.", "anchors": ["pterasoftware/panel.py:Panel.unit_spanwise", "pterasoftware/panel.py:Panel.unit_chordwise", "pterasoftware/panel.py:Panel.average_span", "pterasoftware/panel.py:Panel.average_chord"]}
{"id": "C59", "title": "Animations", "statement": "animate makes one frame per time step; the frame of step k shows the panels and, if asked for, the wake of step k (none in the first frame), and with a scalar type the scalars of step k's panels, all frames sharing colours made from the scalars of the whole run. It works for every solved problem.", "quantifier": "every solved unsteady problem, scalar type and step", "why_tests_cant": "Every number of steps, airplanes, wings and panels, and both settings of only_final_results.", "anchors": ["pterasoftware/output.py:animate"]}
{"id": "C60", "title": "Playback speed of animations", "statement": "An animation is played at the speed it is labelled with: frames per second times the time step is the labelled fraction of real time, at most 50 frames per second.", "quantifier": "every positive time step", "why_tests_cant": "A real parameter.", "anchors": ["pterasoftware/output.py:animate"]}
{"id": "C61", "title": "Plots against time", "statement": "plot_results_versus_time makes four figures per airplane (forces, force coefficients, moments, moment coefficients); each curve has, at the time of each step with results, that airplane's own load component of that step.", "quantifier": "every solved unsteady problem, airplane and step", "why_tests_cant": "Index arithmetic over steps and airplanes, both settings of only_final_results.", "anchors": ["pterasoftware/output.py:plot_results_versus_time"]}
{"id": "C62", "title": "Printed results of the steady solvers", "statement": "print_steady_results prints, for each airplane of a solved problem, its wind-axes forces, moments and coefficients, rounded to three digits under the right labels; a printed force has the sign of its printed coefficient.", "quantifier": "every solved steady problem and airplane", "why_tests_cant": "Every solution; label and sign conventions across two solvers.", "anchors": ["pterasoftware/output.py:print_steady_results"]}
{"id": "C63", "title": "Order of airplanes and wings", "statement": "The results of both steady solvers do not depend on the order in which the airplanes of a problem or the wings of an airplane are listed, nor on the tip from which a wing's panels are numbered: the reordered problem is solved too, with the same velocity at every point and the same loads on every panel and airplane.", "quantifier": "every problem with any number of airplanes and wings, every reordering", "why_tests_cant": "All permutations of all problems; needs uniqueness of the solution.", "anchors": ["pterasoftware/steady_horseshoe_vortex_lattice_method.py:run", "pterasoftware/steady_ring_vortex_lattice_method.py:run"]}
{"id": "C64", "title": "Moving and turning a whole problem", "statement": "Only the position of the airplanes relative to one another and to the wind matters to the steady solvers. Shifting and turning all airplanes together with the flow leaves every load and coefficient in wind axes unchanged and turns velocities and geometry-axes loads along; changing an airplane's reference point changes its moments by the lever arm times the force and nothing else; pitching the airplanes is equivalent to changing the angle of attack; building a wing with its leading edge elsewhere only shifts it.", "quantifier": "every problem, rotation, shift, reference point and pair of operating points of one density and speed", "why_tests_cant": "A continuous group acting on every problem; needs uniqueness of the solution and equivariance of every formula.", "anchors": ["pterasoftware/steady_horseshoe_vortex_lattice_method.py:run", "pterasoftware/steady_ring_vortex_lattice_method.py:run", "pterasoftware/operating_point.py:OperatingPoint", "pterasoftware/geometry.py:Wing", "pterasoftware/meshing.py:mesh_wing"]}
{"id": "C65", "title": "Images of unsteady problems and symmetric flapping flight", "statement": "An unsteady run depends only on how the airplanes are placed relative to one another and to the wind, and not on the order in which airplanes or wings are listed. If the airplanes and the flow of one problem are at every time step the image of another's under one motion of space (a shift, a turn, a reflection), in any listing order and with wings numbered from either tip, its run succeeds too and its strengths, wakes, loads, velocities and final averages are the images at every step. An airplane whose wings are symmetric and flap symmetrically in a flow without sideslip never feels a side force, a rolling moment or a yawing moment, and its flow field stays symmetric.", "quantifier": "every pair of unsteady problems that are images of one another, every number of steps, prescribed or free wake; every symmetric movement", "why_tests_cant": "A group acting on histories of any length; needs uniqueness of each step's solution and equivariance of wake shedding, convection and loads.", "anchors": ["pterasoftware/unsteady_ring_vortex_lattice_method.py:run", "pterasoftware/movement.py:Movement", "pterasoftware/problems.py:UnsteadyProblem"]}
{"id": "C66", "title": "Which cases have an answer depends on the geometry alone", "statement": "Whether a solver can solve a case is decided by the panels and the direction of the flow alone: the run succeeds exactly when no distribution of vortex strengths except zero induces no velocity through any panel (for the unsteady solver, at every time step, with the trailing rings drawn out by a quarter of a time step's drift). Speed, density and viscosity do not matter for the steady solvers; for the unsteady solver it does not matter whether the wake is prescribed or free, nor what the earlier steps' solutions were. Two wings in the same place (for the unsteady solver, at any one time step), such as a wing listed twice, can never be solved. Nor can a wing two of whose columns of panels coincide, such as a wing that lies within its own plane of symmetry and is made with symmetric=True, which the constructors accept.", "quantifier": "every airplane list, operating point and movement; every linear solver meeting its specification; prescribed or free wake", "why_tests_cant": "A statement about all right-hand sides and all histories: needs linear algebra for matrices of any size and an invariant over all time steps.", "anchors": ["pterasoftware/steady_horseshoe_vortex_lattice_method.py:run", "pterasoftware/steady_ring_vortex_lattice_method.py:run", "pterasoftware/unsteady_ring_vortex_lattice_method.py:run", "pterasoftware/geometry.py:Wing.__init__"]}
{"id": "C67", "title": "Results do not depend on the unit of length", "statement": "A case built k times as large (all coordinates, chords, reference lengths, reference areas by k squared) in a flow of the same density, speed and angles is solved by the steady solvers exactly when the original is, with vortex strengths k times, forces k^2 times and moments k^3 times as large, the same force and moment coefficients, and the same velocities at corresponding points. Multiplying every length handed to the constructors gives such a copy, with the mean aerodynamic chord and projected area scaled to match. The same holds for unsteady simulations when the time step, all periods and displacements and the viscosity grow by k too: every step, wake record and final, mean and rms result scales in this way.", "quantifier": "every factor k, airplane list, operating point and linear solver meeting its specification; every evaluation point; every movement, number of steps and both wake types", "why_tests_cant": "Ranges over all sizes and geometries; a test compares two sizes of one wing, and the sizes at which the absolute cut-offs take effect are never tried.", "anchors": ["pterasoftware/aerodynamics.py:collapsed_velocities_from_line_vortices", "pterasoftware/steady_horseshoe_vortex_lattice_method.py:run", "pterasoftware/steady_ring_vortex_lattice_method.py:run", "pterasoftware/geometry.py:Wing", "pterasoftware/geometry.py:Airplane", "pterasoftware/unsteady_ring_vortex_lattice_method.py:run", "pterasoftware/movement.py:Movement"]}
{"id": "C68", "title": "Unsteady results depend on speed, density and time only through their ratios", "statement": "Flying the same motion c times as quickly (speed times c, time step and all periods divided by c, viscosity times c) in r times the density gives the same sequence of snapshots, the same number of steps and averaging window, and a run that finishes whenever the original does, with the same wake vertices, vortex strengths c times and vortex ages 1/c times as large, velocities c times, forces and moments r c^2 times as large and unchanged force and moment coefficients at every step and in the final means and root mean squares.", "quantifier": "all c, r > 0, all movements, wake models, numbers of steps and linear solvers meeting their specification", "why_tests_cant": "A relation between two whole runs for arbitrary motions and all factors; the wake feeds back at every step, so agreement on one case says nothing about the next.", "anchors": ["pterasoftware/unsteady_ring_vortex_lattice_method.py:run", "pterasoftware/movement.py:Movement", "pterasoftware/movement.py:oscillating_sinspace", "pterasoftware/problems.py:UnsteadyProblem", "pterasoftware/aerodynamics.py:collapsed_velocities_from_line_vortices"]}
{"id": "C69", "title": "Solving an unsteady problem again repeats the first run", "statement": "Running the unsteady solver on a problem that has already been solved, with the same solver object or a new one and with any settings, fails exactly when a first run with those settings fails (with the same error) and otherwise produces the same panel circulations, loads, wake vertices, wake vortices, velocities and streamlines as a first run, and the problem's final loads are those of the latest run.", "quantifier": "all unsteady problems, all sequences of earlier successful runs by any number of solver objects with any wake model, all linear solvers meeting their specification", "why_tests_cant": "Ranges over every history of earlier runs; the solver mutates the problem's panels, wings and lists in place, and whether leftovers of an earlier run are ever read depends on the order of every read and write in the time loop.", "anchors": ["pterasoftware/unsteady_ring_vortex_lattice_method.py:run", "pterasoftware/unsteady_ring_vortex_lattice_method.py:initialize_panel_vortices", "pterasoftware/unsteady_ring_vortex_lattice_method.py:finalize_near_field_forces_and_moments", "pterasoftware/problems.py:UnsteadyProblem", "pterasoftware/output.py:print_unsteady_results"]}
{"id": "C70", "title": "Step counts, averaging windows and frame rates survive floating-point rounding", "statement": "The number of time steps that a movement chooses, the first step over which final loads are averaged and the frame rate of an animation, computed in double precision, are the numbers that exact arithmetic gives for the same floats; in particular, c cycles of a period divided into n equal steps give c*n steps.", "quantifier": "all cycle or chord counts, periods, chords, speeds and time steps whose products and quotients neither underflow nor exceed 2^49", "why_tests_cant": "Whether rounding crosses a whole number depends on the last bit of every input; a test suite samples a handful of the 2^64 doubles.", "anchors": ["pterasoftware/movement.py:Movement.__init__", "pterasoftware/problems.py:UnsteadyProblem.__init__", "pterasoftware/output.py:animate"]}
{"id": "C71", "title": "Progress bar of an unsteady run", "statement": "The progress bar of the unsteady solver never goes back, never passes its total and stands at the total when the run ends; it is advanced once for the preparation and once per step, in proportion to the number of ring vortices that act; it is not full before the last step is done; and it is shown only at the logging level Warning.", "quantifier": "all created unsteady problems, number of steps, wing layouts and logging levels", "why_tests_cant": "The amounts depend on the number of steps and on the wake panels of every step; a test watches one run.", "anchors": ["pterasoftware/unsteady_ring_vortex_lattice_method.py:UnsteadyRingVortexLatticeMethodSolver.run", "pterasoftware/functions.py:convert_logging_level_name_to_value"]}
{"id": "C72", "title": "The computed flow is incompressible, and irrotational between the vortices", "statement": "The velocity that a solver reports as a function of the point has zero divergence, also close to the vortices and inside the cores of the wake, and zero curl away from the vortices.", "quantifier": "all airplanes, operating points, solved steady problems, steps of unsteady runs, and all points that are not exactly where a cut-off begins (for the curl: that are clear of the vortices and of the lines through them)", "why_tests_cant": "Divergence and curl are limits, to be taken at every point of a field that depends on every panel; a finite difference at some points has rounding errors of its own size.", "anchors": ["pterasoftware/steady_horseshoe_vortex_lattice_method.py:calculate_solution_velocity", "pterasoftware/steady_ring_vortex_lattice_method.py:calculate_solution_velocity", "pterasoftware/unsteady_ring_vortex_lattice_method.py:calculate_solution_velocity", "pterasoftware/aerodynamics.py:collapsed_velocities_from_line_vortices"]}
{"id": "C73", "title": "Far from the airplanes the flow is the free stream", "statement": "Far from the airplanes and their wakes the velocity that a solver reports is the free-stream velocity; the difference falls off at least with the square of the distance.", "quantifier": "all airplanes, operating points, solved steady problems and steps of unsteady runs, all points beyond some distance", "why_tests_cant": "It is a limit at infinity in every direction.", "anchors": ["pterasoftware/steady_horseshoe_vortex_lattice_method.py:calculate_solution_velocity", "pterasoftware/steady_ring_vortex_lattice_method.py:calculate_solution_velocity", "pterasoftware/unsteady_ring_vortex_lattice_method.py:calculate_solution_velocity", "pterasoftware/aerodynamics.py:collapsed_velocities_from_line_vortices"]}
{"id": "C74", "title": "An extra cross section that changes no geometry changes nothing", "statement": "If a wing is described by one more cross section, placed on the straight line between two like neighbours where two of the panels between them meet, then the wing has the same panels, areas, span and chords, and every solver gives the same strengths, loads, velocities, wakes and final averages as before; this also holds for moving wings if the new section sweeps and heaves like its outer neighbour and pitches like its inner one.", "quantifier": "all wings and positions of the extra section with uniform spanwise spacing (for moving wings: outboard sections that can be represented by sweep and heave angles), all airplanes, operating points, movements and numbers of steps", "why_tests_cant": "The mesh, the reference dimensions and three solvers must agree for every wing, every place of the new section and every history of motion; a test compares a few within a tolerance.", "anchors": ["pterasoftware/geometry.py:Wing", "pterasoftware/meshing.py:mesh_wing", "pterasoftware/movement.py:WingCrossSectionMovement", "pterasoftware/steady_horseshoe_vortex_lattice_method.py:run", "pterasoftware/steady_ring_vortex_lattice_method.py:run", "pterasoftware/unsteady_ring_vortex_lattice_method.py:run"]}
{"id": "C75", "title": "A simulation never looks ahead, and a longer one begins with the shorter one", "statement": "The results of an unsteady simulation for its first time steps - strengths, loads, wakes and velocities - do not depend on what happens after those steps or on how many more there are: running longer, or changing the motion or the wind later on, leaves them exactly as they were. A movement with more time steps of the same length begins with the movement that has fewer.", "quantifier": "all pairs of problems with the same first n time steps, all n, both wake models, all linear solvers that solve the systems they accept, all ways to ask for the number of steps", "why_tests_cant": "It quantifies over all pairs of simulations and every number of common steps; the solver allocates and initialises all steps before the first is run and writes each step's wake into the next one, so a leak from later steps would show only in particular pairs.", "anchors": ["pterasoftware/unsteady_ring_vortex_lattice_method.py:run", "pterasoftware/unsteady_ring_vortex_lattice_method.py:populate_next_airplanes_wake", "pterasoftware/movement.py:Movement", "pterasoftware/problems.py:UnsteadyProblem"]}
{"id": "C76", "title": "Moving the reference point changes moments by the lever arm times the force, and nothing else", "statement": "If an airplane's moment reference point is moved by d, its forces, force coefficients, circulations, wakes, streamlines and velocities are exactly the same, and every moment (of each panel and of the airplane, in geometry and in wind axes) is the old one minus the cross product of d with the corresponding force; the moment coefficients change accordingly. This holds for the two steady solvers and, at every time step, for the unsteady solver, whichever airplanes' points are moved and however they differ from step to step; moving the base airplane's reference point of a movement does just this, and the final moments (of the last step, or averaged over the window) then change by the cross product of d, in wind axes, with the final force. A run that fails fails with the same exception.", "quantifier": "all airplanes, all reference points (per airplane and per time step), all operating points, all linear solvers, both wake models; all movements and all displacements of their base reference points", "why_tests_cant": "It relates pairs of runs over all choices of the points; a test fixes one or two points, and a leak of the reference point into the flow, or a point mixed up between airplanes, shows only for particular sets of airplanes.", "anchors": ["pterasoftware/steady_horseshoe_vortex_lattice_method.py:calculate_near_field_forces_and_moments", "pterasoftware/steady_ring_vortex_lattice_method.py:calculate_near_field_forces_and_moments", "pterasoftware/unsteady_ring_vortex_lattice_method.py:calculate_near_field_forces_and_moments", "pterasoftware/functions.py:process_steady_solver_forces", "pterasoftware/movement.py:AirplaneMovement.generate_airplanes"]}
{"id": "C77", "title": "A wing leaves the stream alone exactly if the stream only grazes it, and then it carries no loads", "statement": "After a steady run every circulation is zero if and only if the free stream crosses no panel (its component along every panel's normal is zero). In that case every panel and every airplane has zero forces, moments and coefficients, the velocity is the free stream everywhere and the streamlines are straight. In the unsteady solver the same equivalence holds over the first n time steps, with the stream as each moving panel meets it: circulations are all zero exactly if at every step the air's motion relative to the panel has no component along its normal. Then the whole wake has zero strength, the velocity is the free stream, the loads of every step with results and the final, mean and root-mean-square loads are zero, the streamlines are straight, and the choice between the prescribed and the free wake makes no difference to any result.", "quantifier": "all airplanes, operating points and movements; all linear solvers; both wake models; all numbers of time steps", "why_tests_cant": "It is an equivalence over all geometries, movements and histories; a test samples single cases and cannot show that no other wing is without circulation, nor that zero circulation persists through every step.", "anchors": ["pterasoftware/steady_horseshoe_vortex_lattice_method.py:run", "pterasoftware/steady_ring_vortex_lattice_method.py:run", "pterasoftware/unsteady_ring_vortex_lattice_method.py:run", "pterasoftware/unsteady_ring_vortex_lattice_method.py:populate_next_airplanes_wake_vortices", "pterasoftware/functions.py:calculate_streamlines"]}
{"id": "C78", "title": "An airfoil's file gives exactly its points", "statement": "The contour of an airfoil whose name is not a NACA four-digit one is the list of pairs of numbers written in the file of that name (in lower case, with .dat) after the first line: whatever the first line says, however the numbers are written (signs, points, exponents) and however they are spaced. Every list of points with decimal coordinates can be written so. A missing file or an odd number of numbers is an error; no number is invented or left out between others; reading always ends. Anything that is not a number ends the reading, without an error. Every file that comes with the program can be loaded and gives its airfoil's points.", "quantifier": "all names, all file texts, all headers, all decimal spellings, all lists of points", "why_tests_cant": "Tests load a few of the 1552 files; the claim is about every text and every spelling of a number, and the files that break the last part are not among those tested.", "anchors": ["pterasoftware/geometry.py:Airfoil.populate_coordinates", "pterasoftware/airfoils/naca23015.dat", "pterasoftware/airfoils/s1020.dat", "pterasoftware/airfoils/e850.dat"]}
{"id": "C79", "title": "Small changes of the input change steady results only a little", "statement": "If a steady case can be solved, then so can every case close enough to it; and as cases come closer and closer to it - in density, speed, angles, in the corners of the panels, in spans and in reference lengths - the vortex strengths, the loads of each panel and of each airplane, the coefficients and the velocities at points of the flow come closer and closer to those of the case. The constructors do their part: sections, wings and airplanes built from positions, chords, twists, wing positions and reference values that come closer to good ones are built too, and their panels, spans, areas, mean chords and reference values come closer.", "quantifier": "all airplanes and operating points, all sequences of cases that converge to them, all points of the flow, every correct linear solver", "why_tests_cant": "A test compares two cases; continuity is about all the cases near one, and the jumps lie on surfaces that no chosen test point hits.", "anchors": ["pterasoftware/steady_horseshoe_vortex_lattice_method.py:SteadyHorseshoeVortexLatticeMethodSolver.run", "pterasoftware/steady_ring_vortex_lattice_method.py:SteadyRingVortexLatticeMethodSolver.run", "pterasoftware/aerodynamics.py:collapsed_velocities_from_line_vortices", "pterasoftware/geometry.py:Airplane", "pterasoftware/geometry.py:Wing", "pterasoftware/geometry.py:WingCrossSection", "pterasoftware/meshing.py:mesh_wing"]}
{"id": "C80", "title": "Every cycle of a movement is the same", "statement": "If a number of time steps is a whole number of periods of everything that oscillates, then the airplanes and operating points of a movement, and the problems handed to the solver, are those of that many steps before, in every attribute. If the longest period is a whole number of time steps, final results are averaged over exactly the last period, and a movement of a whole number of cycles has exactly that many periods' steps.", "quantifier": "all movements, with any number of airplanes, wings and cross sections, all amplitudes, periods, spacings and custom functions of period 2 pi, all time steps", "why_tests_cant": "A test compares two snapshots of one movement; a drift from cycle to cycle can come from any of the quantities that move, in any step.", "anchors": ["pterasoftware/movement.py:Movement.__init__", "pterasoftware/movement.py:WingMovement.generate_wings", "pterasoftware/movement.py:WingCrossSectionMovement.generate_wing_cross_sections", "pterasoftware/problems.py:UnsteadyProblem.__init__"]}
{"id": "C81", "title": "Airplanes far apart do not influence each other", "statement": "If each of two groups of airplanes can be solved alone by a steady solver, then both can be solved together once one group is moved far enough away, in any direction. As it is moved farther and farther away, the vortex strengths, loads and coefficients of every airplane come closer to those of its group alone, and the velocities near each group to those of that group alone.", "quantifier": "both steady solvers, all groups of airplanes whose panels have an area, all flows, all sequences of displacements whose length grows without bound, all linear solvers that meet their contract", "why_tests_cant": "A test compares one large distance with a tolerance; a contribution that stays, or an influence that fades in some directions only, can be below it.", "anchors": ["pterasoftware/steady_horseshoe_vortex_lattice_method.py:SteadyHorseshoeVortexLatticeMethodSolver.run", "pterasoftware/steady_ring_vortex_lattice_method.py:SteadyRingVortexLatticeMethodSolver.run", "pterasoftware/aerodynamics.py:expanded_velocities_from_horseshoe_vortices"]}
{"id": "C82", "title": "Names, weights, reference dimensions and thrust do not enter the flow", "statement": "If airplanes are given other names, weights, reference areas, chords and spans, their wings other names and the operating point another external thrust, every solver gives the same vortices, panel loads, forces, moments, velocities, wakes and streamlines and fails in the same cases; only the coefficients are then those of the new reference dimensions. For the steady solvers the same holds of another kinematic viscosity. Given to the base airplanes and the base operating point of a movement, such changes reach its problem as other names only, unless a changed reference chord is used to choose the time step or the number of steps.", "quantifier": "all three solvers, all airplanes, operating points and labels, at every time step of an unsteady problem; all movements", "why_tests_cant": "A test compares two sets of labels in one case; a dimension that enters a force, or a name that selects something, shows only for particular values.", "anchors": ["pterasoftware/steady_horseshoe_vortex_lattice_method.py:SteadyHorseshoeVortexLatticeMethodSolver.run", "pterasoftware/steady_ring_vortex_lattice_method.py:SteadyRingVortexLatticeMethodSolver.run", "pterasoftware/unsteady_ring_vortex_lattice_method.py:UnsteadyRingVortexLatticeMethodSolver.run", "pterasoftware/functions.py:process_steady_solver_forces", "pterasoftware/functions.py:process_unsteady_solver_forces", "pterasoftware/movement.py:Movement"]}
{"id": "C83", "title": "Small changes of the input change the unsteady solver's results only a little", "statement": "If unsteady problems come closer and closer to a given one (wing shapes, positions, reference dimensions, freestreams, viscosities and the length of the time step, with the same number of steps and the same averaging window), if the given one runs, no panel of it has zero area, and no point whose velocity it uses lies exactly on the edge of where a vortex is cut off, then all but finitely many of the others run too, with the same choice of wake, and after every time step their vortices, wakes, velocities, loads and (where they are defined) coefficients come closer and closer to those of the given one; so do the final, mean and root mean square loads.", "quantifier": "all problems created from movements, all sequences of problems approaching them, prescribed and free wakes, any number of steps", "why_tests_cant": "Continuity is a statement about all sufficiently small changes; a test tries some changes of some size, and a jump caused by a threshold shows only at particular inputs.", "anchors": ["pterasoftware/unsteady_ring_vortex_lattice_method.py:UnsteadyRingVortexLatticeMethodSolver.run", "pterasoftware/aerodynamics.py:collapsed_velocities_from_line_vortices", "pterasoftware/functions.py:process_unsteady_solver_forces", "pterasoftware/problems.py:UnsteadyProblem"]}
{"id": "C84", "title": "Small changes of a movement's arguments change its snapshots and the unsteady results only a little", "statement": "If the positions, chords, twists, amplitudes and periods of the movements, the base operating point and the time step (given, or computed from mean chords, panel counts and a speed that is not zero) come closer and closer to given ones, while spacings, custom functions, panel counts and what does not oscillate stay, the custom functions are continuous or evaluated at the same times, and rounding gives as many steps and the same averaging window (as it does where the longest period and the cycles wanted are not a whole number of time steps), then all but finitely many of the movements and unsteady problems can be created if the given one can, and the panels, reference dimensions and freestreams of their snapshots come closer and closer to those of the given one; if the unsteady solver runs the given one under the conditions of C83, it runs the others and its results come closer too.", "quantifier": "all lists of airplane movements and operating point movements, all sequences of arguments approaching them, sine, uniform and custom spacing, any number of steps, both kinds of wakes", "why_tests_cant": "Continuity is a statement about all sufficiently small changes, and the sections are placed by angles computed with a division and a special case for vertical wings, where a jump shows only next to particular inputs.", "anchors": ["pterasoftware/movement.py:Movement.__init__", "pterasoftware/movement.py:WingMovement.generate_wings", "pterasoftware/movement.py:WingCrossSectionMovement.generate_wing_cross_sections", "pterasoftware/movement.py:AirplaneMovement.generate_airplanes", "pterasoftware/movement.py:OperatingPointMovement.generate_operating_points", "pterasoftware/problems.py:UnsteadyProblem"]}
{"id": "C85", "title": "What the options of an unsteady run leave alone", "statement": "Asking the unsteady solver for streamlines changes nothing but the streamlines: every snapshot, load, wake record and the velocity field it gives are the same as without. Whether the wake is prescribed or free makes no difference to the first time step (panels, vortices, loads and recorded wake), and in a run of one time step none at all. (That it makes no difference where the stream only grazes the wings is C77, and that a case can be solved with either or with neither is C66.)", "quantifier": "all unsteady problems and linear solvers, both kinds of wakes, with and without streamlines", "why_tests_cant": "A comparison of two runs for every problem; tests run single configurations, and the wake options share mutable wing objects, where a leak would show only for particular problems.", "anchors": ["pterasoftware/unsteady_ring_vortex_lattice_method.py:UnsteadyRingVortexLatticeMethodSolver.run", "pterasoftware/unsteady_ring_vortex_lattice_method.py:UnsteadyRingVortexLatticeMethodSolver.populate_next_airplanes_wake"]}
{"id": "C86", "title": "The velocity a panel's vortices induce", "statement": "A panel asked for the velocity (or the normalized velocity) its vortices induce at a point gives it: zero for the panels of a new wing, and the velocity of its ring and horseshoe vortices after a solver has run.", "quantifier": "all wings, all panels, all points, after any run of any of the solvers", "why_tests_cant": "Ranges over every panel of every solved case; the methods are called by no solver and by no test.", "anchors": ["pterasoftware/panel.py:Panel.calculate_induced_velocity", "pterasoftware/panel.py:Panel.calculate_normalized_induced_velocity", "pterasoftware/aerodynamics.py:RingVortex", "pterasoftware/aerodynamics.py:HorseshoeVortex"]}
{"id": "C87", "title": "The choice of the linear solver does not matter", "statement": "Any linear solver that returns the solution of a square system when there is exactly one, and raises some error otherwise, gives the same results: the steady and unsteady solvers end in the same state (the unsteady one after every time step), the convergence analyses stop at the same mesh, and steady trimming ends with the same point and problem, or they fail with both.", "quantifier": "every two linear solvers meeting the specification; all airplanes, operating points, movements, wakes and analysis arguments", "why_tests_cant": "Ranges over all linear solvers and all histories: an invariant over all time steps has to show that every system handed over is square and of the right size.", "anchors": ["pterasoftware/steady_horseshoe_vortex_lattice_method.py:calculate_vortex_strengths", "pterasoftware/steady_ring_vortex_lattice_method.py:calculate_vortex_strengths", "pterasoftware/unsteady_ring_vortex_lattice_method.py:calculate_vortex_strengths", "pterasoftware/convergence.py:analyze_steady_convergence", "pterasoftware/convergence.py:analyze_unsteady_convergence", "pterasoftware/trim.py:analyze_steady_trim"]}
{"id": "C88", "title": "What final averages tell about the steps they are taken over", "statement": "After a run whose motion or wind oscillates, each component of a final mean load or load coefficient lies between the smallest and the largest of its values at the averaged steps. Each final root mean square lies between the smallest and the largest absolute value, is at least the absolute value of the mean, and equals it exactly if the component did not change over the averaged steps. If the dynamic pressure and the reference dimensions are the same at all averaged steps, the mean and root-mean-square coefficients are the mean and root-mean-square loads divided by the same products of them (with the sign conventions of the wind axes).", "quantifier": "every unsteady problem created from any movement with a nonzero period, finished by either wake model with any linear solver meeting its specification; every airplane, each of the four loads and each component", "why_tests_cant": "Ranges over all movements, numbers of averaged steps and load histories; the bounds are inequalities over histories of any length.", "anchors": ["pterasoftware/unsteady_ring_vortex_lattice_method.py:finalize_near_field_forces_and_moments", "pterasoftware/unsteady_ring_vortex_lattice_method.py:calculate_near_field_forces_and_moments", "pterasoftware/problems.py:UnsteadyProblem"]}
{"id": "C89", "title": "Four-digit airfoils made without repanelling", "statement": "An airfoil named by a NACA four-digit number and made with repanelling switched off has the points of the published contour. This holds exactly if the nose (the middle point, at the origin) lies strictly ahead of the points before it in the contour and not behind any other; otherwise the constructor raises an error. It holds for every airfoil without camber. It does not hold for the NACA 2412. With repanelling, each side of the new contour is fitted to the points of that side of the published one, the nose included; this does not hold for the NACA 2412 either.", "quantifier": "every name with four digits after \"naca\", in any case and with any blanks around it; every airfoil database and number of points", "why_tests_cant": "Ranges over all names; the failure depends on the sign of a difference of real-valued terms near the nose.", "anchors": ["pterasoftware/geometry.py:Airfoil.__init__", "pterasoftware/geometry.py:populate_coordinates", "pterasoftware/geometry.py:populate_mcl_coordinates", "pterasoftware/geometry.py:leading_edge_index"]}
