# Formal model of PteraSoftware: design

## 1. What is built

`rocq/theories` contains a shallow Gallina model of the Python package in
`/repo/pterasoftware` and machine-checked theorems about it (Coq 8.16.1).

* `M_*.v` are models, one per Python module, with no proofs.  Every definition
  cites the file and lines it models and says where it simplifies.
* `S_*.v` are small specifications that do not use the model's helpers.
* `L_*.v` are lemmas and proofs.
* `P_*.v` hold only property theorems, each closed by `exact lemma`, with
  `Print Assumptions` underneath, plus non-vacuity `Example`s.

### Modelling conventions

* Python floats are modelled by the real numbers `R` of the standard library.
  Rounding, overflow, NaN and inf are outside the model except where a
  definition carries them explicitly (for example the `inf` percent changes of
  the convergence search, which are a three-valued `change`).  `M_Floats`
  models the step counts, averaging windows and frame rates a second time, with
  every operation rounded to the nearest double (C70).
* NumPy arrays are lists (of lists).  An `(N, 3)` array is a list of `vec`.
* Exceptions are values (`result`): `Ok x` or `Err e` with one constructor per
  `raise`/implicit error.
* Mutation of objects becomes returning a new value.  Where sharing of mutable
  objects between snapshots is observable (wake ring vortices) the model keeps
  an explicit heap of object identities.
* External calls are arguments: `np.linalg.solve` (a function together with
  the hypothesis that a successful call returns the unique solution), SciPy
  minimisers (an arbitrary function from the values seen so far to the next point), `pchip` interpolation,
  user-supplied custom spacing functions, PyVista/Matplotlib (not modelled).
* Loops are structural recursion or folds over lists/ranges.

## 2. Trusted base

* Coq's kernel (8.16.1) and its checker.
* The standard library axioms behind `R`:
  `ClassicalDedekindReals.sig_forall_dec`, `ClassicalDedekindReals.sig_not_dec`,
  `FunctionalExtensionality.functional_extensionality_dep`; and
  `Classical_Prop.classic` where lemmas on trigonometry/derivatives need it.
  `Print Assumptions` beneath each theorem lists exactly what it uses.
* The reading of the Python source: the code is not run here.
* Real arithmetic stands for IEEE arithmetic, except in C70, where Flocq's
  definitions of the binary64 format and of rounding to nearest, ties to even,
  stand for it (Flocq adds no axioms).
* The hypotheses on oracles, which are stated in each theorem that uses them:
  * `np.linalg.solve`: `SolveSpec` (S_Solve.v), a call succeeds exactly when the
    system has a unique solution and returns it.  `gauss_solve` in L_Gauss.v is
    a function with this property, so the hypothesis can be met.
  * `scipy.interpolate.PchipInterpolator`: any function; only C48 assumes that
    it goes through its points (`interpolating`), met by `table`.
  * the airfoil data files: any partial function from names to lists of numbers; in C78
    any partial function from file names to texts, read as `np.fromstring` reads them
    (white space between numbers; the words nan and inf, and files that are not UTF-8
    text, are left out).
  * `scipy.signal.sawtooth(t, 0.5)`: SciPy's published formula.
  * user-supplied spacing functions: any function of the time, applied to each
    element.
* Division by zero: Coq's `x / 0` is `0`, NumPy's is inf or nan.  Where a result
  would depend on it the theorem excludes a zero divisor (C24, C54, C57:
  `up_delta_time <> 0`), the model has an error value (ZeroDivisionError in the
  convergence meshes) or an explicit inf/nan (the convergence search).
* Square roots of negative numbers: Coq's `sqrt x` is `0` for `x < 0`, Python's is
  nan.  The only root of a number that may be negative is the core radius of a
  vortex, with a negative viscosity or age.  Viscosities are the user's; ages are
  sums of time steps, so they are not negative unless the time step is.

## 3. Per-property plan

| Id | Model | How proved |
|----|-------|-----------|
| C01 | `M_Functions.rotation` over R; `M_Arrays` for an array of angles | ring identities with `sin2_cos2`, norm lemma; slices of the array |
| C02 | `M_OperatingPoint` | matrix product, ring identities |
| C03 | affine 4x4 reflection | ring under unit normal |
| C04 | `cosspace` over `linspace` | `cos` strictly decreasing on [0,pi] |
| C05 | nested map | list lemmas + field |
| C06 | `M_Panel` properties as functions of 4 vertices | ring |
| C07 | `M_Panel` | Cauchy-Schwarz, Lagrange identity |
| C08 | constructor returning `result` | case analysis, iff with a spec |
| C09 | constructor returning `result`; mesh as a parameter | case analysis + list induction |
| C10 | constructor returning `result` | case analysis |
| C11 | `M_Meshing` matrices as lists of rows | induction on sections |
| C12 | `M_Meshing` | counterexample for unequal deflections; proof when the shared section has the same airfoil on both sides |
| C13 | `M_Meshing` | induction on sections, reflection lemma |
| C14 | `M_Geometry`, `M_Meshing`; planform in `S_Planform` | nra/lra inequalities, induction over sections; every panel of a strip between two sections projects onto a trapezoid, and the sums over its rows and columns telescope |
| C15 | `M_Airfoil` strings as `list ascii` | string lemmas, trigonometric identities |
| C16 | `M_Airfoil` camber line, repanelling, piecewise-linear interpolation | list lemmas, induction |
| C17 | `M_Airfoil` | 2D rotation identities |
| C18 | `M_Vortices` objects + operation lists | invariant by induction over operations |
| C19 | `M_Aero` folds | induction |
| C20 | `M_Aero.line_velocity` | algebra; the line integral (`S_BiotSavart`) by the fundamental theorem of calculus |
| C21 | `M_Aero` | algebra |
| C22 | `M_Horseshoe.run` with solve oracle | matrix-vector algebra over lists |
| C23 | `M_SteadyRing.run` with solve oracle | same, needs initial strengths 1 |
| C24 | `M_Unsteady.step` with solve oracle | same + induction on steps |
| C25 | `M_Loads` | induction over nested lists |
| C26 | `M_Loads` | orthogonality |
| C27 | `M_Loads` | cross product identities |
| C28 | `M_Horseshoe.run`, `M_SteadyRing.run` | uniqueness of the solve, homogeneity of kernels |
| C29 | `M_Horseshoe.run`, `M_SteadyRing.run` on two problems that are mirror images (`S_Mirror`) | the mirrored strengths solve the mirrored system (permuted rows and columns, signs for fins), uniqueness of the solve, equivariance of every kernel and of the loads |
| C30 | solver state machine | equality / counterexample |
| C31 | ring forces | counterexample expected (refuted) |
| C32 | `M_Movement` | case analysis, ceiling lemmas |
| C33 | `M_Movement`, `M_Problems` | list induction |
| C34 | oscillation functions | periodicity of sin, bounds |
| C35 | max over nested lists | induction |
| C36 | snapshot constructors | field equality; refuted fields recorded as findings |
| C37 | section recursion | counterexample + conditional theorem |
| C38 | floor arithmetic | `up`/`Int_part` lemmas |
| C39 | unsteady run with and without flag | simulation by induction on steps |
| C40 | finalisation | Cauchy-Schwarz over lists |
| C41-C44 | wake state machine per wing | invariants by induction on steps |
| C45 | heap model of wake ring objects | array records: frame theorem; object sharing: refutation |
| C46-C47 | `M_Convergence`: both searches around the modelled solvers | loop invariant over the list of iterations; answer, no answer and error each characterised by an iff |
| C48 | copies of sections, wings, airplanes and movements | structural induction; repanelling is idempotent; rounding; counterexamples |
| C49-C50 | `M_Trim`: objective as a state machine around the modelled solvers, optimiser an arbitrary function of the values seen | a run depends on the airplanes' geometry only; induction on evaluations; found, not found and raised each by an iff |
| C51 | string decision | case analysis |
| C52 | iterate; the streamlines of the three solvers | induction; run invariants |
| C53 | `M_Output`: the meshes, scalars and colours handed to the drawing library | induction; panels and scalars in the same order |
| C54 | flapping velocities | algebra |
| C55 | printed lines of the unsteady results | periodic case proved, counterexample for static problems |
| C56 | geometry of all steps before and after a run | invariant over steps; placement of the bound rings |
| C57 | unsteady loads of panels and airplanes; `M_Arrays` for the loop of `numba_1d_explicit_cross` | unfold one step; effective strengths = net circulations |
| C58 | panel directions and averages | vector algebra, triangle inequality |
| C59 | frames of an animation | one frame per step by induction; counterexample with only_final_results |
| C60 | frame rate | floor; counterexamples |
| C61 | curves of the plots | window of steps with results, row lookup |
| C62 | printed lines of the steady results | run invariants of both solvers; sign of force against coefficient |
| C63 | `M_Horseshoe.run`, `M_SteadyRing.run` on two problems that differ in order (`S_Order`) | a reordering is a mirror image of a mirror image, C29 twice |
| C64 | `M_Horseshoe.run`, `M_SteadyRing.run` on two problems related by a rigid motion (`S_Rigid`); `M_Geometry.new_wing` at two positions | every formula commutes with rotations and shifts, so the same strengths solve the moved system; uniqueness by `SolveSpec` |
| C65 | `M_Unsteady.unsteady_run` on two problems that are images of one another at every step (`S_Image`); `M_Movement` for symmetric movements | invariant over the steps: positions, wakes, strengths and last loads are images, so the images of the strengths solve the next system; uniqueness by `SolveSpec`. A wing whose image has left and right interchanged must have no gaps along its trailing edge and at least one panel, since the wake is shed from back-left corners (finding on C44). Without that: a run of a wing with flaps on its inner half, whose wake is computed (C65_flap_refuted) |
| C66 | `M_Horseshoe.hs_run`, `M_SteadyRing.ring_run`, `M_Unsteady.unsteady_run`; the vortices of a case as segments in space, computed from the panels alone (`S_Solvable`) | each solver's matrix is shown to be the velocities of those segments; a square system has a unique solution for one right-hand side exactly when it has only the zero solution for zero (`L_Dominant.solvable_iff`, from Gaussian elimination); wings in the same place, and wings lying on their own mirror image (`S_Folded`), give two vortices with equal or opposite effect |
| C67 | `M_Horseshoe.hs_run`, `M_SteadyRing.ring_run` on two problems of different size (`S_Size`); `M_Geometry.new_wing`, `new_airplane` with all lengths multiplied | every influence is divided by the factor unless a cut-off steps in, so the multiplied strengths solve the larger system; uniqueness by `SolveSpec`. Small sizes: all influences vanish, so by C66 there is no answer. Unsteady (`S_SizeUnsteady`, `P_SizeUnsteady`): `M_Unsteady.unsteady_run` on the enlarged problem commutes with a change of scale step by step (matrix, right-hand side, loads, shedding, ages and cores), provided every velocity a step needs is cut off at both sizes or at neither; `M_Movement.new_movement` with lengths, periods and the time step multiplied gives the enlarged problem, except for the viscosity that movements drop |
| C68 | `M_Unsteady.unsteady_run` on two problems with the same airplanes at every step (`S_Similar.same_flight`); `M_Movement.new_movement` with all periods divided | scaling the state commutes with every part of a step (core radius, influences, loads, shedding), the solver's answer scales by uniqueness; movements: angles 2 pi t / period are unchanged. Streamlines are left out: `run` follows them with a fixed step of 0.02 s |
| C69 | `M_Unsteady.unsteady_run` on any state reachable by earlier runs and new solvers (`S_Again.used`) | relational: two runs step by step, related by "same, except loads and wakes not yet recomputed, with wake ring numbers shifted"; every part of a step preserves the relation or fails alike, and after the last step the relation is equality up to the shift; earlier runs leave geometry, operating points and sizes alone |
| C70 | `M_Floats`: the four places that turn measured times into whole numbers, each operation followed by rounding to the nearest double (Flocq's `FLT` format) | relative error of each operation, then the distance of the floors or ceilings of two numbers less than one apart; witnesses by computing the roundings exactly; exact counts are those of C32 (`least`), `first_averaging_step` and `frame_rate` |
| C71 | `M_Progress`: the estimated time of each step, the bar's total and the amounts it is advanced by | the estimates' array after m passes of the loop, by induction; sums of prefixes |
| C72 | the solvers' `calculate_solution_velocity` as a field over R | `S_Flow`: directional derivatives, divergence, curl; derivative of one segment's velocity in closed form, cut-offs hold in a neighbourhood, sums over the paths of C67 |
| C73 | as C72 | bound of one segment's velocity beyond twice the distance of its ends; sum of the bounds |
| C74 | `M_Geometry.new_wing`, `M_Movement.new_movement` and the three solvers on two descriptions of one wing (`S_Divide`) | a row of equally spaced points divided at one of them, so the two strips of panels join to the old one; sweep and heave angles of the parts add to the old edge; then C67 with factor 1 and C65 with the identity |
| C75 | pairs of unsteady runs and of movements | `S_Causal`: problems alike up to a step; invariant over the common steps (same heap, same steps, same wakes), prefixes of the generated time histories |
| C76 | pairs of runs of each solver with other reference points | `S_Reference`: the airplane about another point; each stage of the solvers commutes with the change, linearity of the totals and of the rotation to wind axes; final and mean moments by C40 and linearity of sums, the wind axes being the base operating point's at all steps |
| C77 | runs of each solver in a stream that does not cross the panels | `S_Grazing`: the stream grazes a panel, no loads, uniform flow; uniqueness of the solution of the linear system, induction over the time steps, step-wise equality of the two wake models |
| C78 | `M_Files`: the text after the first line, `strtod`, the loop of `np.fromstring`; the texts of three files | `S_Files`: how numbers are written, tables of numbers; soundness and completeness of the reader by induction; evaluation on the three files |
| C79 | the two steady solvers and the constructors as they are | `S_Continuous`, `S_ContinuousShape`: converging inputs and results (airfoils, directions, deflections and panel counts stay; the root stays where the constructor demands it); limits carried through every step of the run, and through the linear system by a lower bound of the matrix on the unit sphere of the 1-norm; plates that shrink to the size at which their vortices are just felt |
| C80 | the generators of movements as they are | `S_Cycles`: everything that oscillates, `comes_back`, `repeats`; from the profiles (C34) through sections, wings and airplanes to the problems |
| C81 | the steady solvers as they are | `S_Apart`: `receding` displacements, `shifted_airplane`; influences between the groups fade (C73), so the matrix tends to a block matrix and its solution to the two solutions (as for C79); the moved group is seen from its own place (C64) |
| C82 | the solvers and movements as they are | `S_Labels`: `with_labels`, `hs_with_labels`, `ring_with_labels`, `unsteady_with_labels`; each step of a run commutes with changing the labels, as for C76 |
| C83 | the unsteady solver as it is | `S_ContinuousUnsteady`: `approaching_problem`, `steps_off_edges`, `approaching_run`; each part of a time step has a limit lemma (as for C79), a step keeps the run close, induction over the steps; streamlines are not claimed to converge, only to exist |
| C84 | movements, snapshots and the unsteady solver as they are | `S_ContinuousMovement`: movements with converging arguments; limit lemmas for oscillations, section histories, wings, airplanes and operating points, then C83; the number of steps and the averaging window are rounded from periods and the time step (C70), so that they have to be the same (`same_clock`), which is proved where nothing is a whole number of time steps; the triangle wave is shown continuous as the distance to the nearest odd multiple of pi |
| C85 | the unsteady solver as it is | two runs of one problem side by side: step 0 does the same up to the wake it prepares, later steps do not touch snapshot 0 (`L_Options`), and the streamlines are computed last |
| C86 | `Panel.calculate_induced_velocity` and its normalized twin | meshing sets no vortices and every run sets one on each panel (`L_PanelVelocity`); the methods then call vortex methods that do not exist |
| C87 | the three `run` methods, `analyze_steady_convergence`, `analyze_unsteady_convergence`, `analyze_steady_trim`, with `np.linalg.solve` as an oracle | every system handed to the oracle is square and of the right size (for the unsteady solver by the run invariant), so the specification fixes the oracle's answer; the rest is the same computation (`L_AnySolver.refines`) |
| C88 | `finalize_near_field_forces_and_moments` at the end of a whole `run` of the unsteady solver | the final lists are means and root mean squares of the loads at the averaged steps (C57); a mean lies between two of its terms, and the mean square exceeds the squared mean by the mean squared deviation; coefficients by linearity of the mean (`S_Averages.averaged`, `S_Averages.same_scales`) |
| C89 | `Airfoil.__init__` with `repanel=False` and a four-digit name | the contour is accepted exactly if its foremost point is the middle one (C16), since the ends lie near (1, 0); an uncambered contour has the abscissae of `cosspace`; for the NACA 2412 bounds on the first station behind the nose show a point ahead of it (`S_Airfoil.foremost`) |

Nothing on the list is inexpressible; floating point rounding is the part of
every numeric property that the model does not carry.

## 4. Not modelled

GUI (`main.py`, `ui_resources`), the rendering itself (PyVista, Matplotlib and
webp calls end at the data handed over; camera, text positions, file writing and
the units in printed lines are left out; the rounding of printed numbers is
modelled over the reals, not as text), logging output, the drawing of progress bars, Numba compilation, floating point rounding outside C70, the airfoil data
files' contents (three of the 1552 are in `M_Files`), `Airfoil.draw`, `docs`, `examples`, `validation`, `formation flight`.

## 5. Findings

Places where the code does not do what its documentation or a user would expect.
Each theorem named here is proved about the model.

1. **Forces on shared legs are counted twice** (C31_shared_leg_once_refuted).  The
   ring solvers add the force on the leg between two spanwise neighbours to both.
2. **Running a solver twice** (C30_ring_rerun_refuted, C30_horseshoe_seeds_refuted).
   The ring solver's second run uses the first run's strengths in its influence
   matrix and gives other strengths; the horseshoe solver's seed points double.
3. **Gaps in the mesh** (C12_spanwise_refuted, C12_root_refuted,
   C12_empty_section_refuted).  Different deflections on both sides of a section,
   asymmetric surfaces at the root, or a section without spanwise panels.
4. **Snapshots drop attributes** (C36_wing_refuted, C36_airplane_refuted,
   C36_operating_point_refuted).  Unit vectors, weight, reference dimensions,
   viscosity and thrust go back to defaults in every time step.  The copies made
   by the convergence analyses drop unit vectors and reference dimensions
   (`recounted` and `remeshed_wing` in S_Convergence.v say what they get).
5. **The first snapshot is not the base geometry** (C37_swept_dihedral_refuted,
   C37_port_wing_refuted) for wings with sweep and dihedral, or drawn towards -y.
6. **Absolute cut-offs in the Biot-Savart law**
   (C20_biot_savart_everywhere_refuted): small geometries lose velocities, so the
   results depend on the unit of length.
7. **A still wing in gusts gets a flapping velocity** on the side legs of its
   trailing edge panels (C54_still_wing_legs_refuted).
8. **Wake ring vortex objects are shared between time steps**
   (C45_objects_kept_refuted, C45_objects_shared).  The recorded arrays are safe,
   the objects reachable from an earlier step's wings are moved by later steps.
9. **Hinge behind the last camber point** is an IndexError
   (C17_hinge_behind_trailing_edge).
10. **Convergence with zero coefficients** (C46_zero_moments_refuted,
    C46_zero_loads_refuted).  0/0 is a NaN; Python's `max` keeps or drops it
    depending on its position, so a changing moment can be hidden behind a zero
    one, and an all-zero result never converges.
11. **The converged mesh was not itself compared** (C46_answer_settled_refuted).
    The answer combines the coarser aspect ratio of one comparison with the
    coarser chord of another; nothing is known about that combination.
12. **Convergence meshes can be empty** (C48_at_least_one_refuted): a strip for
    which at most half a panel is wanted gets none; in a symmetric wing this is
    an error (C48_symmetric_needs_panels).  A vertical strip divides by zero
    (C48_vertical_strip_fails).  An empty range skips the check of the solver type
    (C46_empty_ranges).

13. **Steady trim changes the problem it is given**
    (C49_operating_point_kept_refuted, C49_problem_after).  Speed and angles of the
    last evaluation stay set; the thrust found is returned but not stored.  Several
    airplanes are only logged: the first one is trimmed in the flow of all.
14. **Unsteady trim cannot succeed** (C50_refuted, C50_never_trims).  It reads
    attributes of the solved problem that no class defines.  Base values outside the
    bounds are only logged.
15. **Printing the results of a static unsteady problem** is an IndexError
    (C55_refuted): it looks for entries that only periodic problems fill.
16. **Coloured animations need the loads of every step** (C59_refuted): with
    only_final_results the early steps' loads are None, a TypeError.
17. **The frame rate is rounded down** (C60_refuted): a time step above one second
    gives zero frames per second, and others a wrong playback speed for the label.
18. **Printed forces and coefficients differ in sign**
    (C62_same_sign_refuted): lift and induced drag are printed in wind axes, the
    coefficients with the usual sign of lift and drag.
19. **A symmetric wing with flaps on part of its span sheds a wake that is not
    symmetric** (C65_flap_refuted).  Where a flap ends the trailing edge has a gap, and
    the one wake vertex there is taken from the panel on its right, which is the
    inner panel on one side and the outer panel on the other.  The wing, flaps and
    flow are mirror images of themselves.
20. **Small cases are solved wrongly or not at all** (C67_any_size_refuted,
    C67_too_small_fails, C67_small_panel).  The cut-offs of finding 6 are lengths
    in metres: a parallelogram panel below 2^-25 square metres (0.17 mm by 0.17 mm,
    an insect wing with a usual mesh) does not feel its own ring vortex, and every case has
    a size below which its matrix is zero.
21. **Movements cannot be compared at different speeds** (C68_viscosity_refuted).
    The wake's core radius grows with viscosity times time, so the same flight at
    twice the speed needs twice the viscosity; but the snapshots drop the
    viscosity of the base operating point (finding 4), so it has to be assigned to
    every step by hand (C68_movement).
22. **Solving an unsteady problem again shows the first run's results** (C69_final_refuted, C69_entries,
    C69_stale, C69_printed).  `finalize_near_field_forces_and_moments` appends to the lists of the problem,
    which nothing clears, and readers take the entry with the number of the airplane.  Solving one problem
    with a prescribed and then with a free wake prints the prescribed results twice.  All other results of
    the second run are correct (C69_again).
23. **Rounding can add a time step** (C70_divided_refuted, C70_cycles_refuted, C70_frames_refuted).
    Three cycles of a period of 0.1 s with a time step of `0.1 / 30` give 91 steps, because
    `3 * 0.1 / (0.1 / 30)` is a little more than 90 in double precision.  Animations with a time step of
    0.0105 s are written with 49 frames per second.  The error never exceeds one (C70_cycles, C70_chords,
    C70_window, C70_frames).
24. **The progress bar is full too early** (C71_full_only_at_the_end_refuted, C71_shown).  After step k
    the unsteady solver advances the bar by the estimate for step k + 1, so the bar is full before the last
    step begins and its last update is zero.  It is shown only when the level is exactly "Warning",
    although the comment in the code says that it is disabled unless the level is at or above Warning.
25. **The steady flow spins away from its vortices** (C72_irrotational_refuted, C72_ring_irrotational_refuted,
    C72_horseshoe_curl, C72_ring_curl).  A horseshoe vortex is modelled by three segments that end twenty
    spans behind the wing instead of at infinity.  Each end leaves a curl that falls off with the square of
    the distance from it, so the flow of the steady solvers spins at points far from any vortex.  The
    unsteady solver's rings are closed and do not have this defect.
26. **Not every airfoil file can be used** (C78_every_file_refuted, C78_words_end_the_file, C78_capitals).
    Reading stops silently at the first thing that is not a number.  naca23015.dat, and likewise
    naca23018.dat, naca23021.dat and naca23024.dat, have dots in place of a number on their second line, so
    one number is read and the name is rejected.  s1020.dat and nasasc2-0714.dat have a second line of text,
    so no points are read and the constructor fails.  e850.dat gives the numbers of its points on its
    second line, which become the point (33, 35).  ah81k144wfKlappe.dat and griffith30SymSuction.dat have
    capital letters in their names, and names are put in lower case, so where file names are case-sensitive
    they are never found.  goe187.dat, goe188.dat and goe235.dat are not UTF-8 text (read, not modelled).
27. **Results jump where a vortex is cut off** (C79_edge_refuted).  The law of Biot and Savart is replaced by
    zero when the square of a cross product is less than 2^-52, however strong the vortex is felt just outside.
    Cases can therefore come arbitrarily close to one that is solved without any of them being solved.
28. **Almost vertical wings are turned upside down** (C84_vertical_refuted).  The snapshots place a section by the
    arctangent of its offset from the section inboard of it, which loses the sign of the offset in y (C37), but leave it
    where it is if the offset in y is exactly zero.  A fin whose tip is straight above its root keeps its tip there; if the
    tip leans inwards by any amount, however small, the snapshot has it below the root.
29. **A solved panel cannot give its induced velocity** (C86_velocity_refuted).  `Panel.calculate_induced_velocity` and
    `calculate_normalized_induced_velocity` call methods of these names on the panel's vortices.  Neither vortex class has
    them, so the call ends in an AttributeError on every panel of every solved airplane (C86_horseshoe_fails,
    C86_ring_fails, C86_unsteady_fails).  Only panels without vortices answer, with zero.
30. **A symmetric wing may lie on its own mirror image** (C66_own_mirror_image, C66_symmetric_fin_fails).  `Wing` accepts
    `symmetric=True` for a wing that lies within the plane of symmetry, such as an upright fin on the centre line.  Each of
    its columns of panels then coincides with another one, and no solver can solve an airplane that has the wing: with a
    linear solver that meets its specification, the run ends in a LinAlgError.
31. **The wake comes off the wing where the trailing edge has a gap** (C44_attached_right_refuted).  The first row of
    wake rings takes the next panel's back left vertex as its right end.  Where the mesh has a spanwise gap, as at the end
    of a flap (finding on C12), that is not the panel's own back right vertex, and the wake is torn from the panel.
32. **Cambered four-digit airfoils cannot be made without repanelling** (C89_cambered_refuted).  Thickness is laid off
    along the normal of the camber line, so the first points of the upper side can lie ahead of the nose: for the
    NACA 2412 the 99th of the 199 points has a negative abscissa.  `leading_edge_index` takes the foremost
    point for the leading edge.  The two sides then differ in length, and `populate_mcl_coordinates` raises a
    ValueError on adding them.  With repanelling, the default, the same point is taken for the leading edge, so the
    lower side is interpolated from data that begin with a point of the upper side, and the upper side from data
    without the nose (C89_repanelled_refuted).

Read in the code but outside the theorems:

* the step-0 branch for the ages of new wake rows is dead code;
* a NACA name with camber but a zero camber position is silently read as 0.5.
