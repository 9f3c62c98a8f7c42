{
 "claims": [
  {
   "property": "C01",
   "status": "proved",
   "theorems": [
    "C01_rotation_of_arrays",
    "C01_rotation_is_proper",
    "C01_rotation_fixes_axis",
    "C01_rotation_turns_by_angle",
    "C01_rotation_undone_by_opposite",
    "C01_rotation_composes",
    "C01_rotation_ignores_axis_length"
   ],
   "note": "Scalar angles; C01_rotation_of_arrays carries every statement over to arrays of angles."
  },
  {
   "property": "C02",
   "status": "proved",
   "theorems": [
    "C02_rotation_is_proper",
    "C02_transpose_is_inverse",
    "C02_freestream_direction",
    "C02_freestream_direction_unit",
    "C02_freestream_speed",
    "C02_freestream_in_wind_axes",
    "C02_dynamic_pressure",
    "C02_default_flow"
   ],
   "note": ""
  },
  {
   "property": "C03",
   "status": "proved",
   "theorems": [
    "C03_reflection_is_mirror_image",
    "C03_reflection_involution",
    "C03_reflection_isometry",
    "C03_reflection_fixed_points",
    "C03_reflection_midpoint_on_plane"
   ],
   "note": ""
  },
  {
   "property": "C04",
   "status": "proved",
   "theorems": [
    "C04_cosspace_length",
    "C04_cosspace_first",
    "C04_cosspace_last",
    "C04_cosspace_increasing",
    "C04_cosspace_symmetric",
    "C04_cosspace_bounds"
   ],
   "note": ""
  },
  {
   "property": "C05",
   "status": "proved",
   "theorems": [
    "C05_interp_shape",
    "C05_interp_point",
    "C05_fraction_along"
   ],
   "note": ""
  },
  {
   "property": "C06",
   "status": "proved",
   "theorems": [
    "C06_panel_points",
    "C06_panel_points_move_with_panel"
   ],
   "note": ""
  },
  {
   "property": "C07",
   "status": "proved",
   "theorems": [
    "C07_unit_normal",
    "C07_unit_normal_side",
    "C07_normal_moves_with_panel",
    "C07_area",
    "C07_area_rigid",
    "C07_area_of_planar_panel",
    "C07_projected_area_bounds",
    "C07_projected_area_value",
    "C07_projected_area_own_normal"
   ],
   "note": ""
  },
  {
   "property": "C08",
   "status": "proved",
   "theorems": [
    "C08_created_iff",
    "C08_first_violated_rule",
    "C08_attributes_kept"
   ],
   "note": ""
  },
  {
   "property": "C09",
   "status": "proved",
   "theorems": [
    "C09_created_iff",
    "C09_first_violated_rule",
    "C09_attributes_and_counts"
   ],
   "note": "The exact condition also includes what meshing itself needs (a chordwise panel, airfoils that accept the control surfaces, spanwise panels for the reflected half); the wing normal is assumed not to be the zero vector."
  },
  {
   "property": "C10",
   "status": "proved",
   "theorems": [
    "C10_reference_quantities"
   ],
   "note": ""
  },
  {
   "property": "C11",
   "status": "proved",
   "theorems": [
    "C11_mesh_shape",
    "C11_airplane_mesh"
   ],
   "note": ""
  },
  {
   "property": "C12",
   "status": "partial",
   "theorems": [
    "C12_chordwise",
    "C12_spanwise_refuted",
    "C12_root_refuted",
    "C12_empty_section_refuted",
    "C12_spanwise_partial",
    "C12_uniform_surface_partial"
   ],
   "note": "Refuted as stated for spanwise neighbours (three witnesses). Proved: chordwise neighbours always share their edge; spanwise neighbours do when the three causes are absent."
  },
  {
   "property": "C13",
   "status": "proved",
   "theorems": [
    "C13_mirror_image",
    "C13_asymmetric_surfaces"
   ],
   "note": ""
  },
  {
   "property": "C14",
   "status": "proved",
   "theorems": [
    "C14_span",
    "C14_mean_chord_times_span",
    "C14_projected_area",
    "C14_wetted_area",
    "C14_trailing_edge",
    "C14_equal_chords",
    "C14_chord_bounds",
    "C14_mean_chord_bounds",
    "C14_area_of_trapezoids",
    "C14_plain_sections",
    "C14_mean_chords_ordered",
    "C14_rectangular",
    "C14_tapered",
    "C14_axes"
   ],
   "note": "The area of trapezoids is proved for sections in planes normal to the wing's normal direction, without deflected control surfaces, whose camber lines nowhere turn forward; repanelled airfoils without twist always qualify."
  },
  {
   "property": "C15",
   "status": "proved",
   "theorems": [
    "C15_four_digit_names",
    "C15_other_names",
    "C15_every_name",
    "C15_points_around_camber_line",
    "C15_number_of_points",
    "C15_slope_is_derivative",
    "C15_leading_and_trailing_edge",
    "C15_uncambered_is_symmetric"
   ],
   "note": ""
  },
  {
   "property": "C16",
   "status": "proved",
   "theorems": [
    "C16_one_point_per_fraction",
    "C16_at_the_requested_fraction",
    "C16_ends_kept",
    "C16_monotone",
    "C16_camber_line_of_contour",
    "C16_given_contour_kept",
    "C16_accepted",
    "C16_one_sided",
    "C16_repanelled_contour"
   ],
   "note": ""
  },
  {
   "property": "C17",
   "status": "proved",
   "theorems": [
    "C17_rejected_iff_out_of_range",
    "C17_contours",
    "C17_ahead_kept_behind_turned",
    "C17_distance_to_hinge_kept",
    "C17_zero_deflection",
    "C17_camber_line_turned",
    "C17_hinge_behind_trailing_edge",
    "C17_zero_deflection_succeeds"
   ],
   "note": "Turning is stated for contours with as many points on the upper as on the lower side. C17_contours shows that this covers every airfoil the constructor accepts except one whose first or last given point is its leading edge; every repanelled airfoil is covered. A hinge behind the last camber point ends in an IndexError (C17_hinge_behind_trailing_edge)."
  },
  {
   "property": "C18",
   "status": "proved",
   "theorems": [
    "C18_ring_history",
    "C18_horseshoe_history"
   ],
   "note": ""
  },
  {
   "property": "C19",
   "status": "proved",
   "theorems": [
    "C19_ring_collapsed_is_sum",
    "C19_horseshoe_collapsed_is_sum",
    "C19_line_collapsed_is_sum",
    "C19_ring_superposition",
    "C19_horseshoe_superposition",
    "C19_line_superposition"
   ],
   "note": ""
  },
  {
   "property": "C20",
   "status": "proved",
   "theorems": [
    "C20_zero_on_filament_line",
    "C20_finite",
    "C20_no_division_by_zero",
    "C20_perpendicular",
    "C20_right_hand_rule",
    "C20_odd_in_strength",
    "C20_odd_under_reversal",
    "C20_proportional_when_new",
    "C20_equivariant",
    "C20_decay",
    "C20_core",
    "C20_biot_savart",
    "C20_line_integral",
    "C20_biot_savart_everywhere_refuted"
   ],
   "note": "Over the reals. The absolute cut-offs make the unguarded Biot-Savart law false; that is C20_biot_savart_everywhere_refuted and a finding in DESIGN.md."
  },
  {
   "property": "C21",
   "status": "proved",
   "theorems": [
    "C21_ring_is_four_legs",
    "C21_horseshoe_is_three_legs",
    "C21_rings_at_points",
    "C21_horseshoes_at_points",
    "C21_chordwise_legs_at_points",
    "C21_shared_edge_cancels",
    "C21_shared_back_edge_cancels"
   ],
   "note": ""
  },
  {
   "property": "C22",
   "status": "proved",
   "theorems": [
    "C22_horseshoe_no_penetration",
    "C22_horseshoe_succeeds_iff",
    "C22_horseshoe_keeps_geometry"
   ],
   "note": ""
  },
  {
   "property": "C23",
   "status": "proved",
   "theorems": [
    "C23_ring_no_penetration",
    "C23_new_solver_is_fresh",
    "C23_ring_succeeds_with_solve",
    "C23_ring_keeps_geometry",
    "C23_trailing_horseshoes"
   ],
   "note": ""
  },
  {
   "property": "C24",
   "status": "proved",
   "theorems": [
    "C24_no_penetration",
    "C24_velocity"
   ],
   "note": "Needs delta_time <> 0: the model's reals give x/0 = 0 where NumPy gives nan. np.linalg.solve is an oracle with SolveSpec, met by gauss_solve."
  },
  {
   "property": "C25",
   "status": "proved",
   "theorems": [
    "C25_totals_of_own_panels",
    "C25_every_panel_once",
    "C25_processing_succeeds_iff",
    "C25_horseshoe_totals",
    "C25_ring_totals"
   ],
   "note": ""
  },
  {
   "property": "C26",
   "status": "proved",
   "theorems": [
    "C26_airplane_frames_and_coefficients",
    "C26_panel_frames_and_coefficients"
   ],
   "note": ""
  },
  {
   "property": "C27",
   "status": "proved",
   "theorems": [
    "C27_horseshoe_kutta_joukowski",
    "C27_ring_kutta_joukowski",
    "C27_horseshoe_no_circulation_no_load",
    "C27_ring_no_circulation_no_load"
   ],
   "note": ""
  },
  {
   "property": "C28",
   "status": "proved",
   "theorems": [
    "C28_horseshoe_speed_and_density",
    "C28_ring_speed_and_density"
   ],
   "note": ""
  },
  {
   "property": "C29",
   "status": "proved",
   "theorems": [
    "C29_horseshoe_mirrored",
    "C29_ring_mirrored",
    "C29_horseshoe_symmetric",
    "C29_ring_symmetric",
    "C29_symmetric_wing",
    "C29_fin",
    "C29_symmetric_airplane",
    "C29_symmetric_airplanes",
    "C29_opposed_wing",
    "C29_mirrored_airplane"
   ],
   "note": ""
  },
  {
   "property": "C30",
   "status": "partial",
   "theorems": [
    "C30_horseshoe_rerun",
    "C30_horseshoe_seeds_refuted",
    "C30_ring_rerun_refuted"
   ],
   "note": "Refuted as stated: the ring solver's second run gives other strengths and the horseshoe solver's seed points double. Proved: the horseshoe solver reproduces strengths, loads and velocities."
  },
  {
   "property": "C31",
   "status": "partial",
   "theorems": [
    "C31_shared_leg_in_both_panels",
    "C31_shared_leg_once_refuted"
   ],
   "note": "Refuted: the leg shared by spanwise neighbours is added to both panels, so the total counts it twice. Proved in general for watertight wings, with a solved witness where the leg's force is not zero."
  },
  {
   "property": "C32",
   "status": "proved",
   "theorems": [
    "C32_rejects",
    "C32_rules_hold",
    "C32_given_steps",
    "C32_static_steps",
    "C32_periodic_steps",
    "C32_time_step",
    "C32_accepts",
    "C32_accepts_iff"
   ],
   "note": "Over the reals; the least-number-of-steps statements assume a positive time step (and speed). Float rounding in ceil is outside the model."
  },
  {
   "property": "C33",
   "status": "proved",
   "theorems": [
    "C33_lengths",
    "C33_problem_created",
    "C33_problem_lines_up",
    "C33_wings_created_iff",
    "C33_airplanes_created_iff"
   ],
   "note": ""
  },
  {
   "property": "C34",
   "status": "proved",
   "theorems": [
    "C34_sine",
    "C34_uniform",
    "C34_custom",
    "C34_unit_waves",
    "C34_start_bound_repeat",
    "C34_created"
   ],
   "note": "scipy.signal.sawtooth is modelled by SciPy's formula; custom functions act elementwise."
  },
  {
   "property": "C35",
   "status": "proved",
   "theorems": [
    "C35_largest",
    "C35_defined_iff",
    "C35_zero_iff"
   ],
   "note": ""
  },
  {
   "property": "C36",
   "status": "partial",
   "theorems": [
    "C36_airplane_partial",
    "C36_wing_partial",
    "C36_operating_point_partial",
    "C36_wing_refuted",
    "C36_airplane_refuted",
    "C36_operating_point_refuted"
   ],
   "note": "Refuted as stated: unit normals and chordwise directions, airplane weight and reference dimensions, kinematic viscosity and external thrust are replaced by defaults (three witnesses). Proved: everything else is kept, and what the replaced attributes become."
  },
  {
   "property": "C37",
   "status": "partial",
   "theorems": [
    "C37_first_snapshot_iff",
    "C37_static_wing",
    "C37_swept_dihedral_refuted",
    "C37_port_wing_refuted"
   ],
   "note": "Refuted as stated (two witnesses). Proved: the exact condition under which the first snapshot has the base leading edges, and that an unmoving plain wing is reproduced at every step."
  },
  {
   "property": "C38",
   "status": "proved",
   "theorems": [
    "C38_window",
    "C38_some_step"
   ],
   "note": ""
  },
  {
   "property": "C39",
   "status": "proved",
   "theorems": [
    "C39_same_flow",
    "C39_loads_skipped",
    "C39_first_step_with_loads"
   ],
   "note": ""
  },
  {
   "property": "C40",
   "status": "proved",
   "theorems": [
    "C40_static",
    "C40_periodic"
   ],
   "note": ""
  },
  {
   "property": "C41",
   "status": "proved",
   "theorems": [
    "C41_sizes",
    "C41_arrays",
    "C41_filled",
    "C41_runs"
   ],
   "note": ""
  },
  {
   "property": "C42",
   "status": "proved",
   "theorems": [
    "C42_prescribed",
    "C42_one_step"
   ],
   "note": ""
  },
  {
   "property": "C43",
   "status": "proved",
   "theorems": [
    "C43_recorded",
    "C43_objects"
   ],
   "note": ""
  },
  {
   "property": "C44",
   "status": "partial",
   "theorems": [
    "C44_attached",
    "C44_attached_right",
    "C44_attached_right_refuted",
    "C44_continuous"
   ],
   "note": "Refuted where the mesh has a spanwise gap along the trailing edge (C44_attached_right_refuted): the first wake row takes the next panel's back left vertex, which is then not the panel's own back right vertex. Proved: left ends and the wing tip are always attached, right ends without such gaps, and neighbouring wake rings always share their vertices."
  },
  {
   "property": "C45",
   "status": "proved",
   "theorems": [
    "C45_kept",
    "C45_objects_shared",
    "C45_objects_kept_refuted"
   ],
   "note": "The recorded arrays and the earlier steps' problems never change. The ring vortex objects reachable from earlier steps' wings do change; that is C45_objects_kept_refuted and a finding in DESIGN.md."
  },
  {
   "property": "C46",
   "status": "proved",
   "theorems": [
    "C46_found",
    "C46_not_found",
    "C46_failed",
    "C46_answer_in_ranges",
    "C46_bad_solver_type",
    "C46_empty_ranges",
    "C46_zero_moments_refuted",
    "C46_zero_loads_refuted",
    "C46_answer_settled_refuted"
   ],
   "note": "Runs of the modelled solvers. Needs nonzero coefficients; what happens with zero ones is C46_zero_moments_refuted and C46_zero_loads_refuted. That the answer itself settled is not part of the property and false: C46_answer_settled_refuted."
  },
  {
   "property": "C47",
   "status": "proved",
   "theorems": [
    "C47_found",
    "C47_not_found",
    "C47_failed",
    "C47_answer_in_ranges"
   ],
   "note": "The average iteration times and progress messages are not modelled. In the unsteady search a NaN change is kept by np.max and never converges, which the comparison with strict inequalities expresses."
  },
  {
   "property": "C48",
   "status": "partial",
   "theorems": [
    "C48_steady_meshes",
    "C48_unsteady_meshes",
    "C48_counts",
    "C48_at_least_one_refuted",
    "C48_symmetric_needs_panels",
    "C48_vertical_strip_fails"
   ],
   "note": "Refuted as stated: a strip for which at most half a panel is wanted gets no panel (C48_at_least_one_refuted). Proved: the counts are the wanted ones up to rounding, when they are at least one, and that nothing else of the geometry changes except unit vectors and reference dimensions."
  },
  {
   "property": "C49",
   "status": "partial",
   "theorems": [
    "C49_found",
    "C49_not_found",
    "C49_failed",
    "C49_nans_or_point",
    "C49_balance",
    "C49_in_bounds",
    "C49_problem_after",
    "C49_operating_point_kept_refuted"
   ],
   "note": "The last part is refuted: the operating point passed in keeps the speed and angles tried last (C49_operating_point_kept_refuted). The rest is proved for every optimiser, modelled as a function of all values seen so far."
  },
  {
   "property": "C50",
   "status": "partial",
   "theorems": [
    "C50_refuted",
    "C50_never_trims"
   ],
   "note": "Refuted: every evaluation of the objective raises, an AttributeError when the unsteady run succeeds (C50_refuted). It returns only when no point is evaluated, and then NaNs (C50_never_trims)."
  },
  {
   "property": "C51",
   "status": "proved",
   "theorems": [
    "C51_accepted_names",
    "C51_rejected_names",
    "C51_levels_injective"
   ],
   "note": ""
  },
  {
   "property": "C52",
   "status": "proved",
   "theorems": [
    "C52_streamlines_rows",
    "C52_streamlines_advance",
    "C52_streamlines_independent",
    "C52_horseshoe_streamlines",
    "C52_ring_streamlines",
    "C52_unsteady_streamlines"
   ],
   "note": ""
  },
  {
   "property": "C53",
   "status": "proved",
   "theorems": [
    "C53_panel_surfaces",
    "C53_scalars",
    "C53_other_scalars",
    "C53_wake_surfaces",
    "C53_draw",
    "C53_draw_plain",
    "C53_no_streamlines",
    "C53_no_panels"
   ],
   "note": ""
  },
  {
   "property": "C54",
   "status": "proved",
   "theorems": [
    "C54_apparent",
    "C54_first_step",
    "C54_same_snapshots",
    "C54_snapshots",
    "C54_static",
    "C54_no_periods",
    "C54_still_wing",
    "C54_still_wing_legs",
    "C54_still_wing_legs_refuted"
   ],
   "note": "Needs delta_time <> 0. For identical airplanes in a changing wind the side legs of trailing edge panels do get an apparent velocity: C54_still_wing_legs_refuted, a finding in DESIGN.md."
  },
  {
   "property": "C55",
   "status": "partial",
   "theorems": [
    "C55_periodic",
    "C55_static",
    "C55_refuted"
   ],
   "note": "Refuted as stated: a static problem is an IndexError (C55_refuted, C55_static). Proved for periodic problems (C55_periodic)."
  },
  {
   "property": "C56",
   "status": "proved",
   "theorems": [
    "C56_geometry_kept",
    "C56_bound_rings"
   ],
   "note": ""
  },
  {
   "property": "C57",
   "status": "proved",
   "theorems": [
    "C57_explicit_cross",
    "C57_explicit_cross_short",
    "C57_kutta_joukowski",
    "C57_totals"
   ],
   "note": ""
  },
  {
   "property": "C58",
   "status": "proved",
   "theorems": [
    "C58_directions",
    "C58_directions_move_with_panel",
    "C58_average_dimensions",
    "C58_average_dimensions_rigid",
    "C58_average_bounds"
   ],
   "note": ""
  },
  {
   "property": "C59",
   "status": "partial",
   "theorems": [
    "C59_coloured",
    "C59_plain",
    "C59_only_final_results",
    "C59_refuted"
   ],
   "note": "Refuted as stated: coloured animations of a run with only_final_results are a TypeError (C59_refuted). Proved for all runs without colours and for coloured runs that have all loads."
  },
  {
   "property": "C60",
   "status": "partial",
   "theorems": [
    "C60_playback",
    "C60_refuted"
   ],
   "note": "Refuted as stated: the rate is rounded down and may be zero (C60_refuted). C60_playback says exactly when the label is right."
  },
  {
   "property": "C61",
   "status": "proved",
   "theorems": [
    "C61_plots",
    "C61_no_window"
   ],
   "note": ""
  },
  {
   "property": "C62",
   "status": "partial",
   "theorems": [
    "C62_horseshoe",
    "C62_ring",
    "C62_not_solved",
    "C62_horseshoe_signs",
    "C62_ring_signs",
    "C62_same_sign_refuted"
   ],
   "note": "The printed values are proved for both solvers; that force and coefficient share their sign is refuted (C62_same_sign_refuted), and C62_*_signs give the sign each has."
  },
  {
   "property": "C63",
   "status": "proved",
   "theorems": [
    "C63_horseshoe_reordered",
    "C63_ring_reordered",
    "C63_exchanges"
   ],
   "note": ""
  },
  {
   "property": "C64",
   "status": "proved",
   "theorems": [
    "C64_horseshoe_moved",
    "C64_ring_moved",
    "C64_no_turn",
    "C64_pitch",
    "C64_any_turn",
    "C64_other_reference",
    "C64_wing_elsewhere",
    "C64_airplane_elsewhere"
   ],
   "note": ""
  },
  {
   "property": "C65",
   "status": "partial",
   "theorems": [
    "C65_run_image",
    "C65_finished_image",
    "C65_elsewhere",
    "C65_elsewhere_exists",
    "C65_elsewhere_run",
    "C65_own_image",
    "C65_symmetric_flight",
    "C65_symmetric_finals",
    "C65_flap_refuted"
   ],
   "note": "Refuted for symmetric wings with control surfaces deflected on part of the span only: the wake they shed is not symmetric (C65_flap_refuted). Proved: the image theorems in full, and symmetric flight for wings whose sections are deflected alike."
  },
  {
   "property": "C66",
   "status": "proved",
   "theorems": [
    "C66_horseshoe",
    "C66_ring",
    "C66_unsteady",
    "C66_any_speed",
    "C66_any_wake",
    "C66_wing_twice_fails",
    "C66_same_place",
    "C66_same_place_once",
    "C66_folded",
    "C66_folded_once",
    "C66_own_mirror_image",
    "C66_symmetric_fin_fails",
    "C66_symmetric_fin_fails_once"
   ],
   "note": ""
  },
  {
   "property": "C67",
   "status": "partial",
   "theorems": [
    "C67_horseshoe",
    "C67_ring",
    "C67_larger",
    "C67_wing",
    "C67_airplane",
    "C67_any_size_refuted",
    "C67_too_small_fails",
    "C67_small_panel",
    "C67_unsteady_finished",
    "C67_unsteady_steps",
    "C67_unsteady_larger",
    "C67_movement",
    "C67_viscosity_refuted",
    "C67_unsteady_run"
   ],
   "note": "Refuted without a condition on the cut-offs of the Biot-Savart law (C67_any_size_refuted, C67_too_small_fails). Proved for both steady solvers whenever the same vortices are cut off at both sizes, which every larger copy of an uncut case meets (C67_larger). Unsteady simulations: proved under the same condition for every step and for the final results (C67_unsteady_finished, C67_unsteady_steps, C67_unsteady_run); movements drop the viscosity, so it has to be assigned to the steps (C67_viscosity_refuted). Streamlines of the solvers use an absolute time step and are not compared."
  },
  {
   "property": "C68",
   "status": "proved",
   "theorems": [
    "C68_finished",
    "C68_steps",
    "C68_movement",
    "C68_viscosity_refuted",
    "C68_density"
   ],
   "note": "At movement level the viscosity must be assigned to the steps (C68_movement), because movements drop it (C68_viscosity_refuted). Streamlines use an absolute step of 0.02 s and are not part of the claim."
  },
  {
   "property": "C69",
   "status": "partial",
   "theorems": [
    "C69_again",
    "C69_stale",
    "C69_printed",
    "C69_entries",
    "C69_final_refuted"
   ],
   "note": "Refuted for the final loads: they are appended to those of earlier runs (C69_final_refuted, C69_entries), so the entries of the first run stay in place and are what is printed (C69_stale, C69_printed). Everything else of a run is that of a first run, errors included (C69_again). Earlier runs that stopped with an exception are not part of the history."
  },
  {
   "property": "C70",
   "status": "partial",
   "theorems": [
    "C70_nearest",
    "C70_cycles",
    "C70_chords",
    "C70_periodic_movement",
    "C70_static_movement",
    "C70_exact",
    "C70_divided",
    "C70_divided_refuted",
    "C70_cycles_refuted",
    "C70_window",
    "C70_divided_window",
    "C70_frames",
    "C70_frames_refuted"
   ],
   "note": "Refuted as equality: three cycles of a period of 0.1 s in steps of 0.1 / 30 s give 91 steps (C70_divided_refuted, C70_cycles_refuted), and a time step of 0.0105 s gives 49 instead of 50 frames per second (C70_frames_refuted). Proved: the counts are within one of the exact ones and differ only where the exact quotient is within one part in 2^51 of a whole number (C70_cycles, C70_chords, C70_window, C70_frames), are equal when product and quotient are doubles (C70_exact), and are c*n or c*n+1 for a period divided into n steps (C70_divided). Overflow and NaN are outside the model of doubles."
  },
  {
   "property": "C71",
   "status": "partial",
   "theorems": [
    "C71_amounts",
    "C71_standing",
    "C71_shown",
    "C71_bad_level",
    "C71_full_only_at_the_end_refuted"
   ],
   "note": "Refuted: the bar is full before the last step begins (C71_full_only_at_the_end_refuted), because after each step it is advanced by the cost of the next one. Proved: the amounts, their order, that the bar never goes back, never passes its total and ends there (C71_amounts, C71_standing), when it is shown (C71_shown) and which levels are rejected (C71_bad_level). The drawing by tqdm is not modelled; the sums of whole numbers are exact below 2^53."
  },
  {
   "property": "C72",
   "status": "partial",
   "theorems": [
    "C72_horseshoe",
    "C72_ring",
    "C72_unsteady",
    "C72_nearby",
    "C72_ring_vortex",
    "C72_first_step",
    "C72_horseshoe_curl",
    "C72_ring_curl",
    "C72_irrotational_refuted",
    "C72_ring_irrotational_refuted"
   ],
   "note": "Incompressible: proved for all three solvers. Irrotational: refuted for the two steady solvers (C72_irrotational_refuted, C72_ring_irrotational_refuted), whose horseshoe vortices end twenty spans behind the wing; C72_horseshoe_curl and C72_ring_curl give the curl, which comes from those ends alone. Proved for a ring vortex without a core and for the first step of an unsteady run (C72_ring_vortex, C72_first_step). Later steps have a wake with cores, inside which the flow is meant to spin; their curl is not computed."
  },
  {
   "property": "C73",
   "status": "proved",
   "theorems": [
    "C73_segment",
    "C73_horseshoe",
    "C73_ring",
    "C73_unsteady"
   ],
   "note": ""
  },
  {
   "property": "C74",
   "status": "proved",
   "theorems": [
    "C74_wing",
    "C74_dimensions",
    "C74_airplane",
    "C74_horseshoe",
    "C74_ring",
    "C74_movement",
    "C74_run",
    "C74_finished"
   ],
   "note": ""
  },
  {
   "property": "C75",
   "status": "proved",
   "theorems": [
    "C75_causal",
    "C75_failure",
    "C75_movement",
    "C75_longer"
   ],
   "note": ""
  },
  {
   "property": "C76",
   "status": "proved",
   "theorems": [
    "C76_horseshoe",
    "C76_horseshoe_failure",
    "C76_ring",
    "C76_ring_failure",
    "C76_new_airplanes",
    "C76_unsteady",
    "C76_unsteady_failure",
    "C76_movement",
    "C76_final"
   ],
   "note": ""
  },
  {
   "property": "C77",
   "status": "proved",
   "theorems": [
    "C77_horseshoe",
    "C77_horseshoe_unloaded",
    "C77_ring",
    "C77_ring_unloaded",
    "C77_unsteady",
    "C77_unsteady_wake",
    "C77_unsteady_flow",
    "C77_unsteady_unloaded",
    "C77_unsteady_final",
    "C77_unsteady_streamlines",
    "C77_any_wake_steps",
    "C77_any_wake"
   ],
   "note": ""
  },
  {
   "property": "C78",
   "status": "partial",
   "theorems": [
    "C78_file_read",
    "C78_every_list_can_be_written",
    "C78_first_line_ignored",
    "C78_missing_file",
    "C78_odd_file",
    "C78_nothing_invented",
    "C78_reading_ends",
    "C78_words_end_the_file",
    "C78_one_line",
    "C78_capitals",
    "C78_every_file_refuted"
   ],
   "note": "How a file is read is proved for every text. That every file that comes with the program can be loaded is refuted (C78_every_file_refuted): three of them are in the model, the others are listed in DESIGN.md."
  },
  {
   "property": "C79",
   "status": "partial",
   "theorems": [
    "C79_horseshoe",
    "C79_ring",
    "C79_edge_refuted",
    "C79_section",
    "C79_wing",
    "C79_airplane"
   ],
   "note": "Proved for both steady solvers unless a point the solver uses lies exactly on the edge of where a vortex is cut off (C79_horseshoe, C79_ring); refuted there (C79_edge_refuted). The constructors are continuous in positions, chords, twists and reference values (C79_section, C79_wing, C79_airplane). Streamlines are not compared: they may run through such edges."
  },
  {
   "property": "C80",
   "status": "proved",
   "theorems": [
    "C80_snapshots",
    "C80_problems",
    "C80_averaged",
    "C80_whole_cycles"
   ],
   "note": ""
  },
  {
   "property": "C81",
   "status": "proved",
   "theorems": [
    "C81_horseshoe",
    "C81_ring"
   ],
   "note": ""
  },
  {
   "property": "C82",
   "status": "proved",
   "theorems": [
    "C82_horseshoe",
    "C82_ring",
    "C82_unsteady",
    "C82_unsteady_failure",
    "C82_movement"
   ],
   "note": ""
  },
  {
   "property": "C83",
   "status": "proved",
   "theorems": [
    "C83_after",
    "C83_finished"
   ],
   "note": ""
  },
  {
   "property": "C84",
   "status": "partial",
   "theorems": [
    "C84_movement",
    "C84_clock",
    "C84_same_times",
    "C84_flight",
    "C84_default_step",
    "C84_default_flight",
    "C84_vertical_refuted"
   ],
   "note": "Proved where no section is at the y of the section inboard of it (C84_movement, C84_flight); refuted there (C84_vertical_refuted): a tip that leans inwards however little jumps from above the root to below it. Periods and the time step may change as long as rounding gives the same number of steps and averaging window (C84_clock, C84_same_times; otherwise C70)."
  },
  {
   "property": "C85",
   "status": "proved",
   "theorems": [
    "C85_first_step",
    "C85_streamlines"
   ],
   "note": ""
  },
  {
   "property": "C86",
   "status": "partial",
   "theorems": [
    "C86_new_wing",
    "C86_without_vortices_only",
    "C86_error",
    "C86_horseshoe_fails",
    "C86_ring_fails",
    "C86_unsteady_fails",
    "C86_velocity_refuted"
   ],
   "note": "Holds of panels without vortices (C86_new_wing); refuted for every solved panel (C86_velocity_refuted, C86_horseshoe_fails, C86_ring_fails, C86_unsteady_fails): the vortex classes lack the methods it calls."
  },
  {
   "property": "C87",
   "status": "proved",
   "theorems": [
    "C87_horseshoe",
    "C87_ring",
    "C87_unsteady_steps",
    "C87_unsteady",
    "C87_steady_convergence",
    "C87_unsteady_convergence",
    "C87_steady_trim"
   ],
   "note": ""
  },
  {
   "property": "C88",
   "status": "proved",
   "theorems": [
    "C88_range",
    "C88_force_coefficients",
    "C88_moment_coefficients"
   ],
   "note": ""
  },
  {
   "property": "C89",
   "status": "partial",
   "theorems": [
    "C89_made",
    "C89_uncambered",
    "C89_cambered_refuted",
    "C89_repanelled_refuted"
   ],
   "note": "Proved for every airfoil without camber, and in general exactly if the nose is the foremost point (C89_made). Refuted for the NACA 2412, which cannot be made without repanelling (C89_cambered_refuted) and is fitted to the wrong points with it (C89_repanelled_refuted)."
  }
 ]
}