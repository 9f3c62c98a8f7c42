{
 "o04": [
  "C02_freestream_direction"
 ],
 "p06": [
  "C58_average_dimensions"
 ],
 "p08": [
  "C58_directions"
 ],
 "a07": [
  "C21_chordwise_legs_at_points"
 ],
 "g03": [
  "C14_trailing_edge"
 ],
 "g22": [
  "C14_wetted_area"
 ],
 "r07": [
  "C23_trailing_horseshoes"
 ],
 "u04": [
  "C57_kutta_joukowski"
 ],
 "u05": [
  "C57_kutta_joukowski"
 ],
 "u26": [
  "C57_kutta_joukowski",
  "C57_totals"
 ],
 "u27": [
  "C57_kutta_joukowski"
 ],
 "n11": [
  "C16_camber_line_of_contour"
 ],
 "n12": [
  "C16_repanelled_contour"
 ],
 "n13": [
  "C16_given_contour_kept",
  "C16_repanelled_contour"
 ],
 "l08": [
  "C52_horseshoe_streamlines",
  "C52_ring_streamlines",
  "C52_unsteady_streamlines"
 ],
 "k33": [
  "C48_unsteady_meshes"
 ],
 "z23": [
  "C20_core"
 ],
 "z30": [
  "C14_axes"
 ],
 "b01": [
  "C20_core"
 ],
 "b06": [
  "C15_four_digit_names",
  "C15_other_names"
 ],
 "b17": [
  "C15_other_names"
 ],
 "b13": [
  "C16_accepted",
  "C16_one_sided"
 ],
 "b07": [
  "C15_four_digit_names",
  "C15_other_names"
 ],
 "b09": [
  "C15_four_digit_names",
  "C15_other_names"
 ],
 "b70": [
  "C02_default_flow"
 ],
 "d18": [
  "C86_new_wing",
  "C86_without_vortices_only"
 ]
}