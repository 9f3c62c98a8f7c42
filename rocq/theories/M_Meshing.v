(** Model of class WingCrossSection (pterasoftware/geometry.py) and of
    pterasoftware/meshing.py. *)
From Verif Require Export M_Airfoil M_Panel.

(** geometry.py:586-604: attributes of a WingCrossSection.
    [cs_wing_unit_chordwise] is assigned by the Wing (geometry.py:333-334). *)
Record section : Type := mksection {
  cs_airfoil : airfoil;
  cs_x_le : R; cs_y_le : R; cs_z_le : R;
  cs_chord : R;
  cs_unit_normal : vec;
  cs_twist : R;
  cs_control_surface_type : string;
  cs_control_surface_hinge_point : R;
  cs_control_surface_deflection : R;
  cs_num_spanwise_panels : nat;
  cs_spanwise_spacing : string;
  cs_wing_unit_chordwise : option vec
}.
(** geometry.py:600 *)
Definition cs_leading_edge (s : section) : vec := mkvec (cs_x_le s) (cs_y_le s) (cs_z_le s).

(** geometry.py:524-622 [WingCrossSection.__init__]. *)
Definition new_section (a : airfoil) (x_le y_le z_le chord : R) (unit_normal : vec) (twist : R)
           (control_surface_type : string) (hinge_point deflection : R)
           (num_spanwise_panels : nat) (spanwise_spacing : string) : result section :=
  let s := mksection a x_le y_le z_le chord unit_normal twist control_surface_type
                     hinge_point deflection num_spanwise_panels spanwise_spacing None in
  let* _ := check (negb (Rleb chord 0)) EBadChord in
  let* _ := check (String.eqb control_surface_type "symmetric" || String.eqb control_surface_type "asymmetric")
                  EBadControlSurfaceType in
  let* _ := check (String.eqb spanwise_spacing "cosine" || String.eqb spanwise_spacing "uniform")
                  EBadSpanwiseSpacing in
  Ok s.
(** geometry.py:333-334 *)
Definition cs_set_wing_chordwise (v : vec) (s : section) : section :=
  mksection (cs_airfoil s) (cs_x_le s) (cs_y_le s) (cs_z_le s) (cs_chord s) (cs_unit_normal s)
            (cs_twist s) (cs_control_surface_type s) (cs_control_surface_hinge_point s)
            (cs_control_surface_deflection s) (cs_num_spanwise_panels s) (cs_spanwise_spacing s) (Some v).

(** geometry.py:624-644; before the section belongs to a wing the attribute is
    None and [matrix @ None] raises TypeError. *)
Definition cs_unit_chordwise (s : section) : result vec :=
  match cs_wing_unit_chordwise s with
  | None => Err ETypeError
  | Some v => Ok (mvmul (angle_axis_rotation_matrix (cs_twist s * PI / 180) (cs_unit_normal s) false) v)
  end.
(** geometry.py:646-654 *)
Definition cs_unit_up (s : section) : result vec :=
  let* c := cs_unit_chordwise s in Ok (vcross c (cs_unit_normal s)).
(** geometry.py:656-667 *)
Definition cs_trailing_edge (s : section) : result vec :=
  let* c := cs_unit_chordwise s in Ok (vadd (cs_leading_edge s) (vscale (cs_chord s) c)).

(** meshing.py:47-54 *)
Definition spaced (spacing : string) (n : nat) : list R :=
  if String.eqb spacing "uniform" then linspace 0 1 n else cosspace 0 1 n true.

(** meshing.py:333-379: the section's camber points in geometry axes, from the
    downsampled camber line ([back, up] pairs of get_transpose_mcl_vectors,
    meshing.py:404-450). *)
Definition section_mcl (wing_leading_edge : vec) (s : section) (mcl : list (R * R)) : result (list vec) :=
  let* chordwise := cs_unit_chordwise s in
  let* up := cs_unit_up s in
  Ok (map (fun p =>
             vadd (vadd (vadd wing_leading_edge (cs_leading_edge s))
                        (vscale (cs_chord s * fst p) chordwise))
                  (vscale (cs_chord s * snd p) up)) mcl).

(** Rows/columns [:-1] and [1:] of an array.  (meshing.py:391-394) *)
Definition but_last {A} (l : list A) : list A := removelast l.

(** The four vertex arrays of a wing section.  (meshing.py:391-401) *)
Record vertices : Type := mkvertices {
  v_front_inner : list (list vec);
  v_front_outer : list (list vec);
  v_back_inner : list (list vec);
  v_back_outer : list (list vec)
}.
(** meshing.py:391-394 *)
Definition split_vertices (grid : list (list vec)) : vertices :=
  mkvertices (map but_last (but_last grid)) (map (@tl _) (but_last grid))
             (map but_last (tl grid)) (map (@tl _) (tl grid)).
(** meshing.py:290-401 [get_wing_section_panel_vertices] *)
Definition section_vertices (wing_leading_edge : vec) (inner outer : section)
           (inner_mcl outer_mcl : list (R * R)) (spanwise_coordinates : list R) : result vertices :=
  let* inner_points := section_mcl wing_leading_edge inner inner_mcl in
  let* outer_points := section_mcl wing_leading_edge outer outer_mcl in
  Ok (split_vertices (interp_between_points inner_points outer_points spanwise_coordinates)).

(** meshing.py:122-137: row [i] of an n-row section is a trailing edge row iff it
    is the last and a leading edge row iff it is the first.
    meshing.py:453-519 [get_wing_section_panels]. *)
Definition section_panels (fl fr bl br : list (list vec)) : list (list panel) :=
  let n := length fl in
  mapi (fun i rows =>
          let '(rfl, rfr, rbl, rbr) := rows in
          map (fun v => let '(pfl, pfr, pbl, pbr) := v in
                        new_panel pfr pfl pbl pbr (Nat.eqb i 0) (Nat.eqb (S i) n))
              (combine (combine (combine rfl rfr) rbl) rbr))
       (combine (combine (combine fl fr) bl) br).

(** meshing.py:79-92 (and 158-187): flap both airfoils with the INNER section's
    deflection and hinge point, then resample their camber lines. *)
Definition flapped_camber (chordwise_coordinates : list R) (inner outer : section) (deflection : R)
  : result (list (R * R) * list (R * R)) :=
  let* inner_airfoil := add_control_surface (cs_airfoil inner) deflection
                          (cs_control_surface_hinge_point inner) in
  let* outer_airfoil := add_control_surface (cs_airfoil outer) deflection
                          (cs_control_surface_hinge_point inner) in
  let* inner_mcl := get_downsampled_mcl chordwise_coordinates (af_mcl_coordinates inner_airfoil) in
  let* outer_mcl := get_downsampled_mcl chordwise_coordinates (af_mcl_coordinates outer_airfoil) in
  Ok (inner_mcl, outer_mcl).

(** What mesh_wing reads from the wing.  (meshing.py:44-62) *)
Record mesh_spec : Type := mkmesh {
  ms_leading_edge : vec;
  ms_unit_normal : vec;
  ms_symmetric : bool;
  ms_num_chordwise : nat;
  ms_chordwise_spacing : string
}.

(** meshing.py:65-151: one wing section's panels.  With no chordwise panels
    [np.zeros((-1, n))] raises ValueError (meshing.py:124). *)
Definition right_section (w : mesh_spec) (inner outer : section) : result (list (list panel)) :=
  let chordwise_coordinates := spaced (ms_chordwise_spacing w) (S (ms_num_chordwise w)) in
  let spanwise_coordinates := spaced (cs_spanwise_spacing inner) (S (cs_num_spanwise_panels inner)) in
  let* mcls := flapped_camber chordwise_coordinates inner outer (cs_control_surface_deflection inner) in
  let* v := section_vertices (ms_leading_edge w) inner outer (fst mcls) (snd mcls) spanwise_coordinates in
  let* _ := check (Nat.leb 1 (ms_num_chordwise w)) EValueError in
  Ok (section_panels (v_front_inner v) (v_front_outer v) (v_back_inner v) (v_back_outer v)).

(** meshing.py:230-257 *)
Definition reflect_grid (w : mesh_spec) (g : list (list vec)) : list (list vec) :=
  map (map (fun p => reflect_point_across_plane p (ms_unit_normal w) (ms_leading_edge w))) g.

(** meshing.py:154-269: the reflected section of a symmetric wing, already
    flipped left to right ([np.flip(..., axis=1)]).  With no spanwise panels
    np.apply_along_axis raises ValueError (meshing.py:228). *)
Definition left_section (w : mesh_spec) (inner outer : section) : result (list (list panel)) :=
  let chordwise_coordinates := spaced (ms_chordwise_spacing w) (S (ms_num_chordwise w)) in
  let spanwise_coordinates := spaced (cs_spanwise_spacing inner) (S (cs_num_spanwise_panels inner)) in
  let deflection := if String.eqb (cs_control_surface_type inner) "symmetric"
                    then cs_control_surface_deflection inner
                    else - cs_control_surface_deflection inner in
  let* mcls := flapped_camber chordwise_coordinates inner outer deflection in
  let* v := section_vertices (ms_leading_edge w) inner outer (fst mcls) (snd mcls) spanwise_coordinates in
  let* _ := check (Nat.leb 1 (cs_num_spanwise_panels inner)) EValueError in
  Ok (map (@rev _)
          (section_panels (reflect_grid w (v_front_outer v)) (reflect_grid w (v_front_inner v))
                          (reflect_grid w (v_back_outer v)) (reflect_grid w (v_back_inner v)))).

(** meshing.py:65-269: the loop over wing sections; [acc] is [wing_panels]. *)
Fixpoint mesh_sections (w : mesh_spec) (sections : list section) (acc : list (list panel))
  : result (list (list panel)) :=
  match sections with
  | inner :: ((outer :: _) as tail) =>
      let* right_panels := right_section w inner outer in
      let acc := hstack acc right_panels in
      let* acc := if ms_symmetric w
                  then let* left_panels := left_section w inner outer in Ok (hstack left_panels acc)
                  else Ok acc in
      mesh_sections w tail acc
  | _ => Ok acc
  end.

(** meshing.py:272-284 *)
Definition set_positions (num_spanwise : nat) (m : list (list panel)) : list (list panel) :=
  mapi (fun c row => mapi (fun s p => p_set_position (Nat.eqb (S s) num_spanwise) (Nat.eqb s 0) c s p) row) m.

(** meshing.py:33-287 [mesh_wing].  [num_spanwise] is the wing's attribute. *)
Definition mesh_wing (w : mesh_spec) (num_spanwise : nat) (sections : list section)
  : result (list (list panel)) :=
  let* m := mesh_sections w sections (repeat [] (ms_num_chordwise w)) in
  Ok (set_positions num_spanwise m).
