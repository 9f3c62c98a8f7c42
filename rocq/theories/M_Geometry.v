(** Model of classes Wing and Airplane in pterasoftware/geometry.py. *)
From Verif Require Export M_Meshing.

(** geometry.py:256-344: attributes of a Wing.  The wake attributes are changed
    only by the unsteady solver.  [w_wake_rings] holds references to RingVortex
    objects, which successive time steps share: numbers of entries of the unsteady
    solver's heap (M_Unsteady.v). *)
Record wing : Type := mkwing {
  w_sections : list section;
  w_name : string;
  w_x_le : R; w_y_le : R; w_z_le : R;
  w_unit_normal : vec;
  w_symmetric : bool;
  w_unit_chordwise : vec;
  w_num_chordwise_panels : nat;
  w_chordwise_spacing : string;
  w_num_spanwise_panels : nat;
  w_num_panels : nat;
  w_panels : list (list panel);
  w_wake_vertices : list (list vec);
  w_wake_rings : list (list nat)
}.
(** geometry.py:273 *)
Definition w_leading_edge (w : wing) : vec := mkvec (w_x_le w) (w_y_le w) (w_z_le w).

(** geometry.py:306-310 *)
Definition count_spanwise (sections : list section) (symmetric : bool) : nat :=
  let n := fold_left (fun n s => n + cs_num_spanwise_panels s)%nat (removelast sections) 0%nat in
  if symmetric then (n * 2)%nat else n.

(** geometry.py:187-344 [Wing.__init__]. *)
Definition new_wing (sections : list section) (name : string) (x_le y_le z_le : R) (unit_normal : vec)
           (symmetric : bool) (unit_chordwise : vec) (num_chordwise_panels : nat)
           (chordwise_spacing : string) : result wing :=
  let* _ := check (Nat.leb 2 (length sections)) ETooFewSections in
  let* _ := check (String.eqb chordwise_spacing "cosine" || String.eqb chordwise_spacing "uniform")
                  EBadChordwiseSpacing in
  let* root := index sections 0 in
  let* _ := check (veqb unit_normal (cs_unit_normal root)) ERootNormalMismatch in
  let* _ := check (veqb (cs_leading_edge root) vzero) ERootLeadingEdgeNotZero in
  let* _ := check (Reqb (vdot unit_chordwise unit_normal) 0) EChordwiseNotPerpendicular in
  let num_spanwise := count_spanwise sections symmetric in
  let* _ := check (forallb (fun s => veqb (vcross (vcross unit_normal (cs_unit_normal s)) unit_chordwise) vzero)
                           sections) ESectionPlane in
  let num_panels := (num_spanwise * num_chordwise_panels)%nat in
  let sections := map (cs_set_wing_chordwise unit_chordwise) sections in
  let spec := mkmesh (mkvec x_le y_le z_le) unit_normal symmetric num_chordwise_panels chordwise_spacing in
  let* panels := mesh_wing spec num_spanwise sections in
  Ok (mkwing sections name x_le y_le z_le unit_normal symmetric unit_chordwise num_chordwise_panels
             chordwise_spacing num_spanwise num_panels panels [] []).

(** geometry.py:346-355 *)
Definition w_unit_up (w : wing) : vec := vcross (w_unit_chordwise w) (w_unit_normal w).
(** geometry.py:357-378 *)
Definition w_projected_area (w : wing) : R :=
  rsum (map (fun p => p_projected_area p (w_unit_up w)) (ravel (w_panels w))).
(** geometry.py:380-398 *)
Definition w_wetted_area (w : wing) : R := rsum (map p_area (ravel (w_panels w))).

(** geometry.py:413-416 *)
Definition nth_leading_edge (l : list section) (i : nat) : vec :=
  match nth_error l i with Some s => cs_leading_edge s | None => vzero end.
(** geometry.py:400-429 *)
Definition w_span (w : wing) : R :=
  let l := w_sections w in
  let d := vsub (nth_leading_edge l (length l - 1)) (nth_leading_edge l 0) in
  let span := vnorm (vscale (vdot d (w_unit_normal w)) (w_unit_normal w)) in
  if w_symmetric w then span * 2 else span.
(** geometry.py:431-441 *)
Definition w_standard_mean_chord (w : wing) : R := w_projected_area w / w_span w.

(** geometry.py:467-491: one section's contribution. *)
Definition mac_term (n : vec) (inner outer : section) : R :=
  let root_chord := cs_chord inner in
  let tip_chord := cs_chord outer in
  let d := vsub (cs_leading_edge outer) (cs_leading_edge inner) in
  let section_span := vnorm (vscale (vdot d n) n) in
  section_span * (root_chord ^ 2 + root_chord * tip_chord + tip_chord ^ 2) / 3.
(** geometry.py:443-496 *)
Definition w_mean_aerodynamic_chord (w : wing) : R :=
  let l := w_sections w in
  let integral := rsum (map2 (mac_term (w_unit_normal w)) l (tl l)) in
  if w_symmetric w then 2 * integral / w_projected_area w else integral / w_projected_area w.

(** geometry.py:96-127: attributes of an Airplane. *)
Record airplane : Type := mkairplane {
  a_wings : list wing;
  a_name : string;
  a_x_ref : R; a_y_ref : R; a_z_ref : R;
  a_weight : R;
  a_s_ref : R; a_c_ref : R; a_b_ref : R;
  a_num_panels : nat;
  a_force_wind : option vec;
  a_force_coefficients : option vec;
  a_moment_wind : option vec;
  a_moment_coefficients : option vec
}.
(** geometry.py:103 *)
Definition a_xyz_ref (a : airplane) : vec := mkvec (a_x_ref a) (a_y_ref a) (a_z_ref a).

(** A reference dimension that is None is replaced (geometry.py:129-147). *)
Definition override (o : option R) (d : R) : R := match o with Some x => x | None => d end.
(** geometry.py:48-147 [Airplane.__init__] *)
Definition new_airplane (wings : list wing) (name : string) (x_ref y_ref z_ref weight : R)
           (s_ref c_ref b_ref : option R) : result airplane :=
  match wings with
  | [] => Err ENoWings
  | main_wing :: _ =>
      Ok (mkairplane wings name x_ref y_ref z_ref weight
            (override s_ref (w_projected_area main_wing))
            (override c_ref (w_mean_aerodynamic_chord main_wing))
            (override b_ref (w_span main_wing))
            (fold_left (fun n w => n + w_num_panels w)%nat wings 0%nat)
            None None None None)
  end.

(** Attribute updates used by the solvers.  (meshing.py:33-287) *)
Definition w_set_panels (m : list (list panel)) (w : wing) : wing :=
  mkwing (w_sections w) (w_name w) (w_x_le w) (w_y_le w) (w_z_le w) (w_unit_normal w) (w_symmetric w)
         (w_unit_chordwise w) (w_num_chordwise_panels w) (w_chordwise_spacing w)
         (w_num_spanwise_panels w) (w_num_panels w) m (w_wake_vertices w) (w_wake_rings w).
(** Assignment to the wings' panels (steady_horseshoe_vortex_lattice_method.py:185-191). *)
Definition a_set_wings (ws : list wing) (a : airplane) : airplane :=
  mkairplane ws (a_name a) (a_x_ref a) (a_y_ref a) (a_z_ref a) (a_weight a) (a_s_ref a) (a_c_ref a)
             (a_b_ref a) (a_num_panels a) (a_force_wind a) (a_force_coefficients a)
             (a_moment_wind a) (a_moment_coefficients a).
(** functions.py:336-341 and 383-396 *)
Definition a_set_loads (f cf m cm : vec) (a : airplane) : airplane :=
  mkairplane (a_wings a) (a_name a) (a_x_ref a) (a_y_ref a) (a_z_ref a) (a_weight a) (a_s_ref a) (a_c_ref a)
             (a_b_ref a) (a_num_panels a) (Some f) (Some cf) (Some m) (Some cm).
