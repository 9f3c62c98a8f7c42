(** Property theorems C08 - C14 (wings, meshes and airplanes;
    pterasoftware/geometry.py and pterasoftware/meshing.py). *)
From Coq Require Import Lra Lia.
From Verif Require Import M_Geometry M_Loads S_Geometry S_Loads S_Wing
  L_Base L_Loads L_Meshing L_Geometry L_Example L_Example2 L_Gaps L_Chord.

(** ** C08  WingCrossSection validation.  [section_rules] lists each condition
    with its exception in the order of checking; [first_violated] picks the
    first condition that fails. *)
Theorem C08_created_iff : forall a x y z chord n twist ct hinge deflection ns sp,
  (exists s, new_section a x y z chord n twist ct hinge deflection ns sp = Ok s) <->
  all_hold (section_rules chord ct sp).
Proof. exact section_created_iff. Qed.
Print Assumptions C08_created_iff.

Theorem C08_first_violated_rule : forall a x y z chord n twist ct hinge deflection ns sp e,
  new_section a x y z chord n twist ct hinge deflection ns sp = Err e <->
  first_violated (section_rules chord ct sp) e.
Proof. exact section_error_iff. Qed.
Print Assumptions C08_first_violated_rule.

Theorem C08_attributes_kept : forall a x y z chord n twist ct hinge deflection ns sp s,
  new_section a x y z chord n twist ct hinge deflection ns sp = Ok s ->
  cs_airfoil s = a /\ cs_leading_edge s = mkvec x y z /\ cs_chord s = chord /\ cs_unit_normal s = n /\ cs_twist s = twist /\
  cs_control_surface_type s = ct /\ cs_control_surface_hinge_point s = hinge /\ cs_control_surface_deflection s = deflection /\
  cs_num_spanwise_panels s = ns /\ cs_spanwise_spacing s = sp.
Proof. exact section_attributes. Qed.
Print Assumptions C08_attributes_kept.

Example C08_both_outcomes : all_hold (section_rules 4 "symmetric" "uniform") /\
  first_violated (section_rules 4 "none" "none") EBadControlSurfaceType.
Proof.
  split.
  - intros P e H. repeat (destruct H as [[= <- <-]|H]; [first [lra | cbn; tauto]|]). destruct H.
  - exists [(0 < 4, EBadChord)], (In "none" ["symmetric"; "asymmetric"])%string. eexists. split; [reflexivity|]. split.
    + intros P e [[= <- <-]|[]]. lra.
    + intros [H|[H|[]]]; discriminate H.
Qed.

(** ** C09  Wing validation.  [meshable] is what meshing needs in addition: at
    least one chordwise panel, airfoils that take the inboard section's control
    surface, and spanwise panels for the reflected half. *)
Theorem C09_created_iff : forall sections name x y z n symmetric c num_chordwise spacing,
  n <> vzero ->
  ((exists w, new_wing sections name x y z n symmetric c num_chordwise spacing = Ok w) <->
   all_hold (wing_rules sections spacing n c) /\ meshable sections symmetric num_chordwise).
Proof. exact wing_created_iff. Qed.
Print Assumptions C09_created_iff.

Theorem C09_first_violated_rule : forall sections name x y z n symmetric c num_chordwise spacing e,
  n <> vzero -> first_violated (wing_rules sections spacing n c) e ->
  new_wing sections name x y z n symmetric c num_chordwise spacing = Err e.
Proof. exact wing_rule_error. Qed.
Print Assumptions C09_first_violated_rule.

Theorem C09_attributes_and_counts : forall sections name x y z n symmetric c num_chordwise spacing w,
  new_wing sections name x y z n symmetric c num_chordwise spacing = Ok w ->
  w_name w = name /\ w_leading_edge w = mkvec x y z /\ w_unit_normal w = n /\ w_symmetric w = symmetric /\
  w_unit_chordwise w = c /\ w_num_chordwise_panels w = num_chordwise /\ w_chordwise_spacing w = spacing /\
  w_sections w = map (cs_set_wing_chordwise c) sections /\
  w_num_spanwise_panels w =
    ((if symmetric then 2 else 1) * list_sum (map cs_num_spanwise_panels (removelast sections)))%nat /\
  w_num_panels w = (w_num_spanwise_panels w * num_chordwise)%nat.
Proof. exact wing_attributes. Qed.
Print Assumptions C09_attributes_and_counts.

Example C09_accepted_wing :
  exists w, new_wing [ex_section 0; ex_section 1] "wing" 0 0 0 (mkvec 0 1 0) true (mkvec 1 0 0) 1 "uniform" = Ok w.
Proof. eexists. exact (ex_wing_ok true). Qed.
Example C09_rejected_wing :
  new_wing [ex_section 1; ex_section 2] "wing" 0 0 0 (mkvec 0 1 0) true (mkvec 1 0 0) 1 "uniform" = Err ERootLeadingEdgeNotZero.
Proof.
  apply wing_rule_error; [exact y_nonzero|]. eexists [_; _; _], _, _. split; [reflexivity|]. split.
  - intros P e [[= <- <-]|[[= <- <-]|[[= <- <-]|[]]]]; [cbn; lia | right; left; reflexivity | intros root [= <-]; reflexivity].
  - intros H. specialize (H _ eq_refl). injection H. lra.
Qed.

(** ** C10  Airplane reference quantities. *)
Theorem C10_reference_quantities : forall wings name x y z weight s_ref c_ref b_ref,
  (wings = [] -> new_airplane wings name x y z weight s_ref c_ref b_ref = Err ENoWings) /\
  forall main_wing others, wings = main_wing :: others ->
  exists a, new_airplane wings name x y z weight s_ref c_ref b_ref = Ok a /\
    a_wings a = wings /\ a_name a = name /\ a_xyz_ref a = mkvec x y z /\ a_weight a = weight /\
    (forall v, s_ref = Some v -> a_s_ref a = v) /\ (s_ref = None -> a_s_ref a = w_projected_area main_wing) /\
    (forall v, c_ref = Some v -> a_c_ref a = v) /\ (c_ref = None -> a_c_ref a = w_mean_aerodynamic_chord main_wing) /\
    (forall v, b_ref = Some v -> a_b_ref a = v) /\ (b_ref = None -> a_b_ref a = w_span main_wing) /\
    a_num_panels a = list_sum (map w_num_panels wings) /\
    a_force_wind a = None /\ a_force_coefficients a = None /\ a_moment_wind a = None /\ a_moment_coefficients a = None.
Proof. exact airplane_outcome. Qed.
Print Assumptions C10_reference_quantities.

Example C10_two_wings : exists a,
  new_airplane [ex2_wing; ex_wing true] "plane" 0 0 0 0 None (Some 2) None = Ok a /\
  a_num_panels a = 4%nat /\ a_b_ref a = 3 /\ a_c_ref a = 2.
Proof.
  destruct (proj2 (airplane_outcome [ex2_wing; ex_wing true] "plane" 0 0 0 0 None (Some 2) None) _ _ eq_refl)
    as (a & E & _ & _ & _ & _ & _ & _ & Hc & _ & _ & Hb & Hn & _).
  exists a. split; [exact E|]. split; [exact Hn|]. split; [rewrite (Hb eq_refl); exact ex2_span | exact (Hc _ eq_refl)].
Qed.

(** ** C11  Mesh shape and edge flags.  [well_meshed] (S_Loads.v) states the
    flags and stored positions of every panel. *)
Theorem C11_mesh_shape : forall sections name x y z n symmetric c num_chordwise spacing w,
  new_wing sections name x y z n symmetric c num_chordwise spacing = Ok w ->
  well_meshed (w_panels w) /\ length (w_panels w) = num_chordwise /\
  (forall row, In row (w_panels w) -> length row = w_num_spanwise_panels w) /\
  w_num_spanwise_panels w =
    ((if symmetric then 2 else 1) * list_sum (map cs_num_spanwise_panels (removelast sections)))%nat /\
  w_num_panels w = length (concat (w_panels w)).
Proof. exact wing_shape. Qed.
Print Assumptions C11_mesh_shape.

(** [built_wing w]: some call of the constructor returned [w]. *)
Theorem C11_airplane_mesh : forall wings name x y z weight s_ref c_ref b_ref a,
  (forall w, In w wings -> built_wing w) ->
  new_airplane wings name x y z weight s_ref c_ref b_ref = Ok a -> well_meshed_airplane a.
Proof. exact airplane_meshed. Qed.
Print Assumptions C11_airplane_mesh.

Example C11_built_wings : built_wing (ex_wing true) /\ built_wing ex2_wing.
Proof.
  split; repeat eexists; [exact (ex_wing_ok true) | exact ex2_wing_ok].
Qed.

(** ** C12  Watertight mesh.  True of chordwise neighbours on every wing. *)
Theorem C12_chordwise : forall sections name x y z n symmetric c num_chordwise spacing w,
  new_wing sections name x y z n symmetric c num_chordwise spacing = Ok w ->
  chordwise_watertight (w_panels w).
Proof. exact wing_chordwise_watertight. Qed.
Print Assumptions C12_chordwise.

(** As stated for spanwise neighbours the property is false: the control surface
    of a section is applied to the next section too, so different deflections on
    the two sides of a section tear the surface; ... *)
Theorem C12_spanwise_refuted : exists sections w,
  new_wing sections "wing" 0 0 0 (mkvec 0 1 0) false (mkvec 1 0 0) 1 "uniform" = Ok w /\
  (forall s, In s sections -> (1 <= cs_num_spanwise_panels s)%nat) /\ ~ spanwise_watertight (w_panels w).
Proof. exact gap_at_deflection. Qed.
Print Assumptions C12_spanwise_refuted.

(** ... an asymmetric surface at the root tears the two halves apart; ... *)
Theorem C12_root_refuted : exists sections w,
  new_wing sections "wing" 0 0 0 (mkvec 0 1 0) true (mkvec 1 0 0) 1 "uniform" = Ok w /\ length sections = 2%nat /\
  (forall s, In s sections -> (1 <= cs_num_spanwise_panels s)%nat) /\ ~ spanwise_watertight (w_panels w).
Proof. exact gap_at_root. Qed.
Print Assumptions C12_root_refuted.

(** ... and a section without spanwise panels leaves a hole. *)
Theorem C12_empty_section_refuted : exists sections w,
  new_wing sections "wing" 0 0 0 (mkvec 0 1 0) false (mkvec 1 0 0) 1 "uniform" = Ok w /\
  (forall s, In s sections -> cs_control_surface_deflection s = 0) /\ ~ spanwise_watertight (w_panels w).
Proof. exact gap_at_empty_section. Qed.
Print Assumptions C12_empty_section_refuted.

(** These three are the only causes.  [flaps_agree] says that every interior
    section's camber line is in the same place whichever of the two control
    surfaces is applied to it. *)
Theorem C12_spanwise_partial : forall sections name x y z n symmetric c num_chordwise spacing w,
  new_wing sections name x y z n symmetric c num_chordwise spacing = Ok w ->
  let le := mkvec x y z in
  let fractions := spaced spacing (S num_chordwise) in
  (forall i o, In (i, o) (adjacent sections) -> (1 <= cs_num_spanwise_panels i)%nat) ->
  flaps_agree le fractions cs_control_surface_deflection (w_sections w) ->
  (symmetric = true -> vnorm n = 1 /\ flaps_agree le fractions port_deflection (w_sections w) /\
     forall root, nth_error sections 0 = Some root -> port_deflection root = cs_control_surface_deflection root) ->
  spanwise_watertight (w_panels w).
Proof. exact wing_spanwise_watertight. Qed.
Print Assumptions C12_spanwise_partial.

(** In particular with one control surface setting along the whole wing. *)
Theorem C12_uniform_surface_partial : forall sections name x y z n symmetric c num_chordwise spacing w,
  new_wing sections name x y z n symmetric c num_chordwise spacing = Ok w -> vnorm n = 1 ->
  (forall s, In s (removelast sections) -> (1 <= cs_num_spanwise_panels s)%nat) ->
  (forall s t, In s (removelast sections) -> In t (removelast sections) ->
     cs_control_surface_deflection s = cs_control_surface_deflection t /\
     cs_control_surface_hinge_point s = cs_control_surface_hinge_point t) ->
  (symmetric = true -> forall s, In s (removelast sections) ->
     cs_control_surface_type s = "symmetric"%string \/ cs_control_surface_deflection s = 0) ->
  spanwise_watertight (w_panels w).
Proof. exact wing_uniform_watertight. Qed.
Print Assumptions C12_uniform_surface_partial.

Example C12_symmetric_wing : spanwise_watertight (w_panels (ex_wing true)) /\ chordwise_watertight (w_panels (ex_wing true)).
Proof.
  split.
  - eapply wing_uniform_watertight; [exact (ex_wing_ok true) | apply vdot_1_norm; vunfold; ring | | |].
    + intros s [<-|[]]. cbn; lia.
    + intros s t [<-|[]] [<-|[]]. split; reflexivity.
    + intros _ s [<-|[]]. left; reflexivity.
  - eapply wing_chordwise_watertight. exact (ex_wing_ok true).
Qed.

(** ** C13  Symmetric wings are mirror images. *)
Theorem C13_mirror_image : forall sections name x y z n c num_chordwise spacing w,
  new_wing sections name x y z n true c num_chordwise spacing = Ok w -> vnorm n = 1 ->
  (forall s, In s (removelast sections) ->
     cs_control_surface_type s = "symmetric"%string \/ cs_control_surface_deflection s = 0) ->
  forall row j p p', (j < w_num_spanwise_panels w)%nat ->
    at_position (w_panels w) row j p' -> at_position (w_panels w) row (w_num_spanwise_panels w - 1 - j) p ->
    mirror_image n (mkvec x y z) p p'.
Proof. exact wing_mirror. Qed.
Print Assumptions C13_mirror_image.

(** With asymmetric surfaces the left half mirrors the right half of the wing
    whose asymmetric surfaces are deflected the other way ([opposed]). *)
Theorem C13_asymmetric_surfaces : forall sections name x y z n c num_chordwise spacing w w',
  vnorm n = 1 ->
  new_wing sections name x y z n true c num_chordwise spacing = Ok w ->
  new_wing (map opposed sections) name x y z n true c num_chordwise spacing = Ok w' ->
  forall row j p p', (2 * j < w_num_spanwise_panels w)%nat ->
    at_position (w_panels w) row j p' -> at_position (w_panels w') row (w_num_spanwise_panels w - 1 - j) p ->
    mirror_image n (mkvec x y z) p p'.
Proof. exact wing_mirror_opposed. Qed.
Print Assumptions C13_asymmetric_surfaces.

Example C13_example : exists p p', at_position (w_panels (ex_wing true)) 0 0 p' /\ at_position (w_panels (ex_wing true)) 0 1 p /\
  mirror_image (mkvec 0 1 0) (mkvec 0 0 0) p p'.
Proof.
  eexists _, _. split; [eexists; split; reflexivity|]. split; [eexists; split; reflexivity|].
  eapply (wing_mirror _ _ _ _ _ _ _ _ _ _ (ex_wing_ok true)) with (r := 0%nat) (j := 0%nat);
    [apply vdot_1_norm; vunfold; ring | intros s [<-|[]]; left; reflexivity | cbn; lia
     | eexists; split; reflexivity | eexists; split; reflexivity].
Qed.

(** ** C14  Planform quantities. *)
Theorem C14_span : forall w,
  0 <= w_span w /\
  forall root tip, vnorm (w_unit_normal w) = 1 ->
    nth_error (w_sections w) 0 = Some root -> nth_error (w_sections w) (length (w_sections w) - 1) = Some tip ->
    w_span w = (if w_symmetric w then 2 else 1) *
               Rabs (vdot (vsub (cs_leading_edge tip) (cs_leading_edge root)) (w_unit_normal w)).
Proof. exact (fun w => conj (span_nonneg w) (span_is_distance w)). Qed.
Print Assumptions C14_span.

Theorem C14_mean_chord_times_span : forall w, w_span w <> 0 ->
  w_standard_mean_chord w * w_span w = w_projected_area w.
Proof. exact smc_times_span. Qed.
Print Assumptions C14_mean_chord_times_span.

Theorem C14_projected_area : forall w, vnorm (w_unit_up w) = 1 -> 0 <= w_projected_area w <= w_wetted_area w.
Proof. exact projected_area_le_wetted. Qed.
Print Assumptions C14_projected_area.

(** The wetted area is the sum of the panels' areas, each half the cross product of the
    panel's diagonals (C07). *)
Theorem C14_wetted_area : forall w, w_wetted_area w =
  rsum (map (fun row => rsum (map (fun p => vnorm (vcross (vsub (p_front_right p) (p_back_left p)) (vsub (p_front_left p) (p_back_right p))) / 2) row))
            (w_panels w)).
Proof. exact wetted_area_sum. Qed.
Print Assumptions C14_wetted_area.

(** The trailing edge of a section lies a chord away from its leading edge, in the
    section's plane, at the angle of twist to the wing's chordwise direction. *)
Theorem C14_trailing_edge : forall s v,
  cs_wing_unit_chordwise s = Some v -> vnorm v = 1 -> vnorm (cs_unit_normal s) = 1 -> vdot (cs_unit_normal s) v = 0 ->
  exists te, cs_trailing_edge s = Ok te /\ vnorm (vsub te (cs_leading_edge s)) = Rabs (cs_chord s) /\
    vdot (vsub te (cs_leading_edge s)) (cs_unit_normal s) = 0 /\
    vdot (vsub te (cs_leading_edge s)) v = cs_chord s * cos (cs_twist s * PI / 180) /\
    vdot (vsub te (cs_leading_edge s)) (vcross (cs_unit_normal s) v) = cs_chord s * sin (cs_twist s * PI / 180).
Proof. exact section_trailing_edge. Qed.
Print Assumptions C14_trailing_edge.

Example C14_trailing_edge_applies : forall s, In s (w_sections ex2_wing) ->
  cs_wing_unit_chordwise s = Some (mkvec 1 0 0) /\ vdot (cs_unit_normal s) (mkvec 1 0 0) = 0.
Proof. intros s [<-|[<-|[<-|[]]]]; (split; [reflexivity | unfold vdot; cbn; ring]). Qed.

(** [outward]: successive sections never step back along the wing normal. *)
Theorem C14_equal_chords : forall w c,
  vnorm (w_unit_normal w) = 1 -> w_sections w <> [] -> outward (w_unit_normal w) (w_sections w) ->
  (forall s, In s (w_sections w) -> cs_chord s = c) ->
  c <> 0 -> w_span w <> 0 -> w_projected_area w = c * w_span w -> w_mean_aerodynamic_chord w = c.
Proof. exact mac_is_chord. Qed.
Print Assumptions C14_equal_chords.

Theorem C14_chord_bounds : forall n inner outer lo hi,
  0 <= lo -> lo <= cs_chord inner <= hi -> lo <= cs_chord outer <= hi ->
  let span := vnorm (vscale (vdot (vsub (cs_leading_edge outer) (cs_leading_edge inner)) n) n) in
  lo ^ 2 * span <= mac_term n inner outer <= hi ^ 2 * span.
Proof. exact mac_term_bounds. Qed.
Print Assumptions C14_chord_bounds.

Theorem C14_mean_chord_bounds : forall w lo hi,
  vnorm (w_unit_normal w) = 1 -> w_sections w <> [] -> outward (w_unit_normal w) (w_sections w) ->
  0 <= lo -> (forall s, In s (w_sections w) -> lo <= cs_chord s <= hi) -> 0 < w_projected_area w ->
  lo ^ 2 * w_span w <= w_mean_aerodynamic_chord w * w_projected_area w <= hi ^ 2 * w_span w.
Proof. exact mac_between. Qed.
Print Assumptions C14_mean_chord_bounds.

Example C14_rectangular_wing : outward (w_unit_normal ex2_wing) (w_sections ex2_wing) /\
  (forall s, In s (w_sections ex2_wing) -> cs_chord s = 4) /\ w_span ex2_wing = 3.
Proof.
  split; [|split; [intros s [<-|[<-|[<-|[]]]]; reflexivity | exact ex2_span]].
  intros i o H. unfold ex2_wing in H; cbn in H. destruct H as [[= <- <-]|[[= <- <-]|[]]]; unfold cs_leading_edge, vdot, vsub; cbn; lra.
Qed.
