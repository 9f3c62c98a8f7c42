(** Specification vocabulary for movements and unsteady problems. *)
From Verif Require Import M_Movement S_Geometry S_Wing.

Definition succeeds {A} (r : result A) : Prop := exists x, r = Ok x.
(** [n] is the smallest integer satisfying [P]. *)
Definition least (P : Z -> Prop) (n : Z) : Prop := P n /\ forall k, P k -> (n <= k)%Z.

(** ** Periods *)
(** The periods of all oscillations inside a movement. *)
Definition section_periods (m : section_movement) : list R :=
  [osc_period (sm_sweeping m); osc_period (sm_pitching m); osc_period (sm_heaving m)].
Definition wing_periods (m : wing_movement) : list R :=
  concat (map section_periods (wm_sections m)) ++
  [osc_period (wm_x_le m); osc_period (wm_y_le m); osc_period (wm_z_le m)].
Definition airplane_periods (m : airplane_movement) : list R :=
  concat (map wing_periods (am_wings m)) ++
  [osc_period (am_x_ref m); osc_period (am_y_ref m); osc_period (am_z_ref m)].
Definition all_periods (ams : list airplane_movement) (om : op_movement) : list R :=
  concat (map airplane_periods ams) ++ [osc_period (om_velocity om)].
Definition largest (l : list R) (p : R) : Prop := In p l /\ forall q, In q l -> q <= p.
(** Movements as the constructors of wings and airplanes make sense of them: at
    least one airplane, wing and cross section. *)
Definition populated (ams : list airplane_movement) : Prop :=
  ams <> [] /\ forall a, In a ams -> am_wings a <> [] /\ forall w, In w (am_wings a) -> wm_sections w <> [].

(** ** Oscillations *)
(** What each kind of spacing prescribes at time [t]. *)
Definition triangle_wave (f : R -> R) : Prop :=
  (forall t, 0 <= t <= 1 / 4 -> f t = 4 * t) /\
  (forall t, 1 / 4 <= t <= 3 / 4 -> f t = 2 - 4 * t) /\
  (forall t, 3 / 4 <= t <= 1 -> f t = 4 * t - 4) /\
  forall t k, f (t + IZR k) = f t.

(** [l] samples [base + a w(t / T)] at the times 0, dt, 2 dt, ...; a zero amplitude or
    period means no motion. *)
Definition follows_wave (w : R -> R) (a T base : R) (n : Z) (dt : R) (l : list R) : Prop :=
  length l = Z.to_nat n /\ (0 <= n)%Z /\
  forall i v, nth_error l i = Some v ->
    ((a = 0 \/ T = 0) -> v = base) /\ (T <> 0 -> v = base + a * w (INR i * dt / T)).
Definition sine_wave (s : R) : R := sin (2 * PI * s).
Definition unit_wave (w : R -> R) : Prop := w 0 = 0 /\ (forall s, Rabs (w s) <= 1) /\ forall s k, w (s + IZR k) = w s.

(** ** Geometry at the first step *)
(** The step from one leading edge to the next that the sweep and heave angles can
    represent: outward and without both sweep-back and dihedral, or vertical. *)
Definition representable (inner outer : vec) : Prop :=
  vy outer = vy inner \/ (vy inner < vy outer /\ (vx outer = vx inner \/ vz outer = vz inner)).
(** Spacings whose value at time zero is the base value. *)
Definition starts_at_base (o : oscillation) (custom : option (R -> R)) : Prop :=
  osc_spacing o = "sine"%string \/ osc_spacing o = "uniform"%string \/
  (osc_spacing o = "custom"%string /\ exists f, custom = Some f /\ f 0 = 0).

(** ** Snapshots *)
(** What a snapshot of a cross section, wing or airplane keeps of its base. *)
Definition section_kept (b s : section) : Prop :=
  cs_airfoil s = cs_airfoil b /\ cs_chord s = cs_chord b /\ cs_control_surface_type s = cs_control_surface_type b /\
  cs_control_surface_hinge_point s = cs_control_surface_hinge_point b /\
  cs_control_surface_deflection s = cs_control_surface_deflection b /\
  cs_num_spanwise_panels s = cs_num_spanwise_panels b /\ cs_spanwise_spacing s = cs_spanwise_spacing b.
Definition wing_kept (m : wing_movement) (w : wing) : Prop :=
  w_name w = w_name (wm_base m) /\ w_symmetric w = w_symmetric (wm_base m) /\
  w_num_chordwise_panels w = w_num_chordwise_panels (wm_base m) /\ w_chordwise_spacing w = w_chordwise_spacing (wm_base m) /\
  Forall2 (fun sm s => section_kept (sm_base sm) s) (wm_sections m) (w_sections w).
Definition airplane_kept (m : airplane_movement) (a : airplane) : Prop :=
  a_name a = a_name (am_base m) /\ Forall2 wing_kept (am_wings m) (a_wings a).
(** What it gets instead of the base's own value: the constructors' defaults. *)
Definition section_reset (s : section) : Prop := cs_unit_normal s = mkvec 0 1 0.
Definition wing_reset (w : wing) : Prop :=
  w_unit_normal w = mkvec 0 1 0 /\ w_unit_chordwise w = mkvec 1 0 0 /\ Forall section_reset (w_sections w).
Definition airplane_reset (a : airplane) : Prop :=
  a_weight a = 0 /\ Forall wing_reset (a_wings a) /\
  exists main, nth_error (a_wings a) 0 = Some main /\ a_s_ref a = w_projected_area main /\
    a_c_ref a = w_mean_aerodynamic_chord main /\ a_b_ref a = w_span main.
(** Leading edges of the base cross sections, root first. *)
Definition base_edges (m : wing_movement) : list vec := map (fun sm => cs_leading_edge (sm_base sm)) (wm_sections m).
Definition successive (P : vec -> vec -> Prop) (l : list vec) : Prop :=
  forall i p q, nth_error l i = Some p -> nth_error l (S i) = Some q -> P p q.
Definition sections_start_at_base (m : wing_movement) : Prop :=
  forall sm, In sm (wm_sections m) ->
    starts_at_base (sm_sweeping sm) (sm_custom_sweep sm) /\ starts_at_base (sm_heaving sm) (sm_custom_heave sm).
(** Spacings that the generators accept. *)
Definition good_spacing (o : oscillation) : Prop := In (osc_spacing o) ["sine"; "uniform"]%string.
Definition good_custom (o : oscillation) (custom : option (R -> R)) : Prop :=
  good_spacing o \/ (osc_spacing o = "custom"%string /\ custom <> None).
Definition still (o : oscillation) : Prop := osc_amplitude o = 0 /\ osc_period o = 0.

(** ** Movements whose snapshots can be built *)
Definition section_movable (m : section_movement) : Prop :=
  all_hold (section_rules (cs_chord (sm_base m)) (cs_control_surface_type (sm_base m)) (cs_spanwise_spacing (sm_base m))) /\
  good_custom (sm_sweeping m) (sm_custom_sweep m) /\ good_custom (sm_pitching m) (sm_custom_pitch m) /\
  good_custom (sm_heaving m) (sm_custom_heave m).
Definition wing_movable (m : wing_movement) : Prop :=
  (2 <= length (wm_sections m))%nat /\ In (w_chordwise_spacing (wm_base m)) ["cosine"; "uniform"]%string /\
  meshable (map sm_base (wm_sections m)) (w_symmetric (wm_base m)) (w_num_chordwise_panels (wm_base m)) /\
  Forall section_movable (wm_sections m) /\
  (forall root, nth_error (wm_sections m) 0 = Some root -> still (sm_sweeping root) /\ still (sm_heaving root)) /\
  good_spacing (wm_x_le m) /\ good_spacing (wm_y_le m) /\ good_spacing (wm_z_le m).
Definition airplane_movable (m : airplane_movement) : Prop :=
  am_wings m <> [] /\ Forall wing_movable (am_wings m) /\
  good_spacing (am_x_ref m) /\ good_spacing (am_y_ref m) /\ good_spacing (am_z_ref m).

(** ** Length of a movement *)
(** The rules on the optional arguments in the order they are checked; [p] is the
    longest period. *)
Definition movement_rules (p : R) (num_steps : option Z) (num_cycles num_chords : option R) : rules :=
  [ (num_cycles = None \/ num_steps = None, EStepsAndCycles);
    (num_cycles = None \/ p <> 0, ECyclesStatic);
    (num_chords = None \/ num_steps = None, EStepsAndChords);
    (num_chords = None \/ p = 0, EChordsPeriodic) ].
Definition given {A} (o : option A) (default : A) : A := match o with Some x => x | None => default end.
(** Distance flown and time simulated reach what was asked for. *)
Definition flies (dt velocity distance : R) (n : Z) : Prop := distance <= IZR n * (dt * velocity).
Definition lasts (dt time : R) (n : Z) : Prop := time <= IZR n * dt.
Definition mean (l : list R) : R := rsum l / INR (length l).

(** ** Movements that do not move *)
Definition unmoving (o : oscillation) : Prop := osc_amplitude o = 0 \/ osc_period o = 0.
Definition section_unmoving (m : section_movement) : Prop :=
  unmoving (sm_sweeping m) /\ unmoving (sm_pitching m) /\ unmoving (sm_heaving m).
Definition wing_unmoving (m : wing_movement) : Prop :=
  Forall section_unmoving (wm_sections m) /\ unmoving (wm_x_le m) /\ unmoving (wm_y_le m) /\ unmoving (wm_z_le m).
Definition airplane_unmoving (m : airplane_movement) : Prop :=
  Forall wing_unmoving (am_wings m) /\ unmoving (am_x_ref m) /\ unmoving (am_y_ref m) /\ unmoving (am_z_ref m).
(** The base wing of a movement is the one built from the base sections with the
    default unit vectors, and its sections lie where sweep and heave can put them. *)
Definition plain_base (m : wing_movement) : Prop :=
  let b := wm_base m in
  new_wing (map sm_base (wm_sections m)) (w_name b) (w_x_le b) (w_y_le b) (w_z_le b) (mkvec 0 1 0) (w_symmetric b) (mkvec 1 0 0)
           (w_num_chordwise_panels b) (w_chordwise_spacing b) = Ok b /\
  (forall sm, In sm (wm_sections m) -> cs_unit_normal (sm_base sm) = mkvec 0 1 0) /\ successive representable (base_edges m).

(** The time in which the airplane flies one chordwise panel of its main wing. *)
Definition wing_step (v : R) (am : airplane_movement) (x : R) : Prop :=
  exists w, nth_error (a_wings (am_base am)) 0 = Some w /\ x = a_c_ref (am_base am) / INR (w_num_chordwise_panels w) / v.
(** Step [i]'s airplanes, in order, and operating point. *)
Definition lines_up (m : movement) (i : nat) (sp : steady_problem) : Prop :=
  Forall2 (fun history a => nth_error history i = Some a) (mv_airplanes m) (sp_airplanes sp) /\
  nth_error (mv_operating_points m) i = Some (sp_operating_point sp).
