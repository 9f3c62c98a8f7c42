(** What the convergence searches should return, in terms of the results of the
    individual runs. *)
From Verif Require Import M_Movement.

(** Every coefficient differs from its old value by less than [criteria] percent of
    the old value. *)
Definition close (criteria : R) (new old : list R) : Prop :=
  Forall2 (fun x y => 100 * Rabs (x - y) < criteria * Rabs y) new old.

(** ** Steady search: panel aspect ratios from [ar_hi] down to [ar_lo], numbers of
    chordwise panels from [chord_lo] up to [chord_hi].  [c ar n] lists, per airplane,
    the sizes of the force and moment coefficients found with that mesh. *)
Section Steady.
Variables (criteria : R) (ar_hi ar_lo chord_lo chord_hi : Z).
Variable trial : Z -> Z -> result (list (R * R)).
Variable c : Z -> Z -> list (R * R).
Local Open Scope Z_scope.
Definition in_ranges (ar n : Z) : Prop := ar_lo <= ar <= ar_hi /\ chord_lo <= n <= chord_hi.
Definition settled (new old : list (R * R)) : Prop :=
  close criteria (map fst new) (map fst old) /\ close criteria (map snd new) (map snd old).
(** Compared with the next coarser aspect ratio, or the next coarser chord. *)
Definition ar_settled (ar n : Z) : Prop := ar < ar_hi /\ settled (c ar n) (c (ar + 1) n).
Definition chord_settled (ar n : Z) : Prop := chord_lo < n /\ settled (c ar n) (c ar (n - 1)).
Definition acceptable (ar n : Z) : Prop :=
  (ar_settled ar n \/ ar_hi = ar_lo \/ ar = 1) /\ (chord_settled ar n \/ chord_lo = chord_hi).
Definition earlier (ar' n' ar n : Z) : Prop := ar < ar' \/ (ar' = ar /\ n' < n).
Definition ran (ar n : Z) : Prop := trial ar n = Ok (c ar n).
(** All earlier runs succeed without being acceptable. *)
Definition reached (ar n : Z) : Prop :=
  in_ranges ar n /\
  forall ar' n', in_ranges ar' n' -> earlier ar' n' ar n -> ran ar' n' /\ ~ acceptable ar' n'.
(** The coarser mesh of the comparison, where there was one. *)
Definition answer (ar n a b : Z) : Prop :=
  (ar_settled ar n -> a = ar + 1) /\ (~ ar_settled ar n -> a = ar) /\
  (chord_lo = chord_hi -> b = n) /\ (chord_lo < chord_hi -> b = n - 1).
End Steady.

(** ** Unsteady search: prescribed wake before free wake, wake lengths upwards, then
    as above.  [c wake length ar n] lists the chosen coefficients of every airplane. *)
Section Unsteady.
Variables (criteria : R) (prescribed free : bool) (length_lo length_hi ar_hi ar_lo chord_lo chord_hi : Z).
Variable trial : bool -> Z -> Z -> Z -> result (list (list R)).
Variable c : bool -> Z -> Z -> Z -> list (list R).
Local Open Scope Z_scope.
Definition wake_allowed (wake : bool) : Prop := if wake then prescribed = true else free = true.
Definition in_ranges4 (wake : bool) (l ar n : Z) : Prop :=
  wake_allowed wake /\ length_lo <= l <= length_hi /\ ar_lo <= ar <= ar_hi /\ chord_lo <= n <= chord_hi.
Definition settled4 (new old : list (list R)) : Prop := close criteria (concat new) (concat old).
(** The free wake is compared with the prescribed one. *)
Definition wake_settled4 (wake : bool) (l ar n : Z) : Prop :=
  wake = false /\ prescribed = true /\ settled4 (c false l ar n) (c true l ar n).
Definition length_settled4 (wake : bool) (l ar n : Z) : Prop :=
  length_lo < l /\ settled4 (c wake l ar n) (c wake (l - 1) ar n).
Definition ar_settled4 (wake : bool) (l ar n : Z) : Prop :=
  ar < ar_hi /\ settled4 (c wake l ar n) (c wake l (ar + 1) n).
Definition chord_settled4 (wake : bool) (l ar n : Z) : Prop :=
  chord_lo < n /\ settled4 (c wake l ar n) (c wake l ar (n - 1)).
Definition acceptable4 (wake : bool) (l ar n : Z) : Prop :=
  (wake_settled4 wake l ar n \/ prescribed <> free \/ wake = false) /\
  (length_settled4 wake l ar n \/ length_lo = length_hi) /\
  (ar_settled4 wake l ar n \/ ar_hi = ar_lo \/ ar = 1) /\
  (chord_settled4 wake l ar n \/ chord_lo = chord_hi).
Definition earlier4 (wake' : bool) (l' ar' n' : Z) (wake : bool) (l ar n : Z) : Prop :=
  (wake' = true /\ wake = false) \/
  (wake' = wake /\ (l' < l \/ (l' = l /\ (ar < ar' \/ (ar' = ar /\ n' < n))))).
Definition ran4 (wake : bool) (l ar n : Z) : Prop := trial wake l ar n = Ok (c wake l ar n).
Definition reached4 (wake : bool) (l ar n : Z) : Prop :=
  in_ranges4 wake l ar n /\
  forall wake' l' ar' n', in_ranges4 wake' l' ar' n' -> earlier4 wake' l' ar' n' wake l ar n ->
    ran4 wake' l' ar' n' /\ ~ acceptable4 wake' l' ar' n'.
Definition answer4 (wake : bool) (l ar n : Z) (w' : bool) (l' a b : Z) : Prop :=
  (wake_settled4 wake l ar n -> w' = true) /\ (~ wake_settled4 wake l ar n -> w' = wake) /\
  (length_lo = length_hi -> l' = l) /\ (length_lo < length_hi -> l' = l - 1) /\
  (ar_settled4 wake l ar n -> a = ar + 1) /\ (~ ar_settled4 wake l ar n -> a = ar) /\
  (chord_lo = chord_hi -> b = n) /\ (chord_lo < chord_hi -> b = n - 1).
End Unsteady.

(** What the runs of a problem returned. *)
Definition results2 {A} (trial : Z -> Z -> result (list A)) (ar n : Z) : list A :=
  match trial ar n with Ok v => v | Err _ => [] end.
Definition results4 {A} (trial : bool -> Z -> Z -> Z -> result (list A)) (wake : bool) (l ar n : Z) : list A :=
  match trial wake l ar n with Ok v => v | Err _ => [] end.

(** ** Remeshed geometry *)
(** The nearest whole number, halves going to the even one. *)
Definition nearest (x : R) (k : Z) : Prop :=
  Rabs (x - IZR k) < 1 / 2 \/ (Rabs (x - IZR k) = 1 / 2 /\ Z.even k = true).
(** With [n] panels along the mean chord of the strip between two sections, so many
    panels across it have the aspect ratio [ar]. *)
Definition wanted_across (n ar : Z) (s t : section) : R :=
  (cs_y_le t - cs_y_le s) * IZR n / ((cs_chord s + cs_chord t) / 2 * IZR ar).
(** The same section with [k] panels across, in a wing with the default directions. *)
Definition recounted (s s' : section) (k : nat) : Prop :=
  cs_airfoil s' = cs_airfoil s /\ cs_leading_edge s' = cs_leading_edge s /\ cs_chord s' = cs_chord s /\
  cs_twist s' = cs_twist s /\ cs_control_surface_type s' = cs_control_surface_type s /\
  cs_control_surface_hinge_point s' = cs_control_surface_hinge_point s /\
  cs_control_surface_deflection s' = cs_control_surface_deflection s /\
  cs_spanwise_spacing s' = cs_spanwise_spacing s /\
  cs_unit_normal s' = mkvec 0 1 0 /\ cs_num_spanwise_panels s' = k.
(** The same sections, each with the number of panels closest to the wanted one up to
    the next section; the last one with none. *)
Definition recounted_sections (n ar : Z) (l l' : list section) : Prop :=
  length l' = length l /\
  forall i s s', nth_error l i = Some s -> nth_error l' i = Some s' ->
    exists k, recounted s s' k /\
      match nth_error l (S i) with
      | Some t => nearest (wanted_across n ar s t) (Z.of_nat k)
      | None => k = 0%nat
      end.
Definition remeshed_wing (n ar : Z) (w w' : wing) : Prop :=
  w_name w' = w_name w /\ w_leading_edge w' = w_leading_edge w /\ w_symmetric w' = w_symmetric w /\
  w_chordwise_spacing w' = w_chordwise_spacing w /\
  w_unit_normal w' = mkvec 0 1 0 /\ w_unit_chordwise w' = mkvec 1 0 0 /\
  Z.of_nat (w_num_chordwise_panels w') = n /\ recounted_sections n ar (w_sections w) (w_sections w').
Definition remeshed_airplane (n ar : Z) (a a' : airplane) : Prop :=
  a_name a' = a_name a /\ a_x_ref a' = a_x_ref a /\ a_y_ref a' = a_y_ref a /\ a_z_ref a' = a_z_ref a /\
  a_weight a' = a_weight a /\ Forall2 (remeshed_wing n ar) (a_wings a) (a_wings a').
Definition remeshed_wing_movement (n ar : Z) (m m' : wing_movement) : Prop :=
  wm_x_le m' = wm_x_le m /\ wm_y_le m' = wm_y_le m /\ wm_z_le m' = wm_z_le m /\
  Forall2 (fun s s' => sm_sweeping s' = sm_sweeping s /\ sm_custom_sweep s' = sm_custom_sweep s /\
                       sm_pitching s' = sm_pitching s /\ sm_custom_pitch s' = sm_custom_pitch s /\
                       sm_heaving s' = sm_heaving s /\ sm_custom_heave s' = sm_custom_heave s)
          (wm_sections m) (wm_sections m') /\
  recounted_sections n ar (map sm_base (wm_sections m)) (map sm_base (wm_sections m')) /\
  w_sections (wm_base m') = map sm_base (wm_sections m') /\
  w_name (wm_base m') = w_name (wm_base m) /\ w_leading_edge (wm_base m') = w_leading_edge (wm_base m) /\
  w_symmetric (wm_base m') = w_symmetric (wm_base m) /\
  w_chordwise_spacing (wm_base m') = w_chordwise_spacing (wm_base m) /\
  Z.of_nat (w_num_chordwise_panels (wm_base m')) = n.
Definition remeshed_airplane_movement (n ar : Z) (m m' : airplane_movement) : Prop :=
  am_x_ref m' = am_x_ref m /\ am_y_ref m' = am_y_ref m /\ am_z_ref m' = am_z_ref m /\
  a_name (am_base m') = a_name (am_base m) /\ a_weight (am_base m') = a_weight (am_base m) /\
  a_x_ref (am_base m') = a_x_ref (am_base m) /\ a_y_ref (am_base m') = a_y_ref (am_base m) /\
  a_z_ref (am_base m') = a_z_ref (am_base m) /\
  a_wings (am_base m') = map wm_base (am_wings m') /\
  Forall2 (remeshed_wing_movement n ar) (am_wings m) (am_wings m').
(** The interpolation goes through the given points. *)
Definition interpolating (pchip : list (R * R) -> result (R -> R)) : Prop :=
  forall points f x y, pchip points = Ok f -> In (x, y) points -> f x = y.
(** An airfoil as its constructor leaves it, here or with a control surface added. *)
Definition built_airfoil pchip database (a : airfoil) : Prop :=
  (exists name coordinates repanelled n, (repanelled = true -> (2 <= n)%nat) /\
     new_airfoil pchip database name coordinates repanelled n = Ok a) \/
  (exists b deflection hinge, add_control_surface b deflection hinge = Ok a).
(** The entries of [l] whose place in [mask] is ticked. *)
Fixpoint chosen {A} (mask : list bool) (l : list A) : list A :=
  match mask, l with
  | b :: mask, x :: l => if b then x :: chosen mask l else chosen mask l
  | _, _ => []
  end.
(** What is compared between runs: of each airplane, the ticked ones of the six coefficients
    in [loads]. *)
Definition compared (mask : list bool) (loads : final_loads) (v : list (list R)) : Prop :=
  forall k row, nth_error v k = Some row -> length mask = 6%nat /\ exists f m,
    nth_error (fl_force_coefficients loads) k = Some f /\ nth_error (fl_moment_coefficients loads) k = Some m /\
    row = chosen mask [vx f; vy f; vz f; vx m; vy m; vz m].
