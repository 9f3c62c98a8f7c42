(** Property theorems C18-C21 (pterasoftware/aerodynamics.py). *)
From Coq Require Import Lra.
From Verif Require Import S_BiotSavart L_BiotSavart L_Decay M_Vortices M_Aero S_Geometry S_Vortices L_Base L_Rotations L_Aero.

(** ** C18  Vortex objects stay consistent under any sequence of mutations. *)
Theorem C18_ring_history : forall fl fr bl br s ops,
  let r := fold_left ring_step ops (new_ring fl fr bl br s) in
  ring_consistent r /\
  rv_strength r = last_strength s ops /\
  rv_age r = last_age 0 ops /\
  ring_position r = last_position (fl, fr, bl, br) ops.
Proof. exact ring_history. Qed.
Print Assumptions C18_ring_history.

Theorem C18_horseshoe_history : forall o t s d len strengths,
  let h := fold_left (fun h s => hs_update_strength s h) strengths (new_horseshoe o t s d len) in
  horseshoe_consistent h /\ hs_strength h = last strengths s /\
  hs_finite_leg_origin h = o /\ hs_finite_leg_termination h = t /\
  hs_infinite_leg_direction h = d /\ hs_infinite_leg_length h = len.
Proof. exact horseshoe_history. Qed.
Print Assumptions C18_horseshoe_history.

(** ** C19  Collapsed = sum of expanded; superposition.
    The hypotheses say that the parallel arrays have one entry per vortex. *)
Theorem C19_ring_collapsed_is_sum : forall points br fr fl bl strengths ages nu i,
  length fr = length br -> length fl = length br -> length bl = length br -> length strengths = length br ->
  (forall a, ages = Some a -> length a = length br) ->
  nth_error (collapsed_ring points br fr fl bl strengths ages nu) i =
  option_map vsum (nth_error (expanded_ring points br fr fl bl strengths ages nu) i).
Proof. exact collapsed_is_sum_of_expanded_ring. Qed.
Print Assumptions C19_ring_collapsed_is_sum.

Theorem C19_horseshoe_collapsed_is_sum : forall points br fr fl bl strengths ages nu i,
  length fr = length br -> length fl = length br -> length bl = length br -> length strengths = length br ->
  (forall a, ages = Some a -> length a = length br) ->
  nth_error (collapsed_horseshoe points br fr fl bl strengths ages nu) i =
  option_map vsum (nth_error (expanded_horseshoe points br fr fl bl strengths ages nu) i).
Proof. exact collapsed_is_sum_of_expanded_horseshoe. Qed.
Print Assumptions C19_horseshoe_collapsed_is_sum.

Theorem C19_line_collapsed_is_sum : forall points segs nu i,
  nth_error (collapsed_line points segs nu) i = option_map vsum (nth_error (expanded_line points segs nu) i).
Proof. exact collapsed_is_sum_of_expanded_line. Qed.
Print Assumptions C19_line_collapsed_is_sum.

Theorem C19_ring_superposition : forall points (q1 q2 : list quad) nu,
  let vel q := collapsed_ring points (map q_br q) (map q_fr q) (map q_fl q) (map q_bl q)
                              (map q_strength q) (Some (map q_age q)) nu in
  vel (q1 ++ q2) = map2 vadd (vel q1) (vel q2).
Proof. exact superposition_ring. Qed.
Print Assumptions C19_ring_superposition.

Theorem C19_horseshoe_superposition : forall points (q1 q2 : list quad) nu,
  let vel q := collapsed_horseshoe points (map q_br q) (map q_fr q) (map q_fl q) (map q_bl q)
                              (map q_strength q) (Some (map q_age q)) nu in
  vel (q1 ++ q2) = map2 vadd (vel q1) (vel q2).
Proof. exact superposition_horseshoe. Qed.
Print Assumptions C19_horseshoe_superposition.

Theorem C19_line_superposition : forall points s1 s2 nu,
  collapsed_line points (s1 ++ s2) nu = map2 vadd (collapsed_line points s1 nu) (collapsed_line points s2 nu).
Proof. exact superposition_line. Qed.
Print Assumptions C19_line_superposition.

Example C19_hypotheses_met :
  exists row, nth_error (expanded_ring [vzero] [mkvec 1 1 0; mkvec 2 1 0] [mkvec 0 1 0; mkvec 1 1 0]
                                       [vzero; mkvec 1 0 0] [mkvec 1 0 0; mkvec 2 0 0] [1; 2] None 0) 0 = Some row /\
              length row = 2%nat.
Proof. eexists; split; reflexivity. Qed.

(** ** C20  Laws of the velocity induced by one straight vortex. *)
Theorem C20_zero_on_filament_line : forall a b t strength age nu,
  line_velocity (along a b t) a b strength age nu = vzero.
Proof. exact line_velocity_on_filament. Qed.
Print Assumptions C20_zero_on_filament_line.

(** Finite everywhere, with an explicit bound. *)
Theorem C20_finite : forall p a b strength age nu,
  vnorm (line_velocity p a b strength age nu)
  <= Rabs strength / (2 * PI) * (vnorm (vsub a p) + vnorm (vsub b p)) * 2 ^ 26.
Proof. exact line_velocity_finite. Qed.
Print Assumptions C20_finite.

(** Whenever the code divides, the divisor is positive, so no [x / 0] is hidden. *)
Theorem C20_no_division_by_zero : forall p a b strength age nu,
  (Rltb (vnorm (vsub a p)) eps || Rltb (vnorm (vsub b p)) eps
   || Rltb (vnorm (vcross (vsub a p) (vsub b p)) ^ 2) eps)%bool = false ->
  0 < vnorm (vsub a p) * vnorm (vsub b p) *
      (vnorm (vcross (vsub a p) (vsub b p)) ^ 2 + vnorm (vsub b a) ^ 2 * core_radius strength age nu ^ 2).
Proof. exact regular_denominator. Qed.
Print Assumptions C20_no_division_by_zero.

Theorem C20_perpendicular : forall p a b strength age nu,
  vdot (vsub p a) (line_velocity p a b strength age nu) = 0 /\
  vdot (vsub p b) (line_velocity p a b strength age nu) = 0 /\
  vdot (vsub b a) (line_velocity p a b strength age nu) = 0.
Proof. exact line_velocity_perp. Qed.
Print Assumptions C20_perpendicular.

Theorem C20_right_hand_rule : forall p a b strength age nu, 0 <= strength ->
  0 <= vdot (line_velocity p a b strength age nu) (vcross (vsub p a) (vsub p b)).
Proof. exact line_velocity_right_hand. Qed.
Print Assumptions C20_right_hand_rule.

Theorem C20_odd_in_strength : forall p a b strength age nu,
  line_velocity p a b (- strength) age nu = vopp (line_velocity p a b strength age nu).
Proof. exact line_velocity_odd. Qed.
Print Assumptions C20_odd_in_strength.

Theorem C20_odd_under_reversal : forall p a b strength age nu,
  line_velocity p b a strength age nu = vopp (line_velocity p a b strength age nu).
Proof. exact line_velocity_reverse. Qed.
Print Assumptions C20_odd_under_reversal.

Theorem C20_proportional_when_new : forall p a b k strength nu,
  line_velocity p a b (k * strength) 0 nu = vscale k (line_velocity p a b strength 0 nu).
Proof. exact line_velocity_linear. Qed.
Print Assumptions C20_proportional_when_new.

(** [m] preserves dot products, so it is a rotation ([mdet m = 1]) or a
    reflection combined with one ([mdet m = -1], which flips the sign). *)
Theorem C20_equivariant : forall m t p a b strength age nu,
  (forall u v, vdot (mvmul m u) (mvmul m v) = vdot u v) ->
  line_velocity (vadd (mvmul m p) t) (vadd (mvmul m a) t) (vadd (mvmul m b) t) strength age nu
  = vscale (mdet m) (mvmul m (line_velocity p a b strength age nu)).
Proof. exact line_velocity_isometry. Qed.
Print Assumptions C20_equivariant.

(** No faster than the infinite vortex at the same distance: a vortex whose line keeps the
    distance [h] induces at most strength / (2 pi h), whatever its age. *)
Theorem C20_decay : forall p a b strength age nu h, 0 < h -> a <> b ->
  (forall t, h <= vnorm (vsub p (vadd a (vscale t (vsub b a))))) ->
  vnorm (line_velocity p a b strength age nu) <= Rabs strength / (2 * PI * h).
Proof. exact line_velocity_far. Qed.
Print Assumptions C20_decay.

Example C20_decay_applies : vzero <> mkvec 1 0 0 /\
  forall t, 1 <= vnorm (vsub (mkvec 0 1 0) (vadd vzero (vscale t (vsub (mkvec 1 0 0) vzero)))).
Proof. exact far_example. Qed.

(** What age does: the velocity is that of a new vortex times h^2 / (h^2 + r^2), where [h] is the
    distance from the vortex's line and r^2 = 4 * 1.25643 * (nu + |strength| / 10^4) * age is
    the square of the core radius. *)
Theorem C20_core : forall p a b strength age nu h, 0 <= nu -> 0 <= age ->
  h * vnorm (vsub b a) = vnorm (vcross (vsub a p) (vsub b p)) ->
  line_velocity p a b strength age nu =
  vscale (h ^ 2 / (h ^ 2 + 4 * (125643 / 100000) * (nu + Rabs strength / 10000) * age)) (line_velocity p a b strength 0 nu).
Proof. exact line_velocity_core. Qed.
Print Assumptions C20_core.
Example C20_core_applies : 1 * vnorm (vsub (mkvec 1 0 0) vzero) = vnorm (vcross (vsub vzero (mkvec 0 1 0)) (vsub (mkvec 1 0 0) (mkvec 0 1 0))).
Proof. exact core_example. Qed.

(** Away from the cut-offs and without a core, the textbook Biot-Savart law. *)
Theorem C20_biot_savart : forall p a b strength nu,
  (Rltb (vnorm (vsub a p)) eps || Rltb (vnorm (vsub b p)) eps
   || Rltb (vnorm (vcross (vsub a p) (vsub b p)) ^ 2) eps)%bool = false ->
  line_velocity p a b strength 0 nu = biot_savart p a b strength.
Proof. exact line_velocity_biot_savart. Qed.
Print Assumptions C20_biot_savart.

(** The same as an integral along the filament: strength / (4 pi) times the integral of
    dl x r / |r|^3 ([S_BiotSavart]). *)
Theorem C20_line_integral : forall p a b strength nu,
  (Rltb (vnorm (vsub a p)) eps || Rltb (vnorm (vsub b p)) eps
   || Rltb (vnorm (vcross (vsub a p) (vsub b p)) ^ 2) eps)%bool = false ->
  vector_integral (induced_by_piece p a b strength) 0 1 (line_velocity p a b strength 0 nu).
Proof. exact continuous_line_integral. Qed.
Print Assumptions C20_line_integral.

(** Without the cut-off hypothesis the law fails: the guards are absolute
    lengths, so a short filament induces nothing at points off its line. *)
Theorem C20_biot_savart_everywhere_refuted :
  exists p a b strength, vcross (vsub p a) (vsub p b) <> vzero /\
    line_velocity p a b strength 0 0 = vzero /\ biot_savart p a b strength <> vzero.
Proof. exact cutoff_refutes_biot_savart. Qed.
Print Assumptions C20_biot_savart_everywhere_refuted.

Example C20_hypotheses_met :
  (Rltb (vnorm (vsub vzero (mkvec 0 1 0))) eps || Rltb (vnorm (vsub (mkvec 1 0 0) (mkvec 0 1 0))) eps
   || Rltb (vnorm (vcross (vsub vzero (mkvec 0 1 0)) (vsub (mkvec 1 0 0) (mkvec 0 1 0))) ^ 2) eps)%bool = false.
Proof. exact regular_example. Qed.

(** ** C21  Rings and horseshoes are the sum of their directed legs. *)
Theorem C21_ring_is_four_legs : forall point br fr fl bl strength age nu,
  collapsed_ring [point] [br] [fr] [fl] [bl] [strength] (Some [age]) nu =
  [vsum [line_velocity point br fr strength age nu; line_velocity point fr fl strength age nu;
         line_velocity point fl bl strength age nu; line_velocity point bl br strength age nu]].
Proof. exact ring_four_legs. Qed.
Print Assumptions C21_ring_is_four_legs.

Theorem C21_horseshoe_is_three_legs : forall point br fr fl bl strength age nu,
  collapsed_horseshoe [point] [br] [fr] [fl] [bl] [strength] (Some [age]) nu =
  [vsum [line_velocity point br fr strength age nu; line_velocity point fr fl strength age nu;
         line_velocity point fl bl strength age nu]].
Proof. exact horseshoe_three_legs. Qed.
Print Assumptions C21_horseshoe_is_three_legs.

(** Any number of points and vortices. *)
Theorem C21_rings_at_points : forall points (qs : list quad) nu,
  collapsed_ring points (map q_br qs) (map q_fr qs) (map q_fl qs) (map q_bl qs) (map q_strength qs) (Some (map q_age qs)) nu =
  map (fun x => vsum (map (fun q => let v o t := line_velocity x o t (q_strength q) (q_age q) nu in
    vsum [v (q_br q) (q_fr q); v (q_fr q) (q_fl q); v (q_fl q) (q_bl q); v (q_bl q) (q_br q)]) qs)) points.
Proof. exact rings_at_points. Qed.
Print Assumptions C21_rings_at_points.

Theorem C21_horseshoes_at_points : forall points (qs : list quad) nu,
  collapsed_horseshoe points (map q_br qs) (map q_fr qs) (map q_fl qs) (map q_bl qs) (map q_strength qs) (Some (map q_age qs)) nu =
  map (fun x => vsum (map (fun q => let v o t := line_velocity x o t (q_strength q) (q_age q) nu in
    vsum [v (q_br q) (q_fr q); v (q_fr q) (q_fl q); v (q_fl q) (q_bl q)]) qs)) points.
Proof. exact horseshoes_at_points. Qed.
Print Assumptions C21_horseshoes_at_points.

(** Without the spanwise legs: the right and the left one. *)
Theorem C21_chordwise_legs_at_points : forall points (qs : list quad) nu,
  collapsed_ring_chordwise points (map q_br qs) (map q_fr qs) (map q_fl qs) (map q_bl qs) (map q_strength qs) (Some (map q_age qs)) nu =
  map (fun x => vsum (map (fun q => let v o t := line_velocity x o t (q_strength q) (q_age q) nu in
    vsum [v (q_br q) (q_fr q); v (q_fl q) (q_bl q)]) qs)) points.
Proof. exact chordwise_legs_at_points. Qed.
Print Assumptions C21_chordwise_legs_at_points.

(** Two new rings of equal strength side by side (the second has the first's
    left corners as its right corners): only the outer circuit remains. *)
Theorem C21_shared_edge_cancels : forall point br fr fl bl fl' bl' strength nu,
  collapsed_ring [point] [br; bl] [fr; fl] [fl; fl'] [bl; bl'] [strength; strength] None nu =
  [vsum [line_velocity point br fr strength 0 nu; line_velocity point fr fl strength 0 nu;
         line_velocity point fl fl' strength 0 nu; line_velocity point fl' bl' strength 0 nu;
         line_velocity point bl' bl strength 0 nu; line_velocity point bl br strength 0 nu]].
Proof. exact shared_side_cancels. Qed.
Print Assumptions C21_shared_edge_cancels.

(** One behind the other: the second ring's front corners are the first's back corners. *)
Theorem C21_shared_back_edge_cancels : forall point br fr fl bl br' bl' strength nu,
  collapsed_ring [point] [br; br'] [fr; br] [fl; bl] [bl; bl'] [strength; strength] None nu =
  [vsum [line_velocity point br' br strength 0 nu; line_velocity point br fr strength 0 nu;
         line_velocity point fr fl strength 0 nu; line_velocity point fl bl strength 0 nu;
         line_velocity point bl bl' strength 0 nu; line_velocity point bl' br' strength 0 nu]].
Proof. exact shared_back_cancels. Qed.
Print Assumptions C21_shared_back_edge_cancels.
