(** A wing carried somewhere else by a rigid motion. *)
From Coq Require Import Lra Lia.
From Verif Require Import M_Geometry M_Loads S_Geometry S_Mirror S_Loads S_Rigid
  L_Base L_Loads L_Rotations L_Geometry L_Rigid L_RigidShift L_Frames L_Example L_Example6.

Definition carried_panel (m : mat) (t : vec) (p : panel) : panel :=
  mkpanel (moved m t (p_front_right p)) (moved m t (p_front_left p)) (moved m t (p_back_left p)) (moved m t (p_back_right p))
    (p_is_leading_edge p) (p_is_trailing_edge p) (p_is_right_edge p) (p_is_left_edge p)
    (p_local_chordwise p) (p_local_spanwise p)
    (p_ring_vortex p) (p_horseshoe_vortex p) (p_force_geometry p) (p_moment_geometry p)
    (p_force_wind p) (p_moment_wind p) (p_induced_drag_coefficient p)
    (p_side_force_coefficient p) (p_lift_coefficient p).
Definition carried_airplane (m : mat) (t : vec) (a : airplane) : airplane :=
  a_set_wings (map (fun w => w_set_panels (map (map (carried_panel m t)) (w_panels w)) w) (a_wings a)) a.

Lemma carried_moved m t a : moved_airplane (fun _ _ => moved_panel m t) a (carried_airplane m t a).
Proof.
  split; [reflexivity|]. split; [reflexivity|]. split; [reflexivity|]. unfold carried_airplane. cbn [a_wings a_set_wings].
  induction (a_wings a) as [|w ws IH]; constructor; [|exact IH]. clear IH. split; [reflexivity|]. cbn [w_panels w_set_panels].
  induction (w_panels w) as [|row rows IH]; constructor; [|exact IH]. clear IH.
  induction row as [|p ps IH]; constructor; [|exact IH]. unfold moved_panel. cbn. auto.
Qed.
Lemma carried_meshed m t a : well_meshed_airplane a -> well_meshed_airplane (carried_airplane m t a).
Proof.
  intros [HW HN]. split.
  - intros w Hw. unfold carried_airplane in Hw. cbn [a_wings a_set_wings] in Hw. apply in_map_iff in Hw. destruct Hw as (v & <- & Hv).
    destruct (HW v Hv) as [HL HF]. cbn [w_panels w_set_panels]. split.
    + intros row Hrow. apply in_map_iff in Hrow. destruct Hrow as (r & <- & Hr). rewrite map_length, (HL r Hr).
      destruct (w_panels v); [destruct Hr | cbn; rewrite map_length; reflexivity].
    + intros c row s p Hc Hs. rewrite nth_error_map in Hc. destruct (nth_error (w_panels v) c) as [r|] eqn:Er; [|discriminate].
      cbn [option_map] in Hc. apply Some_eq in Hc. subst row. rewrite nth_error_map in Hs.
      destruct (nth_error r s) as [q|] eqn:Eq; [|discriminate]. cbn [option_map] in Hs. apply Some_eq in Hs. subst p.
      rewrite !map_length. exact (HF c r s q Er Eq).
  - unfold carried_airplane. cbn [a_num_panels a_set_wings]. rewrite HN. unfold airplane_panels. cbn [a_wings a_set_wings].
    clear HN HW. induction (a_wings a) as [|w ws IH]; [reflexivity|]. cbn [map concat]. rewrite !app_length, IH. clear IH.
    f_equal. unfold ravel. cbn [w_panels w_set_panels]. rewrite <- concat_map, map_length. reflexivity.
Qed.
