(** The legs shared by neighbouring rings of the steady ring solver. *)
From Coq Require Import Lra Lia.
From Verif Require Import M_SteadyRing S_Geometry S_Vortices S_Solve S_Loads
  L_Base L_Rotations L_Aero L_Loads L_Horseshoe L_SteadyRing.

Lemma mapiM_nth {A B} (f : nat -> A -> result B) l m i y : mapiM f l = Ok m -> nth_error m i = Some y ->
  exists x, nth_error l i = Some x /\ f i x = Ok y.
Proof.
  intros E Hy. apply mapiM_Forall2 in E. destruct (Forall2_nth _ _ _ E i y Hy) as ([k x] & Hx & Hf).
  rewrite nth_error_combine, nth_error_seq0 in Hx. destruct (Nat.ltb i (length l)); [|discriminate].
  destruct (nth_error l i) as [x'|]; [|discriminate]. injection Hx as <- <-. eauto.
Qed.
Lemma Forall2_In_r {A B} (P : A -> B -> Prop) l m y : Forall2 P l m -> In y m -> exists x, In x l /\ P x y.
Proof.
  intros F Hy. apply In_nth_error in Hy. destruct Hy as [i Hi].
  destruct (Forall2_nth _ _ _ F i y Hi) as (x & Hx & HP). apply nth_error_In in Hx. eauto.
Qed.
Lemma position_rel (P : panel -> panel -> Prop) m n c j q : Forall2 (Forall2 P) m n -> at_position n c j q ->
  exists p, at_position m c j p /\ P p q.
Proof.
  intros F (row & Hr & Hq). destruct (Forall2_nth _ _ _ F c row Hr) as (row0 & Hr0 & Fr).
  destruct (Forall2_nth _ _ _ Fr j q Hq) as (p & Hp & HP). exists p; split; [exists row0; auto | exact HP].
Qed.
Lemma position_rel_l (P : panel -> panel -> Prop) m n c j p : Forall2 (Forall2 P) m n -> at_position m c j p ->
  exists q, at_position n c j q /\ P p q.
Proof.
  intros F (row & Hr & Hp). destruct (Forall2_nth_l _ _ _ F c row Hr) as (row0 & Hr0 & Fr).
  destruct (Forall2_nth_l _ _ _ Fr j p Hp) as (q & Hq & HP). exists q; split; [exists row0; auto | exact HP].
Qed.
Lemma position_unique m c j p q : at_position m c j p -> at_position m c j q -> p = q.
Proof. intros (r & Hr & Hp) (r' & Hr' & Hq). congruence. Qed.

(** Same panel, and a ring in the same place. *)
Definition ring_stays (p q : panel) : Prop :=
  same_panel p q /\
  forall r, p_ring_vortex p = Some r -> exists r', p_ring_vortex q = Some r' /\ ring_position r' = ring_position r.
Lemma ring_set_strength_stays p g q : ring_set_strength p g = Ok q -> ring_stays p q.
Proof.
  intros E. split; [eapply ring_set_strength_same; exact E|]. intros r Hr.
  apply ring_strength_set in E. destruct E as (r0 & Hr0 & Hq). rewrite Hr in Hr0. injection Hr0 as <-.
  eexists; split; [exact Hq | reflexivity].
Qed.
Lemma Forall3_13' {A B C} (P : A -> B -> C -> Prop) (Q : A -> C -> Prop) xs ys zs :
  (forall x y z, P x y z -> Q x z) -> Forall3 P xs ys zs -> Forall2 Q xs zs.
Proof. intros H F; induction F; constructor; eauto. Qed.

Definition stays_wing (w v : wing) : Prop :=
  same_wing w v /\ Forall2 (Forall2 ring_stays) (w_panels w) (w_panels v).
Lemma updated_stays l xs l' : update_panels ring_set_strength l xs = Ok l' ->
  Forall2 (fun a b => Forall2 stays_wing (a_wings a) (a_wings b)) l l'.
Proof.
  intros E. apply update_panels_sound in E. destruct E as (us & rest & _ & F). revert F. apply Forall3_13'.
  intros a u b (ws & useds & -> & _ & F). cbn. revert F. apply Forall3_13'.
  intros w u' v (m & used' & -> & _ & F).
  assert (F2 : Forall2 (Forall2 ring_stays) (w_panels w) m).
  { revert F. apply Forall3_13'. intros row ur row' Fr. revert Fr. apply Forall3_13'.
    intros p g q. apply ring_set_strength_stays. }
  split; [split; [reflexivity|]|exact F2]. cbn. eapply Forall2_impl; [|exact F2]. intros r r' Fr.
  eapply Forall2_impl; [|exact Fr]. intros p q [H _]; exact H.
Qed.
Lemma kept_stays l l' op fs ms : process_forces op fs ms l = Ok l' ->
  Forall2 (fun a b => Forall2 stays_wing (a_wings a) (a_wings b)) l l'.
Proof.
  intros E. apply process_forces_sound in E. destruct E as (us & rest & _ & F). revert F. apply Forall3_13'.
  intros a u b H. apply totalled_kept in H. destruct H as [_ F]. eapply Forall2_impl; [|exact F].
  intros w v [Hs Fk]. split; [exact Hs|]. eapply Forall2_impl; [|exact Fk]. intros r r' Fr.
  eapply Forall2_impl; [|exact Fr]. intros p q (H & Hr & _). split; [exact H|].
  intros x Hx. exists x. rewrite Hr. auto.
Qed.

(** Where the rings of a solved wing lie. *)
Lemma ring_final_wing solve s s' a w : ring_run solve s = Ok s' -> In a (rso_airplanes s') -> In w (a_wings a) ->
  exists a0 w0, In a0 (rso_airplanes s) /\ In w0 (a_wings a0) /\ same_wing w0 w /\
  forall c j p, at_position (w_panels w) c j p ->
  exists p0 q0, at_position (w_panels w0) c j p0 /\
    ring_init_panel (freestream_direction (rso_op s)) (w_span w0 * 20) (w_panels w0) c j p0 = Ok q0 /\ ring_stays q0 p /\ same_panel p0 p.
Proof.
  intros E Ha Hw. apply ring_run_inv in E.
  destruct E as (l0 & l1 & loads & Ei & Ec & Eo & Ev & _ & Ex & Eh & Eu & El & Ep).
  apply updated_stays in Eu. apply kept_stays in Ep.
  destruct (Forall2_In_r _ _ _ _ Ep Ha) as (a1 & Ha1 & F1). destruct (Forall2_In_r _ _ _ _ F1 Hw) as (w1 & Hw1 & Hs1 & G1).
  destruct (Forall2_In_r _ _ _ _ Eu Ha1) as (a2 & Ha2 & F2). destruct (Forall2_In_r _ _ _ _ F2 Hw1) as (w2 & Hw2 & Hs2 & G2).
  unfold ring_init in Ei. apply mapM_Forall2 in Ei. destruct (Forall2_In_r _ _ _ _ Ei Ha2) as (a3 & Ha3 & F3).
  unfold ring_init_airplane in F3. inv_ok F3. injection F3 as <-. cbn in Hw2. apply mapM_Forall2 in E.
  destruct (Forall2_In_r _ _ _ _ E Hw2) as (w3 & Hw3 & F3).
  exists a3, w3. split; [exact Ha3|]. split; [exact Hw3|].
  split; [eapply same_wing_trans; [eapply ring_init_wing_same; exact F3 | eapply same_wing_trans; eauto]|].
  intros c j p Hp. destruct (position_rel _ _ _ _ _ _ G1 Hp) as (p1 & Hp1 & S1).
  destruct (position_rel _ _ _ _ _ _ G2 Hp1) as (p2 & Hp2 & S2).
  unfold ring_init_wing in F3. inv_ok F3. injection F3 as <-. cbn in Hp2.
  destruct Hp2 as (row & Hrow & Hj). destruct (mapiM_nth _ _ _ _ _ E0 Hrow) as (row0 & Hrow0 & Er).
  destruct (mapiM_nth _ _ _ _ _ Er Hj) as (p0 & Hp0 & Eq). exists p0, p2.
  split; [exists row0; auto|]. split; [exact Eq|]. destruct S1 as [T1 R1]. destruct S2 as [T2 R2].
  assert (T : same_panel p2 p) by (eapply same_panel_trans; eauto).
  split; [split; [exact T|]|].
  - intros r Hr. destruct (R2 r Hr) as (r1 & Hr1 & E1). destruct (R1 r1 Hr1) as (r2 & Hr2 & E2). exists r2; split; congruence.
  - apply ring_init_panel_ok in Eq. eapply same_panel_trans; [apply Eq | exact T].
Qed.

(** The right leg of a ring is the left leg of its right neighbour, reversed. *)
Lemma watertight_same w v : same_wing w v -> spanwise_watertight (w_panels w) -> spanwise_watertight (w_panels v).
Proof.
  intros [_ F] H c s p q Hp Hq.
  destruct (position_rel _ _ _ _ _ _ F Hp) as (p0 & Hp0 & P). destruct (position_rel _ _ _ _ _ _ F Hq) as (q0 & Hq0 & Q).
  destruct (H _ _ _ _ Hp0 Hq0) as [E1 E2]. unfold shares_edge. destruct P as (-> & _ & _ & -> & _). destruct Q as (_ & -> & -> & _). split; assumption.
Qed.
Lemma shares_edge_vortex p q : shares_edge p q -> p_front_right_vortex_vertex p = p_front_left_vortex_vertex q.
Proof.
  intros [H1 H2]. unfold p_front_right_vortex_vertex, p_front_left_vortex_vertex, p_right_leg, p_left_leg.
  rewrite H1, H2. vunfold; apply vec_ext; cbn; lra.
Qed.
Lemma ring_positions_shared d len m c j p q p' q' r r' : well_meshed m -> spanwise_watertight m ->
  at_position m c j p -> at_position m c (S j) q ->
  ring_init_panel d len m c j p = Ok p' -> ring_init_panel d len m c (S j) q = Ok q' ->
  p_ring_vortex p' = Some r -> p_ring_vortex q' = Some r' ->
  rv_front_right r = rv_front_left r' /\ rv_back_right r = rv_back_left r'.
Proof.
  intros Hm Hwt Hp Hq Ep Eq Hr Hr'. pose proof (Hwt _ _ _ _ Hp Hq) as Hs.
  assert (Ete : p_is_trailing_edge p = p_is_trailing_edge q).
  { destruct Hm as [_ Hm]. destruct Hp as (row & A & B). destruct Hq as (row' & A' & B').
    destruct (Hm _ _ _ _ A B) as (_ & -> & _). destruct (Hm _ _ _ _ A' B') as (_ & -> & _). reflexivity. }
  unfold ring_init_panel in Ep, Eq. rewrite <- Ete in Eq. destruct (p_is_trailing_edge p).
  - injection Ep as <-. injection Eq as <-. cbn in Hr, Hr'. injection Hr as <-. injection Hr' as <-. cbn.
    rewrite (shares_edge_vortex _ _ Hs). split; [reflexivity|]. destruct Hs as [-> ->]. reflexivity.
  - inv_ok Ep. inv_ok Eq. injection Ep as <-. injection Eq as <-. cbn in Hr, Hr'. injection Hr as <-. injection Hr' as <-. cbn.
    split; [apply shares_edge_vortex; exact Hs|]. apply shares_edge_vortex.
    apply panel_at_spec in E. apply panel_at_spec in E0. eapply Hwt; eauto.
Qed.

Lemma leg_reversed l l' a b s s' : leg_is l a b s -> leg_is l' b a s' ->
  lv_vector l' = vopp (lv_vector l) /\ lv_center l' = lv_center l.
Proof.
  intros (_ & _ & _ & V & C) (_ & _ & _ & V' & C'). rewrite V, V', C, C'. unfold midpoint. split; vring.
Qed.

(** Both neighbours' forces contain the whole force on the shared leg. *)
Lemma ring_shared_leg_twice solve s s' : SolveSpec solve -> sized_ring s ->
  (forall a w, In a (rso_airplanes s) -> In w (a_wings a) -> well_meshed (w_panels w) /\ spanwise_watertight (w_panels w)) ->
  ring_run solve s = Ok s' ->
  forall a w c j p q, In a (rso_airplanes s') -> In w (a_wings a) ->
  at_position (w_panels w) c j p -> at_position (w_panels w) c (S j) q ->
  exists r r' v vp up vq uq,
    p_ring_vortex p = Some r /\ p_ring_vortex q = Some r' /\
    rv_front_right r = rv_front_left r' /\ rv_back_right r = rv_back_left r' /\
    ring_solution_velocity s' [lv_center (rv_right_leg r)] = [v] /\
    ring_solution_velocity s' [lv_center (rv_front_leg r)] = [vp] /\
    ring_solution_velocity s' [lv_center (rv_left_leg r)] = [up] /\
    ring_solution_velocity s' [lv_center (rv_front_leg r')] = [vq] /\
    ring_solution_velocity s' [lv_center (rv_right_leg r')] = [uq] /\
    let rho := op_density (rso_op s') in
    let shared := vscale (rho * (rv_strength r - rv_strength r')) (vcross v (lv_vector (rv_right_leg r))) in
    p_force_geometry p =
      Some (vadd (vadd (vscale (rho * net_front (w_panels w) c j) (vcross vp (lv_vector (rv_front_leg r))))
                       (vscale (rho * net_left (w_panels w) c j) (vcross up (lv_vector (rv_left_leg r))))) shared) /\
    p_force_geometry q =
      Some (vadd (vadd (vscale (rho * net_front (w_panels w) c (S j)) (vcross vq (lv_vector (rv_front_leg r'))))
                       (vscale (rho * net_right (w_panels w) c (S j)) (vcross uq (lv_vector (rv_right_leg r'))))) shared).
Proof.
  intros HS Hsz Hm E a w c j p q Ha Hw Hp Hq.
  assert (Hm' : forall a w, In a (rso_airplanes s) -> In w (a_wings a) -> well_meshed (w_panels w)) by (intros; eapply Hm; eauto).
  destruct (ring_kutta_joukowski _ _ _ HS Hsz Hm' E a w c j p Ha Hw Hp) as (r & vr & vf & vl & Hr & Cr & V1 & V2 & V3 & F & _).
  destruct (ring_kutta_joukowski _ _ _ HS Hsz Hm' E a w c (S j) q Ha Hw Hq) as (r' & vr' & vf' & vl' & Hr' & Cr' & V1' & V2' & V3' & F' & _).
  destruct (ring_final_wing _ _ _ _ _ E Ha Hw) as (a0 & w0 & Ha0 & Hw0 & Hsw & Hpos).
  destruct (Hm _ _ Ha0 Hw0) as [Hwm Hwt].
  destruct (Hpos _ _ _ Hp) as (p0 & p1 & Hp0 & Ip & [Sp Rp] & Sp0). destruct (Hpos _ _ _ Hq) as (q0 & q1 & Hq0 & Iq & [Sq Rq] & Sq0).
  pose proof (ring_init_panel_ok _ _ _ _ _ _ _ Ip) as (_ & (rp & Hrp & _) & _).
  pose proof (ring_init_panel_ok _ _ _ _ _ _ _ Iq) as (_ & (rq & Hrq & _) & _).
  destruct (ring_positions_shared _ _ _ _ _ _ _ _ _ _ _ Hwm Hwt Hp0 Hq0 Ip Iq Hrp Hrq) as [S1 S2].
  destruct (Rp rp Hrp) as (r1 & Hr1 & E1). rewrite Hr in Hr1. injection Hr1 as <-.
  destruct (Rq rq Hrq) as (r2 & Hr2 & E2). rewrite Hr' in Hr2. injection Hr2 as <-.
  unfold ring_position in E1, E2. injection E1 as E11 E12 E13 E14. injection E2 as E21 E22 E23 E24.
  rewrite <- E12, <- E21 in S1. rewrite <- E14, <- E23 in S2.
  destruct Cr as (_ & _ & _ & Cright & _). destruct Cr' as (_ & Cleft & _).
  rewrite <- S1, <- S2 in Cleft. destruct (leg_reversed _ _ _ _ _ _ Cright Cleft) as [LV LC].
  rewrite LC, V1 in V3'. injection V3' as <-.
  assert (G : circulation (w_panels w) c j = rv_strength r).
  { destruct Hp as (row & A & B). unfold circulation. rewrite A, B, Hr. reflexivity. }
  assert (G' : circulation (w_panels w) c (S j) = rv_strength r').
  { destruct Hq as (row & A & B). unfold circulation. rewrite A, B, Hr'. reflexivity. }
  exists r, r', vr, vf, vl, vf', vr'. repeat (split; [assumption|]). cbv zeta in F, F' |- *. split.
  - rewrite F. unfold net_right. rewrite G, G'. reflexivity.
  - rewrite F'. f_equal. rewrite LV. unfold net_left at 1. rewrite G, G'. clear. vring.
Qed.

(** The rings of the solved airplanes carry the solved strengths, in order. *)
Lemma ring_final_strengths solve s s' : SolveSpec solve -> sized_ring s -> ring_run solve s = Ok s' ->
  map (fun p => option_map rv_strength (p_ring_vortex p)) (all_panels (rso_airplanes s')) = map Some (rso_strengths s').
Proof.
  intros HS Hsz E. destruct (ring_sized_run _ _ _ HS Hsz E) as (Lx & _). apply ring_run_inv in E.
  destruct E as (a0 & a1 & loads & Ei & Ec & _ & _ & _ & _ & _ & Eu & _ & Ep).
  assert (K : map (fun p => option_map rv_strength (p_ring_vortex p)) (all_panels (rso_airplanes s')) =
              map (fun p => option_map rv_strength (p_ring_vortex p)) (all_panels a1)).
  { apply process_forces_sound in Ep. destruct Ep as (us & rest & _ & F). clear -F. unfold all_panels.
    induction F as [|a u a' l us l' H _ IH]; cbn; [reflexivity|]. rewrite !map_app, IH. f_equal.
    destruct H as (_ & -> & L & _). revert u L. induction (airplane_panels a) as [|p l0 IHl]; intros [|x u]; cbn; try discriminate; intros L; [reflexivity|].
    injection L as L. rewrite IHl by exact L. reflexivity. }
  rewrite K. apply update_panels_sound in Eu. destruct Eu as (us & rest & Exs & F). apply airplanes_updated_panels in F.
  assert (N : length (all_panels a0) = length (rso_rows s')).
  { rewrite <- (ring_collapse_panels _ _ Ec), map_length; reflexivity. }
  destruct (app_length_nil _ _ _ Exs) as [-> Exs'].
  { destruct (Forall3_length _ _ _ _ F) as [-> _]. rewrite N, Lx; reflexivity. }
  rewrite Exs'. clear -F. induction F as [|p g q ps gs qs H _ IH]; cbn; [reflexivity|]. rewrite IH. f_equal.
  apply ring_strength_set in H. destruct H as (r & _ & ->). reflexivity.
Qed.
