(** A tapered, swept, symmetric wing of wedge sections, to show that the hypotheses of
    the planform theorems are met. *)
From Coq Require Import Lra Lia Psatz.
From Verif Require Import M_Geometry S_Geometry S_Airfoil S_Wing S_Planform L_Base L_Functions L_Panel L_Airfoil L_Camber L_Surface L_Meshing L_Geometry L_Chord L_Loads L_Tighten L_Example L_Planform L_PlanformWing L_PlanformChords.
Local Open Scope R_scope.
Local Open Scope string_scope.

Definition no_database : list ascii -> option (list R) := fun _ => None.
Definition wedge_section (a : airfoil) (x y chord : R) : section :=
  mksection a x y 0 chord (mkvec 0 1 0) 0 "symmetric" (75 / 100) 0 2 "uniform" None.
Lemma tapered_created : exists a w,
  new_airfoil straight no_database "wedge" (Some wedge) true 2 = Ok a /\
  new_wing [wedge_section a 0 0 4; wedge_section a 1 3 2] "wing" 0 0 0 (mkvec 0 1 0) true (mkvec 1 0 0) 3 "cosine" = Ok w.
Proof.
  destruct (wedge_repanelled no_database) as (a & Ea & HB & _). exists a.
  assert (HC : exists w, new_wing [wedge_section a 0 0 4; wedge_section a 1 3 2] "wing" 0 0 0 (mkvec 0 1 0) true (mkvec 1 0 0) 3 "cosine" = Ok w).
  { apply wing_created_iff; [intros E; apply (f_equal vy) in E; cbn in E; lra|]. split.
    - unfold wing_rules. rewrite !all_hold_cons. cbn [length]. split; [lia|]. split; [left; reflexivity|]. split; [intros r E; injection E as <-; reflexivity|].
      split; [intros r E; injection E as <-; reflexivity|]. split; [unfold vdot; cbn; ring|]. split; [|intros P e []].
      intros s [<-|[<-|[]]]; unfold vdot; cbn; ring.
    - split; [lia|]. intros i o [E|[]]. injection E as <- <-. cbv zeta. change (cs_control_surface_deflection (wedge_section a 0 0 4)) with 0. change (cs_control_surface_hinge_point (wedge_section a 0 0 4)) with (75 / 100). change (cs_num_spanwise_panels (wedge_section a 0 0 4)) with 2%nat.
      assert (EP : port_deflection (wedge_section a 0 0 4) = 0) by (unfold port_deflection; cbn; reflexivity || ring). rewrite EP.
      assert (T : exists a', add_control_surface a 0 (75 / 100) = Ok a').
      { refine (zero_deflection_succeeds _ _ _ _ _ _ _ 2 _ Ea HB (le_n 2) _). destruct (repanelled_line _ _ _ _ _ _ (le_n 2) Ea) as [_ HX].
        pose proof (cosspace_last 0 1 2 (le_n 2)) as HL. rewrite <- HX in HL. apply nth_error_In, in_map_iff in HL. destruct HL as (m & Em & Hm). exists m. split; [exact Hm|rewrite Em; lra]. }
      split; [exact T|]. split; [exact T|]. intros _. split; [lia|]. split; exact T. }
  destruct HC as (w & E). exists w. split; assumption.
Qed.
Lemma wedge_plain a x y chord : new_airfoil straight no_database "wedge" (Some wedge) true 2 = Ok a -> 0 <= chord -> plain (wedge_section a x y chord).
Proof. intros E H. split; [reflexivity|]. split; [exact H|]. exists straight, no_database, "wedge", (Some wedge), 2%nat. split; [lia|exact E]. Qed.
Lemma tapered_values : exists a w,
  new_wing [wedge_section a 0 0 4; wedge_section a 1 3 2] "wing" 0 0 0 (mkvec 0 1 0) true (mkvec 1 0 0) 3 "cosine" = Ok w /\
  plain (wedge_section a 0 0 4) /\ plain (wedge_section a 1 3 2) /\ reach (mkvec 0 1 0) (wedge_section a 0 0 4, wedge_section a 1 3 2) = 3 /\
  w_span w = 6 /\ w_projected_area w = 18 /\ w_standard_mean_chord w = 3 /\ w_mean_aerodynamic_chord w = 28 / 9.
Proof.
  destruct tapered_created as (a & w & Ea & Ew). exists a, w. split; [exact Ew|].
  assert (P1 : plain (wedge_section a 0 0 4)) by (apply wedge_plain; [exact Ea|lra]). assert (P2 : plain (wedge_section a 1 3 2)) by (apply wedge_plain; [exact Ea|lra]). split; [exact P1|]. split; [exact P2|].
  assert (HR : reach (mkvec 0 1 0) (wedge_section a 0 0 4, wedge_section a 1 3 2) = 3) by (unfold reach, vdot, vsub, cs_leading_edge; cbn; ring). split; [exact HR|].
  assert (N1 : vnorm (mkvec 0 1 0) = 1) by (unfold vnorm, vdot; cbn; replace (0 * 0 + 1 * 1 + 0 * 0) with 1 by ring; apply sqrt_1). assert (N2 : vnorm (mkvec 1 0 0) = 1) by (unfold vnorm, vdot; cbn; replace (1 * 1 + 0 * 0 + 0 * 0) with 1 by ring; apply sqrt_1).
  assert (HS : w_span w = 6).
  { destruct (wing_mesh _ _ _ _ _ _ _ _ _ _ _ Ew) as (m0 & _ & EW). rewrite (span_is_distance w (cs_set_wing_chordwise (mkvec 1 0 0) (wedge_section a 0 0 4)) (cs_set_wing_chordwise (mkvec 1 0 0) (wedge_section a 1 3 2))); rewrite EW; try reflexivity; [|exact N1].
    cbn [w_symmetric w_unit_normal]. match goal with |- 2 * Rabs ?r = _ => change r with (reach (mkvec 0 1 0) (wedge_section a 0 0 4, wedge_section a 1 3 2)) end. rewrite HR, Rabs_pos_eq by lra. ring. }
  destruct (tapered_wing _ _ _ _ _ _ _ _ _ _ _ _ Ew N1 N2 P1 P2 eq_refl eq_refl eq_refl ltac:(cbn; lia) ltac:(rewrite HR; lra) ltac:(cbn; lra)) as (A1 & A2 & A3).
  cbn [cs_chord wedge_section] in A1, A2, A3. rewrite HS in A1. split; [exact HS|]. split; [rewrite A1; field|]. split; [rewrite A2; field|rewrite A3; field].
Qed.
(** A twisted plate: seen from above it is shorter than its chord. *)
Lemma twisted_plate : let s := mksection (flat_named "plate") 0 0 0 4 (mkvec 0 1 0) 60 "symmetric" (75 / 100) 0 1 "uniform" None in
  lies_open s /\ seen_chord s = 2.
Proof.
  intros s. assert (EC : cos (60 * PI / 180) = 1 / 2) by (replace (60 * PI / 180) with (PI / 3) by field; apply cos_PI3).
  assert (B : forall p, back s p = fst p * (1 / 2) + snd p * sin (60 * PI / 180)) by (intros p; unfold back; change (cs_twist s) with 60; rewrite EC; reflexivity).
  split.
  - split.
    + exists straight, no_database, "plate", (Some flat_coordinates), false, 400%nat, 2%nat. split; [apply new_flat|].
      split; [lia|]. split; [reflexivity|]. exists (0, 0). split; [reflexivity|]. split.
      * intros p [<-|[<-|[<-|[]]]]; cbn; lra.
      * intros [|i] p Hp Hi; [injection Hp as <-; cbn; lra|cbn in Hi; lia].
    + cbn [s cs_airfoil flat_named af_mcl_coordinates]. split; [cbn; lra|]. split; [cbn; lia|]. split.
      * intros [|[|i]] p q H1 H2 E; [|discriminate H2|destruct i; discriminate H1]. cbn in H1, H2. injection H1 as <-. injection H2 as <-. injection E as E. lra.
      * intros [|[|i]] p q H1 H2; [|discriminate H2|destruct i; discriminate H1]. cbn in H1, H2. injection H1 as <-. injection H2 as <-. fold s. rewrite !B. cbn [fst snd]. lra.
  - unfold seen_chord. cbv zeta. rewrite !B. cbn. field.
Qed.
