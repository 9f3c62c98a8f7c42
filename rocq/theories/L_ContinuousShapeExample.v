(** A wing whose tip comes closer to the tip of a given one. *)
From Coq Require Import List Lia Lra Bool Reals String.
From Verif Require Import M_Geometry M_Meshing S_Continuous S_ContinuousShape L_Base L_Geometry L_Example L_GrazingExample L_Limits L_Loads L_Frames L_Continuous L_ContinuousShape L_ContinuousExample.
Import ListNotations.
Local Open Scope R_scope.
Local Open Scope list_scope.

Definition near_tip (n : nat) : section := let e := / INR (S n) in
  mksection (cs_airfoil (ex_section 1)) e (1 + e) e (cs_chord (ex_section 1) + e) (cs_unit_normal (ex_section 1)) e (cs_control_surface_type (ex_section 1))
    (cs_control_surface_hinge_point (ex_section 1)) (cs_control_surface_deflection (ex_section 1)) (cs_num_spanwise_panels (ex_section 1)) (cs_spanwise_spacing (ex_section 1)) None.
Lemma near_tip_tends : approaching_section near_tip (ex_section 1).
Proof.
  split; [split; [exact inverse_tends | split; [apply inverse_plus | exact inverse_tends]]|]. split; [apply inverse_plus|]. split; [exact inverse_tends|]. intros n. repeat split.
Qed.
Lemma section_near a X x Y y Z z C c nrm T t ct hp d ns sp s : tends X x -> tends Y y -> tends Z z -> tends C c -> tends T t ->
  new_section a x y z c nrm t ct hp d ns sp = Ok s ->
  exists U N, (forall n, (N <= n)%nat -> new_section a (X n) (Y n) (Z n) (C n) nrm (T n) ct hp d ns sp = Ok (U n)) /\ approaching_section U s.
Proof. intros H1 H2 H3 H4 H5 E. destruct (section_settles a X x Y y Z z C c nrm T t ct hp d ns sp H1 H2 H3 H4 H5 s E) as (U & N & HU & HT & _). exists U, N. auto. Qed.
Lemma wing_near Ss sections name X x Y y Z z nrm sym c nc sp w : each approaching_section Ss sections -> root_at_zero Ss -> tends X x -> tends Y y -> tends Z z ->
  new_wing sections name x y z nrm sym c nc sp = Ok w ->
  exists W N, (forall n, (N <= n)%nat -> new_wing (Ss n) name (X n) (Y n) (Z n) nrm sym c nc sp = Ok (W n)) /\ approaching_shape W w.
Proof. intros H1 H2 H3 H4 H5 E. destruct (wing_settles Ss sections name X x Y y Z z nrm sym c nc sp H1 H2 H3 H4 H5 w E) as (U & N & HU & HT). exists U, N. split; [exact HU | apply wing_shape, HT]. Qed.
Lemma airplane_near Ws wings name X x Y y Z z weight SR sr CR cr BR br a : each approaching_shape Ws wings -> tends X x -> tends Y y -> tends Z z ->
  approaching_reference SR sr -> approaching_reference CR cr -> approaching_reference BR br ->
  (cr = None -> forall main, nth_error wings 0 = Some main -> w_projected_area main <> 0) ->
  new_airplane wings name x y z weight sr cr br = Ok a ->
  exists A N, (forall n, (N <= n)%nat -> new_airplane (Ws n) name (X n) (Y n) (Z n) weight (SR n) (CR n) (BR n) = Ok (A n)) /\ approaching_airplane approaching_panel A a.
Proof. intros H1 H2 H3 H4 H5 H6 H7 H8 E. destruct (airplane_settles Ws wings name X x Y y Z z weight SR sr CR cr BR br H1 H2 H3 H4 H5 H6 H7 H8 a E) as (U & N & HU & HT). exists U, N. auto. Qed.
Lemma shape_example : exists Ss sections w a, each approaching_section Ss sections /\ root_at_zero Ss /\
  (forall n, nth_error (Ss n) 1 <> nth_error sections 1) /\
  new_wing sections "wing" 0 0 0 (mkvec 0 1 0) false (mkvec 1 0 0) 1 "uniform" = Ok w /\ w_projected_area w <> 0 /\
  new_airplane [w] "plane" 0 0 0 0 None None None = Ok a.
Proof.
  exists (fun n => [ex_section 0; near_tip n]), [ex_section 0; ex_section 1], (ex_wing false). eexists.
  split; [refine (each_cons _ _ (fun _ => ex_section 0) (fun n => [near_tip n]) _ _ (fun n => eq_refl) _ _)|].
  { split; [apply vtends_const|]. split; [apply tends_const|]. split; [apply tends_const|]. intros n. repeat split. }
  { refine (each_cons _ _ near_tip (fun n => []) _ _ (fun n => eq_refl) near_tip_tends _). constructor. reflexivity. }
  split; [intros n root H; injection H as <-; reflexivity|].
  split; [intros n H; apply Some_eq, (f_equal cs_twist) in H; unfold near_tip in H; cbv zeta in H; change (/ INR (S n) = 0) in H; pose proof (small_pos n); lra|].
  split; [apply ex_wing_ok|]. split; [rewrite glide_area; lra | reflexivity].
Qed.
