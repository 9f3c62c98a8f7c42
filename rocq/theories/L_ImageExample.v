(** Example runs for images: the plate in gusts, seen in a mirror that stands in its middle. *)
From Coq Require Import List ZArith Lia Lra Bool Reals String.
From Verif Require Import M_Unsteady S_Unsteady S_UnsteadyRun S_Geometry S_Vortices S_Loads S_Solve S_Movement S_Mirror S_Rigid S_Image L_ImageRun L_Base L_Loads L_Horseshoe L_SteadyRing L_Aero L_Frames L_Mirror
  L_Geometry L_Movement L_Snapshots L_Problems L_Example L_Example3 L_Example4 L_Gauss L_UnsteadyRun L_UnsteadyFinal L_ImageGeometry L_ImageFinal L_SymmetricFlight L_ImageMovement.
Import ListNotations.
Local Open Scope R_scope.
Local Open Scope list_scope.

(** The plate of [ex_airplane_movement] with moments taken about a point with the coordinate [y]. *)
Definition plate_about (y : R) : airplane_movement :=
  mkairmove (mkairplane [ex_wing false] "plane" 0 y 0 0 8 4 3 1 None None None None) [ex_wing_movement resting] resting resting resting.
Lemma plate_about_movable y : airplane_movable (plate_about y).
Proof. split; [discriminate|]. split; [|repeat split; apply resting_good]. constructor; [|constructor]. apply plate_movable; auto; left; reflexivity. Qed.
Lemma plate_problem y o only : In o [resting; gust] -> exists m up a,
  new_movement [plate_about y] (windy o) (Some 3%Z) None None (Some 1) = Ok m /\ new_unsteady_problem m only = Ok up /\
  up_delta_time up = 1 /\ List.length (up_steady_problems up) = 3%nat /\
  new_airplane [ex_wing false] "plane" 0 y 0 0 None None None = Ok a /\
  forall k sp, nth_error (up_steady_problems up) k = Some sp -> sp_airplanes sp = [a] /\
    exists ops, generate_operating_points (windy o) 3 1 = Ok ops /\ nth_error ops k = Some (sp_operating_point sp).
Proof.
  intros Ho. assert (Hg : good_spacing o) by (destruct Ho as [<-|[<-|[]]]; left; reflexivity).
  assert (HA : Forall airplane_movable [plate_about y]) by (constructor; [apply plate_about_movable | constructor]).
  destruct (proj2 (movement_succeeds [plate_about y] (windy o) (Some 3%Z) None None 1 3 eq_refl ltac:(lia))) as [m Hm]; [auto|].
  destruct (movement_built _ _ _ _ _ _ _ Hm) as (_ & _ & HD & (HN & _) & EA & EO).
  assert (HP : populated [plate_about y]) by (apply movable_populated; [discriminate | exact HA]).
  destruct (unsteady_succeeds _ _ _ _ _ _ _ only Hm HP) as [up Hup].
  destruct (unsteady_built _ _ _ Hup) as (_ & _ & Edt & _ & _ & _ & _ & _ & _ & _ & HL & HS). rewrite HN in *. cbn [given] in HD. rewrite HD in *.
  cbn [mapM] in EA. apply bind_Ok in EA. destruct EA as (l & El & EA). apply bind_Ok in EA. destruct EA as (nil' & E0 & EA). apply Ok_eq in E0. subst nil'. apply Ok_eq in EA.
  destruct (generated_airplanes _ _ _ _ El) as (Ll & _ & xs & ys & zs & hs & Ex & Ey & Ez & EH & HNa).
  cbn [am_wings plate_about mapM] in EH. apply bind_Ok in EH. destruct EH as (ws & EW & EH). apply bind_Ok in EH. destruct EH as (nil' & E0 & EH). apply Ok_eq in E0. subst nil'. apply Ok_eq in EH. subst hs.
  pose proof (static_wings _ _ _ _ EW resting_wing (ex_plain resting)) as ->. cbn [ex_wing_movement plate_movement wm_base] in *.
  assert (HU : unmoving resting) by (left; reflexivity).
  assert (HA1 : forall i a, nth_error l i = Some a -> new_airplane [ex_wing false] "plane" 0 y 0 0 None None None = Ok a).
  { intros i a Hi. destruct (HNa i a Hi) as (x & y' & z & wings & Hx & Hy & Hz & EC & Ea).
    apply (unmoving_value _ _ _ _ _ _ _ HU Ex) in Hx. apply (unmoving_value _ _ _ _ _ _ _ HU Ey) in Hy. apply (unmoving_value _ _ _ _ _ _ _ HU Ez) in Hz. cbn [plate_about am_base a_x_ref a_y_ref a_z_ref] in Hx, Hy, Hz. subst x y' z.
    apply column_spec in EC. inversion EC as [|? w ? rest Hw Hr X1 X2]; subst. inversion Hr; subst. apply nth_error_In in Hw. assert (w = ex_wing false) by (destruct Hw as [<-|[<-|[<-|[]]]]; reflexivity). subst w. exact Ea. }
  destruct l as [|a l]; [cbn in Ll; lia|]. pose proof (HA1 0%nat a eq_refl) as Ea0.
  exists m, up, a. split; [exact Hm|]. split; [exact Hup|]. split; [exact Edt|]. split; [exact HL|]. split; [exact Ea0|].
  intros k sp Hk. destruct (HS k sp Hk) as [FA FO]. rewrite <- EA in FA. inversion FA as [|? b ? rest Hb Hr X1 X2]; subst. inversion Hr; subst.
  split; [f_equal; pose proof (HA1 k b Hb); congruence|]. eexists. split; [exact EO | exact FO].
Qed.
(** The mirror in the plane y = 1 / 2. *)
Lemma plate_mirrored a y y' : y' = 1 - y ->
  forall b, new_airplane [ex_wing false] "plane" 0 y 0 0 None None None = Ok a -> new_airplane [ex_wing false] "plane" 0 y' 0 0 None None None = Ok b ->
  airplane_image reflection (mkvec 0 1 0) (fun k => k) (fun _ => false) (wing_image reflection (mkvec 0 1 0)) a b.
Proof.
  intros -> b Ea Eb. unfold new_airplane in Ea, Eb. cbn [bind] in Ea, Eb. apply Ok_eq in Ea, Eb. subst a b.
  assert (EM : forall v, moved reflection (mkvec 0 1 0) v = mkvec (vx v) (1 - vy v) (vz v)) by (intros v; unfold moved; rewrite reflect_across; unfold across; vunfold; apply vec_ext; cbn; ring).
  split; [rewrite EM; unfold a_xyz_ref; apply vec_ext; cbn; ring|]. repeat (split; [reflexivity|]).
  apply pairs_own. intros k w Hw. destruct k as [|[|k]]; try discriminate. apply Some_eq in Hw. subst w. split; [|split].
  - change (w_panels (ex_wing false)) with [[ex_panel]]. constructor; [|constructor]. constructor; [|constructor].
    unfold panel_image. rewrite !EM. unfold ex_panel, plain_panel, p_set_position, new_panel. cbn [p_front_right p_front_left p_back_left p_back_right].
    repeat split; apply vec_ext; cbn; ring.
  - discriminate.
  - intros _ [|s] p q Hp Hq; discriminate Hq || (destruct s; discriminate Hq).
Qed.
Lemma pairs_one {A B} (P : nat -> A -> B -> Prop) x x' : P 0%nat x x' -> pairs (fun k => k) P [x] [x'].
Proof. intros H. split; [reflexivity|]. split; [auto|]. intros [|[|k]] y Hy; try discriminate. apply Some_eq in Hy. subst y. exists x'. auto. Qed.
Lemma plates_image y y' (only prescribed lines : bool) : y' = 1 - y -> exists up up' s,
  created up /\ created up' /\ up_delta_time up <> 0 /\ up_max_period up' = up_max_period up /\ (up_first_averaging_step up < up_num_steps up)%Z /\
  problem_image true reflection (mkvec 0 1 0) alone up up' /\ finished gauss_solve prescribed lines up s /\ List.length (up_steady_problems up) = 3%nat /\ (y = y' -> up' = up).
Proof.
  intros Hy. destruct (plate_problem y gust only) as (m & up & a & Hm & Hup & Edt & L & Ea & Hst); [cbn; auto|]. destruct (plate_problem y' gust only) as (m' & up' & a' & Hm' & Hup' & Edt' & L' & Ea' & Hst'); [cbn; auto|].
  assert (HC : created up) by (do 7 eexists; exists only; split; [exact Hm | exact Hup]). assert (HC' : created up') by (do 7 eexists; exists only; split; [exact Hm' | exact Hup']).
  assert (EW : a_wings a = [ex_wing false]) by (unfold new_airplane in Ea; cbn [bind] in Ea; apply Ok_eq in Ea; subst a; reflexivity).
  assert (HV : forall k sp, nth_error (up_steady_problems up) k = Some sp -> sp_airplanes sp = [a] /\
    exists v, 3 <= v /\ sp_operating_point sp = mkop 1 v 30 0 0 (1506 / 100000000) /\ (k = 0%nat -> v = 4) /\ (gust = gust -> k = 1%nat -> v = 5) /\ (gust = resting -> v = 4)).
  { intros k sp Hk. destruct (Hst k sp Hk) as [EA (ops & EO & Ho)]. split; [exact EA|]. destruct (windy_speed gust 3 1 ops k _ ltac:(cbn; auto) EO Ho) as (v & V1 & V2 & V3 & V4 & V5). exists v. auto 8. }
  destruct (windy_run gauss_solve gauss_solve_spec prescribed gust up a HC Edt ltac:(lia) EW HV lines) as [s Hs].
  exists up, up', s. split; [exact HC|]. split; [exact HC'|]. split; [rewrite Edt; lra|].
  destruct (unsteady_built _ _ _ Hup) as (_ & U1 & U2 & U3 & U4 & U5 & U6 & _). destruct (unsteady_built _ _ _ Hup') as (_ & U1' & U2' & U3' & U4' & U5' & U6' & _).
  destruct (movement_built _ _ _ _ _ _ _ Hm) as (B1 & B2 & _ & (N1 & _) & _). destruct (movement_built _ _ _ _ _ _ _ Hm') as (B1' & B2' & _ & (N1' & _) & _).
  assert (EP : up_max_period up' = up_max_period up).
  { unfold mv_max_period in U4, U4'. rewrite B1, B2 in U4. rewrite B1', B2' in U4'. change (max_period [plate_about y'] (windy gust)) with (max_period [plate_about y] (windy gust)) in U4'. congruence. }
  split; [exact EP|].
  assert (HPer : up_max_period up = 4).
  { unfold mv_max_period in U4. rewrite B1, B2 in U4. eapply largest_unique; [exact (max_period_largest _ _ _ U4)|].
    split; [unfold all_periods; apply in_or_app; right; left; reflexivity|]. intros x Hx. unfold all_periods in Hx. cbn in Hx. repeat (destruct Hx as [<-|Hx]; [lra|]). destruct Hx. }
  assert (HD1 : mv_delta_time m = 1) by congruence. assert (HD1' : mv_delta_time m' = 1) by congruence.
  split.
  { rewrite U5, U1, HPer, HD1, N1. unfold first_averaging_step. assert (ER : Reqb 4 0 = false) by (apply Reqb_false; lra). rewrite ER.
    apply Z.max_lub_lt; [lia|]. apply lt_IZR. eapply Rle_lt_trans; [apply floor_spec|]. lra. }
  split; [|split; [exact Hs|split; [exact L|]]].
  - constructor; [congruence | rewrite U6, U6', U5, U5', EP, HD1, HD1', N1, N1'; reflexivity|].
    apply Forall2_from_nth; [congruence|]. intros k sp sp' Hk Hk'. destruct (Hst k sp Hk) as [EA (ops & EO & Ho)]. destruct (Hst' k sp' Hk') as [EA' (ops' & EO' & Ho')].
    assert (EOP : sp_operating_point sp' = sp_operating_point sp) by congruence. split.
    + rewrite EOP. apply flow_own. destruct (windy_speed gust 3 1 ops k _ ltac:(cbn; auto) EO Ho) as (v & _ & -> & _). reflexivity.
    + rewrite EA, EA'. apply pairs_one. exact (plate_mirrored a y y' Hy a' Ea Ea').
  - intros E. subst y'. rewrite <- E in *. congruence.
Qed.

(** ** Moved elsewhere *)
Definition shifted_wing (d : vec) (m : wing_movement) : wing_movement :=
  let w := wm_base m in
  mkwingmove (mkwing (w_sections w) (w_name w) (w_x_le w + vx d) (w_y_le w + vy d) (w_z_le w + vz d) (w_unit_normal w) (w_symmetric w) (w_unit_chordwise w) (w_num_chordwise_panels w)
                     (w_chordwise_spacing w) (w_num_spanwise_panels w) (w_num_panels w) (w_panels w) (w_wake_vertices w) (w_wake_rings w))
             (wm_sections m) (wm_x_le m) (wm_y_le m) (wm_z_le m).
Definition shifted_airplane (d : vec) (m : airplane_movement) : airplane_movement :=
  let a := am_base m in
  mkairmove (mkairplane (a_wings a) (a_name a) (a_x_ref a + vx d) (a_y_ref a + vy d) (a_z_ref a + vz d) (a_weight a) (a_s_ref a) (a_c_ref a) (a_b_ref a) (a_num_panels a)
                        (a_force_wind a) (a_force_coefficients a) (a_moment_wind a) (a_moment_coefficients a))
            (map (shifted_wing d) (am_wings m)) (am_x_ref m) (am_y_ref m) (am_z_ref m).
Lemma pairs_mapped {A B} (P : nat -> A -> B -> Prop) (h : A -> B) l : (forall k x, In x l -> P k x (h x)) -> pairs (fun k => k) P l (map h l).
Proof.
  intros H. split; [apply map_length|]. split; [auto|]. intros k x Hx. exists (h x). split; [rewrite nth_error_map, Hx; reflexivity|]. exact (H k x (nth_error_In _ _ Hx)).
Qed.
Lemma shifted_elsewhere d ams : (forall am w, In am ams -> In w (am_wings am) -> has_panels w) ->
  movements_elsewhere d (fun k => k) (fun _ k => k) ams (map (shifted_airplane d) ams).
Proof.
  intros H. apply pairs_mapped. intros _ am Ham. split; [unfold a_xyz_ref; vunfold; reflexivity|]. repeat (split; [reflexivity|]). split; [|intros w Hw; exact (H am w Ham Hw)].
  cbn [shifted_airplane am_wings]. apply pairs_mapped. intros _ w _. repeat (split; [reflexivity|]). reflexivity.
Qed.
(** Two airplanes, the second listed first and with all its wings but the first listed backwards. *)
Lemma swapped_elsewhere (a b b' : airplane_movement) (w : wing_movement) ws : (forall am v, In am [a; b] -> In v (am_wings am) -> has_panels v) ->
  am_wings b = w :: ws -> b' = mkairmove (am_base b) (w :: rev ws) (am_x_ref b) (am_y_ref b) (am_z_ref b) ->
  movements_elsewhere vzero (fun k => 1 - k)%nat (fun k => match k with O => fun j => j | S _ => fun j => match j with O => O | S i => length ws - i end end)%nat [a; b] [b'; a].
Proof.
  intros H EW ->. assert (R : forall v, v = vadd v vzero) by (intros v; vring).
  assert (RW : forall v, wing_movement_elsewhere vzero v v) by (intros v; repeat (split; [reflexivity|]); split; [apply R | repeat split]).
  split; [reflexivity|]. split; [intros i j; cbn [length]; lia|].
  intros k am Ham. destruct k as [|[|k]]; [| |destruct k; discriminate]; apply Some_eq in Ham; subst am.
  - exists a. split; [reflexivity|]. split; [apply R|]. repeat (split; [reflexivity|]). split; [|intros v Hv; apply (H a v); cbn; auto].
    split; [reflexivity|]. split; [auto|]. intros j v Hv. exists v. split; [exact Hv | apply RW].
  - eexists. split; [reflexivity|]. cbn [am_base am_x_ref am_y_ref am_z_ref am_wings]. split; [apply R|]. repeat (split; [reflexivity|]). split; [|intros v Hv; apply (H b v); cbn; auto].
    rewrite EW. split; [change (S (List.length (rev ws)) = S (List.length ws)); rewrite rev_length; reflexivity|]. split.
    + intros i j Hi Hj E. change (i < S (List.length ws))%nat in Hi. change (j < S (List.length ws))%nat in Hj. destruct i as [|i], j as [|j]; lia.
    + intros j v Hv. exists v. split; [|apply RW]. destruct j as [|j]; [exact Hv|]. cbn [nth_error] in Hv. assert (Hj : (j < length ws)%nat) by (apply nth_error_Some; congruence).
      replace (length ws - j)%nat with (S (length ws - S j)) by lia. change (nth_error (rev ws) (List.length ws - S j) = Some v). rewrite L_Meshing.nth_error_rev by lia. replace (List.length ws - 1 - (List.length ws - S j))%nat with j by lia. exact Hv.
Qed.
Lemma plate_shifted d (only prescribed : bool) : exists mv mv' up up' s, new_movement [plate_about 0] (windy gust) (Some 3%Z) None None (Some 1) = Ok mv /\
  new_movement (map (shifted_airplane d) [plate_about 0]) (windy gust) (Some 3%Z) None None (Some 1) = Ok mv' /\ mv_num_steps mv' = mv_num_steps mv /\ mv_delta_time mv' = mv_delta_time mv /\
  mv_delta_time mv <> 0 /\ new_unsteady_problem mv only = Ok up /\ new_unsteady_problem mv' only = Ok up' /\ after gauss_solve prescribed up 3 s /\
  movements_elsewhere d (fun k => k) (fun _ k => k) [plate_about 0] (map (shifted_airplane d) [plate_about 0]).
Proof.
  assert (HE : movements_elsewhere d (fun k => k) (fun _ k => k) [plate_about 0] (map (shifted_airplane d) [plate_about 0])).
  { apply shifted_elsewhere. intros am w [<-|[]] [<-|[]]. eexists. split; [left; reflexivity | cbn; lia]. }
  destruct (plate_problem 0 gust only) as (m & up & a & Hm & Hup & Edt & L & Ea & Hst); [cbn; auto|].
  destruct (movement_elsewhere_exists d _ _ _ _ (windy gust) 3 1 m only up HE ltac:(lia) Hm Hup) as (m' & up' & Hm' & Hup' & N & D).
  assert (HC : created up) by (do 7 eexists; exists only; split; [exact Hm | exact Hup]).
  assert (EW : a_wings a = [ex_wing false]) by (unfold new_airplane in Ea; cbn [bind] in Ea; apply Ok_eq in Ea; subst a; reflexivity).
  assert (HV : forall k sp, nth_error (up_steady_problems up) k = Some sp -> sp_airplanes sp = [a] /\
    exists v, 3 <= v /\ sp_operating_point sp = mkop 1 v 30 0 0 (1506 / 100000000) /\ (k = 0%nat -> v = 4) /\ (gust = gust -> k = 1%nat -> v = 5) /\ (gust = resting -> v = 4)).
  { intros k sp Hk. destruct (Hst k sp Hk) as [EA (ops & EO & Ho)]. split; [exact EA|]. destruct (windy_speed gust 3 1 ops k _ ltac:(cbn; auto) EO Ho) as (v & V1 & V2 & V3 & V4 & V5). exists v. auto 8. }
  destruct (windy_run gauss_solve gauss_solve_spec prescribed gust up a HC Edt ltac:(lia) EW HV false) as [s Hs].
  destruct (created_some up HC ltac:(lia)) as [F HM]. destruct (finished_inv _ _ _ _ _ F Hs HM) as (sf & _ & _ & _ & HA & _). rewrite L in HA.
  destruct (unsteady_built _ _ _ Hup) as (_ & _ & U & _).
  exists m, m', up, up', sf. repeat (split; [assumption|]). split; [rewrite <- U, Edt; lra|]. auto.
Qed.
