(** The horseshoe solver on two groups of airplanes that get farther and farther apart. *)
From Coq Require Import List Lia Lra Reals.
From Verif Require Import M_Loads M_Horseshoe M_SteadyRing S_Geometry S_Solve S_Loads S_Mirror S_Solvable S_Size S_Rigid S_Continuous S_Apart
  L_Base L_Rotations L_Loads L_Aero L_Horseshoe L_SteadyRing L_Mirror L_MirrorHorseshoe L_MirrorRing L_Rigid L_RigidShift L_RigidSolvers L_Solvable L_Divide L_Reference L_Size L_SizeSolvers L_Limits L_Continuous L_ContinuousRun L_Apart.
Import ListNotations.
Local Open Scope R_scope.

(** ** Walks over two lists of airplanes *)
Lemma consume_app {A B C} (f : A -> list B -> result (C * list B)) l m bs :
  consume f (l ++ m) bs = (let* r := consume f l bs in let* s := consume f m (snd r) in Ok (fst r ++ fst s, snd s)).
Proof.
  revert bs. induction l as [|a l IH]; intros bs; cbn [app consume bind fst snd].
  - destruct (consume f m bs) as [[c r]|e]; reflexivity.
  - destruct (f a bs) as [[c r]|e]; cbn [bind fst snd]; [|reflexivity]. rewrite IH. destruct (consume f l r) as [[cs r']|e]; cbn [bind fst snd]; [|reflexivity].
    destruct (consume f m r') as [[cs' r'']|e]; reflexivity.
Qed.
Lemma consume_exact {A B C} (f : A -> list B -> result (C * list B)) (cnt : A -> nat) :
  (forall x bs ys, length bs = cnt x -> f x (bs ++ ys) = (let* r := f x bs in Ok (fst r, ys))) ->
  forall l bs ys, length bs = list_sum (map cnt l) -> consume f l (bs ++ ys) = (let* r := consume f l bs in Ok (fst r, ys)).
Proof.
  intros H. induction l as [|x l IH]; intros bs ys L.
  - destruct bs; [reflexivity | discriminate].
  - cbn [map] in L. change (length bs = (cnt x + list_sum (map cnt l))%nat) in L.
    assert (Z : exists p q, bs = p ++ q /\ length p = cnt x /\ length q = list_sum (map cnt l)).
    { exists (firstn (cnt x) bs), (skipn (cnt x) bs). split; [symmetry; apply firstn_skipn|]. rewrite firstn_length, skipn_length. lia. }
    destruct Z as (p & q & -> & Lp & Lq). rewrite <- app_assoc. cbn [consume]. rewrite (H x p (q ++ ys) Lp), (H x p q Lp).
    destruct (f x p) as [[c r]|e]; cbn [bind fst snd]; [|reflexivity]. rewrite (IH q ys Lq). destruct (consume f l q) as [[cs r']|e]; reflexivity.
Qed.
Lemma update_split {B} (g : panel -> B -> result panel) a b xs ys r : length xs = length (all_panels a) -> update_panels g (a ++ b) (xs ++ ys) = Ok r ->
  exists ra rb, r = ra ++ rb /\ update_panels g a xs = Ok ra /\ update_panels g b ys = Ok rb.
Proof.
  intros L. unfold update_panels. rewrite consume_app.
  rewrite (consume_exact (consume_airplane g) (fun a => length (airplane_panels a))).
  - destruct (consume (consume_airplane g) a xs) as [[ra r']|e]; cbn [bind fst snd]; [|discriminate]. destruct (consume (consume_airplane g) b ys) as [[rb r'']|e]; cbn [bind fst snd]; [|discriminate].
    intros E. apply Ok_eq in E. subst r. exists ra, rb. auto.
  - clear. intros x bs ys L. unfold consume_airplane. rewrite (consume_exact (consume_wing g) (fun w => length (ravel (w_panels w)))); [destruct (consume (consume_wing g) (a_wings x) bs) as [[c r]|e]; reflexivity | |].
    + clear. intros w bs ys L. unfold consume_wing. rewrite (consume_exact (consume (consume_panel g)) (@length panel)); [destruct (consume (consume (consume_panel g)) (w_panels w) bs) as [[c r]|e]; reflexivity | |].
      * clear. intros row bs ys L. apply (consume_exact (consume_panel g) (fun _ => 1%nat)); [|rewrite list_sum_const1; exact L].
        clear. intros p [|b [|b' bs]] ys L; try discriminate. cbn [app consume_panel]. destruct (g p b); reflexivity.
      * unfold ravel in L. rewrite length_concat in L. exact L.
    + unfold airplane_panels in L. rewrite length_concat, map_map in L. exact L.
  - unfold all_panels in L. rewrite length_concat, map_map in L. exact L.
Qed.
Lemma updated_count {B} (g : panel -> B -> result panel) a xs r : update_panels g a xs = Ok r -> length (all_panels r) = length (all_panels a).
Proof.
  intros E. apply update_panels_sound in E. destruct E as (us & rest & _ & F). pose proof (airplanes_updated_panels _ _ _ _ F) as F3. clear -F3.
  induction F3; cbn; congruence.
Qed.
Lemma process_split op F1 F2 M1 M2 a b r : length F1 = length (all_panels a) -> length M1 = length F1 -> process_forces op (F1 ++ F2) (M1 ++ M2) (a ++ b) = Ok r ->
  exists ra rb, r = ra ++ rb /\ process_forces op F1 M1 a = Ok ra /\ process_forces op F2 M2 b = Ok rb.
Proof.
  intros L1 L2. unfold process_forces. cbv zeta. rewrite combine_app by congruence. intros E. apply bind_Ok in E. destruct E as (l & El & E).
  apply update_split in El; [|rewrite combine_length; lia]. destruct El as (la & lb & -> & -> & ->). cbn [bind]. rewrite mapM_append in E.
  apply bind_Ok in E. destruct E as (ra & Ea & E). apply bind_Ok in E. destruct E as (rb & Eb & E). apply Ok_eq in E. subst r. exists ra, rb. auto.
Qed.
Lemma flat_app a b : flat_panels (a ++ b) = flat_panels a ++ flat_panels b.
Proof. unfold flat_panels. rewrite map_app. apply concat_app. Qed.

(** ** Shifts *)
Lemma shifted_moved t a a' : shifted_airplane t a a' -> moved_airplane (fun _ _ => moved_panel mid t) a a' /\ ref_offset mid t a a' = vzero.
Proof.
  intros (H1 & H2 & H3 & H4 & HW). split; [|unfold ref_offset; rewrite H4, mid_moved; vring].
  repeat (split; [assumption|]). clear -HW. induction HW as [|w w' l l' (Hs & HP) HW IH]; constructor; [|exact IH]. split; [exact Hs|].
  clear -HP. induction HP as [|r r' l l' HR HP IH]; constructor; [|exact IH]. clear -HR. induction HR as [|p p' l l' H HR IH]; constructor; [|exact IH].
  unfold moved_panel. rewrite !mid_moved. exact H.
Qed.
Lemma shifted_back t a a' : shifted_airplane t a a' -> moved_airplane (fun _ _ => moved_panel mid (vopp t)) a' a /\ ref_offset mid (vopp t) a' a = vzero.
Proof.
  intros (H1 & H2 & H3 & H4 & HW). split; [|unfold ref_offset; rewrite H4, mid_moved; vring].
  split; [symmetry; exact H1|]. split; [symmetry; exact H2|]. split; [symmetry; exact H3|].
  assert (B : forall x, vadd (vadd x t) (vopp t) = x) by (intros x; vring).
  clear -HW B. induction HW as [|w w' l l' (Hs & HP) HW IH]; constructor; [|exact IH]. split; [symmetry; exact Hs|].
  clear -HP B. induction HP as [|r r' l l' HR HP IH]; constructor; [|exact IH]. clear -HR B. induction HR as [|p p' l l' (V1 & V2 & V3 & V4) HR IH]; constructor; [|exact IH].
  unfold moved_panel. rewrite !mid_moved, V1, V2, V3, V4, !B. auto.
Qed.
Definition shift_wing (t : vec) (w : wing) : wing := w_set_panels (shift_panels t (w_panels w)) w.
Definition shift_plane (t : vec) (a : airplane) : airplane := a_set_wings (map (shift_wing t) (a_wings a)) a.
Lemma shift_planes_moved t l : moved_airplanes mid t l (map (shift_plane t) l).
Proof.
  induction l as [|a l IH]; constructor; [|exact IH]. repeat (split; [reflexivity|]). cbn [shift_plane a_set_wings a_wings].
  induction (a_wings a) as [|w ws IHw]; constructor; [|exact IHw]. split; [reflexivity | apply shift_panels_moved].
Qed.
Lemma shift_plane_meshed t a : well_meshed_airplane a -> well_meshed_airplane (shift_plane t a).
Proof.
  intros (H1 & H2). split.
  - intros w Hw. cbn [shift_plane a_set_wings a_wings] in Hw. apply in_map_iff in Hw. destruct Hw as (w0 & <- & Hw0). destruct (H1 w0 Hw0) as (HL & HF). cbn [shift_wing w_set_panels w_panels]. unfold shift_panels. split.
    + intros row Hr. apply in_map_iff in Hr. destruct Hr as (r0 & <- & Hr0). rewrite map_length, (HL r0 Hr0). destruct (w_panels w0); [reflexivity|]. cbn. rewrite map_length. reflexivity.
    + intros c row s p Hc Hs. rewrite nth_error_map in Hc. destruct (nth_error (w_panels w0) c) as [r0|] eqn:E; [|discriminate]. apply Some_eq' in Hc. subst row. rewrite nth_error_map in Hs.
      destruct (nth_error r0 s) as [p0|] eqn:E2; [|discriminate]. apply Some_eq' in Hs. subst p. rewrite !map_length. exact (HF c r0 s p0 E E2).
  - transitivity (length (airplane_panels a)); [exact H2|]. unfold airplane_panels. cbn [shift_plane a_set_wings a_wings]. rewrite map_map. cbn [shift_wing w_set_panels w_panels]. unfold shift_panels, ravel.
    rewrite !length_concat, !map_map. f_equal. apply map_ext. intros w. rewrite !length_concat, map_map. f_equal. apply map_ext. intros r. rewrite map_length. reflexivity.
Qed.

(** ** The same results *)
Definition equal_results (strength : panel -> option R) (a b : airplane) : Prop :=
  a_force_wind a = a_force_wind b /\ a_moment_wind a = a_moment_wind b /\ a_force_coefficients a = a_force_coefficients b /\ a_moment_coefficients a = a_moment_coefficients b /\
  Forall2 (fun p q => p_force_geometry p = p_force_geometry q /\ p_moment_geometry p = p_moment_geometry q /\ p_force_wind p = p_force_wind q /\ p_moment_wind p = p_moment_wind q /\
    p_induced_drag_coefficient p = p_induced_drag_coefficient q /\ p_side_force_coefficient p = p_side_force_coefficient q /\ p_lift_coefficient p = p_lift_coefficient q /\
    strength p = strength q) (airplane_panels a) (airplane_panels b).
Lemma no_moment x y : moment_about vzero x y = x.
Proof. unfold moment_about. vring. Qed.
Lemma moved_results t op strength a b : moved_solution mid t op strength a b -> ref_offset mid t a b = vzero -> equal_results strength a b.
Proof.
  intros ((f & n & cf & cn & E1 & E2 & E3 & E4 & E5 & E6 & E7 & E8) & (_ & _ & _ & HW)) HO. cbv zeta in E7, E8. rewrite HO in E7, E8.
  assert (MZ : forall m, mvmul m vzero = vzero) by (intros m; vring). rewrite MZ in E7, E8. rewrite no_moment in E7.
  assert (CZ : vcross vzero f = vzero) by vring. rewrite CZ in E8.
  split; [congruence|]. split; [congruence|]. split; [congruence|]. split.
  { rewrite E4, E8. f_equal. destruct cn. cbn. unfold Rdiv. rewrite !Rmult_0_l, !Rminus_0_r. reflexivity. }
  unfold airplane_panels. apply Forall2_concat. induction HW as [|w w' l l' (_ & HP) HW IH]; cbn [map]; constructor; [|exact IH]. unfold ravel. apply Forall2_concat.
  clear -HP HO MZ. induction HP as [|r r' l l' HR HP IH]; constructor; [|exact IH]. clear -HR HO MZ. induction HR as [|p p' l l' (_ & HL & _ & HS) HR IH]; constructor; [|exact IH].
  destruct HL as (fg & mg & fw & mw & G1 & G2 & G3 & G4 & G5 & G6 & G7 & G8 & G9 & G10 & G11). cbv zeta in *. rewrite HO in G6, G8. rewrite MZ in G8. rewrite mid_id in G5. rewrite !mid_id, no_moment in G6. rewrite no_moment in G8.
  repeat split; congruence.
Qed.
Lemma results_transport q strength U V a : (forall n, equal_results strength (U n) (V n)) -> approaching_results q strength V a -> approaching_results q strength U a.
Proof.
  intros HE ((T1 & T2 & T3) & HP).
  assert (PR : forall {X} (P : (nat -> X) -> X -> Prop) (f : airplane -> option X) (o : option X), (forall n, f (U n) = f (V n)) -> present P (fun n => f (V n)) o -> present P (fun n => f (U n)) o).
  { intros X P f o Hf (x & x0 & E1 & E2 & E3). exists x, x0. split; [intros n; rewrite Hf; apply E1 | auto]. }
  split; [split; [|split]|].
  - apply (PR _ vtends a_force_wind); [intros n; apply HE | exact T1].
  - apply (PR _ vtends a_moment_wind); [intros n; apply HE | exact T2].
  - intros N1 N2 N3 N4. destruct (T3 N1 N2 N3 N4) as (K1 & K2). split; [apply (PR _ vtends a_force_coefficients) | apply (PR _ vtends a_moment_coefficients)]; try assumption; intros n; apply HE.
  - assert (HF : forall n, Forall2 _ (airplane_panels (U n)) (airplane_panels (V n))) by (intros n; exact (proj2 (proj2 (proj2 (proj2 (HE n)))))). clear -HP HF. remember (fun n => airplane_panels (U n)) as u eqn:Eu. assert (EU : forall n, airplane_panels (U n) = u n) by (intros n; rewrite Eu; reflexivity). clear Eu.
    remember (fun n => airplane_panels (V n)) as v eqn:Ev. assert (EV : forall n, airplane_panels (V n) = v n) by (intros n; rewrite Ev; reflexivity). clear Ev.
    assert (HF' : forall n, Forall2 (fun p q => p_force_geometry p = p_force_geometry q /\ p_moment_geometry p = p_moment_geometry q /\ p_force_wind p = p_force_wind q /\ p_moment_wind p = p_moment_wind q /\
    p_induced_drag_coefficient p = p_induced_drag_coefficient q /\ p_side_force_coefficient p = p_side_force_coefficient q /\ p_lift_coefficient p = p_lift_coefficient q /\
    strength p = strength q) (u n) (v n)) by (intros n; rewrite <- EV, <- EU; apply HF). clear HF EV EU. revert u HF'.
    induction HP as [v E|v x w b m E Hx HP IH]; intros u HF.
    + constructor. intros n. specialize (HF n). rewrite E in HF. inversion HF. reflexivity.
    + refine (each_cons _ _ (fun n => hd b (u n)) (fun n => tl (u n)) _ _ _ _ _).
      * intros n. specialize (HF n). rewrite E in HF. inversion HF. reflexivity.
      * assert (HX : forall n, p_force_geometry (hd b (u n)) = p_force_geometry (x n) /\ p_moment_geometry (hd b (u n)) = p_moment_geometry (x n) /\ p_force_wind (hd b (u n)) = p_force_wind (x n) /\ p_moment_wind (hd b (u n)) = p_moment_wind (x n) /\
          p_induced_drag_coefficient (hd b (u n)) = p_induced_drag_coefficient (x n) /\ p_side_force_coefficient (hd b (u n)) = p_side_force_coefficient (x n) /\ p_lift_coefficient (hd b (u n)) = p_lift_coefficient (x n) /\ strength (hd b (u n)) = strength (x n))
          by (intros n; specialize (HF n); rewrite E in HF; inversion HF; subst; assumption).
        destruct Hx as ((L1 & L2 & L3 & L4 & L5) & L6).
        assert (PP : forall {X} (P : (nat -> X) -> X -> Prop) (f : panel -> option X) (o : option X), (forall n, f (hd b (u n)) = f (x n)) -> present P (fun n => f (x n)) o -> present P (fun n => f (hd b (u n))) o).
        { intros X P f o Hf (y & y0 & E1 & E2 & E3). exists y, y0. split; [intros n; rewrite Hf; apply E1 | auto]. }
        split; [split; [|split; [|split; [|split]]]|].
        -- apply (PP _ vtends p_force_geometry); [intros n; apply HX | exact L1].
        -- apply (PP _ vtends p_moment_geometry); [intros n; apply HX | exact L2].
        -- apply (PP _ vtends p_force_wind); [intros n; apply HX | exact L3].
        -- apply (PP _ vtends p_moment_wind); [intros n; apply HX | exact L4].
        -- intros Hq. destruct (L5 Hq) as (K1 & K2 & K3). split; [|split].
           ++ apply (PP _ tends p_induced_drag_coefficient); [intros n; apply HX | exact K1].
           ++ apply (PP _ tends p_side_force_coefficient); [intros n; apply HX | exact K2].
           ++ apply (PP _ tends p_lift_coefficient); [intros n; apply HX | exact K3].
        -- apply (PP _ tends strength); [intros n; apply HX | exact L6].
      * apply IH. intros n. specialize (HF n). rewrite E in HF. inversion HF; subst. assumption.
Qed.
Lemma solution_results q strength U a : approaching_solution q strength U a -> approaching_results q strength U a.
Proof. intros (HT & HA). split; [exact HT|]. eapply each_weaken; [|exact (panels_tends _ _ _ HA)]. intros V v _ (_ & H1 & H2). auto. Qed.
