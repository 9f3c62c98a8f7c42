(** Lemmas about walking airplanes, wings and panels with a running index. *)
From Coq Require Import Lra Lia.
From Verif Require Import M_Loads S_Geometry S_Loads L_Base L_Rotations.

(** ** Forall3 *)
Section F3.
  Context {A B C : Type}.
  Implicit Types P Q : A -> B -> C -> Prop.
  Lemma Forall3_impl P Q xs ys zs :
    (forall x y z, P x y z -> Q x y z) -> Forall3 P xs ys zs -> Forall3 Q xs ys zs.
  Proof. intros H F; induction F; constructor; auto. Qed.
  Lemma Forall3_length P xs ys zs : Forall3 P xs ys zs -> length ys = length xs /\ length zs = length xs.
  Proof. intros F; induction F as [|x y z xs ys zs _ _ [E1 E2]]; cbn; auto. Qed.
  Lemma Forall3_app P xs ys zs xs' ys' zs' :
    Forall3 P xs ys zs -> Forall3 P xs' ys' zs' -> Forall3 P (xs ++ xs') (ys ++ ys') (zs ++ zs').
  Proof. intros F F'; induction F; cbn; [exact F' | constructor; auto]. Qed.
  Lemma Forall3_nth P xs ys zs i x y z : Forall3 P xs ys zs ->
    nth_error xs i = Some x -> nth_error ys i = Some y -> nth_error zs i = Some z -> P x y z.
  Proof.
    intros F; revert i; induction F as [|x0 y0 z0 xs ys zs H _ IH]; intros [|i]; cbn; try discriminate.
    - intros E1 E2 E3; injection E1; injection E2; injection E3; congruence.
    - apply IH.
  Qed.
  Lemma Forall3_12 P xs ys zs (Q : A -> B -> Prop) : (forall x y z, P x y z -> Q x y) ->
    Forall3 P xs ys zs -> Forall2 Q xs ys.
  Proof. intros H F; induction F; constructor; eauto. Qed.
  Lemma Forall3_13 P xs ys zs (Q : A -> C -> Prop) : (forall x y z, P x y z -> Q x z) ->
    Forall3 P xs ys zs -> Forall2 Q xs zs.
  Proof. intros H F; induction F; constructor; eauto. Qed.
  Lemma Forall3_23 P xs ys zs (Q : B -> C -> Prop) : (forall x y z, P x y z -> Q y z) ->
    Forall3 P xs ys zs -> Forall2 Q ys zs.
  Proof. intros H F; induction F; constructor; eauto. Qed.
  Lemma Forall3_combine P xs ys zs : Forall3 P xs ys zs ->
    forall x y, In (x, y) (combine xs ys) -> exists z, In z zs /\ P x y z.
  Proof.
    intros F; induction F as [|x y z xs ys zs H _ IH]; cbn; [tauto|].
    intros x' y' [E|Hin].
    - injection E as <- <-. exists z; auto.
    - destruct (IH _ _ Hin) as (z' & ? & ?); exists z'; auto.
  Qed.
End F3.
Lemma Forall3_map3 {A B C D} (P : A -> B -> D -> Prop) (f : C -> D) xs ys zs :
  Forall3 P xs ys (map f zs) <-> Forall3 (fun x y z => P x y (f z)) xs ys zs.
Proof.
  split.
  - revert xs ys; induction zs as [|z zs IH]; cbn; intros xs ys F; inversion F; subst; constructor; auto.
  - intros F; induction F; cbn; constructor; auto.
Qed.
Lemma Forall3_concat {A B C} (P : A -> B -> C -> Prop) xss yss zss :
  Forall3 (Forall3 P) xss yss zss -> Forall3 P (concat xss) (concat yss) (concat zss).
Proof. intros F; induction F; cbn; [constructor | apply Forall3_app; auto]. Qed.
Lemma Forall3_total {A B C} (h : A -> B -> C) xs ys zs :
  Forall3 (fun x y z => z = h x y) xs ys zs -> zs = map2 h xs ys.
Proof. intros F; induction F; cbn; congruence. Qed.

Lemma Forall2_nth {A B} (P : A -> B -> Prop) xs ys : Forall2 P xs ys ->
  forall i y, nth_error ys i = Some y -> exists x, nth_error xs i = Some x /\ P x y.
Proof.
  intros F; induction F as [|x y xs ys H _ IH]; intros [|i] y'; cbn; try discriminate.
  - intros E; injection E as <-; eauto.
  - apply IH.
Qed.
Lemma Forall2_nth_l {A B} (P : A -> B -> Prop) xs ys : Forall2 P xs ys ->
  forall i x, nth_error xs i = Some x -> exists y, nth_error ys i = Some y /\ P x y.
Proof.
  intros F; induction F as [|x y xs ys H _ IH]; intros [|i] x'; cbn; try discriminate.
  - intros E; injection E as <-; eauto.
  - apply IH.
Qed.
Lemma Forall2_concat {A B} (P : A -> B -> Prop) xss yss :
  Forall2 (Forall2 P) xss yss -> Forall2 P (concat xss) (concat yss).
Proof. intros F; induction F; cbn; [constructor | apply Forall2_app; auto]. Qed.
Lemma Forall2_map_eq {A B C} (f : A -> C) (g : B -> C) xs ys :
  Forall2 (fun x y => g y = f x) xs ys -> map g ys = map f xs.
Proof. intros F; induction F; cbn; congruence. Qed.
Lemma Forall2_length {A B} (P : A -> B -> Prop) xs ys : Forall2 P xs ys -> length xs = length ys.
Proof. intros F; induction F; cbn; congruence. Qed.
Lemma Forall2_impl {A B} (P Q : A -> B -> Prop) xs ys :
  (forall x y, P x y -> Q x y) -> Forall2 P xs ys -> Forall2 Q xs ys.
Proof. intros H F; induction F; constructor; auto. Qed.
Lemma Forall2_refl {A} (P : A -> A -> Prop) xs : (forall x, P x x) -> Forall2 P xs xs.
Proof. intros H; induction xs; constructor; auto. Qed.
Lemma Forall2_trans {A} (P : A -> A -> Prop) xs ys zs :
  (forall x y z, P x y -> P y z -> P x z) -> Forall2 P xs ys -> Forall2 P ys zs -> Forall2 P xs zs.
Proof.
  intros H F; revert zs; induction F as [|x y xs ys Hxy _ IH]; intros zs G; inversion G; subst; constructor; eauto.
Qed.
Lemma Forall2_map_r {A B C} (P : A -> C -> Prop) (f : B -> C) xs ys :
  Forall2 P xs (map f ys) <-> Forall2 (fun x y => P x (f y)) xs ys.
Proof.
  split.
  - revert xs; induction ys as [|y ys IH]; cbn; intros xs F; inversion F; subst; constructor; auto.
  - intros F; induction F; cbn; constructor; auto.
Qed.

(** ** The error monad *)
Lemma bind_Ok {A B} (r : result A) (f : A -> result B) b :
  bind r f = Ok b -> exists a, r = Ok a /\ f a = Ok b.
Proof. destruct r as [a|e]; cbn; [eauto | discriminate]. Qed.
Ltac inv_ok H :=
  lazymatch type of H with
  | bind _ _ = Ok _ =>
      let a := fresh "v" in let E := fresh "E" in
      apply bind_Ok in H; destruct H as (a & E & H); cbv beta in H
  | Ok _ = Ok _ => injection H as H
  end.
Lemma mapM_Forall2 {A B} (f : A -> result B) l m : mapM f l = Ok m -> Forall2 (fun x y => f x = Ok y) l m.
Proof.
  revert m; induction l as [|x l IH]; cbn; intros m H.
  - injection H as <-; constructor.
  - inv_ok H. inv_ok H. injection H as <-. constructor; auto.
Qed.
Lemma Forall2_mapM {A B} (f : A -> result B) l m : Forall2 (fun x y => f x = Ok y) l m -> mapM f l = Ok m.
Proof. intros F; induction F as [|x y l m H _ IH]; cbn; [reflexivity|]. rewrite H; cbn. rewrite IH; reflexivity. Qed.
Lemma mapM_total {A B} (f : A -> B) l : mapM (fun x => Ok (f x)) l = Ok (map f l).
Proof. induction l as [|x l IH]; cbn; [reflexivity|]. rewrite IH; reflexivity. Qed.
Lemma mapM_ext {A B} (f g : A -> result B) l : (forall x, In x l -> f x = g x) -> mapM f l = mapM g l.
Proof.
  induction l as [|x l IH]; cbn; intros H; [reflexivity|].
  rewrite (H x), IH; auto.
Qed.
Lemma mapM_map {A B C} (f : B -> result C) (g : A -> B) l : mapM f (map g l) = mapM (fun x => f (g x)) l.
Proof. induction l as [|x l IH]; cbn; [reflexivity|]. rewrite IH; reflexivity. Qed.
Lemma mapM_ok {A B} (f : A -> result B) l : (forall x, In x l -> exists y, f x = Ok y) -> exists m, mapM f l = Ok m.
Proof.
  induction l as [|x l IH]; cbn; intros H; [eauto|].
  destruct (H x) as [y Ey]; [auto|]. destruct IH as [m Em]; [auto|].
  rewrite Ey; cbn. rewrite Em; cbn. eauto.
Qed.
Lemma index_Some {A} (l : list A) i x : index l i = Ok x <-> nth_error l i = Some x.
Proof. unfold index. destruct (nth_error l i); split; intros H; try discriminate; congruence. Qed.

(** ** consume *)
Section Consume.
  Context {A B C : Type} (f : A -> list B -> result (C * list B)).
  Lemma consume_sound (P : A -> list B -> C -> Prop) :
    (forall x bs c rest, f x bs = Ok (c, rest) -> exists used, bs = used ++ rest /\ P x used c) ->
    forall l bs cs rest, consume f l bs = Ok (cs, rest) ->
    exists useds, bs = concat useds ++ rest /\ Forall3 P l useds cs.
  Proof.
    intros H l; induction l as [|x l IH]; cbn; intros bs cs rest E.
    - injection E as <- <-. exists []; split; [reflexivity | constructor].
    - inv_ok E. destruct v as [c1 rest1]. cbn [fst snd] in E. inv_ok E. destruct v as [cs2 rest2].
      cbn [fst snd] in E. injection E as <- <-.
      apply H in E0. destruct E0 as (u & -> & Hu).
      apply IH in E1. destruct E1 as (us & -> & Hus).
      exists (u :: us). cbn. rewrite app_assoc. split; [reflexivity | constructor; auto].
  Qed.
  Lemma consume_complete (cnt : A -> nat) : forall l,
    (forall x bs, In x l -> (cnt x <= length bs)%nat ->
       exists c rest, f x bs = Ok (c, rest) /\ length rest = (length bs - cnt x)%nat) ->
    forall bs, (list_sum (map cnt l) <= length bs)%nat ->
    exists cs rest, consume f l bs = Ok (cs, rest) /\ length rest = (length bs - list_sum (map cnt l))%nat.
  Proof.
    intros l; induction l as [|x l IH]; cbn; intros H bs L.
    - exists [], bs; split; [reflexivity | lia].
    - destruct (H x bs) as (c & rest & E & Lr); [left; reflexivity | unfold list_sum in *; cbn in *; lia|].
      rewrite E; cbn. destruct (IH ltac:(auto) rest) as (cs & rest' & E' & Lr').
      { rewrite Lr. unfold list_sum in *; cbn in *; lia. }
      rewrite E'; cbn. exists (c :: cs), rest'; split; [reflexivity|].
      unfold list_sum in *; cbn in *; lia.
  Qed.
End Consume.

Section Update.
  Context {B : Type} (g : panel -> B -> result panel).
  Let pu (p : panel) (b : B) (q : panel) : Prop := g p b = Ok q.

  Lemma consume_row_sound row bs row' rest : consume (consume_panel g) row bs = Ok (row', rest) ->
    exists used, bs = used ++ rest /\ Forall3 pu row used row'.
  Proof.
    intros E. apply (consume_sound _ (fun p used q => exists b, used = [b] /\ g p b = Ok q)) in E.
    - destruct E as (useds & -> & F). exists (concat useds); split; [reflexivity|].
      clear -F. induction F as [|p u q ps us qs (b & -> & H) _ IH]; cbn; constructor; auto.
    - intros p [|b bs'] q rest'; cbn; intros E'; [discriminate|]. inv_ok E'. injection E' as <- <-.
      exists [b]; split; [reflexivity | exists b; auto].
  Qed.

  Definition wing_updated (w : wing) (used : list B) (v : wing) : Prop :=
    exists m useds, v = w_set_panels m w /\ used = concat useds /\ Forall3 (Forall3 pu) (w_panels w) useds m.
  Lemma consume_wing_sound w bs v rest : consume_wing g w bs = Ok (v, rest) ->
    exists used, bs = used ++ rest /\ wing_updated w used v.
  Proof.
    unfold consume_wing; intros E. inv_ok E. destruct v0 as [m r]. injection E as <- <-.
    apply (consume_sound _ (Forall3 pu)) in E0; [|apply consume_row_sound].
    destruct E0 as (useds & -> & F). exists (concat useds); split; [reflexivity|].
    exists m, useds; auto.
  Qed.

  Definition airplane_updated (a : airplane) (used : list B) (a' : airplane) : Prop :=
    exists ws useds, a' = a_set_wings ws a /\ used = concat useds /\ Forall3 wing_updated (a_wings a) useds ws.
  Lemma consume_airplane_sound a bs a' rest : consume_airplane g a bs = Ok (a', rest) ->
    exists used, bs = used ++ rest /\ airplane_updated a used a'.
  Proof.
    unfold consume_airplane; intros E. inv_ok E. destruct v as [ws r]. injection E as <- <-.
    apply (consume_sound _ wing_updated) in E0; [|apply consume_wing_sound].
    destruct E0 as (useds & -> & F). exists (concat useds); split; [reflexivity|].
    exists ws, useds; auto.
  Qed.
  Lemma update_panels_sound airplanes bs airplanes' : update_panels g airplanes bs = Ok airplanes' ->
    exists useds rest, bs = concat useds ++ rest /\ Forall3 airplane_updated airplanes useds airplanes'.
  Proof.
    unfold update_panels; intros E. inv_ok E. destruct v as [l r]. injection E as <-.
    apply (consume_sound _ airplane_updated) in E0; [|apply consume_airplane_sound].
    destruct E0 as (useds & -> & F). eauto.
  Qed.

  Lemma wing_updated_panels w used v : wing_updated w used v ->
    Forall3 pu (ravel (w_panels w)) used (ravel (w_panels v)).
  Proof. intros (m & useds & -> & -> & F). apply Forall3_concat; exact F. Qed.
  Lemma airplane_updated_panels a used a' : airplane_updated a used a' ->
    Forall3 pu (airplane_panels a) used (airplane_panels a').
  Proof.
    intros (ws & useds & -> & -> & F). unfold airplane_panels; cbn [a_set_wings a_wings].
    apply Forall3_concat. induction F; cbn; constructor; auto using wing_updated_panels.
  Qed.
  Lemma airplanes_updated_panels airplanes useds airplanes' :
    Forall3 airplane_updated airplanes useds airplanes' ->
    Forall3 pu (all_panels airplanes) (concat useds) (all_panels airplanes').
  Proof.
    intros F. unfold all_panels. apply Forall3_concat.
    induction F; cbn; constructor; auto using airplane_updated_panels.
  Qed.

  (** success *)
  Lemma list_sum_const1 {X} (l : list X) : list_sum (map (fun _ => 1%nat) l) = length l.
  Proof. induction l as [|x l IH]; cbn; [reflexivity|]. unfold list_sum in IH; cbn in IH; rewrite IH; reflexivity. Qed.
  Lemma length_concat {X} (l : list (list X)) : length (concat l) = list_sum (map (@length _) l).
  Proof. induction l as [|x l IH]; cbn; [reflexivity|]. rewrite app_length, IH; reflexivity. Qed.
  Lemma update_panels_complete airplanes bs :
    (forall a w row p b, In a airplanes -> In w (a_wings a) -> In row (w_panels w) -> In p row -> exists q, g p b = Ok q) ->
    (length (all_panels airplanes) <= length bs)%nat ->
    exists airplanes', update_panels g airplanes bs = Ok airplanes'.
  Proof.
    intros g_total L. unfold update_panels.
    destruct (consume_complete (consume_airplane g) (fun a => length (airplane_panels a))) with
      (l := airplanes) (bs := bs) as (cs & rest & E & _).
    - intros a bs' Ha La. unfold consume_airplane.
      destruct (consume_complete (consume_wing g) (fun w => length (ravel (w_panels w)))) with
        (l := a_wings a) (bs := bs') as (cs & rest & E & Lr).
      + intros w bs'' Hw Lw. unfold consume_wing.
        destruct (consume_complete (consume (consume_panel g)) (@length panel)) with
          (l := w_panels w) (bs := bs'') as (cs & rest & E & Lr).
        * intros row bs3 Hrow Lrow.
          destruct (consume_complete (consume_panel g) (fun _ => 1%nat)) with
            (l := row) (bs := bs3) as (cs & rest & E & Lr).
          -- intros p [|b bs4]; cbn; intros Hp L1; [lia|]. destruct (g_total a w row p b Ha Hw Hrow Hp) as [q ->]; cbn.
             exists q, bs4; split; [reflexivity | lia].
          -- rewrite list_sum_const1; exact Lrow.
          -- exists cs, rest; split; [exact E|]. rewrite list_sum_const1 in Lr; exact Lr.
        * unfold ravel in Lw; rewrite length_concat in Lw; exact Lw.
        * rewrite E; cbn. eexists _, _; split; [reflexivity|].
          rewrite Lr. unfold ravel; rewrite length_concat; reflexivity.
      + unfold airplane_panels in La. rewrite length_concat, map_map in La; exact La.
      + rewrite E; cbn. eexists _, _; split; [reflexivity|].
        rewrite Lr. unfold airplane_panels. rewrite length_concat, map_map; reflexivity.
    - unfold all_panels in L. rewrite length_concat, map_map in L; exact L.
    - rewrite E; cbn; eauto.
  Qed.
End Update.

(** ** What updates keep *)
Lemma same_panel_refl p : same_panel p p.
Proof. unfold same_panel; auto 12. Qed.
Lemma same_panel_trans p q r : same_panel p q -> same_panel q r -> same_panel p r.
Proof. unfold same_panel; intuition congruence. Qed.
Lemma w_set_panels_self w : w_set_panels (w_panels w) w = w.
Proof. destruct w; reflexivity. Qed.
Lemma same_wing_trans u v w : same_wing u v -> same_wing v w -> same_wing u w.
Proof.
  intros [E1 F1] [E2 F2]. split.
  - rewrite E2, E1. reflexivity.
  - eapply Forall2_trans; eauto. intros x y z Hx Hy. eapply Forall2_trans; eauto using same_panel_trans.
Qed.
Lemma same_airplane_trans a b c : same_airplane a b -> same_airplane b c -> same_airplane a c.
Proof.
  intros (F1 & H1) (F2 & H2). split.
  - eapply Forall2_trans; eauto using same_wing_trans.
  - intuition congruence.
Qed.
Lemma same_airplanes_trans l m n :
  Forall2 same_airplane l m -> Forall2 same_airplane m n -> Forall2 same_airplane l n.
Proof. apply Forall2_trans; exact same_airplane_trans. Qed.
Lemma same_airplane_panels a b : same_airplane a b -> Forall2 same_panel (airplane_panels a) (airplane_panels b).
Proof.
  intros (F & _). unfold airplane_panels. apply Forall2_concat.
  induction F as [|w v ws vs [_ H] _ IH]; cbn; constructor; auto. apply Forall2_concat; exact H.
Qed.
Lemma same_all_panels l m : Forall2 same_airplane l m -> Forall2 same_panel (all_panels l) (all_panels m).
Proof.
  intros F. unfold all_panels. apply Forall2_concat.
  induction F; cbn; constructor; auto using same_airplane_panels.
Qed.
Lemma airplanes_updated_same {B} (g : panel -> B -> result panel) airplanes useds airplanes' :
  (forall p b q, g p b = Ok q -> same_panel p q) ->
  Forall3 (airplane_updated g) airplanes useds airplanes' -> Forall2 same_airplane airplanes airplanes'.
Proof.
  intros Hg F. revert F; apply Forall3_13. intros a u a' (ws & us & -> & _ & F).
  split; [|cbn; auto 8]. cbn [a_set_wings a_wings]. revert F; apply Forall3_13.
  intros w u' v (m & us' & -> & _ & F'). split; [reflexivity|]. cbn [w_set_panels w_panels].
  revert F'; apply Forall3_13. intros r u'' r'. apply Forall3_13. apply Hg.
Qed.

(** ** process_forces *)
Lemma skipn_app_exact {A} (l m : list A) : skipn (length l) (l ++ m) = m.
Proof. rewrite skipn_app, skipn_all, Nat.sub_diag; reflexivity. Qed.
Lemma firstn_app_exact {A} (l m : list A) : firstn (length l) (l ++ m) = l.
Proof. rewrite firstn_app, firstn_all, Nat.sub_diag; cbn; apply app_nil_r. Qed.

(** The chunk of the array that airplane [k] consumed. *)
Lemma own_entries_chunk {B} airplanes (useds : list (list B)) rest k u :
  Forall2 (fun a u => length u = length (airplane_panels a)) airplanes useds ->
  nth_error useds k = Some u -> own_entries airplanes k (concat useds ++ rest) = u.
Proof.
  intros F. revert k. induction F as [|a u0 airplanes useds H F IH]; intros [|k]; cbn; try discriminate.
  - intros E; injection E as ->. unfold own_entries, panels_before; cbn.
    rewrite <- H, <- app_assoc. apply firstn_app_exact.
  - intros E. specialize (IH k E). unfold own_entries, panels_before in *; cbn.
    destruct (nth_error airplanes k) as [a'|]; [|exact IH].
    unfold all_panels; cbn. rewrite app_length, <- H. fold (all_panels (firstn k airplanes)).
    rewrite <- app_assoc, skipn_app. rewrite skipn_all2 by lia. cbn.
    replace (length u0 + length (all_panels (firstn k airplanes)) - length u0)%nat
      with (length (all_panels (firstn k airplanes))) by lia. exact IH.
Qed.
Lemma map_own_entries {B C} (f : B -> C) airplanes k l :
  map f (own_entries airplanes k l) = own_entries airplanes k (map f l).
Proof.
  unfold own_entries. destruct (nth_error airplanes k); [|reflexivity].
  rewrite skipn_map, firstn_map; reflexivity.
Qed.

Definition loaded (op : operating_point) (p : panel) (fm : vec * vec) : panel :=
  let rot := mtrans (rotation_wind_to_geometry op) in
  p_set_loads (fst fm) (snd fm) (mvmul rot (fst fm)) (mvmul rot (snd fm)) (dynamic_pressure op) p.
Definition totalled (op : operating_point) (a : airplane) (fms : list (vec * vec)) (a' : airplane) : Prop :=
  let rot := mtrans (rotation_wind_to_geometry op) in
  let q := dynamic_pressure op in
  let f := mvmul rot (vsum (map fst fms)) in
  let m := mvmul rot (vsum (map snd fms)) in
  same_airplane a a' /\
  airplane_panels a' = map2 (loaded op) (airplane_panels a) fms /\
  length fms = length (airplane_panels a) /\
  a_force_wind a' = Some f /\ a_moment_wind a' = Some m /\
  a_force_coefficients a' = Some (force_coefficients f q (a_s_ref a)) /\
  a_moment_coefficients a' = Some (moment_coefficients m q (a_s_ref a) (a_b_ref a) (a_c_ref a)).

Lemma loaded_same op p fm : same_panel p (loaded op p fm).
Proof. unfold same_panel; cbn; auto 12. Qed.
Lemma mapM_loaded_forces op ps fms : length fms = length ps ->
  mapM force_of (map2 (loaded op) ps fms) = Ok (map fst fms).
Proof.
  revert fms; induction ps as [|p ps IH]; intros [|fm fms]; cbn; try discriminate; intros H; [reflexivity|].
  rewrite IH by lia. reflexivity.
Qed.
Lemma mapM_loaded_moments op ps fms : length fms = length ps ->
  mapM moment_of (map2 (loaded op) ps fms) = Ok (map snd fms).
Proof.
  revert fms; induction ps as [|p ps IH]; intros [|fm fms]; cbn; try discriminate; intros H; [reflexivity|].
  rewrite IH by lia. reflexivity.
Qed.

Lemma process_forces_sound op forces moments airplanes airplanes' :
  process_forces op forces moments airplanes = Ok airplanes' ->
  exists useds rest, combine forces moments = concat useds ++ rest /\
    Forall3 (totalled op) airplanes useds airplanes'.
Proof.
  unfold process_forces. intros E. inv_ok E.
  apply update_panels_sound in E0. destruct E0 as (useds & rest & Ec & F).
  exists useds, rest; split; [exact Ec|]. clear Ec.
  apply mapM_Forall2 in E. revert airplanes' E.
  induction F as [|a u a1 airplanes useds airplanes1 Hu F IH]; intros airplanes' E; inversion E as [|? a' ? l' Ht Hl]; subst; constructor; auto.
  clear IH E Hl F.
  pose proof (airplane_updated_panels _ _ _ _ Hu) as Hp.
  assert (Hp' : airplane_panels a1 = map2 (loaded op) (airplane_panels a) u).
  { apply Forall3_total. revert Hp; apply Forall3_impl. intros p b q Hq. injection Hq as <-. reflexivity. }
  destruct (Forall3_length _ _ _ _ Hp) as [Lu _].
  assert (Hs : same_airplane a a1).
  { assert (X : Forall2 same_airplane [a] [a1]).
    { eapply airplanes_updated_same; [|constructor; [exact Hu | constructor]].
      intros p b q Hq. injection Hq as <-. apply loaded_same. }
    inversion X; assumption. }
  unfold airplane_totals in Ht. rewrite Hp', mapM_loaded_forces in Ht by exact Lu. cbn [bind] in Ht.
  rewrite mapM_loaded_moments in Ht by exact Lu. cbn [bind] in Ht. injection Ht as <-.
  destruct Hs as (Hw & Hn & Hx & Hwt & Hsr & Hcr & Hbr & Hnp).
  unfold totalled; cbn [a_set_loads a_wings a_force_wind a_moment_wind a_force_coefficients a_moment_coefficients].
  split; [split; [exact Hw|]; cbn; auto 8|].
  split; [exact Hp'|]. split; [exact Lu|].
  rewrite Hsr, Hcr, Hbr. auto.
Qed.

Lemma process_forces_complete op forces moments airplanes :
  (exists airplanes', process_forces op forces moments airplanes = Ok airplanes') <->
  (length (all_panels airplanes) <= length forces /\ length (all_panels airplanes) <= length moments)%nat.
Proof.
  split.
  - intros [airplanes' E]. apply process_forces_sound in E. destruct E as (useds & rest & Ec & F).
    assert (L : length (concat useds) = length (all_panels airplanes)).
    { clear Ec. induction F as [|a u a' l us l' H _ IH]; cbn; [reflexivity|].
      unfold all_panels in *; cbn. rewrite !app_length, IH. f_equal. apply H. }
    apply (f_equal (@length _)) in Ec. rewrite combine_length, app_length in Ec. lia.
  - intros [L1 L2]. unfold process_forces.
    destruct (update_panels_complete (fun p fm => Ok (loaded op p fm))) with
      (airplanes := airplanes) (bs := combine forces moments) as [airplanes1 E].
    + eauto.
    + rewrite combine_length; lia.
    + unfold loaded in E. rewrite E; cbn [bind].
      apply update_panels_sound in E. destruct E as (useds & rest & _ & F).
      apply mapM_ok. intros a1 Hin.
      assert (X : exists a u, airplane_updated (fun p fm => Ok (loaded op p fm)) a u a1).
      { clear -F Hin. induction F as [|a u a' l us l' H _ IH]; [destruct Hin|].
        destruct Hin as [<-|Hin]; [exists a, u; exact H | auto]. }
      destruct X as (a & u & Hu).
      pose proof (airplane_updated_panels _ _ _ _ Hu) as Hp.
      assert (Hp' : airplane_panels a1 = map2 (loaded op) (airplane_panels a) u).
      { apply Forall3_total. revert Hp; apply Forall3_impl. intros p b q Hq. injection Hq as <-. reflexivity. }
      destruct (Forall3_length _ _ _ _ Hp) as [Lu _].
      unfold airplane_totals. rewrite Hp', mapM_loaded_forces by exact Lu. cbn [bind].
      rewrite mapM_loaded_moments by exact Lu. cbn [bind]. eauto.
Qed.

Lemma map_fst_combine {A B} (l : list A) (m : list B) : length m = length l -> map fst (combine l m) = l.
Proof. revert m; induction l as [|x l IH]; intros [|y m]; cbn; try discriminate; intros H; f_equal; auto. Qed.
Lemma map_snd_combine {A B} (l : list A) (m : list B) : length m = length l -> map snd (combine l m) = m.
Proof. revert m; induction l as [|x l IH]; intros [|y m]; cbn; try discriminate; intros H; f_equal; auto. Qed.

Lemma totals_of_own_panels op forces moments airplanes airplanes' :
  length moments = length forces ->
  process_forces op forces moments airplanes = Ok airplanes' ->
  Forall2 same_airplane airplanes airplanes' /\
  forall k a', nth_error airplanes' k = Some a' ->
    let to_wind := mvmul (mtrans (rotation_wind_to_geometry op)) in
    a_force_wind a' = Some (to_wind (vsum (own_entries airplanes k forces))) /\
    a_moment_wind a' = Some (to_wind (vsum (own_entries airplanes k moments))) /\
    map p_force_geometry (airplane_panels a') = map Some (own_entries airplanes k forces) /\
    map p_moment_geometry (airplane_panels a') = map Some (own_entries airplanes k moments) /\
    map p_force_wind (airplane_panels a') = map Some (map to_wind (own_entries airplanes k forces)) /\
    map p_moment_wind (airplane_panels a') = map Some (map to_wind (own_entries airplanes k moments)).
Proof.
  intros L E. apply process_forces_sound in E. destruct E as (useds & rest & Ec & F).
  split; [revert F; apply Forall3_13; intros a u a' H; apply H|].
  intros k a' Hk.
  assert (F12 : Forall2 (fun a u => length u = length (airplane_panels a)) airplanes useds).
  { revert F; apply Forall3_12. intros a u a1 H; apply H. }
  assert (F23 : exists a u, nth_error useds k = Some u /\ totalled op a u a').
  { clear -F Hk. revert k Hk; induction F as [|a u a1 l us l' H _ IH]; intros [|k]; cbn; try discriminate.
    - intros X; injection X as ->. exists a, u; auto.
    - apply IH. }
  destruct F23 as (a & u & Hu & T).
  pose proof (own_entries_chunk airplanes useds rest k u F12 Hu) as Hc. rewrite <- Ec in Hc.
  assert (Hf : own_entries airplanes k forces = map fst u).
  { rewrite <- Hc, map_own_entries, map_fst_combine by exact L; reflexivity. }
  assert (Hm : own_entries airplanes k moments = map snd u).
  { rewrite <- Hc, map_own_entries, map_snd_combine by exact L; reflexivity. }
  destruct T as (_ & Hp & Lu & Tf & Tm & _). rewrite Hf, Hm, Hp.
  split; [exact Tf|]. split; [exact Tm|]. clear -Lu.
  set (ps := airplane_panels a) in *. clearbody ps.
  revert ps Lu; induction u as [|fm u IH]; intros [|p ps]; cbn; try discriminate; intros Lu; [auto|].
  destruct (IH ps) as (I1 & I2 & I3 & I4); [lia|].
  rewrite I1, I2, I3, I4. auto.
Qed.

(** The airplanes' shares partition the array. *)
Lemma own_entries_partition {B} airplanes (l : list B) : length l = length (all_panels airplanes) ->
  concat (map (fun k => own_entries airplanes k l) (seq 0 (length airplanes))) = l.
Proof.
  revert l; induction airplanes as [|a airplanes IH]; intros l L.
  - destruct l; [reflexivity | discriminate].
  - unfold all_panels in L; cbn in L. rewrite app_length in L. fold (all_panels airplanes) in L.
    cbn [length seq map concat]. rewrite <- seq_shift, map_map.
    transitivity (firstn (length (airplane_panels a)) l ++ skipn (length (airplane_panels a)) l);
      [|apply firstn_skipn].
    f_equal.
    etransitivity; [|apply (IH (skipn (length (airplane_panels a)) l)); rewrite skipn_length; lia].
    f_equal. apply map_ext; intros k. unfold own_entries, panels_before; cbn.
    destruct (nth_error airplanes k) as [a'|]; [|reflexivity].
    unfold all_panels; cbn. rewrite app_length. fold (all_panels (firstn k airplanes)).
    f_equal. clear. generalize (length (airplane_panels a)); intros n.
    generalize (length (all_panels (firstn k airplanes))); intros j.
    revert l; induction n as [|n IH]; intros [|x l]; cbn; auto. rewrite skipn_nil; reflexivity.
Qed.
