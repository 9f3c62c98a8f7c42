(** The symmetric wing of [L_Example6] with its rows read from the right tip to the left one. *)
From Coq Require Import Lra Lia.
From Verif Require Import M_Geometry M_Horseshoe M_SteadyRing S_Solve S_Loads S_Mirror S_Order
  L_Base L_Loads L_Example L_Example2 L_Example6 L_Mirror L_MirrorHorseshoe L_Order.

Definition turned_panel (y0 y1 : R) : panel :=
  new_panel (mkvec 0 y0 0) (mkvec 0 y1 0) (mkvec 4 y1 0) (mkvec 4 y0 0) true true.
Definition turned_rows : list (list panel) := set_positions 2 [[turned_panel 0 1; turned_panel (- 1) (- 0)]].
Definition turned_airplane : airplane := a_set_wings [w_set_panels turned_rows (ex_wing true)] (ex_airplane true).
Lemma turned_reordered : reordered (fun k => k) [ex_airplane true] [turned_airplane].
Proof.
  split; [reflexivity|]. split; [auto|]. intros [|k] x; cbn [nth_error]; [|destruct k; discriminate].
  intros H. assert (E : x = ex_airplane true) by congruence. subst x. exists turned_airplane. split; [reflexivity|].
  repeat (split; [reflexivity|]). exists (fun k => k). split; [reflexivity|]. split; [auto|].
  intros [|k] w; cbn [nth_error ex_airplane a_wings]; [|destruct k; discriminate].
  intros Hw. assert (E : w = ex_wing true) by congruence. subst w. exists (w_set_panels turned_rows (ex_wing true)). split; [reflexivity|].
  split; [reflexivity|]. exists false. constructor; [|constructor]. cbn [turned_rows set_positions].
  constructor; [repeat split|]. constructor; [repeat split|]. constructor.
Qed.
Lemma turned_well_meshed : well_meshed_airplane turned_airplane.
Proof.
  split; [|reflexivity]. intros w [<-|[]]. split.
  - intros row [<-|[]]. reflexivity.
  - intros [|c] row s p; cbn [nth_error]; [|destruct c; discriminate]. intros H. injection H as <-.
    destruct s as [|[|s]]; cbn [nth_error]; [| |destruct s; discriminate]; intros H; injection H as <-; repeat split.
Qed.
(** Two airplanes, or two wings of one, listed the other way round. *)
Lemma swapped_pair {A} (P : A -> A -> Prop) a b : (forall x, P x x) -> paired (fun k => (1 - k)%nat) P [a; b] [b; a].
Proof.
  intros H. split; [reflexivity|]. split; [intros i j; cbn [length]; lia|]. intros [|[|k]] x; cbn [nth_error]; [| |destruct k; discriminate]; intros E; injection E as <-;
    eexists; (split; [reflexivity | apply H]).
Qed.
Lemma same_place_self p : same_place true p p.
Proof. repeat split. Qed.
Lemma wing_self w : mirrored_wing same_place w w.
Proof.
  split; [reflexivity|]. exists true. induction (w_panels w) as [|r m IH]; constructor; [|exact IH]. clear. induction r; constructor; auto using same_place_self.
Qed.
Lemma airplane_self a : reordered_airplane same_place a a.
Proof.
  repeat (split; [reflexivity|]). exists (fun k => k). split; [reflexivity|]. split; [auto|]. intros k x H. exists x. split; [exact H | apply wing_self].
Qed.
Lemma swapped_airplanes a b : reordered (fun k => (1 - k)%nat) [a; b] [b; a].
Proof. apply swapped_pair, airplane_self. Qed.
Lemma swapped_wings a w v : reordered (fun k => k) [a_set_wings [w; v] a] [a_set_wings [v; w] a].
Proof.
  split; [reflexivity|]. split; [auto|]. intros [|k] x; cbn [nth_error]; [|destruct k; discriminate].
  intros H. apply Some_eq' in H. subst x. eexists. split; [reflexivity|]. repeat (split; [reflexivity|]). exists (fun k => (1 - k)%nat).
  cbn [a_wings a_set_wings]. apply swapped_pair, wing_self.
Qed.
