(** Gaussian elimination over the reals: a function that meets [SolveSpec], so
    the hypothesis made about numpy.linalg.solve is satisfiable. *)
From Coq Require Import Lra Lia.
From Verif Require Import M_Base S_Solve L_Base.

Definition dot (r x : list R) : R := rsum (map2 Rmult r x).
Definition eqn : Type := (list R * R)%type.
Definition holds (x : list R) (e : eqn) : Prop := dot (fst e) x = snd e.

(** The first equation whose leading coefficient is not zero. *)
Fixpoint pick (es : list eqn) : option (eqn * list eqn) :=
  match es with
  | [] => None
  | e :: es' =>
      if Reqb (hd 0 (fst e)) 0 then
        match pick es' with Some (p, rest) => Some (p, e :: rest) | None => None end
      else Some (e, es')
  end.
Definition eliminate (p e : eqn) : eqn :=
  let k := hd 0 (fst e) / hd 0 (fst p) in
  (map2 (fun a b => a - k * b) (tl (fst e)) (tl (fst p)), snd e - k * snd p).
Fixpoint gauss (n : nat) (es : list eqn) : result (list R) :=
  match n with
  | O => Ok []
  | S n' =>
      match pick es with
      | None => Err ELinAlg
      | Some (p, rest) =>
          match gauss n' (map (eliminate p) rest) with
          | Err e => Err e
          | Ok xs => Ok ((snd p - dot (tl (fst p)) xs) / hd 0 (fst p) :: xs)
          end
      end
  end.
Definition gauss_solve (a : list (list R)) (b : list R) : result (list R) := gauss (length a) (combine a b).

Lemma dot_cons a r x xs : dot (a :: r) (x :: xs) = a * x + dot r xs.
Proof. unfold dot; cbn [map2]. apply rsum_cons. Qed.
Lemma dot_comb k r s xs : length r = length xs -> length s = length xs ->
  dot (map2 (fun a b => a - k * b) r s) xs = dot r xs - k * dot s xs.
Proof.
  revert s xs; induction r as [|a r IH]; intros [|b s] [|x xs]; cbn [length]; try discriminate; intros L1 L2.
  - unfold dot; cbn [map2]; rewrite rsum_nil; ring.
  - cbn [map2]. rewrite !dot_cons, IH by lia. ring.
Qed.
Lemma pick_Some es p rest : pick es = Some (p, rest) ->
  hd 0 (fst p) <> 0 /\ length es = S (length rest) /\
  (forall P : eqn -> Prop, Forall P es <-> P p /\ Forall P rest).
Proof.
  revert p rest; induction es as [|e es IH]; cbn; intros p rest E; [discriminate|].
  destruct (Reqb (hd 0 (fst e)) 0) eqn:H.
  - destruct (pick es) as [[p' rest']|]; [|discriminate]. injection E as <- <-.
    destruct (IH p' rest' eq_refl) as (H1 & H2 & H3). split; [exact H1|]. split; [cbn; lia|].
    intros P. rewrite !Forall_cons_iff, H3. tauto.
  - injection E as <- <-. apply Reqb_false in H. split; [exact H|]. split; [reflexivity|].
    intros P. apply Forall_cons_iff.
Qed.
Lemma pick_None es : pick es = None -> Forall (fun e => hd 0 (fst e) = 0) es.
Proof.
  induction es as [|e es IH]; cbn; intros E; [constructor|].
  destruct (Reqb (hd 0 (fst e)) 0) eqn:H; [|discriminate].
  destruct (pick es) as [[p' rest']|]; [discriminate|]. apply Reqb_true in H. constructor; auto.
Qed.
Lemma eliminate_holds p e x xs : hd 0 (fst p) <> 0 ->
  length (fst p) = S (length xs) -> length (fst e) = S (length xs) ->
  holds (x :: xs) p -> (holds (x :: xs) e <-> holds xs (eliminate p e)).
Proof.
  destruct p as [[|a p] pb], e as [[|c e] eb]; cbn [fst snd hd tl length]; try discriminate. intros Ha L1 L2.
  unfold holds, eliminate; cbn [fst snd hd tl]. rewrite !dot_cons, dot_comb by lia. intros Hp.
  split; intros H.
  - rewrite <- H, <- Hp. field; exact Ha.
  - assert (E : dot e xs = eb - c / a * pb + c / a * dot p xs) by lra. rewrite E, <- Hp. field; exact Ha.
Qed.
Lemma back_substitute p xs : hd 0 (fst p) <> 0 -> length (fst p) = S (length xs) ->
  holds ((snd p - dot (tl (fst p)) xs) / hd 0 (fst p) :: xs) p.
Proof.
  destruct p as [[|a p] pb]; cbn [fst snd hd tl length]; try discriminate. intros Ha _. unfold holds; cbn [fst snd]. rewrite dot_cons. field; exact Ha.
Qed.
Lemma head_forced p x xs : hd 0 (fst p) <> 0 -> length (fst p) = S (length xs) ->
  holds (x :: xs) p -> x = (snd p - dot (tl (fst p)) xs) / hd 0 (fst p).
Proof.
  destruct p as [[|a p] pb]; cbn [fst snd hd tl length]; try discriminate. intros Ha _. unfold holds; cbn [fst snd]. rewrite dot_cons.
  intros <-. field; exact Ha.
Qed.
Definition sized (n : nat) (es : list eqn) : Prop := length es = n /\ Forall (fun e => length (fst e) = n) es.
Lemma sized_eliminate n p rest es : sized (S n) es -> pick es = Some (p, rest) ->
  length (fst p) = S n /\ Forall (fun e => length (fst e) = S n) rest /\ sized n (map (eliminate p) rest).
Proof.
  intros [L F] E. apply pick_Some in E. destruct E as (_ & Le & H). apply H in F. destruct F as [Fp Fr].
  split; [exact Fp|]. split; [exact Fr|]. split; [rewrite map_length; lia|].
  apply Forall_map. eapply Forall_impl; [|exact Fr]. intros e He. unfold eliminate; cbn.
  rewrite map2_length. destruct e as [[|] ?], p as [[|] ?]; cbn in *; lia.
Qed.

Lemma gauss_Ok n : forall es x, sized n es -> gauss n es = Ok x ->
  length x = n /\ Forall (holds x) es /\ forall y, length y = n -> Forall (holds y) es -> y = x.
Proof.
  induction n as [|n IH]; intros es x Hs E; cbn in E.
  - injection E as <-. split; [reflexivity|]. destruct Hs as [L _]. destruct es; [|discriminate].
    split; [constructor|]. intros [|y ys]; cbn; [reflexivity | discriminate].
  - destruct (pick es) as [[p rest]|] eqn:Ep; [|discriminate].
    destruct (sized_eliminate _ _ _ _ Hs Ep) as (Lp & Lr & Hs').
    destruct (pick_Some _ _ _ Ep) as (Hp & _ & HF).
    destruct (gauss n (map (eliminate p) rest)) as [xs|e] eqn:Eg; [|discriminate].
    injection E as <-. destruct (IH _ _ Hs' Eg) as (Lx & Sx & Ux).
    split; [cbn; lia|]. split.
    + apply HF. split; [apply back_substitute; [exact Hp | lia]|].
      rewrite Forall_forall in *. intros e He.
      apply (eliminate_holds p e); [exact Hp | lia | rewrite (Lr e He); lia | apply back_substitute; [exact Hp | lia]|].
      apply Sx. apply in_map; exact He.
    + intros [|y ys] Ly Hy; [discriminate|]. apply HF in Hy. destruct Hy as [Hyp Hyr].
      assert (ys = xs) as ->.
      { apply Ux; [cbn in Ly; lia|]. rewrite Forall_forall in *. intros e He. apply in_map_iff in He.
        destruct He as (e' & <- & He'). apply (eliminate_holds p e' y ys); cbn in Ly;
          [exact Hp | lia | rewrite (Lr e' He'); lia | exact Hyp | apply Hyr; exact He']. }
      f_equal. apply head_forced; [exact Hp | lia | exact Hyp].
Qed.
Lemma gauss_Err n : forall es e, sized n es -> gauss n es = Err e ->
  forall x, length x = n -> Forall (holds x) es -> exists y, length y = n /\ Forall (holds y) es /\ y <> x.
Proof.
  induction n as [|n IH]; intros es e Hs E x Lx Hx; cbn in E; [discriminate|].
  destruct x as [|x xs]; [discriminate|].
  destruct (pick es) as [[p rest]|] eqn:Ep.
  - destruct (sized_eliminate _ _ _ _ Hs Ep) as (Lp & Lr & Hs').
    destruct (pick_Some _ _ _ Ep) as (Hp & _ & HF).
    destruct (gauss n (map (eliminate p) rest)) as [zs|e'] eqn:Eg; [discriminate|].
    apply HF in Hx. destruct Hx as [Hxp Hxr]. cbn in Lx.
    destruct (IH _ _ Hs' Eg xs) as (ys & Ly & Hy & Hne); [lia| |].
    { rewrite Forall_forall in *. intros d Hd. apply in_map_iff in Hd. destruct Hd as (d' & <- & Hd').
      apply (eliminate_holds p d' x xs); [exact Hp | lia | rewrite (Lr d' Hd'); lia | exact Hxp | auto]. }
    exists ((snd p - dot (tl (fst p)) ys) / hd 0 (fst p) :: ys).
    split; [cbn; lia|]. split.
    + apply HF. split; [apply back_substitute; [exact Hp | lia]|].
      rewrite Forall_forall in *. intros d Hd.
      apply (eliminate_holds p d); [exact Hp | lia | rewrite (Lr d Hd); lia | apply back_substitute; [exact Hp | lia]|].
      apply Hy. apply in_map; exact Hd.
    + intros X. injection X as _ X. auto.
  - apply pick_None in Ep. exists (x + 1 :: xs). split; [exact Lx|]. split.
    + destruct Hs as [_ Hl]. rewrite Forall_forall in *. intros d Hd. specialize (Hx d Hd). specialize (Ep d Hd).
      specialize (Hl d Hd). destruct d as [[|a r] b]; cbn in *; [discriminate|]. subst a.
      unfold holds in *; cbn [fst snd] in *. rewrite dot_cons in *. lra.
    + intros X. injection X as X. lra.
Qed.

Lemma solves_holds a b x : length b = length a ->
  (solves a b x <-> length x = length a /\ Forall (holds x) (combine a b)).
Proof.
  intros L. unfold solves. enough (matvec a x = b <-> Forall (holds x) (combine a b)) by tauto.
  revert b L; induction a as [|r a IH]; intros [|c b]; cbn [length combine]; try discriminate; intros L.
  - split; [constructor | reflexivity].
  - rewrite Forall_cons_iff, <- IH by lia. unfold holds at 1; cbn [fst snd matvec map]. change (map (fun row => rsum (map2 Rmult row x)) a) with (matvec a x). change (rsum (map2 Rmult r x)) with (dot r x).
    split; [intros E; injection E; auto | intros [-> ->]; reflexivity].
Qed.
Lemma gauss_solve_spec : SolveSpec gauss_solve.
Proof.
  intros a b Hsq Hlen x. unfold gauss_solve.
  assert (Hs : sized (length a) (combine a b)).
  { assert (L : length (combine a b) = length a) by (rewrite combine_length; lia). split; [exact L|]. rewrite Forall_forall. intros [r c] Hin.
    apply in_combine_l in Hin. apply Hsq; exact Hin. }
  rewrite solves_holds by exact Hlen. split.
  - intros E. destruct (gauss_Ok _ _ _ Hs E) as (L & S & U). split; [auto|].
    intros y Hy. apply solves_holds in Hy; [|exact Hlen]. apply U; tauto.
  - intros [[L S] U]. destruct (gauss (length a) (combine a b)) as [y|e] eqn:E.
    + destruct (gauss_Ok _ _ _ Hs E) as (Ly & Sy & Uy). f_equal. symmetry. apply Uy; assumption.
    + exfalso. destruct (gauss_Err _ _ _ Hs E x L S) as (y & Ly & Sy & Hne).
      apply Hne, U. apply solves_holds; auto.
Qed.
