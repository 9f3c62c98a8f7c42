(** The velocity field of a straight vortex: derivative, divergence and curl. *)
From Coq Require Import Reals Lra Lia Psatz Ranalysis5.
From Verif Require Import M_Base M_Aero S_Flow L_Base L_Aero.
Local Open Scope R_scope.

(** ** Fields *)
Lemma zero_field x : field_derivative (fun _ => vzero) x (mkmat vzero vzero vzero).
Proof. intros h. repeat split; cbn -[Rplus Rmult]; match goal with |- derivable_pt_lim _ _ ?l => replace l with 0 by (unfold vdot; cbn; ring) end; apply derivable_pt_lim_const. Qed.
Lemma const_field v x : field_derivative (fun _ => v) x (mkmat vzero vzero vzero).
Proof. intros h. repeat split; cbn -[Rplus Rmult]; match goal with |- derivable_pt_lim _ _ ?l => replace l with 0 by (unfold vdot; cbn; ring) end; apply derivable_pt_lim_const. Qed.
Definition madd (J K : mat) : mat := mkmat (vadd (r0 J) (r0 K)) (vadd (r1 J) (r1 K)) (vadd (r2 J) (r2 K)).
Definition mscale (c : R) (J : mat) : mat := mkmat (vscale c (r0 J)) (vscale c (r1 J)) (vscale c (r2 J)).
Lemma sum_field V W x J K : field_derivative V x J -> field_derivative W x K -> field_derivative (fun y => vadd (V y) (W y)) x (madd J K).
Proof.
  intros HV HW h. destruct (HV h) as (A1 & A2 & A3), (HW h) as (B1 & B2 & B3).
  repeat split; cbn [vx vy vz vadd]; match goal with |- derivable_pt_lim (fun t => ?f + ?g) _ _ => idtac end.
  - replace (vx (mvmul (madd J K) h)) with (vx (mvmul J h) + vx (mvmul K h)) by (destruct J as [[] [] []], K as [[] [] []]; vunfold; cbn; ring). exact (derivable_pt_lim_plus _ _ _ _ _ A1 B1).
  - replace (vy (mvmul (madd J K) h)) with (vy (mvmul J h) + vy (mvmul K h)) by (destruct J as [[] [] []], K as [[] [] []]; vunfold; cbn; ring). exact (derivable_pt_lim_plus _ _ _ _ _ A2 B2).
  - replace (vz (mvmul (madd J K) h)) with (vz (mvmul J h) + vz (mvmul K h)) by (destruct J as [[] [] []], K as [[] [] []]; vunfold; cbn; ring). exact (derivable_pt_lim_plus _ _ _ _ _ A3 B3).
Qed.
Lemma scale_field c V x J : field_derivative V x J -> field_derivative (fun y => vscale c (V y)) x (mscale c J).
Proof.
  intros HV h. destruct (HV h) as (A1 & A2 & A3). repeat split; cbn [vx vy vz vscale].
  - replace (vx (mvmul (mscale c J) h)) with (c * vx (mvmul J h)) by (destruct J as [[] [] []]; vunfold; cbn; ring). exact (derivable_pt_lim_scal _ _ _ _ A1).
  - replace (vy (mvmul (mscale c J) h)) with (c * vy (mvmul J h)) by (destruct J as [[] [] []]; vunfold; cbn; ring). exact (derivable_pt_lim_scal _ _ _ _ A2).
  - replace (vz (mvmul (mscale c J) h)) with (c * vz (mvmul J h)) by (destruct J as [[] [] []]; vunfold; cbn; ring). exact (derivable_pt_lim_scal _ _ _ _ A3).
Qed.
Lemma divergence_add J K : divergence (madd J K) = divergence J + divergence K. Proof. unfold divergence, madd. cbn. ring. Qed.
Lemma divergence_scale c J : divergence (mscale c J) = c * divergence J. Proof. unfold divergence, mscale. cbn. ring. Qed.
Lemma curl_add J K : curl (madd J K) = vadd (curl J) (curl K). Proof. unfold curl, madd. apply vec_ext; cbn; ring. Qed.
Lemma curl_scale c J : curl (mscale c J) = vscale c (curl J). Proof. unfold curl, mscale. apply vec_ext; cbn; ring. Qed.
(** Fields that agree along every line near the point. *)
Lemma near_field V W x J : (forall h, exists d, 0 < d /\ forall t, Rabs t < d -> V (vadd x (vscale t h)) = W (vadd x (vscale t h))) ->
  field_derivative V x J -> field_derivative W x J.
Proof.
  intros HN HV h. destruct (HN h) as (d & Hd & E). destruct (HV h) as (A1 & A2 & A3).
  assert (L : forall pr : vec -> R, forall l, derivable_pt_lim (fun t => pr (V (vadd x (vscale t h)))) 0 l -> derivable_pt_lim (fun t => pr (W (vadd x (vscale t h)))) 0 l).
  { intros pr l HL. apply (derivable_pt_lim_locally_ext (fun t => pr (V (vadd x (vscale t h)))) _ 0 (-d) d l); [lra| |exact HL].
    intros t Ht. rewrite E by (apply Rabs_def1; lra). reflexivity. }
  repeat split; apply L; assumption.
Qed.
Lemma ext_field V W x J : (forall y, V y = W y) -> field_derivative V x J -> field_derivative W x J.
Proof. intros E. apply near_field. intros h. exists 1. split; [lra|]. intros t _. apply E. Qed.

(** ** Distances along a line *)
Lemma dl_plus f g t l m n : derivable_pt_lim f t l -> derivable_pt_lim g t m -> n = l + m -> derivable_pt_lim (fun t => f t + g t) t n.
Proof. intros A B ->. exact (derivable_pt_lim_plus f g t l m A B). Qed.
Lemma dl_minus f g t l m n : derivable_pt_lim f t l -> derivable_pt_lim g t m -> n = l - m -> derivable_pt_lim (fun t => f t - g t) t n.
Proof. intros A B ->. exact (derivable_pt_lim_minus f g t l m A B). Qed.
Lemma dl_mult f g t l m n : derivable_pt_lim f t l -> derivable_pt_lim g t m -> n = l * g t + f t * m -> derivable_pt_lim (fun t => f t * g t) t n.
Proof. intros A B ->. exact (derivable_pt_lim_mult f g t l m A B). Qed.
Lemma dl_div f g t l m n : derivable_pt_lim f t l -> derivable_pt_lim g t m -> g t <> 0 -> n = (l * g t - m * f t) / (g t)² -> derivable_pt_lim (fun t => f t / g t) t n.
Proof. intros A B H ->. exact (derivable_pt_lim_div f g t l m A B H). Qed.
Lemma dl_const c t n : n = 0 -> derivable_pt_lim (fun _ => c) t n.
Proof. intros ->. exact (derivable_pt_lim_const c t). Qed.
Lemma dl_quad c l q : derivable_pt_lim (fun t => c + t * l + t * t * q) 0 l.
Proof.
  eapply dl_plus; [eapply dl_plus; [apply dl_const; reflexivity | eapply (dl_mult id); [apply derivable_pt_lim_id | apply dl_const; reflexivity | reflexivity] | reflexivity] |
    eapply (dl_mult (fun t => t * t)); [eapply (dl_mult id id); [apply derivable_pt_lim_id | apply derivable_pt_lim_id | reflexivity] | apply dl_const; reflexivity | reflexivity] |].
  unfold id. ring.
Qed.
Lemma dot_moving (x h u v : vec) : derivable_pt_lim (fun t => vdot (vsub u (vadd x (vscale t h))) (vsub v (vadd x (vscale t h)))) 0 (- (vdot (vsub u x) h + vdot (vsub v x) h)).
Proof.
  assert (E : forall t, vdot (vsub u x) (vsub v x) + t * (- (vdot (vsub u x) h + vdot (vsub v x) h)) + t * t * vdot h h = vdot (vsub u (vadd x (vscale t h))) (vsub v (vadd x (vscale t h)))) by (intros t; destruct x, h, u, v; vunfold; cbn; ring).
  apply (derivable_pt_lim_ext _ _ _ _ E). apply dl_quad.
Qed.
Lemma at_zero x h : vadd x (vscale 0 h) = x.
Proof. vring. Qed.
Lemma norm_moving (x h u : vec) : 0 < vnorm (vsub u x) -> derivable_pt_lim (fun t => vnorm (vsub u (vadd x (vscale t h)))) 0 (- vdot (vsub u x) h / vnorm (vsub u x)).
Proof.
  intros Hn. pose proof (dot_moving x h u u) as D. unfold vnorm.
  assert (P : 0 < vdot (vsub u x) (vsub u x)) by (rewrite <- vnorm_mul; apply Rmult_lt_0_compat; exact Hn).
  pose proof (derivable_pt_lim_sqrt (vdot (vsub u (vadd x (vscale 0 h))) (vsub u (vadd x (vscale 0 h)))) ltac:(rewrite at_zero; exact P)) as S0.
  pose proof (derivable_pt_lim_comp _ _ _ _ _ D S0) as C. unfold comp in C. rewrite at_zero in C.
  replace (- vdot (vsub u x) h / sqrt (vdot (vsub u x) (vsub u x))) with (/ (2 * sqrt (vdot (vsub u x) (vsub u x))) * - (vdot (vsub u x) h + vdot (vsub u x) h)); [exact C|].
  fold (vnorm (vsub u x)). field. lra.
Qed.

(** ** One straight vortex, where it is felt *)
Lemma lagrange u v : vnorm (vcross u v) ^ 2 = (vnorm u * vnorm v) ^ 2 - vdot u v ^ 2.
Proof. rewrite Rpow_mult_distr, !vnorm_sqr. vunfold. ring. Qed.
(** The derivatives, per unit of [r1 . h] and of [r2 . h], of the numerator and the denominator. *)
Section Coefficient.
  Variables (c1 c2 a b d : R).
  Let N := c1 * (a + b) * (a * b - d).
  Let D := a * b * ((a * b) ^ 2 - d ^ 2 + c2).
  Let N1 := c1 * (- / a * (a * b - d) + (a + b) * (- / a * b + 1)).
  Let N2 := c1 * (- / b * (a * b - d) + (a + b) * (- / b * a + 1)).
  Let D1 := - / a * b * ((a * b) ^ 2 - d ^ 2 + c2) + a * b * (2 * (a * b) * (- / a * b) + 2 * d).
  Let D2 := - / b * a * ((a * b) ^ 2 - d ^ 2 + c2) + a * b * (2 * (a * b) * (- / b * a) + 2 * d).
  Definition slope1 : R := (N1 * D - D1 * N) / D².
  Definition slope2 : R := (N2 * D - D2 * N) / D².
  Lemma coefficient_moving fa fb fd h1 h2 : fa 0 = a -> fb 0 = b -> fd 0 = d -> 0 < a -> 0 < b -> D <> 0 ->
    derivable_pt_lim fa 0 (- h1 / a) -> derivable_pt_lim fb 0 (- h2 / b) -> derivable_pt_lim fd 0 (- (h1 + h2)) ->
    derivable_pt_lim (fun t => c1 * (fa t + fb t) * (fa t * fb t - fd t) / (fa t * fb t * ((fa t * fb t) ^ 2 - fd t ^ 2 + c2))) 0 (slope1 * h1 + slope2 * h2).
  Proof.
    intros Ea Eb Ed Ha Hb HD Da Db Dd.
    assert (Dp : derivable_pt_lim (fun t => fa t * fb t) 0 (- / a * b * h1 + - / b * a * h2)) by (eapply dl_mult; [exact Da | exact Db | rewrite Ea, Eb; field; lra]).
    assert (DN : derivable_pt_lim (fun t => c1 * (fa t + fb t) * (fa t * fb t - fd t)) 0 (N1 * h1 + N2 * h2)).
    { eapply dl_mult; [eapply dl_mult; [apply dl_const; reflexivity | eapply dl_plus; [exact Da | exact Db | reflexivity] | reflexivity] | eapply dl_minus; [exact Dp | exact Dd | reflexivity] |].
      rewrite Ea, Eb, Ed. unfold N1, N2. field. lra. }
    assert (DD : derivable_pt_lim (fun t => fa t * fb t * ((fa t * fb t) ^ 2 - fd t ^ 2 + c2)) 0 (D1 * h1 + D2 * h2)).
    { eapply dl_mult; [exact Dp | eapply dl_plus; [eapply dl_minus; [cbn [pow]; eapply dl_mult; [exact Dp | eapply dl_mult; [exact Dp | apply dl_const; reflexivity | reflexivity] | reflexivity] | eapply dl_mult; [exact Dd | eapply dl_mult; [exact Dd | apply dl_const; reflexivity | reflexivity] | reflexivity] | reflexivity] | apply dl_const; reflexivity | reflexivity] |].
      cbv beta. rewrite Ea, Eb, Ed. unfold D1, D2. field. lra. }
    eapply dl_div; [exact DN | exact DD | cbv beta; rewrite Ea, Eb, Ed; exact HD |]. cbv beta. rewrite Ea, Eb, Ed. fold N D. unfold slope1, slope2, Rsqr. field. exact HD.
  Qed.
End Coefficient.
(** h -> (u . h) w + f (h x c), as a matrix. *)
Definition line_matrix (u w c : vec) (f : R) : mat :=
  mkmat (vadd (vscale (vx w) u) (vscale f (mkvec 0 (vz c) (- vy c))))
        (vadd (vscale (vy w) u) (vscale f (mkvec (- vz c) 0 (vx c))))
        (vadd (vscale (vz w) u) (vscale f (mkvec (vy c) (- vx c) 0))).
Lemma line_matrix_mul u w c f h : mvmul (line_matrix u w c f) h = vadd (vscale (vdot u h) w) (vscale f (vcross h c)).
Proof. unfold line_matrix. destruct u, w, c, h. unfold mvmul. cbn [r0 r1 r2]. apply vec_ext; vunfold; cbn; ring. Qed.
Lemma line_matrix_divergence u w c f : divergence (line_matrix u w c f) = vdot u w.
Proof. unfold divergence, line_matrix. cbn. unfold vdot. ring. Qed.
Lemma line_matrix_curl u w c f : curl (line_matrix u w c f) = vsub (vcross u w) (vscale (2 * f) c).
Proof. unfold curl, line_matrix. destruct u, w, c. apply vec_ext; vunfold; cbn; ring. Qed.

Definition felt_field (a b : vec) (g age nu : R) (y : vec) : vec := vscale (line_coefficient y a b g age nu) (vcross (vsub a y) (vsub b y)).
Definition felt_matrix (x a b : vec) (g age nu : R) : mat :=
  let r1 := vsub a x in let r2 := vsub b x in
  let c1 := g / (4 * PI) in let c2 := vnorm (vsub b a) ^ 2 * core_radius g age nu ^ 2 in
  line_matrix (vadd (vscale (slope1 c1 c2 (vnorm r1) (vnorm r2) (vdot r1 r2)) r1) (vscale (slope2 c1 c2 (vnorm r1) (vnorm r2) (vdot r1 r2)) r2))
              (vcross r1 r2) (vsub a b) (line_coefficient x a b g age nu).
Lemma cross_moving x h a b : vector_derivative (fun t => vcross (vsub a (vadd x (vscale t h))) (vsub b (vadd x (vscale t h)))) (vcross h (vsub a b)).
Proof.
  assert (E : forall t, vcross (vsub a (vadd x (vscale t h))) (vsub b (vadd x (vscale t h))) = vadd (vcross (vsub a x) (vsub b x)) (vscale t (vcross h (vsub a b)))) by (intros t; destruct a, b, x, h; apply vec_ext; vunfold; cbn; ring).
  assert (L : forall (pr : vec -> R), (forall u v t, pr (vadd u (vscale t v)) = pr u + t * pr v + t * t * 0) -> derivable_pt_lim (fun t => pr (vcross (vsub a (vadd x (vscale t h))) (vsub b (vadd x (vscale t h))))) 0 (pr (vcross h (vsub a b)))).
  { intros pr Hp. apply (derivable_pt_lim_ext (fun t => pr (vcross (vsub a x) (vsub b x)) + t * pr (vcross h (vsub a b)) + t * t * 0)); [|apply dl_quad]. intros t. rewrite E. symmetry. apply Hp. }
  repeat split; apply L; intros; cbn; ring.
Qed.
Lemma coefficient_plain y a b g age nu : line_coefficient y a b g age nu =
  g / (4 * PI) * (vnorm (vsub a y) + vnorm (vsub b y)) * (vnorm (vsub a y) * vnorm (vsub b y) - vdot (vsub a y) (vsub b y))
  / (vnorm (vsub a y) * vnorm (vsub b y) * ((vnorm (vsub a y) * vnorm (vsub b y)) ^ 2 - vdot (vsub a y) (vsub b y) ^ 2 + vnorm (vsub b a) ^ 2 * core_radius g age nu ^ 2)).
Proof. unfold line_coefficient. rewrite lagrange. reflexivity. Qed.
Lemma felt_derivative x a b g age nu : singular x a b = false -> field_derivative (felt_field a b g age nu) x (felt_matrix x a b g age nu).
Proof.
  intros HS h. destruct (regular_nonzero _ _ _ HS) as (P1 & P2 & _). pose proof (regular_denominator x a b g age nu HS) as PD. rewrite lagrange in PD.
  assert (DC : derivable_pt_lim (fun t => line_coefficient (vadd x (vscale t h)) a b g age nu) 0
     (slope1 (g / (4 * PI)) (vnorm (vsub b a) ^ 2 * core_radius g age nu ^ 2) (vnorm (vsub a x)) (vnorm (vsub b x)) (vdot (vsub a x) (vsub b x)) * vdot (vsub a x) h +
      slope2 (g / (4 * PI)) (vnorm (vsub b a) ^ 2 * core_radius g age nu ^ 2) (vnorm (vsub a x)) (vnorm (vsub b x)) (vdot (vsub a x) (vsub b x)) * vdot (vsub b x) h)).
  { eapply derivable_pt_lim_ext; [intros t; symmetry; apply coefficient_plain|].
    apply (coefficient_moving _ _ _ _ _ (fun t => vnorm (vsub a (vadd x (vscale t h)))) (fun t => vnorm (vsub b (vadd x (vscale t h)))) (fun t => vdot (vsub a (vadd x (vscale t h))) (vsub b (vadd x (vscale t h)))));
      try (rewrite at_zero; reflexivity); try assumption; [lra | apply norm_moving; assumption | apply norm_moving; assumption | apply dot_moving]. }
  destruct (cross_moving x h a b) as (X1 & X2 & X3). unfold felt_field, felt_matrix. cbv zeta. rewrite line_matrix_mul.
  assert (U : forall s1 s2, vdot (vadd (vscale s1 (vsub a x)) (vscale s2 (vsub b x))) h = s1 * vdot (vsub a x) h + s2 * vdot (vsub b x) h) by (intros; vunfold; ring). rewrite U.
  repeat split; cbn [vx vy vz vscale vadd]; (eapply dl_mult; [exact DC | eassumption | cbv beta; rewrite at_zero; reflexivity]).
Qed.
Lemma felt_divergence x a b g age nu : divergence (felt_matrix x a b g age nu) = 0.
Proof. unfold felt_matrix. cbv zeta. rewrite line_matrix_divergence. generalize (vsub a x) (vsub b x). intros u v. generalize (slope1 (g / (4 * PI)) (vnorm (vsub b a) ^ 2 * core_radius g age nu ^ 2) (vnorm u) (vnorm v) (vdot u v)) (slope2 (g / (4 * PI)) (vnorm (vsub b a) ^ 2 * core_radius g age nu ^ 2) (vnorm u) (vnorm v) (vdot u v)). intros s1 s2. vunfold. ring. Qed.
