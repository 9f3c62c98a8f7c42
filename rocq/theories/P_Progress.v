(** The progress bar of an unsteady run (C71).  [vortices], [cost] and [standing] are in
    S_Progress. *)
From Verif Require Import M_Progress S_UnsteadyRun S_Progress L_Progress.
Local Open Scope R_scope.

(** The bar is advanced once for the preparation and once after each step; after step k
    by the cost of step k + 1, after the last by nothing; the preparation counts as a
    hundredth of the rest. *)
Theorem C71_amounts : forall level v up s0 s1,
  created up -> unsteady_new up = Ok s0 -> unsteady_start 0 s0 = Ok s1 -> convert_logging_level_name_to_value level = Ok v ->
  exists b, progress_bar level up (us_num_wake s1) = Ok b /\ length (pg_updates b) = S (length (up_steady_problems up)) /\
    (forall k sp, nth_error (up_steady_problems up) (S k) = Some sp -> nth_error (pg_updates b) (S k) = Some (cost (S k) sp)) /\
    nth_error (pg_updates b) (length (up_steady_problems up)) = Some 0%Z /\
    exists first, nth_error (pg_updates b) 0 = Some first /\ nearest (IZR (pg_total b - first) / 100) first.
Proof. exact bar_amounts. Qed.
Print Assumptions C71_amounts.

(** It never goes back, never passes its total and ends there; it is there already before
    the last step. *)
Theorem C71_standing : forall level up s0 s1 b,
  created up -> unsteady_new up = Ok s0 -> unsteady_start 0 s0 = Ok s1 -> progress_bar level up (us_num_wake s1) = Ok b ->
  (forall k, 0 <= standing b k <= standing b (S k))%Z /\ (forall k, standing b k <= pg_total b)%Z /\
  standing b (S (length (up_steady_problems up))) = pg_total b /\ standing b (length (up_steady_problems up)) = pg_total b.
Proof. exact bar_standing. Qed.
Print Assumptions C71_standing.

Theorem C71_shown : forall level up num_wake b, progress_bar level up num_wake = Ok b -> (pg_shown b = true <-> level = "Warning"%string).
Proof. exact bar_shown. Qed.
Print Assumptions C71_shown.

Theorem C71_bad_level : forall level up num_wake,
  ~ In level ["Debug"; "Info"; "Warning"; "Error"; "Critical"]%string -> progress_bar level up num_wake = Err EBadLoggingLevel.
Proof. exact bar_rejected. Qed.
Print Assumptions C71_bad_level.

(** False: while a step of positive cost remains to be done, the bar is not full. *)
Theorem C71_full_only_at_the_end_refuted : exists up s0 s1 b sp,
  created up /\ unsteady_new up = Ok s0 /\ unsteady_start 0 s0 = Ok s1 /\ progress_bar "Warning" up (us_num_wake s1) = Ok b /\
  length (up_steady_problems up) = 3%nat /\ nth_error (up_steady_problems up) 2 = Some sp /\ (0 < cost 2 sp)%Z /\
  (standing b 2 < standing b 3)%Z /\ standing b 3 = pg_total b.
Proof. exact full_too_early. Qed.
Print Assumptions C71_full_only_at_the_end_refuted.
