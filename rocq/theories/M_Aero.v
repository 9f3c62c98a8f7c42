(** Model of the induced velocity functions in pterasoftware/aerodynamics.py. *)
From Verif Require Export M_Vortices.

(** aerodynamics.py:57 *)
Definition squire : R := / 10 ^ 4.
(** aerodynamics.py:64 *)
Definition lamb : R := 125643 / 100000.
(** aerodynamics.py:68: np.finfo(float).eps = 2^-52 *)
Definition eps : R := / 2 ^ 52.

(** aerodynamics.py:833-891 (and 964-1022): the body of the double loop, the
    velocity one line vortex induces at one point.  [r_c] is the core radius.
    The [continue] branch contributes the zero vector. *)
Definition core_radius (strength age nu : R) : R :=
  2 * sqrt (lamb * (nu + squire * Rabs strength) * age).
(** aerodynamics.py:833-891 and 964-1022 *)
Definition line_velocity (point origin termination : vec) (strength age nu : R) : vec :=
  let r_c := core_radius strength age nu in
  let r_0v := vsub termination origin in
  let r_0 := vnorm r_0v in
  let c_1 := strength / (4 * PI) in
  let c_2 := r_0 ^ 2 * r_c ^ 2 in
  let r_1v := vsub origin point in
  let r_2v := vsub termination point in
  let r_3v := vcross r_1v r_2v in
  let r_1 := vnorm r_1v in
  let r_2 := vnorm r_2v in
  let r_3 := vnorm r_3v in
  let c_3 := vdot r_1v r_2v in
  if Rltb r_1 eps || Rltb r_2 eps || Rltb (r_3 ^ 2) eps then vzero
  else
    let c_4 := c_1 * (r_1 + r_2) * (r_1 * r_2 - c_3) / (r_1 * r_2 * (r_3 ^ 2 + c_2)) in
    vscale c_4 r_3v.

(** One vortex of the parallel arrays origins/terminations/strengths/ages.
    (aerodynamics.py:766-775) *)
Record segment : Type := mkseg {
  sg_origin : vec; sg_termination : vec; sg_strength : R; sg_age : R
}.
(** aerodynamics.py:823-837 (954-968): reading entry [vortex_id] of the four
    arrays; [ages=None] stands for an array of zeros.  Arrays of different
    lengths are an error in Python; the model stops at the shortest. *)
Definition segments (origins terminations : list vec) (strengths : list R) (ages : option (list R))
  : list segment :=
  let ages := match ages with Some a => a | None => repeat 0 (List.length origins) end in
  map2 (fun ot sa => mkseg (fst ot) (snd ot) (fst sa) (snd sa))
       (combine origins terminations) (combine strengths ages).
(** aerodynamics.py:833-891 *)
Definition segment_velocity (nu : R) (point : vec) (s : segment) : vec :=
  line_velocity point (sg_origin s) (sg_termination s) (sg_strength s) (sg_age s) nu.

(** aerodynamics.py:766-893 [collapsed_velocities_from_line_vortices]: for every
    point the sum over vortices, accumulated in vortex order. *)
Definition collapsed_line (points : list vec) (segs : list segment) (nu : R) : list vec :=
  map (fun p => vsum (map (segment_velocity nu p) segs)) points.
(** aerodynamics.py:897-1024 [expanded_velocities_from_line_vortices]. *)
Definition expanded_line (points : list vec) (segs : list segment) (nu : R) : list (list vec) :=
  map (fun p => map (segment_velocity nu p) segs) points.

(** Sum of arrays [(num_points, 3)], the [induced_velocities +=] loops.
    (aerodynamics.py:415-424) *)
Definition add_rows (a b : list vec) : list vec := map2 vadd a b.
(** aerodynamics.py:499-508 *)
Definition add_grids (a b : list (list vec)) : list (list vec) := map2 add_rows a b.
(** np.zeros((n, 3)), aerodynamics.py:412 *)
Definition zeros (n : nat) : list vec := repeat vzero n.
(** np.zeros((n, m, 3)), aerodynamics.py:496 *)
Definition zeros2 (n m : nat) : list (list vec) := repeat (zeros m) n.

(** aerodynamics.py:402-424: legs back-right -> front-right -> front-left -> back-left. *)
Definition collapsed_horseshoe (points br fr fl bl : list vec) (strengths : list R)
           (ages : option (list R)) (nu : R) : list vec :=
  fold_left (fun acc ot => add_rows acc (collapsed_line points (segments (fst ot) (snd ot) strengths ages) nu))
            [(br, fr); (fr, fl); (fl, bl)] (zeros (List.length points)).
(** aerodynamics.py:486-508 *)
Definition expanded_horseshoe (points br fr fl bl : list vec) (strengths : list R)
           (ages : option (list R)) (nu : R) : list (list vec) :=
  fold_left (fun acc ot => add_grids acc (expanded_line points (segments (fst ot) (snd ot) strengths ages) nu))
            [(br, fr); (fr, fl); (fl, bl)] (zeros2 (List.length points) (List.length strengths)).
(** aerodynamics.py:570-594 *)
Definition collapsed_ring (points br fr fl bl : list vec) (strengths : list R)
           (ages : option (list R)) (nu : R) : list vec :=
  fold_left (fun acc ot => add_rows acc (collapsed_line points (segments (fst ot) (snd ot) strengths ages) nu))
            [(br, fr); (fr, fl); (fl, bl); (bl, br)] (zeros (List.length points)).
(** aerodynamics.py:656-676 *)
Definition collapsed_ring_chordwise (points br fr fl bl : list vec) (strengths : list R)
           (ages : option (list R)) (nu : R) : list vec :=
  fold_left (fun acc ot => add_rows acc (collapsed_line points (segments (fst ot) (snd ot) strengths ages) nu))
            [(br, fr); (fl, bl)] (zeros (List.length points)).
(** aerodynamics.py:738-762 *)
Definition expanded_ring (points br fr fl bl : list vec) (strengths : list R)
           (ages : option (list R)) (nu : R) : list (list vec) :=
  fold_left (fun acc ot => add_grids acc (expanded_line points (segments (fst ot) (snd ot) strengths ages) nu))
            [(br, fr); (fr, fl); (fl, bl); (bl, br)]
            (zeros2 (List.length points) (List.length strengths)).
