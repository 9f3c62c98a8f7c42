(** Model of reading the files of the airfoil database in pterasoftware/airfoils
    (pterasoftware/geometry.py:880-915). *)
From Coq Require Import ZArith.
From Verif Require Export M_Airfoil.

(** geometry.py:893: the line feed. *)
Definition newline : ascii := ascii_of_nat 10.
(** geometry.py:893: the text from its first line feed on, [None] if it has none (str.find gives -1). *)
Fixpoint from_newline (s : list ascii) : option (list ascii) :=
  match s with
  | [] => None
  | c :: s' => if Ascii.eqb c newline then Some s else from_newline s'
  end.
(** geometry.py:893 [raw_text[raw_text.find("\n"):]]; an index of -1 leaves the last character. *)
Definition trimmed (raw : list ascii) : list ascii :=
  match from_newline raw with Some s => s | None => skipn (length raw - 1) raw end.

(** ** np.fromstring with the separator "\n" (geometry.py:896)
    NumPy reads a number with strtod, which skips the white space before it, then any
    white space; it stops where there is no number or no white space after one.  The
    words "nan" and "inf" are not read here (no file of the database holds one), and a
    number is its exact value. *)
(** C's isspace (geometry.py:896). *)
Definition is_white (c : ascii) : bool :=
  let n := nat_of_ascii c in (Nat.leb 9 n && Nat.leb n 13) || Nat.eqb n 32.
(** White space before a number (geometry.py:896). *)
Fixpoint skip_white (s : list ascii) : list ascii :=
  match s with
  | c :: s' => if is_white c then skip_white s' else s
  | [] => []
  end.
(** The digits a text begins with, and the rest (geometry.py:896). *)
Fixpoint take_digits (s : list ascii) : list nat * list ascii :=
  match s with
  | c :: s' => if is_digit c then (digit_value c :: fst (take_digits s'), snd (take_digits s')) else ([], s)
  | [] => ([], [])
  end.
(** The value of a row of digits (geometry.py:896). *)
Definition digits_value (ds : list nat) : Z := fold_left (fun v d => 10 * v + Z.of_nat d)%Z ds 0%Z.
(** A sign or none: whether it is a minus, and the rest (geometry.py:896). *)
Definition take_sign (s : list ascii) : bool * list ascii :=
  match s with
  | "-"%char :: s' => (true, s')
  | "+"%char :: s' => (false, s')
  | _ => (false, s)
  end.
(** A decimal point and digits, or neither (geometry.py:896). *)
Definition take_fraction (s : list ascii) : list nat * list ascii :=
  match s with
  | "."%char :: s' => take_digits s'
  | _ => ([], s)
  end.
(** The exponent, if a whole one follows (geometry.py:896). *)
Definition take_exponent (s : list ascii) : Z * list ascii :=
  match s with
  | c :: s' =>
      if Ascii.eqb c "e" || Ascii.eqb c "E" then
        let '(minus, s'') := take_sign s' in
        let '(ds, rest) := take_digits s'' in
        match ds with
        | [] => (0%Z, s)
        | _ => ((if minus then - digits_value ds else digits_value ds)%Z, rest)
        end
      else (0%Z, s)
  | [] => (0%Z, s)
  end.
(** strtod after the white space: the number and the rest, [None] if there is no number
    (geometry.py:896). *)
Definition strtod (s : list ascii) : option (R * list ascii) :=
  let '(minus, s1) := take_sign s in
  let '(whole, s2) := take_digits s1 in
  let '(fraction, s3) := take_fraction s2 in
  match whole ++ fraction with
  | [] => None
  | ds =>
      let '(e, rest) := take_exponent s3 in
      let v := IZR (digits_value ds) * powerRZ 10 (e - Z.of_nat (length fraction)) in
      Some (if minus then - v else v, rest)
  end.
(** The loop of np.fromstring (geometry.py:896); [None] if it has not ended after [fuel] numbers. *)
Fixpoint read_numbers (fuel : nat) (s : list ascii) : option (list R) :=
  match strtod (skip_white s) with
  | None => Some []
  | Some (x, rest) =>
      match rest with
      | c :: _ =>
          if is_white c then
            match fuel with
            | O => None
            | S fuel' => option_map (cons x) (read_numbers fuel' rest)
            end
          else Some [x]
      | [] => Some [x]
      end
  end.
(** geometry.py:896 *)
Definition fromstring (s : list ascii) : option (list R) := read_numbers (length s) s.

(** geometry.py:890 [name + ".dat"] *)
Definition file_name (name : list ascii) : list ascii := name ++ list_ascii_of_string ".dat".
(** geometry.py:890-896: what [populate_coordinates] finds for a name, given the texts of the
    files in the directory.  Files that are not UTF-8 text are not modelled. *)
Definition file_database (files : list ascii -> option (list ascii)) (name : list ascii) : option (list R) :=
  match files (file_name name) with
  | None => None
  | Some raw => fromstring (trimmed raw)
  end.

(** ** Three of the files *)
(** pterasoftware/airfoils/naca23015.dat:1-39 *)
Definition naca23015_file : list ascii := list_ascii_of_string
"NACA 23015
1.0000     ......
1.0000     (0.0016)
0.9500     0.0112
0.9000     0.0204
0.8000     0.0373
0.7000     0.0525
0.6000     0.0661
0.5000     0.0774
0.4000     0.0859
0.3000     0.0905
0.2500     0.0908
0.2000     0.0892
0.1500     0.0852
0.1000     0.0764
0.0750     0.0690
0.0500     0.0589
0.0250     0.0444
0.0125     0.0334
0.0000     ......
0.0000     0.0000
0.0125     -0.0154
0.0250     -0.0225
0.0500     -0.0304
0.0750     -0.0361
0.1000     -0.0409
0.1500     -0.0484
0.2000     -0.0541
0.2500     -0.0578
0.3000     -0.0596
0.4000     -0.0592
0.5000     -0.0550
0.6000     -0.0481
0.7000     -0.0391
0.8000     -0.0283
0.9000     -0.0159
0.9500     -0.0090
1.0000     (-0.0016)
100.00     0.0000
".
(** pterasoftware/airfoils/s1020.dat:1-63 *)
Definition s1020_file : list ascii := list_ascii_of_string
"Ornithopter airfoil.
S1020
     1.00000   0.00000
     0.99637   0.00132
     0.98633   0.00544
     0.97138   0.01201
     0.95221   0.01987
     0.92858   0.02824
     0.90037   0.03716
     0.86802   0.04669
     0.83206   0.05668
     0.79303   0.06690
     0.75150   0.07709
     0.70800   0.08691
     0.66299   0.09599
     0.61686   0.10404
     0.57001   0.11082
     0.52281   0.11615
     0.47565   0.11991
     0.42893   0.12200
     0.38308   0.12232
     0.33841   0.12081
     0.29521   0.11747
     0.25379   0.11243
     0.21447   0.10583
     0.17759   0.09786
     0.14348   0.08869
     0.11246   0.07850
     0.08479   0.06752
     0.06069   0.05597
     0.04036   0.04414
     0.02399   0.03235
     0.01172   0.02092
     0.00368   0.01030
     0.00006   0.00111
     0.00210  -0.00597
     0.01048  -0.01176
     0.02453  -0.01716
     0.04387  -0.02193
     0.06822  -0.02596
     0.09729  -0.02919
     0.13077  -0.03158
     0.16828  -0.03309
     0.20943  -0.03370
     0.25378  -0.03334
     0.30086  -0.03199
     0.35023  -0.02957
     0.40159  -0.02597
     0.45480  -0.02141
     0.50939  -0.01639
     0.56466  -0.01126
     0.61990  -0.00630
     0.67438  -0.00178
     0.72731   0.00203
     0.77785   0.00495
     0.82515   0.00682
     0.86836   0.00760
     0.90663   0.00733
     0.93918   0.00618
     0.96531   0.00441
     0.98443   0.00242
     0.99609   0.00071
     1.00000   0.00000
".
(** pterasoftware/airfoils/e850.dat:1-72 *)
Definition e850_file : list ascii := list_ascii_of_string
"EPPLER E850 AIRFOIL
      33.0      35.0

 0.0000000 0.0000000
 0.0001300 0.0006500
 0.0008100 0.0017900
 0.0024400 0.0034900
 0.0063500 0.0062100
 0.0084500 0.0073500
 0.0202500 0.0122400
 0.0369200 0.0171500
 0.0583900 0.0219600
 0.0844500 0.0266100
 0.1148000 0.0310500
 0.1491300 0.0351800
 0.1870800 0.0389400
 0.2282200 0.0422700
 0.2721500 0.0451100
 0.3183900 0.0474100
 0.3664500 0.0491400
 0.4158300 0.0502600
 0.4660000 0.0507500
 0.5164400 0.0505900
 0.5666100 0.0497800
 0.6159700 0.0483200
 0.6640200 0.0461800
 0.7102301 0.0433500
 0.7542000 0.0397600
 0.7956300 0.0354400
 0.8342700 0.0305100
 0.8698900 0.0252700
 0.9020700 0.0200700
 0.9302700 0.0152000
 0.9539900 0.0107000
 0.9730200 0.0065200
 0.9874000 0.0029700
 0.9967200 0.0007700
 1.0000000 0.0000800

 0.0000000 0.0000000
 0.0002100 -.0006400
 0.0010500 -.0017100
 0.0029400 -.0032500
 0.0072200 -.0057600
 0.0152800 -.0088900
 0.0303700 -.0129400
 0.0503500 -.0167200
 0.0751000 -.0202000
 0.1042900 -.0233600
 0.1375800 -.0261400
 0.1745600 -.0284800
 0.2148200 -.0302800
 0.2578800 -.0314700
 0.3032500 -.0318600
 0.3505500 -.0312500
 0.3995200 -.0295300
 0.4499000 -.0267200
 0.5014900 -.0230200
 0.5538900 -.0188500
 0.6064400 -.0145800
 0.6584600 -.0104800
 0.7092100 -.0067500
 0.7579700 -.0035800
 0.8040100 -.0010500
 0.8466001 0.0007400
 0.8850800 0.0018300
 0.9188100 0.0022500
 0.9472200 0.0021500
 0.9698800 0.0016900
 0.9864500 0.0010400
 0.9965900 0.0003800
 1.0000000 0.0000800
".
