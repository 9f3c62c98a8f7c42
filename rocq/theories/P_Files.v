(** Property theorems C78 (the files of the airfoil database; pterasoftware/geometry.py). *)
From Coq Require Import List Ascii String Reals.
From Verif Require Import M_Files S_Airfoil S_Names S_Files L_Files.
Import ListNotations.
Local Open Scope R_scope.
Local Open Scope list_scope.

(** ** C78  The points of an airfoil that is not a NACA four-digit one are the pairs of
    numbers written in its file after the first line, whatever that line says and however
    the numbers are written and spaced. *)
Theorem C78_file_read : forall files name text raw header body points,
  names_file name text -> files (text ++ list_ascii_of_string ".dat") = Some raw ->
  headed raw header body -> table body (numbers_of points) ->
  populate_coordinates (file_database files) name = Ok points.
Proof. exact file_read. Qed.
Print Assumptions C78_file_read.

Example C78_small_file : names_file " AG03" (list_ascii_of_string "ag03") /\
  headed (list_ascii_of_string "flat plate" ++ newline :: small_body) (list_ascii_of_string "flat plate") small_body /\
  table small_body (numbers_of [(1, -1 / 2); (20, 1 / 4)]).
Proof. exact (conj small_named (conj small_headed small_table)). Qed.

(** Every list of points with decimal coordinates can be written in a file. *)
Theorem C78_every_list_can_be_written : forall points,
  Forall (fun p => (exists n k, fst p = IZR n / 10 ^ k) /\ exists n k, snd p = IZR n / 10 ^ k) points ->
  exists body, table body (numbers_of points).
Proof. exact points_exist. Qed.
Print Assumptions C78_every_list_can_be_written.

(** The first line does not matter, whatever follows it. *)
Theorem C78_first_line_ignored : forall files files' name text raw raw' header header' body,
  names_file name text ->
  files (text ++ list_ascii_of_string ".dat") = Some raw -> files' (text ++ list_ascii_of_string ".dat") = Some raw' ->
  headed raw header body -> headed raw' header' body ->
  populate_coordinates (file_database files) name = populate_coordinates (file_database files') name.
Proof. exact file_header. Qed.
Print Assumptions C78_first_line_ignored.

(** No file, or an odd number of numbers, is an error. *)
Theorem C78_missing_file : forall files name text, names_file name text ->
  files (text ++ list_ascii_of_string ".dat") = None -> populate_coordinates (file_database files) name = Err EAirfoilNotInDatabase.
Proof. exact file_missing. Qed.
Print Assumptions C78_missing_file.

Theorem C78_odd_file : forall files name text raw header body numbers,
  names_file name text -> files (text ++ list_ascii_of_string ".dat") = Some raw ->
  headed raw header body -> table body numbers -> Nat.Odd (length numbers) ->
  populate_coordinates (file_database files) name = Err EOddCoordinates.
Proof. exact file_odd. Qed.
Print Assumptions C78_odd_file.

(** Whatever the file holds, the points read are numbers written in it, in order and from
    the start, with nothing left out between them. *)
Theorem C78_nothing_invented : forall files name text points, names_file name text ->
  populate_coordinates (file_database files) name = Ok points ->
  exists raw, files (text ++ list_ascii_of_string ".dat") = Some raw /\
  forall header body, headed raw header body -> exists numbers rest, body = numbers ++ rest /\ table numbers (numbers_of points).
Proof. exact file_invents_nothing. Qed.
Print Assumptions C78_nothing_invented.

(** Reading a text always ends. *)
Theorem C78_reading_ends : forall text, exists numbers, fromstring text = Some numbers.
Proof. exact fromstring_ends. Qed.
Print Assumptions C78_reading_ends.

(** Anything that is not a number ends the reading: what follows is left out without an error. *)
Theorem C78_words_end_the_file : forall files name text raw header body w more points,
  names_file name text -> files (text ++ list_ascii_of_string ".dat") = Some raw ->
  headed raw header (body ++ w :: more) -> table body (numbers_of points) -> closed body -> wordlike w ->
  populate_coordinates (file_database files) name = Ok points.
Proof. exact file_words. Qed.
Print Assumptions C78_words_end_the_file.

Example C78_a_word : closed small_body /\ wordlike "s"%char.
Proof. exact small_words. Qed.

(** Of a file of one line only the last character is read. *)
Theorem C78_one_line : forall files name text line c, names_file name text ->
  files (text ++ list_ascii_of_string ".dat") = Some (line ++ [c]) -> ~ In newline (line ++ [c]) ->
  ((exists d, digit c d) -> populate_coordinates (file_database files) name = Err EOddCoordinates) /\
  (~ (exists d, digit c d) -> populate_coordinates (file_database files) name = Ok []).
Proof. exact file_one_line. Qed.
Print Assumptions C78_one_line.

(** A file with a capital letter in its name is never read. *)
Theorem C78_capitals : forall files files' name,
  (forall t, Forall (fun c => ~ In c capitals) t -> files t = files' t) ->
  populate_coordinates (file_database files) name = populate_coordinates (file_database files') name.
Proof. exact file_capitals. Qed.
Print Assumptions C78_capitals.

(** Not every file that comes with the program can be used.  naca23015.dat has dots in
    place of a number on its second line, s1020.dat a second line of text, and e850.dat the
    numbers of its points on its second line, which are taken for a point. *)
Theorem C78_every_file_refuted : forall pchip files repanelled np,
  files (list_ascii_of_string "naca23015.dat") = Some naca23015_file ->
  files (list_ascii_of_string "s1020.dat") = Some s1020_file ->
  files (list_ascii_of_string "e850.dat") = Some e850_file ->
  new_airfoil pchip (file_database files) "naca23015" None repanelled np = Err EOddCoordinates /\
  (exists e, new_airfoil pchip (file_database files) "s1020" None repanelled np = Err e) /\
  exists rest, populate_coordinates (file_database files) "e850" = Ok ((33, 35) :: rest).
Proof. exact bad_files. Qed.
Print Assumptions C78_every_file_refuted.
