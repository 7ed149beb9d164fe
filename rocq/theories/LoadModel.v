(* Model of reading catalogue files,
   /repo/src/triumvirate/src/particles.cpp 94-509
   (ParticleCatalogue::load_catalogue_file), for text files.  HDF5 files are
   only recognised and refused, as in a build without HDF5 support (the build
   with it is in H5Model).  Numbers are exact
   (rounding of decimal input not modelled); a file holds the same text both
   times it is read; log messages are left out.  `row[i]` outside the row is
   [OutOfBounds]. *)
From Coq Require Import String Ascii List Arith ZArith Reals Bool.
From Verif Require Import Base StrModel Dec ArrayModel MeshModel ParamFileModel CatModel.
Import ListNotations.
Local Open Scope nat_scope.
Local Open Scope string_scope.

(* ------------------------------------------------------------------ *)
(** * Columns, 134-158 *)

(** `std::getline(iss, name, ',')` until it fails. *)
Fixpoint pieces (d : ascii) (s : string) : list string :=
  match s with
  | "" => []
  | String c t =>
      if Ascii.eqb c d then "" :: pieces d t
      else match pieces d t with
           | [] => [String c ""]
           | l :: ls => String c l :: ls
           end
  end.

(** 148-158: the index of the first column of that name; [None] is -1. *)
Fixpoint find_index (name : string) (cols : list string) : option nat :=
  match cols with
  | [] => None
  | c :: t => if c =? name then Some 0 else option_map S (find_index name t)
  end.

(* ------------------------------------------------------------------ *)
(** * Rows, 441-456 *)

(** The exponent of a streamed number and what is left. *)
Definition stream_exponent (s : string) : option (Z * string) :=
  let digits t :=
    let x := take_sign t in
    let d := take_digits (snd x) in
    match digits_value (fst d) with
    | Some v => Some ((fst x * v)%Z, snd d)
    | None => None
    end in
  match s with
  | String "e" t => digits t
  | String "E" t => digits t
  | _ => Some (0%Z, s)
  end.

(** `ss >> entry` after its leading blanks: the number and what is left. *)
Definition stream_num (s : string) : option (R * string) :=
  let x := take_sign s in
  let ip := take_digits (snd x) in
  let fp := match snd ip with
            | String "." t => take_digits t
            | r => ("", r)
            end in
  match digits_value (fst ip ++ fst fp), stream_exponent (snd fp) with
  | Some v, Some (e, r) =>
      Some ((IZR (fst x * v)
             * powerRZ 10 (e - Z.of_nat (String.length (fst fp))))%R, r)
  | _, _ => None
  end.

(** 456: `while (ss >> entry) {row.push_back(entry);}`; [fuel] bounds the
    length of the line. *)
Fixpoint entries (fuel : nat) (s : string) : list R :=
  match fuel with
  | O => []
  | S f => match stream_num (skip_blank s) with
           | Some (v, r) => v :: entries f r
           | None => []
           end
  end.

Definition row_of (line : string) : list R := entries (S (String.length line)) line.

(** 399-405 and 440-443: lines that are neither empty nor a comment. *)
Definition is_data (line : string) : bool :=
  negb ((line =? "") || prefix "#" line).

Definition data_lines (text : string) : list string :=
  filter is_data (text_lines text).

(* ------------------------------------------------------------------ *)
(** * Particles, 458-483 *)

Definition at_index (row : list R) (i : option nat) : res R :=
  match i with
  | None => Err OutOfBounds
  | Some k => match nth_error row k with
              | Some v => Ok v
              | None => Err OutOfBounds
              end
  end.

Definition or_default (d : R) (row : list R) (i : option nat) : res R :=
  match i with None => Ok d | Some _ => at_index row i end.

Definition particle_of (cols : list string) (nz_box : R) (row : list R)
  : res pdatum :=
  x <- at_index row (find_index "x" cols) ;;
  y <- at_index row (find_index "y" cols) ;;
  z <- at_index row (find_index "z" cols) ;;
  nz <- or_default nz_box row (find_index "nz" cols) ;;
  ws <- or_default 1%R row (find_index "ws" cols) ;;
  wc <- or_default 1%R row (find_index "wc" cols) ;;
  Ok (PDatum (T3 x y z) nz ws wc (ws * wc)%R).

(* ------------------------------------------------------------------ *)
(** * Loading *)

(** A catalogue with its `source`. *)
Record sourced := { source : string; body : catalogue }.

Definition fresh : sourced := {| source := ""; body := catalogue_new |}.

(** 382-394 and 429-434: the texts of the files, in order. *)
Fixpoint open_all (disk : string -> option string) (paths : list string)
  : res (list string) :=
  match paths with
  | [] => Ok []
  | p :: t => match disk p with
              | None => Err IOErr
              | Some text => ts <- open_all disk t ;; Ok (text :: ts)
              end
  end.

(** 416-419. *)
Definition default_nz (n : nat) (volume : R) : R :=
  if Rltb 0 volume then (INR n / volume)%R else 0%R.

(** 374-509: counting, allocating (47-66), filling, totals and extents. *)
Definition read_texts (cols : list string) (volume : R) (texts : list string)
  (c : catalogue) : catalogue * res unit :=
  let lines := concat (map data_lines texts) in
  let n := length lines in
  if (n =? 0)%nat then (c, Err InvalidParameter)
  else match sequence (map (fun l => particle_of cols (default_nz n volume) (row_of l)) lines) with
       | Err e => (c, Err e)
       | Ok ps =>
           let r := (set_pdata 0 ps ;> calc_total_weights 0 ;> calc_pos_extents 0)
                      (fun _ => c) in
           (fst r 0, snd r)
       end.

Definition load_catalogue_file (disk : string -> option string)
  (path columns : string) (volume : R) (c : sourced) : sourced * res unit :=
  if negb (source c =? "") then (c, Err InvalidData)
  else
    let src := "extfile:" ++ path in
    if has_extension path ".h5" || has_extension path ".hdf5"
    then ({| source := src; body := body c |}, Err InvalidData)
    else match open_all disk (split_string path "::") with
         | Err e => ({| source := src; body := body c |}, Err e)
         | Ok texts =>
             let r := read_texts (pieces "," columns) volume texts (body c) in
             ({| source := src; body := fst r |}, snd r)
         end.
