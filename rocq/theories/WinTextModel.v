(* `ThreePointWindow.load_from_textfiles` of winconv.py.
   /repo/src/triumvirate/winconv.py 949-1029. *)
From Coq Require Import String Ascii.
From Coq Require Import Reals ZArith List Bool.
From Verif Require Import Base Array2dModel ReshapeModel MultipoleModel WindowModel.
From Verif Require LoadModel.
Import ListNotations.
Local Open Scope R_scope.

(* ------------------------------------------------------------------ *)
(** * `sorted(filepaths.items())`, 999 *)

(** Keys of the dictionary with their paths. *)
Definition item : Type := mlike * string.

(** Comparison of tuples of integers. *)
Fixpoint tuple_lt (a b : list Z) : bool :=
  match a, b with
  | [], _ :: _ => true
  | x :: a, y :: b => if Z.eqb x y then tuple_lt a b else Z.ltb x y
  | _, [] => false
  end.

(** `<` between keys: multipoles by `Multipole.__lt__`, strings by characters,
    tuples and integers by value.  Between keys of different kinds it raises a
    TypeError (for a `Multipole` and an integer, an AttributeError).  Keys of
    a dictionary differ, so paths are never compared. *)
Definition key_lt (a b : mlike) : res bool :=
  match a, b with
  | MCopy a, MCopy b => mlt a b
  | MStr a, MStr b => Ok (String.ltb a b)
  | MSeq a, MSeq b => Ok (tuple_lt a b)
  | MInt a, MInt b => Ok (Z.ltb a b)
  | _, _ => Err TypeError
  end.

(** As [msorted] of MultipoleModel.v. *)
Fixpoint insert_item (x : item) (l : list item) : res (list item) :=
  match l with
  | [] => Ok [x]
  | y :: r =>
      t <- key_lt (fst y) (fst x) ;;
      if t then (r' <- insert_item x r ;; Ok (y :: r')) else Ok (x :: y :: r)
  end.

Fixpoint sorted_items (l : list item) : res (list item) :=
  match l with
  | [] => Ok []
  | x :: r => s <- sorted_items r ;; insert_item x s
  end.

(* ------------------------------------------------------------------ *)
(** * `np.loadtxt(filepath, usecols=usecols, unpack=True)`, 1007 and 1018 *)

(** What a file holds as numbers, comments and empty lines being passed over:
    as LoadModel.v reads lines.  (Numbers are read alike for tables as the
    program saves them: blanks between numerals, comments on lines of their
    own.) *)
Definition table_of (text : string) : list (list R) :=
  map LoadModel.row_of (LoadModel.data_lines text).

(** The entries of one column; ValueError when a row has none.  Columns are
    counted from zero (negative ones, which count from the end, are left out). *)
Definition column_of (table : list (list R)) (c : nat) : res (list R) :=
  sequence (map (fun row => match nth_error row c with Some v => Ok v | None => Err ValueError end)
                table).

(** `unpack=True`: an array for each column.  A table of one row is squeezed to
    one dimension, so that each "column" is a single number. *)
Inductive unpacked := Arrays (columns : list (list R)) | Scalars (values : list R).

Definition loadtxt (text : string) (usecols : list nat) : res unpacked :=
  columns <- sequence (map (column_of (table_of text)) usecols) ;;
  match table_of text with
  | [_] => Ok (Scalars (map (fun c => nth 0 c 0) columns))
  | _ => Ok (Arrays columns)
  end.

(* ------------------------------------------------------------------ *)
(** * One file, 1000-1024 *)

(** `np.column_stack((r1, r2))` of two arrays of one length. *)
Definition column_stack (r1 r2 : list R) : list (list R) :=
  map (fun p => [fst p; snd p]) (combine r1 r2).

(** Difference of two arrays of one length. *)
Definition minus (a b : list R) : list R := map (fun p => fst p - snd p) (combine a b).

(** The paired points and the flattened samples of a file.  Samples that are a
    single number have no `len`: the TypeError of reshape_threept_datatab
    (_arrayops.py 781), which is no ValueError and passes through __init__.  It
    is raised here, before later files are read. *)
Definition read_pole (text : string) (subtract_shotnoise : bool) (usecols : list nat)
    : res (list (list R) * list R) :=
  if subtract_shotnoise then
    if negb (length usecols =? 4)%nat then Err ValueError
    else u <- loadtxt text usecols ;;
      match u with
      | Arrays [r1; r2; raw; shot] => Ok (column_stack r1 r2, minus raw shot)
      | Arrays _ => Err ValueError
      | Scalars _ => Err TypeError
      end
  else
    if negb (length usecols =? 3)%nat then Err ValueError
    else u <- loadtxt text usecols ;;
      match u with
      | Arrays [r1; r2; raw] => Ok (column_stack r1 r2, raw)
      | Arrays _ => Err ValueError
      | Scalars _ => Err TypeError
      end.

(** `usecols=(1, 4, 6, 8)`, 950. *)
Definition default_columns : list nat := [1; 4; 6; 8]%nat.

(* ------------------------------------------------------------------ *)
(** * Loading, 996-1029: the window and its `sources` *)

Section Load.
(** The spline of WindowModel.v. *)
Variable spline : list R -> matrix -> res (R -> R -> R).
(** The texts of files; a missing file is an error. *)
Variable file : string -> res string.

Definition load_from_textfiles (filepaths : list item) (subtract_shotnoise : bool)
    (usecols : list nat) (alpha : R) (make_loglin : loglin_arg)
    : res (window * list string) :=
  items <- sorted_items filepaths ;;
  poles <- sequence (map (fun it : item =>
             text <- file (snd it) ;;
             pole <- read_pole text subtract_shotnoise usecols ;;
             Ok (fst it, pole)) items) ;;
  w <- init spline poles alpha make_loglin ;;
  Ok (w, map snd items).

End Load.
