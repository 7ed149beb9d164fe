(* Model of the files measurements are saved to.

   C++: /repo/src/triumvirate/src/io.cpp 102-556
   (print_measurement_header_to_file, print_binned_vectors_to_file,
   print_measurement_datatab_to_file) and main/triumvirate.cpp 597-877.
   Python: /repo/src/triumvirate/twopt.py 195-317, 633-665, 1144-1176,
   1555-1587, threept.py 245-379, 707-740, 1588-1621, 2072-2104 and
   catalogue.py 803-865; `np.savetxt` writes each line of the header after
   "# ", then `fmt % tuple(row)` for each row.

   Simplifications.  Results are finite numbers (a zero has no sign), held in
   vectors as long as `dim`; a normalisation factor that is not a number
   prints as the text [odd].  Opening files always succeeds, and a path is a
   list of components.  `.npz` archives are represented by what is stored
   under 'header' only. *)
From Coq Require Import String Ascii List ZArith Reals Bool.
From Flocq Require Import Core.
From Verif Require Import Base StrModel Dec ArrayModel MeshModel CatModel PyCatModel ParamFileModel.
From Verif Require ParamModel PyParamModel LoadModel FileNameModel MainModel PyRunModel.
Import ListNotations.
Local Open Scope string_scope.

(* ------------------------------------------------------------------ *)
(** * Formats *)

Definition base10 : radix := Build_radix 10 eq_refl.

(** The digits (as a number of [d] + 1 digits) and the exponent of a number
    rounded to even on ties. *)
Definition scientific (d : nat) (x : R) : Z * Z :=
  if Reqb x 0 then (0, 0)%Z
  else
    let e := (mag base10 x - 1)%Z in
    let m := ZnearestE (Rabs x * bpow base10 (Z.of_nat d - e)) in
    if (m =? 10 ^ (Z.of_nat d + 1))%Z then (10 ^ Z.of_nat d, e + 1)%Z else (m, e).

(** `%.<d>e` for positive [d]. *)
Definition fmt_exp (d : nat) (x : R) : string :=
  let u := (10 ^ Z.of_nat d)%Z in
  let m := fst (scientific d x) in
  let e := snd (scientific d x) in
  (if Rltb x 0 then "-" else "") ++ dec (m / u) ++ "." ++ pad_left d (dec (m mod u))
  ++ "e" ++ (if (e <? 0)%Z then "-" else "+") ++ pad_left 2 (dec (Z.abs e)).

Fixpoint spaces (n : nat) : string :=
  match n with O => "" | S m => String " " (spaces m) end.

(** `%<w>d`. *)
Definition fmt_wide (w : nat) (n : Z) : string :=
  spaces (w - String.length (to_string n)) ++ to_string n.

(** `%.9e`, `% .9e`, `%10d` and `%d` with their arguments. *)
Inductive field := Sci (x : R) | Spaced (x : R) | Count (n : Z) | Index (n : Z).

Definition show (f : field) : string :=
  match f with
  | Sci x => fmt_exp 9 x
  | Spaced x => (if Rltb x 0 then "" else " ") ++ fmt_exp 9 x
  | Count n => fmt_wide 10 n
  | Index n => to_string n
  end.

Definition tab : string := String (ascii_of_nat 9) "".

Definition show_row (r : list field) : string := String.concat tab (map show r).

(** Lines each ended by a newline. *)
Definition written (lines : list string) : string :=
  fold_right (fun l t => l ++ String newline t) "" lines.

(** `"%s ..."` with `comment_delimiter` (include/io.hpp 76). *)
Definition comment (l : string) : string := "# " ++ l.

(* ------------------------------------------------------------------ *)
(** * Results, include/dataobjs.hpp *)

Record powspec := {
  pk_dim : nat; kbin : nat -> R; keff : nat -> R; nmodes : nat -> Z;
  pk_raw : nat -> R * R; pk_shot : nat -> R * R
}.

(** `TwoPCFMeasurements` and `TwoPCFWindowMeasurements`. *)
Record twopcf := {
  xi_dim : nat; rbin : nat -> R; reff : nat -> R; npairs : nat -> Z; xi : nat -> R * R
}.

Record bispec := {
  bk_dim : nat;
  k1_bin : nat -> R; k1_eff : nat -> R; nmodes_1 : nat -> Z;
  k2_bin : nat -> R; k2_eff : nat -> R; nmodes_2 : nat -> Z;
  bk_raw : nat -> R * R; bk_shot : nat -> R * R
}.

(** `ThreePCFMeasurements` and `ThreePCFWindowMeasurements`. *)
Record threepcf := {
  zeta_dim : nat;
  r1_bin : nat -> R; r1_eff : nat -> R; npairs_1 : nat -> Z;
  r2_bin : nat -> R; r2_eff : nat -> R; npairs_2 : nat -> Z;
  zeta_raw : nat -> R * R; zeta_shot : nat -> R * R
}.

Inductive results := Pk (m : powspec) | Xi (m : twopcf) | Bk (m : bispec) | Zeta (m : threepcf).

(* ------------------------------------------------------------------ *)
(** * Tables written by the program, io.cpp 360-556 *)

(** 366-391. *)
Definition powspec_lines (ELL : Z) (m : powspec) : list string :=
  let l := to_string ELL in
  ("# [0] k_cen, [1] k_eff, [2] nmodes, [3] Re{pk" ++ l ++ "_raw}, [4] Im{pk" ++ l
   ++ "_raw}, [5] Re{pk" ++ l ++ "_shot}, [6] Im{pk" ++ l ++ "_shot}")
  :: map (fun i => show_row
       [Sci (kbin m i); Sci (keff m i); Count (nmodes m i);
        Spaced (fst (pk_raw m i)); Spaced (snd (pk_raw m i));
        Spaced (fst (pk_shot m i)); Spaced (snd (pk_shot m i))]) (seq 0 (pk_dim m)).

(** 393-440. *)
Definition twopcf_lines (ELL : Z) (m : twopcf) : list string :=
  let l := to_string ELL in
  ("# [0] r_cen, [1] r_eff, [2] npairs, [3] Re{xi" ++ l ++ "}, [4] Im{xi" ++ l ++ "}")
  :: map (fun i => show_row
       [Sci (rbin m i); Sci (reff m i); Count (npairs m i);
        Spaced (fst (xi m i)); Spaced (snd (xi m i))]) (seq 0 (xi_dim m)).

(** 451-455: `char multipole_str[8]`. *)
Definition multipole_str (ell1 ell2 ELL : Z) : string :=
  substring 0 7 (to_string ell1 ++ to_string ell2 ++ to_string ELL).

(** 447-482. *)
Definition bispec_lines (ell1 ell2 ELL : Z) (m : bispec) : list string :=
  let l := multipole_str ell1 ell2 ELL in
  ("# [0] k1_cen, [1] k1_eff, [2] nmodes_1, [3] k2_cen, [4] k2_eff, [5] nmodes_2, [6] Re{bk"
   ++ l ++ "_raw}, [7] Im{bk" ++ l ++ "_raw}, [8] Re{bk" ++ l ++ "_shot}, [9] Im{bk" ++ l
   ++ "_shot}")
  :: map (fun i => show_row
       [Sci (k1_bin m i); Sci (k1_eff m i); Count (nmodes_1 m i);
        Sci (k2_bin m i); Sci (k2_eff m i); Count (nmodes_2 m i);
        Spaced (fst (bk_raw m i)); Spaced (snd (bk_raw m i));
        Spaced (fst (bk_shot m i)); Spaced (snd (bk_shot m i))]) (seq 0 (bk_dim m)).

(** 484-556. *)
Definition threepcf_lines (ell1 ell2 ELL : Z) (m : threepcf) : list string :=
  let l := multipole_str ell1 ell2 ELL in
  ("# [0] r1_cen, [1] r1_eff, [2] npairs_1, [3] r2_cen, [4] r2_eff, [5] npairs_2, [6] Re{zeta"
   ++ l ++ "_raw}, [7] Im{zeta" ++ l ++ "_raw}, [8] Re{zeta" ++ l ++ "_shot}, [9] Im{zeta" ++ l
   ++ "_shot}")
  :: map (fun i => show_row
       [Sci (r1_bin m i); Sci (r1_eff m i); Count (npairs_1 m i);
        Sci (r2_bin m i); Sci (r2_eff m i); Count (npairs_2 m i);
        Spaced (fst (zeta_raw m i)); Spaced (snd (zeta_raw m i));
        Spaced (fst (zeta_shot m i)); Spaced (snd (zeta_shot m i))]) (seq 0 (zeta_dim m)).

Definition cpp_table (q : ParamModel.measuring) (r : results) : list string :=
  let l1 := ParamModel.ell1 q in
  let l2 := ParamModel.ell2 q in
  let l := ParamModel.ELL q in
  match r with
  | Pk m => powspec_lines l m
  | Xi m => twopcf_lines l m
  | Bk m => bispec_lines l1 l2 l m
  | Zeta m => threepcf_lines l1 l2 l m
  end.

(** Binned vectors, 305-352. *)
Record vectors := {
  vec_count : nat; vec_bins : Z; vec_index : nat -> Z;
  vec_lower : nat -> R; vec_upper : nat -> R;
  vec_x : nat -> R; vec_y : nat -> R; vec_z : nat -> R
}.

Definition box_line (box : triple R) : string :=
  comment ("Box size: [" ++ fmt_fixed 3 (ax0 box) ++ ", " ++ fmt_fixed 3 (ax1 box) ++ ", "
           ++ fmt_fixed 3 (ax2 box) ++ "]").
Definition grid_line (n : triple Z) : string :=
  comment ("Mesh number: [" ++ to_string (ax0 n) ++ ", " ++ to_string (ax1 n) ++ ", "
           ++ to_string (ax2 n) ++ "]").

Definition vectors_lines (t : ParamModel.sampling) (v : vectors) : list string :=
  ([ box_line (ParamModel.boxsize t);
     grid_line (ParamModel.ngrid t);
     comment ("Vector count: " ++ to_string (Z.of_nat (vec_count v)));
     comment ("Bin number: " ++ to_string (vec_bins v));
     "# [0] bin_index, [1] bin_lower, [2] bin_upper, [3] vec_x, [4] vec_y, [5] vec_z" ]
   ++ map (fun i => show_row
        [Index (vec_index v i); Sci (vec_lower v i); Sci (vec_upper v i);
         Spaced (vec_x v i); Spaced (vec_y v i); Spaced (vec_z v i)])
        (seq 0 (vec_count v)))%list.

(* ------------------------------------------------------------------ *)
(** * Headers written by the program, io.cpp 102-298 *)

Section Headers.
  (** What a number that is infinite or NaN prints as. *)
  Variable odd : string.

  Definition show_factor (x : option R) : string :=
    match x with Some x => fmt_exp 9 x | None => odd end.

  (** [who] is "Catalogue", "Data catalogue" or "Random catalogue" and [whose]
      "Catalogue", "Data-source" or "Random-source". *)
  Definition cpp_catalogue_lines (who whose : string) (c : LoadModel.sourced) : list string :=
    let b := LoadModel.body c in
    let pair i := "(" ++ fmt_fixed 3 (i (pos_min b)) ++ ", " ++ fmt_fixed 3 (i (pos_max b)) ++ ")" in
    [ comment (who ++ " source: " ++ LoadModel.source c);
      comment (who ++ " size: ntotal = "
               ++ to_string (Z.of_nat (length (MainModel.particles b)))
               ++ ", wtotal = " ++ fmt_fixed 3 (wtotal b)
               ++ ", wstotal = " ++ fmt_fixed 3 (wstotal b));
      comment (whose ++ " particle extents: [" ++ pair ax0 ++ ", " ++ pair ax1 ++ ", "
               ++ pair ax2 ++ "]") ].

  Definition factor_line (x : option R) (convention : string) : string :=
    comment ("Normalisation factor: " ++ show_factor x ++ " (" ++ convention ++ ")").

  Definition others_line (last : string) (part mesh meshes : option R) : string :=
    comment ("Normalisation factor alternatives: " ++ show_factor part ++ " (particle), "
             ++ show_factor mesh ++ " (mesh), " ++ show_factor meshes ++ " (" ++ last ++ ")").

  (** 152-207 and 243-298. *)
  Definition cpp_run_lines (q : ParamModel.params) (n : MainModel.norms) : list string :=
    let t := ParamModel.smp q in
    let c := ParamModel.norm_convention (ParamModel.msr q) in
    ([ box_line (ParamModel.boxsize t);
       comment ("Box alignment: " ++ ParamModel.alignment t);
       grid_line (ParamModel.ngrid t);
       comment ("Mesh assignment and interlacing: " ++ ParamModel.assignment t ++ ", "
                ++ ParamModel.interlace t) ]
     ++ (if c =? "none" then [factor_line (Some 1%R) c]
         else if c =? "particle" then [factor_line (MainModel.n_part n) c]
         else if c =? "mesh" then [factor_line (MainModel.n_mesh n) c]
         else if c =? "mesh-mixed" then [factor_line (MainModel.n_meshes n) c]
         else [])
     ++ [ others_line "mesh-mixed" (MainModel.n_part n) (MainModel.n_mesh n)
            (MainModel.n_meshes n) ])%list.

  (** triumvirate.cpp 597-877: the two catalogues of a survey, the data
      catalogue of a simulation, the random catalogue for window functions.
      Another catalogue type passes a null file pointer. *)
  Definition cpp_header (st : MainModel.statistic) (kind : string) (d r : LoadModel.sourced)
    (q : ParamModel.params) (n : MainModel.norms) : option (list string) :=
    if MainModel.is_window st
    then Some (cpp_catalogue_lines "Catalogue" "Catalogue" r ++ cpp_run_lines q n)%list
    else if kind =? "survey"
    then Some (cpp_catalogue_lines "Data catalogue" "Data-source" d
               ++ cpp_catalogue_lines "Random catalogue" "Random-source" r
               ++ cpp_run_lines q n)%list
    else if kind =? "sim"
    then Some (cpp_catalogue_lines "Catalogue" "Catalogue" d ++ cpp_run_lines q n)%list
    else None.

  Definition cpp_file (st : MainModel.statistic) (kind : string) (d r : LoadModel.sourced)
    (q : ParamModel.params) (n : MainModel.norms) (x : results) : option string :=
    option_map (fun h => written (h ++ cpp_table (ParamModel.msr q) x)%list)
      (cpp_header st kind d r q n).

(* ------------------------------------------------------------------ *)
(** * Files written by Python *)

  Notation "x <~ e1 ;; e2" := (PyRunModel.andthen e1 (fun x => e2))
    (at level 61, e1 at next level, right associativity).

  (** `paramset[k][l]`. *)
  Definition nested (s : PyParamModel.pset) (k l : string) : PyRunModel.ends PyParamModel.pyval :=
    v <~ PyRunModel.entry s k ;;
    match v with
    | PyParamModel.VDict f =>
        match PyParamModel.dget l f with
        | Some v => PyRunModel.Returns v
        | None => PyRunModel.Raises KeyError
        end
    | _ => PyRunModel.Raises TypeError
    end.

  (** `"{:d}".format(v)`. *)
  Definition format_d (v : PyParamModel.pyval) : PyRunModel.ends string :=
    match v with
    | PyParamModel.VBool b => PyRunModel.Returns (if b then "1" else "0")
    | PyParamModel.VInt z => PyRunModel.Returns (to_string z)
    | PyParamModel.VNum _ | PyParamModel.VStr _ => PyRunModel.Raises ValueError
    | _ => PyRunModel.Raises TypeError
    end.

  Definition text_entry (e : PyParamModel.pyenv) (s : PyParamModel.pset) (k : string)
    : PyRunModel.ends string :=
    v <~ PyRunModel.entry s k ;; PyRunModel.Returns (PyParamModel.py_str e v).

  (** catalogue.py 821-861; [source] is `self._source`. *)
  Definition py_catalogue_lines (who whose source : string) (c : pycat) : list string :=
    let pair i := "[" ++ fmt_fixed 3 (fst (i (bounds c))) ++ ", "
                  ++ fmt_fixed 3 (snd (i (bounds c))) ++ "]" in
    [ who ++ " source: " ++ source;
      who ++ " size: ntotal = " ++ to_string (Z.of_nat (ntotal c))
      ++ ", wtotal = " ++ fmt_fixed 3 (py_wtotal c)
      ++ ", wstotal = " ++ fmt_fixed 3 (py_wstotal c);
      whose ++ " particle extents: (" ++ pair ax0 ++ ", " ++ pair ax1 ++ ", " ++ pair ax2 ++ ")" ].

  (** `", ".join("[{:d}] {}".format(...))`. *)
  Definition enumerated (names : list string) : string :=
    String.concat ", "
      (map (fun '(i, n) => "[" ++ to_string (Z.of_nat i) ++ "] " ++ n)
         (combine (seq 0 (length names)) names)).

  (** twopt.py 230-245 and threept.py 283-302: a space that is neither leaves
      the names unbound. *)
  Definition py_names (e : PyParamModel.pyenv) (three : bool) (s : PyParamModel.pset)
    : PyRunModel.ends (list string) :=
    np <~ PyRunModel.entry s "npoint" ;;
    if negb (PyRunModel.is_text np (if three then "3pt" else "2pt"))
    then PyRunModel.Raises ValueError
    else
      l <~ (if three then
              v1 <~ nested s "degrees" "ell1" ;;
              v2 <~ nested s "degrees" "ell2" ;;
              v <~ nested s "degrees" "ELL" ;;
              PyRunModel.Returns (PyParamModel.py_str e v1 ++ PyParamModel.py_str e v2
                                  ++ PyParamModel.py_str e v)
            else v <~ nested s "degrees" "ELL" ;; format_d v) ;;
      sp <~ PyRunModel.entry s "space" ;;
      if PyRunModel.is_text sp "fourier" then
        PyRunModel.Returns
          (if three then
             ["k1_cen"; "k1_eff"; "nmodes_1"; "k2_cen"; "k2_eff"; "nmodes_2";
              "Re{bk" ++ l ++ "_raw}"; "Im{bk" ++ l ++ "_raw}";
              "Re{bk" ++ l ++ "_shot}"; "Im{bk" ++ l ++ "_shot}"]
           else
             ["k_cen"; "k_eff"; "nmodes"; "Re{pk" ++ l ++ "_raw}"; "Im{pk" ++ l ++ "_raw}";
              "Re{pk" ++ l ++ "_shot}"; "Im{pk" ++ l ++ "_shot}"])
      else if PyRunModel.is_text sp "config" then
        PyRunModel.Returns
          (if three then
             ["r1_cen"; "r1_eff"; "npairs_1"; "r2_cen"; "r2_eff"; "npairs_2";
              "Re{zeta" ++ l ++ "_raw}"; "Im{zeta" ++ l ++ "_raw}";
              "Re{zeta" ++ l ++ "_shot}"; "Im{zeta" ++ l ++ "_shot}"]
           else
             ["r_cen"; "r_eff"; "npairs"; "Re{xi" ++ l ++ "}"; "Im{xi" ++ l ++ "}"])
      else PyRunModel.Raises NameError.

  (** twopt.py 219-226: one `if` after another. *)
  Definition py_factor (s : PyParamModel.pset) (n : PyRunModel.norms)
    : PyRunModel.ends (option R) :=
    c <~ PyRunModel.entry s "norm_convention" ;;
    let x := None in
    let x := if PyRunModel.is_text c "none" then Some (Some 1%R) else x in
    let x := if PyRunModel.is_text c "particle" then Some (PyRunModel.n_part n) else x in
    let x := if PyRunModel.is_text c "mesh" then Some (PyRunModel.n_mesh n) else x in
    let x := if PyRunModel.is_text c "mesh-mixed" then Some (PyRunModel.n_meshes n) else x in
    match x with
    | Some f => PyRunModel.Returns f
    | None => PyRunModel.Raises NameError
    end.

  (** twopt.py 195-274 and threept.py 245-328. *)
  Definition py_run_lines (e : PyParamModel.pyenv) (three : bool) (s : PyParamModel.pset)
    (n : PyRunModel.norms) : PyRunModel.ends (list string) :=
    names <~ py_names e three s ;;
    f <~ py_factor s n ;;
    box <~ PyRunModel.box_of s ;;
    al <~ text_entry e s "alignment" ;;
    grid <~ PyRunModel.grid_of s ;;
    asg <~ text_entry e s "assignment" ;;
    il <~ text_entry e s "interlace" ;;
    c <~ text_entry e s "norm_convention" ;;
    PyRunModel.Returns
      [ "Box size: [" ++ fmt_fixed 3 (ax0 box) ++ ", " ++ fmt_fixed 3 (ax1 box) ++ ", "
        ++ fmt_fixed 3 (ax2 box) ++ "]";
        "Box alignment: " ++ al;
        "Mesh number: [" ++ to_string (ax0 grid) ++ ", " ++ to_string (ax1 grid) ++ ", "
        ++ to_string (ax2 grid) ++ "]";
        "Mesh assignment and interlacing: " ++ asg ++ ", " ++ il;
        "Normalisation factor: " ++ show_factor f ++ " (" ++ c ++ ")";
        "Normalisation factor alternatives: " ++ show_factor (PyRunModel.n_part n)
        ++ " (particle), " ++ show_factor (PyRunModel.n_mesh n) ++ " (mesh), "
        ++ show_factor (PyRunModel.n_meshes n)
        ++ (if three then " (mesh-mixed; n/a)" else " (mesh-mixed)");
        enumerated names ].

  (** twopt.py 301-315 and threept.py 352-377: the columns, of floats (an
      integer column becomes one next to float columns).  Results without an
      entry of that name raise. *)
  Definition py_columns (three fourier : bool) (x : results)
    : PyRunModel.ends (list (nat -> R) * nat) :=
    let re (f : nat -> R * R) i := fst (f i) in
    let im (f : nat -> R * R) i := snd (f i) in
    let int (f : nat -> Z) i := IZR (f i) in
    match three, fourier, x with
    | false, true, Pk m =>
        PyRunModel.Returns ([kbin m; keff m; int (nmodes m); re (pk_raw m); im (pk_raw m);
                             re (pk_shot m); im (pk_shot m)], pk_dim m)
    | false, false, Xi m =>
        PyRunModel.Returns ([rbin m; reff m; int (npairs m); re (xi m); im (xi m)], xi_dim m)
    | true, true, Bk m =>
        PyRunModel.Returns ([k1_bin m; k1_eff m; int (nmodes_1 m);
                             k2_bin m; k2_eff m; int (nmodes_2 m);
                             re (bk_raw m); im (bk_raw m); re (bk_shot m); im (bk_shot m)],
                            bk_dim m)
    | true, false, Zeta m =>
        PyRunModel.Returns ([r1_bin m; r1_eff m; int (npairs_1 m);
                             r2_bin m; r2_eff m; int (npairs_2 m);
                             re (zeta_raw m); im (zeta_raw m); re (zeta_shot m); im (zeta_shot m)],
                            zeta_dim m)
    | _, _, _ => PyRunModel.Raises KeyError
    end.

  (** twopt.py 644-646 and threept.py 718-721; `%10d` cuts the number off. *)
  Definition py_formats (three : bool) (columns : nat) : list (R -> field) :=
    let head := [Sci; Sci; fun x => Count (Ztrunc x)] in
    if three then (head ++ head ++ repeat Spaced (columns - 6))%list
    else (head ++ repeat Spaced (columns - 3))%list.

  Definition py_table (three fourier : bool) (x : results) : PyRunModel.ends (list string) :=
    c <~ py_columns three fourier x ;;
    let fmt := py_formats three (length (fst c)) in
    PyRunModel.Returns
      (map (fun i => show_row (map (fun '(f, col) => f (col i)) (combine fmt (fst c))))
         (seq 0 (snd c))).

  (** [cats] are the lines of `write_attrs_as_header`. *)
  Definition py_header (e : PyParamModel.pyenv) (three : bool) (cats : list string)
    (s : PyParamModel.pset) (n : PyRunModel.norms) : PyRunModel.ends (list string) :=
    l <~ py_run_lines e three s n ;; PyRunModel.Returns (cats ++ l)%list.

  (** The argument `save`: a false value ([None], `False`), a string, or
      another true value, which has no `lower`. *)
  Inductive saving := NoSave | SaveAs (s : string) | SaveOther.

  Inductive content := TextFile (text : string) | Archive (header : string).

  (** `str.endswith`. *)
  Fixpoint ends_with (t s : string) : bool :=
    (s =? t) || match s with "" => false | String _ r => ends_with t r end.

  (** The directory; [or_empty] tells whether `or ""` follows it (it does not
      in compute_corrfunc_window). *)
  Definition directory (or_empty : bool) (s : PyParamModel.pset) : PyRunModel.ends (option string) :=
    v <~ nested s "directories" "measurements" ;;
    match v with
    | PyParamModel.VStr t => PyRunModel.Returns (Some t)
    | PyParamModel.VNone => PyRunModel.Returns (if or_empty then Some "" else None)
    | _ => PyRunModel.Unfollowed
    end.

  (** What file names depend on.  Degrees and bin indices are printed by `{:d}`
      or `{}`; integers print alike. *)
  Definition int_entry (v : PyParamModel.pyval) : PyRunModel.ends Z :=
    PyRunModel.python (PyParamModel.to_int v).

  (** The bin index is only printed for two of the forms. *)
  Definition or_zero (v : PyParamModel.pyval) : PyRunModel.ends Z :=
    match v with PyParamModel.VNone => PyRunModel.Returns 0%Z | v => int_entry v end.

  Definition name_parts (e : PyParamModel.pyenv) (three : bool) (s : PyParamModel.pset)
    : PyRunModel.ends FileNameModel.meas :=
    v <~ nested s "degrees" "ELL" ;; l <~ int_entry v ;;
    tg <~ nested s "tags" "output" ;;
    st <~ text_entry e s "statistic_type" ;;
    let tag := match tg with PyParamModel.VStr t => Some t | _ => None end in
    if three then
      v1 <~ nested s "degrees" "ell1" ;; l1 <~ int_entry v1 ;;
      v2 <~ nested s "degrees" "ell2" ;; l2 <~ int_entry v2 ;;
      fm <~ text_entry e s "form" ;;
      ib <~ PyRunModel.entry s "idx_bin" ;; ib <~ or_zero ib ;;
      PyRunModel.Returns (FileNameModel.mk_meas st l1 l2 l fm ib 0 0 tag)
    else PyRunModel.Returns (FileNameModel.mk_meas st 0 0 l "" 0 0 0 tag).

  Definition saved_path (e : PyParamModel.pyenv) (three : bool) (dir : option string)
    (f : FileNameModel.save_as) (s : PyParamModel.pset) : PyRunModel.ends (list string) :=
    m <~ name_parts e three s ;;
    match dir with
    | None => PyRunModel.Raises TypeError
    | Some dir =>
        PyRunModel.python
          ((if three then FileNameModel.threept_path else FileNameModel.twopt_path)
             (FileNameModel.components dir) f m)
    end.

  Definition is_fourier (s : PyParamModel.pset) : PyRunModel.ends bool :=
    sp <~ PyRunModel.entry s "space" ;;
    if PyRunModel.is_text sp "fourier" then PyRunModel.Returns true
    else if PyRunModel.is_text sp "config" then PyRunModel.Returns false
    else PyRunModel.Raises NameError.

  Definition py_save (e : PyParamModel.pyenv) (three or_empty : bool) (cats : list string)
    (save : saving) (s : PyParamModel.pset) (n : PyRunModel.norms) (x : results)
    : PyRunModel.ends (option (list string * content)) :=
    match save with
    | NoSave | SaveAs "" => PyRunModel.Returns None
    | _ =>
        dir <~ directory or_empty s ;;
        header <~ py_header e three cats s n ;;
        match save with
        | SaveAs t =>
            if PyParamModel.lower t =? ".txt" then
              sp <~ is_fourier s ;;
              table <~ py_table three sp x ;;
              path <~ saved_path e three dir FileNameModel.Txt s ;;
              PyRunModel.Returns
                (Some (path, TextFile (written (map comment header ++ table)%list)))
            else if ends_with ".npz" (PyParamModel.lower t) then
              path <~ saved_path e three dir FileNameModel.Npz s ;;
              PyRunModel.Returns
                (Some (path, Archive (String.concat (String newline "") header)))
            else PyRunModel.Raises ValueError
        | _ => PyRunModel.Raises AttributeError
        end
    end.

  (** The public functions measure first; [measure] stands for the C++
      function called. *)
  Section Calls.
    Variable measure : PyRunModel.call -> results.
    Variable source : nat -> string.          (* `_source` of each catalogue object *)

    Definition survey_saved (fuel : nat) (e : PyParamModel.pyenv) (three : bool)
      (st : MainModel.statistic) (name : string) (a : PyRunModel.args) (save : saving)
      (d r : nat) (s : pystore)
      : PyRunModel.ends (PyRunModel.done * option (list string * content)) :=
      x <~ PyRunModel.survey fuel e three st name a d r s ;;
      let after := PyRunModel.after x in
      f <~ py_save e three true
             (py_catalogue_lines "Data catalogue" "Data-source" (source d) (after d)
              ++ py_catalogue_lines "Random catalogue" "Random-source" (source r) (after r))%list
             save (PyRunModel.used x) (PyRunModel.factors x) (measure (PyRunModel.called x)) ;;
      PyRunModel.Returns (x, f).

    Definition box_saved (fuel : nat) (e : PyParamModel.pyenv) (three : bool)
      (st : MainModel.statistic) (name : string) (a : PyRunModel.args) (save : saving)
      (d : nat) (s : pystore)
      : PyRunModel.ends (PyRunModel.done * option (list string * content)) :=
      x <~ PyRunModel.box fuel e three st name a d s ;;
      f <~ py_save e three true
             (py_catalogue_lines "Catalogue" "Catalogue" (source d) (PyRunModel.after x d))
             save (PyRunModel.used x) (PyRunModel.factors x) (measure (PyRunModel.called x)) ;;
      PyRunModel.Returns (x, f).

    Definition window_saved (fuel : nat) (e : PyParamModel.pyenv) (three : bool)
      (a : PyRunModel.args) (save : saving) (r : nat) (s : pystore)
      : PyRunModel.ends (PyRunModel.done * option (list string * content)) :=
      x <~ PyRunModel.window fuel e three a r s ;;
      f <~ py_save e three three
             (py_catalogue_lines "Catalogue" "Catalogue" (source r) (PyRunModel.after x r))
             save (PyRunModel.used x) (PyRunModel.factors x) (measure (PyRunModel.called x)) ;;
      PyRunModel.Returns (x, f).
  End Calls.
End Headers.
