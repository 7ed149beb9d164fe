(* Parameter files of the C++ program: src/triumvirate/src/parameters.cpp
   read_from_file 94-464, print_to_file 1272-1380,
   override_paramset_by_envvars 1382-1414, on top of ParamModel.

   A file is its text.  `double` is R and `int` is Z: reading rounds nothing
   and never overflows.  Of what `%lg` accepts, decimal numbers with an
   optional exponent are modelled; "inf", "nan" and hexadecimal numbers are
   not.  A write past the end of a `char` buffer is the error [OutOfBounds].
   The debugging print-out (398-461) and the log are left out. *)
From Coq Require Import String Ascii List ZArith Reals Bool.
From Flocq Require Import Core.
From Verif Require Import Base StrModel Dec ArrayModel MeshModel ParamModel.
Import ListNotations.
Local Open Scope string_scope.

(* ------------------------------------------------------------------ *)
(** * Lines and words *)

Definition newline : ascii := ascii_of_nat 10.

(** `std::getline` until it fails: the text after the last newline is a line
    if there is any. *)
Fixpoint text_lines (s : string) : list string :=
  match s with
  | "" => []
  | String c t =>
      if Ascii.eqb c newline then "" :: text_lines t
      else match text_lines t with
           | [] => [String c ""]
           | l :: ls => String c l :: ls
           end
  end.

Fixpoint skip_blank (s : string) : string :=
  match s with
  | String c t => if is_blank_char c then skip_blank t else s
  | "" => ""
  end.

(** At most [n] characters up to the next blank, and what is left. *)
Fixpoint take_word (n : nat) (s : string) : string * string :=
  match n, s with
  | S m, String c t =>
      if is_blank_char c then ("", s)
      else let x := take_word m t in (String c (fst x), snd x)
  | _, _ => ("", s)
  end.

(** One `%s` (no width) or `%<w>s` of `sscanf`: leading blanks are skipped;
    [None] when nothing is left. *)
Definition scan_word (w : option nat) (s : string) : option (string * string) :=
  let t := skip_blank s in
  let x := take_word (match w with Some n => n | None => String.length t end) t in
  if fst x =? "" then None else Some x.

(** `sscanf(s, "%s %s ...")`: the first two words and what is left. *)
Definition scan_two (w : option nat) (s : string)
  : option (string * string * string) :=
  match scan_word w s with
  | None => None
  | Some (a, r) =>
      match scan_word w r with
      | None => None
      | Some (b, r') => Some (a, b, r')
      end
  end.

(* ------------------------------------------------------------------ *)
(** * Numbers *)

(** The longest run of digits, and what is left. *)
Fixpoint take_digits (s : string) : string * string :=
  match s with
  | String c t =>
      match digit_value c with
      | Some _ => let x := take_digits t in (String c (fst x), snd x)
      | None => ("", s)
      end
  | "" => ("", "")
  end.

Definition take_sign (s : string) : Z * string :=
  match s with
  | String "-" t => ((-1)%Z, t)
  | String "+" t => (1%Z, t)
  | _ => (1%Z, s)
  end.

(** `%d`: an optional sign and digits; whatever follows is not read. *)
Definition read_int (s : string) : option Z :=
  let x := take_sign s in
  match digits_value (fst (take_digits (snd x))) with
  | Some v => Some (fst x * v)%Z
  | None => None
  end.

(** The exponent of `%lg`: 0 if there is none, [None] if it is broken off. *)
Definition read_exponent (s : string) : option Z :=
  match s with
  | String "e" t => read_int t
  | String "E" t => read_int t
  | _ => Some 0%Z
  end.

(** `%lg`: sign, digits, optionally a point and more digits, exponent. *)
Definition read_num (s : string) : option R :=
  let x := take_sign s in
  let ip := take_digits (snd x) in
  let fp := match snd ip with
            | String "." t => take_digits t
            | r => ("", r)
            end in
  match digits_value (fst ip ++ fst fp), read_exponent (snd fp) with
  | Some v, Some e =>
      Some (IZR (fst x * v)
            * powerRZ 10 (e - Z.of_nat (String.length (fst fp))))%R
  | _, _ => None
  end.

(* ------------------------------------------------------------------ *)
(** * The variables a file is read into *)

(** What a parameter is read as: a word into a `char` buffer of [cap]
    characters, by `%s` or `%1023s` ([width]), a `%lg` or a `%d`. *)
Inductive slot :=
| Word (width : option nat) (cap : Z)
| Number
| Integer.

Definition wide : option nat := Some 1023%nat.

(** 106-134 and 155-325, in the order of the scans. *)
Definition keys : list (string * slot) :=
  [ ("catalogue_dir", Word None 1024);
    ("measurement_dir", Word None 1024);
    ("data_catalogue_file", Word None 262144);
    ("rand_catalogue_file", Word None 262144);
    ("catalogue_columns", Word None 1024);
    ("catalogue_dataset", Word None 1024);
    ("output_tag", Word None 1024);
    ("boxsize_x", Number); ("boxsize_y", Number); ("boxsize_z", Number);
    ("ngrid_x", Integer); ("ngrid_y", Integer); ("ngrid_z", Integer);
    ("expand", Number);
    ("alignment", Word wide 16);
    ("padscale", Word wide 16);
    ("padfactor", Number);
    ("assignment", Word wide 16);
    ("interlace", Word wide 16);
    ("catalogue_type", Word wide 16);
    ("statistic_type", Word wide 16);
    ("form", Word wide 16);
    ("norm_convention", Word wide 16);
    ("binning", Word wide 16);
    ("ell1", Integer); ("ell2", Integer); ("ELL", Integer);
    ("i_wa", Integer); ("j_wa", Integer);
    ("bin_min", Number); ("bin_max", Number);
    ("num_bins", Integer); ("idx_bin", Integer);
    ("cutoff_nyq", Number);
    ("fftw_scheme", Word wide 16);
    ("use_fftw_wisdom", Word wide 1024);
    ("save_binned_vectors", Word wide 1024);
    ("progbar", Word wide 16);
    ("verbose", Integer) ].

(** The variables, by the name of the parameter. *)
Record store := {
  words_of : string -> string;
  num_of : string -> R;
  int_of : string -> Z
}.

Definition upd {A} (f : string -> A) (k : string) (v : A) : string -> A :=
  fun j => if j =? k then v else f j.

Definition set_word (k v : string) (st : store) : store :=
  {| words_of := upd (words_of st) k v; num_of := num_of st;
     int_of := int_of st |}.
Definition set_num (k : string) (v : R) (st : store) : store :=
  {| words_of := words_of st; num_of := upd (num_of st) k v;
     int_of := int_of st |}.
Definition set_int (k : string) (v : Z) (st : store) : store :=
  {| words_of := words_of st; num_of := num_of st;
     int_of := upd (int_of st) k v |}.

Definition fits (cap : Z) (s : string) : bool :=
  (Z.of_nat (String.length s) <? cap)%Z.

(** The rest of the line as one number: numbers contain no blanks. *)
Definition next_word (s : string) : string :=
  match scan_word None s with Some x => fst x | None => "" end.

(** One scan of the loop body, 155-325: the parameter is read if its name
    occurs anywhere in the line.  `dummy_str` and `dummy_equal` hold 1024
    characters (142). *)
Definition scan_key (line : string) (k : string * slot) (st : store)
  : res store :=
  match sfind (fst k) line with
  | None => Ok st
  | Some _ =>
      match snd k with
      | Word w cap =>
          match scan_two w line with
          | None => Ok st
          | Some (a, b, r) =>
              if negb (fits 1024 a && fits 1024 b) then Err OutOfBounds
              else match scan_word w r with
                   | None => Ok st
                   | Some (c, _) =>
                       if fits cap c then Ok (set_word (fst k) c st)
                       else Err OutOfBounds
                   end
          end
      | Number =>
          match scan_two wide line with
          | None => Ok st
          | Some (_, _, r) =>
              match read_num (next_word r) with
              | Some v => Ok (set_num (fst k) v st)
              | None => Ok st
              end
          end
      | Integer =>
          match scan_two wide line with
          | None => Ok st
          | Some (_, _, r) =>
              match read_int (next_word r) with
              | Some v => Ok (set_int (fst k) v st)
              | None => Ok st
              end
          end
      end
  end.

Fixpoint scan_keys (line : string) (ks : list (string * slot)) (st : store)
  : res store :=
  match ks with
  | [] => Ok st
  | k :: t => st' <- scan_key line k st ;; scan_keys line t st'
  end.

(** 143-160: is the line an assignment? *)
Definition is_assignment (line : string) : bool :=
  if prefix "#" line then false
  else match scan_two wide line with
       | None => false
       | Some (_, b, r) =>
           match scan_word wide r with
           | None => false
           | Some _ => b =? "="
           end
       end.

(** 143-325: the loop body. *)
Definition scan_line (line : string) (st : store) : res store :=
  if is_assignment line then scan_keys line keys st else Ok st.

Fixpoint scan_lines (ls : list string) (st : store) : res store :=
  match ls with
  | [] => Ok st
  | l :: t => st' <- scan_line l st ;; scan_lines t st'
  end.

(* ------------------------------------------------------------------ *)
(** * Reading *)

(** A parameter set with the fields ParamModel leaves out. *)
Record fparams := {
  core : params;
  catalogue_columns : string;
  catalogue_dataset : string;
  i_wa : Z;
  j_wa : Z;
  verbose : Z;
  progbar : string
}.

(** The fields that are read in place (`&this->...`). *)
Definition own_num (p : fparams) (k : string) : option R :=
  let s := smp (core p) in
  let m := msr (core p) in
  if k =? "expand" then Some (expand s)
  else if k =? "padfactor" then Some (padfactor s)
  else if k =? "bin_min" then Some (bin_min m)
  else if k =? "bin_max" then Some (bin_max m)
  else if k =? "cutoff_nyq" then Some (cutoff_nyq s)
  else None.

Definition own_int (p : fparams) (k : string) : option Z :=
  let m := msr (core p) in
  if k =? "ell1" then Some (ell1 m)
  else if k =? "ell2" then Some (ell2 m)
  else if k =? "ELL" then Some (ELL m)
  else if k =? "i_wa" then Some (i_wa p)
  else if k =? "j_wa" then Some (j_wa p)
  else if k =? "num_bins" then Some (num_bins m)
  else if k =? "idx_bin" then Some (idx_bin m)
  else if k =? "verbose" then Some (verbose p)
  else None.

(** 106-134: buffers start empty; `boxsize_x` ... `ngrid_z` (114-115) are not
    initialised and hold what the stack held, [mem]. *)
Definition start (mem : store) (p : fparams) : store :=
  {| words_of := fun _ => "";
     num_of := fun k => match own_num p k with
                        | Some v => v | None => num_of mem k end;
     int_of := fun k => match own_int p k with
                        | Some v => v | None => int_of mem k end |}.

(** `if (strlen(x_) > 0) { this->x = x_; }` *)
Definition if_given (v old : string) : string := if v =? "" then old else v.

(** 333-396: attribution. *)
Definition attribute (st : store) (p : fparams) : fparams :=
  let w := words_of st in
  let n := num_of st in
  let z := int_of st in
  let pa := pths (core p) in
  let s := smp (core p) in
  let m := msr (core p) in
  let c := msc (core p) in
  {| core :=
       {| pths := {| catalogue_dir := w "catalogue_dir";
                     measurement_dir := w "measurement_dir";
                     data_file := w "data_catalogue_file";
                     rand_file := w "rand_catalogue_file";
                     data_files := data_files pa;
                     rand_files := rand_files pa;
                     output_tag := w "output_tag" |};
          smp := {| boxsize := T3 (n "boxsize_x") (n "boxsize_y")
                                  (n "boxsize_z");
                    ngrid := T3 (z "ngrid_x") (z "ngrid_y") (z "ngrid_z");
                    expand := n "expand";
                    cutoff_nyq := n "cutoff_nyq";
                    alignment := if_given (w "alignment") (alignment s);
                    padscale := if_given (w "padscale") (padscale s);
                    padfactor := n "padfactor";
                    assignment := if_given (w "assignment") (assignment s);
                    interlace := if_given (w "interlace") (interlace s);
                    volume := (n "boxsize_x" * n "boxsize_y"
                               * n "boxsize_z")%R;
                    nmesh := (z "ngrid_x" * z "ngrid_y" * z "ngrid_z")%Z;
                    assignment_order := assignment_order s |};
          msr := {| catalogue_type := w "catalogue_type";
                    statistic_type := w "statistic_type";
                    npoint := npoint m; space := space m;
                    ell1 := z "ell1"; ell2 := z "ell2"; ELL := z "ELL";
                    form := if_given (w "form") (form m);
                    norm_convention :=
                      if_given (w "norm_convention") (norm_convention m);
                    shape := shape m;
                    binning := if_given (w "binning") (binning m);
                    bin_min := n "bin_min"; bin_max := n "bin_max";
                    num_bins := z "num_bins"; idx_bin := z "idx_bin" |};
          msc := {| fftw_scheme :=
                      if_given (w "fftw_scheme") (fftw_scheme c);
                    planner_flag := planner_flag c;
                    use_fftw_wisdom :=
                      if_given (w "use_fftw_wisdom") (use_fftw_wisdom c);
                    wisdom_file_f := wisdom_file_f c;
                    wisdom_file_b := wisdom_file_b c;
                    save_binned_vectors :=
                      if_given (w "save_binned_vectors")
                        (save_binned_vectors c) |} |};
     catalogue_columns := w "catalogue_columns";
     catalogue_dataset := w "catalogue_dataset";
     i_wa := z "i_wa"; j_wa := z "j_wa"; verbose := z "verbose";
     progbar := if_given (w "progbar") (progbar p) |}.

(** 94-396: everything up to validation.  A file that cannot be opened gives
    no lines, that is, reads as the empty text. *)
Definition parse_file (mem : store) (p : fparams) (text : string)
  : res fparams :=
  st <- scan_lines (text_lines text) (start mem p) ;; Ok (attribute st p).

Definition with_core (q : params) (p : fparams) : fparams :=
  {| core := q; catalogue_columns := catalogue_columns p;
     catalogue_dataset := catalogue_dataset p; i_wa := i_wa p; j_wa := j_wa p;
     verbose := verbose p; progbar := progbar p |}.

Definition validate_all (fuel : nat) (b : build) (init : bool) (p : fparams)
  : res fparams :=
  q <- validate fuel b init (core p) ;; Ok (with_core q p).

(** 94-464. *)
Definition read_from_file (fuel : nat) (b : build) (mem : store)
  (p : fparams) (text : string) : res fparams :=
  q <- parse_file mem p text ;; validate_all fuel b true q.

(* ------------------------------------------------------------------ *)
(** * Printing *)

Fixpoint zeros (n : nat) : string :=
  match n with O => "" | S m => String "0" (zeros m) end.

(** A natural number padded on the left with zeros to [n] characters. *)
Definition pad_left (n : nat) (s : string) : string :=
  zeros (n - String.length s) ++ s.

(** `%.<d>f`: the number rounded to [d] decimals, to even on ties. *)
Definition fmt_fixed (d : nat) (x : R) : string :=
  let u := (10 ^ Z.of_nat d)%Z in
  let v := ZnearestE (Rabs x * IZR u) in
  (if Rltb x 0 then "-" else "") ++ dec (v / u) ++ "."
  ++ pad_left d (dec (v mod u)).

(** 1303-1353, line by line; [sci] prints the volume (`%.6e`) and [flag] the
    planner flag. *)
Definition printed (sci : R -> string) (flag : planner -> Z) (p : fparams)
  : list (string * string) :=
  let pa := pths (core p) in
  let s := smp (core p) in
  let m := msr (core p) in
  let c := msc (core p) in
  [ ("catalogue_dir", catalogue_dir pa);
    ("measurement_dir", measurement_dir pa);
    ("data_catalogue_file", data_file pa);
    ("rand_catalogue_file", rand_file pa);
    ("catalogue_columns", catalogue_columns p);
    ("catalogue_dataset", catalogue_dataset p);
    ("output_tag", output_tag pa);
    ("boxsize_x", fmt_fixed 3 (ax0 (boxsize s)));
    ("boxsize_y", fmt_fixed 3 (ax1 (boxsize s)));
    ("boxsize_z", fmt_fixed 3 (ax2 (boxsize s)));
    ("ngrid_x", to_string (ax0 (ngrid s)));
    ("ngrid_y", to_string (ax1 (ngrid s)));
    ("ngrid_z", to_string (ax2 (ngrid s)));
    ("volume", sci (volume s));
    ("nmesh", to_string (nmesh s));
    ("expand", fmt_fixed 4 (expand s));
    ("alignment", alignment s);
    ("padscale", padscale s);
    ("padfactor", fmt_fixed 4 (padfactor s));
    ("assignment", assignment s);
    ("interlace", interlace s);
    ("assignment_order", to_string (assignment_order s));
    ("catalogue_type", catalogue_type m);
    ("statistic_type", statistic_type m);
    ("npoint", npoint m);
    ("space", space m);
    ("ell1", to_string (ell1 m));
    ("ell2", to_string (ell2 m));
    ("ELL", to_string (ELL m));
    ("i_wa", to_string (i_wa p));
    ("j_wa", to_string (j_wa p));
    ("form", form m);
    ("norm_convention", norm_convention m);
    ("binning", binning m);
    ("shape", shape m);
    ("bin_min", fmt_fixed 4 (bin_min m));
    ("bin_max", fmt_fixed 4 (bin_max m));
    ("num_bins", to_string (num_bins m));
    ("idx_bin", to_string (idx_bin m));
    ("fftw_scheme", fftw_scheme c);
    ("use_fftw_wisdom", use_fftw_wisdom c);
    ("fftw_wisdom_file_f", wisdom_file_f c);
    ("fftw_wisdom_file_b", wisdom_file_b c);
    ("save_binned_vectors", save_binned_vectors c);
    ("progbar", progbar p);
    ("verbose", to_string (verbose p));
    ("fftw_planner_flag", to_string (flag (planner_flag c))) ].

Definition print_lines (l : list (string * string)) : string :=
  fold_right (fun kv r => fst kv ++ " = " ++ snd kv ++ String newline r) "" l.

(** 1272-1361: the text written; `nmesh` goes through an `int` (1296, 1317),
    which is exact below 2^31 cells. *)
Definition print_to_file (sci : R -> string) (flag : planner -> Z)
  (p : fparams) : string := print_lines (printed sci flag p).

(** 1363-1371: where it is written. *)
Definition print_path (p : fparams) : string :=
  snprintf1024 (measurement_dir (pths (core p)) ++ "parameters_used"
                ++ output_tag (pths (core p))).

(* ------------------------------------------------------------------ *)
(** * Environment overrides *)

(** `std::stoi`: leading blanks skipped; no number throws, and nothing in
    main/triumvirate.cpp catches it. *)
Definition stoi (s : string) : res Z :=
  match read_int (skip_blank s) with
  | Some v => Ok v
  | None => Err Terminated
  end.

Definition or_env (b : build) (v old : string) : string :=
  match environ b v with Some s => s | None => old end.

Definition with_tag (t : string) (p : paths) : paths :=
  {| catalogue_dir := catalogue_dir p; measurement_dir := measurement_dir p;
     data_file := data_file p; rand_file := rand_file p;
     data_files := data_files p; rand_files := rand_files p;
     output_tag := t |}.

Definition with_fftw (scheme wisdom : string) (m : misc) : misc :=
  {| fftw_scheme := scheme; planner_flag := planner_flag m;
     use_fftw_wisdom := wisdom; wisdom_file_f := wisdom_file_f m;
     wisdom_file_b := wisdom_file_b m;
     save_binned_vectors := save_binned_vectors m |}.

(** 1382-1414. *)
Definition override_by_envvars (fuel : nat) (b : build) (p : fparams)
  : res fparams :=
  let c := msc (core p) in
  let scheme := if gpu b then fftw_scheme c
                else or_env b "TRV_OVERRIDE_FFTW_SCHEME" (fftw_scheme c) in
  let wisdom := if gpu b then use_fftw_wisdom c
                else or_env b "TRV_OVERRIDE_USE_FFTW_WISDOM"
                       (use_fftw_wisdom c) in
  v <- (match environ b "TRV_OVERRIDE_VERBOSE" with
        | Some s => stoi s
        | None => Ok (verbose p)
        end) ;;
  validate_all fuel b false
    {| core :=
         {| pths := with_tag (or_env b "TRV_OVERRIDE_OUTPUT_TAG"
                                (output_tag (pths (core p)))) (pths (core p));
            smp := smp (core p); msr := msr (core p);
            msc := with_fftw scheme wisdom c |};
       catalogue_columns := catalogue_columns p;
       catalogue_dataset := catalogue_dataset p;
       i_wa := i_wa p; j_wa := j_wa p; verbose := v;
       progbar := or_env b "TRV_OVERRIDE_PROGBAR" (progbar p) |}.
