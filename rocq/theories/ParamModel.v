(* Parameter sets of the C++ layer: src/triumvirate/src/parameters.cpp
   (copy constructor 35-92, validate 466-1270, set_boxsize_from_expand
   1416-1432, set_ngrid_from_cutoff 1434-1464), the field defaults of
   src/triumvirate/include/parameters.hpp 54-205, the re-validated copy of
   twopt.cpp 237-259, and the Python rule `_set_ngrid_from_cutoff`
   (parameters.pyx 866-896).

   `double` is R, `int` is Z (no overflow).  The fields catalogue_columns,
   catalogue_dataset, i_wa, j_wa, verbose and progbar are neither read nor
   written by validation and are left out.  When validation throws, the state
   the object is left in is not modelled.  Log output and the Nyquist
   warnings (1159-1186), which change nothing, are left out. *)
From Coq Require Import String Ascii List ZArith Reals Bool.
From Flocq Require Import Core.
From Verif Require Import Base StrModel Dec ArrayModel MeshModel.
Import ListNotations.
Local Open Scope string_scope.

(** How the library was built and run: TRV_EXTCALL (set for the Python
    extension, setup.py 919), GPU mode, OpenMP FFTW, and `getenv`. *)
Record build := {
  extcall : bool;
  gpu : bool;
  fftw_omp : bool;
  environ : string -> option string
}.

Record paths := {
  catalogue_dir : string;
  measurement_dir : string;
  data_file : string;
  rand_file : string;
  data_files : list string;
  rand_files : list string;
  output_tag : string
}.

Record sampling := {
  boxsize : triple R;
  ngrid : triple Z;
  expand : R;
  cutoff_nyq : R;
  alignment : string;
  padscale : string;
  padfactor : R;
  assignment : string;
  interlace : string;
  volume : R;
  nmesh : Z;
  assignment_order : Z
}.

Record measuring := {
  catalogue_type : string;
  statistic_type : string;
  npoint : string;
  space : string;
  ell1 : Z;
  ell2 : Z;
  ELL : Z;
  form : string;
  norm_convention : string;
  shape : string;
  binning : string;
  bin_min : R;
  bin_max : R;
  num_bins : Z;
  idx_bin : Z
}.

(** FFTW planner flags. *)
Inductive planner := PlanEstimate | PlanMeasure | PlanPatient.

Record misc := {
  fftw_scheme : string;
  planner_flag : planner;
  use_fftw_wisdom : string;
  wisdom_file_f : string;
  wisdom_file_b : string;
  save_binned_vectors : string
}.

Record params := {
  pths : paths;
  smp : sampling;
  msr : measuring;
  msc : misc
}.

(* ------------------------------------------------------------------ *)
(** * Grid numbers from a cutoff *)

Local Open Scope R_scope.

(** parameters.cpp 1434-1457.  Division by a zero cutoff gives an infinity
    whose conversion to int is undefined. *)
Definition cutoff_axis (sp : string) (len cut : R) : res Z :=
  if sp =? "fourier" then
    let n := Zceil (len * cut / PI) in Ok (n + Z.rem n 2)%Z
  else if sp =? "config" then
    if Reqb cut 0 then Err NotANumber
    else let n := Zceil (2 * len / cut) in Ok (n + Z.rem n 2)%Z
  else Err InvalidParameter.

(** parameters.pyx 880-894.  Python's % takes the sign of the divisor; a
    zero cutoff raises (numpy: inf, then int(inf) fails). *)
Definition py_cutoff_axis (sp : string) (len cut : R) : res Z :=
  if sp =? "fourier" then
    let n := Zceil (len * cut / PI) in Ok (n + n mod 2)%Z
  else if sp =? "config" then
    if Reqb cut 0 then Err ZeroDivisionError
    else let n := (2 * Zceil (len / cut))%Z in Ok (n + n mod 2)%Z
  else Err ValueError.

Definition each_axis {A B} (f : A -> res B) (t : triple A) : res (triple B) :=
  x <- f (ax0 t) ;; y <- f (ax1 t) ;; z <- f (ax2 t) ;; Ok (T3 x y z).

Definition cutoff_ngrid (sp : string) (box : triple R) (cut : R)
  : res (triple Z) := each_axis (fun len => cutoff_axis sp len cut) box.

Definition py_cutoff_ngrid (sp : string) (box : triple R) (cut : R)
  : res (triple Z) := each_axis (fun len => py_cutoff_axis sp len cut) box.

(* ------------------------------------------------------------------ *)
(** * Validation, 466-1270 *)

(** 471-486: directories. *)
Definition val_dirs (b : build) (init : bool) (p : paths) : paths :=
  let cdir := if negb (is_blank (catalogue_dir p)) && init
              then catalogue_dir p ++ "/" else catalogue_dir p in
  let mdir := if is_blank (measurement_dir p) then "./"
              else if init then measurement_dir p ++ "/"
              else measurement_dir p in
  {| catalogue_dir := expand_envar (environ b) cdir;
     measurement_dir := expand_envar (environ b) mdir;
     data_file := data_file p; rand_file := rand_file p;
     data_files := data_files p; rand_files := rand_files p;
     output_tag := output_tag p |}.

(** 489-504: the delimiter is appended unless already there. *)
Definition add_delim (s : string) : string :=
  if is_blank s then s
  else if has_extension s "::" then s else s ++ "::".

(** 514-530 and its copies: one path per delimiter; relative paths are put
    under the catalogue directory on initialisation; text after the last
    delimiter is dropped. *)
Definition resolve (b : build) (init : bool) (dir f : string) : string :=
  expand_envar (environ b)
    (if negb (is_absolute f) && init then dir ++ f else f).

Definition list_files (b : build) (init : bool) (dir s : string)
  : list string :=
  if s =? "" then []
  else map (resolve b init dir)
         (fst (cut_loop (S (String.length s)) "::" s)).

(** 489-632: catalogue files. *)
Definition val_files (b : build) (init : bool) (ctype : string) (p : paths)
  : res paths :=
  let data := list_files b init (catalogue_dir p) (add_delim (data_file p)) in
  let rand := list_files b init (catalogue_dir p) (add_delim (rand_file p)) in
  x <- (if ctype =? "survey" then Ok (data, rand)
        else if ctype =? "random" then Ok ([], rand)
        else if ctype =? "sim" then Ok (data, [])
        else if ctype =? "none" then Ok ([], [])
        else if extcall b then Ok ([], [])
        else Err InvalidParameter) ;;
  Ok {| catalogue_dir := catalogue_dir p;
        measurement_dir := measurement_dir p;
        data_file := join_strings (fst x) "::";
        rand_file := join_strings (snd x) "::";
        data_files := fst x; rand_files := snd x;
        output_tag := output_tag p |}.

(** 634-702: alignment, padding scale, assignment, interlacing. *)
Definition val_mesh_strings (s : sampling) : res sampling :=
  if negb ((alignment s =? "centre") || (alignment s =? "pad"))
  then Err InvalidParameter
  else if negb ((padscale s =? "box") || (padscale s =? "grid"))
  then Err InvalidParameter
  else
    ord <- (if assignment s =? "ngp" then Ok 1%Z
            else if assignment s =? "cic" then Ok 2%Z
            else if assignment s =? "tsc" then Ok 3%Z
            else if assignment s =? "pcs" then Ok 4%Z
            else Err InvalidParameter) ;;
    il <- (if (interlace s =? "true") || (interlace s =? "on")
           then Ok "true"
           else if (interlace s =? "false") || (interlace s =? "off")
           then Ok "false"
           else Err InvalidParameter) ;;
    Ok {| boxsize := boxsize s; ngrid := ngrid s; expand := expand s;
          cutoff_nyq := cutoff_nyq s; alignment := alignment s;
          padscale := padscale s; padfactor := padfactor s;
          assignment := assignment s; interlace := il;
          volume := volume s; nmesh := nmesh s; assignment_order := ord |}.

(** 704-825: point number and space of the statistic. *)
Definition val_kind (b : build) (m : measuring) : res (string * string) :=
  let needs_data := if (catalogue_type m =? "random")
                       || (catalogue_type m =? "none")
                    then Err InvalidParameter else Ok tt in
  let needs_rand := if negb (catalogue_type m =? "random")
                    then Err InvalidParameter else Ok tt in
  let st := statistic_type m in
  if st =? "powspec" then _ <- needs_data ;; Ok ("2pt", "fourier")
  else if st =? "2pcf" then _ <- needs_data ;; Ok ("2pt", "config")
  else if st =? "2pcf-win" then _ <- needs_rand ;; Ok ("2pt", "config")
  else if st =? "bispec" then _ <- needs_data ;; Ok ("3pt", "fourier")
  else if st =? "3pcf" then _ <- needs_data ;; Ok ("3pt", "config")
  else if (st =? "3pcf-win") || (st =? "3pcf-win-wa")
  then _ <- needs_rand ;; Ok ("3pt", "config")
  else if st =? "modes" then Ok ("none", "fourier")
  else if st =? "pairs" then Ok ("none", "config")
  else if extcall b then Ok (npoint m, space m)
  else Err InvalidParameter.

(** 830-850: shape of the data vector. *)
Definition val_shape (m : measuring) : res string :=
  if negb ((form m =? "full") || (form m =? "diag")
           || (form m =? "off-diag") || (form m =? "row"))
  then Err InvalidParameter
  else if (form m =? "full") && (ell1 m =? ell2 m)%Z then Ok "triu"
  else Ok (form m).

(** 852-900: normalisation and binning. *)
Definition val_conventions (np : string) (m : measuring) : res unit :=
  if negb ((norm_convention m =? "none") || (norm_convention m =? "particle")
           || (norm_convention m =? "mesh")
           || (norm_convention m =? "mesh-mixed"))
  then Err InvalidParameter
  else if (norm_convention m =? "mesh-mixed") && negb (np =? "2pt")
  then Err InvalidParameter
  else if negb ((binning m =? "lin") || (binning m =? "log")
                || (binning m =? "linpad") || (binning m =? "logpad")
                || (binning m =? "custom"))
  then Err InvalidParameter
  else Ok tt.

Definition val_statistic (b : build) (m : measuring) : res measuring :=
  x <- val_kind b m ;;
  sh <- val_shape m ;;
  _ <- val_conventions (fst x) m ;;
  Ok {| catalogue_type := catalogue_type m;
        statistic_type := statistic_type m;
        npoint := fst x; space := snd x;
        ell1 := ell1 m; ell2 := ell2 m; ELL := ELL m;
        form := form m; norm_convention := norm_convention m;
        shape := sh; binning := binning m;
        bin_min := bin_min m; bin_max := bin_max m;
        num_bins := num_bins m; idx_bin := idx_bin m |}.

(** `std::snprintf` into a buffer of 1024 characters. *)
Definition snprintf1024 (s : string) : string := stake 1023 s.

Definition wisdom_name (b : build) (dir direction : string) (n : triple Z)
  : string :=
  snprintf1024
    (dir ++ (if fftw_omp b then "fftw_omp_" else "fftw_") ++ direction ++ "_"
     ++ to_string (ax0 n) ++ "x" ++ to_string (ax1 n) ++ "x"
     ++ to_string (ax2 n) ++ ".wisdom").

(** 902-1001: FFTW planner and wisdom. *)
Definition val_fftw (b : build) (init : bool) (n : triple Z) (m : misc)
  : res misc :=
  x <- (if negb (gpu b) then
          if fftw_scheme m =? "estimate" then Ok (fftw_scheme m, PlanEstimate)
          else if fftw_scheme m =? "measure" then Ok (fftw_scheme m, PlanMeasure)
          else if fftw_scheme m =? "patient" then Ok (fftw_scheme m, PlanPatient)
          else Err InvalidParameter
        else Ok ("", planner_flag m)) ;;
  let w := if gpu b then ""
           else if use_fftw_wisdom m =? "false" then ""
           else if init then use_fftw_wisdom m ++ "/"
           else use_fftw_wisdom m in
  let w := expand_envar (environ b) w in
  if negb (w =? "") then
    if negb (fst x =? "measure") && negb (fst x =? "patient")
    then Err InvalidParameter
    else Ok {| fftw_scheme := fst x; planner_flag := snd x;
               use_fftw_wisdom := w;
               wisdom_file_f := wisdom_name b w "cif" n;
               wisdom_file_b := wisdom_name b w "cib" n;
               save_binned_vectors := save_binned_vectors m |}
  else Ok {| fftw_scheme := fst x; planner_flag := snd x;
             use_fftw_wisdom := w;
             wisdom_file_f := wisdom_file_f m;
             wisdom_file_b := wisdom_file_b m;
             save_binned_vectors := save_binned_vectors m |}.

(** 1003-1025: where binned vectors are saved. *)
Definition default_bvec (mdir tag : string) : string :=
  snprintf1024 (mdir ++ "binned_vectors" ++ tag).

Definition val_bvec (b : build) (init : bool) (mdir tag : string) (m : misc)
  : misc :=
  let s := save_binned_vectors m in
  let v := if s =? "false" then ""
           else if s =? "true" then default_bvec mdir tag
           else if negb (s =? "") then
             if negb (is_absolute s) && init then mdir ++ s else s
           else s in
  {| fftw_scheme := fftw_scheme m; planner_flag := planner_flag m;
     use_fftw_wisdom := use_fftw_wisdom m; wisdom_file_f := wisdom_file_f m;
     wisdom_file_b := wisdom_file_b m;
     save_binned_vectors := expand_envar (environ b) v |}.

(** 1028-1031: volume and mesh number. *)
Definition val_sizes (s : sampling) : sampling :=
  {| boxsize := boxsize s; ngrid := ngrid s; expand := expand s;
     cutoff_nyq := cutoff_nyq s; alignment := alignment s;
     padscale := padscale s; padfactor := padfactor s;
     assignment := assignment s; interlace := interlace s;
     volume := ax0 (boxsize s) * ax1 (boxsize s) * ax2 (boxsize s);
     nmesh := (ax0 (ngrid s) * ax1 (ngrid s) * ax2 (ngrid s))%Z;
     assignment_order := assignment_order s |}.

Definition with_ngrid (n : triple Z) (s : sampling) : sampling :=
  {| boxsize := boxsize s; ngrid := n; expand := expand s;
     cutoff_nyq := cutoff_nyq s; alignment := alignment s;
     padscale := padscale s; padfactor := padfactor s;
     assignment := assignment s; interlace := interlace s;
     volume := volume s; nmesh := nmesh s;
     assignment_order := assignment_order s |}.

Definition with_interlace (il : string) (s : sampling) : sampling :=
  {| boxsize := boxsize s; ngrid := ngrid s; expand := expand s;
     cutoff_nyq := cutoff_nyq s; alignment := alignment s;
     padscale := padscale s; padfactor := padfactor s;
     assignment := assignment s; interlace := il;
     volume := volume s; nmesh := nmesh s;
     assignment_order := assignment_order s |}.

Definition with_bvec (v : string) (m : misc) : misc :=
  {| fftw_scheme := fftw_scheme m; planner_flag := planner_flag m;
     use_fftw_wisdom := use_fftw_wisdom m; wisdom_file_f := wisdom_file_f m;
     wisdom_file_b := wisdom_file_b m; save_binned_vectors := v |}.

(** 469-1031: everything up to the checks of the numbers. *)
Definition val_head (b : build) (init : bool) (p : params) : res params :=
  let pa := val_dirs b init (pths p) in
  pa <- val_files b init (catalogue_type (msr p)) pa ;;
  s <- val_mesh_strings (smp p) ;;
  m <- val_statistic b (msr p) ;;
  c <- val_fftw b init (ngrid s) (msc p) ;;
  Ok {| pths := pa; smp := val_sizes s; msr := m;
        msc := val_bvec b init (measurement_dir pa) (output_tag pa) c |}.

(** 1094-1141: padding. *)
Definition val_pad (s : sampling) : res unit :=
  if alignment s =? "pad" then
    if Rltb (padfactor s) 0 then Err InvalidParameter
    else if (padscale s =? "box") && Rleb 1 (padfactor s)
    then Err InvalidParameter
    else if (padscale s =? "grid")
            && (Rleb (IZR (ax0 (ngrid s))) (padfactor s)
                || Rleb (IZR (ax1 (ngrid s))) (padfactor s)
                || Rleb (IZR (ax2 (ngrid s))) (padfactor s))
    then Err InvalidParameter
    else Ok tt
  else Ok tt.

(** 1143-1236: bins. *)
Definition val_bins (m : measuring) : res unit :=
  if Rltb (bin_min m) 0 then Err InvalidParameter
  else if Rleb (bin_max m) (bin_min m) then Err InvalidParameter
  else if (num_bins m <? 2)%Z then Err InvalidParameter
  else if (idx_bin m <? 0)%Z && (npoint m =? "3pt") && (form m =? "row")
  then Err InvalidParameter
  else if ((binning m =? "linpad") || (binning m =? "logpad"))
          && (num_bins m <? 7)%Z
  then Err InvalidParameter
  else if (num_bins m <=? Z.abs (idx_bin m))%Z then Err InvalidParameter
  else Ok tt.

(** 1094-1262: checks after the grid numbers are known; [bvec] is the local
    default path of 1004-1010. *)
Definition val_tail (bvec : string) (p : params) : res params :=
  _ <- val_pad (smp p) ;;
  _ <- val_bins (msr p) ;;
  Ok {| pths := pths p;
        smp := if (npoint (msr p) =? "3pt") && (interlace (smp p) =? "true")
               then with_interlace "false" (smp p) else smp p;
        msr := msr p;
        msc := if ((statistic_type (msr p) =? "modes")
                   || (statistic_type (msr p) =? "pairs"))
                  && (save_binned_vectors (msc p) =? "")
               then with_bvec bvec (msc p) else msc p |}.

(** 466-1270.  When the mesh number is not positive and the volume is, the
    grid numbers are set from the cutoff, which validates again (1461);
    [fuel] bounds these nested calls and [OutOfFuel] is an unbounded
    recursion if it occurs for every fuel. *)
Fixpoint validate (fuel : nat) (b : build) (init : bool) (p : params)
  : res params :=
  q <- val_head b init p ;;
  let bvec := default_bvec (measurement_dir (pths q)) (output_tag (pths q)) in
  if Rleb (volume (smp q)) 0 && Rltb (expand (smp q)) 1
  then Err InvalidParameter
  else if (nmesh (smp q) <=? 0)%Z then
    if Rltb (cutoff_nyq (smp q)) 0 then Err InvalidParameter
    else if Rltb 0 (volume (smp q)) then
      n <- cutoff_ngrid (space (msr q)) (boxsize (smp q)) (cutoff_nyq (smp q)) ;;
      match fuel with
      | O => Err OutOfFuel
      | S f =>
          r <- validate f b false
                 {| pths := pths q; smp := with_ngrid n (smp q);
                    msr := msr q; msc := msc q |} ;;
          val_tail bvec r
      end
    else val_tail bvec q
  else val_tail bvec q.

(* ------------------------------------------------------------------ *)
(** * Copies *)

(** Copy constructor, 35-92: every field but `shape`, which keeps its
    default "diag". *)
Definition copy_params (p : params) : params :=
  let m := msr p in
  {| pths := pths p; smp := smp p;
     msr := {| catalogue_type := catalogue_type m;
               statistic_type := statistic_type m;
               npoint := npoint m; space := space m;
               ell1 := ell1 m; ell2 := ell2 m; ELL := ELL m;
               form := form m; norm_convention := norm_convention m;
               shape := "diag"; binning := binning m;
               bin_min := bin_min m; bin_max := bin_max m;
               num_bins := num_bins m; idx_bin := idx_bin m |};
     msc := msc p |}.

(** twopt.cpp 237-259: the parameter set used by the mixed-mesh
    normalisation, a copy with its own box, grid and assignment scheme,
    validated as if new. *)
Definition norm_params (fuel : nat) (b : build) (side : R) (n : Z)
  (assign : string) (p : params) : res params :=
  let q := copy_params p in
  let s := smp q in
  validate fuel b true
    {| pths := pths q;
       smp := {| boxsize := T3 side side side; ngrid := T3 n n n;
                 expand := expand s; cutoff_nyq := cutoff_nyq s;
                 alignment := alignment s; padscale := padscale s;
                 padfactor := padfactor s; assignment := assign;
                 interlace := interlace s; volume := volume s;
                 nmesh := nmesh s; assignment_order := assignment_order s |};
       msr := msr q; msc := msc q |}.

(** 1416-1432: box size from particle spans. *)
Definition set_boxsize_from_expand (fuel : nat) (b : build) (spans : triple R)
  (p : params) : res params :=
  let s := smp p in
  validate fuel b false
    {| pths := pths p;
       smp := {| boxsize := T3 (ax0 spans * expand s) (ax1 spans * expand s)
                              (ax2 spans * expand s);
                 ngrid := ngrid s; expand := expand s;
                 cutoff_nyq := cutoff_nyq s; alignment := alignment s;
                 padscale := padscale s; padfactor := padfactor s;
                 assignment := assignment s; interlace := interlace s;
                 volume := volume s; nmesh := nmesh s;
                 assignment_order := assignment_order s |};
       msr := msr p; msc := msc p |}.
