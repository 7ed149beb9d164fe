(* Model of the command-line program,
   /repo/src/triumvirate/main/triumvirate.cpp 51-984, on one task.

   Left out: log messages and displays, creating directories and writing the
   used-parameter file (162-170; ParamFileModel), `reset_level`, counters and
   clean-up (894-984).  The measurement functions themselves are not run: the
   result of [run] says which one is called with which arguments and where its
   result is saved.  A number that would be infinite or NaN is [None].  Not
   followed further ([NotFollowed]): a run with a catalogue whose box has no
   volume once it is sized, and one whose random weights add up to zero, so
   that `alpha` is infinite or NaN (486). *)
From Coq Require Import String Ascii List ZArith Reals Bool.
From Flocq Require Import Core.Raux.
From Verif Require Import Base StrModel Dec ArrayModel MeshModel CatModel.
From Verif Require ParamModel ParamFileModel LoadModel BinningModel NormModel.
Import ListNotations.
Local Open Scope string_scope.

(* ------------------------------------------------------------------ *)
(** * How a run ends early *)

(** `return`/`std::exit` with a code, an exception nothing catches, or
    undefined behaviour. *)
Inductive stop := Exit (code : Z) | Uncaught (e : exn) | Undefined | NotFollowed.
Inductive step (A : Type) := Stop (s : stop) | Go (a : A).
Arguments Stop {A} _.
Arguments Go {A} _.

Definition andthen {A B} (x : step A) (f : A -> step B) : step B :=
  match x with Go a => f a | Stop s => Stop s end.
Notation "x <~ e1 ;; e2" := (andthen e1 (fun x => e2))
  (at level 61, e1 at next level, right associativity).

(** An exception passes through `main`; reading out of bounds and converting
    a number that is not finite to `int` are undefined. *)
Definition thrown (e : exn) : stop :=
  match e with
  | OutOfBounds | NotANumber => Undefined
  | OutOfFuel => NotFollowed
  | _ => Uncaught e
  end.

Definition uncaught {A} (r : res A) : step A :=
  match r with Ok a => Go a | Err e => Stop (thrown e) end.

(** A function returning a `double`. *)
Definition number (r : res R) : step (option R) :=
  match r with
  | Ok x => Go (Some x)
  | Err NotANumber => Go None
  | Err e => Stop (thrown e)
  end.

(* ------------------------------------------------------------------ *)
(** * Arguments, 108-127 and 149-158 *)

Inductive chosen :=
| Help | Version | Unknown (arg : string) | NoFile | File (path : string).

Fixpoint option_of (many : bool) (args : list string) : option chosen :=
  match args with
  | [] => None
  | a :: t =>
      if (a =? "-h") || (a =? "--help") then Some Help
      else if (a =? "-V") || (a =? "--version") then Some Version
      else if many && prefix "-" a then Some (Unknown a)
      else option_of many t
  end.

(** [args] is `argv` without the program name. *)
Definition choose (args : list string) : chosen :=
  match option_of (1 <? length args)%nat args with
  | Some c => c
  | None => match args with [] => NoFile | p :: _ => File p end
  end.

Definition exit_of (c : chosen) : step string :=
  match c with
  | Help | Version => Stop (Exit 0)
  | Unknown _ | NoFile => Stop (Exit 1)
  | File p => Go p
  end.

(* ------------------------------------------------------------------ *)
(** * Parameters, 160-186 *)

Record world := {
  disk : string -> option string;
  bld : ParamModel.build;
  mem : ParamFileModel.store;
  blank : ParamFileModel.fparams;     (* a new `ParameterSet` *)
  fuel : nat
}.

Definition text_at (w : world) (path : string) : string :=
  match disk w path with Some t => t | None => "" end.

Definition parameters (w : world) (path : string) : step ParamFileModel.fparams :=
  match ParamFileModel.read_from_file (fuel w) (bld w) (mem w) (blank w) (text_at w path) with
  | Ok p => uncaught (ParamFileModel.override_by_envvars (fuel w) (bld w) p)
  | Err InvalidParameter => Stop (Exit 1)
  | Err e => Stop (thrown e)
  end.

(* ------------------------------------------------------------------ *)
(** * Catalogues, 198-287 *)

Definition load (w : world) (p : ParamFileModel.fparams) (file : string)
  : step catalogue :=
  if negb (if_filepath_is_set file) then Stop (Exit 1)
  else
    let r := LoadModel.load_catalogue_file (disk w) file
               (ParamFileModel.catalogue_columns p)
               (ParamModel.volume (ParamModel.smp (ParamFileModel.core p)))
               LoadModel.fresh in
    match snd r with
    | Ok _ => Go (LoadModel.body (fst r))
    | Err IOErr => Stop (Exit 1)
    | Err e => Stop (thrown e)
    end.

Definition kind (p : ParamFileModel.fparams) : string :=
  ParamModel.catalogue_type (ParamModel.msr (ParamFileModel.core p)).

(** Address 0 is the data catalogue, 1 the random one. *)
Definition flag_data (ct : string) : bool := (ct =? "survey") || (ct =? "sim").
Definition flag_rand (ct : string) : bool := (ct =? "survey") || (ct =? "random").

Definition load_if (b : bool) (w : world) (p : ParamFileModel.fparams)
  (file : string) : step catalogue :=
  if b then load w p file else Go catalogue_new.

Definition catalogues (w : world) (p : ParamFileModel.fparams) : step store :=
  let pa := ParamModel.pths (ParamFileModel.core p) in
  d <~ load_if (flag_data (kind p)) w p (ParamModel.data_file pa) ;;
  r <~ load_if (flag_rand (kind p)) w p (ParamModel.rand_file pa) ;;
  Go (fun a => match a with 0 => d | 1 => r | _ => catalogue_new end)%nat.

(* ------------------------------------------------------------------ *)
(** * Binning, 51-98 and 311-321 *)

Definition custom_bins (bin_max : R) (num_bins : Z) : BinningModel.bins :=
  let bin_min := (10 * 5)%R in
  let dlnbin := ((ln bin_max - ln bin_min) / IZR (num_bins - 5))%R in
  let left i := (bin_min * exp (dlnbin * IZR (i - 5)))%R in
  let right i := (bin_min * exp (dlnbin * IZR (i - 5 + 1)))%R in
  let pads := arange 1 5 in
  let rest := arange 5 num_bins in
  (([0; 1] ++ map (fun i => 10 * IZR i) pads ++ map left rest ++ [bin_max])%list,
   ([/ 2; 5] ++ map (fun i => 10 * IZR i + 10 / 2) pads
      ++ map (fun i => (left i + right i) / 2) rest)%list,
   ([1; 9] ++ map (fun _ => 10) pads ++ map (fun i => right i - left i) rest)%list)%R.

(** `std::max_element`, `std::min_element` over the axes. *)
Definition box_max (t : triple R) : R := Rmax (Rmax (ax0 t) (ax1 t)) (ax2 t).
Definition grid_min (t : triple Z) : Z := Z.min (Z.min (ax0 t) (ax1 t)) (ax2 t).

Definition space_of (s : string) : BinningModel.space :=
  if s =? "fourier" then BinningModel.Fourier
  else if s =? "config" then BinningModel.Config else BinningModel.OtherSpace.

Definition scheme_of (s : string) : BinningModel.scheme :=
  if s =? "lin" then BinningModel.Lin
  else if s =? "log" then BinningModel.Log
  else if s =? "linpad" then BinningModel.LinPad
  else if s =? "logpad" then BinningModel.LogPad
  else if s =? "custom" then BinningModel.Custom
  else BinningModel.OtherScheme.

(** The pad width is `inf` or NaN when the box size (Fourier space) or the
    grid number (configuration space) is zero, dataobjs.cpp 49-55. *)
Definition pad_defined (sp : string) (s : ParamModel.sampling) : bool :=
  if sp =? "fourier" then negb (Reqb (box_max (ParamModel.boxsize s)) 0)
  else negb (grid_min (ParamModel.ngrid s) =? 0)%Z.

Definition padded (scheme : string) : bool :=
  (scheme =? "linpad") || (scheme =? "logpad").

(** `std::domain_error` is [ValueError]. *)
Definition bins (p : ParamFileModel.fparams) : step (option BinningModel.bins) :=
  let m := ParamModel.msr (ParamFileModel.core p) in
  let s := ParamModel.smp (ParamFileModel.core p) in
  if ParamModel.binning m =? "custom" then
    if ParamModel.space m =? "fourier" then Stop (Uncaught ValueError)
    else Go (Some (custom_bins (ParamModel.bin_max m) (ParamModel.num_bins m)))
  else if padded (ParamModel.binning m) && negb (pad_defined (ParamModel.space m) s)
  then Go None
  else
    match BinningModel.compute_bins
            (BinningModel.cpp_ctor_params (space_of (ParamModel.space m))
               (scheme_of (ParamModel.binning m)) (ParamModel.bin_min m)
               (ParamModel.bin_max m) (ParamModel.num_bins m)
               (box_max (ParamModel.boxsize s)) (grid_min (ParamModel.ngrid s))) with
    | Ok b => Go (Some b)
    | Err NotANumber => Go None
    | Err e => Stop (thrown e)
    end.

(* ------------------------------------------------------------------ *)
(** * Lines of sight, 336-391 *)

Definition magnitude (v : triple R) : R :=
  sqrt (ax0 v * ax0 v + ax1 v * ax1 v + ax2 v * ax2 v).

Definition line_of_sight (v : triple R) : triple R :=
  let mag := magnitude v in
  let mag := if Reqb mag 0 then 1%R else mag in
  T3 (ax0 v / mag)%R (ax1 v / mag)%R (ax2 v / mag)%R.

Definition particles (c : catalogue) : list pdatum :=
  match pdata c with Some ps => ps | None => [] end.

Definition lines_of_sight (c : catalogue) : list (triple R) :=
  map (fun q => line_of_sight (p_pos q)) (particles c).

(* ------------------------------------------------------------------ *)
(** * Box alignment, 406-477 *)

Definition span_of (ct : string) (s : store) : triple R :=
  if ct =? "random" then pos_span (s 1%nat) else pos_span (s 0%nat).

(** 408-413, 439-444, 449-454.  The call of `set_ngrid_from_cutoff` if
    `nmesh` is zero is left out: validation within `set_boxsize_from_expand`
    has set the grid numbers unless the box has no volume ([sized_grid] in
    MainProps.v), and then the run is not followed. *)
Definition sized (w : world) (p : ParamFileModel.fparams) (s : store)
  : step ParamFileModel.fparams :=
  let q := ParamFileModel.core p in
  if flag_data (kind p) || flag_rand (kind p) then
    if Reqb (ParamModel.volume (ParamModel.smp q)) 0 then
      q' <~ uncaught (ParamModel.set_boxsize_from_expand (fuel w) (bld w)
                        (span_of (kind p) s) q) ;;
      Go (ParamFileModel.with_core q' p)
    else Go p
  else Go p.

Definition has_volume (p : ParamFileModel.fparams) : bool :=
  let t := ParamModel.smp (ParamFileModel.core p) in
  Rltb 0 (ParamModel.volume t) && (0 <? ParamModel.nmesh t)%Z
  || negb (flag_data (kind p) || flag_rand (kind p)).

Definition run_act {A} (m : act A) (s : store) : step (store * A) :=
  match m s with
  | (s', Ok a) => Go (s', a)
  | (_, Err e) => Stop (thrown e)
  end.

Definition aligned (ct : string) (t : ParamModel.sampling) : act unit :=
  let box := ParamModel.boxsize t in
  let f := ParamModel.padfactor t in
  let pad := T3 f f f in
  if ct =? "survey" then
    if ParamModel.alignment t =? "pad" then
      if ParamModel.padscale t =? "grid" then pad_grids 0 1 box (ParamModel.ngrid t) pad
      else if ParamModel.padscale t =? "box" then pad_in_box 0 1 box pad
      else ret tt
    else if ParamModel.alignment t =? "centre" then centre_in_box 0 1 box
    else ret tt
  else if ct =? "sim" then offset_coords_for_periodicity 0 box
  else if ct =? "random" then
    if ParamModel.alignment t =? "pad" then
      if ParamModel.padscale t =? "grid" then pad_grids1 1 box (ParamModel.ngrid t) pad
      else if ParamModel.padscale t =? "box" then pad_in_box1 1 box pad
      else ret tt
    else if ParamModel.alignment t =? "centre" then
      centre_in_box1 1 box ;> offset_coords_for_periodicity 1 box
    else ret tt
  else ret tt.

(* ------------------------------------------------------------------ *)
(** * Constants, 483-583 *)

(** [None] if the random weights add up to zero (488). *)
Definition alpha_of (ct : string) (s : store) : option R :=
  if flag_data ct && flag_rand ct then
    if Reqb (wstotal (s 1%nat)) 0 then None
    else Some (wstotal (s 0%nat) / wstotal (s 1%nat))%R
  else Some 1%R.

Definition mesh_of (t : ParamModel.sampling) : mesh_params :=
  MeshParams (ParamModel.ngrid t) (ParamModel.boxsize t)
    (ParamModel.volume t / IZR (ParamModel.nmesh t))%R.

Definition assignment_of (s : string) : scheme :=
  if s =? "ngp" then NGP else if s =? "cic" then CIC
  else if s =? "tsc" then TSC else PCS.

Definition alignment_of (t : ParamModel.sampling) : NormModel.alignment :=
  if ParamModel.alignment t =? "pad" then
    NormModel.AlignPad
      (if ParamModel.padscale t =? "grid" then NormModel.PadGrid
       else if ParamModel.padscale t =? "box" then NormModel.PadBox
       else NormModel.PadOther)
  else if ParamModel.alignment t =? "centre" then NormModel.AlignCentre
  else NormModel.AlignOther.

(** 520-534 and twopt.cpp 233-264. *)
Definition meshes_norm (w : world) (p : ParamFileModel.fparams) (alpha : R)
  (s : store) : step (store * option R) :=
  let '(n, side) := NormModel.norm_box (pos_span (s 0%nat)) (pos_span (s 1%nat))
                      (/ 10)%R 10%R in
  q <~ uncaught (ParamModel.norm_params (fuel w) (bld w) side n "cic"
                   (ParamFileModel.core p)) ;;
  let t := ParamModel.smp q in
  r <~ run_act (NormModel.mixed_norm 0 1 (alignment_of t)
                  (assignment_of (ParamModel.assignment t)) (mesh_of t)
                  (ParamModel.padfactor t) alpha) s ;;
  x <~ number (snd r) ;;
  Go (fst r, x).

Record norms := { n_part : option R; n_mesh : option R; n_meshes : option R }.

(** 500-547. *)
Definition norms_of (w : world) (p : ParamFileModel.fparams) (alpha : R)
  (s : store) : step (store * norms) :=
  let q := ParamFileModel.core p in
  let t := ParamModel.smp q in
  let a := if flag_rand (kind p) then 1%nat else 0%nat in
  let al := if flag_rand (kind p) then alpha else 1%R in
  let np := ParamModel.npoint (ParamModel.msr q) in
  let sch := assignment_of (ParamModel.assignment t) in
  if np =? "2pt" then
    part <~ number (NormModel.powspec_norm_particles (s a) al) ;;
    mesh <~ number (NormModel.norm_from_mesh 2 sch (mesh_of t) (s a) al) ;;
    if kind p =? "survey" then
      r <~ meshes_norm w p alpha s ;;
      Go (fst r, {| n_part := part; n_mesh := mesh; n_meshes := snd r |})
    else Go (s, {| n_part := part; n_mesh := mesh; n_meshes := Some 0%R |})
  else if np =? "3pt" then
    part <~ number (NormModel.bispec_norm_particles (s a) al) ;;
    mesh <~ number (NormModel.norm_from_mesh 3 sch (mesh_of t) (s a) al) ;;
    Go (s, {| n_part := part; n_mesh := mesh; n_meshes := Some 0%R |})
  else Go (s, {| n_part := Some 0%R; n_mesh := Some 0%R; n_meshes := Some 0%R |}).

(** 549-594. *)
Definition factor_of (m : ParamModel.measuring) (n : norms) : option R :=
  if ParamModel.npoint m =? "none" then Some 0%R
  else if ParamModel.norm_convention m =? "none" then Some 1%R
  else if ParamModel.norm_convention m =? "particle" then n_part n
  else if ParamModel.norm_convention m =? "mesh" then n_mesh n
  else if ParamModel.norm_convention m =? "mesh-mixed" then n_meshes n
  else Some 0%R.

(* ------------------------------------------------------------------ *)
(** * Measurements, 600-890 *)

Inductive statistic :=
| Powspec | Corrfunc | CorrfuncWindow | Bispec | ThreePcf | ThreePcfWindow (wa : bool).

(** What a measurement function is given. *)
Record request := {
  stat : statistic;
  from_data : option (list pdatum * list (triple R));   (* with lines of sight *)
  from_rand : option (list pdatum * list (triple R));
  in_box : bool;                 (* the global plane-parallel version *)
  par : ParamFileModel.fparams;
  bin : option BinningModel.bins;
  contrast : option R;           (* `alpha`, where it is passed *)
  factor : option R
}.

(** 606-866: the name without directory and tag; [None] leaves the buffer
    as it is. *)
Definition form_name (form : string) (idx : Z) : option string :=
  if (form =? "full") || (form =? "diag") then Some ("_" ++ form)
  else if form =? "off-diag" then Some ("_offdiag" ++ to_string idx)
  else if form =? "row" then Some ("_row" ++ to_string idx)
  else None.

Definition base_name (p : ParamFileModel.fparams) : option string :=
  let m := ParamModel.msr (ParamFileModel.core p) in
  let st := ParamModel.statistic_type m in
  let ell := to_string (ParamModel.ELL m) in
  let ells := to_string (ParamModel.ell1 m) ++ to_string (ParamModel.ell2 m) ++ ell in
  let wa := "_wa" ++ to_string (ParamFileModel.i_wa p)
              ++ to_string (ParamFileModel.j_wa p) in
  let f := form_name (ParamModel.form m) (ParamModel.idx_bin m) in
  if st =? "powspec" then Some ("pk" ++ ell)
  else if st =? "2pcf" then Some ("xi" ++ ell)
  else if st =? "2pcf-win" then Some ("xiw" ++ ell)
  else if st =? "bispec" then option_map (fun x => "bk" ++ ells ++ x) f
  else if st =? "3pcf" then option_map (fun x => "zeta" ++ ells ++ x) f
  else if st =? "3pcf-win" then option_map (fun x => "zetaw" ++ ells ++ x) f
  else if st =? "3pcf-win-wa" then option_map (fun x => "zetaw" ++ ells ++ wa ++ x) f
  else None.

(** `std::snprintf(save_filepath, 1024, "%s/...%s")`. *)
Definition save_path (p : ParamFileModel.fparams) : option string :=
  let pa := ParamModel.pths (ParamFileModel.core p) in
  option_map (fun n => ParamModel.snprintf1024
                         (ParamModel.measurement_dir pa ++ "/" ++ n
                          ++ ParamModel.output_tag pa)) (base_name p).

Definition statistic_of (st : string) : option statistic :=
  if st =? "powspec" then Some Powspec
  else if st =? "2pcf" then Some Corrfunc
  else if st =? "2pcf-win" then Some CorrfuncWindow
  else if st =? "bispec" then Some Bispec
  else if st =? "3pcf" then Some ThreePcf
  else if st =? "3pcf-win" then Some (ThreePcfWindow false)
  else if st =? "3pcf-win-wa" then Some (ThreePcfWindow true)
  else None.

Definition is_window (s : statistic) : bool :=
  match s with CorrfuncWindow | ThreePcfWindow _ => true | _ => false end.

(** A null file pointer is passed to `fprintf` if the catalogue is neither
    "survey" nor "sim" (642, 660); an unset name is an indeterminate buffer. *)
Definition measure (p : ParamFileModel.fparams) (los_d los_r : list (triple R))
  (b : option BinningModel.bins) (alpha f : option R) (s : store)
  : step (option (request * string)) :=
  match statistic_of (ParamModel.statistic_type (ParamModel.msr (ParamFileModel.core p))) with
  | None => Go None
  | Some st =>
      let data := Some (particles (s 0%nat), los_d) in
      let rand := Some (particles (s 1%nat), los_r) in
      r <~ (if is_window st then
              Go {| stat := st; from_data := None; from_rand := rand;
                    in_box := false; par := p; bin := b;
                    contrast := alpha; factor := f |}
            else if kind p =? "survey" then
              Go {| stat := st; from_data := data; from_rand := rand;
                    in_box := false; par := p; bin := b;
                    contrast := None; factor := f |}
            else if kind p =? "sim" then
              Go {| stat := st; from_data := data; from_rand := None;
                    in_box := true; par := p; bin := b;
                    contrast := None; factor := f |}
            else Stop Undefined) ;;
      match save_path p with
      | Some path => Go (Some (r, path))
      | None => Stop Undefined
      end
  end.

(** 879-890: binned vectors are recorded whatever the statistic. *)
Definition vectors_path (p : ParamFileModel.fparams) : option string :=
  let v := ParamModel.save_binned_vectors (ParamModel.msc (ParamFileModel.core p)) in
  if v =? "" then None else Some v.

Record done := {
  measured : option (request * string);
  vectors : option string;
  printed_norms : norms
}.

(* ------------------------------------------------------------------ *)
(** * The program *)

(** 290-894, from the parameters. *)
Definition session (w : world) (p : ParamFileModel.fparams) : step done :=
  s <~ catalogues w p ;;
  b <~ bins p ;;
  let los_d := lines_of_sight (s 0%nat) in
  let los_r := lines_of_sight (s 1%nat) in
  p <~ sized w p s ;;
  if negb (has_volume p) then Stop NotFollowed else
  r <~ run_act (aligned (kind p) (ParamModel.smp (ParamFileModel.core p))) s ;;
  let s := fst r in
  let alpha := alpha_of (kind p) s in
  match alpha with
  | None => Stop NotFollowed
  | Some a =>
      n <~ norms_of w p a s ;;
      let s := fst n in
      let f := factor_of (ParamModel.msr (ParamFileModel.core p)) (snd n) in
      m <~ measure p los_d los_r b alpha f s ;;
      Go {| measured := m; vectors := vectors_path p; printed_norms := snd n |}
  end.

Definition run (w : world) (args : list string) : step done :=
  path <~ exit_of (choose args) ;;
  p <~ parameters w path ;;
  session w p.
