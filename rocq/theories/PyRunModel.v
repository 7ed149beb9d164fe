(* Model of the Python measurement functions,
   /repo/src/triumvirate/twopt.py 322-665 (_compute_2pt_stats_survey_like),
   883-1176 (_compute_2pt_stats_sim_like), 1348-1640 (compute_corrfunc_window),
   /repo/src/triumvirate/threept.py 384-740, 1312-1621, 1832-2190 (the same for
   three-point statistics), /repo/src/triumvirate/dataobjs.pyx 93-137
   (Binning.from_parameter_set), /repo/src/triumvirate/catalogue.py 760-782
   (_convert_to_cpp_catalogue) and the wrappers _twopt.pyx, _threept.pyx,
   _particles.pyx.

   The C++ measurement functions themselves are not run: the result says which
   one is called with which arguments, as in MainModel.v.  Left out: log
   messages and warnings, and saving (FileNameModel.v, SaveModel.v).  A
   number that would be infinite or NaN is [None].  Not followed further: a run
   whose box has no volume or whose mesh has no cells, one whose random weights
   add up to zero, and one whose bins are not numbers.  What a failing call
   leaves behind in the catalogues and the parameter set is not represented. *)
From Coq Require Import String Ascii List ZArith Reals Bool.
From Flocq Require Import Core.Raux.
From Verif Require Import Base StrModel ArrayModel MeshModel CatModel PyCatModel.
From Verif Require ParamModel PyParamModel PyAmalgModel BinningModel NormModel MainModel.
Import ListNotations.
Local Open Scope string_scope.

(* ------------------------------------------------------------------ *)
(** * How a call ends *)

(** [Raises Terminated]: a C++ exception passing a wrapper declared without
    `except +` ends the interpreter.  [Undefined]: memory is read out of
    bounds. *)
Inductive ends (A : Type) := Returns (a : A) | Raises (e : exn) | Undefined | Unfollowed.
Arguments Returns {A} _.
Arguments Raises {A} _.
Arguments Undefined {A}.
Arguments Unfollowed {A}.

Definition andthen {A B} (x : ends A) (f : A -> ends B) : ends B :=
  match x with
  | Returns a => f a
  | Raises e => Raises e
  | Undefined => Undefined
  | Unfollowed => Unfollowed
  end.
Notation "x <~ e1 ;; e2" := (andthen e1 (fun x => e2))
  (at level 61, e1 at next level, right associativity).

(** A Python operation. *)
Definition python {A} (r : res A) : ends A :=
  match r with
  | Ok a => Returns a
  | Err OutOfFuel | Err NotANumber => Unfollowed
  | Err e => Raises e
  end.

(** A C++ function declared `except +`: a std::invalid_argument becomes
    ValueError, a std::runtime_error RuntimeError. *)
Definition wrapped {A} (r : res A) : ends A :=
  match r with
  | Ok a => Returns a
  | Err OutOfFuel | Err NotANumber => Unfollowed
  | Err OutOfBounds => Undefined
  | Err InvalidParameter => Raises ValueError
  | Err InvalidData | Err IOErr => Raises RuntimeError
  | Err e => Raises e
  end.

(** One declared without. *)
Definition bare {A} (r : res A) : ends A :=
  match r with
  | Ok a => Returns a
  | Err OutOfFuel | Err NotANumber => Unfollowed
  | Err OutOfBounds => Undefined
  | Err _ => Raises Terminated
  end.

(** Returning a `double`. *)
Definition double (r : res R) : res (option R) :=
  match r with
  | Ok x => Ok (Some x)
  | Err NotANumber => Ok None
  | Err e => Err e
  end.

(* ------------------------------------------------------------------ *)
(** * Arguments and parameters, twopt.py 400-434, threept.py 480-509 *)

Notation dict := (list (string * PyParamModel.pyval)).

Record args := {
  sampling : option dict;
  degree : option Z;                      (* two-point *)
  degrees : option (Z * Z * Z);           (* three-point *)
  orders : option (Z * Z);                (* three-point window *)
  binning : option BinningModel.py_binning;
  form : option string;
  index : option Z;
  paramset : option PyParamModel.pset;
  los_data : option (list (R * R * R));
  los_rand : option (list (R * R * R))
}.

(** The attributes of a binning object never set are zero. *)
Definition or0 (x : option R) : R := match x with Some x => x | None => 0%R end.
Definition or0z (x : option Z) : Z := match x with Some x => x | None => 0%Z end.

Definition margs_of (a : args) : PyAmalgModel.margs :=
  {| PyAmalgModel.m_degrees := degrees a;
     PyAmalgModel.m_degree := degree a;
     PyAmalgModel.m_orders := orders a;
     PyAmalgModel.m_binning :=
       option_map (fun b => (or0 (BinningModel.p_min b), or0 (BinningModel.p_max b),
                             or0z (BinningModel.p_num b))) (binning a);
     PyAmalgModel.m_form := form a;
     PyAmalgModel.m_idx := index a |}.

Definition types (ct st : string) : dict :=
  [("catalogue_type", PyParamModel.VStr ct); ("statistic_type", PyParamModel.VStr st)].

Definition enough (three : bool) :=
  if three then PyAmalgModel.enough_3pt else PyAmalgModel.enough_2pt.

Definition prepared (fuel : nat) (e : PyParamModel.pyenv) (three : bool)
  (ct st : string) (a : args) : ends PyParamModel.pset :=
  match paramset a with
  | None =>
      o <~ python (PyAmalgModel.measure_new fuel e (enough three) (sampling a)
                     (margs_of a) (types ct st)) ;;
      python (PyParamModel.as_pset o)
  | Some s =>
      match PyAmalgModel.amalgamate_set fuel e (sampling a) (margs_of a) (types ct st)
              (PyParamModel.entries s, Ok (PyParamModel.cpp s, PyParamModel.bar s)) with
      | (o, Ok tt) => python (PyParamModel.as_pset o)
      | (_, Err x) => python (Err x)
      end
  end.

(** `paramset[k]` and its comparison to a string. *)
Definition entry (s : PyParamModel.pset) (k : string) : ends PyParamModel.pyval :=
  python (PyParamModel.getitem (PyParamModel.entries s) k).

Definition is_text (v : PyParamModel.pyval) (t : string) : bool :=
  match v with PyParamModel.VStr x => x =? t | _ => false end.

(** 416-434. *)
Definition checked_types (ct : string) (sts : list string) (s : PyParamModel.pset)
  : ends unit :=
  c <~ entry s "catalogue_type" ;;
  if negb (is_text c ct) then Raises ValueError else
  t <~ entry s "statistic_type" ;;
  if existsb (is_text t) sts then Returns tt else Raises ValueError.

(* ------------------------------------------------------------------ *)
(** * Binning, twopt.py 439-440, dataobjs.pyx 67-137 *)

Definition to_double (v : PyParamModel.pyval) : ends R := python (PyParamModel.to_float v).
Definition to_cint (v : PyParamModel.pyval) : ends Z := python (PyParamModel.to_int v).

Definition from_parameter_set (s : PyParamModel.pset) : ends BinningModel.py_binning :=
  sp <~ entry s "space" ;;
  if negb (is_text sp "fourier" || is_text sp "config") then Raises ValueError else
  sc <~ entry s "binning" ;;
  rg <~ entry s "range" ;;
  match rg with
  | PyParamModel.VList ((lo :: _) as l) =>
      nb <~ entry s "num_bins" ;;
      match sp, sc with
      | PyParamModel.VStr sp, PyParamModel.VStr sc =>
          let b := BinningModel.py_new (MainModel.space_of sp) (MainModel.scheme_of sc) in
          lo <~ to_double lo ;;
          hi <~ to_double (last l PyParamModel.VNone) ;;
          n <~ to_cint nb ;;
          match BinningModel.py_set_bins b lo hi n with
          | (b, None) => Returns b
          | (_, Some x) => wrapped (Err x)
          end
      | _, _ => Raises AttributeError
      end
  | PyParamModel.VList [] => Raises IndexError
  | _ => Raises TypeError
  end.

Definition bins_of (a : args) (s : PyParamModel.pset) : ends BinningModel.py_binning :=
  match binning a with
  | Some b => Returns b
  | None => from_parameter_set s
  end.

(* ------------------------------------------------------------------ *)
(** * Box and mesh, twopt.py 463-491 *)

Definition unset (s : PyParamModel.pset) (k : string) : bool :=
  existsb PyParamModel.is_none (PyParamModel.values (PyParamModel.entries s) k).

(** 464-467: `catalogue.bounds[ax]` is a pair of numbers; times a float it
    raises, times an integer it is repeated and the comparison of the next
    line to use it (catalogue.py 755) raises. *)
Definition box_given (s : PyParamModel.pset) : ends unit :=
  if unset s "boxsize" then
    x <~ entry s "expand" ;;
    match x with
    | PyParamModel.VInt _ | PyParamModel.VBool _ => Raises ValueError
    | _ => Raises TypeError
    end
  else Returns tt.

(** `[paramset[k][ax] for ax in ['x', 'y', 'z']]`. *)
Definition axes {A} (conv : PyParamModel.pyval -> res A) (s : PyParamModel.pset) (k : string)
  (none : A) : ends (triple A) :=
  python (PyParamModel.r_triple conv (PyParamModel.entries s) k (T3 none none none)).

Definition box_of (s : PyParamModel.pset) : ends (triple R) :=
  axes PyParamModel.to_float s "boxsize" 0%R.
Definition grid_of (s : PyParamModel.pset) : ends (triple Z) :=
  axes PyParamModel.to_int s "ngrid" 0%Z.

Definition has_volume (q : ParamModel.params) : bool :=
  Rltb 0 (ParamModel.volume (ParamModel.smp q)) && (0 <? ParamModel.nmesh (ParamModel.smp q))%Z.

(** A set whose box has a volume fills in unset mesh numbers when it is made
    ([PyParamModel.m_cutoff]); one whose box has none is not followed. *)
Definition boxed (s : PyParamModel.pset) : ends (triple R * triple Z) :=
  _ <~ box_given s ;;
  if unset s "ngrid" then Unfollowed else
  l <~ box_of s ;;
  n <~ grid_of s ;;
  if has_volume (PyParamModel.cpp s) then Returns (l, n) else Unfollowed.

(** 493-512.  Without a padding factor `pad` only warns (catalogue.py
    600-605); with another scale the keyword arguments are unbound. *)
Definition pad_of (make : R -> pyalign) (v : PyParamModel.pyval) : ends pyalign :=
  match v with
  | PyParamModel.VNone => Returns PyNone
  | v => f <~ python (PyParamModel.to_float v) ;; Returns (make f)
  end.

Definition alignment_of (s : PyParamModel.pset) : ends pyalign :=
  al <~ entry s "alignment" ;;
  if is_text al "centre" then Returns PyCentre
  else if is_text al "pad" then
    ps <~ entry s "padscale" ;;
    if is_text ps "box" then v <~ entry s "padfactor" ;; pad_of PyPadBox v
    else if is_text ps "grid" then v <~ entry s "padfactor" ;; pad_of PyPadGrid v
    else Raises NameError
  else Returns PyNone.

(* ------------------------------------------------------------------ *)
(** * Catalogues handed to C++, catalogue.py 760-782 *)

Definition converted (c : pycat) : ends catalogue :=
  match load_particle_data 0 (col_x c) (col_y c) (col_z c) (col_nz c) (col_ws c) (col_wc c)
          (fun _ => catalogue_new) with
  | (s, Ok tt) => Returns (s 0%nat)
  | (_, Err x) => wrapped (Err x)
  end.

(** 518 ff.: 0 is the data catalogue, 1 the random one. *)
Definition both (d r : catalogue) : store :=
  fun a => match a with 0 => d | 1 => r | _ => catalogue_new end%nat.

(* ------------------------------------------------------------------ *)
(** * Normalisation, twopt.py 545-590, threept.py 625-668 *)

Record norms := { n_part : option R; n_mesh : option R; n_meshes : option R }.

Definition part_norm (three : bool) (c : catalogue) (alpha : R) : ends (option R) :=
  wrapped (double (if three then NormModel.bispec_norm_particles c alpha
                   else NormModel.powspec_norm_particles c alpha)).

Definition mesh_norm (three : bool) (q : ParamModel.params) (c : catalogue) (alpha : R)
  : ends (option R) :=
  let t := ParamModel.smp q in
  bare (double (NormModel.norm_from_mesh (if three then 3 else 2)%nat
                  (MainModel.assignment_of (ParamModel.assignment t)) (MainModel.mesh_of t) c alpha)).

(** _twopt.pyx 131-160 with padding 0.10, cell size 10 and "cic". *)
Definition mixed_norm (fuel : nat) (b : ParamModel.build) (q : ParamModel.params) (alpha : R)
  (s : store) : ends (store * option R) :=
  let '(n, side) := NormModel.norm_box (pos_span (s 0%nat)) (pos_span (s 1%nat))
                      (/ 10)%R 10%R in
  q <~ bare (ParamModel.norm_params fuel b side n "cic" q) ;;
  let t := ParamModel.smp q in
  match NormModel.mixed_norm 0 1 (MainModel.alignment_of t)
          (MainModel.assignment_of (ParamModel.assignment t)) (MainModel.mesh_of t)
          (ParamModel.padfactor t) alpha s with
  | (s, Ok x) => x <~ bare (double x) ;; Returns (s, x)
  | (_, Err x) => bare (Err x)
  end.

(** A variable that no branch has assigned raises NameError (an
    UnboundLocalError) where it is used; [mixed] tells whether the function
    has a branch for "mesh-mixed". *)
Definition factor_of (mixed : bool) (s : PyParamModel.pset) (n : norms) : ends (option R) :=
  c <~ entry s "norm_convention" ;;
  if is_text c "none" then Returns (Some 1%R)
  else if is_text c "particle" then Returns (n_part n)
  else if is_text c "mesh" then Returns (n_mesh n)
  else if mixed && is_text c "mesh-mixed" then Returns (n_meshes n)
  else Raises NameError.

(* ------------------------------------------------------------------ *)
(** * The call of the C++ function *)

Record call := {
  stat : MainModel.statistic;
  from_data : option (list pdatum * list (R * R * R));
  from_rand : option (list pdatum * list (R * R * R));
  in_box : bool;
  par : ParamModel.params;
  bin : BinningModel.cpp_binning;
  contrast : option R;
  factor : option R
}.

(** The lines of sight are copied into a buffer of their own length and read
    for every particle (_twopt.pyx 172-190). *)
Definition with_los (c : catalogue) (l : list (R * R * R))
  : ends (list pdatum * list (R * R * R)) :=
  let ps := MainModel.particles c in
  if (length l <? length ps)%nat then Undefined else Returns (ps, l).

Record done := { called : call; factors : norms; used : PyParamModel.pset; after : pystore }.

(** twopt.py 322-665 and threept.py 384-740; [d] and [r] are the catalogue
    objects. *)
Definition survey (fuel : nat) (e : PyParamModel.pyenv) (three : bool)
  (st : MainModel.statistic) (name : string) (a : args) (d r : nat) (s : pystore)
  : ends done :=
  p <~ prepared fuel e three "survey" name a ;;
  _ <~ checked_types "survey" (if three then ["bispec"; "3pcf"] else ["powspec"; "2pcf"]) p ;;
  b <~ bins_of a p ;;
  ln <~ boxed p ;;
  al <~ alignment_of p ;;
  x <~ python (survey_setup d r (los_data a) (los_rand a) al (fst ln) (snd ln) s) ;;
  let '(ld, lr, s') := x in
  cd <~ converted (s' d) ;;
  cr <~ converted (s' r) ;;
  if Reqb (py_wstotal (s' r)) 0 then Unfollowed else
  let alpha := (py_wstotal (s' d) / py_wstotal (s' r))%R in
  let q := PyParamModel.cpp p in
  part <~ part_norm three cr alpha ;;
  mesh <~ mesh_norm three q cr alpha ;;
  m <~ (if three then Returns (both cd cr, Some 0%R)
        else mixed_norm fuel (PyParamModel.lib e) q alpha (both cd cr)) ;;
  let n := {| n_part := part; n_mesh := mesh; n_meshes := snd m |} in
  f <~ factor_of true p n ;;
  pd <~ with_los (fst m 0%nat) ld ;;
  pr <~ with_los (fst m 1%nat) lr ;;
  Returns {| called := {| stat := st; from_data := Some pd; from_rand := Some pr;
                          in_box := false; par := q; bin := BinningModel.p_cpp b;
                          contrast := None; factor := f |};
             factors := n; used := p; after := s' |}.

(** twopt.py 883-1176 and threept.py 1312-1621.  `catalogue['nz'].any()`. *)
Definition any (l : list R) : bool := existsb (fun x => negb (Reqb x 0)) l.

Definition box (fuel : nat) (e : PyParamModel.pyenv) (three : bool)
  (st : MainModel.statistic) (name : string) (a : args) (d : nat) (s : pystore)
  : ends done :=
  p <~ prepared fuel e three "sim" name a ;;
  _ <~ checked_types "sim" (if three then ["bispec"; "3pcf"] else ["powspec"; "2pcf"]) p ;;
  b <~ bins_of a p ;;
  ln <~ boxed p ;;
  s <~ python (py_periodise d (fst ln) s) ;;
  s <~ (if any (col_nz (s d)) then Returns s
        else c <~ python (mean_density (s d) None (Some (fst ln))) ;; Returns (pyupd s d c)) ;;
  cd <~ converted (s d) ;;
  let q := PyParamModel.cpp p in
  part <~ part_norm three cd 1 ;;
  mesh <~ mesh_norm three q cd 1 ;;
  let n := {| n_part := part; n_mesh := mesh; n_meshes := Some 0%R |} in
  f <~ factor_of false p n ;;
  Returns {| called := {| stat := st; from_data := Some (MainModel.particles cd, []);
                          from_rand := None; in_box := true; par := q;
                          bin := BinningModel.p_cpp b; contrast := None; factor := f |};
             factors := n; used := p; after := s |}.

(** twopt.py 1348-1640 and threept.py 1832-2190: the box is not sized from the
    catalogue; without one `centre` raises (catalogue.py 755). *)
Definition window (fuel : nat) (e : PyParamModel.pyenv) (three : bool) (a : args) (r : nat)
  (s : pystore) : ends done :=
  let wa := match orders a with Some _ => true | None => false end in
  let st := if three then MainModel.ThreePcfWindow wa else MainModel.CorrfuncWindow in
  let name := if three then "3pcf-win" else "2pcf-win" in
  p <~ prepared fuel e three "random" name a ;;
  b <~ bins_of a p ;;
  let lr := match los_rand a with Some l => l | None => compute_los (s r) end in
  if unset p "boxsize" then Raises TypeError else
  l <~ box_of p ;;
  if negb (has_volume (PyParamModel.cpp p)) then Unfollowed else
  s <~ python (py_centre r l None s) ;;
  s <~ python (py_periodise r l s) ;;
  cr <~ converted (s r) ;;
  let q := PyParamModel.cpp p in
  part <~ part_norm three cr 1 ;;
  mesh <~ mesh_norm three q cr 1 ;;
  let n := {| n_part := part; n_mesh := mesh; n_meshes := Some 0%R |} in
  f <~ factor_of false p n ;;
  pr <~ with_los cr lr ;;
  Returns {| called := {| stat := st; from_data := None; from_rand := Some pr;
                          in_box := false; par := q; bin := BinningModel.p_cpp b;
                          contrast := Some 1%R; factor := f |};
             factors := n; used := p; after := s |}.

(** The public functions. *)
Definition compute_powspec fuel e := survey fuel e false MainModel.Powspec "powspec".
Definition compute_corrfunc fuel e := survey fuel e false MainModel.Corrfunc "2pcf".
Definition compute_bispec fuel e := survey fuel e true MainModel.Bispec "bispec".
Definition compute_3pcf fuel e := survey fuel e true MainModel.ThreePcf "3pcf".
Definition compute_powspec_in_gpp_box fuel e := box fuel e false MainModel.Powspec "powspec".
Definition compute_corrfunc_in_gpp_box fuel e := box fuel e false MainModel.Corrfunc "2pcf".
Definition compute_bispec_in_gpp_box fuel e := box fuel e true MainModel.Bispec "bispec".
Definition compute_3pcf_in_gpp_box fuel e := box fuel e true MainModel.ThreePcf "3pcf".
Definition compute_corrfunc_window fuel e := window fuel e false.
Definition compute_3pcf_window fuel e := window fuel e true.
