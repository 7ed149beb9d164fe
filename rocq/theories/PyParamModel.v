(* Parameter sets of the Python layer: src/triumvirate/parameters.pyx
   (ParameterSet.__cinit__ 114-138, __getitem__ 150-167, __setitem__ 169-182,
   update 263-269, _parse_params 298-547, _validate 549-609,
   _modify_sampling_parameters 669-779, _modify_measurement_parameters
   782-863, _set_ngrid_from_cutoff 866-896).

   Simplifications.  Python ints and C ints are Z, floats are R.  `float()`
   and C conversions refuse every string (Python's float() would read "1.5")
   and a float is never converted to a C int.  numpy sequences inside entries
   are not represented.  What a C++ set looks like after a failed operation
   is not represented: a failing operation returns only the dictionary.
   Warnings, the logger and the flags `_original` and `_validity` are left
   out, and so are the C++ fields ParamModel.v leaves out. *)
From Coq Require Import String Ascii List ZArith Reals Bool.
From Flocq Require Import Core.
From Verif Require Import Base StrModel Dec ArrayModel MeshModel ParamModel.
Import ListNotations.
Local Open Scope string_scope.

(* ------------------------------------------------------------------ *)
(** * Python values and dictionaries *)

Inductive pyval :=
| VNone
| VBool (b : bool)
| VInt (z : Z)
| VNum (x : R)
| VStr (s : string)
| VList (l : list pyval)
| VDict (d : list (string * pyval)).

Notation dict := (list (string * pyval)).

(** `d[k]` / `d.get(k)`. *)
Fixpoint dget {A} (k : string) (d : list (string * A)) : option A :=
  match d with
  | [] => None
  | (j, v) :: d => if j =? k then Some v else dget k d
  end.

(** `d[k] = v`: an existing key keeps its place. *)
Fixpoint dset {A} (k : string) (v : A) (d : list (string * A))
  : list (string * A) :=
  match d with
  | [] => [(k, v)]
  | (j, w) :: d => if j =? k then (j, v) :: d else (j, w) :: dset k v d
  end.

(** `d.update(e)`. *)
Fixpoint dupdate {A} (e d : list (string * A)) : list (string * A) :=
  match e with
  | [] => d
  | (k, v) :: e => dupdate e (dset k v d)
  end.

(** `d.pop(k, None)`. *)
Fixpoint dpop {A} (k : string) (d : list (string * A)) : list (string * A) :=
  match d with
  | [] => []
  | (j, v) :: d => if j =? k then d else (j, v) :: dpop k d
  end.

Definition has {A} (k : string) (d : list (string * A)) : bool :=
  match dget k d with Some _ => true | None => false end.

(** `str.lower` on ASCII. *)
Definition lower_char (c : ascii) : ascii :=
  let n := nat_of_ascii c in
  if (65 <=? n)%nat && (n <=? 90)%nat then ascii_of_nat (n + 32) else c.

Fixpoint lower (s : string) : string :=
  match s with
  | "" => ""
  | String c s => String (lower_char c) (lower s)
  end.

(** The build of the extension and `str()` of floats and containers, which
    is not spelt out. *)
Record pyenv := {
  lib : build;
  str_other : pyval -> string
}.

Definition py_str (e : pyenv) (v : pyval) : string :=
  match v with
  | VNone => "None"
  | VBool true => "True"
  | VBool false => "False"
  | VInt z => to_string z
  | VStr s => s
  | _ => str_other e v
  end.

(** `float(v)` and conversion to a C double. *)
Definition to_float (v : pyval) : res R :=
  match v with
  | VBool b => Ok (if b then 1 else 0)%R
  | VInt z => Ok (IZR z)
  | VNum x => Ok x
  | _ => Err TypeError
  end.

(** Conversion to a C int. *)
Definition to_int (v : pyval) : res Z :=
  match v with
  | VBool b => Ok (if b then 1 else 0)%Z
  | VInt z => Ok z
  | _ => Err TypeError
  end.

(** `int(s)` of a decimal string (surrounding blanks and underscores, which
    Python would take, are not). *)
Definition int_of_str (s : string) : option Z :=
  match s with
  | "" => None
  | String c r =>
      if Ascii.eqb c "-"
      then match digits_value r with Some z => Some (- z)%Z | None => None end
      else if Ascii.eqb c "+" then digits_value r
      else digits_value s
  end.

Definition is_none (v : pyval) : bool :=
  match v with VNone => true | _ => false end.

(** `np.prod` of a list: a float if any entry is one or there are none, an
    integer otherwise; [None] is the TypeError. *)
Fixpoint all_ints (l : list pyval) : option Z :=
  match l with
  | [] => Some 1%Z
  | v :: l => match to_int v, all_ints l with
              | Ok z, Some p => Some (z * p)%Z
              | _, _ => None
              end
  end.

Fixpoint all_floats (l : list pyval) : option R :=
  match l with
  | [] => Some 1%R
  | v :: l => match to_float v, all_floats l with
              | Ok x, Some p => Some (x * p)%R
              | _, _ => None
              end
  end.

Definition np_prod (l : list pyval) : option pyval :=
  match l with
  | [] => Some (VNum 1)
  | _ => match all_ints l with
         | Some z => Some (VInt z)
         | None => match all_floats l with
                   | Some x => Some (VNum x)
                   | None => None
                   end
         end
  end.

(* ------------------------------------------------------------------ *)
(** * Reading entries *)

(** `(v := d.get(k)) is not None` then `field = v.lower()`; otherwise the
    field keeps its value [old]. *)
Definition r_lower (d : dict) (k old : string) : res string :=
  match dget k d with
  | None | Some VNone => Ok old
  | Some (VStr s) => Ok (lower s)
  | Some _ => Err AttributeError
  end.

Definition r_str (e : pyenv) (d : dict) (k old : string) : res string :=
  match dget k d with
  | None | Some VNone => Ok old
  | Some v => Ok (lower (py_str e v))
  end.

Definition r_float (d : dict) (k : string) (old : R) : res R :=
  match dget k d with
  | None | Some VNone => Ok old
  | Some v => to_float v
  end.

Definition r_int (d : dict) (k : string) (old : Z) : res Z :=
  match dget k d with
  | None | Some VNone => Ok old
  | Some v => to_int v
  end.

(** An entry of a nested dictionary that must be present but may be None
    (414-438). *)
Definition r_nested (d : dict) (outer inner : string) (old : Z) : res Z :=
  match dget outer d with
  | None => Err InvalidParameter
  | Some (VDict f) =>
      match dget inner f with
      | None => Err InvalidParameter
      | Some VNone => Ok old
      | Some v => to_int v
      end
  | Some _ => Err TypeError
  end.

(** 373-399: box size and grid number. *)
Definition r_triple {A} (conv : pyval -> res A) (d : dict) (k : string)
  (old : triple A) : res (triple A) :=
  match dget k d with
  | None => Err KeyError
  | Some (VDict f) =>
      if existsb is_none (map snd f) then Ok old
      else
        let axis a := match dget a f with
                      | Some v => conv v
                      | None => Err KeyError
                      end in
        x <- axis "x" ;; y <- axis "y" ;; z <- axis "z" ;; Ok (T3 x y z)
  | Some _ => Err AttributeError
  end.

(** 440-446. *)
Definition r_range (d : dict) : res (R * R) :=
  match dget "range" d with
  | None | Some VNone => Err InvalidParameter
  | Some (VList l) =>
      if existsb is_none l then Err InvalidParameter
      else match l with
           | a :: b :: _ => x <- to_float a ;; y <- to_float b ;; Ok (x, y)
           | _ => Err IndexError
           end
  | Some _ => Err TypeError
  end.

(** 448-451. *)
Definition r_num_bins (d : dict) : res Z :=
  match dget "num_bins" d with
  | None | Some VNone => Err InvalidParameter
  | Some v => to_int v
  end.

(** 474-482. *)
Definition r_form (d : dict) (old : string) : res string :=
  s <- r_lower d "form" old ;;
  match dget "form" d with
  | Some (VStr f) =>
      if (f =? "off-diag") || (f =? "row")
      then match dget "idx_bin" d with
           | None | Some VNone => Err InvalidParameter
           | Some _ => Ok s
           end
      else Ok s
  | _ => Ok s
  end.

(** 494-502: a derived entry is passed on if it is one of [allowed]. *)
Definition r_derived (d : dict) (k : string) (allowed : list string)
  (old : string) : res string :=
  match dget k d with
  | None => Ok old
  | Some (VStr s) =>
      if existsb (String.eqb (lower s)) allowed then Ok (lower s) else Ok old
  | Some _ => Err AttributeError
  end.

Definition r_order (d : dict) (old : Z) : res Z :=
  match dget "assignment_order" d with
  | Some (VInt z) => if (1 <=? z)%Z && (z <=? 4)%Z then Ok z else Ok old
  | Some (VBool b) => if b then Ok 1%Z else Ok old
  | Some (VList _) | Some (VDict _) => Err TypeError
  | _ => Ok old
  end.

(** 506-507: the scheme is not lower-cased. *)
Definition r_scheme (d : dict) (old : string) : res string :=
  match dget "fftw_scheme" d with
  | None | Some VNone => Ok old
  | Some (VStr s) => Ok s
  | Some _ => Err AttributeError
  end.

(* ------------------------------------------------------------------ *)
(** * Operations that write to the dictionary while they run *)

Definition M (A : Type) := dict -> dict * res A.

Definition retM {A} (a : A) : M A := fun d => (d, Ok a).
Definition readM {A} (f : dict -> res A) : M A := fun d => (d, f d).
Definition writeM (f : dict -> dict) : M unit := fun d => (f d, Ok tt).
Definition bindM {A B} (m : M A) (f : A -> M B) : M B :=
  fun d => match m d with
           | (d, Ok a) => f a d
           | (d, Err e) => (d, Err e)
           end.
Notation "x <~ m ;; n" := (bindM m (fun x => n))
  (at level 61, m at next level, right associativity).

(** 313-369: a path or tag: None is replaced by "" in the dictionary, a
    missing key reads as "". *)
Definition m_path (outer inner : string) : M string :=
  fun d =>
    match dget outer d with
    | None => (d, Ok "")
    | Some (VDict f) =>
        match dget inner f with
        | None => (d, Ok "")
        | Some VNone => (dset outer (VDict (dset inner (VStr "") f)) d, Ok "")
        | Some (VStr s) => (d, Ok s)
        | Some _ => (d, Err AttributeError)
        end
    | Some _ => (d, Err TypeError)
    end.

(** 397-412: the derived products. *)
Definition values (d : dict) (k : string) : list pyval :=
  match dget k d with Some (VDict f) => map snd f | _ => [] end.

Definition m_volume : M R :=
  _ <~ writeM (fun d => dset "volume"
         match np_prod (values d "boxsize") with
         | Some v => v | None => VNum 0 end d) ;;
  readM (fun d => match dget "volume" d with
                  | Some v => to_float v | None => Err KeyError end).

Definition m_nmesh : M Z :=
  _ <~ writeM (fun d => dset "nmesh"
         match np_prod (values d "ngrid") with
         | Some v => v | None => VInt 0 end d) ;;
  readM (fun d => match dget "nmesh" d with
                  | Some v => to_int v | None => Err KeyError end).

(** 866-896 for one axis. *)
Definition axis_cutoff (a : string) (d : dict) : res Z :=
  match dget "space" d with
  | None => Err KeyError
  | Some sp =>
      match dget "boxsize" d, dget "cutoff_nyq" d with
      | Some (VDict f), Some c =>
          match dget a f with
          | Some len =>
              x <- to_float len ;; y <- to_float c ;;
              py_cutoff_axis (match sp with VStr s => s | _ => "" end) x y
          | None => Err KeyError
          end
      | _, _ => Err KeyError
      end
  end.

Definition m_axis (a : string) : M unit :=
  n <~ readM (axis_cutoff a) ;;
  writeM (fun d => match dget "ngrid" d with
                   | Some (VDict g) =>
                       dset "ngrid" (VDict (dset a (VInt n) g)) d
                   | _ => d
                   end).

Definition m_set_ngrid : M unit :=
  _ <~ m_axis "x" ;; _ <~ m_axis "y" ;; m_axis "z".

(** 455-466: the cutoff, used when the mesh number is zero; [vol] is the
    volume entry. *)
Definition m_cutoff (vol : R) (mesh : Z) (old : R) : M R :=
  if (mesh =? 0)%Z then
    fun d =>
      match dget "cutoff_nyq" d with
      | None | Some VNone => (d, Err InvalidParameter)
      | Some v =>
          match to_float v with
          | Err e => (d, Err e)
          | Ok c =>
              if Rltb 0 vol
              then bindM m_set_ngrid (fun _ => retM c) d
              else (d, Ok c)
          end
      end
  else retM old.

(** 298-541: the C++ set before validation; [c] is the C++ set so far and
    [bar] its progress-bar string. *)
Definition parse_pre (e : pyenv) (c : params) (bar : string)
  : M (params * string) :=
  cdir <~ m_path "directories" "catalogues" ;;
  mdir <~ m_path "directories" "measurements" ;;
  dfile <~ m_path "files" "data_catalogue" ;;
  rfile <~ m_path "files" "rand_catalogue" ;;
  tag <~ m_path "tags" "output" ;;
  let s := smp c in let m := msr c in let k := msc c in
  box <~ readM (fun d => r_triple to_float d "boxsize" (boxsize s)) ;;
  grid <~ readM (fun d => r_triple to_int d "ngrid" (ngrid s)) ;;
  ex <~ readM (fun d => r_float d "expand" (expand s)) ;;
  pf <~ readM (fun d => r_float d "padfactor" (padfactor s)) ;;
  al <~ readM (fun d => r_lower d "alignment" (alignment s)) ;;
  ps <~ readM (fun d => r_lower d "padscale" (padscale s)) ;;
  asg <~ readM (fun d => r_lower d "assignment" (assignment s)) ;;
  il <~ readM (fun d => r_str e d "interlace" (interlace s)) ;;
  vl <~ m_volume ;;
  nm <~ m_nmesh ;;
  l1 <~ readM (fun d => r_nested d "degrees" "ell1" (ell1 m)) ;;
  l2 <~ readM (fun d => r_nested d "degrees" "ell2" (ell2 m)) ;;
  l3 <~ readM (fun d => r_nested d "degrees" "ELL" (ELL m)) ;;
  _ <~ readM (fun d => r_nested d "wa_orders" "i" 0%Z) ;;
  _ <~ readM (fun d => r_nested d "wa_orders" "j" 0%Z) ;;
  rg <~ readM r_range ;;
  nb <~ readM r_num_bins ;;
  ib <~ readM (fun d => r_int d "idx_bin" (idx_bin m)) ;;
  cut <~ m_cutoff vl nm (cutoff_nyq s) ;;
  ct <~ readM (fun d => r_lower d "catalogue_type" (catalogue_type m)) ;;
  st <~ readM (fun d => r_lower d "statistic_type" (statistic_type m)) ;;
  fm <~ readM (fun d => r_form d (form m)) ;;
  nc <~ readM (fun d => r_lower d "norm_convention" (norm_convention m)) ;;
  bn <~ readM (fun d => r_lower d "binning" (binning m)) ;;
  sp <~ readM (fun d => r_derived d "space" ["fourier"; "config"] (space m)) ;;
  np <~ readM (fun d => r_derived d "npoint" ["2pt"; "3pt"] (npoint m)) ;;
  ao <~ readM (fun d => r_order d (assignment_order s)) ;;
  fs <~ readM (fun d => r_scheme d (fftw_scheme k)) ;;
  uw <~ readM (fun d => r_str e d "use_fftw_wisdom" (use_fftw_wisdom k)) ;;
  _ <~ readM (fun d => r_int d "verbose" 0%Z) ;;
  pb <~ readM (fun d => r_str e d "progbar" bar) ;;
  retM ({| pths := {| catalogue_dir := cdir; measurement_dir := mdir;
                      data_file := dfile; rand_file := rfile;
                      data_files := data_files (pths c);
                      rand_files := rand_files (pths c); output_tag := tag |};
           smp := {| boxsize := box; ngrid := grid; expand := ex;
                     cutoff_nyq := cut; alignment := al; padscale := ps;
                     padfactor := pf; assignment := asg; interlace := il;
                     volume := vl; nmesh := nm; assignment_order := ao |};
           msr := {| catalogue_type := ct; statistic_type := st; npoint := np;
                     space := sp; ell1 := l1; ell2 := l2; ELL := l3;
                     form := fm; norm_convention := nc; shape := shape m;
                     binning := bn; bin_min := fst rg; bin_max := snd rg;
                     num_bins := nb; idx_bin := ib |};
           msc := {| fftw_scheme := fs; planner_flag := planner_flag k;
                     use_fftw_wisdom := uw; wisdom_file_f := wisdom_file_f k;
                     wisdom_file_b := wisdom_file_b k;
                     save_binned_vectors := save_binned_vectors k |} |}, pb).

Definition put (k : string) (v : pyval) : M unit := writeM (dset k v).

(** FFTW's planner flag is an unsigned integer. *)
Definition planner_int (f : planner) : Z :=
  match f with PlanMeasure => 0 | PlanEstimate => 64 | PlanPatient => 32 end.

(** 562-603: fetching the validated values. *)
Definition m_fetch (q : params) (pb : string) : M unit :=
  _ <~ put "assignment_order" (VInt (assignment_order (smp q))) ;;
  _ <~ put "npoint" (VStr (npoint (msr q))) ;;
  _ <~ put "space" (VStr (space (msr q))) ;;
  _ <~ put "fftw_planner_flag" (VInt (planner_int (planner_flag (msc q)))) ;;
  _ <~ put "fftw_wisdom_file_f" (VStr (wisdom_file_f (msc q))) ;;
  _ <~ put "fftw_wisdom_file_b" (VStr (wisdom_file_b (msc q))) ;;
  let w := use_fftw_wisdom (msc q) in
  _ <~ put "use_fftw_wisdom"
         (if (lower w =? "false") || (lower w =? "") then VBool false
          else VStr w) ;;
  let il := lower (interlace (smp q)) in
  _ <~ (if il =? "true" then put "interlace" (VBool true)
        else if il =? "false" then put "interlace" (VBool false)
        else readM (fun _ => Err RuntimeError)) ;;
  match int_of_str pb with
  | Some z => put "progbar" (VInt z)
  | None => if pb =? "true" then put "progbar" (VBool true)
            else if pb =? "false" then put "progbar" (VBool false)
            else readM (fun _ => Err RuntimeError)
  end.

(** `thisptr.validate(True)`, 558: declared `except +`, so that a C++
    InvalidParameterError, a std::invalid_argument, becomes ValueError. *)
Definition cpp_validate (fuel : nat) (b : build) (p : params) : res params :=
  match validate fuel b true p with
  | Err InvalidParameter => Err ValueError
  | r => r
  end.

Definition parse (fuel : nat) (e : pyenv) (c : params) (bar : string)
  : M (params * string) :=
  x <~ parse_pre e c bar ;;
  q <~ readM (fun _ => cpp_validate fuel (lib e) (fst x)) ;;
  _ <~ m_fetch q (snd x) ;;
  retM (q, snd x).

(* ------------------------------------------------------------------ *)
(** * The class *)

(** `_params` and `thisptr`. *)
Record pset := {
  entries : dict;
  cpp : params;
  bar : string
}.

(** Field defaults of include/parameters.hpp 54-205. *)
Definition cpp_default : params :=
  {| pths := {| catalogue_dir := ""; measurement_dir := ""; data_file := "";
                rand_file := ""; data_files := []; rand_files := [];
                output_tag := "" |};
     smp := {| boxsize := T3 0%R 0%R 0%R; ngrid := T3 0%Z 0%Z 0%Z;
               expand := 1%R; cutoff_nyq := 0%R; alignment := "centre"; padscale := "box";
               padfactor := 0%R; assignment := "tsc"; interlace := "false";
               volume := 0%R; nmesh := 0%Z; assignment_order := 0%Z |};
     msr := {| catalogue_type := ""; statistic_type := ""; npoint := "";
               space := ""; ell1 := 0%Z; ell2 := 0%Z; ELL := 0%Z; form := "diag";
               norm_convention := "particle"; shape := "diag";
               binning := "lin"; bin_min := 0%R; bin_max := 0%R;
               num_bins := 0%Z; idx_bin := 0%Z |};
     msc := {| fftw_scheme := "measure"; planner_flag := PlanMeasure;
               use_fftw_wisdom := "false"; wisdom_file_f := "";
               wisdom_file_b := ""; save_binned_vectors := "false" |} |}.

(** What an operation leaves: the dictionary, and the C++ set if it did not
    raise. *)
Definition outcome := (dict * res (params * string))%type.

Definition as_pset (o : outcome) : res pset :=
  match o with
  | (d, Ok (q, pb)) => Ok {| entries := d; cpp := q; bar := pb |}
  | (_, Err x) => Err x
  end.

(** 114-138 with `param_dict`: the caller's dictionary itself is kept. *)
Definition construct (fuel : nat) (e : pyenv) (d : dict) : outcome :=
  parse fuel e cpp_default "false" d.

(** 150-167. *)
Definition getitem (d : dict) (k : string) : res pyval :=
  match dget k d with Some v => Ok v | None => Err NonParameterError end.

(** 169-182 and 263-269. *)
Definition update (fuel : nat) (e : pyenv) (u : dict) (s : pset) : outcome :=
  parse fuel e (cpp s) (bar s) (dupdate u (entries s)).

Definition setitem (fuel : nat) (e : pyenv) (k : string) (v : pyval) (s : pset)
  : outcome :=
  update fuel e [(k, v)] s.

(* ------------------------------------------------------------------ *)
(** * Overrides, parameters.pyx 669-863 *)

(** Python equality of values; numbers compare across types. *)
Fixpoint val_eqb (u v : pyval) {struct u} : bool :=
  match u, v with
  | VNone, VNone => true
  | VStr a, VStr b => a =? b
  | VList a, VList b =>
      (fix go a b := match a, b with
                     | [], [] => true
                     | x :: a, y :: b => val_eqb x y && go a b
                     | _, _ => false
                     end) a b
  | VDict a, VDict b =>
      (length a =? length b)%nat &&
      (fix go a := match a with
                   | [] => true
                   | (k, x) :: a => match dget k b with
                                    | Some y => val_eqb x y && go a
                                    | None => false
                                    end
                   end) a
  | _, _ => match to_float u, to_float v with
            | Ok x, Ok y => Reqb x y
            | _, _ => false
            end
  end.

(** `params_default.items() <= paramset.items()` for distinct keys. *)
Definition subdict (a b : dict) : bool :=
  forallb (fun kv => match dget (fst kv) b with
                     | Some w => val_eqb (snd kv) w
                     | None => false
                     end) a.

(** A dict-like object: a plain dictionary or a ParameterSet. *)
Record dictlike (S : Type) := {
  read : S -> dict;
  assign : string -> pyval -> S -> S * res unit;   (* p[k] = v *)
  poke : (dict -> dict) -> S -> S;    (* writing inside an entry *)
  missing : exn                       (* p[k] for an absent k *)
}.
Arguments read {S}. Arguments assign {S}. Arguments poke {S}.
Arguments missing {S}.

Definition plain : dictlike dict :=
  {| read := fun d => d;
     assign := fun k v d => (dset k v d, Ok tt);
     poke := fun f d => f d;
     missing := KeyError |}.

(** A ParameterSet validates at every assignment; writing inside a nested
    entry goes straight to the dictionary. *)
Definition pset_like (fuel : nat) (e : pyenv) : dictlike outcome :=
  {| read := fst;
     assign := fun k v o =>
       match o with
       | (d, Ok (q, pb)) =>
           let o' := setitem fuel e k v {| entries := d; cpp := q; bar := pb |} in
           (o', match snd o' with Ok _ => Ok tt | Err x => Err x end)
       | (d, Err x) => (o, Err x)
       end;
     poke := fun f o => (f (fst o), snd o);
     missing := NonParameterError |}.

(** The paramset and the defaults, as long as nothing has been raised. *)
Definition run (S : Type) := (S * option dict * res unit)%type.

(** One step of an override function. *)
Definition andthen {S} (r : run S) (f : S -> option dict -> run S) : run S :=
  match r with
  | (s, df, Ok tt) => f s df
  | _ => r
  end.

(** `params_default.pop(k, None)` when there are defaults. *)
Definition pops (ks : list string) (df : option dict) : option dict :=
  match df with
  | None => None
  | Some d => Some (fold_left (fun d k => dpop k d) ks d)
  end.

(** `paramset[k] = v` for each pair, then the pops. *)
Fixpoint assigns {S} (L : dictlike S) (kvs : list (string * pyval)) (s : S)
  : S * res unit :=
  match kvs with
  | [] => (s, Ok tt)
  | (k, v) :: r => match assign L k v s with
                   | (s, Ok tt) => assigns L r s
                   | (s, Err x) => (s, Err x)
                   end
  end.

Definition override {S} (L : dictlike S) (u : dict) (label : string)
  (make : pyval -> res (list (string * pyval))) (popped : list string)
  (s : S) (df : option dict) : run S :=
  match dget label u with
  | None => (s, df, Ok tt)
  | Some v =>
      match make v with
      | Err x => (s, df, Err x)
      | Ok kvs =>
          match assigns L kvs s with
          | (s, Ok tt) => (s, pops popped df, Ok tt)
          | (s, Err x) => (s, df, Err x)
          end
      end
  end.

Definition same (k : string) (v : pyval) : res (list (string * pyval)) :=
  Ok [(k, v)].

(** `dict(zip(['x', 'y', 'z'], v))`; strings, which would also be iterated,
    are refused. *)
Definition zip_axes (k : string) (v : pyval) : res (list (string * pyval)) :=
  match v with
  | VList l => Ok [(k, VDict (combine ["x"; "y"; "z"] l))]
  | _ => Err TypeError
  end.

Definition check_defaults {S} (L : dictlike S) (s : S) (df : option dict)
  : run S :=
  match df with
  | Some d => if subdict d (read L s) then (s, df, Ok tt)
              else (s, df, Err ValueError)
  | None => (s, df, Ok tt)
  end.

(** 669-779.  Without overrides nothing happens (and the defaults are not
    returned). *)
Definition modify_sampling {S} (L : dictlike S) (u : option dict)
  (s : S) (df : option dict) : run S :=
  match u with
  | None => (s, df, Ok tt)
  | Some u =>
      andthen (check_defaults L s df) (fun s df =>
      andthen (override L u "expand" (same "expand") ["expand"] s df)
        (fun s df =>
      andthen (override L u "alignment" (same "alignment") ["alignment"] s df)
        (fun s df =>
      andthen
        (if match dget "alignment" (read L s) with
            | Some (VStr a) => a =? "pad" | _ => false end
            && has "boxpad" u && has "gridpad" u
         then (s, df, Err ValueError) else (s, df, Ok tt)) (fun s df =>
      andthen
        (override L u "boxpad"
           (fun v => Ok [("padscale", VStr "box"); ("padfactor", v)])
           ["padscale"; "padfactor"] s df) (fun s df =>
      andthen
        (override L u "gridpad"
           (fun v => Ok [("padscale", VStr "grid"); ("padfactor", v)])
           ["padscale"; "padfactor"] s df) (fun s df =>
      andthen (override L u "boxsize" (zip_axes "boxsize") ["boxsize"] s df)
        (fun s df =>
      andthen (override L u "ngrid" (zip_axes "ngrid") ["ngrid"] s df)
        (fun s df =>
      andthen
        (override L u "assignment" (same "assignment") ["assignment"] s df)
        (fun s df =>
      andthen (override L u "interlace" (same "interlace") ["interlace"] s df)
        (fun s df =>
      override L u "cutoff_nyq" (same "cutoff_nyq") ["cutoff_nyq"] s df
      ))))))))))
  end.

(** `paramset[outer][inner] = v`. *)
Definition poke_dict {S} (L : dictlike S) (u : dict)
  (label outer inner : string) (s : S) (df : option dict) : run S :=
  match dget label u with
  | None => (s, df, Ok tt)
  | Some v =>
      match dget outer (read L s) with
      | None => (s, df, Err (missing L))
      | Some (VDict f) =>
          (poke L (dset outer (VDict (dset inner v f))) s, df, Ok tt)
      | Some _ => (s, df, Err TypeError)
      end
  end.

Fixpoint list_set {A} (i : nat) (v : A) (l : list A) : option (list A) :=
  match i, l with
  | _, [] => None
  | O, _ :: l => Some (v :: l)
  | S i, x :: l => match list_set i v l with
                   | Some l => Some (x :: l)
                   | None => None
                   end
  end.

(** `paramset[outer][i] = v`. *)
Definition poke_list {S} (L : dictlike S) (u : dict)
  (label outer : string) (i : nat) (s : S) (df : option dict) : run S :=
  match dget label u with
  | None => (s, df, Ok tt)
  | Some v =>
      match dget outer (read L s) with
      | None => (s, df, Err (missing L))
      | Some (VList l) =>
          match list_set i v l with
          | Some l => (poke L (dset outer (VList l)) s, df, Ok tt)
          | None => (s, df, Err IndexError)
          end
      | Some _ => (s, df, Err TypeError)
      end
  end.

(** 782-863. *)
Definition modify_measurement {S} (L : dictlike S) (u : option dict)
  (s : S) (df : option dict) : run S :=
  match u with
  | None => (s, df, Ok tt)
  | Some u =>
      andthen (check_defaults L s df) (fun s df =>
      andthen (poke_dict L u "ell1" "degrees" "ell1" s df) (fun s df =>
      andthen (poke_dict L u "ell2" "degrees" "ell2" s df) (fun s df =>
      andthen (poke_dict L u "ELL" "degrees" "ELL" s df) (fun s df =>
      andthen (poke_dict L u "i_wa" "wa_orders" "i" s df) (fun s df =>
      andthen (poke_dict L u "j_wa" "wa_orders" "j" s df) (fun s df =>
      andthen (override L u "idx_bin" (same "idx_bin") ["idx_bin"] s df)
        (fun s df =>
      andthen (override L u "form" (same "form") ["form"] s df) (fun s df =>
      andthen (poke_list L u "bin_min" "range" 0 s df) (fun s df =>
      andthen (poke_list L u "bin_max" "range" 1 s df) (fun s df =>
      override L u "num_bins" (same "num_bins") ["num_bins"] s df
      ))))))))))
  end.
