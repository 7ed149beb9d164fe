(* Recording binned vectors from Python: src/triumvirate/fieldmesh.py
   record_binned_vectors 24-89 and src/triumvirate/_field.pyx
   _record_binned_vectors 21-74.

   Simplifications.  A binning argument is a Binning object (an object without
   bin limits is an AttributeError in the code).  `boxsize` and `ngrid` are
   values of PyParamModel, [None] standing for Python's None; `list()` of a
   dictionary gives its keys.  The structured array is the list of its
   records.  The FieldStats object made for the call (field.cpp 2076-2135
   without FFT plans) is the mesh of the parameter set. *)
From Coq Require Import String List ZArith Reals Bool.
From Verif Require Import Base BinningModel MeshModel BinVecModel ParamModel PyParamModel PyAmalgModel.
From Verif Require MainModel.
Import ListNotations.
Local Open Scope string_scope.

(** The `paramset` argument. *)
Inductive setarg :=
| NoSet
| DictArg (d : dict)
| SetArg (s : pset).

(** Attributes of a Binning that have not been set read as None. *)
Definition attr {A} (f : A -> pyval) (o : option A) : pyval :=
  match o with Some a => f a | None => VNone end.

(** 57-66: the template with the binning and null degrees filled in. *)
Definition filler (bn : py_binning) : dict :=
  dset "degrees" (VDict [("ell1", VInt 0); ("ell2", VInt 0); ("ELL", VInt 0)])
    (dset "num_bins" (attr VInt (p_num bn))
      (dset "range" (VList [attr VNum (p_min bn); attr VNum (p_max bn)]) template)).

(** 76, 79: `[v] * 3 if np.isscalar(v) else list(v)`. *)
Definition three (v : pyval) : pyval :=
  match v with
  | VList l => VList l
  | VDict f => VList (map (fun kv => VStr (fst kv)) f)
  | v => VList [v; v; v]
  end.

(** 74-80. *)
Definition sampling_args (box grid : option pyval) : dict :=
  match box with Some v => [("boxsize", three v)] | None => [] end
  ++ match grid with Some v => [("ngrid", three v)] | None => [] end.

(** 82-83. *)
Definition given {S} (L : dictlike S) (u : dict) (s : S) : run S :=
  match u with
  | [] => (s, None, Ok tt)
  | _ => modify_sampling L (Some u) s None
  end.

Definition cpp_of (o : outcome) : res params := r <- snd o ;; Ok (fst r).

(** 57-86: what is left in the caller's dictionary or in the entries of the
    caller's set, and the parameters the vectors are recorded with. *)
Definition set_for (fuel : nat) (e : pyenv) (bn : py_binning) (ps : setarg)
  (box grid : option pyval) : option dict * res params :=
  let u := sampling_args box grid in
  match ps with
  | NoSet =>
      match box, grid with
      | Some _, Some _ =>
          match given plain u (filler bn) with
          | (d, _, Ok tt) => (None, cpp_of (construct fuel e d))
          | (_, _, Err x) => (None, Err x)
          end
      | _, _ => (None, Err ValueError)
      end
  | DictArg d =>
      match given plain u d with
      | (d, _, Ok tt) => (Some (fst (construct fuel e d)), cpp_of (construct fuel e d))
      | (d, _, Err x) => (Some d, Err x)
      end
  | SetArg s =>
      match given (pset_like fuel e) u (entries s, Ok (cpp s, bar s)) with
      | (o, _, Ok tt) => (Some (fst o), cpp_of o)
      | (o, _, Err x) => (Some (fst o), Err x)
      end
  end.

(** The whole call: [left] is the caller's dictionary afterwards and [out] a
    possible result of the (parallel) run. *)
Definition record_vectors (fuel : nat) (e : pyenv) (bn : py_binning) (ps : setarg)
  (box grid : option pyval) (left : option dict) (out : res (list bvec)) : Prop :=
  exists r, set_for fuel e bn ps box grid = (left, r) /\
  match r with
  | Err x => out = Err x
  | Ok q => record_binned_vectors (MainModel.mesh_of (smp q)) (p_cpp bn) out
  end.
