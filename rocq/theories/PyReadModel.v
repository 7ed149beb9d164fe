(* Model of `ParticleCatalogue.read_from_file`, /repo/src/triumvirate/catalogue.py
   150-392.  The third-party readers are arbitrary functions that give a table of
   named columns; what the code does with that table is modelled, with
   `astropy.table.Table.rename_column` and the item access of nbodykit catalogues
   as those libraries document them.  Logging is left out. *)
From Coq Require Import Reals ZArith String Ascii List Bool.
From Verif Require Import Base ArrayModel MeshModel CatModel PyCatModel.
Import ListNotations.
Local Open Scope R_scope.

Inductive fault : Type :=
| NoColumn (name : string)         (* astropy: KeyError; nbodykit: ValueError *)
| ColumnExists (name : string)     (* astropy: KeyError *)
| BadReader (name : string)        (* ValueError, 293-297 *)
| BadFormat (text : string)        (* ValueError, 318-321: the text shown *)
| BrokenFits                       (* ValueError, 308-311 *)
| MissingValue (axis : string)     (* MissingValueError, 354-358 *)
| Raise (e : exn).

Inductive outcome (A : Type) : Type := Done (a : A) | Failed (f : fault).
Arguments Done {A} _.
Arguments Failed {A} _.

Definition next {A B} (x : outcome A) (f : A -> outcome B) : outcome B :=
  match x with Done a => f a | Failed e => Failed e end.

Definition of_res {A} (x : res A) : outcome A := match x with Ok a => Done a | Err e => Failed (Raise e) end.

(** Named columns, in order. *)
Definition table : Type := list (string * list R).

Fixpoint look {A} (n : string) (t : list (string * A)) : option A :=
  match t with [] => None | (k, v) :: t => if String.eqb n k then Some v else look n t end.
Definition has {A} (n : string) (t : list (string * A)) : bool := match look n t with Some _ => true | None => false end.

(** `Table.rename_column(name, new_name)`. *)
Definition rename_column (t : table) (old new : string) : outcome table :=
  if negb (has old t) then Failed (NoColumn old)
  else if String.eqb old new then Done t
  else if has new t then Failed (ColumnExists new)
  else Done (map (fun kv => if String.eqb (fst kv) old then (new, snd kv) else kv) t).

(** 344-346, the mapping as its items. *)
Fixpoint rename_all (t : table) (mapping : list (string * string)) : outcome table :=
  match mapping with
  | [] => Done t
  | (name, alt) :: m => next (rename_column t alt name) (fun t => rename_all t m)
  end.

(** An nbodykit catalogue: the columns of the file and those set since. *)
Record nbk : Type := Nbk { hard : table; overrides : table }.
Definition nbk_get (c : nbk) (n : string) : outcome (list R) :=
  match look n (overrides c) with
  | Some v => Done v
  | None => match look n (hard c) with Some v => Done v | None => Failed (NoColumn n) end
  end.
Definition nbk_set (c : nbk) (n : string) (v : list R) : nbk := Nbk (hard c) ((n, v) :: overrides c).
(** `del`: columns of the file cannot be deleted (a ValueError, which 328-329
    drop). *)
Definition nbk_del (c : nbk) (n : string) : nbk :=
  if has n (hard c) then c else Nbk (hard c) (filter (fun kv => negb (String.eqb (fst kv) n)) (overrides c)).

(** 323-329. *)
Fixpoint nbk_map (c : nbk) (mapping : list (string * string)) : outcome nbk :=
  match mapping with
  | [] => Done c
  | (name, alt) :: m => next (nbk_get c alt) (fun v => nbk_map (nbk_del (nbk_set c name v) alt) m)
  end.

(** What a column name gives, if anything. *)
Definition columns : Type := string -> option (list R).
Definition of_table (t : table) : columns := fun n => look n t.
Definition of_nbk (c : nbk) : columns := fun n => match nbk_get c n with Done v => Some v | Failed _ => None end.

(** Warnings of default values: the column left out. *)
Definition unless {A} (o : option A) (w : string) : list string := match o with Some _ => [] | None => [w] end.

(** 348-383, [n] rows: mandatory columns, defaults, attributes; also the
    warnings. *)
Definition finish (n : nat) (c : columns) : outcome pycat * list string :=
  match c "x"%string, c "y"%string, c "z"%string with
  | None, _, _ => (Failed (MissingValue "x"), [])
  | _, None, _ => (Failed (MissingValue "y"), [])
  | _, _, None => (Failed (MissingValue "z"), [])
  | Some x, Some y, Some z =>
      let or_fill o v := match o with Some l => l | None => repeat v n end in
      let nz := or_fill (c "nz"%string) 0 in
      let ws := or_fill (c "ws"%string) 1 in
      let wc := or_fill (c "wc"%string) 1 in
      (next (of_res (calc_bounds (PyCat x y z nz ws wc (T3 (0, 0) (0, 0) (0, 0)) (T3 0 0 0) 0 0 0)))
         (fun c => Done (PyCat (col_x c) (col_y c) (col_z c) (col_nz c) (col_ws c) (col_wc c) (bounds c) (spans c)
                               n (rsum (mul_cols ws wc)) (rsum ws))),
       unless (c "nz"%string) "nz" ++ unless (c "ws"%string) "ws" ++ unless (c "wc"%string) "wc")
  end%list.

Definition rows (t : table) : nat := match t with [] => 0%nat | (_, l) :: _ => length l end.

Definition lower_char (a : ascii) : ascii :=
  let n := nat_of_ascii a in if (Nat.leb 65 n && Nat.leb n 90)%bool then ascii_of_nat (n + 32) else a.
Fixpoint lower (s : string) : string := match s with EmptyString => EmptyString | String a s => String (lower_char a) (lower s) end.

(** `dict.update` of one key. *)
Fixpoint update {A} (d : list (string * A)) (k : string) (v : A) : list (string * A) :=
  match d with [] => [(k, v)] | (k', v') :: d => if String.eqb k k' then (k, v) :: d else (k', v') :: update d k v end.

Section Read.
(** Values of keyword arguments. *)
Variable K : Type.
(** `Table.read(filepath, format=format, **table_kwargs)`. *)
Variable table_read : string -> string -> list (string * K) -> outcome table.
(** `CSVCatalog`, `BinaryCatalog` and `HDFCatalog`, by format. *)
Variable nbk_read : string -> string -> K -> outcome table.
(** Whether nbodykit was imported. *)
Variable nbkt_imported : bool.

(** What a call leaves: its result, its warnings and the dictionary the caller
    gave as [table_kwargs]. *)
Record report : Type := Report { result : outcome pycat; warned : list string; kwargs_after : option (list (string * K)) }.

Definition unavailable : string := "nbodykit".

(** 150-392.  No mapping is an empty one. *)
Definition read_from_file (filepath reader : string) (names : K) (format : string) (mapping : list (string * string))
    (table_kwargs : option (list (string * K))) : report :=
  let astropy warned :=
    let format := if String.eqb format "text" then "ascii"%string else format in
    let ascii := prefix "ascii" format in
    let given := match table_kwargs with Some d => d | None => [] end in
    let kwargs := if ascii then update given "names"%string names else given in
    let after := match table_kwargs with Some _ => Some kwargs | None => None end in
    match next (table_read filepath format kwargs) (fun t => next (rename_all t mapping) (fun t' => Done (rows t, t'))) with
    | Failed f => Report (Failed f) warned after
    | Done (n, t) => let '(r, w) := finish n (of_table t) in Report r (warned ++ w) after
    end in
  if String.eqb (lower reader) "nbodykit" then
    if nbkt_imported then
      if String.eqb format "fits" then Report (Failed BrokenFits) [] table_kwargs
      else if (String.eqb format "text" || String.eqb format "binary" || String.eqb format "hdf5")%bool then
        match next (nbk_read filepath format names) (fun t => next (nbk_map (Nbk t []) mapping) (fun c => Done (rows t, c))) with
        | Failed f => Report (Failed f) [] table_kwargs
        | Done (n, c) => let '(r, w) := finish n (of_nbk c) in Report r w table_kwargs
        end
      else Report (Failed (BadFormat filepath)) [] table_kwargs
    else astropy [unavailable]
  else if String.eqb (lower reader) "astropy" then astropy []
  else Report (Failed (BadReader reader)) [] table_kwargs.

End Read.
