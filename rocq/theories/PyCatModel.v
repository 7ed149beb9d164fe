(* Model of the Python particle catalogue of /repo/src/triumvirate/catalogue.py
   (ParticleCatalogue, astropy backend) and of the catalogue set-up in
   /repo/src/triumvirate/twopt.py 447-506.
   Columns are lists of reals (rounding and integer columns not modelled, except in
   the binary64 wrapping at the end).  Objects live in a store so that two
   references to one object can be represented.  Warnings and logging are left out. *)
From Coq Require Import Reals ZArith List Lia Lra Bool.
From Flocq Require Import Core.
From Verif Require Import Base ArrayModel MeshModel CatModel.
Import ListNotations.
Open Scope R_scope.

(** The table columns and the attributes computed from them. *)
Record pycat : Type := PyCat {
  col_x : list R; col_y : list R; col_z : list R;
  col_nz : list R; col_ws : list R; col_wc : list R;
  bounds : triple (R * R); spans : triple R;
  ntotal : nat; py_wtotal : R; py_wstotal : R }.

(** [min()] and [max()] of a column; an empty column raises. *)
Definition col_min (l : list R) : res R :=
  match l with [] => Err ValueError | x :: l' => Ok (fold_left Rmin l' x) end.
Definition col_max (l : list R) : res R :=
  match l with [] => Err ValueError | x :: l' => Ok (fold_left Rmax l' x) end.

Definition bound (l : list R) : res (R * R) :=
  lo <- col_min l ;; hi <- col_max l ;; Ok (lo, hi).

(** catalogue.py 692-710 ([_calc_bounds]) *)
Definition calc_bounds (c : pycat) : res pycat :=
  bx <- bound (col_x c) ;; by_ <- bound (col_y c) ;; bz <- bound (col_z c) ;;
  let b := T3 bx by_ bz in
  Ok (PyCat (col_x c) (col_y c) (col_z c) (col_nz c) (col_ws c) (col_wc c)
            b (tmap (fun p => snd p - fst p) b) (ntotal c) (py_wtotal c) (py_wstotal c)).

(** A column argument: a scalar is broadcast by the table, an array must have the
    table's length. *)
Inductive colarg : Type := Scalar (r : R) | Array (l : list R).
Definition column (n : nat) (v : colarg) : res (list R) :=
  match v with
  | Scalar r => Ok (repeat r n)
  | Array l => if Nat.eqb (length l) n then Ok l else Err ValueError
  end.

Fixpoint mul_cols (a b : list R) : list R :=
  match a, b with x :: a, y :: b => x * y :: mul_cols a b | _, _ => [] end.

(** catalogue.py 105-148 ([__init__]); [nz = None] becomes 0. *)
Definition py_new (x : list R) (y z : colarg) (nz : option colarg) (ws wc : colarg) : res pycat :=
  let n := length x in
  y <- column n y ;; z <- column n z ;;
  nz <- column n (match nz with Some v => v | None => Scalar 0 end) ;;
  ws <- column n ws ;; wc <- column n wc ;;
  c <- calc_bounds (PyCat x y z nz ws wc (T3 (0, 0) (0, 0) (0, 0)) (T3 0 0 0) 0 0 0) ;;
  Ok (PyCat (col_x c) (col_y c) (col_z c) (col_nz c) (col_ws c) (col_wc c) (bounds c) (spans c)
            n (rsum (mul_cols ws wc)) (rsum ws)).

(** The columns of interest; setting any other name adds an unused column. *)
Inductive colname : Set := NX | NY | NZ | NNz | NWs | NWc | NOther.

(** catalogue.py 421-435 ([__setitem__] with a string key): the column changes,
    no attribute does. *)
Definition py_setitem (c : pycat) (k : colname) (v : colarg) : res pycat :=
  l <- column (length (col_x c)) v ;;
  Ok match k with
     | NX => PyCat l (col_y c) (col_z c) (col_nz c) (col_ws c) (col_wc c) (bounds c) (spans c) (ntotal c) (py_wtotal c) (py_wstotal c)
     | NY => PyCat (col_x c) l (col_z c) (col_nz c) (col_ws c) (col_wc c) (bounds c) (spans c) (ntotal c) (py_wtotal c) (py_wstotal c)
     | NZ => PyCat (col_x c) (col_y c) l (col_nz c) (col_ws c) (col_wc c) (bounds c) (spans c) (ntotal c) (py_wtotal c) (py_wstotal c)
     | NNz => PyCat (col_x c) (col_y c) (col_z c) l (col_ws c) (col_wc c) (bounds c) (spans c) (ntotal c) (py_wtotal c) (py_wstotal c)
     | NWs => PyCat (col_x c) (col_y c) (col_z c) (col_nz c) l (col_wc c) (bounds c) (spans c) (ntotal c) (py_wtotal c) (py_wstotal c)
     | NWc => PyCat (col_x c) (col_y c) (col_z c) (col_nz c) (col_ws c) l (bounds c) (spans c) (ntotal c) (py_wtotal c) (py_wstotal c)
     | NOther => c
     end.

(** catalogue.py 437-458 ([compute_los]), one particle. *)
Definition los_of (x y z : R) : R * R * R :=
  let n := sqrt (x ^ 2 + y ^ 2 + z ^ 2) in
  let n := if Reqb n 0 then 1 else n in
  (x / n, y / n, z / n).
Fixpoint zip3 (x y z : list R) : list (R * R * R) :=
  match x, y, z with a :: x, b :: y, c :: z => (a, b, c) :: zip3 x y z | _, _, _ => [] end.
Definition compute_los (c : pycat) : list (R * R * R) :=
  map (fun '(x, y, z) => los_of x y z) (zip3 (col_x c) (col_y c) (col_z c)).

(** catalogue.py 460-488 ([compute_mean_density]); [volume or np.prod(boxsize)]: a
    zero volume falls through to the box; with neither, [np.prod(None)] makes the
    division fail. *)
Definition mean_density (c : pycat) (volume : option R) (boxsize : option (triple R)) : res pycat :=
  let set_nz v :=
    if Reqb v 0 then Err NotANumber
    else py_setitem c NNz (Scalar (INR (ntotal c) / v)) in
  match volume with
  | Some v => if Reqb v 0
              then match boxsize with
                   | Some l => set_nz (ax0 l * ax1 l * ax2 l)
                   | None => Err TypeError
                   end
              else set_nz v
  | None => match boxsize with
            | Some l => set_nz (ax0 l * ax1 l * ax2 l)
            | None => Err TypeError
            end
  end.

(** ** Store of catalogue objects *)
Definition pystore := nat -> pycat.
Definition pyupd (s : pystore) (a : nat) (c : pycat) : pystore :=
  fun b => if Nat.eqb b a then c else s b.

Definition map_cols (fx fy fz : R -> R) (c : pycat) : pycat :=
  PyCat (map fx (col_x c)) (map fy (col_y c)) (map fz (col_z c)) (col_nz c) (col_ws c) (col_wc c)
        (bounds c) (spans c) (ntotal c) (py_wtotal c) (py_wstotal c).

(** catalogue.py 678-690 ([offset_coords]) on one catalogue.  The bounds of a
    non-empty catalogue always exist; an empty one cannot be built. *)
Definition offset_cat (d : triple R) (c : pycat) : res pycat :=
  calc_bounds (map_cols (fun x => x - ax0 d) (fun x => x - ax1 d) (fun x => x - ax2 d) c).
Definition py_offset (a : nat) (d : triple R) (s : pystore) : res pystore :=
  c <- offset_cat d (s a) ;; Ok (pyupd s a c).

Definition offset_both (a : nat) (ref : option nat) (d : triple R) (s : pystore) : res pystore :=
  s <- py_offset a d s ;;
  match ref with
  | Some b => py_offset b d s
  | None => Ok s
  end.

Definition ref_or_self (a : nat) (ref : option nat) : nat := match ref with Some b => b | None => a end.

(** catalogue.py 490-545 ([centre]); [np.mean] of a bounds pair. *)
Definition py_centre (a : nat) (boxsize : triple R) (ref : option nat) (s : pystore) : res pystore :=
  let b := bounds (s (ref_or_self a ref)) in
  let origin := tmap2 (fun p l => (fst p + snd p) / 2 - l / 2) b boxsize in
  offset_both a ref origin s.

(** catalogue.py 547-646 ([pad]); the padding factors are sequences here (a scalar
    is broadcast by [np.multiply]). *)
Definition py_pad (a : nat) (boxsize : triple R) (ngrid : option (triple Z))
    (boxsize_pad ngrid_pad : option (triple R)) (ref : option nat) (s : pystore) : res pystore :=
  match boxsize_pad, ngrid_pad with
  | None, None => Ok s
  | Some _, Some _ => Err ValueError
  | Some p, None =>
      let origin := tmap fst (bounds (s (ref_or_self a ref))) in
      offset_both a ref (tsub origin (tmap2 Rmult p boxsize)) s
  | None, Some p =>
      match ngrid with
      | None => Err TypeError
      | Some n =>
          let origin := tmap fst (bounds (s (ref_or_self a ref))) in
          offset_both a ref (tsub origin (tmap2 Rmult p (tmap2 (fun l n => l / IZR n) boxsize n))) s
      end
  end.

(** Python's [%] on floats, without rounding. *)
Definition pymod (x y : R) : R := x - y * IZR (Zfloor (x / y)).

(** catalogue.py 648-676 ([periodise]) *)
Definition periodise_coord (b : R * R) (l x : R) : R := pymod (x + l / 2 - (snd b + fst b) / 2) l.
Definition periodise_cat (boxsize : triple R) (c : pycat) : res pycat :=
  calc_bounds (map_cols (periodise_coord (ax0 (bounds c)) (ax0 boxsize))
                        (periodise_coord (ax1 (bounds c)) (ax1 boxsize))
                        (periodise_coord (ax2 (bounds c)) (ax2 boxsize)) c).
Definition py_periodise (a : nat) (boxsize : triple R) (s : pystore) : res pystore :=
  c <- periodise_cat boxsize (s a) ;; Ok (pyupd s a c).

(** ** Lines of sight and alignment in a survey measurement *)

(** twopt.py 447-452 and 484-506 (threept.py has the same steps): lines of sight that
    are not supplied are computed from the catalogues, which are then aligned in
    place.  The box and mesh are taken as given. *)
Inductive pyalign : Type := PyCentre | PyPadBox (f : R) | PyPadGrid (f : R) | PyNone.
Definition survey_setup (a b : nat) (los_data los_rand : option (list (R * R * R)))
    (al : pyalign) (boxsize : triple R) (ngrid : triple Z) (s : pystore)
  : res (list (R * R * R) * list (R * R * R) * pystore) :=
  let ld := match los_data with Some l => l | None => compute_los (s a) end in
  let lr := match los_rand with Some l => l | None => compute_los (s b) end in
  s <- match al with
       | PyCentre => py_centre a boxsize (Some b) s
       | PyPadBox f => py_pad a boxsize None (Some (T3 f f f)) None (Some b) s
       | PyPadGrid f => py_pad a boxsize (Some ngrid) None (Some (T3 f f f)) (Some b) s
       | PyNone => Ok s
       end ;;
  Ok (ld, lr, s).

(** ** Wrapping in binary64 *)

(** Round to nearest even, 53-bit significand (overflow left out). *)
Definition rnd64 (x : R) : R := round radix2 (FLT_exp (-1074) 53) ZnearestE x.

(** NumPy's floating [%] for a positive divisor: an exact [fmod], one rounded addition
    when the result is negative. *)
Definition npmod64 (x y : R) : R :=
  let m := fmod x y in
  if Rltb m 0 then rnd64 (m + y) else m.

(** catalogue.py 668-674, one coordinate with every operation rounded. *)
Definition periodise_coord64 (b : R * R) (l x : R) : R :=
  npmod64 (rnd64 (rnd64 (x + rnd64 (l / 2)) - rnd64 (rnd64 (snd b + fst b) / 2))) l.
