(* Model of the particle catalogue of /repo/src/triumvirate/src/particles.cpp
   (trv::ParticleCatalogue): storage, extents, shifts and box alignment.
   Catalogue objects live in a store, so that two references to one object and
   the state left behind by an exception are represented.  Positions and weights
   are reals (rounding not modelled).  [ntotal] is the length of the particle list
   whenever the data are allocated.  Log messages are left out. *)
From Coq Require Import Reals ZArith List Lia Lra Bool.
From Flocq Require Import Core.Raux.
From Verif Require Import Base ArrayModel MeshModel.
Import ListNotations.
Open Scope R_scope.

(** include/particles.hpp, struct ParticleData. *)
Record pdatum : Type :=
  PDatum { p_pos : triple R; p_nz : R; p_ws : R; p_wc : R; p_w : R }.

(** The attributes of a catalogue; [pdata] is [None] for the null pointer. *)
Record catalogue : Type := Catalogue {
  pdata : option (list pdatum);
  wtotal : R; wstotal : R;
  pos_min : triple R; pos_max : triple R; pos_span : triple R }.

(** include/particles.hpp, initial values. *)
Definition catalogue_new : catalogue :=
  Catalogue None 0 0 (T3 0 0 0) (T3 0 0 0) (T3 0 0 0).

Definition tmap {A B} (f : A -> B) (t : triple A) : triple B :=
  T3 (f (ax0 t)) (f (ax1 t)) (f (ax2 t)).
Definition tmap2 {A B C} (f : A -> B -> C) (s : triple A) (t : triple B) : triple C :=
  T3 (f (ax0 s) (ax0 t)) (f (ax1 s) (ax1 t)) (f (ax2 s) (ax2 t)).
Definition tsub : triple R -> triple R -> triple R := tmap2 Rminus.

(** ** Store of catalogue objects; an exception keeps the effects before it *)
Definition store := nat -> catalogue.
Definition upd (s : store) (a : nat) (c : catalogue) : store :=
  fun b => if Nat.eqb b a then c else s b.
Definition act (A : Type) := store -> store * res A.
Definition ret {A} (x : A) : act A := fun s => (s, Ok x).
Definition throw {A} (e : exn) : act A := fun s => (s, Err e).
Definition andthen {A B} (m : act A) (f : A -> act B) : act B := fun s =>
  match m s with
  | (s', Ok x) => f x s'
  | (s', Err e) => (s', Err e)
  end.
Definition get (a : nat) : act catalogue := fun s => (s, Ok (s a)).
Definition put (a : nat) (c : catalogue) : act unit := fun s => (upd s a c, Ok tt).
Notation "'do' x <- m ; f" := (andthen m (fun x => f))
  (at level 60, x name, m at next level, right associativity).
Notation "m ;> f" := (andthen m (fun _ => f)) (at level 60, right associativity).

(** ** Extents, particles.cpp 604-651 *)

(** Lines 628-635: the running minimum and maximum of one axis, started from the
    first particle.  (The OpenMP reduction combines partial minima; the order is
    immaterial for [<] on reals.) *)
Definition run_min (x0 : R) (xs : list R) : R :=
  fold_left (fun m x => if Rltb m x then m else x) xs x0.
Definition run_max (x0 : R) (xs : list R) : R :=
  fold_left (fun m x => if Rltb x m then m else x) xs x0.

Definition axis_of (sel : triple R -> R) (ps : list pdatum) : list R :=
  map (fun p => sel (p_pos p)) ps.

(** With no particle the code would read [pdata[0]] out of bounds;
    [initialise_particles] excludes it. *)
Definition calc_pos_extents (a : nat) : act unit :=
  do c <- get a;
  match pdata c with
  | None => throw InvalidData
  | Some [] => throw OutOfBounds
  | Some ((p :: _) as ps) =>
      let lo := T3 (run_min (ax0 (p_pos p)) (axis_of ax0 ps))
                   (run_min (ax1 (p_pos p)) (axis_of ax1 ps))
                   (run_min (ax2 (p_pos p)) (axis_of ax2 ps)) in
      let hi := T3 (run_max (ax0 (p_pos p)) (axis_of ax0 ps))
                   (run_max (ax1 (p_pos p)) (axis_of ax1 ps))
                   (run_max (ax2 (p_pos p)) (axis_of ax2 ps)) in
      put a (Catalogue (pdata c) (wtotal c) (wstotal c) lo hi (tsub hi lo))
  end.

(** particles.cpp 570-602 *)
Definition calc_total_weights (a : nat) : act unit :=
  do c <- get a;
  match pdata c with
  | None => throw InvalidData
  | Some ps =>
      put a (Catalogue (pdata c) (rsum (map p_w ps)) (rsum (map p_ws ps))
               (pos_min c) (pos_max c) (pos_span c))
  end.

Definition set_pdata (a : nat) (ps : list pdatum) : act unit :=
  do c <- get a;
  put a (Catalogue (Some ps) (wtotal c) (wstotal c) (pos_min c) (pos_max c) (pos_span c)).

(** ** Loading from columns, particles.cpp 512-563 and 47-66 *)

(** Lines 541-549 with [w = ws * wc] (line 548). *)
Fixpoint zip_columns (x y z nz ws wc : list R) : list pdatum :=
  match x, y, z, nz, ws, wc with
  | x0 :: x, y0 :: y, z0 :: z, nz0 :: nz, ws0 :: ws, wc0 :: wc =>
      PDatum (T3 x0 y0 z0) nz0 ws0 wc0 (ws0 * wc0) :: zip_columns x y z nz ws wc
  | _, _, _, _, _, _ => []
  end.

Definition load_particle_data (a : nat) (x y z nz ws wc : list R) : act unit :=
  let n := length x in
  if negb (Nat.eqb n (length y) && Nat.eqb n (length z) && Nat.eqb n (length nz)
           && Nat.eqb n (length ws) && Nat.eqb n (length wc))
  then throw InvalidData
  else if Nat.eqb n 0 then throw InvalidParameter
  else set_pdata a (zip_columns x y z nz ws wc) ;>
       calc_total_weights a ;>
       calc_pos_extents a.

(** ** Shifts *)

Definition shift_pos (d : triple R) (p : pdatum) : pdatum :=
  PDatum (tsub (p_pos p) d) (p_nz p) (p_ws p) (p_wc p) (p_w p).

(** particles.cpp 658-676 *)
Definition offset_coords (a : nat) (dpos : triple R) : act unit :=
  do c <- get a;
  match pdata c with
  | None => throw InvalidData
  | Some ps => set_pdata a (map (shift_pos dpos) ps) ;> calc_pos_extents a
  end.

(** [std::fmod]: truncated division. *)
Definition fmod (x y : R) : R := x - y * IZR (Ztrunc (x / y)).

(** particles.cpp 685-695, one coordinate. *)
Definition wrap_coord (L x : R) : R :=
  if Rleb L x then fmod x L
  else if Rltb x 0 then fmod x L + L
  else x.

(** particles.cpp 678-699.  Without particles the loop does nothing and the
    extents call throws. *)
Definition offset_coords_for_periodicity (a : nat) (boxsize : triple R) : act unit :=
  do c <- get a;
  match pdata c with
  | None => calc_pos_extents a
  | Some ps =>
      set_pdata a (map (fun p => PDatum (tmap2 wrap_coord boxsize (p_pos p))
                                        (p_nz p) (p_ws p) (p_wc p) (p_w p)) ps) ;>
      calc_pos_extents a
  end.

(** ** Box alignment *)

(** particles.cpp 701-730; the checks of the spans only log. *)
Definition centre_in_box1 (a : nat) (boxsize : triple R) : act unit :=
  calc_pos_extents a ;>
  do c <- get a;
  let mid := tmap2 (fun lo hi => (lo + hi) / 2) (pos_min c) (pos_max c) in
  let dvec := tmap2 (fun m L => m - L / 2) mid boxsize in
  offset_coords a dvec.

(** particles.cpp 732-778; [a] the catalogue, [b] the reference. *)
Definition centre_in_box (a b : nat) (boxsize : triple R) : act unit :=
  calc_pos_extents a ;>
  calc_pos_extents b ;>
  do c <- get b;
  let mid := tmap2 (fun lo hi => (lo + hi) / 2) (pos_min c) (pos_max c) in
  let dvec := tmap2 (fun m L => m - L / 2) mid boxsize in
  offset_coords b dvec ;>
  offset_coords a dvec.

(** particles.cpp 780-807 *)
Definition pad_in_box1 (a : nat) (boxsize boxsize_pad : triple R) : act unit :=
  calc_pos_extents a ;>
  do c <- get a;
  offset_coords a (tsub (pos_min c) (tmap2 Rmult boxsize_pad boxsize)).

(** particles.cpp 809-853 *)
Definition pad_in_box (a b : nat) (boxsize boxsize_pad : triple R) : act unit :=
  calc_pos_extents a ;>
  calc_pos_extents b ;>
  do c <- get b;
  let dvec := tsub (pos_min c) (tmap2 Rmult boxsize_pad boxsize) in
  offset_coords b dvec ;>
  offset_coords a dvec.

(** Padding in multiples of the cell size, particles.cpp 864-866 and 879-881. *)
Definition grid_pad (boxsize : triple R) (ngrid : triple Z) (ngrid_pad : triple R) : triple R :=
  tmap2 (fun pl n => pl / IZR n) (tmap2 Rmult ngrid_pad boxsize) ngrid.

(** particles.cpp 855-870 *)
Definition pad_grids1 (a : nat) (boxsize : triple R) (ngrid : triple Z) (ngrid_pad : triple R)
  : act unit :=
  calc_pos_extents a ;>
  do c <- get a;
  offset_coords a (tsub (pos_min c) (grid_pad boxsize ngrid ngrid_pad)).

(** particles.cpp 872-886; the extents of the catalogue itself are not computed
    first. *)
Definition pad_grids (a b : nat) (boxsize : triple R) (ngrid : triple Z) (ngrid_pad : triple R)
  : act unit :=
  calc_pos_extents b ;>
  do c <- get b;
  let dvec := tsub (pos_min c) (grid_pad boxsize ngrid ngrid_pad) in
  offset_coords b dvec ;>
  offset_coords a dvec.
