(* Grid locations and periodic wrapping computed in floating point.
   /repo/src/triumvirate/src/field.cpp 639-640 (and the same in the other
   schemes) and /repo/src/triumvirate/src/particles.cpp 678-699, with every
   operation rounded to binary64, the exponent unbounded.  MeshModel.v has the
   same over the reals. *)
From Coq Require Import Reals ZArith List Lia Lra Bool.
From Flocq Require Import Core.
From Verif Require Import Base ArrayModel ResampleModel MeshModel.
Import ListNotations.
Local Open Scope R_scope.

(** `ngrid * pos / boxsize`, field.cpp 639-640: the product, then the quotient
    (the integer is converted exactly). *)
Definition grid_loc_fl (n : Z) (boxsize x : R) : R := fl (fl (IZR n * x) / boxsize).

(** The particle loop on the main mesh with these locations.  The window values
    are not rounded: which cells are covered depends on the location only. *)
Definition updates_main_fl (sch : scheme) (g : mesh_params) (p : particle) : list update :=
  particle_updates g
    (cells sch (ax0 (ngrid g)) (grid_loc_fl (ax0 (ngrid g)) (ax0 (boxsize g)) (ax0 (pos p))))
    (cells sch (ax1 (ngrid g)) (grid_loc_fl (ax1 (ngrid g)) (ax1 (boxsize g)) (ax1 (pos p))))
    (cells sch (ax2 (ngrid g)) (grid_loc_fl (ax2 (ngrid g)) (ax2 (boxsize g)) (ax2 (pos p)))) p.
Definition assign_main_fl (sch : scheme) (g : mesh_params) (ps : list particle) : mesh :=
  run_updates (flat_map (updates_main_fl sch g) ps).

(** `std::fmod`, which is exact: the sign is that of the dividend. *)
Definition fmod (x y : R) : R := x - y * IZR (Ztrunc (x / y)).

(** One coordinate of `offset_coords_for_periodicity`, particles.cpp 684-694. *)
Definition wrap_fl (boxsize x : R) : R :=
  if Rleb boxsize x then fmod x boxsize
  else if Rltb x 0 then fl (fmod x boxsize + boxsize)
  else x.

(** The location on the shadow mesh, field.cpp 687-692. *)
Definition grid_loc_shadow_fl (n : Z) (boxsize x : R) : R :=
  let loc := fl (grid_loc_fl n boxsize x + 1 / 2) in
  if Rltb (IZR n) loc then fl (loc - IZR n) else loc.
Definition updates_shadow_fl (sch : scheme) (g : mesh_params) (p : particle) : list update :=
  particle_updates g
    (cells_shadow sch (ax0 (ngrid g)) (grid_loc_shadow_fl (ax0 (ngrid g)) (ax0 (boxsize g)) (ax0 (pos p))))
    (cells_shadow sch (ax1 (ngrid g)) (grid_loc_shadow_fl (ax1 (ngrid g)) (ax1 (boxsize g)) (ax1 (pos p))))
    (cells_shadow sch (ax2 (ngrid g)) (grid_loc_shadow_fl (ax2 (ngrid g)) (ax2 (boxsize g)) (ax2 (pos p)))) p.
Definition assign_shadow_fl (sch : scheme) (g : mesh_params) (ps : list particle) : mesh :=
  run_updates (flat_map (updates_shadow_fl sch g) ps).
