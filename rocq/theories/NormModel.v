(* Model of the normalisation and shot-noise amplitudes of
   /repo/src/triumvirate/src/twopt.cpp and /repo/src/triumvirate/src/threept.cpp.
   A value that would be infinite or NaN is [Err NotANumber]. *)
From Coq Require Import Reals ZArith List Lia Lra Bool.
From Coquelicot Require Import Complex.
From Flocq Require Import Core.Raux.
From Verif Require Import Base ArrayModel MeshModel CSum SphHarmModel CatModel.
Import ListNotations.
Open Scope R_scope.

(** [1. / x] in floating point. *)
Definition recip (x : R) : res R := if Reqb x 0 then Err NotANumber else Ok (1 / x).

(** ** From particles *)

(** twopt.cpp 66-84, the sum I2. *)
Definition I2_sum (ps : list pdatum) : R :=
  rsum (map (fun p => p_ws p * p_nz p * (p_wc p) ^ 2) ps).

(** twopt.cpp 56-98 ([calc_powspec_normalisation_from_particles]) *)
Definition powspec_norm_particles (c : catalogue) (alpha : R) : res R :=
  match pdata c with
  | None => Err InvalidData
  | Some ps =>
      let norm := I2_sum ps in
      if Reqb norm 0 then Err InvalidData else recip (alpha * norm)
  end.

(** threept.cpp 94-135 ([calc_bispec_normalisation_from_particles]) *)
Definition I3_sum (ps : list pdatum) : R :=
  rsum (map (fun p => p_ws p * (p_nz p) ^ 2 * (p_wc p) ^ 3) ps).

Definition bispec_norm_particles (c : catalogue) (alpha : R) : res R :=
  match pdata c with
  | None => Err InvalidData
  | Some ps =>
      let norm := I3_sum ps in
      if Reqb norm 0 then Err InvalidData else recip (alpha * norm)
  end.

(** ** From meshes *)

(** The weights passed to the mesh: field.cpp 2034-2037, twopt.cpp 181-196. *)
Definition weigh (p : pdatum) : particle := Particle (p_pos p) (p_w p) 0.

(** field.cpp 2017-2065 ([calc_grid_based_powlaw_norm]) *)
Definition powlaw_norm (sch : scheme) (g : mesh_params) (ps : list pdatum) (order : nat) : res R :=
  let field := assign_main sch g (map weigh ps) in
  let vol_int := rsum (map (fun gid => (field gid false) ^ order) (arange 0 (nmesh g))) in
  recip (vol_int * vol_cell g).

(** twopt.cpp 100-111 (order 2) and threept.cpp 137-149 (order 3); dividing by
    [alpha] to the power [order] gives a non-finite value when it is zero.  A null
    catalogue has no particles to loop over. *)
Definition norm_from_mesh (order : nat) (sch : scheme) (g : mesh_params) (c : catalogue) (alpha : R)
  : res R :=
  let ps := match pdata c with Some ps => ps | None => [] end in
  match powlaw_norm sch g ps order with
  | Ok v => if Reqb (alpha ^ order) 0 then Err NotANumber else Ok (v / alpha ^ order)
  | Err e => Err e
  end.

(** The alignment parameters. *)
Inductive padscale : Set := PadBox | PadGrid | PadOther.
Inductive alignment : Set := AlignPad (sc : padscale) | AlignCentre | AlignOther.

(** twopt.cpp 125-157, the choice of alignment. *)
Definition align (a b : nat) (al : alignment) (g : mesh_params) (padfactor : R) : act unit :=
  let pad := T3 padfactor padfactor padfactor in
  match al with
  | AlignPad PadGrid => pad_grids a b (boxsize g) (ngrid g) pad
  | AlignPad PadBox => pad_in_box a b (boxsize g) pad
  | AlignPad PadOther => ret tt
  | AlignCentre => centre_in_box a b (boxsize g)
  | AlignOther => ret tt
  end.

Definition lift {A} (r : res A) : act A := fun s => (s, r).
Definition particles_of (c : catalogue) : list pdatum :=
  match pdata c with Some ps => ps | None => [] end.

(** twopt.cpp 205-223: the product of the two real fields. *)
Definition mixed_sum (sch : scheme) (g : mesh_params) (ps_data ps_rand : list pdatum) : R :=
  let fd := assign_main sch g (map weigh ps_data) in
  let fr := assign_main sch g (map weigh ps_rand) in
  rsum (map (fun gid => fd gid false * fr gid false) (arange 0 (nmesh g))).

(** twopt.cpp 113-231 ([calc_powspec_normalisation_from_meshes]); [a] is the data
    catalogue and [b] the random one.  A non-finite result is returned, not thrown,
    so it is computed before and given back after the restoring shifts. *)
Definition mixed_norm (a b : nat) (al : alignment) (sch : scheme) (g : mesh_params)
    (padfactor alpha : R) : act (res R) :=
  do ca <- get a;
  do cb <- get b;
  let pos_min_data := pos_min ca in
  let pos_min_rand := pos_min cb in
  align a b al g padfactor ;>
  do ca <- get a;
  do cb <- get b;
  let pos_offset_data := tsub (pos_min ca) pos_min_data in
  let pos_offset_rand := tsub (pos_min cb) pos_min_rand in
  let norm := mixed_sum sch g (particles_of ca) (particles_of cb) in
  let norm_factor := recip (alpha * vol_cell g * norm) in
  offset_coords a pos_offset_data ;>
  offset_coords b pos_offset_rand ;>
  ret norm_factor.

(** twopt.cpp 233-256: the normalisation box; [span] values of both catalogues.
    [std::ceil] converted to [int]; [%] of a possibly negative [int] truncates. *)
Definition tmax (t : triple R) : R := Rmax (Rmax (ax0 t) (ax1 t)) (ax2 t).
Definition norm_box (span_data span_rand : triple R) (padding cellsize : R) : Z * R :=
  let boxsize_norm := (1 + padding) * Rmax (tmax span_data) (tmax span_rand) in
  let n := Zceil (boxsize_norm / cellsize) in
  let n := (n + Z.rem n 2)%Z in
  (n, IZR n * cellsize).

(** twopt.cpp 233-264: the overload with its own box.  [params_norm.validate(true)]
    is left out. *)
Definition mixed_norm_box (a b : nat) (al : alignment) (sch : scheme)
    (padfactor alpha padding cellsize : R) : act (res R) :=
  do ca <- get a;
  do cb <- get b;
  let '(n, l) := norm_box (pos_span ca) (pos_span cb) padding cellsize in
  let vol_cell := l * l * l / IZR (n * n * n) in
  mixed_norm a b al sch (MeshParams (T3 n n n) (T3 l l l) vol_cell) padfactor alpha.

(** ** Shot noise *)

(** twopt.cpp 271-302; [alpha] is not used. *)
Definition powspec_shotnoise_particles (c : catalogue) (alpha : R) : res R :=
  match pdata c with
  | None => Err InvalidData
  | Some ps => Ok (rsum (map (fun p => (p_ws p) ^ 2 * (p_wc p) ^ 2) ps))
  end.

(** The spherical-harmonic weighted sum over one catalogue of the weights to the
    power [q]: twopt.cpp 312-332, 336-356, 366-375 ([q] = 2), threept.cpp 164-184,
    188-208, 219-233 ([q] = 3).  [los] pairs with the particles. *)
Definition ylm_wgtd_sum (P : Z -> Z -> R -> R) (q : nat) (l m : Z)
    (los : list (R * R * R)) (ps : list pdatum) : C :=
  csum (map (fun '(v, p) => (reduced_ylm P l m v * RtoC ((p_w p) ^ q))%C) (combine los ps)).

Definition ylm_wgtd_shotnoise (P : Z -> Z -> R -> R) (q : nat) (l m : Z) (alpha : R)
    (los_data los_rand : list (R * R * R)) (data rand : list pdatum) : C :=
  (ylm_wgtd_sum P q l m los_data data
   + RtoC (alpha ^ q) * ylm_wgtd_sum P q l m los_rand rand)%C.

Definition ylm_wgtd_shotnoise1 (P : Z -> Z -> R -> R) (q : nat) (l m : Z) (alpha : R)
    (los : list (R * R * R)) (ps : list pdatum) : C :=
  (RtoC (alpha ^ q) * ylm_wgtd_sum P q l m los ps)%C.
