(* Model of the reduced spherical harmonics in /repo/src/triumvirate/src/maths.cpp
   171-305, of the spherical-harmonic-weighted fields in field.cpp 1246-1362 and
   1792-1906, and of the three-point components built on them in threept.cpp
   425-518. *)
From Coq Require Import Reals ZArith List Lia Lra Bool.
From Coquelicot Require Import Complex.
From Verif Require Import Base ArrayModel MeshModel BinVecModel CSum ThreePtModel.
Import ListNotations.
Open Scope R_scope.

(** ** Reduced spherical harmonics *)

(** maths.cpp 176. *)
Definition eps_sph : R := / 1000000000.

Definition cis (x : R) : C := (cos x, sin x).

(** maths.cpp 198-208, the azimuthal angle. *)
Definition azimuth (x y : R) : R :=
  let xy_mod := sqrt (x * x + y * y) in
  if Rleb eps_sph (Rabs xy_mod) then
    let phi := acos (x / xy_mod) in
    if Rltb y 0 then - phi + 2 * PI else phi
  else 0.

(** maths.cpp 171-220 ([calc_reduced_spherical_harmonic]); [P l m mu] stands for
    [gsl_sf_legendre_sphPlm]. *)
Definition reduced_ylm (P : Z -> Z -> R -> R) (l m : Z) (v : R * R * R) : C :=
  let '(x, y, z) := v in
  if ((l =? 0) && (m =? 0))%Z%bool then RtoC 1
  else
    let xyz_mod := sqrt (x * x + y * y + z * z) in
    if Rltb (Rabs xyz_mod) eps_sph then RtoC 0
    else
      let mu := z / xyz_mod in
      let ylm := (cis (IZR m * azimuth x y) * RtoC (P l (Z.abs m) mu))%C in
      let ylm := (RtoC (powerRZ (-1) (Z.quot (m - Z.abs m) 2)) * Cconj ylm)%C in
      (ylm * RtoC (sqrt (4 * PI / (2 * IZR l + 1))))%C.

(** ** Fields *)

(** Grid cells in the order of the loops. *)
Definition grid_cells (ng : triple Z) : list (Z * Z * Z) :=
  flat_map (fun i => flat_map (fun j => map (fun k => (i, j, k)) (arange 0 (ax2 ng)))
    (arange 0 (ax1 ng))) (arange 0 (ax0 ng)).

(** maths.cpp 225-263 and field.cpp 555-562: the wavevector of a cell; [dk] holds the
    steps [2 pi / boxsize]. *)
Definition wavevector (ng : triple Z) (dk : triple R) (c : Z * Z * Z) : R * R * R :=
  let '(i, j, k) := c in
  (grid_vector (ax0 ng) (ax0 dk) i, grid_vector (ax1 ng) (ax1 dk) j, grid_vector (ax2 ng) (ax2 dk) k).

Definition vec_mod (v : R * R * R) : R := let '(x, y, z) := v in sqrt (x * x + y * y + z * z).

(** The phase of the discrete Fourier transforms (FFTW) between cells [c] and [x]. *)
Definition dft_phase (ng : triple Z) (c x : Z * Z * Z) : R :=
  let '(i, j, k) := c in let '(p, q, r) := x in
  2 * PI * (IZR (i * p) / IZR (ax0 ng) + IZR (j * q) / IZR (ax1 ng) + IZR (k * r) / IZR (ax2 ng)).

(** field.cpp 1496-1655 ([fourier_transform], no interlacing): forward transform with
    the factor [vol_cell]. *)
Definition fourier (ng : triple Z) (vol_cell : R) (f : Z * Z * Z -> C) (c : Z * Z * Z) : C :=
  csum (map (fun x => (RtoC vol_cell * f x * Cconj (cis (dft_phase ng c x)))%C) (grid_cells ng)).

(** field.cpp 1822-1849, 1898-1905: modes of the band [k_lower, k_upper), the
    compensated and weighted field, inverse transform and average. *)
Definition in_band (ng : triple Z) (dk : triple R) (k_lower k_upper : R) (c : Z * Z * Z) : bool :=
  let k := vec_mod (wavevector ng dk c) in Rleb k_lower k && Rltb k k_upper.
Definition band_modes (ng : triple Z) (dk : triple R) (k_lower k_upper : R) : list (Z * Z * Z) :=
  filter (in_band ng dk k_lower k_upper) (grid_cells ng).
Definition band_field (P : Z -> Z -> R -> R) (ng : triple Z) (dk : triple R) (order : nat)
    (fk : Z * Z * Z -> C) (l m : Z) (k_lower k_upper : R) (x : Z * Z * Z) : C :=
  let modes := band_modes ng dk k_lower k_upper in
  (RtoC (/ INR (length modes)) *
   csum (map (fun c =>
     let '(i, j, k) := c in
     let ylm := reduced_ylm P l m (wavevector ng dk c) in
     ylm * (fk c * RtoC (/ window_direct ng i j k order)) * cis (dft_phase ng c x)) modes))%C.

(** field.cpp 1246-1362 ([compute_ylm_wgtd_field] of data and random catalogues): the
    weights of the particles; the assignment to the mesh is linear, here given by the
    real kernel [K] of the particle at a cell. *)
Definition ylm_field (P : Z -> Z -> R -> R) (alpha : R) (l m : Z)
    (data rand : list ((R * R * R) * R * (Z * Z * Z -> R))) (x : Z * Z * Z) : C :=
  let part (p : (R * R * R) * R * (Z * Z * Z -> R)) : C :=
    let '(los, w, K) := p in (reduced_ylm P l m los * RtoC w * RtoC (K x))%C in
  (csum (map part data) - RtoC alpha * csum (map part rand))%C.

(** threept.cpp 495-517: one component of the raw bispectrum, [G] the inverse transform
    of the compensated [ylm_field]. *)
Definition bispec_component (ng : triple Z) (Fa Fb G : Z * Z * Z -> C) : C :=
  csum (map (fun x => (Fa x * Fb x * G x)%C) (grid_cells ng)).

(** field.cpp 1764-1785 and 1657-1721: compensation and inverse transform of a field
    in Fourier space. *)
Definition inv_fourier (ng : triple Z) (vol : R) (order : nat) (fk : Z * Z * Z -> C)
    (x : Z * Z * Z) : C :=
  csum (map (fun c => let '(i, j, k) := c in
    (RtoC (/ vol) * (fk c * RtoC (/ window_direct ng i j k order)) * cis (dft_phase ng c x))%C)
    (grid_cells ng)).

(** threept.cpp 320-328, 452-518: the component of the raw bispectrum at orders
    [(m1, m2, M)] for one pair of bins [a], [b]. *)
Record catalogues : Type := Catalogues {
  cat_data : list ((R * R * R) * R * (Z * Z * Z -> R));
  cat_rand : list ((R * R * R) * R * (Z * Z * Z -> R));
  cat_alpha : R }.
Definition dn_00 (P : Z -> Z -> R -> R) (ng : triple Z) (vol_cell : R) (cat : catalogues) : Z * Z * Z -> C :=
  fourier ng vol_cell (ylm_field P (cat_alpha cat) 0 0 (cat_data cat) (cat_rand cat)).
Definition G_LM (P : Z -> Z -> R -> R) (ng : triple Z) (vol_cell vol : R) (order : nat) (cat : catalogues)
    (L M : Z) : Z * Z * Z -> C :=
  inv_fourier ng vol order
    (fourier ng vol_cell (ylm_field P (cat_alpha cat) L M (cat_data cat) (cat_rand cat))).
Definition component (P : Z -> Z -> R -> R) (ng : triple Z) (dk : triple R) (vol_cell vol : R) (order : nat)
    (cat : catalogues) (l1 l2 L : Z) (a b : R * R) (t : triplet) : C :=
  let '(m1, m2, M) := t in
  bispec_component ng
    (band_field P ng dk order (dn_00 P ng vol_cell cat) l1 m1 (fst a) (snd a))
    (band_field P ng dk order (dn_00 P ng vol_cell cat) l2 m2 (fst b) (snd b))
    (G_LM P ng vol_cell vol order cat L M).
