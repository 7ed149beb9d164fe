(* Model of the mesh fields of /repo/src/triumvirate/src/field.cpp 1208-1721 (field
   computations and transforms), of the two-point statistics of a pair of fields
   (FieldStats, 2273-2302 and 2511-2945) and of the two-point measurements of
   /repo/src/triumvirate/src/twopt.cpp 45-52 and 388-903.
   The discrete Fourier transforms (FFTW) are the sums they are documented to be;
   GPU branches, logging, timing and memory counters are left out. *)
From Coq Require Import Reals ZArith List Lia Lra Bool Permutation.
From Coquelicot Require Import Complex.
From Verif Require Import Base ArrayModel MeshModel BinVecModel CSum ThreePtModel SphHarmModel CatModel NormModel.
Import ListNotations.
Open Scope R_scope.

(** ** Fields *)

(** The arrays [field] and [field_s] of a MeshField; the second is allocated and read
    only with interlacing. *)
Record mfield : Type := MField { f_main : cell -> C; f_shadow : cell -> C }.

(** The settings read by fields and statistics: scheme, assignment order, interlacing,
    mesh and box volume. *)
Record settings : Type := Settings {
  st_scheme : scheme; st_order : nat; st_interlace : bool; st_mesh : mesh_params; st_vol : R }.

(** A mesh as a complex field over the cells. *)
Definition mesh_at (g : mesh_params) (m : mesh) (c : cell) : C :=
  let '(i, j, k) := c in
  let gid := grid_index (ax1 (ngrid g)) (ax2 (ngrid g)) i j k in (m gid false, m gid true).

(** field.cpp 569-616 ([assign_weighted_field_to_mesh]) *)
Definition assign_field (st : settings) (ps : list particle) : mfield :=
  MField (mesh_at (st_mesh st) (assign_main (st_scheme st) (st_mesh st) ps))
         (mesh_at (st_mesh st) (assign_shadow (st_scheme st) (st_mesh st) ps)).

(** field.cpp 1208-1227 ([compute_unweighted_field]) *)
Definition unit_particle (p : pdatum) : particle := Particle (p_pos p) 1 0.
Definition unweighted_field (st : settings) (ps : list pdatum) : mfield :=
  assign_field st (map unit_particle ps).

(** field.cpp 1229-1244 ([compute_unweighted_field_fluctuations_insitu]): the mean is
    subtracted from [field] only. *)
Definition fluctuation_field (st : settings) (ps : list pdatum) : mfield :=
  let f := unweighted_field st ps in
  let nbar := INR (length ps) / st_vol st in
  MField (fun c => f_main f c - RtoC nbar)%C (f_shadow f).

(** field.cpp 1255-1272: the weights of the particles. *)
Definition ylm_particle (P : Z -> Z -> R -> R) (l m : Z) (vp : (R * R * R) * pdatum) : particle :=
  let '(v, p) := vp in
  let ylm := reduced_ylm P l m v in
  Particle (p_pos p) (fst ylm * p_w p) (snd ylm * p_w p).

(** field.cpp 1246-1323 ([compute_ylm_wgtd_field], data and random catalogues) *)
Definition ylm_wgtd_field (P : Z -> Z -> R -> R) (st : settings) (alpha : R) (l m : Z)
    (data rand : list ((R * R * R) * pdatum)) : mfield :=
  let fd := assign_field st (map (ylm_particle P l m) data) in
  let fr := assign_field st (map (ylm_particle P l m) rand) in
  MField (fun c => f_main fd c - RtoC alpha * f_main fr c)%C
         (if st_interlace st then fun c => f_shadow fd c - RtoC alpha * f_shadow fr c else f_shadow fd)%C.

(** field.cpp 1325-1362 (one catalogue): [alpha] multiplies [field] only. *)
Definition ylm_wgtd_field1 (P : Z -> Z -> R -> R) (st : settings) (alpha : R) (l m : Z)
    (ps : list ((R * R * R) * pdatum)) : mfield :=
  let f := assign_field st (map (ylm_particle P l m) ps) in
  MField (fun c => RtoC alpha * f_main f c)%C (f_shadow f).

(** field.cpp 1364-1447 and 1449-1490 ([compute_ylm_wgtd_quad_field]) *)
Definition quad_particle (P : Z -> Z -> R -> R) (l m : Z) (vp : (R * R * R) * pdatum) : particle :=
  let '(v, p) := vp in
  let ylm := Cconj (reduced_ylm P l m v) in
  Particle (p_pos p) (fst ylm * p_w p ^ 2) (snd ylm * p_w p ^ 2).
Definition quad_field (P : Z -> Z -> R -> R) (st : settings) (alpha : R) (l m : Z)
    (data rand : list ((R * R * R) * pdatum)) : mfield :=
  let fd := assign_field st (map (quad_particle P l m) data) in
  let fr := assign_field st (map (quad_particle P l m) rand) in
  MField (fun c => f_main fd c + RtoC (alpha ^ 2) * f_main fr c)%C
         (if st_interlace st then fun c => f_shadow fd c + RtoC (alpha ^ 2) * f_shadow fr c else f_shadow fd)%C.
Definition quad_field1 (P : Z -> Z -> R -> R) (st : settings) (alpha : R) (l m : Z)
    (ps : list ((R * R * R) * pdatum)) : mfield :=
  let f := assign_field st (map (quad_particle P l m) ps) in
  MField (fun c => RtoC (alpha ^ 2) * f_main f c)%C (f_shadow f).

(** ** Transforms *)

(** field.cpp 1614-1629: the phase of the half-cell shift. *)
Definition interlace_frac (n i : Z) : R :=
  if (i <? n / 2)%Z then IZR i / IZR n else IZR i / IZR n - 1.
Definition interlace_arg (ng : triple Z) (c : cell) : R :=
  let '(i, j, k) := c in
  PI * (interlace_frac (ax0 ng) i + interlace_frac (ax1 ng) j + interlace_frac (ax2 ng) k).

(** field.cpp 1496-1655 ([fourier_transform]) *)
Definition transform (st : settings) (f : mfield) (c : cell) : C :=
  let g := st_mesh st in
  let fk := fourier (ngrid g) (vol_cell g) (f_main f) c in
  if st_interlace st then
    let fs := fourier (ngrid g) (vol_cell g) (f_shadow f) c in
    ((fk + cis (interlace_arg (ngrid g) c) * fs) * RtoC (/ 2))%C
  else fk.

(** field.cpp 1657-1721 ([inv_fourier_transform]); also the transform of [twopt_3d] in
    2806-2836 after the division by the volume. *)
Definition inverse (st : settings) (fk : cell -> C) (x : cell) : C :=
  let ng := ngrid (st_mesh st) in
  csum (map (fun c => (fk c * RtoC (/ st_vol st)) * cis (dft_phase ng c x))%C (grid_cells ng)).

(** ** Two-point statistics of a pair of transformed fields *)

(** The attributes compared by [if_fields_compatible], field.cpp 2273-2302; the last
    comparison repeats the second field. *)
Record dims : Type := Dims { d_box : triple R; d_grid : triple Z; d_nmesh : Z; d_volume : R }.
Definition axis_mismatch (this a b : dims) (ax : forall A, triple A -> A) : bool :=
  negb (Reqb (ax R (d_box this)) (ax R (d_box a))) || negb (Reqb (ax R (d_box this)) (ax R (d_box b)))
  || negb (ax Z (d_grid this) =? ax Z (d_grid a))%Z || negb (ax Z (d_grid this) =? ax Z (d_grid b))%Z.
Definition fields_compatible (this a b : dims) : bool :=
  let flag := true in
  let flag := if axis_mismatch this a b (@ax0) then false else flag in
  let flag := if axis_mismatch this a b (@ax1) then false else flag in
  let flag := if axis_mismatch this a b (@ax2) then false else flag in
  if negb (d_nmesh this =? d_nmesh a)%Z || negb (d_nmesh this =? d_nmesh b)%Z
     || negb (Reqb (d_volume this) (d_volume b)) || negb (Reqb (d_volume this) (d_volume b))
  then false else flag.

(** field.cpp 3402-3440 ([ret_calc_shotnoise_aliasing]) *)
Definition alias_of (st : settings) (c : cell) : R :=
  let '(i, j, k) := c in
  let ng := ngrid (st_mesh st) in
  if st_interlace st then calc_alias_interlaced ng i j k (st_order st)
  else calc_alias (st_scheme st) ng i j k.

(** field.cpp 2541-2566: the grid correction of the powers (and of the shot noise). *)
Definition win_of (st : settings) (c : cell) : R :=
  let '(i, j, k) := c in
  let ng := ngrid (st_mesh st) in
  if st_interlace st then window_direct ng i j k (st_order st) * window_direct ng i j k (st_order st)
  else alias_of st c.

(** field.cpp 2630-2643: power and shot noise of one mode before the weight. *)
Definition pk_mode (st : settings) (fa fb : cell -> C) (c : cell) : C :=
  (fa c * Cconj (fb c) * RtoC (/ win_of st c))%C.
Definition sn_mode (st : settings) (amp : C) (c : cell) : C :=
  (amp * RtoC (alias_of st c) * RtoC (/ win_of st c))%C.

(** Binning of a complex quantity, real and imaginary parts apart. *)
Definition bin_complex (d lo hi : R) (len : cell -> R) (f : cell -> C) (order : list cell) : C :=
  (snd (bin_result d lo hi 0 len (fun c => fst (f c)) order),
   snd (bin_result d lo hi 0 len (fun c => snd (f c)) order)).

(** Grid steps, field.cpp 2083-2091. *)
Definition dk_of (g : mesh_params) : triple R :=
  T3 (2 * PI / ax0 (boxsize g)) (2 * PI / ax1 (boxsize g)) (2 * PI / ax2 (boxsize g)).
Definition dr_of (g : mesh_params) : triple R :=
  T3 (ax0 (boxsize g) / IZR (ax0 (ngrid g))) (ax1 (boxsize g) / IZR (ax1 (ngrid g)))
     (ax2 (boxsize g) / IZR (ax2 (ngrid g))).

(** One bin: lower and upper edge and centre. *)
Record bin3 : Type := Bin3 { b_lo : R; b_hi : R; b_centre : R }.

(** field.cpp 2511-2703 ([compute_ylm_wgtd_2pt_stats_in_fourier]) for one bin: number of
    modes, mean wavenumber, mean power and mean shot noise; [order] is the order in which
    the threads run through the cells. *)
Record stats2 : Type := Stats2 { s_count : R; s_coord : R; s_stat : C; s_shot : C }.
Definition stats_fourier (P : Z -> Z -> R -> R) (st : settings) (order : list cell)
    (fa fb : cell -> C) (amp : C) (l m : Z) (b : bin3) : stats2 :=
  let g := st_mesh st in
  let vec := wavevector (ngrid g) (dk_of g) in
  let len := fun c => vec_mod (vec c) in
  let bc := fun f => bin_complex dk_sample (b_lo b) (b_hi b) len f order in
  let '(n, k) := bin_result dk_sample (b_lo b) (b_hi b) (b_centre b) len len order in
  Stats2 n k (bc (fun c => pk_mode st fa fb c * reduced_ylm P l m (vec c))%C)
             (bc (fun c => sn_mode st amp c * reduced_ylm P l m (vec c))%C).

(** field.cpp 2768-2836: the shot-noise-subtracted statistic on the mesh of separations. *)
Definition twopt_3d (st : settings) (fa fb : cell -> C) (amp : C) : cell -> C :=
  inverse st (fun c => pk_mode st fa fb c - sn_mode st amp c)%C.

(** field.cpp 2705-2945 ([compute_ylm_wgtd_2pt_stats_in_config]) for one bin. *)
Definition stats_config (P : Z -> Z -> R -> R) (st : settings) (order : list cell)
    (fa fb : cell -> C) (amp : C) (l m : Z) (b : bin3) : stats2 :=
  let g := st_mesh st in
  let vec := wavevector (ngrid g) (dr_of g) in
  let len := fun c => vec_mod (vec c) in
  let xi := twopt_3d st fa fb amp in
  let '(n, r) := bin_result dr_sample (b_lo b) (b_hi b) (b_centre b) len len order in
  Stats2 n r (bin_complex dr_sample (b_lo b) (b_hi b) len (fun c => xi c * reduced_ylm P l m (vec c))%C order)
         (RtoC 0).

(** ** Measurements *)

(** twopt.cpp 45-49; [w] stands for [wigner_3j] (GSL) with degrees [ell, 0, ELL]. *)
Definition coupling_2pt (ell ELL : Z) (w : triplet -> R) (m M : Z) : R :=
  IZR ((2 * ell + 1) * (2 * ELL + 1)) * w (0, 0, 0)%Z * w (m, 0, M)%Z.

(** The double loop over orders, twopt.cpp 437-475 (and 549-580, 868-900): each term
    [v M m] that is not skipped is added with its coupling. *)
Definition order_sum (L : Z) (w : triplet -> R) (v : Z -> Z -> C) : C :=
  fold_left (fun acc M =>
    fold_left (fun acc m =>
      let c := coupling_2pt L L w m M in
      if Rltb (Rabs c) eps_coupling then acc else (acc + RtoC c * v M m)%C)
      (arange (- L) (L + 1)) acc)
    (arange (- L) (L + 1)) (RtoC 0).

(** One bin of the output. *)
Record measured : Type := Measured {
  o_bin : R; o_coord : R; o_count : R; o_raw : C; o_shot : C }.

(** twopt.cpp 388-497 ([compute_powspec]); [wsum] are the sums of sample weights and
    every call of the statistics may run in its own order [ord M m]. *)
Definition compute_powspec (P : Z -> Z -> R -> R) (w : triplet -> R) (st : settings)
    (ord : Z -> Z -> list cell) (wsum_data wsum_rand : R) (L : Z)
    (data rand : list ((R * R * R) * pdatum)) (norm : R) (b : bin3) : measured :=
  let alpha := wsum_data / wsum_rand in
  let dn00 := transform st (ylm_wgtd_field P st alpha 0 0 data rand) in
  let term M m :=
    stats_fourier P st (ord M m) (transform st (ylm_wgtd_field P st alpha L M data rand)) dn00
      (ylm_wgtd_shotnoise P 2 L M alpha (map fst data) (map fst rand) (map snd data) (map snd rand)) L m b in
  Measured (b_centre b) (s_coord (term 0%Z 0%Z)) (s_count (term 0%Z 0%Z))
    (RtoC norm * order_sum L w (fun M m => s_stat (term M m)))%C
    (RtoC norm * order_sum L w (fun M m => s_shot (term M m)))%C.

(** twopt.cpp 498-607 ([compute_corrfunc]) *)
Definition compute_corrfunc (P : Z -> Z -> R -> R) (w : triplet -> R) (st : settings)
    (ord : Z -> Z -> list cell) (wsum_data wsum_rand : R) (L : Z)
    (data rand : list ((R * R * R) * pdatum)) (norm : R) (b : bin3) : measured :=
  let alpha := wsum_data / wsum_rand in
  let dn00 := transform st (ylm_wgtd_field P st alpha 0 0 data rand) in
  let term M m :=
    stats_config P st (ord M m) (transform st (ylm_wgtd_field P st alpha L M data rand)) dn00
      (ylm_wgtd_shotnoise P 2 L M alpha (map fst data) (map fst rand) (map snd data) (map snd rand)) L m b in
  Measured (b_centre b) (s_coord (term 0%Z 0%Z)) (s_count (term 0%Z 0%Z))
    (RtoC norm * order_sum L w (fun M m => s_stat (term M m)))%C (RtoC 0).

(** twopt.cpp 609-701 ([compute_powspec_in_gpp_box]) and 703-793
    ([compute_corrfunc_in_gpp_box]) *)
Definition compute_powspec_in_gpp_box (P : Z -> Z -> R -> R) (st : settings) (order : list cell)
    (L : Z) (ps : list pdatum) (norm : R) (b : bin3) : measured :=
  let dn := transform st (fluctuation_field st ps) in
  let s := stats_fourier P st order dn dn (RtoC (INR (length ps))) L 0 b in
  Measured (b_centre b) (s_coord s) (s_count s)
    (RtoC norm * (RtoC (IZR (2 * L + 1)) * s_stat s))%C (RtoC norm * (RtoC (IZR (2 * L + 1)) * s_shot s))%C.
Definition compute_corrfunc_in_gpp_box (P : Z -> Z -> R -> R) (st : settings) (order : list cell)
    (L : Z) (ps : list pdatum) (norm : R) (b : bin3) : measured :=
  let dn := transform st (fluctuation_field st ps) in
  let s := stats_config P st order dn dn (RtoC (INR (length ps))) L 0 b in
  Measured (b_centre b) (s_coord s) (s_count s)
    (RtoC norm * (RtoC (IZR (2 * L + 1)) * s_stat s))%C (RtoC 0).

(** twopt.cpp 795-903 ([compute_corrfunc_window]) *)
Definition compute_corrfunc_window (P : Z -> Z -> R -> R) (w : triplet -> R) (st : settings)
    (ord : Z -> Z -> list cell) (L : Z) (rand : list ((R * R * R) * pdatum)) (alpha norm : R) (b : bin3)
  : measured :=
  let dn00 := transform st (ylm_wgtd_field1 P st alpha 0 0 rand) in
  let term M m :=
    stats_config P st (ord M m) (transform st (ylm_wgtd_field1 P st alpha L M rand)) dn00
      (ylm_wgtd_shotnoise1 P 2 L M alpha (map fst rand) (map snd rand)) L m b in
  Measured (b_centre b) (s_coord (term 0%Z 0%Z)) (s_count (term 0%Z 0%Z))
    (RtoC norm * order_sum L w (fun M m => s_stat (term M m)))%C (RtoC 0).
