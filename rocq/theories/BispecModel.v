(* Model of the three-point measurements of /repo/src/triumvirate/src/threept.cpp 248-2975
   and of the field operations they use, field.cpp 1722-1785, 1791-2010 and 2947-3396, for
   one entry of the data vector, that is one pair of bins: which entries are written is the
   subject of ThreePtModel. Fields, transforms and two-point statistics are those of
   FieldModel; the spherical Bessel functions (SphericalBesselCalculator) are a parameter
   [sj l x]. Logging, progress bars and memory counters are left out. *)
From Coq Require Import Reals ZArith List Lia Lra Bool Permutation.
From Coquelicot Require Import Complex.
From Verif Require Import Base ArrayModel MeshModel BinVecModel CSum ThreePtModel SphHarmModel CatModel NormModel FieldModel.
Import ListNotations.
Open Scope R_scope.

(** ** Fields *)

(** field.cpp 1764-1785 followed by 1657-1721: compensation and inverse transform. *)
Definition compensated (st : settings) (fk : cell -> C) : cell -> C :=
  inv_fourier (ngrid (st_mesh st)) (st_vol st) (st_order st) fk.

(** field.cpp 1727-1762 ([apply_wide_angle_pow_law_kernel]); [n] is [i_wa + j_wa]. *)
Definition wide_angle_kernel (st : settings) (n : Z) (f : cell -> C) (x : cell) : C :=
  let r := vec_mod (wavevector (ngrid (st_mesh st)) (dr_of (st_mesh st)) x) in
  if Rltb r (/ 1000000) then f x else (RtoC (powerRZ r (- n)) * f x)%C.

(** field.cpp 1791-1906 ([inv_fourier_transform_ylm_wgtd_field_band_limited]): the field
    is [band_field]; here the modes and the effective wavenumber. *)
Definition modes_of (st : settings) (b : bin3) : list cell :=
  band_modes (ngrid (st_mesh st)) (dk_of (st_mesh st)) (b_lo b) (b_hi b).
Definition k_eff (st : settings) (b : bin3) : R :=
  fold_right Rplus 0 (map (fun c => vec_mod (wavevector (ngrid (st_mesh st)) (dk_of (st_mesh st)) c)) (modes_of st b))
  / INR (length (modes_of st b)).
Definition band (P : Z -> Z -> R -> R) (st : settings) (fk : cell -> C) (l m : Z) (b : bin3) : cell -> C :=
  band_field P (ngrid (st_mesh st)) (dk_of (st_mesh st)) (st_order st) fk l m (b_lo b) (b_hi b).

(** field.cpp 1908-2010 ([inv_fourier_transform_sjl_ylm_wgtd_field]) *)
Definition sjl_field (P : Z -> Z -> R -> R) (sj : Z -> R -> R) (st : settings) (fk : cell -> C) (l m : Z) (r : R)
    (x : cell) : C :=
  let ng := ngrid (st_mesh st) in
  csum (map (fun c =>
    let '(i, j, k) := c in
    let v := wavevector ng (dk_of (st_mesh st)) c in
    (RtoC (sj l (vec_mod v * r)%R) * (reduced_ylm P l m v * (fk c * RtoC (/ window_direct ng i j k (st_order st))))
     * RtoC (/ st_vol st)) * cis (dft_phase ng c x))%C (grid_cells ng)).

(** ** Shot noise *)

(** field.cpp 2947-3196 ([compute_uncoupled_shotnoise_for_3pcf]) for one bin; the degrees
    of the sign are those of the parameter set. *)
Definition shot_3pcf (P : Z -> Z -> R -> R) (st : settings) (order : list cell) (fa fb : cell -> C) (amp : C)
    (l1 l2 m1 m2 : Z) (b : bin3) : stats2 :=
  let g := st_mesh st in
  let vec := wavevector (ngrid g) (dr_of g) in
  let len := fun c => vec_mod (vec c) in
  let xi := twopt_3d st fa fb amp in
  let '(n, r) := bin_result dr_sample (b_lo b) (b_hi b) (b_centre b) len len order in
  let v := bin_complex dr_sample (b_lo b) (b_hi b) len
             (fun c => xi c * (reduced_ylm P l1 m1 (vec c) * reduced_ylm P l2 m2 (vec c)))%C order in
  let norm_factors := / vol_cell g * powerRZ (-1) (l1 + l2) in
  Stats2 n r (if Reqb n 0 then v else v * RtoC (norm_factors / n))%C (RtoC 0).

(** field.cpp 3198-3396 ([compute_uncoupled_shotnoise_for_bispec_per_bin]) *)
Definition shot_bispec (P : Z -> Z -> R -> R) (sj : Z -> R -> R) (st : settings) (fa fb : cell -> C) (amp : C)
    (l1 l2 m1 m2 : Z) (ka kb : R) : C :=
  let g := st_mesh st in
  let vec := wavevector (ngrid g) (dr_of g) in
  let xi := twopt_3d st fa fb amp in
  (csum (map (fun c =>
     xi c * (RtoC (sj l1 (ka * vec_mod (vec c))%R * sj l2 (kb * vec_mod (vec c))%R)
             * reduced_ylm P l1 m1 (vec c) * reduced_ylm P l2 m2 (vec c))) (grid_cells (ngrid g)))
   * RtoC (vol_cell g))%C.

(** ** Loops *)

(** Integer power of the imaginary unit, [std::pow(trvm::M_I, n)]. *)
Definition ipow (n : Z) : C :=
  match (n mod 4)%Z with 0%Z => RtoC 1 | 1%Z => (0, 1) | 2%Z => (-1, 0) | _ => (0, -1) end.

(** threept.cpp 388-422, 966-967: the loop body with the additions [add t] to one entry. *)
Definition term_step (c : triplet -> R) (add : triplet -> C) (s : loop_state) (t : triplet) : loop_state :=
  let '(computed, acc) := s in
  if existsb (is_inverse t) computed then s
  else if Rltb (Rabs (c t)) eps_coupling then s
  else (computed ++ [t], acc + add t)%C.
Definition term_loop (c : triplet -> R) (add : triplet -> C) (visited : list triplet) : C :=
  snd (fold_left (term_step c add) visited ([], RtoC 0)).

(** The mirror factors, threept.cpp 416-419. *)
Definition mirror_of (L : Z) (t : triplet) : R := if is_zeros t then 0 else powerRZ (-1) L.
Definition mirror_w3j (t : triplet) : R := if is_zeros t then 0 else 1.
Definition mirrored_sum (f : R) (z : C) : C := (z + RtoC f * Cconj z)%C.

(** One entry of the output. *)
Record measured3 : Type := Measured3 {
  t_bin1 : R; t_bin2 : R; t_eff1 : R; t_eff2 : R; t_n1 : R; t_n2 : R; t_raw : C; t_shot : C }.

(** The transformed fields used at each order [M]: [dn] and [N] (by order of the
    line-of-sight harmonic) and the amplitude [S]. *)
Record sources : Type := Sources { s_dn : Z -> cell -> C; s_N : Z -> cell -> C; s_S : Z -> C }.

(** threept.cpp 268, 318-333, 448-455, 772-798: survey catalogues. *)
Definition survey_sources (P : Z -> Z -> R -> R) (st : settings) (alpha : R) (L : Z)
    (data rand : list ((R * R * R) * pdatum)) : sources :=
  Sources (fun M => transform st (ylm_wgtd_field P st alpha L M data rand))
          (fun M => transform st (quad_field P st alpha L M data rand))
          (fun M => ylm_wgtd_shotnoise P 3 L M alpha (map fst data) (map fst rand) (map snd data) (map snd rand)).

(** threept.cpp 2684-2693, 2818-2830: a random catalogue. *)
Definition window_sources (P : Z -> Z -> R -> R) (st : settings) (alpha : R) (L : Z)
    (rand : list ((R * R * R) * pdatum)) : sources :=
  Sources (fun M => transform st (ylm_wgtd_field1 P st alpha L M rand))
          (fun M => transform st (quad_field1 P st alpha L M rand))
          (fun M => ylm_wgtd_shotnoise1 P 3 L M alpha (map fst rand) (map snd rand)).

(** threept.cpp 1541-1559, 1980-1983: a periodic box. *)
Definition box_sources (st : settings) (ps : list pdatum) : sources :=
  Sources (fun _ => transform st (fluctuation_field st ps)) (fun _ => transform st (unweighted_field st ps))
          (fun _ => RtoC (INR (length ps))).

(** threept.cpp 452-518 (and 1664-1727): the component of the raw bispectrum. *)
Definition raw_component (P : Z -> Z -> R -> R) (st : settings) (dn : cell -> C) (G : Z -> cell -> C) (l1 l2 : Z)
    (a b : bin3) (t : triplet) : C :=
  let '(m1, m2, M) := t in
  bispec_component (ngrid (st_mesh st)) (band P st dn l1 m1 a) (band P st dn l2 m2 b) (compensated st (G M)).

(** threept.cpp 800-964 (and 1985-2140): the additions to the shot noise. *)
Definition bispec_shot_add (P : Z -> Z -> R -> R) (sj : Z -> R -> R) (st : settings) (ord : triplet -> list cell)
    (dn00 N00 : cell -> C) (src : sources) (c : triplet -> R) (l1 l2 L : Z) (a b : bin3) (t : triplet) : C :=
  let '(m1, m2, M) := t in
  let ct := RtoC (c t) in
  let row := stats_fourier P st (ord t) dn00 (s_N src M) (s_S src M) l1 m1 a in
  let col := stats_fourier P st (ord t) dn00 (s_N src M) (s_S src M) l2 m2 b in
  ((if ((l1 =? 0) && (l2 =? 0))%Z then ct * s_S src M else RtoC 0)
   + (if (l2 =? 0)%Z then mirrored_sum (mirror_of L t) (ct * (s_stat row - s_shot row)) else RtoC 0)
   + (if (l1 =? 0)%Z then mirrored_sum (mirror_of L t) (ct * (s_stat col - s_shot col)) else RtoC 0)
   + ipow (l1 + l2) * mirrored_sum (mirror_w3j t)
       (ct * shot_bispec P sj st (s_dn src M) N00 (s_S src M) l1 l2 m1 m2 (k_eff st a) (k_eff st b)))%C.

(** A bin without modes makes the field and the effective wavenumber 0 / 0. *)
Definition bispec_entry (P : Z -> Z -> R -> R) (sj : Z -> R -> R) (w : triplet -> R) (st : settings)
    (ord : triplet -> list cell) (dn00 N00 : cell -> C) (src : sources) (visited : list triplet) (l1 l2 L : Z)
    (norm : R) (a b : bin3) : res measured3 :=
  _ <- validate_coupling w ;;
  if ((length (modes_of st a) =? 0) || (length (modes_of st b) =? 0))%nat then Err NotANumber else
  let c := coupling_3pt l1 l2 L w in
  let raw t := (RtoC (c t) * RtoC (vol_cell (st_mesh st))
                * mirrored_sum (mirror_of L t) (raw_component P st dn00 (s_dn src) l1 l2 a b t))%C in
  Ok (Measured3 (b_centre a) (b_centre b) (k_eff st a) (k_eff st b)
        (INR (length (modes_of st a))) (INR (length (modes_of st b)))
        (RtoC norm * term_loop c raw visited)
        (RtoC norm * term_loop c (bispec_shot_add P sj st ord dn00 N00 src c l1 l2 L a b) visited))%C.

(** threept.cpp 248-1012 ([compute_bispec]) *)
Definition compute_bispec (P : Z -> Z -> R -> R) (sj : Z -> R -> R) (w : triplet -> R) (st : settings)
    (ord : triplet -> list cell) (wsum_data wsum_rand : R) (l1 l2 L : Z)
    (data rand : list ((R * R * R) * pdatum)) (norm : R) (a b : bin3) : res measured3 :=
  let alpha := wsum_data / wsum_rand in
  bispec_entry P sj w st ord (transform st (ylm_wgtd_field P st alpha 0 0 data rand))
    (transform st (quad_field P st alpha 0 0 data rand)) (survey_sources P st alpha L data rand)
    (visited_survey l1 l2 L w) l1 l2 L norm a b.

(** threept.cpp 1473-2188 ([compute_bispec_in_gpp_box]) *)
Definition compute_bispec_in_gpp_box (P : Z -> Z -> R -> R) (sj : Z -> R -> R) (w : triplet -> R) (st : settings)
    (ord : triplet -> list cell) (l1 l2 L : Z) (ps : list pdatum) (norm : R) (a b : bin3) : res measured3 :=
  bispec_entry P sj w st ord (transform st (fluctuation_field st ps)) (transform st (unweighted_field st ps))
    (box_sources st ps) (visited_box l1 l2) l1 l2 L norm a b.

(** threept.cpp 1215-1229, 1345-1440 (and 2838-3035): the entry of the three-point
    correlation function; [same] tells whether the two bins are one, [wa] is the exponent
    of the wide-angle corrections if they are applied. *)
Definition threepcf_entry (P : Z -> Z -> R -> R) (sj : Z -> R -> R) (w : triplet -> R) (st : settings)
    (ord : triplet -> list cell) (dn00 N00 : cell -> C) (src : sources) (visited : list triplet) (l1 l2 L : Z)
    (norm : R) (wa : option Z) (same : bool) (a b : bin3) : res measured3 :=
  _ <- validate_coupling w ;;
  let c := coupling_3pt l1 l2 L w in
  let factor_parity := powerRZ (-1) (l1 + l2) in
  let shot b t := let '(m1, m2, M) := t in
    shot_3pcf P st (ord t) (s_dn src M) N00 (s_S src M) l1 l2 m1 m2 b in
  let ra := s_coord (shot a (0, 0, 0)%Z) in
  let rb := s_coord (shot b (0, 0, 0)%Z) in
  let G M := let g := compensated st (s_dn src M) in
    match wa with None => g | Some n => wide_angle_kernel st n g end in
  let raw t := let '(m1, m2, M) := t in
    (RtoC (c t) * RtoC (vol_cell (st_mesh st)) * ipow (l1 + l2) * mirrored_sum (mirror_of L t)
      (bispec_component (ngrid (st_mesh st)) (sjl_field P sj st dn00 l1 m1 ra) (sjl_field P sj st dn00 l2 m2 rb) (G M)))%C in
  let sn t := (RtoC (c t) * RtoC factor_parity * mirrored_sum (mirror_w3j t) (s_stat (shot a t)))%C in
  Ok (Measured3 (b_centre a) (b_centre b) ra rb (s_count (shot a (0, 0, 0)%Z)) (s_count (shot b (0, 0, 0)%Z))
        (RtoC norm * term_loop c raw visited)
        (RtoC norm * if same then term_loop c sn visited else RtoC 0))%C.

(** threept.cpp 1014-1471 ([compute_3pcf]), 2190-2619 ([compute_3pcf_in_gpp_box]) and
    2621-2975 ([compute_3pcf_window]) *)
Definition compute_3pcf (P : Z -> Z -> R -> R) (sj : Z -> R -> R) (w : triplet -> R) (st : settings)
    (ord : triplet -> list cell) (wsum_data wsum_rand : R) (l1 l2 L : Z)
    (data rand : list ((R * R * R) * pdatum)) (norm : R) (same : bool) (a b : bin3) : res measured3 :=
  let alpha := wsum_data / wsum_rand in
  threepcf_entry P sj w st ord (transform st (ylm_wgtd_field P st alpha 0 0 data rand))
    (transform st (quad_field P st alpha 0 0 data rand)) (survey_sources P st alpha L data rand)
    (visited_survey l1 l2 L w) l1 l2 L norm None same a b.
Definition compute_3pcf_in_gpp_box (P : Z -> Z -> R -> R) (sj : Z -> R -> R) (w : triplet -> R) (st : settings)
    (ord : triplet -> list cell) (l1 l2 L : Z) (ps : list pdatum) (norm : R) (same : bool) (a b : bin3) : res measured3 :=
  threepcf_entry P sj w st ord (transform st (fluctuation_field st ps)) (transform st (unweighted_field st ps))
    (box_sources st ps) (visited_box l1 l2) l1 l2 L norm None same a b.
Definition compute_3pcf_window (P : Z -> Z -> R -> R) (sj : Z -> R -> R) (w : triplet -> R) (st : settings)
    (ord : triplet -> list cell) (l1 l2 L : Z) (rand : list ((R * R * R) * pdatum)) (alpha norm : R)
    (wa : option Z) (same : bool) (a b : bin3) : res measured3 :=
  threepcf_entry P sj w st ord (transform st (ylm_wgtd_field1 P st alpha 0 0 rand))
    (transform st (quad_field1 P st alpha 0 0 rand)) (window_sources P st alpha L rand)
    (visited_survey l1 l2 L w) l1 l2 L norm wa same a b.
