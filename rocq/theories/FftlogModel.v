(* Model of the FFTLog transforms of /repo/src/triumvirate/src/fftlog.cpp
   (HankelTransform and SphericalBesselTransform) and of the parts of
   /repo/src/triumvirate/src/maths.cpp they use.
   Doubles are reals: rounding, overflow of [int] and infinities are not
   modelled.  FFTW's forward plan is the sum [dftf] of Dft.v.  GSL's complex
   log-gamma is an argument [g] of which nothing is assumed in the model.
   FFTW plans, GPU branches and threading (50-101, 174-226, 409-466) only
   choose how the two forward transforms are carried out. *)
From Coq Require Import Reals ZArith List Lia Lra Bool.
From Flocq Require Import Core.Raux.
From Coquelicot Require Import Complex.
From Verif Require Import Base ArrayModel CSum Dft.
Import ListNotations.
Local Open Scope R_scope.

(** `gsl_sf_lngamma_complex_e(x, y)`: modulus ln|Gamma| and phase of the complex
    log-gamma at x + iy, maths.cpp 121-127 (get_lngamma_parts). *)
Record gsl := mk_gsl { lnr : R -> R -> R; theta : R -> R -> R }.

(** `eval_complex_in_polar`, maths.cpp 44-46. *)
Definition polar (r t : R) : C := (r * cos t, r * sin t).

(** `std::round`: to the nearest integer, halves away from zero. *)
Definition cround (x : R) : Z :=
  if Rleb 0 x then Zfloor (x + / 2) else (- Zfloor (- x + / 2))%Z.

(** `check_1d_array(a, false, true, false)`, arrayops.cpp 60-92, and
    `check_isclose`, include/arrayops.hpp 120-129.  A zero denominator or a
    ratio that is not positive raises FE_DIVBYZERO or FE_INVALID. *)
Definition cpp_check_loglin (a : list R) : Z :=
  if existsb (fun x => Reqb x 0) (removelast a) || existsb (fun x => Rleb x 0) (ratios a) then 3%Z
  else if allclose (map ln (ratios a)) (nth 0 (map ln (ratios a)) 0) then 0%Z
  else 2%Z.

(** `std::pow(2, std::ceil(std::log2(x)))` turned into an [int], 125-127: log2
    of zero is -inf, and of a negative number NaN, whose conversion is
    undefined. *)
Definition cpp_size (x : R) : res Z :=
  if Rltb x 0 then Err NotANumber
  else if Reqb x 0 then Ok 0%Z
  else let e := Zceil (ln x / ln 2) in Ok (if (e <? 0)%Z then 0%Z else (2 ^ e)%Z).

(** An initialised transform (include/fftlog.hpp 44-224).  An entry read
    outside `pre_sampts` is None. *)
Record hankel := mk_hankel {
  order : R;
  bias : R;
  nsamp : nat;
  nsamp_trans : nat;
  n_ext : nat;
  logres : R;
  pivot : R;
  extrap : Z;                            (* 0 none, 1 zero, 2 pad, 3 lin, 4 loglin *)
  kernel : list C;
  pre_sampts : list R;
  pre_sampts_extrap : list R;
  post_sampts : list R;
  post_sampts_extrap : list (option R)
}.

(** 39-47: the constructor refuses poles of the gamma function. *)
Definition is_pole (x : R) : bool := Rleb x 0 && Reqb (IZR (Zfloor x)) x.
Definition construct (mu q : R) : res unit :=
  if is_pole (mu + 1 + q) || is_pole (mu + 1 - q) then Err InvalidParameter else Ok tt.

(** Complex arithmetic of the Stirling branch of eval_gamma_lnratio:
    principal logarithm `std::log` of a complex number off the origin. *)
Definition Carg (z : C) : R :=
  if Rltb 0 (fst z) then atan (snd z / fst z)
  else if Rltb (fst z) 0 then
    (if Rleb 0 (snd z) then atan (snd z / fst z) + PI else atan (snd z / fst z) - PI)
  else if Rltb 0 (snd z) then PI / 2 else - (PI / 2).
Definition Clog (z : C) : C := (ln (Cmod z), Carg z).

(** Whole powers of a complex number (`std::pow(z, n)`, `z ** n`). *)
Fixpoint Cpown (z : C) (n : nat) : C :=
  match n with
  | O => RtoC 1
  | S n => (z * Cpown z n)%C
  end.
Definition Cpowz (z : C) (k : Z) : C :=
  if (0 <=? k)%Z then Cpown z (Z.to_nat k) else (/ Cpown z (Z.to_nat (- k)))%C.

(** `eval_gamma_lnratio`, maths.cpp 129-157; nu = q + i w. *)
Definition gamma_lnratio (g : gsl) (mu q w : R) : C :=
  let xp := ((mu + 1 + q) / 2, w / 2) in
  let xm := ((mu + 1 - q) / 2, - w / 2) in
  if Rltb w 100 then
    (lnr g (fst xp) (snd xp) - lnr g (fst xm) (snd xm),
     theta g (fst xp) (snd xp) - theta g (fst xm) (snd xm))
  else
    (- (q, w) + (xp - RtoC (1/2)) * Clog xp - (xm - RtoC (1/2)) * Clog xm
     + RtoC (1/12) * (/ xp - / xm)
     - RtoC (1/360) * (/ Cpown xp 3 - / Cpown xm 3)
     + RtoC (1/1260) * (/ Cpown xp 5 - / Cpown xm 5))%C.

(** `calc_lowring_pivot`, 237-268. *)
Definition lowring_pivot (g : gsl) (mu q dL kr : R) : R :=
  let xp := (mu + 1 + q) / 2 in
  let xm := (mu + 1 - q) / 2 in
  let y := PI / (2 * dL) in
  if Rltb 0 kr then
    let argphase := ln (2 / kr) / dL + (theta g xp y + theta g xm y) / PI in
    kr * exp (dL * (argphase - IZR (cround argphase)))
  else
    let lnkr := ln 2 + snd (gamma_lnratio g mu q (2 * y)) / (2 * y) in
    exp (lnkr - IZR (Zfloor (lnkr / dL)) * dL).

(** `compute_kernel_coeff`, 270-345.  [coeff m] for m <= N/2 (302-332); the
    upper half is conjugate (334-336) and the mid-point of an even-sized
    transform keeps its real part only (338-341). *)
Definition coeff (g : gsl) (mu q : R) (N : nat) (dL kr : R) (m : nat) : C :=
  let xp := (mu + 1 + q) / 2 in
  let xm := (mu + 1 - q) / 2 in
  let xeq := (mu + 1) / 2 in
  let y := PI / (INR N * dL) in
  let t := -2 * y * ln (kr / 2) in
  if Reqb q 0 then polar 1 (INR m * t + 2 * theta g xeq (INR m * y))
  else polar (exp (q * ln 2 + lnr g xp (INR m * y) - lnr g xm (INR m * y)))
             (INR m * t + theta g xp (INR m * y) + theta g xm (INR m * y)).

Definition kernel_at (g : gsl) (mu q : R) (N : nat) (dL kr : R) (m : nat) : C :=
  if (Nat.even N && (m =? N / 2))%nat then RtoC (fst (coeff g mu q N dL kr m))
  else if (m <=? N / 2)%nat then coeff g mu q N dL kr m
  else Cconj (coeff g mu q N dL kr (N - m)).

Definition kernel_coeff (g : gsl) (mu q : R) (N : nat) (dL kr : R) : res (list C) :=
  if (N <=? 0)%nat || Rleb dL 0 || Rleb kr 0 then Err RuntimeError
  else Ok (map (kernel_at g mu q N dL kr) (seq 0 N)).

(** `initialise`, 103-172, after the constructor's checks. *)
Definition initialise (g : gsl) (mu q : R) (sample_pts : list R) (kr_c : R) (lowring : bool)
    (ext : Z) (extrap_exp : R) : res hankel :=
  let n := length sample_pts in
  if (n <? 2)%nat then Err InvalidParameter
  else if negb (cpp_check_loglin sample_pts =? 0)%Z then Err InvalidParameter
  else
    let dL := ln (nth (n - 1) sample_pts 0 / nth 0 sample_pts 0) / INR (n - 1) in
    sizes <- (if (ext =? 0)%Z then Ok (n, 0%nat, [])
              else if Nat.odd n then Err InvalidParameter
              else nt <- cpp_size (extrap_exp * INR n) ;;
                   if (nt <? Z.of_nat n)%Z then Err InvalidParameter
                   else let e := ((Z.to_nat nt - n) / 2)%nat in
                        p <- cpp_extrap_loglin sample_pts e ;;
                        Ok (Z.to_nat nt, e, p)) ;;
    let '(nt, e, pre_ext) := sizes in
    kr <- (if lowring then Ok (lowring_pivot g mu q dL kr_c)
           else if Rleb kr_c 0 then Err InvalidParameter
           else Ok kr_c) ;;
    u <- kernel_coeff g mu q nt dL kr ;;
    let kr_aprod := kr * exp (- dL) in
    Ok (mk_hankel mu q n nt e dL kr ext u sample_pts pre_ext
          (map (fun j => kr_aprod / nth (n - j - 1) sample_pts 0) (seq 0 n))
          (if (ext =? 0)%Z then []
           else map (fun j => if (nt - j - 1 <? n)%nat
                              then Some (kr_aprod / nth (nt - j - 1) sample_pts 0) else None)
                    (seq 0 nt))).

Definition hankel_new (g : gsl) (mu q : R) (sample_pts : list R) (kr_c : R) (lowring : bool)
    (ext : Z) (extrap_exp : R) : res hankel :=
  _ <- construct mu q ;; initialise g mu q sample_pts kr_c lowring ext extrap_exp.

(** One forward plan on a buffer. *)
Definition dft (l : list C) : list C :=
  map (dftf (length l) (fun i => nth i l (RtoC 0))) (seq 0 (length l)).

(** The buffer before the first transform, 363-399.  The array behind the
    pointer `a` has [length a] entries. *)
Definition prepare (h : hankel) (a : list C) : res (list C) :=
  if (length a <? nsamp h)%nat then Err OutOfBounds
  else if (extrap h =? 0)%Z then Ok (firstn (nsamp_trans h) a)
  else
    let a_vec := map fst (firstn (nsamp h) a) in
    v <- (if (extrap h =? 1)%Z then Ok (cpp_extrap_pad a_vec (n_ext h) 0 0)
          else if (extrap h =? 2)%Z then
            Ok (cpp_extrap_pad a_vec (n_ext h) (nth 0 a_vec 0) (nth (length a_vec - 1) a_vec 0))
          else if (extrap h =? 3)%Z then cpp_extrap_lin a_vec (n_ext h)
          else if (extrap h =? 4)%Z then cpp_extrap_loglin a_vec (n_ext h)
          else Err InvalidParameter) ;;
    Ok (map RtoC v).

(** 428-437: product with the kernel, normalised. *)
Definition convolve (u a : list C) : list C :=
  map (fun m => nth m a (RtoC 0) * nth m u (RtoC 0) / RtoC (INR (length u)))%C (seq 0 (length u)).

(** `HankelTransform::biased_transform`, 347-476. *)
Definition biased_transform (h : hankel) (a : list C) : res (list C) :=
  if (length (kernel h) =? 0)%nat || (nsamp h <=? 2)%nat || (nsamp_trans h <=? 2)%nat
  then Err RuntimeError
  else
    buf <- prepare h a ;;
    let post := dft (convolve (kernel h) (dft buf)) in
    Ok (map (fun j => nth (j + n_ext h) post (RtoC 0)) (seq 0 (nsamp h))).

(** `SphericalBesselTransform`, 500-577.  Points that are not positive have
    no power 3/2: their samples are NaN. *)
Definition sbt_new (g : gsl) (ell : Z) (n : Z) (sample_pts : list R) (kr_c : R) (lowring : bool)
    (ext : Z) (extrap_exp : R) : res hankel :=
  hankel_new g (IZR ell + 1 / 2) (IZR n) sample_pts kr_c lowring ext extrap_exp.

(** [b] is the array given for the result: it is never resized (535-537 test
    the size of `a` again), so one that is too short is written past its end,
    and the entries of one that is too long stay. *)
Definition sbt_transform (h : hankel) (a b : list C) : res (list C) :=
  if negb (length a =? nsamp h)%nat then Err InvalidParameter
  else if existsb (fun x => Rleb x 0) (pre_sampts h) then Err NotANumber
  else
    B <- biased_transform h
           (map (fun j => RtoC (Rpower (nth j (pre_sampts h) 0) (3 / 2)) * nth j a (RtoC 0))%C
                (seq 0 (nsamp h))) ;;
    if (length b <? nsamp h)%nat then Err OutOfBounds
    else Ok (map (fun j => RtoC (Rpower (2 * PI / nth j (post_sampts h) 0) (3 / 2))
                           * nth j B (RtoC 0))%C (seq 0 (nsamp h))
             ++ skipn (nsamp h) b).

(** 552-577: `transform_cosmological_multipole`; the power -3 of 2 pi. *)
Definition cpp_prefactor (ell dir : Z) : C :=
  ((if (dir =? -1)%Z then RtoC (/ (2 * PI) ^ 3) else RtoC 1) * Cpowz Ci (- dir * ell))%C.

Definition sbt_multipole (h : hankel) (ell dir : Z) (a b : list C) : res (list C) :=
  if negb (Z.abs dir =? 1)%Z then Err InvalidParameter
  else
    b <- sbt_transform h a b ;;
    Ok (map (fun j => if (j <? nsamp h)%nat then nth j b (RtoC 0) * cpp_prefactor ell dir
                      else nth j b (RtoC 0))%C (seq 0 (length b))).
