(* Model of the Lanczos approximation to the complex gamma function,
   /repo/src/triumvirate/src/maths.cpp 64-115 (eval_lanczos_approx_series and
   eval_gamma_lanczos).  Doubles are reals: rounding, overflow and underflow
   are not modelled, and the coefficients are the decimal numbers written in
   the source.  A division by zero is the error [NotANumber]. *)
From Coq Require Import Reals ZArith List Bool.
From Coquelicot Require Import Complex.
From Verif Require Import Base ArrayModel FftlogModel.
Import ListNotations.
Local Open Scope R_scope.

(** `std::exp`, `std::pow` (principal branch, for a base off the origin) and
    `std::sin` of complex numbers. *)
Definition Cexp (z : C) : C := (exp (fst z) * cos (snd z), exp (fst z) * sin (snd z)).
Definition Cpow (t w : C) : C := Cexp (w * Clog t)%C.
Definition Csin (z : C) : C := (sin (fst z) * cosh (snd z), cos (fst z) * sinh (snd z)).

(** Complex division. *)
Definition cdiv (a b : C) : res C :=
  if Reqb (fst b) 0 && Reqb (snd b) 0 then Err NotANumber else Ok (a / b)%C.

(** 71: `gconst_lanczos`. *)
Definition gconst : R := 7.

(** 78-88: `pcoeff_lanczos`. *)
Definition pcoeff : list R :=
  [ IZR 999999999999809932277 / 10 ^ 21;
    IZR 676520368121885098567 / 10 ^ 18;
    - IZR 125913921672240287047 / 10 ^ 17;
    IZR 771323428777653078849 / 10 ^ 18;
    - IZR 176615029162140599066 / 10 ^ 18;
    IZR 125073432786869048145 / 10 ^ 19;
    - IZR 138571095265720116896 / 10 ^ 21;
    IZR 998436957801957085956 / 10 ^ 26;
    IZR 150563273514931155834 / 10 ^ 27 ].

(** 91-93: the loop, from the term numbered [i]. *)
Fixpoint series_from (cs : list R) (i : Z) (z acc : C) : res C :=
  match cs with
  | [] => Ok acc
  | c :: cs => d <- cdiv (RtoC c) (z + RtoC (IZR i))%C ;; series_from cs (i + 1) z (acc + d)%C
  end.

(** `eval_lanczos_approx_series`, 73-96. *)
Definition lanczos_series (z : C) : res C :=
  match pcoeff with
  | [] => Err OutOfBounds
  | c0 :: cs => series_from cs 1 z (RtoC c0)
  end.

(** `eval_gamma_lanczos`, 98-115.  [fuel] bounds the number of nested calls. *)
Fixpoint eval_gamma_lanczos (fuel : nat) (z : C) : res C :=
  match fuel with
  | O => Err OutOfFuel
  | S fuel =>
      if Rltb (fst z) (1 / 2) then
        (* 101-103 *)
        g <- eval_gamma_lanczos fuel (RtoC 1 - z)%C ;;
        cdiv (RtoC PI) (Csin (RtoC PI * z) * g)%C
      else
        (* 106-114 *)
        let z := (z - RtoC 1)%C in
        let t := (z + RtoC gconst + RtoC (1 / 2))%C in
        series <- lanczos_series z ;;
        Ok (RtoC (sqrt (2 * PI)) * Cpow t (z + RtoC (1 / 2)) * Cexp (- t) * series)%C
  end.
