(* Coefficients of window convolution terms: `_N_prefactor`, `_H_factor` and
   `calc_threept_winconv_coeff`, /repo/src/triumvirate/winconv.py 395-487.

   `wigner_3j`, `racah` and `wigner_9j` of sympy are not part of the
   repository: the first is the Racah sum of WignerProps.v, the other two are
   the sums sympy documents (a 9-j symbol is a sum of products of three Racah
   coefficients), for degrees that are integers.  sympy's numbers are real
   numbers with its two values for divisions by zero, `zoo` and `nan`. *)
From Coq Require Import String.
From Coq Require Import Reals ZArith List Lia Lra Bool.
From Coquelicot Require Import Complex.
From Verif Require Import Base ArrayModel RSum CSum BinVecModel ThreePtModel WignerProps MultipoleModel WindowModel WinConvModel.
Import ListNotations.
Local Open Scope R_scope.

(* ------------------------------------------------------------------ *)
(* sympy                                                               *)

Inductive number := Finite (x : R) | Zoo | Nan.

Definition times (a b : number) : number :=
  match a, b with
  | Nan, _ | _, Nan => Nan
  | Finite x, Finite y => Finite (x * y)
  | Zoo, Zoo => Zoo
  | Zoo, Finite y | Finite y, Zoo => if Reqb y 0 then Nan else Zoo
  end.
Definition over (a : number) (y : R) : number :=
  times a (if Reqb y 0 then Zoo else Finite (/ y)).

(** `float(...)`: complex infinity is a TypeError. *)
Definition as_float (a : number) : res R :=
  match a with Finite x => Ok x | Nan => Err NotANumber | Zoo => Err TypeError end.

(** The triangle coefficient: zero unless the three degrees can be the sides
    of a triangle. *)
Definition delta_coeff (a b c : Z) : R :=
  if ((a + b - c <? 0) || (a + c - b <? 0) || (b + c - a <? 0))%Z then 0
  else sqrt (factZ (a + b - c) * factZ (a + c - b) * factZ (b + c - a) / factZ (a + b + c + 1)).

Definition racah_summand (a b c d e f k : Z) : R :=
  sign k * factZ (k + 1)
  / (factZ (k - a - b - e) * factZ (k - c - d - e) * factZ (k - a - c - f) * factZ (k - b - d - f)
     * factZ (a + b + c + d - k) * factZ (a + d + e + f - k) * factZ (b + c + e + f - k)).

Definition racah (a b c d e f : Z) : R :=
  let pre := delta_coeff a b e * delta_coeff c d e * delta_coeff a c f * delta_coeff b d f in
  let lo := Z.max (Z.max (a + b + e) (c + d + e)) (Z.max (a + c + f) (b + d + f)) in
  let hi := Z.min (a + b + c + d) (Z.min (a + d + e + f) (b + c + e + f)) in
  pre * rsum (map (racah_summand a b c d e f) (arange lo (hi + 1))) * sign (a + b + c + d).

(** Twice the summation variable of sympy runs over the even numbers. *)
Definition wigner_9j (j1 j2 j3 j4 j5 j6 j7 j8 j9 : Z) : R :=
  let hi := Z.min (j1 + j9) (Z.min (j2 + j6) (j4 + j8)) in
  rsum (map (fun k => IZR (2 * k + 1) * racah j1 j2 j9 j6 j3 k * racah j4 j6 j8 j2 j5 k * racah j1 j4 j9 j8 j7 k)
         (arange 0 (hi + 1))).

(* ------------------------------------------------------------------ *)
(* winconv.py                                                          *)

(** `_N_prefactor`, 395-416. *)
Definition n_prefactor (l1 l2 L : Z) : R := IZR ((2 * l1 + 1) * (2 * l2 + 1) * (2 * L + 1)).

(** `_H_factor`, 419-433. *)
Definition h_factor (l1 l2 l3 : Z) : R := wigner_3j l1 l2 l3 (0, 0, 0)%Z.

(** `ell1, ell2, L = multipole.index`: three indices, or a ValueError. *)
Definition three (m : list Z) : res (Z * Z * Z) :=
  match m with [a; b; c] => Ok (a, b, c) | _ => Err ValueError end.

(** 472-487, left to right. *)
Definition coeff_number (m q z : Z * Z * Z) : number :=
  let '(l1, l2, L) := m in
  let '(z1, z2, zL) := z in
  let '(q1, q2, qL) := q in
  let frac := times (times (times
    (over (over (Finite (h_factor l1 l2 L)) (h_factor z1 z2 zL)) (h_factor q1 q2 qL))
    (Finite (h_factor l1 z1 q1))) (Finite (h_factor l2 z2 q2))) (Finite (h_factor L zL qL)) in
  times (Finite (n_prefactor l1 l2 L * wigner_9j q1 q2 qL z1 z2 zL l1 l2 L)) frac.

(** `calc_threept_winconv_coeff` without `symb`, 436-487.  The comparison with
    'ic' is made before `multipole_Z` is coerced. *)
Definition winconv_coeff (m q z : mlike) : res R :=
  m <- multipole m ;;
  q <- multipole q ;;
  if is_ic z then Ok (if meq q m then -1 else 0)
  else
    z <- multipole z ;;
    m3 <- three m ;;
    z3 <- three z ;;
    q3 <- three q ;;
    as_float (coeff_number m3 q3 z3).
