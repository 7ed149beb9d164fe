(* Model of /repo/src/triumvirate/transforms.py 524-704 (`resample_lglin` and
   `resample_lin`) as public functions: 1-d samples, 2-d samples with one or
   two arrays of points, one or two sizes.  Numbers are binary64 with an
   unbounded exponent: every operation of `np.linspace` is rounded, and
   `np.log10` and `np.power(10, .)` are any functions.  WindowModel has the
   2-d case as `ThreePointWindow.resample` uses it, over the reals. *)
From Coq Require Import Reals ZArith List Lia Lra Bool.
From Flocq Require Import Core.
From Verif Require Import Base ArrayModel Array2dModel WindowModel.
Import ListNotations.
Local Open Scope R_scope.

(** Binary64 numbers and rounding to them; overflow and underflow are not
    represented. *)
Definition float (x : R) : Prop := generic_format radix2 (FLX_exp 53) x.
Definition fl (x : R) : R := round radix2 (FLX_exp 53) ZnearestE x.

(** `np.linspace(start, stop, num)` (numpy/_core/function_base.py): all but
    the last are computed from the step, the last is `stop` itself. *)
Definition np_linspace (start stop : R) (num : Z) : res (list R) :=
  if (num <? 0)%Z then Err ValueError
  else
    let div := (num - 1)%Z in
    let delta := fl (stop - start) in
    let step := fl (delta / IZR div) in
    let y i :=
      if (0 <? div)%Z then
        if Reqb step 0 then fl (fl (IZR (Z.of_nat i) / IZR div) * delta)
        else fl (IZR (Z.of_nat i) * step)
      else fl (IZR (Z.of_nat i) * delta) in
    Ok (map (fun i => if (1 <? num)%Z && (Z.of_nat i =? num - 1)%Z then stop else fl (y i + start))
            (seq 0 (Z.to_nat num))).

(** What the functions are given. *)
Inductive sampts_arg := OneArr (x : list R) | TwoArr (x0 x1 : list R).
Inductive size_arg := SOne (n : option Z) | STwo (n0 n1 : option Z).

(** What they return. *)
Inductive resampled :=
| Res1 (x y : list R)
| Res2 (x0 x1 : list R) (m : matrix).

Section Resample.
Variable log10 pow10 : R -> R.
(** `InterpolatedUnivariateSpline(x, y, k=spline)`, and
    `RectBivariateSpline(x0, x1, m, kx=spline, ky=spline)`: construction may fail. *)
Variable spl1 : nat -> list R -> list R -> res (R -> R).
Variable spl2 : nat -> list R -> list R -> matrix -> res (R -> R -> R).

(** `np.logspace(np.log10(a), np.log10(b), num, base=10)`: the last is the
    power of the end of `np.linspace`. *)
Definition np_logspace (a b : R) (num : Z) : res (list R) :=
  l <- np_linspace (log10 a) (log10 b) num ;; Ok (map pow10 l).

(** 582-585 and 673-675 (596-603 and 686-693 for each dimension).  The log of
    a number that is not positive is NaN or infinite: no points are
    represented then. *)
Definition new_points (lg : bool) (x : list R) (size : option Z) : res (list R) :=
  match x with
  | [] => Err IndexError
  | a :: _ =>
    let b := atm1 x in
    let num := size_or size (length x) in
    if lg then if (num <? 0)%Z then Err ValueError
               else if Rleb a 0 || Rleb b 0 then Err NotANumber
               else np_logspace a b num
    else np_linspace a b num
  end.

(** Evaluation with `ext='raise'`, 586-588 and 676-678: a ValueError if any
    point is outside the first and last of the original ones. *)
Definition eval_raise (f : R -> R) (x p : list R) : res (list R) :=
  if existsb (fun v => Rltb v (at0 x) || Rltb (atm1 x) v) p then Err ValueError else Ok (map f p).

(** 1-d samples, 578-590 and 669-680: the points must be 1-d as well, after
    `np.squeeze` (a single point is 0-d); a pair of sizes is not a number. *)
Definition resample_1d (lg : bool) (x : sampts_arg) (y : list R) (size : size_arg) (k : nat) : res resampled :=
  match x with
  | TwoArr _ _ => Err ValueError
  | OneArr x =>
    if (length x =? 1)%nat then Err ValueError
    else match size with
    | STwo _ _ => match x with [] => Err IndexError | _ => Err TypeError end
    | SOne size =>
      p <- new_points lg x size ;;
      f <- spl1 k x y ;;
      v <- eval_raise f x p ;;
      Ok (Res1 p v)
    end
  end.

(** 2-d samples, 592-612 and 682-702. *)
Definition resample_2d (lg : bool) (x : sampts_arg) (m : matrix) (size : size_arg) (k : nat) : res resampled :=
  let '(x0, x1) := match x with OneArr x => (x, x) | TwoArr x0 x1 => (x0, x1) end in
  let '(n0, n1) := match size with SOne n => (n, n) | STwo n0 n1 => (n0, n1) end in
  p0 <- new_points lg x0 n0 ;;
  p1 <- new_points lg x1 n1 ;;
  f <- spl2 k x0 x1 m ;;
  Ok (Res2 p0 p1 (map (fun u => map (fun v => f u v) p1) p0)).

(** `np.squeeze(sampts)`, 569 and 660: arrays of different lengths make no
    array (a ValueError since numpy 1.24); a pair of single points becomes one
    array of two, and a 0-d array has no first element. *)
Definition squeezed (x : sampts_arg) : res sampts_arg :=
  match x with
  | OneArr x => Ok (OneArr x)
  | TwoArr x0 x1 =>
    if negb (length x0 =? length x1)%nat then Err ValueError
    else if (length x0 =? 1)%nat then Ok (OneArr (x0 ++ x1)) else Ok (TwoArr x0 x1)
  end.

(** The samples: an array of one dimension, or of two given by rows. *)
Inductive samples_arg := Samp1 (y : list R) | Samp2 (m : matrix).

(** `resample_lglin` ([lg = true]) and `resample_lin`, 569-614 and 660-704. *)
Definition resample_points (lg : bool) (x : sampts_arg) (s : samples_arg) (size : size_arg) (k : nat) : res resampled :=
  x <- squeezed x ;;
  let one y := if (length y =? 1)%nat then Err ValueError else resample_1d lg x y size k in
  match s with
  | Samp1 y => one y
  | Samp2 m =>
    if (nrows m =? 1)%nat then one (nth 0 m [])
    else if (ncols m =? 1)%nat then one (map at0 m)
    else match x with
         | OneArr [_] => Err TypeError               (* `len` of a 0-d array, 595 and 685 *)
         | _ => resample_2d lg x m size k
         end
  end.

End Resample.
