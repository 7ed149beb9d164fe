(* Model of the 1-d routines of /repo/src/triumvirate/_arrayops.py and of
   /repo/src/triumvirate/src/arrayops.cpp.  A numpy/std::vector array of double
   is a [list R]; rounding is not modelled.  The model takes arrays that are
   already 1-d ([np.squeeze] is the identity on them, up to size-one arrays
   which are rejected for their size anyway). *)
From Coq Require Import Reals ZArith List Lia Lra Bool.
From Verif Require Import Base.
Import ListNotations.
Open Scope R_scope.

(** ** Indexing helpers.  [a[0]], [a[1]], [a[-1]], [a[-2]]: only used after the
    size check, which makes the default value unreachable. *)
Definition at0 (a : list R) : R := nth 0 a 0.
Definition at1 (a : list R) : R := nth 1 a 0.
Definition atm1 (a : list R) : R := nth (length a - 1) a 0.
Definition atm2 (a : list R) : R := nth (length a - 2) a 0.

(** [np.arange(lo, hi)] and [np.arange(n, 0, -1)]. *)
Definition arange (lo hi : Z) : list Z :=
  map (fun i => (lo + Z.of_nat i)%Z) (seq 0 (Z.to_nat (hi - lo))).
Definition arange_down (n : Z) : list Z :=
  map (fun i => (n - Z.of_nat i)%Z) (seq 0 (Z.to_nat n)).

(** [np.full(n, c)]: negative sizes raise ValueError. *)
Definition np_full (n : Z) (c : R) : res (list R) :=
  if (n <? 0)%Z then Err ValueError else Ok (repeat c (Z.to_nat n)).

(** All adjacent pairs satisfy a decidable relation, as in
    [np.all(rel(a[:-1], a[1:]))]. *)
Fixpoint all_adjacent (rel : R -> R -> bool) (a : list R) : bool :=
  match a with
  | x :: ((y :: _) as t) => rel x y && all_adjacent rel t
  | _ => true
  end.

Definition Rleb (x y : R) : bool := if Rle_dec x y then true else false.
Definition Rltb (x y : R) : bool := if Rlt_dec x y then true else false.
Definition Reqb (x y : R) : bool := if Req_EM_T x y then true else false.

(** _arrayops.py 112-122: endpoint sign check. *)
Definition epsign_ok (strict : bool) (a : list R) : bool :=
  if strict then Rltb 0 (at0 a * at1 a) && Rltb 0 (atm1 a * atm2 a)
  else (Rltb 0 (at0 a * at1 a) || Reqb (at0 a) 0)
       && (Rltb 0 (atm1 a * atm2 a) || Reqb (atm1 a) 0).

(** [np.allclose(x, c)] with default tolerances: |x_i - c| <= 1e-8 + 1e-5 |c|. *)
Definition allclose (x : list R) (c : R) : bool :=
  forallb (fun v => Rleb (Rabs (v - c)) (/ 100000000 + / 100000 * Rabs c)) x.

Definition rsum (l : list R) : R := fold_right Rplus 0 l.
Definition rmean (l : list R) : R := rsum l / INR (length l).

(** [a[1:] - a[:-1]] and [a[1:] / a[:-1]]. *)
Fixpoint diffs (a : list R) : list R :=
  match a with
  | x :: ((y :: _) as t) => (y - x) :: diffs t
  | _ => []
  end.
Fixpoint ratios (a : list R) : list R :=
  match a with
  | x :: ((y :: _) as t) => (y / x) :: ratios t
  | _ => []
  end.

(** _arrayops.py 72-139.  In the log-linear check a non-positive ratio makes
    [np.log] produce NaN (or -inf), for which [np.allclose] is false; the
    check [existsb] below stands for that. *)
Definition check_1d_array (check_sorted check_epsign check_lin check_loglin : bool)
    (a : list R) : res (list R) :=
  if (length a <? 2)%nat then Err ShapeError
  else if check_sorted &&
          (negb (all_adjacent Rleb a) || negb (all_adjacent (fun x y => Rleb y x) a))
  then Err OrderError
  else if check_epsign && negb (epsign_ok false a) then Err MixedSignError
  else if check_lin && negb (allclose (diffs a) (rmean (diffs a))) then Err SpacingError
  else if check_loglin && negb (epsign_ok true a) then Err MixedSignError
  else if check_loglin &&
          (existsb (fun r => Rleb r 0) (ratios a) || existsb (fun x => Reqb x 0) a
           || negb (allclose (map ln (ratios a)) (rmean (map ln (ratios a)))))
  then Err SpacingError
  else Ok a.

(** _arrayops.py 249-273. *)
Definition extrap_pad (a : list R) (n_ext : Z) (c_lower c_upper : R) : res (list R) :=
  a <- check_1d_array false false false false a ;;
  a_l <- np_full n_ext c_lower ;;
  a_r <- np_full n_ext c_upper ;;
  Ok (a_l ++ a ++ a_r).

(** _arrayops.py 276-301. *)
Definition extrap_lin (a : list R) (n_ext : Z) : res (list R) :=
  a <- check_1d_array false false false false a ;;
  let a_l := map (fun k => at0 a + (at1 a - at0 a) * IZR k) (arange (- n_ext) 0) in
  let a_r := map (fun k => atm1 a + (atm1 a - atm2 a) * IZR k) (arange 1 (n_ext + 1)) in
  Ok (a_l ++ a ++ a_r).

(** Real power with an integer array of exponents (all positive here). *)
Definition rpow (x : R) (k : Z) : R := x ^ Z.to_nat k.

(** _arrayops.py 304-329.  A zero divisor gives NaN entries (0/0) as soon as
    there is an entry to compute; the model returns [NotANumber]. *)
Definition extrap_loglin (a : list R) (n_ext : Z) : res (list R) :=
  a <- check_1d_array false true false false a ;;
  if (0 <? n_ext)%Z && (Reqb (at1 a) 0 || Reqb (atm2 a) 0) then Err NotANumber
  else
    let a_l := map (fun k => at0 a * rpow (at0 a / at1 a) k) (arange_down n_ext) in
    let a_r := map (fun k => atm1 a * rpow (atm1 a / atm2 a) k) (arange 1 (n_ext + 1)) in
    Ok (a_l ++ a ++ a_r).

(** ** C++ versions, src/arrayops.cpp.  [N_ext] is a C++ [int], given here as
    [nat] since a negative size would throw in [resize]. The loops over [i] become a
    table over [0 .. N_extrap). *)

(** src/arrayops.cpp 85-89: sign check over all adjacent pairs. *)
Definition cpp_check_sign (a : list R) : bool :=
  all_adjacent (fun x y => negb (Rleb (x * y) 0)) a.

(** src/arrayops.cpp 182-203. *)
Definition cpp_extrap_pad (a : list R) (N_ext : nat) (c_lower c_upper : R) : list R :=
  let N := length a in
  map (fun i =>
         if (i <? N_ext)%nat then c_lower
         else if (i <? N_ext + N)%nat then nth (i - N_ext) a 0
         else c_upper)
      (seq 0 (N_ext + N + N_ext)).

(** src/arrayops.cpp 94-121.  Fewer than two samples: [a[1]] is out of range. *)
Definition cpp_extrap_lin (a : list R) (N_ext : nat) : res (list R) :=
  let N := length a in
  if (N <? 2)%nat then Err OutOfBounds
  else
    let da_left := nth 1 a 0 - nth 0 a 0 in
    let da_right := nth (N - 1) a 0 - nth (N - 2) a 0 in
    Ok (map (fun i =>
          if (i <? N_ext)%nat then
            nth 0 a 0 + IZR (Z.of_nat i - Z.of_nat N_ext) * da_left
          else if (i <? N_ext + N)%nat then nth (i - N_ext) a 0
          else
            nth (N - 1) a 0 + IZR (Z.of_nat i - (Z.of_nat N_ext + Z.of_nat N - 1)) * da_right)
        (seq 0 (N_ext + N + N_ext))).

(** src/arrayops.cpp 123-180.  The sign check excludes zero divisors, so the
    NaN checks that follow it in the source never fire. *)
Definition cpp_extrap_loglin (a : list R) (N_ext : nat) : res (list R) :=
  let N := length a in
  if (N =? 0)%nat then Err OutOfBounds
  else if negb (cpp_check_sign a) then Err ValueError
  else if (N <? 2)%nat then Err OutOfBounds
  else
    let dlna_left := ln (nth 1 a 0 / nth 0 a 0) in
    let dlna_right := ln (nth (N - 1) a 0 / nth (N - 2) a 0) in
    Ok (map (fun i =>
          if (i <? N_ext)%nat then
            nth 0 a 0 * exp (IZR (Z.of_nat i - Z.of_nat N_ext) * dlna_left)
          else if (i <? N_ext + N)%nat then nth (i - N_ext) a 0
          else
            nth (N - 1) a 0 * exp (IZR (Z.of_nat i - (Z.of_nat N_ext + Z.of_nat N - 1)) * dlna_right))
        (seq 0 (N_ext + N + N_ext))).
