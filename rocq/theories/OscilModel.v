(* Model of extrap_loglin_oscil, /repo/src/triumvirate/_arrayops.py 332-488,
   and of its 2-d version (541-563, 710-735).
   np.log of a zero entry is -inf and differences of infinities are NaN, so the
   log-gradients live in an extended type; np.nan_to_num brings them back to
   finite reals.  Rounding and overflow of finite sums are not modelled. *)
From Coq Require Import Reals ZArith List Lia Lra Bool.
From Verif Require Import Base ArrayModel Array2dModel.
Import ListNotations.
Open Scope R_scope.

Inductive xR : Type := Fin (x : R) | PInf | NInf | NaN.

(** [np.log(np.abs(x))]. *)
Definition xlogabs (x : R) : xR := if Req_EM_T x 0 then NInf else Fin (ln (Rabs x)).

Definition xopp (x : xR) : xR :=
  match x with Fin a => Fin (- a) | PInf => NInf | NInf => PInf | NaN => NaN end.
Definition xadd (x y : xR) : xR :=
  match x, y with
  | NaN, _ | _, NaN => NaN
  | Fin a, Fin b => Fin (a + b)
  | PInf, NInf | NInf, PInf => NaN
  | PInf, _ | _, PInf => PInf
  | NInf, _ | _, NInf => NInf
  end.
Definition xsub (x y : xR) : xR := xadd x (xopp y).
(** Division by a positive finite number. *)
Definition xdivp (x : xR) (c : R) : xR :=
  match x with Fin a => Fin (a / c) | _ => x end.

(** Largest double, the value [np.nan_to_num] gives to +inf. *)
Definition max_double : R := 2 ^ 1024 - 2 ^ 971.
Definition nan_to_num (x : xR) : R :=
  match x with Fin a => a | PInf => max_double | NInf => - max_double | NaN => 0 end.

(** [np.gradient(f)] with unit spacing: ValueError below two points. *)
Definition gradient (f : list xR) : res (list xR) :=
  let n := length f in
  if (n <? 2)%nat then Err ValueError
  else Ok (map (fun i =>
         if (i =? 0)%nat then xsub (nth 1 f NaN) (nth 0 f NaN)
         else if (i =? n - 1)%nat then xsub (nth (n - 1) f NaN) (nth (n - 2) f NaN)
         else xdivp (xsub (nth (i + 1) f NaN) (nth (i - 1) f NaN)) 2)
       (seq 0 n)).

Definition xmean (l : list xR) : xR :=
  xdivp (fold_right xadd (Fin 0) l) (INR (length l)).

(** [np.sign]. *)
Definition rsign (x : R) : Z :=
  if Rlt_dec 0 x then 1%Z else if Rlt_dec x 0 then (-1)%Z else 0%Z.

(** [np.nonzero(np.diff(np.sign(a)))[0]]: positions where adjacent signs differ. *)
Definition sign_changes (a : list R) : list nat :=
  filter (fun i => negb (rsign (nth (S i) a 0%R) =? rsign (nth i a 0%R))%Z)
         (seq 0 (length a - 1)).

(** Python slices [a[:k]] and [a[k:]] with negative indices allowed. *)
Definition clip (n : nat) (k : Z) : nat :=
  if (k <? 0)%Z then Z.to_nat (Z.max 0 (Z.of_nat n + k)) else Z.to_nat k.
Definition slice_to (a : list R) (k : Z) : list R := firstn (clip (length a) k) a.
Definition slice_from (a : list R) (k : Z) : list R := skipn (clip (length a) k) a.

(** [np.argmax]: first position of the maximum. *)
Fixpoint argmax_from (l : list R) (i best : nat) (v : R) : nat :=
  match l with
  | [] => best
  | x :: t => if Rlt_dec v x then argmax_from t (S i) i x else argmax_from t (S i) best v
  end.
Definition argmax (l : list R) : nat :=
  match l with [] => 0%nat | x :: t => argmax_from t 1 0 x end.

Definition last_of (l : list nat) : nat := last l 0%nat.
Definition first_of (l : list nat) : nat := hd 0%nat l.

(** [np.nan_to_num(np.gradient(np.log(np.abs(s))))]. *)
Definition lngrad (s : list R) : res (list R) :=
  g <- gradient (map xlogabs s) ;; Ok (map nan_to_num g).

(** The index logic, 357-395.  Returns (idx_ltail, idx_rtail, idx_lquater,
    idx_rquater). *)
Definition tail_indices (a : list R) : res (Z * Z * Z * Z) :=
  let n := Z.of_nat (length a) in
  let sc := sign_changes a in
  let '(idx_lbank, idx_rbank) :=
    match sc with
    | [] => ((n - 1)%Z, 0%Z)
    | _ => (Z.max (Z.of_nat (first_of sc) + 1) 3, Z.min (Z.of_nat (last_of sc) + 1) (n - 4))
    end in
  gl <- lngrad (slice_to a idx_lbank) ;;
  let scl := sign_changes gl in
  let idx_ldbank :=
    match scl with
    | [] => (n - 1)%Z
    | _ => Z.max (Z.of_nat (last_of scl) + 1) 3
    end in
  gr <- lngrad (slice_from a idx_rbank) ;;
  let scr := sign_changes gr in
  let idx_rdbank :=
    match scr with
    | [] => 0%Z
    | _ => Z.min (idx_rbank + Z.of_nat (first_of scr)) (n - 4)
    end in
  let peak0 := Z.of_nat (argmax (map Rabs a)) in
  let idx_peak := if ((peak0 =? 0) || (peak0 =? n - 1))%Z then (n / 2)%Z else peak0 in
  let idx_lquater := Z.max ((idx_peak + 1) / 2 - 1) 3 in
  let idx_rquater := Z.min (idx_peak + (n - 1 - idx_peak) / 2) (n - 4) in
  Ok (Z.min idx_lbank (Z.min idx_ldbank idx_lquater),
      Z.max idx_rbank (Z.max idx_rdbank idx_rquater),
      idx_lquater, idx_rquater).

(** 397-443: exponent of the left tail; the boolean is the divergence warning. *)
Definition powlaw_left (a : list R) (idx_ltail idx_lquater : Z) : res (R * bool) :=
  g <- lngrad (slice_to a idx_ltail) ;;
  match sign_changes g with
  | _ :: _ =>
    if Rle_dec 0 (rmean g) then Ok (- rmean g, false) else Ok (0, true)
  | [] =>
    let lend := nan_to_num (xsub (xlogabs (at1 a)) (xlogabs (at0 a))) in
    if Rle_dec 0 lend then Ok (- lend, false)
    else
      h <- gradient (map xlogabs (slice_to a idx_lquater)) ;;
      let mean := nan_to_num (xmean h) in
      if Rle_dec 0 mean then Ok (- mean, false) else Ok (0, true)
  end.

(** 445-482. *)
Definition powlaw_right (a : list R) (idx_rtail idx_rquater : Z) : res (R * bool) :=
  g <- lngrad (slice_from a idx_rtail) ;;
  match sign_changes g with
  | _ :: _ =>
    if Rle_dec (rmean g) 0 then Ok (rmean g, false) else Ok (0, true)
  | [] =>
    let rend := nan_to_num (xsub (xlogabs (atm1 a)) (xlogabs (atm2 a))) in
    if Rle_dec rend 0 then Ok (rend, false)
    else
      h <- gradient (map xlogabs (slice_from a idx_rquater)) ;;
      let mean := nan_to_num (xmean h) in
      if Rle_dec mean 0 then Ok (mean, false) else Ok (0, true)
  end.

(** 332-488.  The result carries the two divergence warnings (left, right). *)
Definition extrap_loglin_oscil (a : list R) (n_ext : Z) : res (list R * (bool * bool)) :=
  a <- check_1d_array false false false false a ;;
  idx <- tail_indices a ;;
  let '(idx_ltail, idx_rtail, idx_lquater, idx_rquater) := idx in
  l <- powlaw_left a idx_ltail idx_lquater ;;
  r <- powlaw_right a idx_rtail idx_rquater ;;
  let a_l := map (fun k => at0 a * exp (fst l * IZR k)) (arange_down n_ext) in
  let a_r := map (fun k => atm1 a * exp (fst r * IZR k)) (arange 1 (n_ext + 1)) in
  Ok (a_l ++ a ++ a_r, (snd l, snd r)).

(** 541-563: row by row; the row results have equal lengths. *)
Definition extrap2d_row_oscil (m : matrix) (ncol_ext : Z) : res matrix :=
  sequence (map (fun row => o <- extrap_loglin_oscil row ncol_ext ;; Ok (fst o)) m).

(** 710-735. *)
Definition extrap2d_loglin_oscil (m : matrix) (n_ext : n_ext_arg) : res matrix :=
  m <- check_2d_array false false m ;;
  let (nrow_ext, ncol_ext) := unpack_ext n_ext in
  m_ <- extrap2d_row_oscil m ncol_ext ;;
  m__ <- extrap2d_row_oscil (transpose m_) nrow_ext ;;
  Ok (transpose m__).
