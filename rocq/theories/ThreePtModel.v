(* Model of the data-vector indexing and of the loops over spherical orders in
   /repo/src/triumvirate/src/threept.cpp (compute_bispec 248-1012, compute_3pcf
   1014-1471, compute_bispec_in_gpp_box 1473-2188, compute_3pcf_in_gpp_box
   2190-2619, compute_3pcf_window 2621-3078, compute_bispec_for_los_choice
   3080-3969; the same code is repeated in each). *)
From Coq Require Import Reals ZArith List Lia Lra Bool.
From Coquelicot Require Import Complex.
From Verif Require Import Base ArrayModel BinVecModel.
Import ListNotations.
Open Scope Z_scope.

(** ** Data vector *)

(** [params.shape]. *)
Inductive shape : Set := Diag | OffDiag | Row | Full | Triu | OtherShape.

(** threept.cpp 274-298 (also 1043-1066, 1498-1521, 2217-2240, 2650-2673,
    3110-3133); [nb] is the number of bins, [idx] is [params.idx_bin]. *)
Definition dv_dim (sh : shape) (nb idx : Z) : res Z :=
  match sh with
  | Diag | Row => Ok nb
  | OffDiag => Ok (nb - Z.abs idx)
  | Full => Ok (nb * nb)
  | Triu => Ok (nb * (nb + 1) / 2)
  | OtherShape => Err InvalidParameter
  end.

(** threept.cpp 654 and 714-715. *)
Definition full_index (nb row col : Z) : Z := row * nb + col.
Definition triu_index (nb row col : Z) : Z := (2 * nb - row + 1) * row / 2 + (col - row).

(** The entries written for the raw statistic, with the bins (row, column) whose
    statistic is stored: threept.cpp 465-468, 521-530, 586-600, 651-654,
    711-715 (also 1289-1369 for the three-point correlation functions). *)
Definition raw_writes (sh : shape) (nb idx : Z) : list (Z * (Z * Z)) :=
  match dv_dim sh nb idx with
  | Err _ => []
  | Ok dim =>
    match sh with
    | Diag => map (fun i => (i, (i, i))) (arange 0 dim)
    | OffDiag =>
      map (fun i => if (0 <=? idx) then (i, (i, i + Z.abs idx)) else (i, (i + Z.abs idx, i)))
          (arange 0 dim)
    | Row => map (fun i => (i, (idx, i))) (arange 0 dim)
    | Full =>
      flat_map (fun row => map (fun col => (full_index nb row col, (row, col))) (arange 0 nb))
               (arange 0 nb)
    | Triu =>
      flat_map (fun row => map (fun col => (triu_index nb row col, (row, col))) (arange row nb))
               (arange 0 nb)
    | OtherShape => []
    end
  end.

(** Shot noise depending on the first bin ([ell2 == 0]): the entry written and the
    bin of the two-point statistic read; threept.cpp 814-876 (2004-2053,
    3775-3825). *)
Definition sn_row_writes (sh : shape) (nb idx : Z) : list (Z * Z) :=
  match dv_dim sh nb idx with
  | Err _ => []
  | Ok dim =>
    match sh with
    | Diag => map (fun i => (i, i)) (arange 0 dim)
    | OffDiag => map (fun i => (i, if (0 <=? idx) then i else i + Z.abs idx)) (arange 0 dim)
    | Row => map (fun i => (i, idx)) (arange 0 dim)
    | Full =>
      flat_map (fun row => map (fun col => (full_index nb row col, row)) (arange 0 nb)) (arange 0 nb)
    | Triu =>
      flat_map (fun row => map (fun col => (triu_index nb row col, row)) (arange row nb)) (arange 0 nb)
    | OtherShape => []
    end
  end.

(** Shot noise depending on the second bin ([ell1 == 0]): threept.cpp 884-947
    (2063-2124, 3836-3900).  The row loop of the full shape is
    [idx_row <= params.num_bins] (lines 927, 2103, 3879). *)
Definition sn_col_writes (sh : shape) (nb idx : Z) : list (Z * Z) :=
  match dv_dim sh nb idx with
  | Err _ => []
  | Ok dim =>
    match sh with
    | Diag => map (fun i => (i, i)) (arange 0 dim)
    | OffDiag => map (fun i => (i, if (0 <=? idx) then i + idx else i)) (arange 0 dim)
    | Row => map (fun i => (i, i)) (arange 0 dim)
    | Full =>
      flat_map (fun col => map (fun row => (full_index nb row col, col)) (arange 0 (nb + 1)))
               (arange 0 nb)
    | Triu =>
      flat_map (fun col => map (fun row => (triu_index nb row col, col)) (arange 0 (col + 1)))
               (arange 0 nb)
    | OtherShape => []
    end
  end.

(** Shot noise of the three-point correlation functions, on equal bins only:
    threept.cpp 1237-1285 (2389-2436, 2838-2885). *)
Definition sn_equal_writes (sh : shape) (nb idx : Z) : list (Z * Z) :=
  match dv_dim sh nb idx with
  | Err _ => []
  | Ok dim =>
    match sh with
    | Diag => map (fun i => (i, i)) (arange 0 dim)
    | OffDiag => if (idx =? 0) then map (fun i => (i, i)) (arange 0 dim) else []
    | Row => [(idx, idx)]
    | Full => map (fun row => (row * nb + row, row)) (arange 0 nb)
    | Triu => map (fun row => ((2 * nb - row + 1) * row / 2, row)) (arange 0 nb)
    | OtherShape => []
    end
  end.

(** Additions to a heap array of [length dv] entries: [dv[i] += x]. *)
Definition add_at (dv : list R) (i : Z) (x : R) : res (list R) :=
  if ((0 <=? i) && (i <? Z.of_nat (length dv)))
  then Ok (map (fun j => if Z.of_nat j =? i then (nth j dv 0 + x)%R else nth j dv 0%R)
               (seq 0 (length dv)))
  else Err OutOfBounds.
Fixpoint add_all (dv : list R) (ws : list (Z * R)) : res (list R) :=
  match ws with
  | [] => Ok dv
  | (i, x) :: t => dv' <- add_at dv i x ;; add_all dv' t
  end.

(** ** Loop over spherical orders *)

(** SphericalOrderTriplet, threept.cpp 40-58. *)
Definition triplet := (Z * Z * Z)%type.
Definition is_zeros (t : triplet) : bool :=
  let '(m1, m2, M) := t in (m1 =? 0) && (m2 =? 0) && (M =? 0).
Definition is_inverse (t u : triplet) : bool :=
  let '(m1, m2, M) := t in let '(n1, n2, N) := u in
  (m1 + n1 =? 0) && (m2 + n2 =? 0) && (M + N =? 0).

(** maths.cpp 165. *)
Definition eps_coupling : R := (/ 1000000000)%R.

(** threept.cpp 65-71; [w] stands for [wigner_3j] (GSL) with the degrees fixed. *)
Definition coupling_3pt (l1 l2 L : Z) (w : triplet -> R) (t : triplet) : R :=
  (IZR (2 * l1 + 1) * IZR (2 * l2 + 1) * IZR (2 * L + 1) * w (0, 0, 0)%Z * w t)%R.

(** threept.cpp 73-89. *)
Definition validate_coupling (w : triplet -> R) : res unit :=
  if Rltb (Rabs (w (0, 0, 0)%Z)) eps_coupling then Err InvalidParameter else Ok tt.

(** Order triplets visited by compute_bispec (and the other survey-type functions):
    threept.cpp 356-370, 388. *)
Definition visited_survey (l1 l2 L : Z) (w : triplet -> R) : list triplet :=
  flat_map (fun m1 => flat_map (fun m2 =>
      if existsb (fun M => Rltb eps_coupling (Rabs (coupling_3pt l1 l2 L w (m1, m2, M))))
                 (arange (- L) (L + 1))
      then map (fun M => (m1, m2, M)) (arange (- L) (L + 1))
      else [])
    (arange (- l2) (l2 + 1))) (arange (- l1) (l1 + 1)).

(** Order triplets visited in a box: threept.cpp 1580-1587, [M = 0]. *)
Definition visited_box (l1 l2 : Z) : list triplet :=
  flat_map (fun m1 => map (fun m2 => (m1, m2, 0)) (arange (- l2) (l2 + 1))) (arange (- l1) (l1 + 1)).

(** The state of the loop: orders already computed and one entry of the data
    vector, here without the common factors. *)
Definition loop_state := (list triplet * C)%type.

(** One pass of the loop body for one entry of the data vector, threept.cpp
    390-419, 514-517, 966: [v t] is the component at the orders [t] and [mirror] the
    value of the mirror factor at non-zero orders. *)
Definition order_step (c : triplet -> R) (mirror : R) (v : triplet -> C)
    (s : loop_state) (t : triplet) : loop_state :=
  let '(computed, acc) := s in
  if existsb (is_inverse t) computed then s
  else if Rltb (Rabs (c t)) eps_coupling then s
  else
    let f := if is_zeros t then 0%R else mirror in
    (computed ++ [t], acc + RtoC (c t) * (v t + RtoC f * Cconj (v t)))%C.

Definition order_loop (c : triplet -> R) (mirror : R) (v : triplet -> C) (visited : list triplet)
  : loop_state :=
  fold_left (order_step c mirror v) visited ([], RtoC 0).

(** The entry of the raw statistic after the loops: mirror factor
    [std::pow(-1., ELL)] (416-417); and of the shot noise of equal first two
    particles: mirror factor 1 (418-419, 950-964). *)
Definition raw_survey (l1 l2 L : Z) (w : triplet -> R) (v : triplet -> C) : res C :=
  _ <- validate_coupling w ;;
  Ok (snd (order_loop (coupling_3pt l1 l2 L w) (powerRZ (-1) L) v (visited_survey l1 l2 L w))).
Definition shot_survey (l1 l2 L : Z) (w : triplet -> R) (v : triplet -> C) : res C :=
  _ <- validate_coupling w ;;
  Ok (snd (order_loop (coupling_3pt l1 l2 L w) 1 v (visited_survey l1 l2 L w))).
Definition raw_box (l1 l2 L : Z) (w : triplet -> R) (v : triplet -> C) : res C :=
  _ <- validate_coupling w ;;
  Ok (snd (order_loop (coupling_3pt l1 l2 L w) (powerRZ (-1) L) v (visited_box l1 l2))).
