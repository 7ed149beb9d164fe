(* Model of the 2-d routines of /repo/src/triumvirate/_arrayops.py.
   A 2-d array is a list of rows of equal length. *)
From Coq Require Import Reals ZArith List Lia Lra Bool.
From Verif Require Import Base ArrayModel.
Import ListNotations.
Open Scope R_scope.

Definition matrix := list (list R).

Definition nrows (m : matrix) : nat := length m.
Definition ncols (m : matrix) : nat := length (nth 0 m []).

(** [a.transpose()]. *)
Definition transpose (m : matrix) : matrix :=
  map (fun j => map (fun row => nth j row 0) m) (seq 0 (ncols m)).

(** [n_ext] is an int or a sequence (nrow_ext, ncol_ext); _arrayops.py 637-638,
    672-673, 700-701, 728-729. *)
Inductive n_ext_arg : Type :=
| ExtInt : Z -> n_ext_arg
| ExtPair : Z -> Z -> n_ext_arg.
Definition unpack_ext (n : n_ext_arg) : Z * Z :=
  match n with
  | ExtInt k => (k, k)
  | ExtPair r c => (r, c)
  end.

(** _arrayops.py 182-205 (non-strict): end pairs along rows and columns. *)
Definition epsign2d_ok (m : matrix) : bool :=
  forallb (epsign_ok false) m && forallb (epsign_ok false) (transpose m).

(** _arrayops.py 142-246, with only the options the extrapolators use
    ([check_epsign]) and [check_sorted].  [np.squeeze] drops axes of size one,
    so either dimension below two is a ShapeError. *)
Definition rows_sorted (m : matrix) : bool :=
  forallb (all_adjacent Rleb) m && forallb (all_adjacent (fun x y => Rleb y x)) m.
Definition check_2d_array (check_sorted check_epsign : bool) (m : matrix) : res matrix :=
  if ((nrows m <? 2) || (ncols m <? 2))%nat then Err ShapeError
  else if check_sorted && negb (rows_sorted m && rows_sorted (transpose m)) then Err OrderError
  else if check_epsign && negb (epsign2d_ok m) then Err MixedSignError
  else Ok m.

(** _arrayops.py 491-513. *)
Definition extrap2d_row_lin (m : matrix) (ncol_ext : Z) : matrix :=
  map (fun row =>
         map (fun k => at0 row + IZR k * (at1 row - at0 row)) (arange (- ncol_ext) 0)
         ++ row ++
         map (fun k => atm1 row + IZR k * (atm1 row - atm2 row)) (arange 1 (ncol_ext + 1)))
      m.

(** _arrayops.py 516-538.  A zero divisor gives NaN or inf entries. *)
Definition extrap2d_row_loglin (m : matrix) (ncol_ext : Z) : res matrix :=
  if (0 <? ncol_ext)%Z &&
     existsb (fun row => Reqb (at1 row) 0 || Reqb (atm2 row) 0) m
  then Err NotANumber
  else
    Ok (map (fun row =>
         map (fun k => at0 row * rpow (at0 row / at1 row) k) (arange_down ncol_ext)
         ++ row ++
         map (fun k => atm1 row * rpow (atm1 row / atm2 row) k) (arange 1 (ncol_ext + 1)))
      m).

(** _arrayops.py 654-679. *)
Definition extrap2d_lin (m : matrix) (n_ext : n_ext_arg) : res matrix :=
  m <- check_2d_array false false m ;;
  let (nrow_ext, ncol_ext) := unpack_ext n_ext in
  let m_ := extrap2d_row_lin m ncol_ext in
  Ok (transpose (extrap2d_row_lin (transpose m_) nrow_ext)).

(** _arrayops.py 682-707. *)
Definition extrap2d_loglin (m : matrix) (n_ext : n_ext_arg) : res matrix :=
  m <- check_2d_array false true m ;;
  let (nrow_ext, ncol_ext) := unpack_ext n_ext in
  m_ <- extrap2d_row_loglin m ncol_ext ;;
  m__ <- extrap2d_row_loglin (transpose m_) nrow_ext ;;
  Ok (transpose m__).

(** Padding constants: scalar or sequence. *)
Inductive pad_arg : Type :=
| PadScalar : R -> pad_arg
| PadSeq : list R -> pad_arg.
Definition pad_values (p : pad_arg) (n : nat) : list R :=
  match p with
  | PadScalar c => repeat c n
  | PadSeq l => l
  end.

(** [c[0]] / [c[-1]] on a sequence: IndexError when empty. *)
Definition seq_first (l : list R) : res R :=
  match l with [] => Err IndexError | x :: _ => Ok x end.
Definition seq_last (l : list R) : res R :=
  match l with [] => Err IndexError | _ => Ok (nth (length l - 1) l 0) end.

(** [np.tile(c, (k, 1)).T]: [len c] rows of [k] copies. *)
Definition tile_cols (c : list R) (k : nat) : matrix := map (fun x => repeat x k) c.

(** [np.c_[a, b, c]]: rows glued; ValueError on different row counts. *)
Definition hstack3 (a b c : matrix) : res matrix :=
  if (negb (length a =? length b) || negb (length b =? length c))%nat then Err ValueError
  else Ok (map (fun t => fst (fst t) ++ snd (fst t) ++ snd t) (combine (combine a b) c)).

(** [np.r_[u, m, d]]: ValueError when the column counts differ (all three
    operands have at least one row, or none in case of zero extension). *)
Definition vstack3 (u m d : matrix) : res matrix :=
  if forallb (fun row => Nat.eqb (length row) (ncols m)) (u ++ m ++ d)
  then Ok (u ++ m ++ d) else Err ValueError.

(** _arrayops.py 566-651.  Sizes are non-negative here ([nat] after
    conversion; [np.tile] with a negative count raises ValueError). *)
Definition extrap2d_pad (m : matrix) (n_ext : n_ext_arg)
    (crow_lower crow_upper ccol_lower ccol_upper : pad_arg) : res matrix :=
  m <- check_2d_array false false m ;;
  let crl := pad_values crow_lower (nrows m) in
  let cru := pad_values crow_upper (nrows m) in
  let ccl := pad_values ccol_lower (ncols m) in
  let ccu := pad_values ccol_upper (ncols m) in
  x <- seq_first crl ;; y <- seq_first ccl ;;
  if negb (Reqb x y) then Err ValueError else
  x <- seq_first cru ;; y <- seq_last ccl ;;
  if negb (Reqb x y) then Err ValueError else
  x <- seq_last crl ;; y <- seq_first ccu ;;
  if negb (Reqb x y) then Err ValueError else
  x <- seq_last cru ;; y <- seq_last ccu ;;
  if negb (Reqb x y) then Err ValueError else
  let (nrow_ext, ncol_ext) := unpack_ext n_ext in
  if ((nrow_ext <? 0) || (ncol_ext <? 0))%Z then Err ValueError else
  let a_l := tile_cols crl (Z.to_nat nrow_ext) in
  let a_r := tile_cols cru (Z.to_nat nrow_ext) in
  a_ <- hstack3 a_l m a_r ;;
  let ccl' := nth 0 a_l [] ++ ccl ++ nth 0 a_r [] in
  let ccu' := nth (length a_l - 1) a_l [] ++ ccu ++ nth (length a_r - 1) a_r [] in
  vstack3 (repeat ccl' (Z.to_nat ncol_ext)) a_ (repeat ccu' (Z.to_nat ncol_ext)).
