(* Model of reshape_threept_datatab, /repo/src/triumvirate/_arrayops.py 742-821,
   and of the flat position the C++ three-point code gives to a pair of bins
   (/repo/src/triumvirate/src/threept.cpp 714-715 and the same two lines in the
   other compute routines).  Entries are reals (the docstring's float).
   Square roots are exact; in double precision they are exact for the lengths
   that are accepted. *)
From Coq Require Import Reals ZArith List Lia Lra Bool.
From Verif Require Import Base ArrayModel Array2dModel.
Import ListNotations.
Open Scope R_scope.

(** [np.triu_indices(n)]: row-major positions with column >= row. *)
Definition triu_indices (n : nat) : list (nat * nat) :=
  flat_map (fun i => map (fun j => (i, j)) (seq i (n - i))) (seq 0 n).

(** One element assignment [m[i, j] = v]. *)
Fixpoint set_nth {A} (l : list A) (i : nat) (v : A) : list A :=
  match l, i with
  | [], _ => []
  | _ :: t, O => v :: t
  | x :: t, S k => x :: set_nth t k v
  end.
Definition set_entry (m : matrix) (p : nat * nat) (v : R) : matrix :=
  set_nth m (fst p) (set_nth (nth (fst p) m []) (snd p) v).

(** [m[indices] = values]: a one-element value broadcasts, any other length
    mismatch is a ValueError. *)
Definition assign_at (m : matrix) (idx : list (nat * nat)) (values : list R) : res matrix :=
  let values := match values with [v] => repeat v (length idx) | _ => values end in
  if negb (length idx =? length values)%nat then Err ValueError
  else Ok (fold_left (fun m pv => set_entry m (fst pv) (snd pv)) (combine idx values) m).

(** [np.isclose(x, k)] with default tolerances. *)
Definition isclose (x k : R) : bool :=
  Rleb (Rabs (x - k)) (/ 100000000 + / 100000 * Rabs k).

Inductive shape_arg : Type := Triu | Full | OtherShape.

(** [a.reshape((n, n))]: ValueError unless the size is n*n. *)
Definition reshape_square (l : list R) (n : nat) : res matrix :=
  if negb (length l =? n * n)%nat then Err ValueError
  else Ok (map (fun i => firstn n (skipn (i * n) l)) (seq 0 n)).

(** [paired_coords] is an array of rows; [ndim2] tells whether it is 2-d.
    [paired_coords[:nbins, 1]] is an IndexError when rows are too short. *)
Definition second_column (paired : list (list R)) (n : nat) : res (list R) :=
  sequence (map (fun row => match nth_error row 1 with Some x => Ok x | None => Err IndexError end)
                (firstn n paired)).

Definition reshape_threept_datatab (ndim2 : bool) (paired : list (list R))
    (flat : list R) (shape : shape_arg) : res (list R * matrix) :=
  if negb ndim2 then Err ValueError
  else if negb (length paired =? length flat)%nat then Err ValueError
  else
    match shape with
    | Triu =>
      let x := (sqrt (8 * INR (length paired) + 1) - 1) / 2 in
      if negb (isclose x (IZR (Int_part x))) then Err ValueError
      else
        let nbins := Z.to_nat (Int_part x) in
        coords <- second_column paired nbins ;;
        let zeros := repeat (repeat 0 nbins) nbins in
        m <- assign_at zeros (triu_indices nbins) flat ;;
        m <- assign_at m (map (fun p => (snd p, fst p)) (triu_indices nbins)) flat ;;
        Ok (coords, m)
    | Full =>
      let x := sqrt (INR (length paired)) in
      if negb (isclose x (IZR (Int_part x))) then Err ValueError
      else
        let nbins := Z.to_nat (Int_part x) in
        coords <- second_column paired nbins ;;
        m <- reshape_square flat nbins ;;
        Ok (coords, m)
    | OtherShape => Err ValueError
    end.

(** src/threept.cpp 714-715. *)
Definition cpp_triu_index (num_bins idx_row idx_col : nat) : nat :=
  ((2 * num_bins - idx_row + 1) * idx_row / 2 + (idx_col - idx_row))%nat.

(** src/threept.cpp 677 (shape "full"). *)
Definition cpp_full_index (num_bins idx_row idx_col : nat) : nat :=
  (idx_row * num_bins + idx_col)%nat.
