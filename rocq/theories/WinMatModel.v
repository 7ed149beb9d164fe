(* The window convolution matrix of `BispecWinConv.gen_winconv_mat`,
   /repo/src/triumvirate/winconv.py 2749-3072, around an arbitrary
   `self.convolve`.  Multipoles are taken in the order of the formulae, so a
   dictionary over them is a list.  Arrays of input samples are real, those
   `convolve` returns are complex. *)
From Coq Require Import Reals ZArith List Lia Bool.
From Coquelicot Require Import Complex.
From Verif Require Import Base MpiModel.
Import ListNotations.

(** A square array of samples as the list of its rows. *)
Definition rmat := list (list R).
Definition cmat := list (list C).

(** `self.convolve(B_model, ic=ic)`: input multipoles to output multipoles. *)
Definition convolver := list rmat -> res (list cmat).

(** `np.cumsum(colstack_sizes)`, 2816. *)
Fixpoint nodes_from (acc : nat) (sizes : list nat) : list nat :=
  match sizes with
  | [] => []
  | n :: t => (acc + n)%nat :: nodes_from (acc + n) t
  end.

(** `np.split(v, nodes)`, 2820: the pieces between successive nodes and a last
    one up to the end. *)
Fixpoint split_from {A} (prev : nat) (nodes : list nat) (v : list A) : list (list A) :=
  match nodes with
  | [] => [skipn prev v]
  | n :: t => firstn (n - prev) (skipn prev v) :: split_from n t v
  end.

Fixpoint chunks {A} (n d : nat) (v : list A) : list (list A) :=
  match n with
  | O => []
  | S m => firstn d v :: chunks m d (skipn d v)
  end.

(** `v.reshape((d, d))`, 2822: ValueError unless there are d * d entries. *)
Definition reshape {A} (d : nat) (v : list A) : res (list (list A)) :=
  if (List.length v =? d * d)%nat then Ok (chunks d d v) else Err ValueError.

(** `win_convolve_vector`, 2819-2834; `zip` drops the last piece. *)
Definition win_convolve_vector (conv : convolver) (dims : list nat) (v : list R)
  : res (list (list C)) :=
  let pieces := split_from 0 (nodes_from 0 (map (fun d => d * d)%nat dims)) v in
  ms <- sequence (map (fun pd => reshape (snd pd) (fst pd)) (combine pieces dims)) ;;
  out <- conv ms ;;
  Ok (map (@concat C) out).

(** `dim_2d`, 2817. *)
Definition dim_2d (dims : list nat) : nat := list_sum (map (fun d => d * d)%nat dims).

(** Row j of `np.eye(n)`; also row i of a rank's block with j = segstart + i,
    2909-2913. *)
Definition basis_vector (n j : nat) : list R :=
  map (fun i => if (i =? j)%nat then 1%R else 0%R) (seq 0 n).

(** `np.column_stack(cols)`, 2874-2877: ValueError for no columns at all. *)
Definition column_stack (cols : list (list C)) : res cmat :=
  match cols with
  | [] => Err ValueError
  | c :: _ =>
      if forallb (fun c' => List.length c' =? List.length c)%nat cols
      then Ok (map (fun i => map (fun c => nth i c (RtoC 0)) cols) (seq 0 (List.length c)))
      else Err ValueError
  end.

(** What a call returns: a dictionary of matrices, one stacked matrix, or None
    on processes other than the root. *)
Inductive wcmat :=
| PerPole (m : list cmat)
| Stacked (m : cmat)
| NoMat.

(** `wcmat_[select_rows]`, 2844-2850: IndexError for a row that is not there. *)
Definition select_rows (nk : nat) (diag : bool) (m : cmat) : res cmat :=
  if diag
  then sequence (map (fun idx => match nth_error m (idx * (nk + 1)) with
                                 | Some r => Ok r | None => Err IndexError end) (seq 0 nk))
  else Ok m.

(** `_return_wcmat(wcmat, concat, diag)`, 2841-2855, at the root. *)
Definition return_wcmat (nk : nat) (mats : list cmat) (cat diag : bool) : res wcmat :=
  ms <- sequence (map (select_rows nk diag) mats) ;;
  Ok (if cat then Stacked (concat ms) else PerPole ms).

(** The outcome of a call: the result and what `self._winconv._catch_warnings`
    is left at. *)
Record outcome := { result : res wcmat; catch_left : bool }.

(** Without MPI, 2858-2878.  The last line calls `_return_wcmat(wc_matrices,
    concat)` without its third argument: a TypeError, raised before the flag
    is restored. *)
Definition gen_serial (conv : convolver) (dims : list nat) (npole : nat) : outcome :=
  let r :=
    cols <- sequence (map (fun j => win_convolve_vector conv dims
                                     (basis_vector (dim_2d dims) j))
                          (seq 0 (dim_2d dims))) ;;
    _ <- sequence (map (fun k => column_stack (map (fun c => nth k c []) cols))
                       (seq 0 npole)) ;;
    Err TypeError in
  {| result := r; catch_left := false |}.

(** With MPI, 2881-3072, as seen at the root, for [np] processes.  Every rank
    convolves its own segment of basis vectors; for every multipole in turn
    the ravelled results are gathered (MpiModel.v) and de-ravelled.  An
    exception on a rank is taken to end the run with that exception (in
    reality the other ranks then wait for ever).  `np.asarray` of an empty
    list of arrays is an array of floats, so a root with no basis vectors
    sets aside a buffer of floats for complex numbers, 3045, and MPI reports
    the messages as truncated: mpi4py's Exception, a RuntimeError. *)
Definition rank_columns (conv : convolver) (dims : list nat) (s : slice)
  : res (list (list (list C))) :=
  sequence (map (fun j => win_convolve_vector conv dims
                            (basis_vector (dim_2d dims) (Z.to_nat j)))
                (slice_indices s)).

Definition gathered (parts : list (list C)) (msgs : list (nat * list C)) : list C :=
  gatherv (repeat (RtoC 0) (list_sum (map (@List.length C) parts))) msgs.

(** `recvbuf.reshape((dim_2d, recvbuf.size // dim_2d)).T`, 3058-3060. *)
Definition deravel (n : nat) (buf : list C) : res cmat :=
  let w := (List.length buf / n)%nat in
  if (List.length buf =? n * w)%nat
  then let cols := chunks n w buf in
       Ok (map (fun i => map (fun c => nth i c (RtoC 0)) cols) (seq 0 w))
  else Err ValueError.

(** [arrive] puts the messages of one gather in the order they arrive in. *)
Definition gen_mpi (conv : convolver) (dims : list nat) (npole nk : nat)
    (cat diag : bool) (np : Z) (root : nat)
    (arrive : nat -> list (nat * list C) -> list (nat * list C)) (flag : bool) : outcome :=
  let n := dim_2d dims in
  let fuel := S (S (Z.to_nat np)) in
  let r :=
    sizes <- allocate_tasks fuel (NpInt (Z.of_nat n)) (PyInt np) ;;
    segs <- distribute_tasks fuel (Some sizes) PyOther PyOther ;;
    sub <- sequence (map (rank_columns conv dims) segs) ;;
    _ <- (match nth root sub [] with [] => Err RuntimeError | _ => Ok tt end) ;;
    mats <- sequence (map (fun k =>
              let parts := map (fun cols => concat (map (fun c => nth k c []) cols)) sub in
              let msgs := combine (gather_offsets (map (@List.length C) parts)) parts in
              deravel n (gathered parts (arrive k msgs))) (seq 0 npole)) ;;
    return_wcmat nk mats cat diag in
  {| result := r; catch_left := match r with Ok _ => flag | Err _ => false end |}.
