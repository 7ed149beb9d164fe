(* Model of /repo/src/triumvirate/_mpitools.py and of the gather step of
   BispecWinConv.gen_winconv_mat in /repo/src/triumvirate/winconv.py. *)
From Coq Require Import ZArith List Lia Bool.
From Verif Require Import Base.
Import ListNotations.
Open Scope Z_scope.

(** Arguments of [allocate_tasks]: a Python [int], a numpy integer, or
    anything else ([None], a float, ...). *)
Inductive pyarg : Type :=
| PyInt : Z -> pyarg
| NpInt : Z -> pyarg
| PyOther : pyarg.

(** _mpitools.py 55-60: the [while] loop.  Fuel stands for the unbounded
    loop; running out of it is an explicit error, as is [x // 0]. *)
Fixpoint allocate_loop (fuel : nat) (ntask_toassign nproc_toassign : Z)
    (ntasks : list Z) : res (list Z) :=
  match fuel with
  | O => Err OutOfFuel
  | S fuel' =>
    if 0 <? ntask_toassign then
      if nproc_toassign =? 0 then Err ZeroDivisionError
      else
        let ntask_assigned := ntask_toassign / nproc_toassign in
        allocate_loop fuel' (ntask_toassign - ntask_assigned)
          (nproc_toassign - 1) (ntasks ++ [ntask_assigned])
    else Ok ntasks
  end.

(** _mpitools.py 17-62. *)
Definition allocate_tasks (fuel : nat) (task_total proc_total : pyarg)
  : res (list Z) :=
  match task_total, proc_total with
  | PyInt t, PyInt p | NpInt t, PyInt p =>
    if (t <=? 0) || (p <=? 0) then Err ValueError
    else allocate_loop fuel t p []
  | _, _ => Err TypeError
  end.

(** [np.insert(np.cumsum(ntasks), 0, values=0)], _mpitools.py 93. *)
Fixpoint cumsum_from (acc : Z) (l : list Z) : list Z :=
  match l with
  | [] => []
  | a :: t => (acc + a) :: cumsum_from (acc + a) t
  end.
Definition breakpoints (ntasks : list Z) : list Z := 0 :: cumsum_from 0 ntasks.

(** [lst[i]] with [IndexError] past the end (indices are non-negative here). *)
Definition py_nth (l : list Z) (i : nat) : res Z :=
  match nth_error l i with
  | Some x => Ok x
  | None => Err IndexError
  end.

(** A slice [slice(start, stop)]. *)
Definition slice := (Z * Z)%type.

(** _mpitools.py 65-99.  [ntasks] is [None] or a list; the empty list is
    falsy.  [proc_total] is falsy when absent or zero. *)
Definition truthy_int (a : pyarg) : option Z :=
  match a with
  | PyInt z | NpInt z => if z =? 0 then None else Some z
  | PyOther => None
  end.

Definition distribute_tasks (fuel : nat) (ntasks : option (list Z))
    (task_total proc_total : pyarg) : res (list slice) :=
  ntasks' <- match ntasks with
             | Some (a :: l) => Ok (a :: l)
             | _ => allocate_tasks fuel task_total proc_total
             end ;;
  let nproc := match truthy_int proc_total with
               | Some p => p
               | None => Z.of_nat (length ntasks')
               end in
  let bps := breakpoints ntasks' in
  sequence (map (fun rank =>
                   start <- py_nth bps rank ;;
                   stop <- py_nth bps (S rank) ;;
                   Ok (start, stop))
                (seq 0 (Z.to_nat nproc))).

(** Tasks in a slice of the range [0..], in order. *)
Definition slice_indices (s : slice) : list Z :=
  map (fun i => fst s + Z.of_nat i) (seq 0 (Z.to_nat (snd s - fst s))).

(** winconv.py 2905-2931 and 3034-3060: every rank maps the work function over its
    own segment of basis vectors; the results are ravelled and gathered in
    rank order at the root.  The model abstracts MPI transport into
    concatenation in rank order; the offsets used by Gatherv are computed as
    in lines 3042-3044. *)
Definition rank_result {A} (work : Z -> list A) (s : slice) : list A :=
  concat (map work (slice_indices s)).

(** [offsets = [sum(recvsizes[:rank]) for rank in range(size)]], 3042-3044. *)
Definition gather_offsets (recvsizes : list nat) : list nat :=
  map (fun rank => list_sum (firstn rank recvsizes)) (seq 0 (length recvsizes)).

(** Write [chunk] into [buf] at [off] (what Gatherv does with one message). *)
Definition write_at {A} (buf : list A) (off : nat) (chunk : list A) : list A :=
  firstn off buf ++ chunk ++ skipn (off + length chunk) buf.

(** Gatherv of the messages [msgs] into [buf] (arrival in the listed order). *)
Definition gatherv {A} (buf : list A) (msgs : list (nat * list A)) : list A :=
  fold_left (fun b m => write_at b (fst m) (snd m)) msgs buf.

(** _mpitools.py 129-138: the warning record reduced to its comparison key
    and a payload ([file], [line]). *)
Section Warnings.
  Context {K P : Type} (K_eqb : K -> K -> bool).
  Definition record : Type := (K * P)%type.

  Fixpoint restore_loop (captured restored : list record) (seen : list K)
    : list record :=
    match captured with
    | [] => restored
    | r :: t =>
      if existsb (K_eqb (fst r)) seen then restore_loop t restored seen
      else restore_loop t (restored ++ [r]) (fst r :: seen)
    end.

  (** _mpitools.py 102-150; returns (restored, shown). [comm] is the rank of
      this process in the communicator, or [None]. *)
  Definition restore_warnings (captured : list record) (unique show : bool)
      (comm : option Z) (comm_root : Z) : list record * list record :=
    let restored := if unique then restore_loop captured [] [] else captured in
    let shown :=
      if show && match comm with None => true | Some r => r =? comm_root end
      then restored else [] in
    (restored, shown).
End Warnings.
