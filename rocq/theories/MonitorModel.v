(* Run-time reporting: src/triumvirate/src/monitor.cpp (show_elapsed_time
   212-236, Logger 336-504, ProgressBar 524-647, set_nodes_by_str 649-676),
   src/triumvirate/include/monitor.hpp (LogLevel 435-443) and
   src/triumvirate/logger.py (elapsed time 53-59).
   `float` is modelled by exact reals except in [nodes_loop32], which rounds
   to binary32.  `int` is unbounded. *)
From Coq Require Import String Ascii List ZArith Reals Lia Bool.
From Flocq Require Import Core.
From Verif Require Import Base StrModel Dec ArrayModel.
Import ListNotations.
Local Open Scope string_scope.

(* ------------------------------------------------------------------ *)
(** * Elapsed time *)

(** `std::string(2 - len, '0') + x`: [None] is the std::length_error thrown
    when the unsigned difference wraps around (monitor.cpp 228-229). *)
Definition pad2 (x : string) : res string :=
  match String.length x with
  | 0 => Ok ("00" ++ x)
  | 1 => Ok ("0" ++ x)
  | 2 => Ok x
  | _ => Err ValueError
  end.

(** monitor.cpp 212-236.  `int(double)` truncates towards zero, as do the
    integer `/` and `%`. *)
Definition show_elapsed_time (t : R) : res string :=
  let time := Ztrunc t in
  let h := to_string (Z.quot time 3600) in
  let m := to_string (Z.quot (Z.rem time 3600) 60) in
  let s := to_string (Z.rem time 60) in
  hh <- (if (String.length h <? 2)%nat then pad2 h else Ok h) ;;
  mm <- pad2 m ;;
  ss <- pad2 s ;;
  Ok (hh ++ ":" ++ mm ++ ":" ++ ss).

(** Python f"{n:02d}": zero-padded to two characters, sign included. *)
Definition fmt02d (z : Z) : string :=
  let x := to_string z in
  if (String.length x <? 2)%nat then "0" ++ x else x.

(** logger.py 53-59.  `divmod` of floats floors; `int` truncates. *)
Definition py_elapsed (t : R) : string :=
  let h := Zfloor (t / 3600) in
  let rem := (t - 3600 * IZR h)%R in
  let m := Zfloor (rem / 60) in
  let s := (rem - 60 * IZR m)%R in
  "(+" ++ fmt02d h ++ ":" ++ fmt02d m ++ ":" ++ fmt02d (Ztrunc s) ++ ")".

(* ------------------------------------------------------------------ *)
(** * Logging *)

Local Open Scope Z_scope.

(** monitor.hpp 435-443. *)
Definition NSET := 0.
Definition DBUG := 10.
Definition STAT := 20.
Definition INFO := 30.
Definition WARN := 40.
Definition ERRO := 50.

(** What a logging call does: nothing, print a line (tag, format, number of
    arguments passed on), or throw. *)
Inductive logged :=
| Silent
| Printed (tag fmt : string) (nargs : nat)
| Threw (e : exn).

(** Logger::log(int, ...), monitor.cpp 377-439, without colours. *)
Definition log_int (limit level : Z) (fmt : string) (nargs : nat) : logged :=
  if limit <=? level then
    let l := Z.quot level 10 in
    if l =? NSET then Printed "" fmt nargs
    else if l =? DBUG then Printed "DBUG" fmt nargs
    else if l =? STAT then Printed "STAT" fmt nargs
    else if l =? INFO then Printed "INFO" fmt nargs
    else if l =? WARN then Printed "WARN" fmt nargs
    else if l =? ERRO then Printed "ERRO" fmt nargs
    else Threw InvalidParameter
  else Silent.

(** Logger::log(LogLevel, ...), 373-375: the variadic arguments are not
    passed on. *)
Definition log_level (limit level : Z) (fmt : string) (nargs : nat) : logged :=
  log_int limit level fmt 0.

(** Logger::debug, stat, info, warn, error, 441-504. *)
Definition log_debug limit fmt nargs :=
  if limit <=? DBUG then Printed "DBUG" fmt nargs else Silent.
Definition log_stat limit fmt nargs :=
  if limit <=? STAT then Printed "STAT" fmt nargs else Silent.
Definition log_info limit fmt nargs :=
  if limit <=? INFO then Printed "INFO" fmt nargs else Silent.
Definition log_warn limit fmt nargs :=
  if limit <=? WARN then Printed "WARN" fmt nargs else Silent.
Definition log_error limit fmt nargs :=
  if limit <=? ERRO then Printed "ERRO" fmt nargs else Silent.

(* ------------------------------------------------------------------ *)
(** * Progress bar *)

Local Open Scope R_scope.

Record bar := {
  task_count : Z;
  task_idx : Z;
  progress : R;
  nodes : list R;
  next_node : nat
}.

(** monitor.cpp 642-647: `resize(101, 0.)` makes 101 zeros, then 101 values
    are pushed after them. *)
Definition default_nodes : list R :=
  (repeat 0 101 ++ map (fun i => INR i / 100) (seq 0 101))%list.

(** 524-535. *)
Definition new_bar (count : Z) : res bar :=
  if (count <? 1)%Z then Err InvalidParameter
  else Ok {| task_count := count; task_idx := 0; progress := 0;
             nodes := default_nodes; next_node := 0 |}.

(** 544-551. *)
Definition set_nodes (b : bar) (ns : list R) : res bar :=
  match ns with
  | [] => Err InvalidParameter
  | _ => Ok {| task_count := task_count b; task_idx := task_idx b;
               progress := progress b; nodes := ns;
               next_node := next_node b |}
  end.

(** 573-577: the search for the next node, past the end of which memory
    outside the vector is read. *)
Fixpoint next_from (p : R) (ns : list R) (i : nat) : res nat :=
  match ns with
  | [] => Err OutOfBounds
  | x :: t => if Rltb x p then next_from p t (S i) else Ok i
  end.

(** 566-578. *)
Definition set_progress (b : bar) (p : R) : res bar :=
  if Rltb p 0 || Rltb 1 p then Err InvalidParameter
  else
    i <- next_from p (nodes b) 0 ;;
    Ok {| task_count := task_count b; task_idx := task_idx b; progress := p;
          nodes := nodes b; next_node := i |}.

(** 553-564. *)
Definition set_task_idx (b : bar) (k : Z) : res bar :=
  if ((k <? 0) || (task_count b <? k))%Z then Err InvalidParameter
  else set_progress
         {| task_count := task_count b; task_idx := k; progress := progress b;
            nodes := nodes b; next_node := next_node b |}
         (IZR k / IZR (task_count b)).

(** 586-640: returns the displayed percentage, if a line is printed. *)
Definition update_progress (b : bar) (p : R) : res (bar * option Z) :=
  if Rleb p 1 then
    match nth_error (nodes b) (next_node b) with
    | None => Err OutOfBounds
    | Some x =>
        if Rleb x p then
          Ok ({| task_count := task_count b; task_idx := task_idx b;
                 progress := p; nodes := nodes b;
                 next_node := S (next_node b) |},
              Some (Ztrunc (p * 100)))
        else
          Ok ({| task_count := task_count b; task_idx := task_idx b;
                 progress := p; nodes := nodes b;
                 next_node := next_node b |}, None)
    end
  else Err InvalidData.

(** 580-584. *)
Definition update_task (b : bar) (k : Z) : res (bar * option Z) :=
  update_progress
    {| task_count := task_count b; task_idx := k; progress := progress b;
       nodes := nodes b; next_node := next_node b |}
    (IZR k / IZR (task_count b)).

(** A sequence of updates and the percentages displayed. *)
Fixpoint update_tasks (b : bar) (ks : list Z) : res (bar * list (option Z)) :=
  match ks with
  | [] => Ok (b, [])
  | k :: t =>
      x <- update_task b k ;;
      y <- update_tasks (fst x) t ;;
      Ok (fst y, snd x :: snd y)
  end.

(** set_nodes_by_str 663-675, after `std::stof`.  [rnd] is the rounding of
    `float` sums; [fuel] bounds the loop. *)
Fixpoint nodes_loop (rnd : R -> R) (fuel : nat) (interval back : R)
  : res (list R) :=
  if Rltb back 1 then
    match fuel with
    | O => Err OutOfFuel
    | S f =>
        let x := if Rltb (rnd (back + interval)) 1
                 then rnd (back + interval) else 1 in
        r <- nodes_loop rnd f interval x ;;
        Ok (x :: r)
    end
  else Ok [].

(** The outcome of `std::stof`: a number, std::invalid_argument, or
    std::out_of_range (not caught). *)
Inductive parsed := Number (x : R) | NotNumber | TooLarge.

Definition set_nodes_by_str (rnd : R -> R) (fuel : nat) (p : parsed)
  : res (list R) :=
  match p with
  | NotNumber => Err InvalidParameter
  | TooLarge => Err ValueError
  | Number x =>
      if negb (Rltb 0 x && Rltb x 100) then Err InvalidParameter
      else
        let interval := rnd (x / 100) in
        r <- nodes_loop rnd fuel interval interval ;;
        Ok (interval :: r)
  end.

(** Rounding to binary32 (normal and subnormal, to nearest even). *)
Definition round32 (x : R) : R :=
  round radix2 (FLT_exp (-149) 24) ZnearestE x.

(** Updates of the progress bar in `compute_bispec`
    (threept.cpp 422, 454-460, 463-481, 580-611, 776-792, 949-959), in FFTs
    done since the bar was set up: 2 for `G_LM`; 2 per data-vector entry, or,
    for form 'row', 1 before the loop and 1 per entry; 2 for the shot-noise
    fields; 1 per entry.  The bar counts 4 + 3 dv_dim tasks. *)
Definition bispec_task_count (dv : nat) : Z := 4 + 3 * Z.of_nat dv.

Definition bispec_updates (row : bool) (dv : nat) : list Z :=
  let per := if row then 1%Z else 2%Z in
  let pre := if row then 3%Z else 2%Z in
  let after := (pre + per * Z.of_nat dv + 2)%Z in
  ([2%Z] ++ map (fun i => pre + per * Z.of_nat i)%Z (seq 1 dv) ++ [after]
   ++ map (fun i => after + Z.of_nat i)%Z (seq 1 dv))%list.
