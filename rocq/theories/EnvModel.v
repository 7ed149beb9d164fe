(* What the environment variables TRV_GPU_MAXNUM, TRV_GPU_MODE,
   TRV_INTERACTIVE and TERM switch on and off.
   /repo/src/triumvirate/src/monitor.cpp 258-324, 506-521 and
   /repo/src/triumvirate/logger.py 61-69. *)
From Coq Require Import String Ascii List ZArith Lia Bool.
From Verif Require Import Base StrModel StrProps Dec.
Import ListNotations.
Local Open Scope string_scope.
Local Open Scope Z_scope.

(** What the program runs on: the number hipGetDeviceCount or
    cudaGetDeviceCount writes (0 in a build for neither, 259-264; a failing
    call is not modelled) and the environment std::getenv reads. *)
Record machine := mk_machine {
  devices : Z;
  getenv : string -> option string }.

(** `std::regex_match(s, std::regex("^[0-9]+$"))`, 275-276: the whole string
    has to match. *)
Fixpoint only_digits (s : string) : bool :=
  match s with
  | EmptyString => true
  | String c t => match digit_value c with Some _ => only_digits t | None => false end
  end.
Definition re_int (s : string) : bool := negb (s =? "")%string && only_digits s.

(** `std::stoi` of digits: std::out_of_range above INT_MAX, which nothing
    catches. *)
Definition INT_MAX : Z := 2147483647.
Definition stoi_digits (s : string) : res Z :=
  match digits_value s with
  | Some n => if INT_MAX <? n then Err Terminated else Ok n
  | None => Err Terminated
  end.

(** `get_gpu_count`, monitor.cpp 258-282. *)
Definition get_gpu_count (m : machine) (sys : bool) : res Z :=
  let num_gpus := devices m in
  if sys then Ok num_gpus
  else
    max_gpus <- (match getenv m "TRV_GPU_MAXNUM" with
                 | Some gpu_maxnum =>
                     if re_int gpu_maxnum then stoi_digits gpu_maxnum else Ok num_gpus
                 | None => Ok num_gpus
                 end) ;;
    Ok (if max_gpus <? num_gpus then max_gpus else num_gpus).

(** `get_gpu_ids`, 284-290: the count is asked for before each round. *)
Fixpoint ids_loop (fuel : nat) (m : machine) (i : Z) (gpu_ids : list Z) : res (list Z) :=
  match fuel with
  | O => Err OutOfFuel
  | S f =>
      n <- get_gpu_count m false ;;
      if i <? n then ids_loop f m (i + 1) (gpu_ids ++ [i])%list else Ok gpu_ids
  end.
Definition get_gpu_ids (fuel : nat) (m : machine) : res (list Z) := ids_loop fuel m 0 [].

(** `is_gpu_available`, 292-295. *)
Definition is_gpu_available (m : machine) : res bool :=
  n <- get_gpu_count m true ;; Ok (0 <? n).

(** `is_gpu_enabled`, 297-320. *)
Definition is_gpu_enabled (m : machine) : res bool :=
  n <- get_gpu_count m false ;;
  if negb (0 <? n) then Ok false
  else match getenv m "TRV_GPU_MODE" with
  | Some gpu_mode =>
      if ((gpu_mode =? "false") || (gpu_mode =? "no") || (gpu_mode =? "off")
          || (gpu_mode =? "0"))%string%bool
      then Ok false else Ok true
  | None => Ok true
  end.

(** `is_gpu_single`, 322-324. *)
Definition is_gpu_single (m : machine) : res bool :=
  n <- get_gpu_count m false ;; Ok (n =? 1).

(** `is_colourable`, 506-521. *)
Definition is_colourable (m : machine) : bool :=
  match getenv m "TERM", getenv m "TRV_INTERACTIVE" with
  | Some ev_term, Some ev_interactive =>
      match sfind "color" ev_term with
      | None => false
      | Some _ => ((ev_interactive =? "true") || (ev_interactive =? "yes")
                   || (ev_interactive =? "1") || (ev_interactive =? "on"))%string%bool
      end
  | _, _ => false
  end.

(** The condition of `_ElapsedColourLogFormatter.format`, logger.py 67-68. *)
Definition py_colourable (m : machine) : bool :=
  match sfind "color" (match getenv m "TERM" with Some t => t | None => "" end) with
  | Some _ => match getenv m "TRV_INTERACTIVE" with Some _ => true | None => false end
  | None => false
  end.
