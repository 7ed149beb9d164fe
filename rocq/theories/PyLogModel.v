(* The Python logger: src/triumvirate/logger.py (the formatter 20-70 except
   the elapsed time, which is in MonitorModel; the C++ adapter 73-106; the
   warning formatter 110-147; setup_logger 150-201).

   Modelled of the standard library: `str.format` with automatic fields, the
   `%` formatting a record applies to a message logged with arguments (the
   conversions %s, %d and %%), `Logger.isEnabledFor`, the handler list of the
   root logger, and the record layout given to the formatter.

   Simplified: a replacement field with anything between its braces is a
   KeyError.  In Python it may be a ValueError, or may be filled and make a
   later `{}` fail; in the one use below a `{}` always follows, so that the
   call raises in every one of these cases.  `strip` removes the ASCII blanks
   only.  An argument of a message is the text `str` gives for it, and an
   argument for %d is an integer's text.  Left out: exception information, the
   mapping form of `%` arguments, flags, widths and the other conversions
   (each is a ValueError here), and other loggers than the root. *)
From Coq Require Import String Ascii List Arith ZArith Reals Bool.
From Verif Require Import Base StrModel Dec MonitorModel.
Import ListNotations.
Local Open Scope string_scope.

Definition lbrace : ascii := "{"%char.
Definition rbrace : ascii := "}"%char.

(** `s.replace(c, cc)` for one character. *)
Fixpoint double_char (c : ascii) (s : string) : string :=
  match s with
  | EmptyString => EmptyString
  | String d t =>
      if Ascii.eqb d c then String c (String c (double_char c t))
      else String d (double_char c t)
  end.

(** `text.format( *args )`. *)
Fixpoint str_format (s : string) (args : list string) : res string :=
  match s with
  | EmptyString => Ok EmptyString
  | String c r =>
      if Ascii.eqb c lbrace then
        match r with
        | EmptyString => Err ValueError       (* Single '{' encountered *)
        | String d r' =>
            if Ascii.eqb d lbrace then
              t <- str_format r' args ;; Ok (String lbrace t)
            else if Ascii.eqb d rbrace then
              match args with
              | [] => Err IndexError
              | a :: args' => t <- str_format r' args' ;; Ok (a ++ t)
              end
            else Err KeyError
        end
      else if Ascii.eqb c rbrace then
        match r with
        | EmptyString => Err ValueError       (* Single '}' encountered *)
        | String d r' =>
            if Ascii.eqb d rbrace then
              t <- str_format r' args ;; Ok (String rbrace t)
            else Err ValueError
        end
      else t <- str_format r args ;; Ok (String c t)
  end.

(** `s.lstrip()` and `s.strip()`. *)
Fixpoint lstrip (s : string) : string :=
  match s with
  | EmptyString => EmptyString
  | String c t => if is_blank_char c then lstrip t else s
  end.

Fixpoint rstrip (s : string) : string :=
  match s with
  | EmptyString => EmptyString
  | String c t =>
      match rstrip t with
      | EmptyString => if is_blank_char c then EmptyString else String c EmptyString
      | u => String c u
      end
  end.

Definition strip (s : string) : string := rstrip (lstrip s).

Definition dquote : string := String (ascii_of_nat 34) EmptyString.

(** _format_warning, logger.py 110-147.  [cached] is what `linecache.getline`
    returns for the file and line, [None] if it raises. *)
Definition format_warning (message category filename : string) (lineno : Z)
    (line : option string) (cached : string -> Z -> option string)
    : res string :=
  msg_txt <- str_format "{} ({}:{}:{}{{}})"
               [double_char rbrace (double_char lbrace message); filename;
                to_string lineno; category] ;;
  let linesource := match line with
                    | None => cached filename lineno
                    | Some l => Some l
                    end in
  match linesource with
  | None | Some EmptyString => str_format msg_txt [""]
  | Some l => str_format msg_txt [" --> " ++ dquote ++ strip l ++ dquote]
  end.

(** The values given as `cpp_state`. *)
Inductive cpp_state : Type :=
| StFlag (b : bool)
| StText (s : string).

Definition lower_char (c : ascii) : ascii :=
  let n := nat_of_ascii c in
  if ((65 <=? n) && (n <=? 90))%nat then ascii_of_nat (n + 32) else c.

Fixpoint lower (s : string) : string :=
  match s with
  | EmptyString => EmptyString
  | String c t => String (lower_char c) (lower t)
  end.

Definition truthy (st : cpp_state) : bool :=
  match st with
  | StFlag b => b
  | StText s => negb (String.eqb s "")
  end.

(** _CppLogAdapter.process, logger.py 95-106; [extra] is the adapter's own
    state, set to False at line 199. *)
Definition process (extra : cpp_state) (kw : option cpp_state) (msg : string)
    : string :=
  let st := match kw with Some s => s | None => extra end in
  let rest := if truthy st then msg ++ " (in C++)" else msg in
  match st with
  | StText s =>
      if String.eqb (lower s) "start" then msg ++ " (entering C++)"
      else if String.eqb (lower s) "end" then msg ++ " (exited C++)"
      else rest
  | StFlag _ => rest
  end.

(** `msg % args` for %s, %d and %%. *)
Fixpoint percent (s : string) (args : list string) : res string :=
  match s with
  | EmptyString =>
      match args with [] => Ok EmptyString | _ => Err TypeError end
  | String c r =>
      if Ascii.eqb c "%"%char then
        match r with
        | EmptyString => Err ValueError       (* incomplete format *)
        | String d r' =>
            if Ascii.eqb d "%"%char then
              t <- percent r' args ;; Ok (String d t)
            else if Ascii.eqb d "s"%char || Ascii.eqb d "d"%char then
              match args with
              | [] => Err TypeError
              | a :: args' => t <- percent r' args' ;; Ok (a ++ t)
              end
            else Err ValueError
        end
      else t <- percent r args ;; Ok (String c t)
  end.

(** LogRecord.getMessage: formatted only if there are arguments. *)
Definition get_message (msg : string) (args : list string) : res string :=
  match args with
  | [] => Ok msg
  | _ => percent msg args
  end.

(** The names of the levels, logging's own and logger.py 169-170; any other
    level is shown as "Level n". *)
Definition level_name (l : Z) : string :=
  if (l =? 0)%Z then "NOTSET"
  else if (l =? 10)%Z then "DEBUG"
  else if (l =? 15)%Z then "STAT"
  else if (l =? 20)%Z then "INFO"
  else if (l =? 30)%Z then "WARNING"
  else if (l =? 40)%Z then "ERROR"
  else if (l =? 50)%Z then "CRITICAL"
  else "Level " ++ to_string l.

Definition esc : string := String (ascii_of_nat 27) EmptyString.

(** logger.py 25-34. *)
Definition colour_of (name : string) : string :=
  if String.eqb name "DEBUG" then esc ++ "[1;36m"
  else if String.eqb name "STAT" then esc ++ "[1;34m"
  else if String.eqb name "INFO" then esc ++ "[1;32m"
  else if String.eqb name "WARNING" then esc ++ "[1;33m"
  else if String.eqb name "ERROR" then esc ++ "[1;31m"
  else if String.eqb name "CRITICAL" then esc ++ "[1;37;41m"
  else esc ++ "[0m".

(** logger.py 64-66.  The text has at most four characters, so that each
    `replace` acts on the whole text or not at all. *)
Definition level_tag (name : string) : string :=
  let t := stake 4 name in
  let t := if String.eqb t "DEBU" then "DBUG" else t in
  if String.eqb t "CRIT" then "FATAL" else t.

(** logger.py 67-69: the environment's TERM and TRV_INTERACTIVE. *)
Definition coloured (term interactive : option string) : bool :=
  let t := match term with Some s => s | None => "" end in
  match sfind "color" t with
  | Some _ => match interactive with Some _ => true | None => false end
  | None => false
  end.

Definition shown_tag (term interactive : option string) (name : string)
    : string :=
  if coloured term interactive
  then colour_of name ++ level_tag name ++ esc ++ "[0m"
  else level_tag name.

(** The line written, logger.py 52-71 and 174-177.  [asctime] is the date and
    time in the format of line 176. *)
Definition log_line (term interactive : option string) (asctime : string)
    (elapsed : R) (l : Z) (text : string) : string :=
  "[" ++ asctime ++ " " ++ py_elapsed elapsed ++ " "
  ++ shown_tag term interactive (level_name l) ++ "] " ++ text.

(** The root logger: the handlers attached to it and its level.  A handler
    is the one of this module or some other. *)
Inductive handler : Type :=
| OurHandler
| OtherHandler (n : nat).

Record root_logger : Type := {
  rl_handlers : list handler;
  rl_level : Z }.

(** setup_logger, logger.py 183-190. *)
Definition setup_logger (log_level : Z) (g : root_logger) : root_logger :=
  let has_handlers := negb (Nat.eqb (List.length (rl_handlers g)) 0) in
  let hs := if has_handlers then [] else rl_handlers g in
  {| rl_handlers := hs ++ [OurHandler]; rl_level := log_level |}.

(** One call of the logger: `logger.log(l, msg, *args, cpp_state=kw)`.  The
    lines written by this module's handlers, one per handler. *)
Definition log_call (term interactive : option string) (asctime : string)
    (elapsed : R) (g : root_logger) (l : Z) (msg : string)
    (args : list string) (kw : option cpp_state) : res (list string) :=
  if (rl_level g <=? l)%Z then
    text <- get_message (process (StFlag false) kw msg) args ;;
    Ok (map (fun _ => log_line term interactive asctime elapsed l text)
          (filter (fun h => match h with OurHandler => true | _ => false end)
             (rl_handlers g)))
  else Ok [].
