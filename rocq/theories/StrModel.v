(* String helpers of the C++ layer: src/triumvirate/src/monitor.cpp
   (has_extension 38-43, join_strings 45-57, split_string 59-85,
   expand_envar_in_path 1012-1037) and src/io.cpp (if_filepath_is_set 39-57).
   `std::string` is a Coq [string]; lengths are unbounded.  NUL characters
   inside environment-variable names and values are not modelled. *)
From Coq Require Import String Ascii List Arith Lia Bool.
From Verif Require Import Base.
Import ListNotations.
Local Open Scope string_scope.

(** Drop the first [n] characters: `s.erase(0, n)`. *)
Fixpoint sdrop (n : nat) (s : string) : string :=
  match n, s with
  | O, _ => s
  | _, EmptyString => EmptyString
  | S m, String _ t => sdrop m t
  end.

(** First [n] characters: `s.substr(0, n)`. *)
Fixpoint stake (n : nat) (s : string) : string :=
  match n, s with
  | O, _ => EmptyString
  | _, EmptyString => EmptyString
  | S m, String c t => String c (stake m t)
  end.

(** `s.find(d)`: position of the first occurrence, [None] for `npos`. *)
Fixpoint sfind (d s : string) : option nat :=
  if prefix d s then Some 0
  else match s with
       | EmptyString => None
       | String _ t => match sfind d t with
                       | Some n => Some (S n)
                       | None => None
                       end
       end.

(** `s.rfind(d)`: position of the last occurrence, [None] for `npos`. *)
Fixpoint srfind (d s : string) : option nat :=
  match s with
  | EmptyString => if prefix d s then Some 0 else None
  | String _ t => match srfind d t with
                  | Some n => Some (S n)
                  | None => if prefix d s then Some 0 else None
                  end
  end.

(** `s.rfind("/", 0) == 0`: [s] starts with "/" (parameters.cpp 522 etc.). *)
Definition is_absolute (s : string) : bool := prefix "/" s.

(** monitor.cpp 38-43. *)
Definition has_extension (fname fext : string) : bool :=
  if (String.length fext <=? String.length fname)%nat then
    match srfind fext fname with
    | Some n => (n =? String.length fname - String.length fext)%nat
    | None => false
    end
  else false.

(** monitor.cpp 45-57: the delimiter is written after every element but
    the last. *)
Fixpoint join_strings (strings : list string) (delimiter : string) : string :=
  match strings with
  | [] => ""
  | [x] => x
  | x :: t => x ++ delimiter ++ join_strings t delimiter
  end.

(** monitor.cpp 73-78: the while loop, which cuts at the first delimiter
    until there is none.  Returns the pieces and what is left of `fullstr`.
    [fuel] bounds the iterations; [split_fuel] in StrProps shows the fuel
    given below is enough. *)
Fixpoint cut_loop (fuel : nat) (delimiter fullstr : string)
  : list string * string :=
  match fuel with
  | O => ([], fullstr)
  | S f =>
      match sfind delimiter fullstr with
      | None => ([], fullstr)
      | Some dlpos =>
          let (ps, rest) :=
            cut_loop f delimiter (sdrop (dlpos + String.length delimiter) fullstr) in
          (stake dlpos fullstr :: ps, rest)
      end
  end.

(** monitor.cpp 59-85. *)
Definition split_string (str delimiter : string) : list string :=
  if str =? "" then []
  else if delimiter =? "" then [str]
  else
    let (ps, rest) := cut_loop (S (String.length str)) delimiter str in
    if rest =? "" then ps else (ps ++ [rest])%list.

(** `find_first_not_of(" \t\n\r\v\f")`: is there a character outside
    space and the control characters 9-13?  (parameters.cpp 472 etc.) *)
Definition is_blank_char (c : ascii) : bool :=
  let n := nat_of_ascii c in ((n =? 32) || ((9 <=? n) && (n <=? 13)))%nat.

Fixpoint is_blank (s : string) : bool :=
  match s with
  | EmptyString => true
  | String c t => is_blank_char c && is_blank t
  end.

(** src/io.cpp 39-57 (`std::isspace` in the C locale is [is_blank_char]). *)
Definition if_filepath_is_set (pathstr : string) : bool :=
  if pathstr =? "" then false
  else if has_extension pathstr "/" then false
  else negb (is_blank pathstr).

(** The characters of the pattern `\$\{([^}]+)\}`. *)
Definition dollar : ascii := "$"%char.
Definition lbrace : ascii := "{"%char.
Definition rbrace : ascii := "}"%char.

(** `[^}]+\}` after "${": the name up to the first "}" and what follows. *)
Fixpoint take_name (s : string) : option (string * string) :=
  match s with
  | EmptyString => None
  | String c t =>
      if Ascii.eqb c rbrace then Some ("", t)
      else match take_name t with
           | Some (n, r) => Some (String c n, r)
           | None => None
           end
  end.

(** A match of the pattern starting at the first character: the captured
    name (non-empty) and the suffix. *)
Definition match_here (s : string) : option (string * string) :=
  match s with
  | String c1 (String c2 t) =>
      if Ascii.eqb c1 dollar && Ascii.eqb c2 lbrace then
        match take_name t with
        | Some (n, r) => if n =? "" then None else Some (n, r)
        | None => None
        end
      else None
  | _ => None
  end.

(** `std::regex_search`: leftmost match, as (prefix, captured name, suffix). *)
Fixpoint regex_search (s : string) : option (string * string * string) :=
  match match_here s with
  | Some (n, r) => Some ("", n, r)
  | None =>
      match s with
      | EmptyString => None
      | String c t =>
          match regex_search t with
          | Some (p, n, r) => Some (String c p, n, r)
          | None => None
          end
      end
  end.

(** monitor.cpp 1012-1037.  [env] is `std::getenv`; [s] is the part of the
    path from `search_start` on.  The text before `search_start` is never
    looked at again, so it is returned piecewise. *)
Fixpoint expand_loop (fuel : nat) (env : string -> option string) (s : string)
  : string :=
  match fuel with
  | O => s
  | S f =>
      match regex_search s with
      | None => s
      | Some (p, n, r) =>
          match env n with
          | Some v => p ++ v ++ expand_loop f env r
          | None => p ++ ("${" ++ n ++ "}") ++ expand_loop f env r
          end
      end
  end.

Definition expand_envar (env : string -> option string) (path : string)
  : string := expand_loop (S (String.length path)) env path.

(** src/io.cpp 59-68, the string part of `make_write_dir`: which directory,
    if any, is created.  Trailing slashes are popped. *)
Fixpoint strip_slashes (s : string) : string :=
  match s with
  | EmptyString => ""
  | String c t =>
      match strip_slashes t with
      | EmptyString => if Ascii.eqb c "/"%char then "" else String c ""
      | t' => String c t'
      end
  end.

Definition write_dir (dirstr : string) : option string :=
  if (dirstr =? "") || (dirstr =? ".") || (dirstr =? "./") || (dirstr =? "/")
  then None
  else Some (strip_slashes dirstr).
