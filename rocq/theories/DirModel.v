(* Output directories: `make_write_dir`, src/io.cpp 59-87, as called by the
   program on the measurement directory, main/triumvirate.cpp 188, and
   opening a file for writing there, `fopen(path, "w")` (617, 650, 683 and
   similar).  The string part of the former is [StrModel.write_dir].

   The file system is a function from paths to what is there.  A path is the
   list of its names, the last one first; the root is the empty list.
   `std::filesystem::create_directories` goes through the names of its path,
   creating what is missing; where a file is in the way, or where the system
   refuses, it sets its error code.  [allowed] says which directories the
   system lets be created; it stands for permissions, space and limits.  Not
   modelled: symbolic links, other kinds of files, changes made by other
   processes meanwhile, the limit of 1000 missing directories, and the log
   messages. *)
From Coq Require Import String Ascii List Arith Bool.
From Verif Require Import Base StrModel.
Import ListNotations.
Local Open Scope string_scope.

Inductive kind : Type := KDir | KFile.

Definition path : Type := list string.
Definition fsys : Type := path -> option kind.

Definition put (fs : fsys) (p : path) (k : kind) : fsys :=
  fun q => if list_eq_dec string_dec q p then Some k else fs q.

(** The text between slashes. *)
Fixpoint pieces (s : string) : list string :=
  match s with
  | EmptyString => [""]
  | String c t =>
      if Ascii.eqb c "/" then "" :: pieces t
      else match pieces t with
           | [] => [String c ""]
           | h :: r => String c h :: r
           end
  end.

(** Where a path starts from: the root or the working directory. *)
Definition start (cwd : path) (s : string) : path :=
  if prefix "/" s then [] else cwd.

(** Go through names from a directory, creating the missing ones allowed. *)
Fixpoint walk (allowed : path -> bool) (fs : fsys) (cur : path)
    (ns : list string) : fsys * res path :=
  match ns with
  | [] => (fs, Ok cur)
  | n :: r =>
      if (n =? "") || (n =? ".") then walk allowed fs cur r
      else if n =? ".." then walk allowed fs (tl cur) r
      else
        match fs (n :: cur) with
        | Some KDir => walk allowed fs (n :: cur) r
        | Some KFile => (fs, Err IOErr)
        | None =>
            if allowed (n :: cur)
            then walk allowed (put fs (n :: cur) KDir) (n :: cur) r
            else (fs, Err IOErr)
        end
  end.

(** `std::filesystem::create_directories(dir, ec)`; an error code is an
    error. *)
Definition create_directories (allowed : path -> bool) (fs : fsys)
    (cwd : path) (s : string) : fsys * res path :=
  if s =? "" then (fs, Err IOErr)
  else walk allowed fs (start cwd s) (pieces s).

(** make_write_dir, src/io.cpp 59-87. *)
Definition make_write_dir (allowed : path -> bool) (fs : fsys) (cwd : path)
    (dirstr : string) : fsys * res unit :=
  match write_dir dirstr with
  | None => (fs, Ok tt)
  | Some s =>
      match create_directories allowed fs cwd s with
      | (fs', Ok _) => (fs', Ok tt)
      | (fs', Err e) => (fs', Err e)
      end
  end.

(** `fopen(s, "w")`: the directory must be there; what is there under the name
    must not be a directory. *)
Definition open_write (fs : fsys) (cwd : path) (s : string)
    : fsys * res path :=
  if s =? "" then (fs, Err IOErr)
  else
    let ns := pieces s in
    let n := last ns "" in
    match walk (fun _ => false) fs (start cwd s) (removelast ns) with
    | (_, Err e) => (fs, Err e)
    | (_, Ok dir) =>
        if (n =? "") || (n =? ".") || (n =? "..") then (fs, Err IOErr)
        else match fs (n :: dir) with
             | Some KDir => (fs, Err IOErr)
             | _ => (put fs (n :: dir) KFile, Ok (n :: dir))
             end
    end.
