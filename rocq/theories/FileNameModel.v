(* Paths that measurements are saved to.
   /repo/src/triumvirate/twopt.py 158-192 and 636-655 (and the same lines of
   the other two-point functions), /repo/src/triumvirate/threept.py 196-242 and
   711-730. *)
From Coq Require Import String Ascii.
From Coq Require Import ZArith List Lia Bool.
From Verif Require Import Base Dec.
Import ListNotations.
Local Open Scope string_scope.

(** The parameters that names depend on: 'statistic_type', 'degrees', 'form',
    'idx_bin', 'wa_orders' and 'tags' 'output' (None or a string). *)
Record meas := mk_meas {
  stat : string;
  ell1 : Z;
  ell2 : Z;
  ELL : Z;
  form : string;
  idx_bin : Z;
  wa_i : Z;
  wa_j : Z;
  tag : option string }.

(** `paramset['tags']['output'] or ""`. *)
Definition output_tag (m : meas) : string :=
  match tag m with None => "" | Some t => t end.

(** `_get_measurement_filename` of twopt.py, 178-192. *)
Definition twopt_name (m : meas) : res string :=
  if stat m =? "powspec" then Ok ("pk" ++ to_string (ELL m) ++ output_tag m)
  else if stat m =? "2pcf" then Ok ("xi" ++ to_string (ELL m) ++ output_tag m)
  else if stat m =? "2pcf-win" then Ok ("xiw" ++ to_string (ELL m) ++ output_tag m)
  else Err ValueError.

(** threept.py 217-226: a form that is none of the four leaves the name
    unbound. *)
Definition binform (m : meas) : option string :=
  if form m =? "full" then Some "_full"
  else if form m =? "row" then Some ("_row" ++ to_string (idx_bin m))
  else if form m =? "off-diag" then Some ("_offdiag" ++ to_string (idx_bin m))
  else if form m =? "diag" then Some "_diag"
  else None.

(** `_get_measurement_filename` of threept.py, 215-242. *)
Definition threept_name (m : meas) : res string :=
  let multipole := to_string (ell1 m) ++ to_string (ell2 m) ++ to_string (ELL m) in
  let bf := match binform m with Some b => Ok b | None => Err NameError end in
  if stat m =? "bispec" then (b <- bf ;; Ok ("bk" ++ multipole ++ b ++ output_tag m))
  else if stat m =? "3pcf" then (b <- bf ;; Ok ("zeta" ++ multipole ++ b ++ output_tag m))
  else if stat m =? "3pcf-win" then (b <- bf ;; Ok ("zetaw" ++ multipole ++ b ++ output_tag m))
  else if stat m =? "3pcf-win-wa" then
    (b <- bf ;;
     Ok ("zetaw" ++ multipole ++ b
         ++ "_wa" ++ to_string (wa_i m) ++ to_string (wa_j m) ++ output_tag m))
  else Err ValueError.

(* ------------------------------------------------------------------ *)
(* `Path(odirpath, ofilename).with_suffix(...)`                        *)

(** Pieces between slashes; always at least one. *)
Fixpoint split_slash (s : string) : list string :=
  match s with
  | "" => [""]
  | String c r =>
      if Ascii.eqb c "/" then "" :: split_slash r
      else match split_slash r with
           | [] => [String c ""]
           | p :: ps => String c p :: ps
           end
  end.

(** pathlib drops empty pieces and single dots. *)
Definition components (s : string) : list string :=
  filter (fun p => negb (p =? "") && negb (p =? ".")) (split_slash s).

(** `name.rfind('.')`, as the parts on both sides of the last dot. *)
Fixpoint last_dot (s : string) : option (string * string) :=
  match s with
  | "" => None
  | String c r =>
      match last_dot r with
      | Some (a, b) => Some (String c a, b)
      | None => if Ascii.eqb c "." then Some ("", r) else None
      end
  end.

(** The name without `PurePath.suffix`: the last dot counts unless it is the
    first or the last character (Python up to 3.13). *)
Definition stem (name : string) : string :=
  match last_dot name with
  | Some (a, b) => if (a =? "") || (b =? "") then name else a
  | None => name
  end.

(** [dir] holds the components of the measurement directory.  File names never
    start with a slash, so that they never replace it. *)
Definition save_path (dir : list string) (name suffix : string) : res (list string) :=
  match rev (components name) with
  | [] => Err ValueError
  | c :: r => Ok (dir ++ rev r ++ [(stem c ++ suffix)%string])%list
  end.

(** The save formats, e.g. twopt.py 642-659. *)
Inductive save_as := Txt | Npz.
Definition suffix_of (f : save_as) : string :=
  match f with Txt => ".txt" | Npz => ".npz" end.

Definition twopt_path (dir : list string) (f : save_as) (m : meas) : res (list string) :=
  n <- twopt_name m ;; save_path dir n (suffix_of f).
Definition threept_path (dir : list string) (f : save_as) (m : meas) : res (list string) :=
  n <- threept_name m ;; save_path dir n (suffix_of f).
