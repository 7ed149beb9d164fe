(* `ThreePointWindow.save_to_file` and `load_from_file` of winconv.py.
   /repo/src/triumvirate/winconv.py 1072-1119. *)
From Coq Require Import String Ascii.
From Coq Require Import Reals ZArith List Bool.
From Verif Require Import Base Array2dModel MultipoleModel WindowModel.
Import ListNotations.
Local Open Scope R_scope.

(* ------------------------------------------------------------------ *)
(** * Windows and archives *)

(** What `self.r` can be: as in WindowModel.v, or a single number. *)
Inductive rvalue :=
| RDict (d : mdict (list R))
| RArray (a : list R)
| RFloat (x : R).

(** The attributes that are saved.  `multipoles` and `sources` are lists or
    one-dimensional arrays, which are not told apart. *)
Record attributes := mk_attributes {
  a_r : rvalue;
  a_Q : mdict matrix;
  a_Q_diag : mdict (list R);
  a_multipoles : list (list Z);
  a_sources : list string }.

Definition attributes_of (w : window) (sources : list string) : attributes :=
  mk_attributes (match w_r w with ByPole d => RDict d | OneArray a => RArray a end)
                (w_Q w) (w_Q_diag w) (w_multipoles w) sources.

(** Arrays as `np.savez` makes them of its arguments (`np.asanyarray`): of a
    dictionary an array without dimensions that holds the dictionary as an
    object, pickled in the file; of a list of multipoles (which have no
    length) an array of objects; of a list of strings an array of strings.
    Numbers are saved exactly. *)
Inductive array :=
| PointsObject (d : mdict (list R))
| SamplesObject (d : mdict matrix)
| Floats (a : list R)
| Float0 (x : R)
| Poles (l : list (list Z))
| Strings (l : list string).

Definition archive : Type := list (string * array).

(** Files: an archive, or something else on which `np.load` or the access to
    its entries raises [e]. *)
Inductive content := Archive (a : archive) | OtherFile (e : exn).
Definition files : Type := string -> option content.

Definition write (fs : files) (path : string) (c : content) : files :=
  fun p => if String.eqb p path then Some c else fs p.

(* ------------------------------------------------------------------ *)
(** * Saving, 1102-1119 *)

(** `s.endswith(t)`. *)
Fixpoint endswith (t s : string) : bool :=
  String.eqb s t || match s with EmptyString => false | String _ r => endswith t r end.

(** `np.savez` appends the extension where it is missing. *)
Definition npz_path (path : string) : string :=
  if endswith ".npz" path then path else (path ++ ".npz")%string.

Definition save_to_file (fs : files) (path : string) (w : attributes) : files :=
  write fs (npz_path path)
    (Archive [("r", match a_r w with
                    | RDict d => PointsObject d
                    | RArray a => Floats a
                    | RFloat x => Float0 x
                    end);
              ("Q", SamplesObject (a_Q w));
              ("Q_diag", PointsObject (a_Q_diag w));
              ("multipoles", Poles (a_multipoles w));
              ("sources", Strings (a_sources w))]%string).

(* ------------------------------------------------------------------ *)
(** * Loading, 1072-1100 *)

(** `win_obj[key]`. *)
Fixpoint entry (a : archive) (key : string) : res array :=
  match a with
  | [] => Err KeyError
  | (k, v) :: r => if String.eqb k key then Ok v else entry r key
  end.

(** `.item()` of an array: its one element, ValueError otherwise.  (Objects of
    other kinds are not told apart from a wrong archive.) *)
Definition item_r (v : array) : res rvalue :=
  match v with
  | PointsObject d => Ok (RDict d)
  | Float0 x => Ok (RFloat x)
  | Floats [x] => Ok (RFloat x)
  | _ => Err ValueError
  end.
Definition item_Q (v : array) : res (mdict matrix) :=
  match v with SamplesObject d => Ok d | _ => Err ValueError end.
Definition item_Q_diag (v : array) : res (mdict (list R)) :=
  match v with PointsObject d => Ok d | _ => Err ValueError end.
Definition poles_of (v : array) : res (list (list Z)) :=
  match v with Poles l => Ok l | _ => Err ValueError end.
Definition strings_of (v : array) : res (list string) :=
  match v with Strings l => Ok l | _ => Err ValueError end.

(** `np.load(filepath, allow_pickle=True)`: the path as it is;
    FileNotFoundError for a missing file. *)
Definition load_from_file (fs : files) (path : string) : res attributes :=
  match fs path with
  | None => Err IOErr
  | Some (OtherFile e) => Err e
  | Some (Archive a) =>
      v <- entry a "r" ;; r <- item_r v ;;
      v <- entry a "Q" ;; Q <- item_Q v ;;
      v <- entry a "Q_diag" ;; Q_diag <- item_Q_diag v ;;
      v <- entry a "multipoles" ;; multipoles <- poles_of v ;;
      v <- entry a "sources" ;; sources <- strings_of v ;;
      Ok (mk_attributes r Q Q_diag multipoles sources)
  end.
