(* Reading HDF5 catalogues: src/triumvirate/src/particles.cpp 94-380
   (ParticleCatalogue::load_catalogue_file, in a build with TRV_USE_H5).  Text
   files are in LoadModel; the two share the columns, the particles and the
   totals.

   An HDF5 file is what the HighFive library shows of it: the names of the
   objects at its top, in the order they are listed, which of them are
   datasets, and its datasets by name; a dataset has its attributes in the
   order they are listed, whether its type is `float` or `double`, and its
   table.  A call the library refuses throws, and is caught as an I/O error
   (375-380): a missing file, dataset or attribute, an attribute that is not a
   list of texts ([None]), a dataset that is not a table ([None]).  Left out:
   datasets without dimensions, and log messages. *)
From Coq Require Import String Ascii List Arith Reals Bool.
From Verif Require Import Base StrModel ArrayModel MeshModel CatModel LoadModel.
Import ListNotations.
Local Open Scope nat_scope.
Local Open Scope string_scope.

Record dataset := {
  ds_attrs : list (string * option (list string));
  ds_real : bool;                      (* float or double *)
  ds_table : option (list (list R)) }.

Record h5file := {
  h_objects : list (string * bool);    (* name, whether it is a dataset *)
  h_get : string -> option dataset }.

(** 194-220: the dataset's name; the first one listed if none is given. *)
Fixpoint first_dataset (objs : list (string * bool)) : string :=
  match objs with
  | [] => ""
  | (n, true) :: _ => n
  | (_, false) :: t => first_dataset t
  end.

Definition dataset_name (given : string) (f : h5file) : res string :=
  if given =? "" then
    let n := first_dataset (h_objects f) in
    if n =? "" then Err InvalidData else Ok n
  else Ok given.

(** `ctlg_dset.getAttribute(name).read(ctlg_colnames)`. *)
Fixpoint get_attribute (name : string) (l : list (string * option (list string)))
  : res (list string) :=
  match l with
  | [] => Err IOErr
  | (n, v) :: t =>
      if n =? name then match v with Some c => Ok c | None => Err IOErr end
      else get_attribute name t
  end.

(** 242-312: the column names of one dataset.  Names found in attributes set
    the column indices anew for each file; names given keep theirs. *)
Definition columns_of (colnames : list string) (d : dataset) : res (list string) :=
  match colnames with
  | [] =>
      match ds_attrs d with
      | [] => Err InvalidData
      | (n, _) :: _ => get_attribute n (ds_attrs d)
      end
  | [c] => if prefix "attr::" c then get_attribute (sdrop 6 c) (ds_attrs d)
           else Ok colnames
  | _ => Ok colnames
  end.

(** 173-325: one file. *)
Definition read_file (colnames : list string) (given : string) (f : h5file)
  : res (list string * list (list R)) :=
  match h_objects f with
  | [] => Err InvalidData
  | _ =>
      n <- dataset_name given f ;;
      match h_get f n with
      | None => Err IOErr
      | Some d =>
          if negb (ds_real d) then Err InvalidData
          else
            cols <- columns_of colnames d ;;
            match ds_table d with
            | None => Err IOErr
            | Some rows => Ok (cols, rows)
            end
      end
  end.

(** 171-325: the files one after the other; the column indices are the ones
    last set, the rows are collected. *)
Fixpoint read_files (disk : string -> option h5file) (colnames : list string)
  (given : string) (paths : list string) (cols : list string)
  (rows : list (list R)) : res (list string * list (list R)) :=
  match paths with
  | [] => Ok (cols, rows)
  | p :: t =>
      match disk p with
      | None => Err IOErr
      | Some f =>
          x <- read_file colnames given f ;;
          read_files disk colnames given t (fst x) (rows ++ snd x)%list
      end
  end.

(** 328-374 and 494-504. *)
Definition fill_rows (cols : list string) (volume : R) (rows : list (list R))
  (c : catalogue) : catalogue * res unit :=
  let n := List.length rows in
  if (n =? 0)%nat then (c, Err InvalidParameter)
  else match sequence (map (particle_of cols (default_nz n volume)) rows) with
       | Err e => (c, Err e)
       | Ok ps =>
           let r := (set_pdata 0 ps ;> calc_total_weights 0 ;> calc_pos_extents 0)
                      (fun _ => c) in
           (fst r 0, snd r)
       end.

(** load_catalogue_file for a path recognised as HDF5 (113-117). *)
Definition load_h5 (disk : string -> option h5file)
  (path columns given : string) (volume : R) (c : sourced) : sourced * res unit :=
  if negb (source c =? "") then (c, Err InvalidData)
  else
    let src := "extfile:" ++ path in
    let colnames := pieces "," columns in
    match read_files disk colnames given (split_string path "::") colnames [] with
    | Err e => ({| source := src; body := body c |}, Err e)
    | Ok (cols, rows) =>
        let r := fill_rows cols volume rows (body c) in
        ({| source := src; body := fst r |}, snd r)
    end.

(** load_catalogue_file in a build with TRV_USE_H5: the ending of the whole
    path decides (113-117, 169, 381); [texts] is what files hold as text. *)
Definition load_file (disk : string -> option h5file) (texts : string -> option string)
  (path columns given : string) (volume : R) (c : sourced) : sourced * res unit :=
  if has_extension path ".h5" || has_extension path ".hdf5"
  then load_h5 disk path columns given volume c
  else load_catalogue_file texts path columns volume c.
