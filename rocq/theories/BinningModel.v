(* Model of trv::Binning, /repo/src/triumvirate/src/dataobjs.cpp 39-249 and
   include/dataobjs.hpp 58-155, and of its Python wrapper
   triumvirate.dataobjs.Binning, /repo/src/triumvirate/dataobjs.pyx 14-219. *)
From Coq Require Import Reals ZArith List Lia Lra Bool.
From Verif Require Import Base ArrayModel.
Import ListNotations.
Open Scope R_scope.

Inductive space : Type := Fourier | Config | OtherSpace.
Inductive scheme : Type := Lin | Log | LinPad | LogPad | Custom | OtherScheme.

(** include/dataobjs.hpp 60-67, 137-140. *)
Record cpp_binning : Type := mkCpp {
  c_space : space;
  c_scheme : scheme;
  c_min : R;
  c_max : R;
  c_num : Z;
  c_edges : list R;
  c_centres : list R;
  c_widths : list R;
  c_pad_fourier : R;
  c_pad_config : R
}.

(** include/dataobjs.hpp 138. *)
Definition nbin_pad : Z := 5.

(** dataobjs.cpp 39-40; members without initialiser are indeterminate, the model
    puts zeros there and no theorem reads them. *)
Definition cpp_ctor (sp : space) (sc : scheme) : cpp_binning :=
  mkCpp sp sc 0 0 0 [] [] [] (/ 1000) 10.

(** dataobjs.cpp 42-56: [boxmax], [nmin] are the largest box size and the
    smallest grid number. *)
Definition cpp_ctor_params (sp : space) (sc : scheme) (bin_min bin_max : R) (num_bins : Z)
    (boxmax : R) (nmin : Z) : cpp_binning :=
  mkCpp sp sc bin_min bin_max num_bins [] [] []
    ((1 + 5 / 1000) * (2 * PI) / boxmax)
    ((1 + 5 / 1000) * boxmax / IZR nmin).

Definition irange (lo hi : Z) : list Z := arange lo hi.

(** The three vectors produced by [compute_binning]. *)
Definition bins := (list R * list R * list R)%type.

(** dataobjs.cpp 149-161. *)
Definition lin_bins (bin_min bin_max : R) (num_bins : Z) : bins :=
  let dbin := (bin_max - bin_min) / IZR num_bins in
  let edge_left i := bin_min + dbin * IZR i in
  (map edge_left (irange 0 num_bins) ++ [bin_max],
   map (fun i => edge_left i + dbin / 2) (irange 0 num_bins),
   map (fun _ => dbin) (irange 0 num_bins)).

(** dataobjs.cpp 165-185.  A non-positive [bin_max] makes [std::log] NaN or
    -inf; the code goes on with such numbers, the model stops. *)
Definition log_bins (bin_min bin_max : R) (num_bins : Z) : res bins :=
  if Reqb bin_min 0 then Err InvalidParameter
  else if Rleb bin_min 0 || Rleb bin_max 0 then Err NotANumber
  else
    let dlnbin := (ln bin_max - ln bin_min) / IZR num_bins in
    let edge_left i := bin_min * exp (dlnbin * IZR i) in
    let edge_right i := bin_min * exp (dlnbin * IZR (i + 1)) in
    Ok (map edge_left (irange 0 num_bins) ++ [bin_max],
        map (fun i => (edge_left i + edge_right i) / 2) (irange 0 num_bins),
        map (fun i => edge_right i - edge_left i) (irange 0 num_bins)).

(** dataobjs.cpp 190-197 / 218-225: the padded bins. *)
Definition pad_bins (dbin_pad : R) : bins :=
  let edge_left i := dbin_pad * IZR i in
  (map edge_left (irange 0 nbin_pad),
   map (fun i => edge_left i + dbin_pad / 2) (irange 0 nbin_pad),
   map (fun _ => dbin_pad) (irange 0 nbin_pad)).

(** dataobjs.cpp 189-213. *)
Definition linpad_bins (dbin_pad bin_max : R) (num_bins : Z) : bins :=
  let '(pe, pc, pw) := pad_bins dbin_pad in
  let bin_min := dbin_pad * IZR nbin_pad in
  let dbin := (bin_max - bin_min) / IZR (num_bins - nbin_pad) in
  let edge_left i := bin_min + dbin * IZR (i - nbin_pad) in
  (pe ++ map edge_left (irange nbin_pad num_bins) ++ [bin_max],
   pc ++ map (fun i => edge_left i + dbin / 2) (irange nbin_pad num_bins),
   pw ++ map (fun _ => dbin) (irange nbin_pad num_bins)).

(** dataobjs.cpp 217-243. *)
Definition logpad_bins (dbin_pad bin_max : R) (num_bins : Z) : res bins :=
  let '(pe, pc, pw) := pad_bins dbin_pad in
  let bin_min := dbin_pad * IZR nbin_pad in
  if Rleb bin_min 0 || Rleb bin_max 0 then Err NotANumber
  else
    let dlnbin := (ln bin_max - ln bin_min) / IZR (num_bins - nbin_pad) in
    let edge_left i := bin_min * exp (dlnbin * IZR (i - nbin_pad)) in
    let edge_right i := bin_min * exp (dlnbin * IZR (i - nbin_pad + 1)) in
    Ok (pe ++ map edge_left (irange nbin_pad num_bins) ++ [bin_max],
        pc ++ map (fun i => (edge_left i + edge_right i) / 2) (irange nbin_pad num_bins),
        pw ++ map (fun i => edge_right i - edge_left i) (irange nbin_pad num_bins)).

(** dataobjs.cpp 134-249.  [dbin_pad] is indeterminate for an unknown space. *)
Definition compute_bins (b : cpp_binning) : res bins :=
  let pad := match c_space b with
             | Fourier => Ok (c_pad_fourier b)
             | Config => Ok (c_pad_config b)
             | OtherSpace => Err NotANumber
             end in
  match c_scheme b with
  | Lin => Ok (lin_bins (c_min b) (c_max b) (c_num b))
  | Log => log_bins (c_min b) (c_max b) (c_num b)
  | LinPad => p <- pad ;; Ok (linpad_bins p (c_max b) (c_num b))
  | LogPad => p <- pad ;; logpad_bins p (c_max b) (c_num b)
  | Custom | OtherScheme => Err InvalidParameter
  end.

(** A C++ method call: the new object state and whether it threw. *)
Definition outcome := (cpp_binning * option exn)%type.

(** dataobjs.cpp 77-84: clear, then compute. *)
Definition cpp_set_bins0 (b : cpp_binning) : outcome :=
  let cleared := mkCpp (c_space b) (c_scheme b) (c_min b) (c_max b) (c_num b) [] [] []
                       (c_pad_fourier b) (c_pad_config b) in
  match compute_bins b with
  | Ok (e, c, w) =>
    (mkCpp (c_space b) (c_scheme b) (c_min b) (c_max b) (c_num b) e c w
           (c_pad_fourier b) (c_pad_config b), None)
  | Err x => (cleared, Some x)
  end.

(** dataobjs.cpp 58-75. *)
Definition cpp_set_bins (b : cpp_binning) (coord_min coord_max : R) (nbin : Z) : outcome :=
  if Rltb coord_min 0 then (b, Some InvalidParameter)
  else if (nbin <=? 0)%Z then (b, Some InvalidParameter)
  else
    cpp_set_bins0 (mkCpp (c_space b) (c_scheme b) coord_min coord_max nbin
                         (c_edges b) (c_centres b) (c_widths b)
                         (c_pad_fourier b) (c_pad_config b)).

(** dataobjs.cpp 86-110.  Integer division truncates towards zero; for
    positive grid numbers it is [Z.quot].  For an unknown space the width stays
    zero and [bin_max] keeps its old value. *)
Definition cpp_set_grid_bins (b : cpp_binning) (boxsize_max : R) (ngrid_min : Z) : outcome :=
  let width := match c_space b with
               | Config => boxsize_max / IZR ngrid_min
               | Fourier => 2 * PI / boxsize_max
               | OtherSpace => 0
               end in
  let bmax := match c_space b with
              | Config => boxsize_max / 2
              | Fourier => PI * IZR ngrid_min / boxsize_max
              | OtherSpace => c_max b
              end in
  cpp_set_bins0 (mkCpp (c_space b) Lin 0 (bmax + width / 2) (Z.quot ngrid_min 2)
                       (c_edges b) (c_centres b) (c_widths b)
                       (c_pad_fourier b) (c_pad_config b)).

(** ** Python wrapper: Python attributes beside the C++ object. *)
Record py_binning : Type := mkPy {
  p_scheme : scheme;
  p_min : option R;
  p_max : option R;
  p_num : option Z;
  p_edges : list R;
  p_centres : list R;
  p_widths : list R;
  p_cpp : cpp_binning
}.

(** dataobjs.pyx 139-160: the attributes are assigned before the C++ call. *)
Definition py_set_bins (s : py_binning) (bmin bmax : R) (n : Z) : py_binning * option exn :=
  let '(c, thrown) := cpp_set_bins (p_cpp s) bmin bmax n in
  match thrown with
  | Some x => (mkPy (p_scheme s) (Some bmin) (Some bmax) (Some n)
                    (p_edges s) (p_centres s) (p_widths s) c, Some x)
  | None => (mkPy (p_scheme s) (Some bmin) (Some bmax) (Some n)
                  (c_edges c) (c_centres c) (c_widths c) c, None)
  end.

(** dataobjs.pyx 162-189. *)
Definition py_set_grid_bins (s : py_binning) (boxsize : R) (ngrid : Z) : py_binning * option exn :=
  let '(c, thrown) := cpp_set_grid_bins (p_cpp s) boxsize ngrid in
  match thrown with
  | Some x => (mkPy (p_scheme s) (p_min s) (p_max s) (p_num s)
                    (p_edges s) (p_centres s) (p_widths s) c, Some x)
  | None => (mkPy (c_scheme c) (Some (c_min c)) (Some (c_max c)) (Some (c_num c))
                  (c_edges c) (c_centres c) (c_widths c) c, None)
  end.

(** [np.add(e[:-1], e[1:]) / 2.] and [np.subtract(e[1:], e[:-1])]. *)
Fixpoint midpoints (e : list R) : list R :=
  match e with
  | x :: ((y :: _) as t) => ((x + y) / 2) :: midpoints t
  | _ => []
  end.

(** dataobjs.pyx 191-219.  [bin_edges[0]] on an empty list is an IndexError
    before anything is assigned. *)
Definition py_set_custom_bins (s : py_binning) (edges : list R) : py_binning * option exn :=
  match edges with
  | [] => (s, Some IndexError)
  | e0 :: _ =>
    let elast := nth (length edges - 1) edges 0 in
    let n := (Z.of_nat (length edges) - 1)%Z in
    let c := p_cpp s in
    (mkPy Custom (Some e0) (Some elast) (Some n) edges (midpoints edges) (diffs edges)
       (mkCpp (c_space c) Custom e0 elast n edges (midpoints edges) (diffs edges)
              (c_pad_fourier c) (c_pad_config c)), None)
  end.

(** dataobjs.pyx 67-91 without initial bins. *)
Definition py_new (sp : space) (sc : scheme) : py_binning :=
  mkPy sc None None None [] [] [] (cpp_ctor sp sc).

(** Calls a user can make. *)
Inductive call : Type :=
| CallSet (bmin bmax : R) (n : Z)
| CallGrid (boxsize : R) (ngrid : Z)
| CallCustom (edges : list R).
Definition do_call (s : py_binning) (c : call) : py_binning * option exn :=
  match c with
  | CallSet a b n => py_set_bins s a b n
  | CallGrid l n => py_set_grid_bins s l n
  | CallCustom e => py_set_custom_bins s e
  end.
(** A history of calls, exceptions caught by the user. *)
Definition run (s : py_binning) (cs : list call) : py_binning :=
  fold_left (fun s c => fst (do_call s c)) cs s.

(** The two padding-related checks of ParameterSet::validate,
    /repo/src/triumvirate/src/parameters.cpp 1143-1160, 1188-1227. *)
Definition params_accepted (sc : scheme) (bin_min bin_max : R) (num_bins : Z) : bool :=
  negb (Rltb bin_min 0) && negb (Rleb bin_max bin_min) && negb (num_bins <? 2)%Z
  && match sc with LinPad | LogPad => negb (num_bins <? nbin_pad + 2)%Z | _ => true end.
