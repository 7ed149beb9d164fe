(* Model of FieldStats::record_binned_vectors,
   /repo/src/triumvirate/src/field.cpp 2317-2504, and of the fine-sampled binning
   of modes and pairs in FieldStats::compute_ylm_wgtd_2pt_stats_in_fourier
   (2565-2703) and compute_ylm_wgtd_2pt_stats_in_config (2839-2945). *)
From Coq Require Import Reals ZArith List Lia Lra Bool Permutation Sorted.
From Flocq Require Import Core.Raux.
From Verif Require Import Base ArrayModel MeshModel BinningModel.
Import ListNotations.
Open Scope R_scope.

(** A mesh cell. *)
Definition cell := (Z * Z * Z)%type.

(** field.cpp 2320-2339: grid steps; 2083-2091 for [dr] and [dk]. *)
Definition cellsize (sp : space) (n : Z) (l : R) : res R :=
  match sp with
  | Config => Ok (l / IZR n)
  | Fourier => Ok (2 * PI / l)
  | OtherSpace => Err InvalidData
  end.

(** field.cpp 2341-2374: upper end of the left index range and lower end of the
    right index range, [x] being [b * ngrid / boxsize] or
    [b * boxsize / (2 pi)]. *)
Definition bin_extent (sp : space) (b : R) (n : Z) (l : R) : R :=
  match sp with
  | Config => b * IZR n / l
  | _ => b * l / (2 * PI)
  end.
Definition lrange_upper (x : R) (n : Z) : Z := Z.min (Zceil x) (Zceil (IZR n / 2)).
Definition rrange_lower (x : R) (n : Z) : Z :=
  Z.max (Zfloor (IZR n - x)) (Zfloor (IZR n / 2)).

(** field.cpp 2376-2395; the loops have inclusive upper ends. *)
Definition generate_range (ll lu rl ru : Z) : list Z :=
  if (lu <? rl)%Z then arange ll (lu + 1) ++ arange rl (ru + 1) else arange ll (ru + 1).

(** field.cpp 2397-2405, one axis. *)
Definition axis_range (sp : space) (b : R) (n : Z) (l : R) : list Z :=
  let x := bin_extent sp b n l in
  generate_range 0 (lrange_upper x n) (rrange_lower x n) (n - 1).

(** The iterations of three nested loops. *)
Definition loop3 (is js ks : list Z) : list cell :=
  flat_map (fun i => flat_map (fun j => map (fun k => (i, j, k)) ks) js) is.

(** One record of BinnedVectors, include/dataobjs.hpp 166-175; the six parallel
    vectors are one list of records. *)
Record bvec : Type := BVec {
  v_bin : Z; v_lower : R; v_upper : R; v_x : R; v_y : R; v_z : R
}.

(** maths.cpp [get_vec3d_magnitude]. *)
Definition magnitude (x y z : R) : R := sqrt (x * x + y * y + z * z).

(** field.cpp 2430-2445: the first matching bin; reading past the edges is
    [OutOfBounds]. *)
Fixpoint find_bin (bins : list Z) (edges : list R) (s : R) : res (option (Z * R * R)) :=
  match bins with
  | [] => Ok None
  | b :: t =>
    match nth_error edges (Z.to_nat b), nth_error edges (Z.to_nat b + 1) with
    | Some lo, Some hi =>
      if Rleb lo s && Rltb s hi then Ok (Some (b, lo, hi)) else find_bin t edges s
    | _, _ => Err OutOfBounds
    end
  end.

(** The vector of a cell, field.cpp 2418-2424. *)
Definition cell_vec (ng : triple Z) (d : triple R) (c : cell) : R * R * R :=
  let '(i, j, k) := c in
  (grid_vector (ax0 ng) (ax0 d) i, grid_vector (ax1 ng) (ax1 d) j, grid_vector (ax2 ng) (ax2 d) k).
Definition cell_len (ng : triple Z) (d : triple R) (c : cell) : R :=
  let '(x, y, z) := cell_vec ng d c in magnitude x y z.

(** One iteration, field.cpp 2415-2447: what the critical section appends. *)
Definition bin_cell (ng : triple Z) (d : triple R) (b : cpp_binning) (c : cell)
  : res (list bvec) :=
  let '(x, y, z) := cell_vec ng d c in
  f <- find_bin (arange 0 (c_num b)) (c_edges b) (magnitude x y z) ;;
  match f with
  | Some (ibin, lo, hi) => Ok [BVec ibin lo hi x y z]
  | None => Ok []
  end.

(** The loop executed in the order [order]; the appends are inside a critical
    section, so a parallel run appends in some order of the iterations. *)
Fixpoint run_bin (ng : triple Z) (d : triple R) (b : cpp_binning) (order : list cell)
  : res (list bvec) :=
  match order with
  | [] => Ok []
  | c :: t => e <- bin_cell ng d b c ;; r <- run_bin ng d b t ;; Ok (e ++ r)
  end.

(** arrayops.cpp 245-266 ([get_sorted_indices]): [std::sort] of [0..n-1] with
    comparison on keys; not stable, so any sorted permutation may come out. *)
Definition sorting_of (idx : list nat) (keys : list Z) : Prop :=
  Permutation idx (seq 0 (length keys)) /\
  StronglySorted (fun a b => ~ (nth b keys 0 < nth a keys 0)%Z) idx.

(** field.cpp 2468-2478. *)
Definition gather (es : list bvec) (idx : list nat) : list bvec :=
  map (fun i => nth i es (BVec 0 0 0 0 0 0)) idx.

(** field.cpp 2317-2504: [out] is a possible result of a (parallel) run, [None]
    when it throws.  Writing the file and the memory counters are left out. *)
Definition steps (sp : space) (g : mesh_params) : res (triple R) :=
  d0 <- cellsize sp (ax0 (ngrid g)) (ax0 (boxsize g)) ;;
  d1 <- cellsize sp (ax1 (ngrid g)) (ax1 (boxsize g)) ;;
  d2 <- cellsize sp (ax2 (ngrid g)) (ax2 (boxsize g)) ;;
  Ok (T3 d0 d1 d2).

Definition restricted_cells (g : mesh_params) (b : cpp_binning) : list cell :=
  loop3 (axis_range (c_space b) (c_max b) (ax0 (ngrid g)) (ax0 (boxsize g)))
        (axis_range (c_space b) (c_max b) (ax1 (ngrid g)) (ax1 (boxsize g)))
        (axis_range (c_space b) (c_max b) (ax2 (ngrid g)) (ax2 (boxsize g))).

Definition record_binned_vectors (g : mesh_params) (b : cpp_binning) (out : res (list bvec)) : Prop :=
  match steps (c_space b) g with
  | Err x => out = Err x
  | Ok d =>
    exists order, Permutation order (restricted_cells g b) /\
    match run_bin (ngrid g) d b order with
    | Err x => out = Err x
    | Ok es => exists idx, sorting_of idx (map v_bin es) /\ out = Ok (gather es idx)
    end
  end.

(** ** Fine-sampled binning *)

(** field.cpp 2568-2569 (and 2842-2843): number and width of the fine samples. *)
Definition n_sample : Z := 1000000.
Definition dk_sample : R := / 100000.
Definition dr_sample : R := / 10.

(** field.cpp 2619-2660: accumulate one quantity [f] of the modes into the fine
    samples, executed in the order [order] (atomic additions).  [int(x)]
    truncates; numbers beyond the range of int are out of the sampled range as
    well. *)
Definition add_sample (d : R) (len : cell -> R) (f : cell -> R) (s : Z -> R) (c : cell) : Z -> R :=
  let idx := Ztrunc (len c / d) in
  if ((0 <=? idx) && (idx <? n_sample))%Z
  then fun i => if (i =? idx)%Z then s i + f c else s i
  else s.
Definition fine_samples (d : R) (len f : cell -> R) (order : list cell) : Z -> R :=
  fold_left (add_sample d len f) order (fun _ => 0).

(** field.cpp 2673-2683: sum the fine samples whose left end lies in the bin. *)
Definition bin_samples (d : R) (lo hi : R) (s : Z -> R) : R :=
  fold_left (fun acc i => let x := IZR i * d in
                          if Rleb lo x && Rltb x hi then acc + s i else acc)
            (arange 0 n_sample) 0.

(** field.cpp 2685-2693: mean over the modes, or the bin centre (for the
    wavenumber) / zero (for the other quantities) in an empty bin. *)
Definition bin_mean (count total default : R) : R :=
  if Reqb count 0 then default else total / count.

(** Result of the binning for the bin [lo, hi) and the quantity [f]: number of
    modes and mean value. *)
Definition bin_result (d : R) (lo hi default : R) (len f : cell -> R) (order : list cell) : R * R :=
  let n := bin_samples d lo hi (fine_samples d len (fun _ => 1) order) in
  (n, bin_mean n (bin_samples d lo hi (fine_samples d len f order)) default).

(** All cells of the mesh, field.cpp 2622-2624. *)
Definition all_cells (ng : triple Z) : list cell :=
  loop3 (arange 0 (ax0 ng)) (arange 0 (ax1 ng)) (arange 0 (ax2 ng)).
