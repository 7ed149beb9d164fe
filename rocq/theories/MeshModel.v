(* Model of the mesh geometry and mesh assignment of
   /repo/src/triumvirate/src/field.cpp (MeshField) and of the index maps repeated
   in FieldStats and /repo/src/triumvirate/src/maths.cpp.
   Positions, weights and mesh values are reals (rounding not modelled); indices are
   unbounded integers (overflow of [int] not modelled). *)
From Coq Require Import Reals ZArith List Lia Lra Bool Permutation.
From Flocq Require Import Core.Raux.
From Verif Require Import Base ArrayModel.
Import ListNotations.
Open Scope R_scope.

(** ** Index maps *)

(** field.cpp 533-538 and 2306-2309 ([ret_grid_index]), maths.cpp 245-246. *)
Definition grid_index (ny nz i j k : Z) : Z := ((i * ny + j) * nz + k)%Z.

(** One axis of field.cpp 540-544 and 2311-2315 ([shift_grid_indices_fourier]);
    [n/2] is C++ integer division (of a positive number). *)
Definition shift_index (n i : Z) : Z :=
  if (i <? n / 2)%Z then i else (i - n)%Z.

(** One axis of field.cpp 546-553 ([get_grid_pos_vector]), 555-562
    ([get_grid_wavevector]) and maths.cpp 252-254, 294-296; [d] is the grid
    step along the axis. *)
Definition grid_vector (n : Z) (d : R) (i : Z) : R :=
  if (i <? n / 2)%Z then IZR i * d else IZR (i - n) * d.

(** ** Assignment schemes *)
Inductive scheme : Set := NGP | CIC | TSC | PCS.

(** Neighbouring cells on the periodic axis, the conditional expressions
    [(idx == ngrid - 1) ? 0 : idx + 1] and [(idx == 0) ? ngrid - 1 : idx - 1]. *)
Definition cell_next (n i : Z) : Z := if (i =? n - 1)%Z then 0%Z else (i + 1)%Z.
Definition cell_prev (n i : Z) : Z := if (i =? 0)%Z then (n - 1)%Z else (i - 1)%Z.

(** Sampling windows of one axis (TSC: field.cpp 889-901; PCS: 1022-1029). *)
Definition win_tsc (s : R) : R * R * R :=
  if Rltb s (1 / 2)
  then (1 / 2 * (1 / 2 - s) * (1 / 2 - s), 3 / 4 - s * s, 1 / 2 * (1 / 2 + s) * (1 / 2 + s))
  else let s := 1 - s in
       (1 / 2 * (1 / 2 + s) * (1 / 2 + s), 3 / 4 - s * s, 1 / 2 * (1 / 2 - s) * (1 / 2 - s)).

Definition win_pcs (s : R) : R * R * R * R :=
  (1 / 6 * (1 - s) * (1 - s) * (1 - s),
   1 / 6 * (4 - 6 * s * s + 3 * s * s * s),
   1 / 6 * (4 - 6 * (1 - s) * (1 - s) + 3 * (1 - s) * (1 - s) * (1 - s)),
   1 / 6 * s * s * s).

(** Covered cells of one axis and their windows, [ijk[.][iaxis]] and
    [win[.][iaxis]].  [int(loc)] truncates towards zero. *)

(** field.cpp 642-652 *)
Definition cells_ngp (n : Z) (loc : R) : list (Z * R) :=
  let idx := Ztrunc loc in
  let idx := if Rleb (1 / 2) (loc - IZR idx) then cell_next n idx else idx in
  [(idx, 1)].

(** field.cpp 752-764 *)
Definition cells_cic (n : Z) (loc : R) : list (Z * R) :=
  let idx := Ztrunc loc in
  let s := loc - IZR idx in
  [(idx, 1 - s); (cell_next n idx, s)].

(** field.cpp 869-902 *)
Definition cells_tsc (n : Z) (loc : R) : list (Z * R) :=
  let idx := Ztrunc loc in
  let '(w0, w1, w2) := win_tsc (loc - IZR idx) in
  if Rltb (loc - IZR idx) (1 / 2)
  then [(cell_prev n idx, w0); (idx, w1); (cell_next n idx, w2)]
  else let i1 := cell_next n idx in
       [(idx, w0); (i1, w1); (cell_next n i1, w2)].

(** field.cpp 1010-1030 *)
Definition cells_pcs (n : Z) (loc : R) : list (Z * R) :=
  let idx := Ztrunc loc in
  let '(w0, w1, w2, w3) := win_pcs (loc - IZR idx) in
  let i2 := cell_next n idx in
  [(cell_prev n idx, w0); (idx, w1); (i2, w2); (cell_next n i2, w3)].

Definition cells (sch : scheme) : Z -> R -> list (Z * R) :=
  match sch with
  | NGP => cells_ngp | CIC => cells_cic | TSC => cells_tsc | PCS => cells_pcs
  end.

(** The shadow mesh of interlacing repeats the code with a shifted location; only
    TSC differs: field.cpp 938-951, where [ijk[2]] tests [idx_grid] instead of
    [ijk[1]]. *)
Definition cells_tsc_shadow (n : Z) (loc : R) : list (Z * R) :=
  let idx := Ztrunc loc in
  let '(w0, w1, w2) := win_tsc (loc - IZR idx) in
  if Rltb (loc - IZR idx) (1 / 2)
  then [(cell_prev n idx, w0); (idx, w1); (cell_next n idx, w2)]
  else let i0 := idx in
       let i1 := if (idx =? n - 1)%Z then 0%Z else (i0 + 1)%Z in
       let i2 := if (idx =? n - 1)%Z then 0%Z else (i1 + 1)%Z in
       [(i0, w0); (i1, w1); (i2, w2)].

(** NGP: field.cpp 694-704; CIC: 806-816; PCS: 1068-1087. *)
Definition cells_shadow (sch : scheme) : Z -> R -> list (Z * R) :=
  match sch with
  | NGP => cells_ngp | CIC => cells_cic | TSC => cells_tsc_shadow | PCS => cells_pcs
  end.

(** Grid location: field.cpp 639-640 (and the same in the other schemes). *)
Definition grid_loc (n : Z) (boxsize x : R) : R := IZR n * x / boxsize.

(** Location on the shadow mesh: field.cpp 687-692 (and the same in the others). *)
Definition grid_loc_shadow (n : Z) (boxsize x : R) : R :=
  let loc := IZR n * x / boxsize + 1 / 2 in
  if Rltb (IZR n) loc then loc - IZR n else loc.

(** ** Mesh, particles and atomic updates *)

Record triple (A : Type) : Type := T3 { ax0 : A; ax1 : A; ax2 : A }.
Arguments T3 {A} _ _ _.
Arguments ax0 {A} _.
Arguments ax1 {A} _.
Arguments ax2 {A} _.

(** A particle with the complex weight passed in [weights]. *)
Record particle : Type := Particle { pos : triple R; w_re : R; w_im : R }.

(** The parameters the assignment reads: [ngrid], [boxsize], [vol_cell]. *)
Record mesh_params : Type :=
  MeshParams { ngrid : triple Z; boxsize : triple R; vol_cell : R }.

Definition nmesh (g : mesh_params) : Z := (ax0 (ngrid g) * ax1 (ngrid g) * ax2 (ngrid g))%Z.

(** One atomic update [field[gid][part] += amount]; [part] is [false] for the
    real and [true] for the imaginary component. *)
Record update : Type := Update { u_gid : Z; u_part : bool; u_amount : R }.

(** Contents of [field]: index, component -> value. *)
Definition mesh := Z -> bool -> R.
Definition mesh_zero : mesh := fun _ _ => 0.
Definition add_update (m : mesh) (u : update) : mesh := fun gid part =>
  if (gid =? u_gid u)%Z && Bool.eqb part (u_part u)
  then m gid part + u_amount u else m gid part.

(** The triple loop over the covered cells: field.cpp 655-675 (NGP), 767-787
    (CIC), 904-924 (TSC), 1032-1052 (PCS) and the shadow copies. *)
Definition particle_updates (g : mesh_params) (cx cy cz : list (Z * R)) (p : particle)
  : list update :=
  let inv_vol_cell := 1 / vol_cell g in
  flat_map (fun '(i, wx) => flat_map (fun '(j, wy) => flat_map (fun '(k, wz) =>
    let gid := grid_index (ax1 (ngrid g)) (ax2 (ngrid g)) i j k in
    if (0 <=? gid)%Z && (gid <? nmesh g)%Z
    then [Update gid false (inv_vol_cell * w_re p * wx * wy * wz);
          Update gid true (inv_vol_cell * w_im p * wx * wy * wz)]
    else []) cz) cy) cx.

(** Body of the particle loop on the main mesh and on the shadow mesh. *)
Definition updates_main (sch : scheme) (g : mesh_params) (p : particle) : list update :=
  particle_updates g
    (cells sch (ax0 (ngrid g)) (grid_loc (ax0 (ngrid g)) (ax0 (boxsize g)) (ax0 (pos p))))
    (cells sch (ax1 (ngrid g)) (grid_loc (ax1 (ngrid g)) (ax1 (boxsize g)) (ax1 (pos p))))
    (cells sch (ax2 (ngrid g)) (grid_loc (ax2 (ngrid g)) (ax2 (boxsize g)) (ax2 (pos p)))) p.

Definition updates_shadow (sch : scheme) (g : mesh_params) (p : particle) : list update :=
  particle_updates g
    (cells_shadow sch (ax0 (ngrid g)) (grid_loc_shadow (ax0 (ngrid g)) (ax0 (boxsize g)) (ax0 (pos p))))
    (cells_shadow sch (ax1 (ngrid g)) (grid_loc_shadow (ax1 (ngrid g)) (ax1 (boxsize g)) (ax1 (pos p))))
    (cells_shadow sch (ax2 (ngrid g)) (grid_loc_shadow (ax2 (ngrid g)) (ax2 (boxsize g)) (ax2 (pos p)))) p.

(** [assign_weighted_field_to_mesh]: reset (field.cpp 500-513), then the particle
    loop, executed sequentially. *)
Definition run_updates (us : list update) : mesh := fold_left add_update us mesh_zero.
Definition assign_main (sch : scheme) (g : mesh_params) (ps : list particle) : mesh :=
  run_updates (flat_map (updates_main sch g) ps).
Definition assign_shadow (sch : scheme) (g : mesh_params) (ps : list particle) : mesh :=
  run_updates (flat_map (updates_shadow sch g) ps).

(** [#pragma omp parallel for] with OMP_ATOMIC updates: the threads' update
    lists run interleaved in any way, each update being one step. *)
Inductive interleaves {A : Type} : list (list A) -> list A -> Prop :=
| il_done ts : (forall t, In t ts -> t = []) -> interleaves ts []
| il_step ts1 x t ts2 l :
    interleaves (ts1 ++ t :: ts2) l -> interleaves (ts1 ++ (x :: t) :: ts2) (x :: l).

(** A parallel execution: the particles are dealt out to threads (each particle
    to one thread, in any order), and the threads' updates interleave. *)
Definition parallel_run (ev : particle -> list update) (ps : list particle) (m : mesh) : Prop :=
  exists (threads : list (list particle)) (trace : list update),
    (exists order, Permutation order ps /\ concat threads = order) /\
    interleaves (map (flat_map ev) threads) trace /\
    m = run_updates trace.

(** ** Assignment window in Fourier space *)

(** field.cpp 1137-1151, the direct formula. *)
Definition window_direct (ng : triple Z) (i j k : Z) (order : nat) : R :=
  let i := shift_index (ax0 ng) i in
  let j := shift_index (ax1 ng) j in
  let k := shift_index (ax2 ng) k in
  let u_x := PI * IZR i / IZR (ax0 ng) in
  let u_y := PI * IZR j / IZR (ax1 ng) in
  let u_z := PI * IZR k / IZR (ax2 ng) in
  let wk_x := if (i =? 0)%Z then 1 else sin u_x / u_x in
  let wk_y := if (j =? 0)%Z then 1 else sin u_y / u_y in
  let wk_z := if (k =? 0)%Z then 1 else sin u_z / u_z in
  (wk_x * wk_y * wk_z) ^ order.

(** Cache: [window] and [window_assign_order] (-1 when unset). *)
Record wcache : Type := WCache { wc_order : Z; wc_table : Z -> R }.
Definition wcache_init : wcache := WCache (-1) (fun _ => 0).

(** field.cpp 1114-1152 ([calc_assignment_window_in_fourier]). *)
Definition calc_window (ng : triple Z) (c : wcache) (i j k order : Z) : res R :=
  if (order <? 0)%Z then Err InvalidParameter
  else if (order =? wc_order c)%Z
       then Ok (wc_table c (grid_index (ax1 ng) (ax2 ng) i j k))
       else Ok (window_direct ng i j k (Z.to_nat order)).

(** Write one table entry. *)
Definition set_entry (tab : Z -> R) (g : Z) (v : R) : Z -> R :=
  fun g' => if (g' =? g)%Z then v else tab g'.

(** The triple loop of field.cpp 1187-1198; [calc] does not fail there. *)
Definition fill_window (ng : triple Z) (c : wcache) (order : Z) : Z -> R :=
  fold_left (fun tab '(i, j, k) =>
      match calc_window ng c i j k order with
      | Ok v => set_entry tab (grid_index (ax1 ng) (ax2 ng) i j k) v
      | Err _ => tab
      end)
    (flat_map (fun i => flat_map (fun j => map (fun k => (i, j, k)) (arange 0 (ax2 ng)))
       (arange 0 (ax1 ng))) (arange 0 (ax0 ng)))
    (wc_table c).

(** field.cpp 1154-1201 ([compute_assignment_window_in_fourier]).  The resource
    counters are modelled elsewhere. *)
Definition compute_window (ng : triple Z) (c : wcache) (order : Z) : res wcache :=
  if (order <? 0)%Z then Err InvalidParameter
  else if (wc_order c =? order)%Z then Ok c
  else Ok (WCache order (fill_window ng c order)).

(** ** Shot-noise aliasing (FieldStats) *)

(** field.cpp 3444-3458 ([get_shotnoise_aliasing_sin2]), one axis. *)
Definition alias_sin2 (n i : Z) : R :=
  let i := shift_index n i in
  let u := PI * IZR i / IZR n in
  if (i =? 0)%Z then 0 else sin u * sin u.

(** field.cpp 3475-3504, the factor of one axis for each scheme. *)
Definition alias_factor (sch : scheme) (s2 : R) : R :=
  match sch with
  | NGP => 1
  | CIC => 1 - 2 / 3 * s2
  | TSC => 1 - s2 + 2 / 15 * s2 * s2
  | PCS => 1 - 4 / 3 * s2 + 2 / 5 * s2 * s2 - 4 / 315 * s2 * s2 * s2
  end.

(** [calc_shotnoise_aliasing_ngp/cic/tsc/pcs] *)
Definition calc_alias (sch : scheme) (ng : triple Z) (i j k : Z) : R :=
  alias_factor sch (alias_sin2 (ax0 ng) i) * alias_factor sch (alias_sin2 (ax1 ng) j)
  * alias_factor sch (alias_sin2 (ax2 ng) k).

(** field.cpp 3460-3473 and 3506-3530 ([calc_shotnoise_aliasing_interlaced_isoapprox]);
    the fall-through leaves [cs = 1]. *)
Definition calc_alias_interlaced (ng : triple Z) (i j k : Z) (order : nat) : R :=
  let u_x := PI * IZR (shift_index (ax0 ng) i) / IZR (ax0 ng) in
  let u_y := PI * IZR (shift_index (ax1 ng) j) / IZR (ax1 ng) in
  let u_z := PI * IZR (shift_index (ax2 ng) k) / IZR (ax2 ng) in
  let uhalf := sqrt (u_x * u_x + u_y * u_y + u_z * u_z) / 2 in
  let s2h := sin uhalf * sin uhalf in
  let c2h := cos uhalf * cos uhalf in
  let cc := c2h ^ order in
  let cs := match order with
            | 2%nat => 1 - 2 / 3 * s2h
            | 3%nat => 1 - s2h + 2 / 15 * s2h * s2h
            | 4%nat => 1 - 4 / 3 * s2h + 2 / 5 * s2h * s2h - 4 / 315 * s2h * s2h * s2h
            | _ => 1
            end in
  cc * cs.
