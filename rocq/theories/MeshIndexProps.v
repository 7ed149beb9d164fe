(* Claims C14 and C15: mesh indices and Fourier index convention. *)
From Coq Require Import Reals ZArith List Lia Lra Bool.
From Verif Require Import Base ArrayModel MeshModel.
Import ListNotations.
Open Scope Z_scope.

(** ** C14 *)

(** [i], [j], [k] name a cell of a mesh with [nx * ny * nz] cells. *)
Definition is_cell (nx ny nz i j k : Z) : Prop :=
  0 <= i < nx /\ 0 <= j < ny /\ 0 <= k < nz.

(** Every cell has a flat index in range; every flat index belongs to exactly one
    cell. *)
Theorem flat_index_bijective :
  forall nx ny nz, 0 < nx -> 0 < ny -> 0 < nz ->
  (forall i j k, is_cell nx ny nz i j k -> 0 <= grid_index ny nz i j k < nx * ny * nz) /\
  (forall g, 0 <= g < nx * ny * nz ->
     exists! c, let '(i, j, k) := c in is_cell nx ny nz i j k /\ grid_index ny nz i j k = g).
Proof.
  intros nx ny nz Hx Hy Hz. unfold grid_index, is_cell. split.
  - intros i j k (Hi & Hj & Hk). split; [nia|].
    assert (i * ny + j + 1 <= nx * ny) by nia. nia.
  - intros g Hg. exists (g / nz / ny, (g / nz) mod ny, g mod nz). split.
    + assert (0 <= g / nz) by (apply Z.div_pos; lia).
      assert (g / nz < nx * ny) by (apply Z.div_lt_upper_bound; nia).
      repeat split; try (apply Z.mod_pos_bound; lia).
      * apply Z.div_pos; lia.
      * apply Z.div_lt_upper_bound; nia.
      * assert (E1 := Z.div_mod (g / nz) ny ltac:(lia)). assert (E2 := Z.div_mod g nz ltac:(lia)). nia.
    + intros [[i j] k] ((Hi & Hj & Hk) & E).
      assert (E1 : g / nz = i * ny + j) by (symmetry; apply (Z.div_unique _ _ _ k); lia).
      assert (E2 : g mod nz = k) by (symmetry; apply (Z.mod_unique _ _ (i * ny + j)); lia).
      rewrite E1, E2.
      assert (E3 : (i * ny + j) / ny = i) by (symmetry; apply (Z.div_unique _ _ _ j); lia).
      assert (E4 : (i * ny + j) mod ny = j) by (symmetry; apply (Z.mod_unique _ _ i); lia).
      now rewrite E3, E4.
Qed.

Corollary flat_index_injective nx ny nz i j k i' j' k' : 0 < nx -> 0 < ny -> 0 < nz ->
  is_cell nx ny nz i j k -> is_cell nx ny nz i' j' k' ->
  grid_index ny nz i j k = grid_index ny nz i' j' k' -> i = i' /\ j = j' /\ k = k'.
Proof.
  intros Hx Hy Hz C C' E. destruct (flat_index_bijective nx ny nz Hx Hy Hz) as [R U].
  destruct (U (grid_index ny nz i j k) (R _ _ _ C)) as (c & _ & Uc).
  assert (A := Uc (i, j, k) (conj C eq_refl)). assert (B := Uc (i', j', k') (conj C' (eq_sym E))).
  rewrite A in B. injection B. intros. now subst.
Qed.

Example flat_index_case : grid_index 3 5 1 2 4 = 29 /\ 29 < 2 * 3 * 5.
Proof. split; reflexivity. Qed.

(** Neighbouring cells along the last axis are neighbours in memory (the FFTW
    row-major layout), along the others they are [nz] and [ny*nz] apart. *)
Theorem flat_index_row_major :
  forall ny nz i j k,
  grid_index ny nz i j (k + 1) = grid_index ny nz i j k + 1 /\
  grid_index ny nz i (j + 1) k = grid_index ny nz i j k + nz /\
  grid_index ny nz (i + 1) j k = grid_index ny nz i j k + ny * nz /\
  grid_index ny nz 0 0 0 = 0.
Proof. intros. unfold grid_index. repeat split; ring. Qed.

(** ** C15 *)

(** Even grids: the signed index is the representative of [i] modulo [n] in
    [-n/2, n/2). *)
Theorem wave_index_even :
  forall n i, 0 < n -> Z.Even n -> 0 <= i < n ->
  let s := shift_index n i in
  (s - i) mod n = 0 /\ - n <= 2 * s < n /\
  (forall t, (t - i) mod n = 0 -> - n <= 2 * t < n -> t = s).
Proof.
  intros n i Hn [m ->] Hi s. unfold s, shift_index.
  assert (D : 2 * m / 2 = m) by (rewrite Z.mul_comm; apply Z.div_mul; lia). rewrite D.
  assert (E : forall t, (t - i) mod (2 * m) = 0 -> exists q, t = i + q * (2 * m)).
  { intros t Ht. exists ((t - i) / (2 * m)). assert (Q := Z.div_mod (t - i) (2 * m) ltac:(lia)). lia. }
  destruct (Z.ltb_spec i m) as [L|L].
  - repeat split; try lia.
    + now rewrite Z.sub_diag.
    + intros t Ht Hr. destruct (E t Ht) as [q ->]. assert (q = 0) by nia. subst. ring.
  - repeat split; try lia.
    + replace (i - 2 * m - i) with (-1 * (2 * m)) by ring. apply Z.mod_mul. lia.
    + intros t Ht Hr. destruct (E t Ht) as [q ->]. assert (q = -1) by nia. subst. ring.
Qed.

(** Any grid: congruent and injective; the zero mode is index 0 and no other. *)
Theorem wave_index_congruent_injective :
  forall n, 0 < n ->
  (forall i, (shift_index n i - i) mod n = 0) /\
  (forall i j, 0 <= i < n -> 0 <= j < n -> shift_index n i = shift_index n j -> i = j) /\
  (1 < n -> forall i, 0 <= i < n -> (shift_index n i = 0 <-> i = 0)).
Proof.
  intros n Hn.
  assert (D := Z.div_mod n 2 ltac:(lia)). assert (B := Z.mod_pos_bound n 2 ltac:(lia)).
  split; [|split].
  - intros i. unfold shift_index. destruct (i <? n / 2).
    + now rewrite Z.sub_diag.
    + replace (i - n - i) with (-1 * n) by ring. apply Z.mod_mul. lia.
  - intros i j Hi Hj. unfold shift_index. destruct (Z.ltb_spec i (n / 2)), (Z.ltb_spec j (n / 2)); lia.
  - intros N1 i Hi. unfold shift_index. destruct (Z.ltb_spec i (n / 2)); lia.
Qed.

(** Even grids: mirrored mesh indices hold opposite modes, except the Nyquist index,
    which is its own mirror and holds the mode -n/2. *)
Theorem wave_index_mirror :
  forall n i, 0 < n -> Z.Even n -> 0 < i < n ->
  (2 * i <> n -> shift_index n (n - i) = - shift_index n i) /\
  (2 * i = n -> n - i = i /\ 2 * shift_index n i = - n).
Proof.
  intros n i Hn [m ->] Hi. unfold shift_index.
  assert (D : 2 * m / 2 = m) by (rewrite Z.mul_comm; apply Z.div_mul; lia). rewrite D.
  split; intros H; destruct (Z.ltb_spec i m), (Z.ltb_spec (2 * m - i) m); lia.
Qed.

(** Odd grids: the middle index is given a mode outside the minimal range, so
    modes are not paired with their opposites. *)
Theorem wave_index_odd :
  forall n i, 0 < n -> Z.Odd n -> 0 <= i < n ->
  let s := shift_index n i in
  - (n + 1) <= 2 * s < n - 1 /\
  (2 * i = n - 1 -> 2 * s = - (n + 1)) /\
  (2 * i <> n - 1 -> - n <= 2 * s < n).
Proof.
  intros n i Hn [m ->] Hi s. unfold s, shift_index.
  assert (D : (2 * m + 1) / 2 = m) by (symmetry; apply (Z.div_unique _ _ _ 1); lia). rewrite D.
  destruct (Z.ltb_spec i m); lia.
Qed.

Theorem wave_index_odd_minimal_refuted :
  forall n, 0 < n -> Z.Odd n ->
  exists i, 0 <= i < n /\ ~ (- n <= 2 * shift_index n i < n) /\
  (* the mode of smallest size with the same residue has the opposite sign *)
  exists t, (t - i) mod n = 0 /\ - n <= 2 * t < n /\ t <> shift_index n i.
Proof.
  intros n Hn O. pose proof O as [m E]. exists m.
  assert (Q := wave_index_odd n m Hn O ltac:(lia)). cbv zeta in Q.
  destruct Q as (_ & Q & _). specialize (Q ltac:(lia)).
  split; [lia|]. split; [lia|]. exists m.
  split; [now rewrite Z.sub_diag|]. lia.
Qed.

(** The mesh vector is the signed index times the step. *)
Theorem grid_vector_signed :
  forall n d i, (grid_vector n d i = IZR (shift_index n i) * d)%R.
Proof. intros. unfold grid_vector, shift_index. now destruct (i <? n / 2). Qed.

Example wave_index_case :
  map (shift_index 6) [0; 1; 2; 3; 4; 5] = [0; 1; 2; -3; -2; -1] /\
  map (shift_index 5) [0; 1; 2; 3; 4] = [0; 1; -3; -2; -1].
Proof. split; reflexivity. Qed.

Print Assumptions flat_index_bijective.
Print Assumptions flat_index_row_major.
Print Assumptions wave_index_even.
Print Assumptions wave_index_congruent_injective.
Print Assumptions wave_index_mirror.
Print Assumptions wave_index_odd.
Print Assumptions wave_index_odd_minimal_refuted.
Print Assumptions grid_vector_signed.
