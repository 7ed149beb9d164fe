(* Lemmas about mesh assignment. *)
From Coq Require Import Reals ZArith List Lia Lra Bool Permutation.
From Flocq Require Import Core.Raux.
From Verif Require Import Base ArrayModel ArrayProofs RSum MeshModel MeshIndexProps.
Import ListNotations.
Open Scope R_scope.

(** ** Value of a mesh after a list of updates *)
Definition contrib (g : Z) (b : bool) (u : update) : R :=
  if (g =? u_gid u)%Z && Bool.eqb b (u_part u) then u_amount u else 0.

Lemma fold_updates us m g b : fold_left add_update us m g b = m g b + rsum (map (contrib g b) us).
Proof.
  revert m. induction us as [|u us IH]; intros m; cbn [fold_left map].
  - rewrite rsum_nil. ring.
  - rewrite IH, rsum_cons. unfold add_update, contrib at 2.
    destruct ((g =? u_gid u)%Z && Bool.eqb b (u_part u)); ring.
Qed.

Lemma run_value us g b : run_updates us g b = rsum (map (contrib g b) us).
Proof. unfold run_updates. rewrite fold_updates. unfold mesh_zero. ring. Qed.

Lemma interleaves_perm {A} (ts : list (list A)) l : interleaves ts l -> Permutation l (concat ts).
Proof.
  induction 1 as [ts H|ts1 x t ts2 l H IH].
  - replace (concat ts) with (@nil A); [constructor|]. induction ts as [|t ts IH]; [reflexivity|].
    cbn [concat]. rewrite (H t) by (now left). apply IH. intros t' Ht. apply H. now right.
  - rewrite concat_app in *. cbn [concat] in *.
    change ((x :: t) ++ concat ts2) with (x :: t ++ concat ts2).
    rewrite IH. apply Permutation_middle.
Qed.

Lemma concat_map_flat_map {A B} (f : A -> list B) ls :
  concat (map (flat_map f) ls) = flat_map f (concat ls).
Proof. induction ls as [|l ls IH]; [reflexivity|]. cbn [map concat]. rewrite IH, flat_map_app. reflexivity. Qed.

Lemma Permutation_flat_map' {A B} (f : A -> list B) l1 l2 :
  Permutation l1 l2 -> Permutation (flat_map f l1) (flat_map f l2).
Proof. intros H. now apply Permutation_flat_map. Qed.

(** ** Value given to a cell by one particle *)

(** Weight of the cells equal to [c]. *)
Definition mass (c : Z) (l : list (Z * R)) : R :=
  rsum (map (fun x => if (fst x =? c)%Z then snd x else 0) l).
Definition tot (l : list (Z * R)) : R := rsum (map snd l).
Definition in_axis (n : Z) (l : list (Z * R)) : Prop := forall x, In x l -> (0 <= fst x < n)%Z.

Definition part_weight (b : bool) (p : particle) : R := if b then w_im p else w_re p.

Definition valid (g : mesh_params) : Prop :=
  (0 < ax0 (ngrid g) /\ 0 < ax1 (ngrid g) /\ 0 < ax2 (ngrid g))%Z /\
  0 < ax0 (boxsize g) /\ 0 < ax1 (boxsize g) /\ 0 < ax2 (boxsize g) /\ 0 < vol_cell g.

Lemma particle_value g cx cy cz p b i j k :
  valid g -> in_axis (ax0 (ngrid g)) cx -> in_axis (ax1 (ngrid g)) cy -> in_axis (ax2 (ngrid g)) cz ->
  is_cell (ax0 (ngrid g)) (ax1 (ngrid g)) (ax2 (ngrid g)) i j k ->
  rsum (map (contrib (grid_index (ax1 (ngrid g)) (ax2 (ngrid g)) i j k) b) (particle_updates g cx cy cz p)) =
  part_weight b p / vol_cell g * mass i cx * mass j cy * mass k cz.
Proof.
  intros ((Hx & Hy & Hz) & _ & _ & _ & Hv) Ix Iy Iz C. unfold particle_updates.
  set (F := fun x y z : Z * R => part_weight b p / vol_cell g
     * (if (fst x =? i)%Z then snd x else 0) * (if (fst y =? j)%Z then snd y else 0) * (if (fst z =? k)%Z then snd z else 0)).
  transitivity (rsum (map (fun x => rsum (map (fun y => rsum (map (fun z => F x y z) cz)) cy)) cx)).
  - rewrite rsum_flat_map. apply rsum_map_ext. intros [i' wx] Hi. cbn [fst snd].
    rewrite rsum_flat_map. apply rsum_map_ext. intros [j' wy] Hj. cbn [fst snd].
    rewrite rsum_flat_map. apply rsum_map_ext. intros [k' wz] Hk. cbn [fst snd].
    apply Ix in Hi. apply Iy in Hj. apply Iz in Hk. cbn [fst] in Hi, Hj, Hk.
    set (G := grid_index (ax1 (ngrid g)) (ax2 (ngrid g))).
    assert (Rg : (0 <= G i' j' k' < nmesh g)%Z)
      by (apply (proj1 (flat_index_bijective _ _ _ Hx Hy Hz)); repeat split; lia).
    destruct (Z.leb_spec 0 (G i' j' k')); [|lia]. destruct (Z.ltb_spec (G i' j' k') (nmesh g)); [|lia].
    cbn [andb map]. rewrite !rsum_cons, rsum_nil. unfold contrib. cbn [u_gid u_part u_amount].
    unfold F. cbn [fst snd].
    destruct (Z.eqb_spec (G i j k) (G i' j' k')) as [E|E].
    + destruct (flat_index_injective _ _ _ _ _ _ _ _ _ Hx Hy Hz C
        (conj Hi (conj Hj Hk) : is_cell (ax0 (ngrid g)) (ax1 (ngrid g)) (ax2 (ngrid g)) i' j' k') E) as (E1 & E2 & E3).
      subst. rewrite !Z.eqb_refl. destruct b; cbn [Bool.eqb andb part_weight]; field; lra.
    + cbn [andb]. destruct (Z.eqb_spec i' i), (Z.eqb_spec j' j), (Z.eqb_spec k' k); try ring.
      subst. contradiction.
  - unfold F. unfold mass.
    set (fx := fun x : Z * R => if (fst x =? i)%Z then snd x else 0).
    set (fy := fun x : Z * R => if (fst x =? j)%Z then snd x else 0).
    set (fz := fun x : Z * R => if (fst x =? k)%Z then snd x else 0).
    rewrite (rsum_map_ext _ (fun x => part_weight b p / vol_cell g * rsum (map fy cy) * rsum (map fz cz) * fx x)).
    + rewrite rsum_map_scal. ring.
    + intros x _.
      rewrite (rsum_map_ext _ (fun y => part_weight b p / vol_cell g * fx x * rsum (map fz cz) * fy y)).
      * rewrite rsum_map_scal. ring.
      * intros y _.
        rewrite (rsum_map_ext _ (fun z => (part_weight b p / vol_cell g * fx x * fy y) * fz z)) by (intros; unfold fx, fy, fz; ring).
        rewrite rsum_map_scal. ring.
Qed.

(** ** Total over the mesh *)
Lemma total_value N us b :
  rsum (map (fun g => run_updates us g b) (arange 0 N)) =
  rsum (map (fun u => if Bool.eqb b (u_part u) && ((0 <=? u_gid u) && (u_gid u <? N))%Z then u_amount u else 0) us).
Proof.
  rewrite (rsum_map_ext _ (fun g => rsum (map (contrib g b) us))) by (intros; apply run_value).
  rewrite rsum_swap. apply rsum_map_ext. intros u _.
  destruct (Bool.eqb b (u_part u)) eqn:Eb; cbn [andb].
  - rewrite (rsum_map_ext _ (fun g => if (g =? u_gid u)%Z then u_amount u else 0)).
    + apply (rsum_arange_pick (fun _ => u_amount u)).
    + intros g _. unfold contrib. rewrite Eb, andb_true_r. reflexivity.
  - apply rsum_map_zero. intros g _. unfold contrib. now rewrite Eb, andb_false_r.
Qed.

(** Total given by one particle: what passes the range guard. *)
Definition kept (g : mesh_params) (cx cy cz : list (Z * R)) : R :=
  rsum (map (fun x => rsum (map (fun y => rsum (map (fun z =>
    let gid := grid_index (ax1 (ngrid g)) (ax2 (ngrid g)) (fst x) (fst y) (fst z) in
    if ((0 <=? gid) && (gid <? nmesh g))%Z then snd x * snd y * snd z else 0) cz)) cy)) cx).

Lemma particle_total g cx cy cz p b : 0 < vol_cell g ->
  rsum (map (fun u => if Bool.eqb b (u_part u) && ((0 <=? u_gid u) && (u_gid u <? nmesh g))%Z then u_amount u else 0)
         (particle_updates g cx cy cz p)) =
  part_weight b p / vol_cell g * kept g cx cy cz.
Proof.
  intros Hv. unfold particle_updates, kept.
  rewrite rsum_flat_map, <- rsum_map_scal. apply rsum_map_ext. intros [i wx] _. cbn [fst snd].
  rewrite rsum_flat_map, <- rsum_map_scal. apply rsum_map_ext. intros [j wy] _. cbn [fst snd].
  rewrite rsum_flat_map, <- rsum_map_scal. apply rsum_map_ext. intros [k wz] _. cbn [fst snd].
  set (gid := grid_index _ _ i j k).
  destruct ((0 <=? gid) && (gid <? nmesh g))%Z eqn:E.
  - cbn [map]. rewrite !rsum_cons, rsum_nil. cbn [u_part u_gid u_amount]. rewrite E.
    destruct b; cbn [Bool.eqb andb part_weight]; field; lra.
  - cbn [map]. rewrite rsum_nil. ring.
Qed.

Lemma kept_all g cx cy cz : valid g ->
  in_axis (ax0 (ngrid g)) cx -> in_axis (ax1 (ngrid g)) cy -> in_axis (ax2 (ngrid g)) cz ->
  kept g cx cy cz = tot cx * tot cy * tot cz.
Proof.
  intros ((Hx & Hy & Hz) & _) Ix Iy Iz. unfold kept, tot.
  transitivity (rsum (map (fun x => rsum (map (fun y => rsum (map (fun z : Z * R => snd x * snd y * snd z) cz)) cy)) cx)).
  - apply rsum_map_ext. intros x Hi. apply rsum_map_ext. intros y Hj. apply rsum_map_ext. intros z Hk.
    apply Ix in Hi. apply Iy in Hj. apply Iz in Hk.
    assert (Rg := proj1 (flat_index_bijective _ _ _ Hx Hy Hz) (fst x) (fst y) (fst z) (conj Hi (conj Hj Hk))).
    fold (nmesh g) in Rg.
    destruct (Z.leb_spec 0 (grid_index (ax1 (ngrid g)) (ax2 (ngrid g)) (fst x) (fst y) (fst z))); [|lia].
    destruct (Z.ltb_spec (grid_index (ax1 (ngrid g)) (ax2 (ngrid g)) (fst x) (fst y) (fst z)) (nmesh g)); [|lia].
    reflexivity.
  - rewrite (rsum_map_ext _ (fun x => snd x * (rsum (map snd cy) * rsum (map snd cz)))).
    + rewrite rsum_map_scal_r. ring.
    + intros x _. rewrite (rsum_map_ext _ (fun y => snd x * rsum (map snd cz) * snd y)).
      * rewrite rsum_map_scal. ring.
      * intros y _. rewrite rsum_map_scal. ring.
Qed.

(** ** Axis cells as samples of a spline *)

(** The assignment kernels of the literature as functions of the offset (cell minus
    particle, in cells): piecewise constant (half-open so that ties have one owner), linear,
    quadratic and cubic splines. *)
Definition spline (sch : scheme) (t : R) : R :=
  match sch with
  | NGP => if Rlt_dec (- (1 / 2)) t then if Rle_dec t (1 / 2) then 1 else 0 else 0
  | CIC => if Rle_dec (Rabs t) 1 then 1 - Rabs t else 0
  | TSC => if Rle_dec (Rabs t) (1 / 2) then 3 / 4 - t ^ 2
           else if Rle_dec (Rabs t) (3 / 2) then / 2 * (3 / 2 - Rabs t) ^ 2 else 0
  | PCS => if Rle_dec (Rabs t) 1 then / 6 * (4 - 6 * t ^ 2 + 3 * (Rabs t) ^ 3)
           else if Rle_dec (Rabs t) 2 then / 6 * (2 - Rabs t) ^ 3 else 0
  end.

Definition support (sch : scheme) : Z := match sch with NGP => 1 | CIC => 2 | TSC => 3 | PCS => 4 end.

(** First (unwrapped) cell covered. *)
Definition first_cell (sch : scheme) (l : R) : Z :=
  match sch with
  | NGP => if Rleb (1 / 2) (l - IZR (Ztrunc l)) then (Ztrunc l + 1)%Z else Ztrunc l
  | CIC => Ztrunc l
  | TSC => if Rltb (l - IZR (Ztrunc l)) (1 / 2) then (Ztrunc l - 1)%Z else Ztrunc l
  | PCS => (Ztrunc l - 1)%Z
  end.

Lemma trunc_bounds l : 0 <= l -> IZR (Ztrunc l) <= l < IZR (Ztrunc l) + 1.
Proof.
  intros H. rewrite Ztrunc_floor by exact H. split; [apply Zfloor_lb|]. apply Zfloor_ub.
Qed.

Lemma trunc_range n l : 0 <= l < IZR n -> (0 <= Ztrunc l < n)%Z.
Proof.
  intros [H1 H2]. assert (B := trunc_bounds l H1). split.
  - assert (-1 < Ztrunc l)%Z; [|lia]. apply lt_IZR. lra.
  - apply lt_IZR. lra.
Qed.

Lemma next_mod n i : (0 <= i < n)%Z -> cell_next n i = ((i + 1) mod n)%Z.
Proof.
  intros H. unfold cell_next. destruct (Z.eqb_spec i (n - 1)) as [->|D].
  - replace (n - 1 + 1)%Z with n by lia. now rewrite Z_mod_same_full.
  - symmetry. apply Z.mod_small. lia.
Qed.

Lemma prev_mod n i : (0 <= i < n)%Z -> cell_prev n i = ((i - 1) mod n)%Z.
Proof.
  intros H. unfold cell_prev. destruct (Z.eqb_spec i 0) as [->|D].
  - apply (Z.mod_unique _ _ (-1)); lia.
  - symmetry. apply Z.mod_small. lia.
Qed.

Lemma next2_mod n i : (0 <= i < n)%Z -> cell_next n (cell_next n i) = ((i + 2) mod n)%Z.
Proof.
  intros H. rewrite (next_mod n i H). rewrite next_mod by (apply Z.mod_pos_bound; lia).
  rewrite Zplus_mod_idemp_l. f_equal. lia.
Qed.

Ltac rabs_cases := unfold Rabs; repeat destruct (Rcase_abs _); repeat destruct (Rle_dec _ _); repeat destruct (Rlt_dec _ _).

Definition axis_image (sch : scheme) (n : Z) (l : R) (a : Z) : list (Z * R) :=
  map (fun u => ((u mod n)%Z, spline sch (IZR u - l))) (arange a (a + support sch)).

Lemma arange1 a : arange a (a + 1) = [a].
Proof. rewrite arange_cons by lia. rewrite arange_empty by lia. reflexivity. Qed.
Lemma arange2 a : arange a (a + 2) = [a; (a + 1)%Z].
Proof. rewrite arange_cons by lia. replace (a + 2)%Z with (a + 1 + 1)%Z by lia. now rewrite arange1. Qed.
Lemma arange3 a : arange a (a + 3) = [a; (a + 1)%Z; (a + 2)%Z].
Proof. rewrite arange_cons by lia. replace (a + 3)%Z with (a + 1 + 2)%Z by lia. rewrite arange2.
  now replace (a + 1 + 1)%Z with (a + 2)%Z by lia. Qed.
Lemma arange4 a : arange a (a + 4) = [a; (a + 1)%Z; (a + 2)%Z; (a + 3)%Z].
Proof. rewrite arange_cons by lia. replace (a + 4)%Z with (a + 1 + 3)%Z by lia. rewrite arange3.
  replace (a + 1 + 1)%Z with (a + 2)%Z by lia. now replace (a + 1 + 2)%Z with (a + 3)%Z by lia. Qed.

Ltac list_eq := repeat (apply (f_equal2 (@cons (Z * R))); [apply (f_equal2 (@pair Z R)); [reflexivity|]|]); try reflexivity.

Lemma cells_image sch n l : 0 <= l < IZR n -> cells sch n l = axis_image sch n l (first_cell sch l).
Proof.
  intros Hl. assert (B := trunc_bounds l (proj1 Hl)). assert (T := trunc_range n l Hl).
  unfold axis_image. destruct sch; cbn [cells support first_cell].
  - unfold cells_ngp. rewrite arange1. cbn [map].
    unfold Rleb. destruct (Rle_dec (1 / 2) (l - IZR (Ztrunc l))) as [H|H].
    + rewrite next_mod by exact T. list_eq. rewrite plus_IZR. unfold spline.
      destruct (Rlt_dec _ _); [destruct (Rle_dec _ _)|]; try reflexivity; exfalso; lra.
    + rewrite (Z.mod_small (Ztrunc l)) by exact T. list_eq. unfold spline.
      destruct (Rlt_dec _ _); [destruct (Rle_dec _ _)|]; try reflexivity; exfalso; lra.
  - unfold cells_cic. rewrite arange2. cbn [map]. rewrite next_mod by exact T.
    rewrite (Z.mod_small (Ztrunc l)) by exact T. rewrite plus_IZR. unfold spline.
    list_eq; rabs_cases; lra.
  - unfold cells_tsc, win_tsc, Rltb. rewrite arange3. cbn [map].
    destruct (Rlt_dec (l - IZR (Ztrunc l)) (1 / 2)) as [H|H].
    + rewrite next_mod, prev_mod by exact T. rewrite !plus_IZR, !minus_IZR.
      replace (Ztrunc l - 1 + 1)%Z with (Ztrunc l) by lia. replace (Ztrunc l - 1 + 2)%Z with (Ztrunc l + 1)%Z by lia.
      rewrite (Z.mod_small (Ztrunc l)) by exact T. unfold spline.
      list_eq; rabs_cases; try (exfalso; lra); try nra.
    + rewrite next2_mod, next_mod by exact T. rewrite !plus_IZR.
      rewrite (Z.mod_small (Ztrunc l)) by exact T. unfold spline.
      list_eq; rabs_cases; try (exfalso; lra); try nra.
  - unfold cells_pcs, win_pcs. rewrite arange4. cbn [map].
    rewrite next2_mod, next_mod, prev_mod by exact T. rewrite !plus_IZR, !minus_IZR.
    replace (Ztrunc l - 1 + 1)%Z with (Ztrunc l) by lia. replace (Ztrunc l - 1 + 2)%Z with (Ztrunc l + 1)%Z by lia.
    replace (Ztrunc l - 1 + 3)%Z with (Ztrunc l + 2)%Z by lia.
    rewrite (Z.mod_small (Ztrunc l)) by exact T. set (s := IZR (Ztrunc l)) in *. unfold spline.
    list_eq; rabs_cases; try (exfalso; lra);
      try (replace l with (s + 1) by lra); try (replace l with s by lra);
      try (field; lra); lra.
Qed.
