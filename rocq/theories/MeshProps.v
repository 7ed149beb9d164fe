(* Claims C16-C19: mesh assignment. *)
From Coq Require Import Reals ZArith List Lia Lra Bool Permutation.
From Flocq Require Import Core.Raux.
From Verif Require Import Base ArrayModel ArrayProofs RSum MeshModel MeshIndexProps MeshProofs.
Import ListNotations.
Open Scope R_scope.

(** ** Specification vocabulary.  [spline] (MeshProofs.v) is the kernel of each
    scheme from the literature; [part_weight b p] is the real or imaginary part of
    the weight of [p]; [valid g] says that grid numbers, box sizes and cell volume
    are positive. *)

(** The particle is inside the box. *)
Definition in_box (g : mesh_params) (p : particle) : Prop :=
  0 <= ax0 (pos p) < ax0 (boxsize g) /\ 0 <= ax1 (pos p) < ax1 (boxsize g) /\
  0 <= ax2 (pos p) < ax2 (boxsize g).

(** Kernel around position [l] (in cells) summed over the periodic images
    [c - M n, ..., c + M n] of cell [c]. *)
Definition images (sch : scheme) (n : Z) (l : R) (c : Z) (M : Z) : R :=
  rsum (map (fun m => spline sch (IZR (c + m * n) - l)) (arange (- M) (M + 1))).

(** Position along each axis in units of the cell size. *)
Definition loc0 g p := ax0 (pos p) / (ax0 (boxsize g) / IZR (ax0 (ngrid g))).
Definition loc1 g p := ax1 (pos p) / (ax1 (boxsize g) / IZR (ax1 (ngrid g))).
Definition loc2 g p := ax2 (pos p) / (ax2 (boxsize g) / IZR (ax2 (ngrid g))).

(** Sum over all cells of mesh value times cell volume. *)
Definition mesh_total (g : mesh_params) (m : mesh) (b : bool) : R :=
  rsum (map (fun gid => m gid b * vol_cell g) (arange 0 (nmesh g))).

(** ** Proof support *)
Lemma axis_image_in sch n l a : (0 < n)%Z -> in_axis n (axis_image sch n l a).
Proof.
  intros Hn x Hx. unfold axis_image in Hx. apply in_map_iff in Hx. destruct Hx as (u & <- & _).
  cbn [fst]. apply Z.mod_pos_bound. exact Hn.
Qed.

Lemma cells_tot sch n l : tot (cells sch n l) = 1.
Proof.
  unfold tot. destruct sch; cbn [cells]; unfold cells_ngp, cells_cic, cells_tsc, cells_pcs, win_tsc, win_pcs, Rltb.
  - cbn [map snd]. rewrite rsum_cons, rsum_nil. ring.
  - cbn [map snd]. rewrite !rsum_cons, rsum_nil. ring.
  - destruct (Rlt_dec (l - IZR (Ztrunc l)) (1 / 2)); cbn [map snd]; rewrite !rsum_cons, rsum_nil; field.
  - cbn [map snd]. rewrite !rsum_cons, rsum_nil. field.
Qed.

Lemma spline_outside sch l u : 0 <= l ->
  (u < first_cell sch l \/ first_cell sch l + support sch <= u)%Z -> spline sch (IZR u - l) = 0.
Proof.
  intros Hl Hu. assert (B := trunc_bounds l Hl).
  destruct sch; cbn [first_cell support] in Hu; unfold Rleb, Rltb in Hu; unfold spline.
  - destruct (Rle_dec (1 / 2) (l - IZR (Ztrunc l))) as [H|H]; destruct Hu as [Hu|Hu].
    + assert (IZR u <= IZR (Ztrunc l)) by (apply IZR_le; lia). destruct (Rlt_dec _ _); [exfalso; lra|reflexivity].
    + assert (IZR (Ztrunc l + 2) <= IZR u) by (apply IZR_le; lia). rewrite plus_IZR in H0.
      destruct (Rlt_dec _ _); [destruct (Rle_dec _ _); [exfalso; lra|]|]; reflexivity.
    + assert (IZR u <= IZR (Ztrunc l - 1)) by (apply IZR_le; lia). rewrite minus_IZR in H0.
      destruct (Rlt_dec _ _); [exfalso; lra|reflexivity].
    + assert (IZR (Ztrunc l + 1) <= IZR u) by (apply IZR_le; lia). rewrite plus_IZR in H0.
      destruct (Rlt_dec _ _); [destruct (Rle_dec _ _); [exfalso; lra|]|]; reflexivity.
  - destruct Hu as [Hu|Hu].
    + assert (H : IZR u <= IZR (Ztrunc l - 1)) by (apply IZR_le; lia). rewrite minus_IZR in H. rabs_cases; lra.
    + assert (H : IZR (Ztrunc l + 2) <= IZR u) by (apply IZR_le; lia). rewrite plus_IZR in H. rabs_cases; lra.
  - destruct (Rlt_dec (l - IZR (Ztrunc l)) (1 / 2)) as [D|D]; destruct Hu as [Hu|Hu].
    + assert (H : IZR u <= IZR (Ztrunc l - 2)) by (apply IZR_le; lia). rewrite minus_IZR in H. rabs_cases; try (exfalso; lra); nra.
    + assert (H : IZR (Ztrunc l + 2) <= IZR u) by (apply IZR_le; lia). rewrite plus_IZR in H. rabs_cases; try (exfalso; lra); nra.
    + assert (H : IZR u <= IZR (Ztrunc l - 1)) by (apply IZR_le; lia). rewrite minus_IZR in H. rabs_cases; try (exfalso; lra); try lra.
      replace (IZR u - l) with (- (3 / 2)) by lra. field.
    + assert (H : IZR (Ztrunc l + 3) <= IZR u) by (apply IZR_le; lia). rewrite plus_IZR in H. rabs_cases; try (exfalso; lra); try nra.
  - destruct Hu as [Hu|Hu].
    + assert (H : IZR u <= IZR (Ztrunc l - 2)) by (apply IZR_le; lia). rewrite minus_IZR in H. rabs_cases; try (exfalso; lra); try lra.
      replace (IZR u - l) with (- 2) by lra. ring.
    + assert (H : IZR (Ztrunc l + 3) <= IZR u) by (apply IZR_le; lia). rewrite plus_IZR in H. rabs_cases; try (exfalso; lra); try lra.
Qed.

Lemma image_mass sch n l c lo hi : (0 < n)%Z -> 0 <= l -> (0 <= c < n)%Z -> (lo <= hi)%Z ->
  (lo * n <= first_cell sch l)%Z -> (first_cell sch l + support sch <= hi * n)%Z ->
  mass c (axis_image sch n l (first_cell sch l)) =
  rsum (map (fun m => spline sch (IZR (c + m * n) - l)) (arange lo hi)).
Proof.
  intros Hn Hl Hc Hlh H1 H2. unfold mass, axis_image. rewrite map_map. cbn [fst snd].
  set (f := fun u => spline sch (IZR u - l)). set (a := first_cell sch l) in *.
  transitivity (rsum (map (fun u => rsum (map (fun m => if (u =? c + m * n)%Z then f u else 0) (arange lo hi))) (arange a (a + support sch)))).
  - apply rsum_map_ext. intros u Hu. apply In_arange in Hu.
    assert (D := Z.div_mod u n ltac:(lia)). assert (P := Z.mod_pos_bound u n Hn).
    assert (lo <= u / n)%Z by (apply Z.div_le_lower_bound; lia).
    assert (u / n < hi)%Z by (apply Z.div_lt_upper_bound; lia).
    destruct (Z.eqb_spec (u mod n) c) as [E|E].
    + rewrite (rsum_map_ext _ (fun m => if (m =? u / n)%Z then f u else 0)).
      * rewrite (rsum_arange_pick (fun _ => f u)). destruct (Z.leb_spec lo (u / n)), (Z.ltb_spec (u / n) hi); try lia. reflexivity.
      * intros m _. destruct (Z.eqb_spec u (c + m * n)) as [Q1|Q1], (Z.eqb_spec m (u / n)) as [Q2|Q2]; try reflexivity; exfalso.
        -- apply Q2. nia.
        -- apply Q1. subst m. lia.
    + symmetry. apply rsum_map_zero. intros m _. destruct (Z.eqb_spec u (c + m * n)) as [Q|Q]; [|reflexivity].
      exfalso. apply E. symmetry. apply (Z.mod_unique _ _ m); lia.
  - rewrite rsum_swap. apply rsum_map_ext. intros m _.
    rewrite (rsum_arange_pick f). fold (f (c + m * n)%Z).
    destruct (Z.leb_spec a (c + m * n)), (Z.ltb_spec (c + m * n) (a + support sch)); cbn [andb]; try reflexivity;
      symmetry; apply spline_outside; try exact Hl; fold a; lia.
Qed.

Lemma first_cell_range sch n l : 0 <= l < IZR n ->
  (-1 <= first_cell sch l)%Z /\ (first_cell sch l + support sch <= n + 2)%Z.
Proof.
  intros Hl. assert (T := trunc_range n l Hl).
  destruct sch; cbn [first_cell support]; unfold Rleb, Rltb;
    try destruct (Rle_dec _ _); try destruct (Rlt_dec _ _); lia.
Qed.

Lemma loc_range n L x : (0 < n)%Z -> 0 <= x < L -> 0 <= grid_loc n L x < IZR n.
Proof.
  intros Hn [H1 H2]. assert (0 < IZR n) by (apply IZR_lt; exact Hn). unfold grid_loc. split.
  - apply Rmult_le_pos; [apply Rmult_le_pos; lra|]. apply Rlt_le, Rinv_0_lt_compat. lra.
  - apply (Rmult_lt_reg_r L); [lra|]. unfold Rdiv. rewrite Rmult_assoc, Rinv_l by lra. nra.
Qed.

Lemma loc_same n L x : (0 < n)%Z -> 0 < L -> grid_loc n L x = x / (L / IZR n).
Proof. intros Hn HL. assert (0 < IZR n) by (apply IZR_lt; exact Hn). unfold grid_loc. field. split; lra. Qed.

Lemma mass_images sch n l c M : (0 < n)%Z -> 0 <= l < IZR n -> (0 <= c < n)%Z -> (2 <= M)%Z ->
  mass c (cells sch n l) = images sch n l c M.
Proof.
  intros Hn Hl Hc HM. rewrite cells_image by exact Hl. assert (F := first_cell_range sch n l Hl).
  unfold images. apply image_mass; try lia; try lra; nia.
Qed.

Lemma cells_in sch n l : (0 < n)%Z -> 0 <= l < IZR n -> in_axis n (cells sch n l).
Proof. intros Hn Hl. rewrite cells_image by exact Hl. now apply axis_image_in. Qed.

(** ** C16 and C17: the assigned mesh is the kernel estimate on the periodic box *)
Theorem assign_is_spline :
  forall sch g ps, valid g -> (forall p, In p ps -> in_box g p) ->
  forall i j k, is_cell (ax0 (ngrid g)) (ax1 (ngrid g)) (ax2 (ngrid g)) i j k ->
  forall M, (2 <= M)%Z -> forall b,
  assign_main sch g ps (grid_index (ax1 (ngrid g)) (ax2 (ngrid g)) i j k) b =
  rsum (map (fun p => part_weight b p / vol_cell g
     * images sch (ax0 (ngrid g)) (loc0 g p) i M
     * images sch (ax1 (ngrid g)) (loc1 g p) j M
     * images sch (ax2 (ngrid g)) (loc2 g p) k M) ps).
Proof.
  intros sch g ps V B i j k C M HM b. unfold assign_main. rewrite run_value, rsum_flat_map.
  apply rsum_map_ext. intros p Hp. destruct (B p Hp) as (B0 & B1 & B2).
  pose proof V as ((Hx & Hy & Hz) & L0 & L1 & L2 & _). pose proof C as (Ci & Cj & Ck).
  unfold updates_main. rewrite particle_value by (try assumption; apply cells_in; try assumption; now apply loc_range).
  unfold loc0, loc1, loc2. rewrite <- ?loc_same by assumption.
  now rewrite !(mass_images _ _ _ _ M) by (try assumption; now apply loc_range).
Qed.

Lemma mesh_total_updates g us b : 0 < vol_cell g ->
  mesh_total g (run_updates us) b =
  vol_cell g * rsum (map (fun u => if Bool.eqb b (u_part u) && ((0 <=? u_gid u) && (u_gid u <? nmesh g))%Z then u_amount u else 0) us).
Proof. intros Hv. unfold mesh_total. rewrite rsum_map_scal_r, total_value. ring. Qed.

Theorem assign_conserves_weight :
  forall sch g ps, valid g -> (forall p, In p ps -> in_box g p) ->
  forall b, mesh_total g (assign_main sch g ps) b = rsum (map (part_weight b) ps).
Proof.
  intros sch g ps V B b. pose proof V as ((Hx & Hy & Hz) & L0 & L1 & L2 & Hv).
  unfold assign_main. rewrite mesh_total_updates by exact Hv. rewrite rsum_flat_map.
  rewrite (rsum_map_ext _ (fun p => part_weight b p / vol_cell g)).
  - unfold Rdiv. rewrite rsum_map_scal_r. field. lra.
  - intros p Hp. destruct (B p Hp) as (B0 & B1 & B2). unfold updates_main. rewrite particle_total by exact Hv.
    rewrite kept_all by (try assumption; apply cells_in; try assumption; now apply loc_range).
    rewrite !cells_tot. ring.
Qed.

(** ** C17 *)
Lemma spline_bounds sch t : 0 <= spline sch t <= 1.
Proof.
  destruct sch; unfold spline.
  - repeat destruct (Rlt_dec _ _); repeat destruct (Rle_dec _ _); lra.
  - assert (P := Rabs_pos t). destruct (Rle_dec _ _); lra.
  - assert (P := Rabs_pos t). assert (Q := pow2_abs t). rewrite <- Q. generalize dependent (Rabs t). intros a P _.
    destruct (Rle_dec a (1 / 2)); [|destruct (Rle_dec a (3 / 2))]; try lra.
    + assert (0 <= a ^ 2) by (apply pow_le; lra). assert (a ^ 2 <= (1 / 2) ^ 2) by (apply pow_incr; lra). lra.
    + assert (0 <= (3 / 2 - a) ^ 2) by (apply pow_le; lra). assert ((3 / 2 - a) ^ 2 <= 1 ^ 2) by (apply pow_incr; lra). lra.
  - assert (P := Rabs_pos t). assert (Q := pow2_abs t). rewrite <- Q. generalize dependent (Rabs t). intros a P _.
    destruct (Rle_dec a 1); [|destruct (Rle_dec a 2)]; try lra.
    + assert (0 <= a ^ 3) by (apply pow_le; lra). assert (a ^ 3 <= a ^ 2) by (simpl; nra).
      assert (a ^ 2 <= 1) by (simpl; nra). assert (0 <= a ^ 2) by (apply pow_le; lra).
      assert (0 <= (1 - a) * (1 + a * (1 - a))).
      { apply Rmult_le_pos; [lra|]. assert (0 <= a * (1 - a)) by (apply Rmult_le_pos; lra). lra. }
      replace ((1 - a) * (1 + a * (1 - a))) with (1 - 2 * a ^ 2 + a ^ 3) in * by ring. lra.
    + assert (0 <= (2 - a) ^ 3) by (apply pow_le; lra).
      assert ((2 - a) ^ 3 <= 1 ^ 3) by (apply pow_incr; lra). lra.
Qed.

Lemma spline_sum_range sch l lo hi : 0 <= l -> (lo <= first_cell sch l)%Z -> (first_cell sch l + support sch <= hi)%Z ->
  forall h : Z -> R,
  rsum (map (fun u => h u * spline sch (IZR u - l)) (arange lo hi)) =
  rsum (map (fun u => h u * spline sch (IZR u - l)) (arange (first_cell sch l) (first_cell sch l + support sch))).
Proof.
  intros Hl H1 H2 h. apply rsum_arange_support; try lia.
  - destruct sch; cbn [support]; lia.
  - intros u Hu. rewrite spline_outside by (try assumption; lia). ring.
Qed.

Lemma spline_values sch l : 0 <= l ->
  map (fun u => spline sch (IZR u - l)) (arange (first_cell sch l) (first_cell sch l + support sch)) =
  map snd (cells sch (up l) l).
Proof.
  intros Hl. rewrite cells_image.
  - unfold axis_image. rewrite map_map. reflexivity.
  - destruct (archimed l). lra.
Qed.

Lemma spline_total_range sch l lo hi : 0 <= l -> (lo <= first_cell sch l)%Z -> (first_cell sch l + support sch <= hi)%Z ->
  rsum (map (fun u => spline sch (IZR u - l)) (arange lo hi)) = 1.
Proof.
  intros Hl H1 H2. assert (E := spline_sum_range sch l lo hi Hl H1 H2 (fun _ => 1)). cbv beta in E.
  rewrite (rsum_map_ext _ (fun u => 1 * spline sch (IZR u - l))) by (intros; ring). rewrite E.
  rewrite (rsum_map_ext _ (fun u => spline sch (IZR u - l))) by (intros; ring).
  rewrite spline_values by exact Hl. apply cells_tot.
Qed.

Lemma spline_mean_range sch l lo hi : sch <> NGP -> 0 <= l -> (lo <= first_cell sch l)%Z -> (first_cell sch l + support sch <= hi)%Z ->
  rsum (map (fun u => IZR u * spline sch (IZR u - l)) (arange lo hi)) = l.
Proof.
  intros Hs Hl H1 H2. rewrite (spline_sum_range sch l lo hi Hl H1 H2 IZR).
  assert (E := spline_values sch l Hl).
  destruct sch; [contradiction| | |]; cbn [support first_cell cells] in *.
  - rewrite arange2 in *. unfold cells_cic in E. cbn [map snd] in *. assert (E1 := f_equal (fun q => nth 0 q 0) E); cbn [nth] in E1; assert (E2 := f_equal (fun q => nth 1 q 0) E); cbn [nth] in E2.
    rewrite !rsum_cons, rsum_nil, E1, E2, plus_IZR. ring.
  - rewrite arange3 in *. unfold cells_tsc, win_tsc, Rltb in *.
    destruct (Rlt_dec (l - IZR (Ztrunc l)) (1 / 2)); cbn [map snd] in *; assert (E1 := f_equal (fun q => nth 0 q 0) E); cbn [nth] in E1; assert (E2 := f_equal (fun q => nth 1 q 0) E); cbn [nth] in E2; assert (E3 := f_equal (fun q => nth 2 q 0) E); cbn [nth] in E3;
      rewrite !rsum_cons, rsum_nil, E1, E2, E3, !plus_IZR, ?minus_IZR; field.
  - rewrite arange4 in *. unfold cells_pcs, win_pcs in *. cbn [map snd] in *. assert (E1 := f_equal (fun q => nth 0 q 0) E); cbn [nth] in E1; assert (E2 := f_equal (fun q => nth 1 q 0) E); cbn [nth] in E2; assert (E3 := f_equal (fun q => nth 2 q 0) E); cbn [nth] in E3; assert (E4 := f_equal (fun q => nth 3 q 0) E); cbn [nth] in E4.
    rewrite !rsum_cons, rsum_nil, E1, E2, E3, E4, !plus_IZR, minus_IZR. field.
Qed.

Lemma first_cell_near sch l : 0 <= l ->
  l - 2 < IZR (first_cell sch l) /\ IZR (first_cell sch l + support sch) <= l + 3.
Proof.
  intros Hl. assert (B := trunc_bounds l Hl).
  destruct sch; cbn [first_cell support]; unfold Rleb, Rltb;
    try destruct (Rle_dec _ _); try destruct (Rlt_dec _ _); rewrite ?plus_IZR, ?minus_IZR; lra.
Qed.

(** The kernel used by the scheme is non-negative and at most one, its samples at
    the cells add to one, and (except for NGP) the mean of the cell positions weighted by
    it is the position of the particle; NGP only uses the nearest cell. *)
Theorem spline_positive_centred :
  forall sch x, 0 <= x ->
  (forall t, 0 <= spline sch t <= 1) /\
  (forall lo hi, IZR lo <= x - 2 -> x + 3 <= IZR hi ->
     rsum (map (fun u => spline sch (IZR u - x)) (arange lo hi)) = 1 /\
     (sch <> NGP -> rsum (map (fun u => IZR u * spline sch (IZR u - x)) (arange lo hi)) = x)) /\
  (forall t, sch = NGP -> spline sch t <> 0 -> Rabs t <= 1 / 2).
Proof.
  intros sch x Hx. split; [apply spline_bounds|]. split.
  - intros lo hi H1 H2. assert (F := first_cell_near sch x Hx).
    assert (lo <= first_cell sch x)%Z by (apply le_IZR; lra).
    assert (first_cell sch x + support sch <= hi)%Z by (apply le_IZR; lra).
    split; [now apply spline_total_range|]. intros N. now apply spline_mean_range.
  - intros t -> H. unfold spline in H. destruct (Rlt_dec _ _); [destruct (Rle_dec _ _)|]; try lra.
    apply Rabs_le. lra.
Qed.

(** Seen on the mesh: a particle with weight [w >= 0] gives each cell between 0 and
    [w / vol_cell]. *)
Lemma images_bounds sch n l c M : (0 < n)%Z -> 0 <= l < IZR n -> (0 <= c < n)%Z -> (2 <= M)%Z ->
  0 <= images sch n l c M <= 1.
Proof.
  intros Hn Hl Hc HM. rewrite <- mass_images by assumption. unfold mass. split.
  - apply rsum_nonneg. intros y Hy. apply in_map_iff in Hy. destruct Hy as (x & <- & Hx).
    rewrite cells_image in Hx by exact Hl. unfold axis_image in Hx. apply in_map_iff in Hx. destruct Hx as (u & <- & _).
    cbn [fst snd]. destruct (_ =? _)%Z; [apply spline_bounds|lra].
  - rewrite <- (cells_tot sch n l). unfold tot. apply rsum_le. intros x Hx.
    rewrite cells_image in Hx by exact Hl. unfold axis_image in Hx. apply in_map_iff in Hx. destruct Hx as (u & <- & _).
    cbn [fst snd]. destruct (_ =? _)%Z; [lra|apply spline_bounds].
Qed.

Theorem assign_positive_bounded :
  forall sch g p b, valid g -> in_box g p -> 0 <= part_weight b p ->
  forall i j k, is_cell (ax0 (ngrid g)) (ax1 (ngrid g)) (ax2 (ngrid g)) i j k ->
  0 <= assign_main sch g [p] (grid_index (ax1 (ngrid g)) (ax2 (ngrid g)) i j k) b * vol_cell g <= part_weight b p.
Proof.
  intros sch g p b V B W i j k C.
  rewrite (assign_is_spline sch g [p] V) with (M := 2%Z);
    [|intros q [<-|[]]; exact B|exact C|lia].
  pose proof V as ((Hx & Hy & Hz) & L0 & L1 & L2 & Hv). destruct B as (B0 & B1 & B2). destruct C as (Ci & Cj & Ck).
  cbn [map]. rewrite rsum_cons, rsum_nil. unfold loc0, loc1, loc2. rewrite <- ?loc_same by assumption.
  assert (P0 := images_bounds sch _ _ i 2 Hx (loc_range _ _ _ Hx B0) Ci ltac:(lia)).
  assert (P1 := images_bounds sch _ _ j 2 Hy (loc_range _ _ _ Hy B1) Cj ltac:(lia)).
  assert (P2 := images_bounds sch _ _ k 2 Hz (loc_range _ _ _ Hz B2) Ck ltac:(lia)).
  set (a := images sch (ax0 (ngrid g)) _ i 2) in *. set (c := images sch (ax1 (ngrid g)) _ j 2) in *.
  set (d := images sch (ax2 (ngrid g)) _ k 2) in *. set (w := part_weight b p) in *.
  replace ((w / vol_cell g * a * c * d + 0) * vol_cell g) with (w * (a * c * d)) by (field; lra).
  assert (0 <= a * c) by (apply Rmult_le_pos; lra). assert (a * c <= 1) by nra.
  assert (0 <= a * c * d) by (apply Rmult_le_pos; lra). assert (a * c * d <= 1) by nra. nra.
Qed.

(** ** C18 *)
Theorem parallel_assignment :
  forall sch g ps m, parallel_run (updates_main sch g) ps m ->
  forall gid b, m gid b = assign_main sch g ps gid b /\
                m gid b = rsum (map (fun p => assign_main sch g [p] gid b) ps).
Proof.
  intros sch g ps m (threads & trace & (order & Hp & Hc) & Hi & ->) gid b.
  assert (P : Permutation trace (flat_map (updates_main sch g) ps)).
  { rewrite (interleaves_perm _ _ Hi), concat_map_flat_map, Hc. now apply Permutation_flat_map'. }
  assert (A : run_updates trace gid b = assign_main sch g ps gid b).
  { unfold assign_main. rewrite !run_value. now apply rsum_map_perm. }
  split; [exact A|]. rewrite A. unfold assign_main. rewrite run_value, rsum_flat_map.
  apply rsum_map_ext. intros p _. rewrite run_value. cbn [flat_map]. now rewrite app_nil_r.
Qed.

Theorem parallel_assignment_shadow :
  forall sch g ps m, parallel_run (updates_shadow sch g) ps m ->
  forall gid b, m gid b = assign_shadow sch g ps gid b /\
                m gid b = rsum (map (fun p => assign_shadow sch g [p] gid b) ps).
Proof.
  intros sch g ps m (threads & trace & (order & Hp & Hc) & Hi & ->) gid b.
  assert (P : Permutation trace (flat_map (updates_shadow sch g) ps)).
  { rewrite (interleaves_perm _ _ Hi), concat_map_flat_map, Hc. now apply Permutation_flat_map'. }
  assert (A : run_updates trace gid b = assign_shadow sch g ps gid b).
  { unfold assign_shadow. rewrite !run_value. now apply rsum_map_perm. }
  split; [exact A|]. rewrite A. unfold assign_shadow. rewrite run_value, rsum_flat_map.
  apply rsum_map_ext. intros p _. rewrite run_value. cbn [flat_map]. now rewrite app_nil_r.
Qed.

(** Every way of dealing out the particles has a run, so the theorems above are
    about something. *)
Theorem parallel_run_exists :
  forall ev ps threads, Permutation (concat threads) ps -> exists m, parallel_run ev ps m.
Proof.
  intros ev ps threads H. exists (run_updates (concat (map (flat_map ev) threads))).
  exists threads, (concat (map (flat_map ev) threads)). split; [now exists (concat threads)|]. split; [|reflexivity].
  generalize (map (flat_map ev) threads). intros ts.
  assert (G : forall pre, (forall t, In t pre -> t = []) -> interleaves (pre ++ ts) (concat ts)).
  { induction ts as [|t ts IH]; intros pre Hpre.
    - rewrite app_nil_r. now constructor.
    - induction t as [|x t IHt].
      + cbn [concat app]. replace (pre ++ [] :: ts) with ((pre ++ [[]]) ++ ts) by (now rewrite <- app_assoc).
        apply IH. intros t Ht. apply in_app_iff in Ht. destruct Ht as [Ht|[<-|[]]]; [now apply Hpre|reflexivity].
      + cbn [concat app]. apply il_step. exact IHt. }
  apply (G []). intros t [].
Qed.

(** ** C19: the shadow mesh of interlacing *)

(** A location that the shadow mesh handles: the shifted location is not exactly the
    grid number, and TSC particles are not in the first half of the last two cells. *)
Definition shadow_good (sch : scheme) (n : Z) (l : R) : Prop :=
  l <> IZR n - 1 / 2 /\
  (sch = TSC -> ~ (IZR n - 2 <= l < IZR n - 3 / 2) /\ ~ (IZR n - 1 <= l < IZR n - 1 / 2)).

Lemma shadow_cells sch n l : (0 < n)%Z -> 0 <= l < IZR n -> shadow_good sch n l ->
  let l' := if Rltb (IZR n) (l + 1 / 2) then l + 1 / 2 - IZR n else l + 1 / 2 in
  0 <= l' < IZR n /\ cells_shadow sch n l' = cells sch n l'.
Proof.
  intros Hn Hl [G1 G2] l'. assert (P : 1 <= IZR n) by (apply IZR_le; lia).
  assert (R : 0 <= l' < IZR n) by (unfold l', Rltb; destruct (Rdichotomy _ _ G1), (Rlt_dec _ _); lra).
  split; [exact R|]. destruct sch; try reflexivity. cbn [cells_shadow cells].
  unfold cells_tsc_shadow, cells_tsc, win_tsc, Rltb.
  destruct (Rlt_dec (l' - IZR (Ztrunc l')) (1 / 2)) as [H|H]; [reflexivity|].
  assert (B := trunc_bounds l' (proj1 R)). assert (T := trunc_range n l' R).
  destruct (G2 eq_refl) as [G3 G4]. clear G2.
  assert (E1 : Ztrunc l' <> (n - 1)%Z).
  { intros E. assert (1 <= IZR n) by (apply IZR_le; lia).
    rewrite E, minus_IZR in B, H. apply G4. clear T E. unfold l', Rltb in *. destruct (Rlt_dec _ _); lra. }
  assert (E2 : Ztrunc l' <> (n - 2)%Z).
  { intros E. assert (2 <= IZR n) by (apply IZR_le; lia).
    rewrite E, minus_IZR in B, H. apply G3. clear T E. unfold l', Rltb in *. destruct (Rlt_dec _ _); lra. }
  destruct (Z.eqb_spec (Ztrunc l') (n - 1)); [contradiction|]. unfold cell_next.
  destruct (Z.eqb_spec (Ztrunc l') (n - 1)); [contradiction|].
  destruct (Z.eqb_spec (Ztrunc l' + 1) (n - 1)); [lia|]. reflexivity.
Qed.

Lemma images_wrap sch n l c M : (0 < n)%Z -> 0 <= l < IZR n -> l <> IZR n - 1 / 2 -> (0 <= c < n)%Z -> (3 <= M)%Z ->
  let l' := if Rltb (IZR n) (l + 1 / 2) then l + 1 / 2 - IZR n else l + 1 / 2 in
  mass c (cells sch n l') = images sch n (l + 1 / 2) c M.
Proof.
  intros Hn Hl N Hc HM l'. assert (P : 1 <= IZR n) by (apply IZR_le; lia).
  assert (R : 0 <= l' < IZR n) by (unfold l', Rltb; destruct (Rdichotomy _ _ N), (Rlt_dec _ _); lra).
  assert (F := first_cell_range sch n l' R).
  rewrite cells_image by exact R. unfold images.
  unfold l', Rltb in *. destruct (Rlt_dec (IZR n) (l + 1 / 2)) as [H|H].
  - rewrite (image_mass _ _ _ _ (- M - 1) M) by (try assumption; try lra; nia).
    unfold arange. rewrite !map_map.
    replace (Z.to_nat (M - (- M - 1))) with (Z.to_nat (M + 1 - - M)) by lia.
    apply rsum_map_ext. intros m _. f_equal.
    replace (c + (- M + Z.of_nat m) * n)%Z with (c + (- M - 1 + Z.of_nat m) * n + n)%Z by ring.
    rewrite (plus_IZR _ n). ring.
  - now rewrite (image_mass _ _ _ _ (- M) (M + 1)) by (try assumption; try lra; nia).
Qed.

Lemma grid_loc_shadow_eq n L x : grid_loc_shadow n L x =
  if Rltb (IZR n) (grid_loc n L x + 1 / 2) then grid_loc n L x + 1 / 2 - IZR n else grid_loc n L x + 1 / 2.
Proof. reflexivity. Qed.

Definition shadow_handles (sch : scheme) (g : mesh_params) (p : particle) : Prop :=
  in_box g p /\ shadow_good sch (ax0 (ngrid g)) (loc0 g p) /\
  shadow_good sch (ax1 (ngrid g)) (loc1 g p) /\ shadow_good sch (ax2 (ngrid g)) (loc2 g p).

(** Away from the excluded positions the shadow mesh is the kernel estimate of the
    particles moved by half a cell, and conserves weight. *)
Theorem shadow_is_shifted_spline :
  forall sch g ps, valid g -> (forall p, In p ps -> shadow_handles sch g p) ->
  forall i j k, is_cell (ax0 (ngrid g)) (ax1 (ngrid g)) (ax2 (ngrid g)) i j k ->
  forall M, (3 <= M)%Z -> forall b,
  assign_shadow sch g ps (grid_index (ax1 (ngrid g)) (ax2 (ngrid g)) i j k) b =
  rsum (map (fun p => part_weight b p / vol_cell g
     * images sch (ax0 (ngrid g)) (loc0 g p + 1 / 2) i M
     * images sch (ax1 (ngrid g)) (loc1 g p + 1 / 2) j M
     * images sch (ax2 (ngrid g)) (loc2 g p + 1 / 2) k M) ps).
Proof.
  intros sch g ps V B i j k C M HM b. unfold assign_shadow. rewrite run_value, rsum_flat_map.
  apply rsum_map_ext. intros p Hp. destruct (B p Hp) as ((B0 & B1 & B2) & G0 & G1 & G2).
  pose proof V as ((Hx & Hy & Hz) & L0 & L1 & L2 & _). pose proof C as (Ci & Cj & Ck).
  unfold loc0, loc1, loc2 in *. rewrite <- ?loc_same by assumption.
  rewrite <- loc_same in G0, G1, G2 by assumption.
  unfold updates_shadow. rewrite !grid_loc_shadow_eq.
  destruct (shadow_cells sch _ _ Hx (loc_range _ _ _ Hx B0) G0) as [R0 E0].
  destruct (shadow_cells sch _ _ Hy (loc_range _ _ _ Hy B1) G1) as [R1 E1].
  destruct (shadow_cells sch _ _ Hz (loc_range _ _ _ Hz B2) G2) as [R2 E2].
  rewrite E0, E1, E2.
  rewrite particle_value by (try assumption; apply cells_in; assumption).
  rewrite !(images_wrap sch _ _ _ M) by (try assumption; try (now apply loc_range); first [apply G0 | apply G1 | apply G2]).
  reflexivity.
Qed.

Theorem shadow_conserves_weight :
  forall sch g ps, valid g -> (forall p, In p ps -> shadow_handles sch g p) ->
  forall b, mesh_total g (assign_shadow sch g ps) b = rsum (map (part_weight b) ps).
Proof.
  intros sch g ps V B b. pose proof V as ((Hx & Hy & Hz) & L0 & L1 & L2 & Hv).
  unfold assign_shadow. rewrite mesh_total_updates by exact Hv. rewrite rsum_flat_map.
  rewrite (rsum_map_ext _ (fun p => part_weight b p / vol_cell g)).
  - unfold Rdiv. rewrite rsum_map_scal_r. field. lra.
  - intros p Hp. destruct (B p Hp) as ((B0 & B1 & B2) & G0 & G1 & G2).
    unfold loc0, loc1, loc2 in *. rewrite <- ?loc_same by assumption.
  rewrite <- loc_same in G0, G1, G2 by assumption.
    unfold updates_shadow. rewrite !grid_loc_shadow_eq. rewrite particle_total by exact Hv.
    destruct (shadow_cells sch _ _ Hx (loc_range _ _ _ Hx B0) G0) as [R0 E0].
    destruct (shadow_cells sch _ _ Hy (loc_range _ _ _ Hy B1) G1) as [R1 E1].
    destruct (shadow_cells sch _ _ Hz (loc_range _ _ _ Hz B2) G2) as [R2 E2].
    rewrite E0, E1, E2.
    rewrite kept_all by (try assumption; apply cells_in; assumption).
    rewrite !cells_tot. ring.
Qed.

(** Losses.  A cell index at or past the grid number on the first axis fails the
    range guard, so its weight is dropped. *)
Lemma kept_first g cx cy cz : valid g -> (forall x, In x cx -> (0 <= fst x)%Z) ->
  in_axis (ax1 (ngrid g)) cy -> in_axis (ax2 (ngrid g)) cz ->
  kept g cx cy cz =
  rsum (map (fun x => if (fst x <? ax0 (ngrid g))%Z then snd x else 0) cx) * tot cy * tot cz.
Proof.
  intros ((Hx & Hy & Hz) & _) Ix Iy Iz. unfold kept, tot.
  rewrite Rmult_assoc, <- rsum_map_scal_r. apply rsum_map_ext. intros x Hi.
  transitivity (rsum (map (fun y => (if (fst x <? ax0 (ngrid g))%Z then snd x else 0) * rsum (map snd cz) * snd y) cy)).
  - apply rsum_map_ext. intros y Hj.
    transitivity (((if (fst x <? ax0 (ngrid g))%Z then snd x else 0) * snd y) * rsum (map snd cz)); [|ring].
    rewrite <- rsum_map_scal. apply rsum_map_ext. intros z Hk.
    apply Ix in Hi. apply Iy in Hj. apply Iz in Hk. cbv zeta.
    unfold grid_index, nmesh.
    assert (0 <= (fst x * ax1 (ngrid g) + fst y) * ax2 (ngrid g) + fst z)%Z by nia.
    destruct (Z.leb_spec 0 ((fst x * ax1 (ngrid g) + fst y) * ax2 (ngrid g) + fst z)); [|lia].
    destruct (Z.ltb_spec (fst x) (ax0 (ngrid g))).
    + assert (fst x * ax1 (ngrid g) + fst y + 1 <= ax0 (ngrid g) * ax1 (ngrid g))%Z by nia.
      destruct (Z.ltb_spec ((fst x * ax1 (ngrid g) + fst y) * ax2 (ngrid g) + fst z) (ax0 (ngrid g) * ax1 (ngrid g) * ax2 (ngrid g))); [|nia].
      cbn [andb]. ring.
    + assert (ax0 (ngrid g) * ax1 (ngrid g) <= fst x * ax1 (ngrid g) + fst y)%Z by nia.
      destruct (Z.ltb_spec ((fst x * ax1 (ngrid g) + fst y) * ax2 (ngrid g) + fst z) (ax0 (ngrid g) * ax1 (ngrid g) * ax2 (ngrid g))); [nia|].
      cbn [andb]. ring.
  - rewrite rsum_map_scal. ring.
Qed.

Lemma Ztrunc_unique l i : IZR i <= l < IZR i + 1 -> (0 <= i)%Z -> Ztrunc l = i.
Proof.
  intros H Hi. assert (0 <= IZR i) by (now apply IZR_le). rewrite Ztrunc_floor by lra. apply Zfloor_imp.
  rewrite plus_IZR. exact H.
Qed.

(** A particle at location [l] on the first axis and half a cell in on the others. *)
Definition probe (g : mesh_params) (l : R) : particle :=
  Particle (T3 (l * (ax0 (boxsize g) / IZR (ax0 (ngrid g))))
               (1 / 2 * (ax1 (boxsize g) / IZR (ax1 (ngrid g))))
               (1 / 2 * (ax2 (boxsize g) / IZR (ax2 (ngrid g))))) 1 0.

Lemma probe_loc n L l : (0 < n)%Z -> 0 < L -> grid_loc n L (l * (L / IZR n)) = l.
Proof. intros Hn HL. assert (0 < IZR n) by (now apply IZR_lt). unfold grid_loc. field. split; lra. Qed.

Lemma probe_half_good sch n : (2 <= n)%Z -> shadow_good sch n (1 / 2).
Proof.
  intros H. assert (2 <= IZR n) by (now apply IZR_le). split; [intros E; lra|]. intros _.
  destruct (Z.eq_dec n 2) as [->|D]; [split; lra|]. assert (3 <= IZR n) by (apply IZR_le; lia). split; lra.
Qed.

Lemma probe_total sch g l : valid g -> (2 <= ax1 (ngrid g))%Z -> (2 <= ax2 (ngrid g))%Z ->
  let l' := if Rltb (IZR (ax0 (ngrid g))) (l + 1 / 2) then l + 1 / 2 - IZR (ax0 (ngrid g)) else l + 1 / 2 in
  (forall x, In x (cells_shadow sch (ax0 (ngrid g)) l') -> (0 <= fst x)%Z) ->
  mesh_total g (assign_shadow sch g [probe g l]) false =
  rsum (map (fun x => if (fst x <? ax0 (ngrid g))%Z then snd x else 0) (cells_shadow sch (ax0 (ngrid g)) l')).
Proof.
  intros V Ny Nz l' Hpos. pose proof V as ((Hx & Hy & Hz) & L0 & L1 & L2 & Hv).
  unfold assign_shadow. rewrite mesh_total_updates by exact Hv. cbn [flat_map]. rewrite app_nil_r.
  unfold updates_shadow. rewrite particle_total by exact Hv. cbn [probe pos ax0 ax1 ax2].
  rewrite !grid_loc_shadow_eq, !probe_loc by assumption. fold l'.
  assert (2 <= IZR (ax1 (ngrid g))) by (now apply IZR_le). assert (2 <= IZR (ax2 (ngrid g))) by (now apply IZR_le).
  destruct (shadow_cells sch (ax1 (ngrid g)) (1 / 2) Hy ltac:(lra) (probe_half_good sch _ Ny)) as [R1 E1].
  destruct (shadow_cells sch (ax2 (ngrid g)) (1 / 2) Hz ltac:(lra) (probe_half_good sch _ Nz)) as [R2 E2].
  rewrite E1, E2. rewrite kept_first by (try assumption; apply cells_in; assumption).
  rewrite !cells_tot. cbn [part_weight probe w_re]. field. lra.
Qed.

Lemma probe_in_box g l : valid g -> (2 <= ax1 (ngrid g))%Z -> (2 <= ax2 (ngrid g))%Z ->
  0 <= l < IZR (ax0 (ngrid g)) -> in_box g (probe g l).
Proof.
  intros ((Hx & Hy & Hz) & L0 & L1 & L2 & Hv) Ny Nz Hl.
  assert (2 <= IZR (ax1 (ngrid g))) by (now apply IZR_le). assert (2 <= IZR (ax2 (ngrid g))) by (now apply IZR_le).
  assert (G : forall n L x, 0 < n -> 0 < L -> 0 <= x < n -> 0 <= x * (L / n) < L).
  { intros n L x Hn HL Hr. assert (0 < L / n) by (apply Rdiv_lt_0_compat; assumption). split; [apply Rmult_le_pos; lra|].
    replace L with (n * (L / n)) at 2 by (field; lra). apply Rmult_lt_compat_r; lra. }
  assert (0 < IZR (ax0 (ngrid g))) by lra.
  unfold in_box, probe. cbn [pos ax0 ax1 ax2]. repeat split; apply G; lra.
Qed.

(** TSC: particles in the first half of the last-but-one cell lose weight on the
    shadow mesh (the wrap test of [ijk[2]] looks at the wrong index). *)
Theorem shadow_tsc_conserves_refuted :
  forall g, valid g -> (2 <= ax0 (ngrid g))%Z -> (2 <= ax1 (ngrid g))%Z -> (2 <= ax2 (ngrid g))%Z ->
  exists p, in_box g p /\ w_re p = 1 /\ mesh_total g (assign_shadow TSC g [p]) false = 31 / 32.
Proof.
  intros g V Nx Ny Nz. assert (N : 2 <= IZR (ax0 (ngrid g))) by (now apply IZR_le).
  set (n := ax0 (ngrid g)) in *. exists (probe g (IZR n - 7 / 4)).
  split; [apply probe_in_box; try assumption; fold n; lra|]. split; [reflexivity|].
  assert (E : cells_shadow TSC n (IZR n - 7 / 4 + 1 / 2) = [((n - 2)%Z, 9 / 32); ((n - 1)%Z, 11 / 16); (n, 1 / 32)]).
  { cbn [cells_shadow]. unfold cells_tsc_shadow, win_tsc.
    rewrite (Ztrunc_unique _ (n - 2)) by (try lia; rewrite minus_IZR; lra). rewrite minus_IZR. unfold Rltb.
    destruct (Rlt_dec _ _); [exfalso; lra|]. destruct (Z.eqb_spec (n - 2) (n - 1)); [lia|].
    replace (n - 2 + 1)%Z with (n - 1)%Z by lia. replace (n - 1 + 1)%Z with n by lia.
    list_eq; field. }
  rewrite probe_total; try assumption.
  - fold n. unfold Rltb. destruct (Rlt_dec _ _); [exfalso; lra|]. rewrite E. cbn [map fst snd].
    rewrite !rsum_cons, rsum_nil. destruct (Z.ltb_spec (n - 2) n), (Z.ltb_spec (n - 1) n), (Z.ltb_spec n n); try lia. lra.
  - fold n. unfold Rltb. destruct (Rlt_dec _ _); [exfalso; lra|]. rewrite E. cbn [In].
    intros x [<-|[<-|[<-|[]]]]; cbn [fst]; lia.
Qed.

(** Every scheme: a particle half a cell from the upper face is shifted to exactly the
    grid number, which is not wrapped ([>] instead of [>=]); its weight is lost. *)
Theorem shadow_seam_conserves_refuted :
  forall sch g, valid g -> (2 <= ax0 (ngrid g))%Z -> (2 <= ax1 (ngrid g))%Z -> (2 <= ax2 (ngrid g))%Z ->
  exists p, in_box g p /\ w_re p = 1 /\
  mesh_total g (assign_shadow sch g [p]) false =
    match sch with NGP => 0 | CIC => 0 | TSC => 1 / 8 | PCS => 1 / 6 end.
Proof.
  intros sch g V Nx Ny Nz. assert (N : 2 <= IZR (ax0 (ngrid g))) by (now apply IZR_le).
  set (n := ax0 (ngrid g)) in *. exists (probe g (IZR n - 1 / 2)).
  split; [apply probe_in_box; try assumption; fold n; lra|]. split; [reflexivity|].
  assert (T : Ztrunc (IZR n - 1 / 2 + 1 / 2) = n) by (apply Ztrunc_unique; [lra|lia]).
  assert (Eq1 : (n =? n - 1)%Z = false) by (apply Z.eqb_neq; lia).
  assert (Eq0 : (n =? 0)%Z = false) by (apply Z.eqb_neq; lia).
  assert (Eq2 : (n + 1 =? n - 1)%Z = false) by (apply Z.eqb_neq; lia).
  assert (E : cells_shadow sch n (IZR n - 1 / 2 + 1 / 2) =
    match sch with
    | NGP => [(n, 1)]
    | CIC => [(n, 1); ((n + 1)%Z, 0)]
    | TSC => [((n - 1)%Z, 1 / 8); (n, 3 / 4); ((n + 1)%Z, 1 / 8)]
    | PCS => [((n - 1)%Z, 1 / 6); (n, 2 / 3); ((n + 1)%Z, 1 / 6); ((n + 1 + 1)%Z, 0)]
    end).
  { destruct sch; cbn [cells_shadow]; unfold cells_ngp, cells_cic, cells_tsc_shadow, cells_pcs, win_tsc, win_pcs, cell_next, cell_prev, Rltb, Rleb;
      rewrite T, ?Eq1, ?Eq0, ?Eq2.
    - destruct (Rle_dec _ _); [exfalso; lra|]. reflexivity.
    - list_eq; lra.
    - destruct (Rlt_dec _ _); [|exfalso; lra]. replace (IZR n - 1 / 2 + 1 / 2 - IZR n) with 0 by ring. list_eq; field.
    - replace (IZR n - 1 / 2 + 1 / 2 - IZR n) with 0 by ring. list_eq; field. }
  rewrite probe_total; try assumption.
  - fold n. unfold Rltb. destruct (Rlt_dec _ _); [exfalso; lra|]. rewrite E.
    assert (A0 : (n <? n)%Z = false) by (apply Z.ltb_ge; lia). assert (A1 : (n + 1 <? n)%Z = false) by (apply Z.ltb_ge; lia).
    assert (A2 : (n + 1 + 1 <? n)%Z = false) by (apply Z.ltb_ge; lia). assert (A3 : (n - 1 <? n)%Z = true) by (apply Z.ltb_lt; lia).
    destruct sch; cbn [map fst snd]; rewrite !rsum_cons, rsum_nil, ?A0, ?A1, ?A2, ?A3; lra.
  - fold n. unfold Rltb. destruct (Rlt_dec _ _); [exfalso; lra|]. rewrite E.
    intros x Hx. destruct sch; cbn [In] in Hx;
      repeat (destruct Hx as [<-|Hx]; [cbn [fst]; lia|]); destruct Hx.
Qed.

(** ** Concrete cases *)
Definition demo_grid : mesh_params := MeshParams (T3 4 6 8)%Z (T3 8 12 16) 8.
Definition demo_parts : list particle :=
  [Particle (T3 (15 / 2) (1 / 2) 3) 2 1; Particle (T3 0 (23 / 2) 15) 3 (-1)].

Example demo_valid : valid demo_grid /\ (forall p, In p demo_parts -> in_box demo_grid p).
Proof.
  split.
  - unfold valid, demo_grid; cbn. repeat split; try lia; lra.
  - intros p [<-|[<-|[]]]; unfold in_box, demo_grid; cbn; lra.
Qed.

Example demo_conserves : mesh_total demo_grid (assign_main TSC demo_grid demo_parts) false = 5 /\
  mesh_total demo_grid (assign_main PCS demo_grid demo_parts) true = 0.
Proof.
  destruct demo_valid as [V B]. split; rewrite assign_conserves_weight by assumption; cbn; lra.
Qed.

(** CIC of a particle at 3.75 cells on an axis of 4: a quarter stays in cell 3,
    three quarters wrap to cell 0. *)
Example demo_wrap : cells CIC 4 (15 / 4) = [(3%Z, 1 / 4); (0%Z, 3 / 4)].
Proof.
  cbn [cells]. unfold cells_cic. rewrite (Ztrunc_unique _ 3) by (try lia; lra).
  change (cell_next 4 3) with 0%Z. list_eq; lra.
Qed.

Example demo_parallel : exists m, parallel_run (updates_main CIC demo_grid) demo_parts m.
Proof.
  apply (parallel_run_exists _ _ [[nth 1 demo_parts (Particle (T3 0 0 0) 0 0)]; [nth 0 demo_parts (Particle (T3 0 0 0) 0 0)]]).
  cbn. apply perm_swap.
Qed.

Example demo_shadow : shadow_handles TSC demo_grid (Particle (T3 1 1 1) 2 0) /\
  mesh_total demo_grid (assign_shadow TSC demo_grid [Particle (T3 1 1 1) 2 0]) false = 2.
Proof.
  assert (H : shadow_handles TSC demo_grid (Particle (T3 1 1 1) 2 0)).
  { unfold shadow_handles, in_box, shadow_good, loc0, loc1, loc2, demo_grid; cbn. repeat split; try lra; intros C; lra. }
  split; [exact H|]. rewrite shadow_conserves_weight.
  - cbn. ring.
  - apply demo_valid.
  - intros p [<-|[]]. exact H.
Qed.

Print Assumptions assign_is_spline.
Print Assumptions assign_conserves_weight.
Print Assumptions spline_positive_centred.
Print Assumptions assign_positive_bounded.
Print Assumptions parallel_assignment.
Print Assumptions parallel_assignment_shadow.
Print Assumptions parallel_run_exists.
Print Assumptions shadow_is_shifted_spline.
Print Assumptions shadow_conserves_weight.
Print Assumptions shadow_tsc_conserves_refuted.
Print Assumptions shadow_seam_conserves_refuted.
