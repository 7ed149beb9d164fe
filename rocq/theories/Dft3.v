(* Three-dimensional discrete Fourier transforms on the mesh: orthogonality of the
   waves, inversion, correlations and closed triangles. *)
From Coq Require Import Reals ZArith List Lia Lra Bool Permutation.
From Coquelicot Require Import Complex.
From Verif Require Import Base ArrayModel ArrayProofs MeshModel CSum Dft ThreePtModel SphHarmModel SphHarmProps.
Import ListNotations.
Open Scope R_scope.

Notation gcell := (Z * Z * Z)%type.

(** Sum over the cells of the mesh. *)
Definition total3 (ng : triple Z) (f : gcell -> C) : C := csum (map f (grid_cells ng)).

(** The plane wave of mode [c] at cell [x]. *)
Definition wave (ng : triple Z) (c x : gcell) : C := SphHarmModel.cis (dft_phase ng c x).

Definition cell_add (a b : gcell) : gcell :=
  let '(i, j, k) := a in let '(p, q, r) := b in (i + p, j + q, k + r)%Z.
Definition cell_opp (a : gcell) : gcell := let '(i, j, k) := a in (- i, - j, - k)%Z.
Definition cell_sub (a b : gcell) : gcell :=
  let '(i, j, k) := a in let '(p, q, r) := b in (i - p, j - q, k - r)%Z.
(** Reduction into the mesh. *)
Definition cell_mod (ng : triple Z) (a : gcell) : gcell :=
  let '(i, j, k) := a in (i mod ax0 ng, j mod ax1 ng, k mod ax2 ng)%Z.
Definition cell_eqb (a b : gcell) : bool :=
  let '(i, j, k) := a in let '(p, q, r) := b in ((i =? p) && (j =? q) && (k =? r))%Z.
Definition cell0 : gcell := (0, 0, 0)%Z.
(** Number of cells. *)
Definition mesh_size (ng : triple Z) : R := IZR (ax0 ng * ax1 ng * ax2 ng).

Lemma cell_eqb_spec a b : reflect (a = b) (cell_eqb a b).
Proof.
  destruct a as [[i j] k], b as [[p q] r]. cbn.
  destruct (Z.eqb_spec i p), (Z.eqb_spec j q), (Z.eqb_spec k r); cbn; constructor; congruence.
Qed.

Lemma cell_mod_grid ng a : grid_pos ng -> grid_cell ng (cell_mod ng a).
Proof.
  intros (H0 & H1 & H2). destruct a as [[i j] k]. cbn. repeat split; apply Z.mod_pos_bound; assumption.
Qed.
Lemma cell_mod_id ng a : grid_cell ng a -> cell_mod ng a = a.
Proof. destruct a as [[i j] k]. cbn. intros (H0 & H1 & H2). now rewrite !Z.mod_small. Qed.

Lemma mesh_size_pos ng : grid_pos ng -> 0 < mesh_size ng.
Proof. intros (H0 & H1 & H2). unfold mesh_size. apply IZR_lt. nia. Qed.

(** ** Sums over the mesh *)
Lemma total3_ext ng f g : (forall x, grid_cell ng x -> f x = g x) -> total3 ng f = total3 ng g.
Proof. intros H. apply csum_map_ext. intros x Hx. apply H. now apply In_grid_cells. Qed.
Lemma total3_plus ng f g : total3 ng (fun x => f x + g x)%C = (total3 ng f + total3 ng g)%C.
Proof. apply csum_map_plus. Qed.
Lemma total3_scal ng a f : total3 ng (fun x => a * f x)%C = (a * total3 ng f)%C.
Proof. apply csum_map_scal. Qed.
Lemma total3_scal_r ng a f : total3 ng (fun x => f x * a)%C = (total3 ng f * a)%C.
Proof.
  rewrite Cmult_comm, <- total3_scal. apply total3_ext. intros. apply Cmult_comm.
Qed.
Lemma total3_zero ng f : (forall x, grid_cell ng x -> f x = RtoC 0) -> total3 ng f = RtoC 0.
Proof. intros H. apply csum_map_zero. intros x Hx. apply H. now apply In_grid_cells. Qed.
Lemma total3_conj ng f : Cconj (total3 ng f) = total3 ng (fun x => Cconj (f x)).
Proof. unfold total3. now rewrite csum_conj, map_map. Qed.
Lemma csum_swap {A B} (f : A -> B -> C) (l : list A) (m : list B) :
  csum (map (fun a => csum (map (f a) m)) l) = csum (map (fun b => csum (map (fun a => f a b) l)) m).
Proof.
  induction l as [|a l IH]; cbn [map].
  - symmetry. apply csum_map_zero. reflexivity.
  - rewrite csum_cons, IH, <- csum_map_plus. apply csum_map_ext. intros b _. now rewrite csum_cons.
Qed.
Lemma total3_swap ng ng' f : total3 ng (fun a => total3 ng' (f a)) = total3 ng' (fun b => total3 ng (fun a => f a b)).
Proof. apply csum_swap. Qed.
Lemma csum_total3 {A} ng (f : A -> gcell -> C) l :
  csum (map (fun a => total3 ng (f a)) l) = total3 ng (fun x => csum (map (fun a => f a x) l)).
Proof. apply csum_swap. Qed.

Lemma csum_pick {A} (f : A -> C) l a : NoDup l -> In a l -> (forall b, In b l -> b <> a -> f b = RtoC 0) ->
  csum (map f l) = f a.
Proof.
  induction l as [|b l IH]; intros N I H; [destruct I|]. inversion N as [|? ? N1 N2]; subst.
  cbn [map]. rewrite csum_cons. destruct I as [->|I].
  - rewrite csum_map_zero; [apply Cplus_0_r|]. intros c Hc. apply H; [now right|]. intros ->. contradiction.
  - rewrite (H b) by (try (now left); intros ->; contradiction). rewrite IH; [apply Cplus_0_l|assumption..|].
    intros c Hc. apply H. now right.
Qed.
Lemma total3_pick ng f a : grid_cell ng a -> (forall x, grid_cell ng x -> x <> a -> f x = RtoC 0) -> total3 ng f = f a.
Proof.
  intros G H. apply csum_pick; [apply NoDup_grid_cells|now apply In_grid_cells|].
  intros b Hb. apply H. now apply In_grid_cells.
Qed.

(** Translation of the mesh. *)
Lemma NoDup_shifted ng s : grid_pos ng -> NoDup (map (fun x => cell_mod ng (cell_add x s)) (grid_cells ng)).
Proof.
  intros (H0 & H1 & H2).
  assert (INJ : forall x y, In x (grid_cells ng) -> In y (grid_cells ng) ->
      cell_mod ng (cell_add x s) = cell_mod ng (cell_add y s) -> x = y).
  { intros [[i j] k] [[p q] r]. destruct s as [[a b] d]. rewrite !In_grid_cells. cbn.
    intros (I0 & I1 & I2) (J0 & J1 & J2) E. injection E as E0 E1 E2.
    assert (X : forall n u v w, (0 < n -> 0 <= u < n -> 0 <= v < n -> (u + w) mod n = (v + w) mod n -> u = v)%Z).
    { intros n u v w Hn Hu Hv E. apply (f_equal (fun z => (z - w) mod n)%Z) in E.
      rewrite !Zminus_mod_idemp_l in E. replace (u + w - w)%Z with u in E by lia.
      replace (v + w - w)%Z with v in E by lia. now rewrite !Z.mod_small in E. }
    now rewrite (X _ _ _ _ H0 I0 J0 E0), (X _ _ _ _ H1 I1 J1 E1), (X _ _ _ _ H2 I2 J2 E2). }
  pose proof (NoDup_grid_cells ng) as N. revert N INJ.
  generalize (grid_cells ng). induction l as [|x l IH]; intros N INJ; cbn [map]; [constructor|].
  inversion N as [|? ? N1 N2]; subst. constructor.
  - intros I. apply in_map_iff in I. destruct I as (y & E & Hy). apply N1.
    rewrite <- (INJ y x (or_intror Hy) (or_introl eq_refl) E). exact Hy.
  - apply IH; [exact N2|]. intros. apply INJ; try (now right). assumption.
Qed.
Lemma total3_shift ng s f : grid_pos ng -> total3 ng (fun x => f (cell_mod ng (cell_add x s))) = total3 ng f.
Proof.
  intros G. unfold total3. rewrite <- (map_map (fun x => cell_mod ng (cell_add x s)) f).
  apply csum_perm, Permutation_map. apply NoDup_Permutation_bis.
  - now apply NoDup_shifted.
  - now rewrite map_length.
  - intros x Hx. apply in_map_iff in Hx. destruct Hx as (y & <- & _). apply In_grid_cells. now apply cell_mod_grid.
Qed.

(** ** Waves *)
Lemma wave_sym ng c x : wave ng c x = wave ng x c.
Proof.
  destruct c as [[i j] k], x as [[p q] r]. unfold wave, dft_phase.
  now rewrite (Z.mul_comm i p), (Z.mul_comm j q), (Z.mul_comm k r).
Qed.
Lemma wave_add ng c d x : wave ng (cell_add c d) x = (wave ng c x * wave ng d x)%C.
Proof.
  destruct c as [[i j] k], d as [[a b] e], x as [[p q] r]. unfold wave, dft_phase, cell_add.
  rewrite <- SphHarmProps.cis_plus. f_equal. rewrite !mult_IZR, !plus_IZR. unfold Rdiv. ring.
Qed.
Lemma wave_opp ng c x : wave ng (cell_opp c) x = Cconj (wave ng c x).
Proof.
  destruct c as [[i j] k], x as [[p q] r]. unfold wave, dft_phase, cell_opp.
  rewrite <- cis_opp. f_equal. rewrite !mult_IZR, !opp_IZR. unfold Rdiv. ring.
Qed.
Lemma wave_sub ng c d x : wave ng (cell_sub c d) x = (wave ng c x * Cconj (wave ng d x))%C.
Proof.
  rewrite <- wave_opp, <- wave_add. f_equal. destruct c as [[i j] k], d as [[a b] e]. cbn.
  now rewrite !Z.add_opp_r.
Qed.
Lemma wave_0 ng x : wave ng cell0 x = RtoC 1.
Proof.
  destruct x as [[p q] r]. unfold wave, dft_phase, cell0. rewrite !Z.mul_0_l.
  replace (2 * PI * (0 / IZR (ax0 ng) + 0 / IZR (ax1 ng) + 0 / IZR (ax2 ng))) with 0 by (unfold Rdiv; ring).
  unfold SphHarmModel.cis. now rewrite cos_0, sin_0.
Qed.
Lemma wave_mod ng c x : grid_pos ng -> wave ng (cell_mod ng c) x = wave ng c x.
Proof.
  intros (H0 & H1 & H2). destruct c as [[i j] k], x as [[p q] r]. unfold wave, dft_phase, cell_mod.
  assert (X : forall n u v, (0 < n)%Z -> exists t, IZR (u * v) / IZR n = IZR (u mod n * v) / IZR n + IZR t).
  { intros n u v Hn. exists (u / n * v)%Z. pose proof (IZR_lt _ _ Hn).
    rewrite (Z.div_mod u n) at 1 by lia. rewrite !mult_IZR, plus_IZR, mult_IZR. field. lra. }
  destruct (X _ i p H0) as (a & ->), (X _ j q H1) as (b & ->), (X _ k r H2) as (d & ->).
  match goal with |- _ = SphHarmModel.cis (2 * PI * (?u + IZR a + (?v + IZR b) + (?w + IZR d))) =>
    replace (2 * PI * (u + IZR a + (v + IZR b) + (w + IZR d))) with (2 * PI * (u + v + w) + 2 * PI * IZR (a + b + d))
      by (rewrite !plus_IZR; ring) end.
  rewrite SphHarmProps.cis_plus, cis_2PI. ring.
Qed.
Lemma wave_mod_r ng c x : grid_pos ng -> wave ng c (cell_mod ng x) = wave ng c x.
Proof. intros G. rewrite wave_sym, wave_mod, wave_sym by exact G. reflexivity. Qed.
Lemma wave_norm ng c x : (wave ng c x * Cconj (wave ng c x))%C = RtoC 1.
Proof. apply (Dft.cis_norm (dft_phase ng c x)). Qed.

(** One axis of the sum of a wave. *)
Lemma arange_seq n : arange 0 n = map Z.of_nat (seq 0 (Z.to_nat n)).
Proof.
  unfold arange. rewrite Z.sub_0_r. apply map_ext. intros i. reflexivity.
Qed.
Lemma axis_sum n d : (0 < n)%Z -> (0 <= d < n)%Z ->
  csum (map (fun p => SphHarmModel.cis (2 * PI * (IZR (d * p) / IZR n))) (arange 0 n)) =
  if (d =? 0)%Z then RtoC (IZR n) else RtoC 0.
Proof.
  intros Hn Hd. rewrite arange_seq, map_map.
  assert (E : IZR n = INR (Z.to_nat n)) by (rewrite INR_IZR_INZ, Z2Nat.id by lia; reflexivity).
  transitivity (total (Z.to_nat n) (fun i => ex (Z.to_nat n) (Z.of_nat i * - d))).
  - unfold total. apply csum_map_ext. intros i _. unfold ex.
    change (Dft.cis ?a) with (SphHarmModel.cis a). f_equal. rewrite E, !mult_IZR, opp_IZR. unfold Rdiv. ring.
  - rewrite ex_sum by lia. rewrite E. destruct (Z.eqb_spec d 0), (Z.eqb_spec (- d) 0); try lia; reflexivity.
Qed.

Lemma total3_product ng (f g h : Z -> C) :
  total3 ng (fun x => let '(i, j, k) := x in f i * g j * h k)%C =
  (csum (map f (arange 0 (ax0 ng))) * csum (map g (arange 0 (ax1 ng))) * csum (map h (arange 0 (ax2 ng))))%C.
Proof.
  unfold total3, grid_cells. rewrite csum_flat_map.
  rewrite (csum_map_ext _ (fun i => f i * (csum (map g (arange 0 (ax1 ng))) * csum (map h (arange 0 (ax2 ng)))))%C).
  - set (u := (_ * _)%C). rewrite <- Cmult_assoc. fold u. clearbody u. induction (arange 0 (ax0 ng)) as [|i l IH]; cbn [map].
    + cbn. symmetry. apply Cmult_0_l.
    + rewrite !csum_cons, IH. ring.
  - intros i _. rewrite csum_flat_map.
    rewrite (csum_map_ext _ (fun j => (f i * csum (map h (arange 0 (ax2 ng)))) * g j)%C).
    + rewrite csum_map_scal. ring.
    + intros j _. rewrite map_map. rewrite csum_map_scal. ring.
Qed.

(** Orthogonality: the sum of a wave over the mesh. *)
Theorem wave_sum ng c : grid_pos ng ->
  total3 ng (wave ng c) = if cell_eqb (cell_mod ng c) cell0 then RtoC (mesh_size ng) else RtoC 0.
Proof.
  intros G. rewrite (total3_ext _ _ (wave ng (cell_mod ng c))) by (intros; now rewrite wave_mod).
  pose proof (cell_mod_grid ng c G) as M. set (d := cell_mod ng c) in *. clearbody d. destruct G as (H0 & H1 & H2).
  destruct d as [[i j] k]. destruct M as (M0 & M1 & M2).
  rewrite (total3_ext _ _ (fun x => let '(p, q, r) := x in
     SphHarmModel.cis (2 * PI * (IZR (i * p) / IZR (ax0 ng))) * SphHarmModel.cis (2 * PI * (IZR (j * q) / IZR (ax1 ng)))
     * SphHarmModel.cis (2 * PI * (IZR (k * r) / IZR (ax2 ng))))%C).
  - rewrite (total3_product ng (fun p => SphHarmModel.cis (2 * PI * (IZR (i * p) / IZR (ax0 ng))))
      (fun q => SphHarmModel.cis (2 * PI * (IZR (j * q) / IZR (ax1 ng))))
      (fun r => SphHarmModel.cis (2 * PI * (IZR (k * r) / IZR (ax2 ng))))).
    rewrite !axis_sum by assumption. unfold cell_eqb, cell0, mesh_size.
    destruct (Z.eqb_spec i 0), (Z.eqb_spec j 0), (Z.eqb_spec k 0); cbn [andb];
      repeat (rewrite ?Cmult_0_l, ?Cmult_0_r); try reflexivity.
    rewrite !mult_IZR, !RtoC_mult. reflexivity.
  - intros [[p q] r] _. unfold wave, dft_phase. rewrite !Rmult_plus_distr_l. now rewrite !SphHarmProps.cis_plus.
Qed.

Lemma wave_sum_0 ng c : grid_pos ng -> grid_cell ng c -> c <> cell0 -> total3 ng (wave ng c) = RtoC 0.
Proof.
  intros G H N. rewrite wave_sum by exact G. rewrite cell_mod_id by exact H.
  destruct (cell_eqb_spec c cell0); [contradiction|reflexivity].
Qed.

(** Two cells that agree modulo the mesh. *)
Definition same_cell (ng : triple Z) (a b : gcell) : bool := cell_eqb (cell_mod ng (cell_sub a b)) cell0.
Lemma same_cell_grid ng a b : grid_cell ng a -> grid_cell ng b -> same_cell ng a b = cell_eqb a b.
Proof.
  destruct a as [[i j] k], b as [[p q] r]. intros (A0 & A1 & A2) (B0 & B1 & B2). unfold same_cell. cbn.
  assert (X : forall n u v, (0 <= u < n -> 0 <= v < n -> ((u - v) mod n =? 0) = (u =? v))%Z).
  { intros n u v Hu Hv. destruct (Z.eqb_spec u v) as [->|N].
    - rewrite Z.sub_diag, Z.mod_0_l by lia. reflexivity.
    - apply Z.eqb_neq. intros E. apply Z.mod_divide in E; [|lia]. destruct E as (t & E).
      assert (t = 0 \/ t >= 1 \/ t <= -1)%Z by lia. nia. }
  now rewrite !X.
Qed.

(** ** Transforms *)
Lemma fourier_total ng vc f c : fourier ng vc f c = (RtoC vc * total3 ng (fun x => f x * Cconj (wave ng c x)))%C.
Proof. unfold fourier. rewrite <- total3_scal. apply total3_ext. intros x _. unfold wave. ring. Qed.

(** Sums over the mesh of products of a field and the indicator of a cell. *)
Lemma total3_same ng f r : grid_pos ng ->
  total3 ng (fun x => f x * (if same_cell ng r x then RtoC (mesh_size ng) else RtoC 0))%C =
  (RtoC (mesh_size ng) * f (cell_mod ng r))%C.
Proof.
  intros G. assert (M : forall x, grid_cell ng x -> same_cell ng r x = cell_eqb (cell_mod ng r) x).
  { intros x Hx. rewrite <- (same_cell_grid ng) by (try assumption; now apply cell_mod_grid). unfold same_cell. f_equal.
    destruct r as [[i j] k], x as [[p q] s]. cbn. now rewrite !Zminus_mod_idemp_l. }
  rewrite (total3_pick ng _ (cell_mod ng r)).
  - rewrite M by now apply cell_mod_grid. destruct (cell_eqb_spec (cell_mod ng r) (cell_mod ng r)); [ring|congruence].
  - now apply cell_mod_grid.
  - intros x Hx N. rewrite M by exact Hx. destruct (cell_eqb_spec (cell_mod ng r) x); [congruence|ring].
Qed.

Lemma wave_orth ng c d : grid_pos ng ->
  total3 ng (fun x => wave ng c x * Cconj (wave ng d x))%C = if same_cell ng c d then RtoC (mesh_size ng) else RtoC 0.
Proof.
  intros G. unfold same_cell. rewrite <- wave_sum by exact G. apply total3_ext. intros x _. now rewrite wave_sub.
Qed.
Lemma wave_orth_l ng x y : grid_pos ng ->
  total3 ng (fun c => wave ng c x * Cconj (wave ng c y))%C = if same_cell ng x y then RtoC (mesh_size ng) else RtoC 0.
Proof.
  intros G. rewrite <- wave_orth by exact G. apply total3_ext. intros c _. now rewrite (wave_sym ng c x), (wave_sym ng c y).
Qed.

(** The inverse of the transform. *)
Theorem fourier_inverse ng vc f x : grid_pos ng ->
  total3 ng (fun c => fourier ng vc f c * wave ng c x)%C = (RtoC (vc * mesh_size ng) * f (cell_mod ng x))%C.
Proof.
  intros G. rewrite (total3_ext _ _ (fun c => total3 ng (fun y => RtoC vc * f y * (wave ng c x * Cconj (wave ng c y)))%C)).
  - rewrite total3_swap.
    rewrite (total3_ext _ _ (fun y => RtoC vc * f y * (if same_cell ng x y then RtoC (mesh_size ng) else RtoC 0))%C).
    + rewrite (total3_same ng (fun y => RtoC vc * f y)%C) by exact G. rewrite RtoC_mult. ring.
    + intros y _. rewrite total3_scal, wave_orth_l by exact G. reflexivity.
  - intros c _. rewrite fourier_total. rewrite <- total3_scal, <- total3_scal_r. apply total3_ext. intros y _. ring.
Qed.

(** Correlation theorem. *)
Theorem fourier_correlation ng vc f g r : grid_pos ng ->
  total3 ng (fun c => fourier ng vc f c * Cconj (fourier ng vc g c) * wave ng c r)%C =
  (RtoC (vc * vc * mesh_size ng) * total3 ng (fun x => f (cell_mod ng (cell_add x r)) * Cconj (g x)))%C.
Proof.
  intros G.
  rewrite (total3_ext _ _ (fun c => total3 ng (fun x => RtoC vc * Cconj (g x) *
     (fourier ng vc f c * wave ng c (cell_add x r)))%C)).
  - rewrite total3_swap. rewrite <- total3_scal. apply total3_ext. intros x _. rewrite total3_scal.
    rewrite fourier_inverse by exact G. rewrite !RtoC_mult. ring.
  - intros c _. rewrite (fourier_total _ _ g). rewrite Cconj_mult, total3_conj, Cconj_RtoC.
    rewrite <- total3_scal. rewrite <- total3_scal, <- total3_scal_r. apply total3_ext. intros x _.
    rewrite Cconj_mult, Cconj_inv. rewrite (wave_sym ng c (cell_add x r)), wave_add, (wave_sym ng x), (wave_sym ng r). ring.
Qed.
