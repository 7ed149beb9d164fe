(* Claims C54 and C55: reduced spherical harmonics and the symmetry of the fields
   built from them; and claim C25 with these fields put in. *)
From Coq Require Import Reals ZArith List Lia Lra Bool Permutation.
From Coquelicot Require Import Rcomplements Complex.
From Verif Require Import Base ArrayModel ArrayProofs RSum CSum MeshModel BinVecModel BinVecProps
  ThreePtModel OrderProps WignerProps SphHarmModel.
Import ListNotations.
Open Scope R_scope.

(** ** Specification vocabulary *)

(** What is used of the normalised associated Legendre polynomials: parity, and zero
    at the poles for non-zero order. *)
Definition legendre_like (P : Z -> Z -> R -> R) : Prop :=
  (forall l m mu, (0 <= m <= l)%Z -> P l m (- mu) = sign (l + m) * P l m mu) /\
  (forall l m, (0 < m <= l)%Z -> P l m 1 = 0).

(** Legendre polynomials by the explicit formula. *)
Definition legendre (l m : Z) (mu : R) : R :=
  sqrt ((2 * IZR l + 1) / (4 * PI) * (factZ (l - m) / factZ (l + m))) *
  (sqrt (1 - mu * mu) ^ Z.to_nat m *
   rsum (map (fun k =>
     sign k * factZ (2 * l - 2 * k) / (factZ k * factZ (l - k) * factZ (l - 2 * k - m)) / 2 ^ Z.to_nat l
     * mu ^ Z.to_nat (l - m - 2 * k)) (arange 0 ((l - m) / 2 + 1)))).

Definition opp3 (v : R * R * R) : R * R * R := let '(x, y, z) := v in (- x, - y, - z).
Definition scale3 (a : R) (v : R * R * R) : R * R * R := let '(x, y, z) := v in (a * x, a * y, a * z).

(** On the polar axis or away from it by the code's tolerance. *)
Definition off_axis (v : R * R * R) : Prop :=
  let '(x, y, z) := v in (x = 0 /\ y = 0) \/ eps_sph <= sqrt (x * x + y * y).

(** The cell of the opposite wavevector. *)
Definition neg_index (n i : Z) : Z := if (i =? 0)%Z then 0%Z else (n - i)%Z.
Definition neg_cell (ng : triple Z) (c : Z * Z * Z) : Z * Z * Z :=
  let '(i, j, k) := c in (neg_index (ax0 ng) i, neg_index (ax1 ng) j, neg_index (ax2 ng) k).
Definition grid_cell (ng : triple Z) (c : Z * Z * Z) : Prop :=
  let '(i, j, k) := c in
  (0 <= i < ax0 ng /\ 0 <= j < ax1 ng /\ 0 <= k < ax2 ng)%Z.

(** Frequency strictly below the Nyquist frequency along an axis; a cell along all. *)
Definition below_nyquist (n i : Z) : Prop := (Z.abs (shift_index n i) < n / 2)%Z.
Definition interior (ng : triple Z) (c : Z * Z * Z) : Prop :=
  let '(i, j, k) := c in
  below_nyquist (ax0 ng) i /\ below_nyquist (ax1 ng) j /\ below_nyquist (ax2 ng) k.

(** The Fourier transform of a real field. *)
Definition hermitian (ng : triple Z) (fk : Z * Z * Z -> C) : Prop :=
  forall c, grid_cell ng c -> fk (neg_cell ng c) = Cconj (fk c).

(** ** Proof support *)

Lemma Rmod_pos x y : 0 <= sqrt (x * x + y * y). Proof. apply sqrt_pos. Qed.

Lemma cis_plus a b : cis (a + b) = (cis a * cis b)%C.
Proof. unfold cis, Cmult. cbn [fst snd]. rewrite cos_plus, sin_plus. f_equal; ring. Qed.
Lemma cis_opp a : cis (- a) = Cconj (cis a).
Proof. unfold cis, Cconj. cbn [fst snd]. now rewrite cos_neg, sin_neg. Qed.
Lemma cis_PI : cis PI = RtoC (-1).
Proof. unfold cis, RtoC. now rewrite cos_PI, sin_PI. Qed.
Lemma cis_mPI m : cis (IZR m * PI) = RtoC (sign m).
Proof.
  assert (H : forall n : nat, cis (INR n * PI) = RtoC ((-1) ^ n)).
  { induction n as [|n IH]; [unfold cis, RtoC; cbn [INR pow]; now rewrite Rmult_0_l, cos_0, sin_0|].
    rewrite S_INR. replace ((INR n + 1) * PI) with (INR n * PI + PI) by ring.
    rewrite cis_plus, IH, cis_PI, <- RtoC_mult. f_equal. cbn [pow]. ring. }
  destruct (Z_le_gt_dec 0 m) as [Hm|Hm].
  - rewrite <- (Z2Nat.id m Hm), <- INR_IZR_INZ, H. f_equal. unfold sign. now rewrite <- pow_powerRZ.
  - rewrite <- sign_opp. replace (IZR m * PI) with (- (IZR (- m) * PI)) by (rewrite opp_IZR; ring).
    rewrite cis_opp. rewrite <- (Z2Nat.id (- m)) by lia. rewrite <- INR_IZR_INZ, H, Cconj_RtoC. f_equal.
    unfold sign. now rewrite <- pow_powerRZ.
Qed.
Lemma cis_2PI m : cis (2 * PI * IZR m) = RtoC 1.
Proof. replace (2 * PI * IZR m) with (IZR (2 * m) * PI) by (rewrite mult_IZR; ring). rewrite cis_mPI, sign_even. reflexivity. Qed.

Lemma eps_sph_pos : 0 < eps_sph. Proof. unfold eps_sph. lra. Qed.

Lemma ratio_bound x y : 0 < sqrt (x * x + y * y) -> -1 <= x / sqrt (x * x + y * y) <= 1.
Proof.
  intros H. assert (A : Rabs x <= sqrt (x * x + y * y)).
  { rewrite <- (sqrt_Rsqr_abs x). apply sqrt_le_1_alt. unfold Rsqr. nra. }
  apply Rabs_le_between in A. split.
  - apply Rmult_le_reg_r with (sqrt (x * x + y * y)); [exact H|]. unfold Rdiv. rewrite Rmult_assoc, Rinv_l by lra. lra.
  - apply Rmult_le_reg_r with (sqrt (x * x + y * y)); [exact H|]. unfold Rdiv. rewrite Rmult_assoc, Rinv_l by lra. lra.
Qed.

Lemma azimuth_far x y : eps_sph <= sqrt (x * x + y * y) ->
  azimuth x y = if Rltb y 0 then - acos (x / sqrt (x * x + y * y)) + 2 * PI else acos (x / sqrt (x * x + y * y)).
Proof.
  intros H. unfold azimuth. rewrite Rabs_pos_eq by apply sqrt_pos. apply Rleb_spec in H. now rewrite H.
Qed.

(** The reversed direction has the azimuth turned by half a circle. *)
Lemma azimuth_opp x y : eps_sph <= sqrt (x * x + y * y) ->
  azimuth (- x) (- y) = azimuth x y + PI \/ azimuth (- x) (- y) = azimuth x y - PI.
Proof.
  intros H. assert (E : - x * - x + - y * - y = x * x + y * y) by ring.
  rewrite !azimuth_far by (rewrite ?E; exact H). rewrite E.
  replace (- x / sqrt (x * x + y * y)) with (- (x / sqrt (x * x + y * y))) by (unfold Rdiv; ring).
  assert (B := eps_sph_pos). rewrite acos_opp.
  destruct (Rltb y 0) eqn:Y; destruct (Rltb (- y) 0) eqn:Y'.
  - apply Rltb_spec in Y, Y'. lra.
  - right. ring.
  - left. ring.
  - apply Rltb_false in Y, Y'. assert (Z : y = 0) by lra. subst y.
    assert (Q : x / sqrt (x * x + 0 * 0) = 1 \/ x / sqrt (x * x + 0 * 0) = -1).
    { assert (S : sqrt (x * x + 0 * 0) = Rabs x).
      { replace (x * x + 0 * 0) with (Rsqr x) by (unfold Rsqr; ring). apply sqrt_Rsqr_abs. }
      rewrite S in H |- *. destruct (Rle_dec 0 x) as [P|P].
      - left. rewrite Rabs_pos_eq in * by exact P. field. lra.
      - right. rewrite Rabs_left in * by lra. field. lra. }
    destruct Q as [-> | ->].
    + rewrite acos_1. left. ring.
    + replace (-1) with (- (1)) by ring. rewrite acos_opp, acos_1. right. ring.
Qed.

(** ** C54 *)

(** The azimuth is the polar angle of the direction in the plane. *)
Theorem azimuth_correct :
  forall x y, eps_sph <= sqrt (x * x + y * y) ->
  x = sqrt (x * x + y * y) * cos (azimuth x y) /\ y = sqrt (x * x + y * y) * sin (azimuth x y) /\
  0 <= azimuth x y <= 2 * PI.
Proof.
  intros x y H. assert (HP : 0 < sqrt (x * x + y * y)) by (assert (B := eps_sph_pos); lra).
  rewrite azimuth_far by exact H. assert (RB := ratio_bound x y HP).
  set (r := sqrt (x * x + y * y)) in *.
  assert (S : sin (acos (x / r)) = Rabs y / r).
  { rewrite sin_acos by exact RB. assert (R2 : r * r = x * x + y * y) by (apply sqrt_sqrt; nra).
    replace (1 - (x / r)²) with (Rsqr (y / r)).
    - rewrite sqrt_Rsqr_abs, Rabs_div by lra. now rewrite (Rabs_pos_eq r) by lra.
    - unfold Rsqr. apply Rmult_eq_reg_l with (r * r); [|nra].
      transitivity (y * y); [field; lra|]. transitivity (r * r - x * x); [lra|]. field. lra. }
  assert (AB := acos_bound (x / r)). destruct (Rltb y 0) eqn:Y.
  - apply Rltb_spec in Y. rewrite Rabs_left in S by exact Y.
    rewrite Rplus_comm, cos_plus, sin_plus, cos_2PI, sin_2PI, cos_neg, sin_neg, S, cos_acos by exact RB.
    split; [field; lra|]. split; [field; lra|lra].
  - apply Rltb_false in Y. rewrite Rabs_pos_eq in S by lra. rewrite S, cos_acos by exact RB.
    split; [field; lra|]. split; [field; lra|]. assert (P := PI_RGT_0). lra.
Qed.

Lemma sign_abs m : sign (Z.abs m) = sign m.
Proof. destruct (Z.abs_spec m) as [[_ ->]|[_ ->]]; [reflexivity|apply sign_opp]. Qed.

Lemma quot_neg m : (0 <= m)%Z -> powerRZ (-1) (Z.quot (m - Z.abs m) 2) = 1.
Proof. intros H. rewrite Z.abs_eq, Z.sub_diag by exact H. reflexivity. Qed.
Lemma quot_pos m : (m <= 0)%Z -> powerRZ (-1) (Z.quot (m - Z.abs m) 2) = sign m.
Proof.
  intros H. rewrite Z.abs_neq by exact H. replace (m - - m)%Z with (m * 2)%Z by lia. now rewrite Z.quot_mul by lia.
Qed.

(** Opposite orders: conjugation with the sign [(-1)^m]. *)
Theorem ylm_opposite_order :
  forall P l m v, reduced_ylm P l (- m) v = (RtoC (sign m) * Cconj (reduced_ylm P l m v))%C.
Proof.
  intros P l m [[x y] z]. unfold reduced_ylm.
  assert (E0 : (- m =? 0)%Z = (m =? 0)%Z) by (destruct (Z.eqb_spec (- m) 0), (Z.eqb_spec m 0); lia).
  rewrite E0. destruct ((l =? 0) && (m =? 0))%Z%bool eqn:E.
  { apply andb_true_iff in E. destruct E as [_ E]. apply Z.eqb_eq in E. subst m. rewrite sign_0, Cconj_RtoC. ring. }
  destruct (Rltb _ _). { rewrite Cconj_RtoC. ring. }
  rewrite Z.abs_opp, !Cconj_mult, !Cconj_RtoC.
  replace (IZR (- m) * azimuth x y) with (- (IZR m * azimuth x y)) by (rewrite opp_IZR; ring).
  rewrite cis_opp, !Cconj_inv.
  assert (S : powerRZ (-1) (Z.quot (- m - Z.abs m) 2) = sign m * powerRZ (-1) (Z.quot (m - Z.abs m) 2)).
  { rewrite <- (Z.abs_opp m) at 1. destruct (Z_le_gt_dec 0 m) as [H|H].
    - rewrite (quot_neg m H), quot_pos, sign_opp by lia. ring.
    - rewrite (quot_pos m), quot_neg by lia. symmetry. apply sign_sqr. }
  rewrite S, RtoC_mult. ring.
Qed.

(** Opposite directions: the sign [(-1)^l]. *)
Theorem ylm_parity :
  forall P l m v, legendre_like P -> (Z.abs m <= l)%Z -> off_axis v ->
  reduced_ylm P l m (opp3 v) = (RtoC (sign l) * reduced_ylm P l m v)%C.
Proof.
  intros P l m [[x y] z] [HP HZ] Hm Hv. unfold opp3, reduced_ylm.
  destruct ((l =? 0) && (m =? 0))%Z%bool eqn:E.
  { apply andb_true_iff in E. destruct E as [E _]. apply Z.eqb_eq in E. subst l. rewrite sign_0. ring. }
  replace (- x * - x + - y * - y + - z * - z) with (x * x + y * y + z * z) by ring.
  destruct (Rltb (Rabs (sqrt (x * x + y * y + z * z))) eps_sph) eqn:EM; [ring|].
  apply Rltb_false in EM. rewrite Rabs_pos_eq in EM by apply sqrt_pos.
  set (r := sqrt (x * x + y * y + z * z)) in *. assert (B := eps_sph_pos).
  replace (- z / r) with (- (z / r)) by (unfold Rdiv; ring). rewrite HP by lia.
  destruct Hv as [[-> ->]|Hv].
  - (* on the axis *)
    assert (A0 : forall s t, sqrt (s * s + t * t) < eps_sph -> azimuth s t = 0).
    { intros s t H. unfold azimuth. rewrite Rabs_pos_eq by apply sqrt_pos.
      replace (Rleb _ _) with false; [reflexivity|]. symmetry. now apply Rleb_false. }
    assert (S0 : sqrt (0 * 0 + 0 * 0) < eps_sph) by (replace (0 * 0 + 0 * 0) with 0 by ring; rewrite sqrt_0; exact B).
    assert (S1 : sqrt (- 0 * - 0 + - 0 * - 0) < eps_sph)
      by (replace (- 0 * - 0 + - 0 * - 0) with 0 by ring; rewrite sqrt_0; exact B).
    rewrite !A0 by assumption. destruct (Z.eq_dec m 0) as [->|N].
    + cbn [Z.abs]. rewrite Z.add_0_r. rewrite !Cconj_mult, !Cconj_RtoC, RtoC_mult. ring.
    + assert (Q : P l (Z.abs m) (z / r) = 0).
      { assert (R : r = Rabs z).
        { unfold r. replace (0 * 0 + 0 * 0 + z * z) with (Rsqr z) by (unfold Rsqr; ring). apply sqrt_Rsqr_abs. }
        destruct (Rle_dec 0 z) as [Hz|Hz].
        - replace (z / r) with 1; [apply HZ; lia|]. rewrite R, Rabs_pos_eq by exact Hz. field.
          rewrite R, Rabs_pos_eq in EM by exact Hz. lra.
        - replace (z / r) with (- (1)); [rewrite HP, HZ by lia; ring|]. rewrite R, Rabs_left by lra. field. lra. }
      rewrite Q. replace (sign (l + Z.abs m) * 0) with 0 by ring. rewrite !Cmult_0_r.
      assert (C0 : Cconj (RtoC 0) = RtoC 0) by apply Cconj_RtoC. rewrite !C0. ring.
  - assert (T : cis (IZR m * azimuth (- x) (- y)) = (RtoC (sign m) * cis (IZR m * azimuth x y))%C).
    { destruct (azimuth_opp x y Hv) as [-> | ->].
      - rewrite Rmult_plus_distr_l, cis_plus, cis_mPI. ring.
      - unfold Rminus. rewrite Rmult_plus_distr_l, cis_plus.
        replace (IZR m * - PI) with (IZR (- m) * PI) by (rewrite opp_IZR; ring).
        rewrite cis_mPI, sign_opp. ring. }
    rewrite T, !Cconj_mult, !Cconj_RtoC, sign_plus, sign_abs, !RtoC_mult.
    assert (SS : (RtoC (sign m) * RtoC (sign m) = RtoC 1)%C) by (rewrite <- RtoC_mult, sign_sqr; reflexivity).
    generalize (P l (Z.abs m) (z / r)) (sqrt (4 * PI / (2 * IZR l + 1))) (powerRZ (-1) (Z.quot (m - Z.abs m) 2))
      (Cconj (cis (IZR m * azimuth x y))). intros p n q e.
    transitivity (RtoC (sign m) * RtoC (sign m) * (RtoC q * (e * (RtoC (sign l) * RtoC p)) * RtoC n))%C;
      [ring|]. rewrite SS. ring.
Qed.

(** The value depends on the direction only. *)
Theorem ylm_direction :
  forall P l m a v, 0 < a -> off_axis v -> off_axis (scale3 a v) ->
  eps_sph <= vec_mod v -> eps_sph <= vec_mod (scale3 a v) ->
  reduced_ylm P l m (scale3 a v) = reduced_ylm P l m v.
Proof.
  intros P l m a [[x y] z] Ha H1 H2 H3 H4. unfold reduced_ylm, scale3, vec_mod, off_axis in *.
  destruct ((l =? 0) && (m =? 0))%Z%bool; [reflexivity|]. assert (B := eps_sph_pos).
  assert (S : forall s, 0 <= s -> sqrt (a * a * s) = a * sqrt s).
  { intros s Hs. rewrite sqrt_mult by nra. rewrite sqrt_square by lra. reflexivity. }
  replace (a * x * (a * x) + a * y * (a * y) + a * z * (a * z)) with (a * a * (x * x + y * y + z * z)) in * by ring.
  replace (a * x * (a * x) + a * y * (a * y)) with (a * a * (x * x + y * y)) in * by ring.
  rewrite S in * by nra. set (r := sqrt (x * x + y * y + z * z)) in *.
  replace (Rltb (Rabs (a * r)) eps_sph) with false by (symmetry; apply Rltb_false; rewrite Rabs_pos_eq; lra).
  replace (Rltb (Rabs r) eps_sph) with false by (symmetry; apply Rltb_false; rewrite Rabs_pos_eq; lra).
  replace (a * z / (a * r)) with (z / r) by (field; split; lra).
  replace (azimuth (a * x) (a * y)) with (azimuth x y); [reflexivity|].
  destruct H1 as [[-> ->]|H1].
  - now rewrite !Rmult_0_r.
  - destruct H2 as [[E1 E2]|H2].
    + apply Rmult_integral in E1, E2. assert (x = 0) by lra. assert (y = 0) by lra. subst. now rewrite !Rmult_0_r.
    + assert (E : a * x * (a * x) + a * y * (a * y) = a * a * (x * x + y * y)) by ring.
      rewrite !azimuth_far; [|rewrite E, S by nra; exact H2|exact H1].
      rewrite E, S by nra. replace (a * x / (a * sqrt (x * x + y * y))) with (x / sqrt (x * x + y * y)) by (field; split; lra).
      replace (Rltb (a * y) 0) with (Rltb y 0); [reflexivity|].
      destruct (Rltb y 0) eqn:Y; symmetry.
      * apply Rltb_spec in Y. apply Rltb_spec. nra.
      * apply Rltb_false in Y. apply Rltb_false. nra.
Qed.

(** Degree zero and the origin. *)
Theorem ylm_special :
  forall P v, reduced_ylm P 0 0 v = RtoC 1 /\
  forall l m, (l, m) <> (0, 0)%Z -> reduced_ylm P l m (0, 0, 0) = RtoC 0.
Proof.
  intros P [[x y] z]. split; [reflexivity|]. intros l m N. unfold reduced_ylm.
  destruct ((l =? 0) && (m =? 0))%Z%bool eqn:E.
  { apply andb_true_iff in E. rewrite !Z.eqb_eq in E. destruct E as [-> ->]. contradiction. }
  replace (0 * 0 + 0 * 0 + 0 * 0) with 0 by ring. rewrite sqrt_0, Rabs_R0.
  assert (B := eps_sph_pos). apply Rltb_spec in B. now rewrite B.
Qed.

(** The explicit Legendre polynomials have the assumed properties. *)
Theorem legendre_is_like : legendre_like legendre.
Proof.
  split.
  - intros l m mu H. unfold legendre. replace (- mu * - mu) with (mu * mu) by ring.
    replace (map _ (arange 0 ((l - m) / 2 + 1))) with
      (map (fun k => sign (l + m) * (sign k * factZ (2 * l - 2 * k) / (factZ k * factZ (l - k) * factZ (l - 2 * k - m)) / 2 ^ Z.to_nat l
     * mu ^ Z.to_nat (l - m - 2 * k))) (arange 0 ((l - m) / 2 + 1))).
    + rewrite rsum_map_scal. ring.
    + apply map_ext_in. intros k Hk. apply In_arange in Hk.
      assert (2 * ((l - m) / 2) <= l - m)%Z by (apply Z.mul_div_le; lia).
      replace (- mu) with (-1 * mu) by ring. rewrite Rpow_mult_distr.
      replace ((-1) ^ Z.to_nat (l - m - 2 * k)) with (sign (l + m)).
      * ring.
      * rewrite pow_powerRZ, Z2Nat.id by lia. fold (sign (l - m - 2 * k)).
        rewrite !sign_minus, sign_even, sign_plus. ring.
  - intros l m H. unfold legendre. replace (1 - 1 * 1) with 0 by ring. rewrite sqrt_0, pow_i by lia. ring.
Qed.

(** ** Proof support: reversal of wavevectors *)

Definition grid_pos (ng : triple Z) : Prop := (0 < ax0 ng /\ 0 < ax1 ng /\ 0 < ax2 ng)%Z.

Lemma In_grid_cells ng c : In c (grid_cells ng) <-> grid_cell ng c.
Proof.
  destruct c as [[i j] k]. unfold grid_cells, grid_cell. rewrite in_flat_map. split.
  - intros (i' & Hi & H). apply in_flat_map in H. destruct H as (j' & Hj & H). apply in_map_iff in H.
    destruct H as (k' & E & Hk). injection E as -> -> ->. apply In_arange in Hi, Hj, Hk. lia.
  - intros (Hi & Hj & Hk). exists i. split; [apply In_arange; lia|]. apply in_flat_map. exists j.
    split; [apply In_arange; lia|]. apply in_map_iff. exists k. split; [reflexivity|apply In_arange; lia].
Qed.
Lemma NoDup_grid_cells ng : NoDup (grid_cells ng).
Proof.
  exact (NoDup_orders _ _ (fun _ _ => true) _ (NoDup_arange 0 (ax0 ng)) (NoDup_arange 0 (ax1 ng)) (NoDup_arange 0 (ax2 ng))).
Qed.

Lemma neg_index_range n i : (0 <= i < n -> 0 <= neg_index n i < n)%Z.
Proof. unfold neg_index. destruct (Z.eqb_spec i 0); lia. Qed.
Lemma neg_index_inv n i : (0 <= i < n -> neg_index n (neg_index n i) = i)%Z.
Proof. unfold neg_index. destruct (Z.eqb_spec i 0) as [->|N]; [reflexivity|]. destruct (Z.eqb_spec (n - i) 0); lia. Qed.
Lemma neg_cell_grid ng c : grid_cell ng c -> grid_cell ng (neg_cell ng c).
Proof.
  destruct c as [[i j] k]. unfold grid_cell, neg_cell. intros (H1 & H2 & H3).
  split; [|split]; now apply neg_index_range.
Qed.
Lemma neg_cell_inv ng c : grid_cell ng c -> neg_cell ng (neg_cell ng c) = c.
Proof. destruct c as [[i j] k]. unfold grid_cell, neg_cell. intros (H1 & H2 & H3). now rewrite !neg_index_inv. Qed.

(** Sums over a set of cells closed under reversal. *)
Lemma csum_neg ng (l : list (Z * Z * Z)) (f : Z * Z * Z -> C) : NoDup l ->
  (forall c, In c l -> grid_cell ng c) -> (forall c, In c l -> In (neg_cell ng c) l) ->
  csum (map (fun c => f (neg_cell ng c)) l) = csum (map f l).
Proof.
  intros N G R. rewrite <- (map_map (neg_cell ng) f). apply csum_perm, Permutation_map. apply NoDup_Permutation.
  - clear R. induction l as [|c l IH]; [constructor|]. inversion N as [|? ? N1 N2]; subst. cbn [map]. constructor.
    + intros H. apply in_map_iff in H. destruct H as (d & E & Hd). apply N1.
      rewrite <- (neg_cell_inv ng c), <- E, neg_cell_inv by (apply G; auto; try (now left); now right). exact Hd.
    + apply IH; [exact N2|]. intros. apply G. now right.
  - exact N.
  - intros c. rewrite in_map_iff. split.
    + intros (d & <- & Hd). now apply R.
    + intros H. exists (neg_cell ng c). split; [apply neg_cell_inv; now apply G|now apply R].
Qed.

Lemma phase_axis n i p : (0 < n)%Z -> exists q, IZR (neg_index n i * p) / IZR n = - (IZR (i * p) / IZR n) + IZR q.
Proof.
  intros Hn. assert (0 < IZR n) by (apply IZR_lt; exact Hn). unfold neg_index. destruct (Z.eqb_spec i 0) as [->|N].
  - exists 0%Z. cbn. unfold Rdiv. ring.
  - exists p. rewrite !mult_IZR, minus_IZR. field. lra.
Qed.

Lemma phase_neg ng c x : grid_pos ng ->
  cis (dft_phase ng (neg_cell ng c) x) = Cconj (cis (dft_phase ng c x)).
Proof.
  intros (H0 & H1 & H2). destruct c as [[i j] k], x as [[p q] r]. unfold dft_phase, neg_cell.
  destruct (phase_axis (ax0 ng) i p H0) as (a & ->). destruct (phase_axis (ax1 ng) j q H1) as (b & ->).
  destruct (phase_axis (ax2 ng) k r H2) as (d & ->). rewrite <- cis_opp.
  set (u := IZR (i * p) / IZR (ax0 ng)). set (v := IZR (j * q) / IZR (ax1 ng)). set (w := IZR (k * r) / IZR (ax2 ng)).
  replace (2 * PI * (- u + IZR a + (- v + IZR b) + (- w + IZR d)))
    with (- (2 * PI * (u + v + w)) + 2 * PI * IZR (a + b + d)) by (rewrite !plus_IZR; ring).
  rewrite cis_plus, cis_2PI. ring.
Qed.

Lemma shift_neg n i : (0 <= i < n)%Z -> below_nyquist n i -> shift_index n (neg_index n i) = (- shift_index n i)%Z.
Proof.
  unfold below_nyquist, shift_index, neg_index. intros H. assert (D : (2 * (n / 2) <= n)%Z) by (apply Z.mul_div_le; lia).
  destruct (Z.ltb_spec i (n / 2)), (Z.eqb_spec i 0) as [->|]; intros B;
    repeat match goal with |- context [(?a <? ?b)%Z] => destruct (Z.ltb_spec a b) end; lia.
Qed.
Lemma grid_vector_shift n d i : grid_vector n d i = IZR (shift_index n i) * d.
Proof. unfold grid_vector, shift_index. now destruct (i <? n / 2)%Z. Qed.

Lemma wavevector_neg ng dk c : grid_cell ng c -> interior ng c ->
  wavevector ng dk (neg_cell ng c) = opp3 (wavevector ng dk c).
Proof.
  destruct c as [[i j] k]. intros (H1 & H2 & H3) (N1 & N2 & N3). unfold wavevector, neg_cell, opp3.
  rewrite !grid_vector_shift, !shift_neg by assumption. rewrite !opp_IZR. f_equal; [f_equal|]; ring.
Qed.
Lemma interior_neg ng c : grid_cell ng c -> interior ng c -> interior ng (neg_cell ng c).
Proof.
  destruct c as [[i j] k]. intros (H1 & H2 & H3) (N1 & N2 & N3). unfold interior, neg_cell, below_nyquist in *.
  rewrite !shift_neg by assumption. lia.
Qed.
Lemma vec_mod_opp v : vec_mod (opp3 v) = vec_mod v.
Proof. destruct v as [[x y] z]. unfold vec_mod, opp3. f_equal. ring. Qed.

(** Window: unchanged by the reversal of a frequency, or of a cell that is its own
    reversal. *)
Lemma sinc_opp n f : IZR n <> 0 ->
  (if (- f =? 0)%Z then 1 else sin (PI * IZR (- f) / IZR n) / (PI * IZR (- f) / IZR n)) =
  (if (f =? 0)%Z then 1 else sin (PI * IZR f / IZR n) / (PI * IZR f / IZR n)).
Proof.
  intros Hn. destruct (Z.eqb_spec f 0) as [->|N]; [reflexivity|]. destruct (Z.eqb_spec (- f) 0); [lia|].
  rewrite opp_IZR. replace (PI * - IZR f / IZR n) with (- (PI * IZR f / IZR n)) by (field; exact Hn).
  rewrite sin_neg. assert (IZR f <> 0) by (apply not_0_IZR; exact N). assert (P := PI_RGT_0). field.
  split; [|split]; lra || assumption.
Qed.
Lemma window_neg ng i j k order : grid_pos ng -> grid_cell ng (i, j, k) ->
  (below_nyquist (ax0 ng) i \/ neg_index (ax0 ng) i = i) ->
  (below_nyquist (ax1 ng) j \/ neg_index (ax1 ng) j = j) ->
  (below_nyquist (ax2 ng) k \/ neg_index (ax2 ng) k = k) ->
  window_direct ng (neg_index (ax0 ng) i) (neg_index (ax1 ng) j) (neg_index (ax2 ng) k) order =
  window_direct ng i j k order.
Proof.
  intros (P0 & P1 & P2) (G0 & G1 & G2) H0 H1 H2. unfold window_direct. cbv zeta.
  assert (A : forall n i, (0 < n)%Z -> (0 <= i < n)%Z -> (below_nyquist n i \/ neg_index n i = i) ->
    (if (shift_index n (neg_index n i) =? 0)%Z then 1 else
       sin (PI * IZR (shift_index n (neg_index n i)) / IZR n) / (PI * IZR (shift_index n (neg_index n i)) / IZR n)) =
    (if (shift_index n i =? 0)%Z then 1 else sin (PI * IZR (shift_index n i) / IZR n) / (PI * IZR (shift_index n i) / IZR n))).
  { intros n f Hn Hf [B|E]; [|now rewrite E]. rewrite (shift_neg n f Hf B). apply sinc_opp. apply not_0_IZR. lia. }
  rewrite (A (ax0 ng) i), (A (ax1 ng) j), (A (ax2 ng) k) by assumption. reflexivity.
Qed.

Lemma even_axis n i : (0 <= i < n)%Z -> Z.Even n -> below_nyquist n i \/ neg_index n i = i.
Proof.
  intros H [q ->]. unfold below_nyquist, shift_index, neg_index. replace (2 * q / 2)%Z with q by (rewrite Z.mul_comm, Z.div_mul; lia).
  destruct (Z.ltb_spec i q); destruct (Z.eqb_spec i 0); lia.
Qed.

Lemma Cmult_RtoC_conj r z : Cconj (RtoC r * z)%C = (RtoC r * Cconj z)%C.
Proof. now rewrite Cconj_mult, Cconj_RtoC. Qed.

(** The transform of a field and of its conjugate. *)
Lemma fourier_conj ng vc f c : grid_pos ng ->
  fourier ng vc (fun x => Cconj (f x)) (neg_cell ng c) = Cconj (fourier ng vc f c).
Proof.
  intros G. unfold fourier. rewrite csum_conj, map_map. apply csum_map_ext. intros x _.
  rewrite phase_neg by exact G. now rewrite !Cconj_mult, Cconj_RtoC.
Qed.
Lemma fourier_scal ng vc r f c : fourier ng vc (fun x => RtoC r * f x)%C c = (RtoC r * fourier ng vc f c)%C.
Proof. unfold fourier. rewrite <- csum_map_scal. apply csum_map_ext. intros x _. ring. Qed.
Lemma fourier_ext ng vc f g c : (forall x, f x = g x) -> fourier ng vc f c = fourier ng vc g c.
Proof. intros H. unfold fourier. apply csum_map_ext. intros x _. now rewrite H. Qed.

(** ** C55 *)

(** The transform of a real field is Hermitian. *)
Theorem fourier_hermitian :
  forall ng vc f, grid_pos ng -> (forall x, Cconj (f x) = f x) -> hermitian ng (fourier ng vc f).
Proof.
  intros ng vc f G R c _. rewrite <- fourier_conj by exact G. apply fourier_ext. intros x. symmetry. apply R.
Qed.

(** The weighted field of the particles at opposite orders. *)
Theorem ylm_field_opposite_order :
  forall P alpha l m data rand x,
  ylm_field P alpha l (- m) data rand x = (RtoC (sign m) * Cconj (ylm_field P alpha l m data rand x))%C.
Proof.
  intros. unfold ylm_field, Cminus.
  assert (A : forall ps, csum (map (fun p : (R * R * R) * R * (Z * Z * Z -> R) =>
     let '(los, w, K) := p in (reduced_ylm P l (- m) los * RtoC w * RtoC (K x))%C) ps) =
     (RtoC (sign m) * Cconj (csum (map (fun p : (R * R * R) * R * (Z * Z * Z -> R) =>
     let '(los, w, K) := p in (reduced_ylm P l m los * RtoC w * RtoC (K x))%C) ps)))%C).
  { intros ps. rewrite csum_conj, map_map, <- csum_map_scal. apply csum_map_ext. intros [[los w] K] _.
    rewrite ylm_opposite_order, !Cconj_mult, !Cconj_RtoC. ring. }
  rewrite !A, Cconj_plus. 
  replace (Cconj (- (RtoC alpha * csum (map (fun p : (R * R * R) * R * (Z * Z * Z -> R) =>
     let '(los, w, K) := p in (reduced_ylm P l m los * RtoC w * RtoC (K x))%C) rand)))%C)
   with (- (RtoC alpha * Cconj (csum (map (fun p : (R * R * R) * R * (Z * Z * Z -> R) =>
     let '(los, w, K) := p in (reduced_ylm P l m los * RtoC w * RtoC (K x))%C) rand))))%C.
  - ring.
  - rewrite <- Cmult_RtoC_conj. generalize (RtoC alpha * csum (map (fun p : (R * R * R) * R * (Z * Z * Z -> R) =>
     let '(los, w, K) := p in (reduced_ylm P l m los * RtoC w * RtoC (K x))%C) rand))%C.
    intros [a b]. unfold Cconj, Copp. cbn [fst snd]. reflexivity.
Qed.

(** The band-limited field at opposite orders, all modes of the band below the
    Nyquist frequency. *)
Theorem band_field_opposite_order :
  forall P ng dk order fk l m k_lower k_upper x,
  legendre_like P -> (Z.abs m <= l)%Z -> grid_pos ng -> eps_sph <= ax0 dk -> eps_sph <= ax1 dk ->
  hermitian ng fk ->
  (forall c, grid_cell ng c -> k_lower <= vec_mod (wavevector ng dk c) < k_upper -> interior ng c) ->
  band_field P ng dk order fk l (- m) k_lower k_upper x =
  (RtoC (sign (l + m)) * Cconj (band_field P ng dk order fk l m k_lower k_upper x))%C.
Proof.
  intros P ng dk order fk l m kl ku x HP Hm G D0 D1 HF HI. unfold band_field.
  set (modes := band_modes ng dk kl ku).
  assert (M : forall c, In c modes <-> grid_cell ng c /\ kl <= vec_mod (wavevector ng dk c) < ku).
  { intros c. unfold modes, band_modes. rewrite filter_In, In_grid_cells. unfold in_band.
    rewrite andb_true_iff, Rleb_spec, Rltb_spec. tauto. }
  rewrite Cmult_RtoC_conj, csum_conj, map_map.
  rewrite <- (csum_neg ng modes).
  - transitivity (RtoC (/ INR (length modes)) * (RtoC (sign (l + m)) * csum (map (fun c =>
      Cconj (let '(i, j, k) := c in (reduced_ylm P l m (wavevector ng dk c) * (fk c * RtoC (/ window_direct ng i j k order))
        * cis (dft_phase ng c x))%C)) modes)))%C; [|ring].
    f_equal. rewrite <- csum_map_scal. apply csum_map_ext. intros [[i j] k] Hc. apply M in Hc. destruct Hc as [Hg Hb].
    assert (HN := HI _ Hg Hb). cbn [neg_cell]. fold (neg_cell ng (i, j, k)).
    rewrite wavevector_neg by assumption.
    assert (W := window_neg ng i j k order G Hg (or_introl (proj1 HN)) (or_introl (proj1 (proj2 HN))) (or_introl (proj2 (proj2 HN)))).
    rewrite W, phase_neg by exact G. rewrite HF by exact Hg.
    rewrite ylm_opposite_order, ylm_parity; [|exact HP|exact Hm|].
    + rewrite sign_plus, RtoC_mult, !Cconj_mult, !Cconj_RtoC. ring.
    + unfold wavevector, off_axis. rewrite !grid_vector_shift.
      destruct (Z.eq_dec (shift_index (ax0 ng) i) 0) as [E0|N0];
      destruct (Z.eq_dec (shift_index (ax1 ng) j) 0) as [E1|N1].
      * left. rewrite E0, E1. lra.
      * right. rewrite E0. assert (B := eps_sph_pos).
        assert (1 <= Rabs (IZR (shift_index (ax1 ng) j))) by (rewrite <- abs_IZR; apply IZR_le; lia).
        replace (0 * ax0 dk * (0 * ax0 dk) + IZR (shift_index (ax1 ng) j) * ax1 dk * (IZR (shift_index (ax1 ng) j) * ax1 dk))
          with (Rsqr (IZR (shift_index (ax1 ng) j) * ax1 dk)) by (unfold Rsqr; ring).
        rewrite sqrt_Rsqr_abs, Rabs_mult, (Rabs_pos_eq (ax1 dk)) by lra. nra.
      * right. rewrite E1. assert (B := eps_sph_pos).
        assert (1 <= Rabs (IZR (shift_index (ax0 ng) i))) by (rewrite <- abs_IZR; apply IZR_le; lia).
        replace (IZR (shift_index (ax0 ng) i) * ax0 dk * (IZR (shift_index (ax0 ng) i) * ax0 dk) + 0 * ax1 dk * (0 * ax1 dk))
          with (Rsqr (IZR (shift_index (ax0 ng) i) * ax0 dk)) by (unfold Rsqr; ring).
        rewrite sqrt_Rsqr_abs, Rabs_mult, (Rabs_pos_eq (ax0 dk)) by lra. nra.
      * right. assert (B := eps_sph_pos).
        assert (1 <= Rabs (IZR (shift_index (ax0 ng) i))) by (rewrite <- abs_IZR; apply IZR_le; lia).
        apply Rle_trans with (Rabs (IZR (shift_index (ax0 ng) i) * ax0 dk)).
        -- rewrite Rabs_mult, (Rabs_pos_eq (ax0 dk)) by lra. nra.
        -- rewrite <- sqrt_Rsqr_abs. apply sqrt_le_1_alt. unfold Rsqr.
           assert (0 <= IZR (shift_index (ax1 ng) j) * ax1 dk * (IZR (shift_index (ax1 ng) j) * ax1 dk)) by apply Rle_0_sqr. lra.
  - unfold modes, band_modes. apply NoDup_filter, NoDup_grid_cells.
  - intros c H. now apply M.
  - intros c H. apply M in H. destruct H as [Hg Hb]. apply M. split; [now apply neg_cell_grid|].
    rewrite wavevector_neg, vec_mod_opp by auto. exact Hb.
Qed.

(** The field of the line-of-sight harmonics after compensation, on a grid with even
    sizes. *)
Theorem G_LM_opposite_order :
  forall P ng vc vol order cat L M x,
  grid_pos ng -> Z.Even (ax0 ng) -> Z.Even (ax1 ng) -> Z.Even (ax2 ng) ->
  G_LM P ng vc vol order cat L (- M) x = (RtoC (sign M) * Cconj (G_LM P ng vc vol order cat L M x))%C.
Proof.
  intros P ng vc vol order cat L M x G E0 E1 E2. unfold G_LM, inv_fourier.
  set (g := ylm_field P (cat_alpha cat) L M (cat_data cat) (cat_rand cat)).
  rewrite csum_conj, map_map, <- csum_map_scal. rewrite <- (csum_neg ng (grid_cells ng)).
  - apply csum_map_ext. intros [[i j] k] Hc. apply In_grid_cells in Hc. cbn [neg_cell]. fold (neg_cell ng (i, j, k)).
    rewrite (fourier_ext _ _ _ (fun x => RtoC (sign M) * Cconj (g x))%C) by (intros; apply ylm_field_opposite_order).
    rewrite fourier_scal, fourier_conj, phase_neg by exact G.
    rewrite window_neg; [|exact G|exact Hc|apply even_axis; [apply Hc|assumption] ..].
    rewrite !Cconj_mult, !Cconj_RtoC. ring.
  - apply NoDup_grid_cells.
  - intros c. apply In_grid_cells.
  - intros c H. apply In_grid_cells. apply In_grid_cells in H. now apply neg_cell_grid.
Qed.

Lemma dn_00_hermitian P ng vc cat : grid_pos ng -> hermitian ng (dn_00 P ng vc cat).
Proof.
  intros G. apply fourier_hermitian; [exact G|]. intros x.
  assert (H := ylm_field_opposite_order P (cat_alpha cat) 0 0 (cat_data cat) (cat_rand cat) x).
  cbn [Z.opp] in H. rewrite sign_0 in H. rewrite H at 2. ring.
Qed.

(** Bins below the Nyquist frequency. *)
Definition bin_below_nyquist (ng : triple Z) (dk : triple R) (a : R * R) : Prop :=
  forall c, grid_cell ng c -> fst a <= vec_mod (wavevector ng dk c) < snd a -> interior ng c.
Definition even_grid (ng : triple Z) : Prop :=
  grid_pos ng /\ Z.Even (ax0 ng) /\ Z.Even (ax1 ng) /\ Z.Even (ax2 ng).

(** The component of the bispectrum at mirrored orders. *)
Theorem component_mirrored :
  forall P ng dk vc vol order cat l1 l2 L a b m1 m2 M,
  legendre_like P -> even_grid ng -> eps_sph <= ax0 dk -> eps_sph <= ax1 dk ->
  bin_below_nyquist ng dk a -> bin_below_nyquist ng dk b ->
  in_range l1 l2 L (m1, m2, M) ->
  component P ng dk vc vol order cat l1 l2 L a b (- m1, - m2, - M)%Z =
  (RtoC (sign (l1 + l2 + (m1 + m2 + M))) * Cconj (component P ng dk vc vol order cat l1 l2 L a b (m1, m2, M)%Z))%C.
Proof.
  intros P ng dk vc vol order cat l1 l2 L a b m1 m2 M HP (G & E0 & E1 & E2) D0 D1 Ba Bb (R1 & R2 & R3).
  unfold component, bispec_component. rewrite csum_conj, map_map, <- csum_map_scal. apply csum_map_ext. intros x _.
  rewrite !band_field_opposite_order; try assumption; try (apply dn_00_hermitian; exact G); try lia.
  rewrite G_LM_opposite_order by assumption. rewrite !Cconj_mult.
  replace (l1 + l2 + (m1 + m2 + M))%Z with ((l1 + m1) + (l2 + m2) + M)%Z by lia.
  rewrite (sign_plus (l1 + m1 + (l2 + m2)) M), (sign_plus (l1 + m1) (l2 + m2)), !RtoC_mult. ring.
Qed.

(** C25 with the fields put in: below the Nyquist frequency the loops over spherical
    orders give the sum over all orders. *)
Theorem bispectrum_sum_complete :
  forall P ng dk vc vol order cat l1 l2 L a b, let w := wigner_3j l1 l2 L in
  legendre_like P -> even_grid ng -> eps_sph <= ax0 dk -> eps_sph <= ax1 dk ->
  bin_below_nyquist ng dk a -> bin_below_nyquist ng dk b ->
  validate_coupling w = Ok tt -> well_separated l1 l2 L w ->
  raw_survey l1 l2 L w (component P ng dk vc vol order cat l1 l2 L a b) =
  Ok (weighted_sum l1 l2 L w (component P ng dk vc vol order cat l1 l2 L a b) (all_orders l1 l2 L)).
Proof.
  intros P ng dk vc vol order cat l1 l2 L a b w HP HG D0 D1 Ba Bb V W.
  apply raw_sum_complete_wigner; [exact V|exact W|]. intros m1 m2 M R S.
  rewrite component_mirrored by assumption. f_equal. f_equal. rewrite S, Z.add_0_r.
  assert (E := validated_even l1 l2 L _ V (wigner_reversal l1 l2 L)). rewrite sign_plus in E.
  assert (Q := sign_sqr L). destruct (sign_cases L) as [F|F]; rewrite F in *; lra.
Qed.

(** ** Modes at the Nyquist frequency *)

Lemma legendre_10 mu : legendre 1 0 mu = sqrt (3 / (4 * PI)) * mu.
Proof.
  unfold legendre. destruct factZ_values as (F0 & F1 & F2 & _).
  change (arange 0 ((1 - 0) / 2 + 1)) with [0%Z]. cbn [map]. rewrite rsum_cons, rsum_nil.
  change (2 * 1 - 2 * 0)%Z with 2%Z. change (1 - 2 * 0 - 0)%Z with 1%Z. change (1 - 0 - 2 * 0)%Z with 1%Z.
  change (1 - 0)%Z with 1%Z. change (1 + 0)%Z with 1%Z. rewrite F0, F1, F2, sign_0.
  change (Z.to_nat 0) with 0%nat. change (Z.to_nat 1) with 1%nat. cbn [pow].
  replace ((2 * 1 + 1) / (4 * PI) * (1 / 1)) with (3 / (4 * PI)); [field|]. assert (P := PI_RGT_0). field. lra.
Qed.

Lemma csum_filter_if {A} (p : A -> bool) (f : A -> C) l :
  csum (map f (filter p l)) = csum (map (fun c => if p c then f c else RtoC 0) l).
Proof.
  induction l as [|a l IH]; [reflexivity|]. cbn [filter map]. rewrite csum_cons, <- IH. destruct (p a).
  - reflexivity.
  - now rewrite Cplus_0_l.
Qed.

(** On a grid of two cells per side, the mode (0, 0, 1) alone: the symmetry of the
    band-limited field fails. *)
Theorem band_field_nyquist_refuted :
  exists ng dk fk k_lower k_upper x,
  grid_pos ng /\ eps_sph <= ax0 dk /\ eps_sph <= ax1 dk /\ hermitian ng fk /\
  band_field legendre ng dk 1 fk 1 (- 0) k_lower k_upper x <>
  (RtoC (sign (1 + 0)) * Cconj (band_field legendre ng dk 1 fk 1 0 k_lower k_upper x))%C.
Proof.
  set (ng := T3 2%Z 2%Z 2%Z). set (dk := T3 1 1 1).
  set (fk := fun c : Z * Z * Z => let '(i, j, k) := c in if ((i =? 0) && (j =? 0) && (k =? 1))%Z%bool then RtoC 1 else RtoC 0).
  exists ng, dk, fk, (1 / 2), (6 / 5), (0, 0, 0)%Z.
  split; [unfold grid_pos, ng; cbn; lia|]. split; [unfold eps_sph, dk; cbn; lra|]. split; [unfold eps_sph, dk; cbn; lra|].
  split.
  { intros [[i j] k] (H0 & H1 & H2). cbn [ax0 ax1 ax2 ng] in *.
    assert (C : (i = 0 \/ i = 1)%Z) by lia. assert (C' : (j = 0 \/ j = 1)%Z) by lia. assert (C'' : (k = 0 \/ k = 1)%Z) by lia.
    destruct C as [-> | ->], C' as [-> | ->], C'' as [-> | ->]; cbn; now rewrite Cconj_RtoC. }
  change (- 0)%Z with 0%Z. rewrite Z.add_0_r, sign_1.
  assert (V : vec_mod (wavevector ng dk (0, 0, 1)%Z) = 1).
  { unfold vec_mod, wavevector, grid_vector, ng, dk. cbn [ax0 ax1 ax2]. change (0 <? 2 / 2)%Z with true.
    change (1 <? 2 / 2)%Z with false. change (1 - 2)%Z with (-1)%Z.
    cbv beta iota. replace (0 * 1 * (0 * 1) + 0 * 1 * (0 * 1) + -1 * 1 * (-1 * 1)) with 1 by ring. apply sqrt_1. }
  assert (B : in_band ng dk (1 / 2) (6 / 5) (0, 0, 1)%Z = true).
  { unfold in_band. rewrite V. apply andb_true_iff. rewrite Rleb_spec, Rltb_spec. lra. }
  assert (N : (0 < length (band_modes ng dk (1 / 2) (6 / 5)))%nat).
  { assert (I : In (0, 0, 1)%Z (band_modes ng dk (1 / 2) (6 / 5))).
    { apply filter_In. split; [|exact B]. apply In_grid_cells. unfold grid_cell, ng. cbn. lia. }
    destruct (band_modes ng dk (1 / 2) (6 / 5)); [contradiction|cbn; lia]. }
  assert (Y : reduced_ylm legendre 1 0 (wavevector ng dk (0, 0, 1)%Z) = RtoC (-1)).
  { unfold vec_mod in V. unfold reduced_ylm. destruct (wavevector ng dk (0, 0, 1)%Z) as [[x y] z] eqn:E.
    assert (Z : z = -1 /\ x = 0 /\ y = 0).
    { unfold wavevector, grid_vector, ng, dk in E. cbn [ax0 ax1 ax2] in E. change (0 <? 2 / 2)%Z with true in E.
      change (1 <? 2 / 2)%Z with false in E. change (1 - 2)%Z with (-1)%Z in E. injection E as <- <- <-. split; [|split]; ring. }
    destruct Z as (-> & -> & ->). cbn [Z.eqb andb].
    rewrite V, Rabs_R1. replace (Rltb 1 eps_sph) with false by (symmetry; apply Rltb_false; unfold eps_sph; lra).
    cbn [Z.abs]. rewrite legendre_10. change (Z.quot (0 - 0) 2) with 0%Z. rewrite powerRZ_O.
    rewrite Rmult_0_l. unfold cis. rewrite cos_0, sin_0. replace (2 * 1 + 1) with 3 by ring.
    assert (PP := PI_RGT_0).
    assert (Q : sqrt (3 / (4 * PI)) * sqrt (4 * PI / 3) = 1).
    { rewrite <- sqrt_mult_alt by (apply Rlt_le, Rdiv_lt_0_compat; lra). replace (3 / (4 * PI) * (4 * PI / 3)) with 1 by (field; lra). apply sqrt_1. }
    unfold Cmult, Cconj, RtoC. cbn [fst snd]. f_equal; [|ring].
    transitivity (- (sqrt (3 / (4 * PI)) * sqrt (4 * PI / 3))); [field|rewrite Q; ring]. }
  set (W := window_direct ng 0 0 1 1).
  assert (WP : W <> 0).
  { unfold W, window_direct, ng, shift_index. cbn [ax0 ax1 ax2]. change (0 <? 2 / 2)%Z with true.
    change (1 <? 2 / 2)%Z with false. change (1 - 2)%Z with (-1)%Z. cbn [Z.eqb]. 
    replace (PI * -1 / 2) with (- (PI / 2)) by field. rewrite sin_neg, sin_PI2. rewrite !Rmult_1_l, pow_1.
    assert (PP := PI_RGT_0). replace (- (1) / - (PI / 2)) with (2 / PI) by (field; lra).
    intros Z. assert (0 < 2 / PI) by (apply Rdiv_lt_0_compat; lra). lra. }
  assert (F : band_field legendre ng dk 1 fk 1 0 (1 / 2) (6 / 5) (0, 0, 0)%Z =
    RtoC (- (/ INR (length (band_modes ng dk (1 / 2) (6 / 5))) * / W))).
  { unfold band_field. unfold band_modes at 2. rewrite csum_filter_if.
    change (grid_cells ng) with [(0,0,0);(0,0,1);(0,1,0);(0,1,1);(1,0,0);(1,0,1);(1,1,0);(1,1,1)]%Z.
    cbn [map]. rewrite B, Y. cbn [fk Z.eqb Pos.eqb andb]. fold W.
    assert (Z0 : forall (b : bool) (a q d : C), (if b then a * (RtoC 0 * q) * d else RtoC 0)%C = RtoC 0).
    { intros [] a q d; [ring|reflexivity]. }
    rewrite !Z0. rewrite !csum_cons. change (csum []) with (RtoC 0).
    assert (P0 : cis (dft_phase ng (0, 0, 1)%Z (0, 0, 0)%Z) = RtoC 1).
    { unfold dft_phase, ng. cbn [ax0 ax1 ax2 Z.mul]. unfold cis, RtoC.
      replace (2 * PI * (0 / 2 + 0 / 2 + 0 / 2)) with 0 by field. now rewrite cos_0, sin_0. }
    rewrite P0, RtoC_opp, RtoC_mult. unfold Cmult, Cplus, Copp, RtoC. cbn [fst snd]. f_equal; ring. }
  rewrite F, Cconj_RtoC, <- RtoC_mult. intros E. apply RtoC_inj in E.
  assert (0 < INR (length (band_modes ng dk (1 / 2) (6 / 5)))) by (apply lt_0_INR; exact N).
  assert (Q : / INR (length (band_modes ng dk (1 / 2) (6 / 5))) * / W = 0) by lra.
  apply Rmult_integral in Q. destruct Q as [Q|Q]; revert Q; apply Rinv_neq_0_compat; [lra|exact WP].
Qed.

(** Concrete case: harmonic of degree one along the y axis and of the reversed vector. *)
Example ylm_case :
  reduced_ylm legendre 1 0 (0, 0, 5) = RtoC 1 /\ reduced_ylm legendre 1 0 (0, 0, -5) = RtoC (-1).
Proof.
  assert (A : forall z, (z = 5 \/ z = -5) -> reduced_ylm legendre 1 0 (0, 0, z) = RtoC (z / 5)).
  { intros z Hz. unfold reduced_ylm. cbn [Z.eqb andb Z.abs].
    assert (S : sqrt (0 * 0 + 0 * 0 + z * z) = 5).
    { replace (0 * 0 + 0 * 0 + z * z) with (5 * 5) by (destruct Hz as [-> | ->]; ring). apply sqrt_square. lra. }
    rewrite S, (Rabs_pos_eq 5) by lra. replace (Rltb 5 eps_sph) with false by (symmetry; apply Rltb_false; unfold eps_sph; lra).
    rewrite legendre_10. change (Z.quot (0 - 0) 2) with 0%Z. rewrite powerRZ_O, Rmult_0_l. unfold cis. rewrite cos_0, sin_0.
    replace (2 * 1 + 1) with 3 by ring. assert (PP := PI_RGT_0).
    assert (Q : sqrt (3 / (4 * PI)) * sqrt (4 * PI / 3) = 1).
    { rewrite <- sqrt_mult_alt by (apply Rlt_le, Rdiv_lt_0_compat; lra). replace (3 / (4 * PI) * (4 * PI / 3)) with 1 by (field; lra). apply sqrt_1. }
    unfold Cmult, Cconj, RtoC. cbn [fst snd]. f_equal; [|ring].
    transitivity (z / 5 * (sqrt (3 / (4 * PI)) * sqrt (4 * PI / 3))); [field|rewrite Q; ring]. }
  rewrite !A by (auto; right; reflexivity). split; f_equal; field.
Qed.

Print Assumptions azimuth_correct.
Print Assumptions ylm_parity.
Print Assumptions ylm_direction.
Print Assumptions legendre_is_like.
Print Assumptions component_mirrored.
Print Assumptions bispectrum_sum_complete.
Print Assumptions band_field_nyquist_refuted.
