(* The discrete Fourier transform of finite complex vectors: orthogonality of
   the exponentials, the transform applied twice, and Parseval's identity.
   FFTW's forward transform is defined by the sum written in [dft]. *)
From Coq Require Import Reals ZArith List Lia Lra Bool Permutation.
From Coquelicot Require Import Complex.
From Verif Require Import Base CSum.
Import ListNotations.
Local Open Scope R_scope.

(** e^{i x}. *)
Definition cis (x : R) : C := (cos x, sin x).

Lemma cis_0 : cis 0 = RtoC 1.
Proof. unfold cis. now rewrite cos_0, sin_0. Qed.

Lemma cis_plus x y : cis (x + y) = (cis x * cis y)%C.
Proof. unfold cis, Cmult. cbn [fst snd]. rewrite cos_plus, sin_plus. f_equal. lra. Qed.

Lemma cis_conj x : Cconj (cis x) = cis (- x).
Proof. unfold cis, Cconj. cbn [fst snd]. now rewrite cos_neg, sin_neg. Qed.

Lemma cis_turns (k : Z) : cis (2 * PI * IZR k) = RtoC 1.
Proof.
  assert (H : forall n : nat, cis (2 * PI * INR n) = RtoC 1).
  { induction n as [|n IH]; [replace (2 * PI * INR 0) with 0 by (cbn; lra); apply cis_0|].
    replace (2 * PI * INR (S n)) with (2 * PI * INR n + 2 * PI) by (rewrite S_INR; lra).
    rewrite cis_plus, IH. unfold cis. rewrite cos_2PI, sin_2PI. unfold RtoC, Cmult. cbn. f_equal; lra. }
  destruct k as [|p|p].
  - apply (H 0%nat).
  - replace (IZR (Z.pos p)) with (INR (Pos.to_nat p)) by (rewrite INR_IZR_INZ; f_equal; lia). apply H.
  - replace (2 * PI * IZR (Z.neg p)) with (- (2 * PI * INR (Pos.to_nat p)))
      by (rewrite INR_IZR_INZ, positive_nat_Z; change (Z.neg p) with (- Z.pos p)%Z; rewrite opp_IZR; lra).
    rewrite <- cis_conj, H. apply Cconj_RtoC.
Qed.

Lemma cis_norm x : (cis x * Cconj (cis x))%C = RtoC 1.
Proof.
  rewrite cis_conj, <- cis_plus. replace (x + - x) with 0 by lra. apply cis_0.
Qed.

(** The exponentials of a transform of size n. *)
Definition ex (n : nat) (k : Z) : C := cis (- (2 * PI * IZR k / INR n)).

Lemma ex_plus n k l : ex n (k + l) = (ex n k * ex n l)%C.
Proof. unfold ex. rewrite <- cis_plus. f_equal. rewrite plus_IZR. unfold Rdiv. lra. Qed.

Lemma ex_0 n : ex n 0 = RtoC 1.
Proof. unfold ex. replace (- (2 * PI * 0 / INR n)) with 0 by (unfold Rdiv; lra). apply cis_0. Qed.

Lemma ex_conj n k : Cconj (ex n k) = ex n (- k).
Proof. unfold ex. rewrite cis_conj. f_equal. rewrite opp_IZR. unfold Rdiv. lra. Qed.

Lemma ex_period n k : (0 < n)%nat -> ex n (k * Z.of_nat n) = RtoC 1.
Proof.
  intros H. unfold ex. rewrite mult_IZR, <- INR_IZR_INZ.
  assert (INR n <> 0) by (apply not_0_INR; lia).
  replace (- (2 * PI * (IZR k * INR n) / INR n)) with (2 * PI * IZR (- k)) by (rewrite opp_IZR; field; assumption).
  apply cis_turns.
Qed.

Lemma ex_shift n k l : (0 < n)%nat -> ex n (k + l * Z.of_nat n) = ex n k.
Proof. intros H. rewrite ex_plus, ex_period by exact H. apply Cmult_1_r. Qed.

Lemma ex_one n d : (0 < n)%nat -> (0 < d < Z.of_nat n)%Z -> ex n d <> RtoC 1.
Proof.
  intros Hn Hd E. unfold ex, cis in E. injection E as E _.
  rewrite cos_neg in E. set (x := 2 * PI * IZR d / INR n) in E.
  assert (P : 0 < INR n) by (apply lt_0_INR; lia).
  assert (D : 0 < IZR d < INR n).
  { rewrite INR_IZR_INZ. split; apply IZR_lt; lia. }
  pose proof PI_RGT_0.
  assert (X : 0 < x / 2 < PI).
  { unfold x. replace (2 * PI * IZR d / INR n / 2) with (PI * (IZR d / INR n)) by (field; lra).
    assert (0 < IZR d / INR n < 1).
    { split; [apply Rdiv_lt_0_compat; lra|]. apply (Rmult_lt_reg_r (INR n)); [lra|].
      unfold Rdiv. rewrite Rmult_assoc, Rinv_l by lra. lra. }
    split; [apply Rmult_lt_0_compat; lra|]. rewrite <- (Rmult_1_r PI) at 2.
    apply Rmult_lt_compat_l; lra. }
  pose proof (sin_gt_0 (x / 2) (proj1 X) (proj2 X)) as S.
  replace x with (2 * (x / 2)) in E by lra. rewrite cos_2a_sin in E. nra.
Qed.

(** Sums over 0 .. n-1. *)
Definition total (n : nat) (f : nat -> C) : C := csum (map f (seq 0 n)).

Lemma total_ext n f g : (forall i, (i < n)%nat -> f i = g i) -> total n f = total n g.
Proof. intros H. apply csum_map_ext. intros i Hi. apply H. apply in_seq in Hi. lia. Qed.

Lemma total_S n f : total (S n) f = (total n f + f n)%C.
Proof.
  unfold total. rewrite seq_S, map_app, csum_app. cbn [map Nat.add csum fold_right].
  f_equal. apply Cplus_0_r.
Qed.

Lemma total_first n f : total (S n) f = (f 0%nat + total n (fun i => f (S i)))%C.
Proof.
  unfold total. cbn [seq map]. rewrite csum_cons. f_equal. now rewrite <- seq_shift, map_map.
Qed.

Lemma total_plus n f g : total n (fun i => f i + g i)%C = (total n f + total n g)%C.
Proof. apply csum_map_plus. Qed.

Lemma total_scal n c f : total n (fun i => c * f i)%C = (c * total n f)%C.
Proof. apply csum_map_scal. Qed.

Lemma total_scal_r n c f : total n (fun i => f i * c)%C = (total n f * c)%C.
Proof.
  rewrite Cmult_comm, <- total_scal. apply total_ext. intros. apply Cmult_comm.
Qed.

Lemma total_zero n f : (forall i, (i < n)%nat -> f i = RtoC 0) -> total n f = RtoC 0.
Proof. intros H. apply csum_map_zero. intros i Hi. apply H. apply in_seq in Hi. lia. Qed.

Lemma total_conj n f : Cconj (total n f) = total n (fun i => Cconj (f i)).
Proof. unfold total. now rewrite csum_conj, map_map. Qed.

Lemma total_swap n m f :
  total n (fun i => total m (fun j => f i j)) = total m (fun j => total n (fun i => f i j)).
Proof.
  induction n as [|n IH].
  - symmetry. apply total_zero. reflexivity.
  - rewrite total_S, IH, <- total_plus. apply total_ext. intros j _. now rewrite total_S.
Qed.

Lemma total_const n c : total n (fun _ => c) = (RtoC (INR n) * c)%C.
Proof.
  induction n as [|n IH]; [cbn; now rewrite Cmult_0_l|].
  rewrite total_S, IH, S_INR, RtoC_plus. ring.
Qed.

Lemma total_pick n k f : (k < n)%nat -> (forall i, (i < n)%nat -> i <> k -> f i = RtoC 0) ->
  total n f = f k.
Proof.
  revert f; induction n as [|n IH]; intros f Hk H; [lia|]. rewrite total_S.
  destruct (Nat.eq_dec k n) as [->|N].
  - rewrite total_zero; [apply Cplus_0_l|]. intros i Hi. apply H; lia.
  - rewrite IH; [|lia|intros; apply H; lia]. rewrite (H n) by lia. apply Cplus_0_r.
Qed.

(** The index of minus m, modulo n. *)
Definition neg (n m : nat) : nat := if (m =? 0)%nat then 0%nat else (n - m)%nat.

Lemma neg_lt n m : (m < n)%nat -> (neg n m < n)%nat.
Proof. unfold neg. destruct (Nat.eqb_spec m 0); lia. Qed.

Lemma neg_neg n m : (m < n)%nat -> neg n (neg n m) = m.
Proof.
  unfold neg. destruct (Nat.eqb_spec m 0); [now subst|]. intros H.
  destruct (Nat.eqb_spec (n - m) 0); lia.
Qed.

Lemma total_rev n f : total n f = total n (fun i => f (n - 1 - i)%nat).
Proof.
  induction n as [|n IH]; [reflexivity|].
  rewrite total_S, (total_first n (fun i => f (S n - 1 - i)%nat)), IH.
  rewrite Cplus_comm. replace (S n - 1 - 0)%nat with n by lia. f_equal.
  apply total_ext. intros i Hi. f_equal. lia.
Qed.

Lemma total_neg n f : total n f = total n (fun i => f (neg n i)).
Proof.
  destruct n as [|n]; [reflexivity|]. rewrite !total_first. f_equal.
  rewrite total_rev. apply total_ext. intros i Hi. f_equal. unfold neg. cbn [Nat.eqb]. lia.
Qed.

Lemma ex_neg n m j : (0 < n)%nat -> (m < n)%nat ->
  ex n (Z.of_nat (neg n m) * j) = ex n (- (Z.of_nat m * j)).
Proof.
  intros Hn Hm. unfold neg. destruct (Nat.eqb_spec m 0) as [->|N].
  - f_equal.
  - replace (Z.of_nat (n - m) * j)%Z with (- (Z.of_nat m * j) + j * Z.of_nat n)%Z by lia.
    now apply ex_shift.
Qed.

(** Powers of an exponential sum to nothing over a full period. *)
Lemma geometric n w f : (forall i, (i <= n)%nat -> f (S i) = w * f i)%C ->
  ((w - RtoC 1) * total n f = f n - f 0%nat)%C.
Proof.
  intros H. induction n as [|n IH].
  - cbn. unfold Cminus. rewrite Cmult_0_r. symmetry. apply Cplus_opp_r.
  - rewrite total_S. rewrite Cmult_plus_distr_l, IH by (intros; apply H; lia).
    rewrite (H n) by lia. ring.
Qed.

Lemma ex_sum n d : (0 < n)%nat -> (- Z.of_nat n < d < Z.of_nat n)%Z ->
  total n (fun i => ex n (Z.of_nat i * d)) = if (d =? 0)%Z then RtoC (INR n) else RtoC 0.
Proof.
  intros Hn Hd. destruct (Z.eqb_spec d 0) as [->|Nd].
  - rewrite (total_ext _ _ (fun _ => RtoC 1)); [rewrite total_const; apply Cmult_1_r|].
    intros i _. rewrite Z.mul_0_r. apply ex_0.
  - assert (W : ex n d <> RtoC 1).
    { destruct (Z_lt_le_dec 0 d) as [P|P]; [apply ex_one; lia|].
      replace d with (d + Z.of_nat n + (-1) * Z.of_nat n)%Z by lia. rewrite ex_shift by exact Hn.
      apply ex_one; lia. }
    pose proof (geometric n (ex n d) (fun i => ex n (Z.of_nat i * d))) as G.
    cbv beta in G.
    assert (E : ((ex n d - RtoC 1) * total n (fun i => ex n (Z.of_nat i * d)) = RtoC 0)%C).
    { rewrite G.
      - replace (Z.of_nat n * d)%Z with (d * Z.of_nat n)%Z by lia. rewrite ex_period by exact Hn.
        cbn [Z.of_nat Z.mul]. rewrite ex_0. unfold Cminus. apply Cplus_opp_r.
      - intros i _. rewrite <- ex_plus. f_equal. lia. }
    destruct (Ceq_dec (total n (fun i => ex n (Z.of_nat i * d))) (RtoC 0)) as [Z0|Z0]; [exact Z0|].
    exfalso. apply Z0. clear Z0.
    assert (D : (ex n d - RtoC 1)%C <> RtoC 0).
    { intros X. apply W. replace (ex n d) with (ex n d - RtoC 1 + RtoC 1)%C by ring. rewrite X. apply Cplus_0_l. }
    replace (total n _) with (/ (ex n d - RtoC 1) * ((ex n d - RtoC 1) * total n (fun i => ex n (Z.of_nat i * d))))%C.
    + rewrite E. apply Cmult_0_r.
    + rewrite Cmult_assoc, Cinv_l by exact D. apply Cmult_1_l.
Qed.

(** The forward transform, unnormalised. *)
Definition dftf (n : nat) (f : nat -> C) (m : nat) : C :=
  total n (fun j => f j * ex n (Z.of_nat m * Z.of_nat j))%C.

Lemma dftf_ext n f g m : (forall i, (i < n)%nat -> f i = g i) -> dftf n f m = dftf n g m.
Proof. intros H. apply total_ext. intros i Hi. now rewrite H. Qed.

(** Applied twice: n times the mirrored vector. *)
Lemma dft_twice n f j : (0 < n)%nat -> (j < n)%nat ->
  dftf n (dftf n f) j = (RtoC (INR n) * f (neg n j))%C.
Proof.
  intros Hn Hj. unfold dftf.
  rewrite (total_ext _ _ (fun m => total n (fun k => f k * ex n (Z.of_nat m * (Z.of_nat j + Z.of_nat k))))%C).
  2:{ intros m _. rewrite <- total_scal_r. apply total_ext. intros k _.
      rewrite <- Cmult_assoc, <- ex_plus. do 2 f_equal. lia. }
  rewrite total_swap.
  rewrite (total_ext _ _ (fun k => f k * (if (k =? neg n j)%nat then RtoC (INR n) else RtoC 0))%C).
  2:{ intros k Hk. rewrite total_scal. f_equal.
      unfold neg. destruct (Nat.eqb_spec j 0) as [->|Nj].
      - rewrite (total_ext _ _ (fun i => ex n (Z.of_nat i * Z.of_nat k)))
          by (intros; f_equal; lia).
        rewrite ex_sum by lia. destruct (Z.eqb_spec (Z.of_nat k) 0), (Nat.eqb_spec k 0); try lia; reflexivity.
      - rewrite (total_ext _ _ (fun i => ex n (Z.of_nat i * (Z.of_nat j + Z.of_nat k - Z.of_nat n)))).
        + rewrite ex_sum by lia.
          destruct (Z.eqb_spec (Z.of_nat j + Z.of_nat k - Z.of_nat n) 0), (Nat.eqb_spec k (n - j)); try lia; reflexivity.
        + intros i _. replace (Z.of_nat i * (Z.of_nat j + Z.of_nat k))%Z
            with (Z.of_nat i * (Z.of_nat j + Z.of_nat k - Z.of_nat n) + Z.of_nat i * Z.of_nat n)%Z by lia.
          now apply ex_shift. }
  rewrite (total_pick _ (neg n j)); [rewrite Nat.eqb_refl; apply Cmult_comm|now apply neg_lt|].
  intros i _ Hi. apply Nat.eqb_neq in Hi. rewrite Hi. apply Cmult_0_r.
Qed.

(** The inverse. *)
Lemma dft_inverse n f j : (0 < n)%nat -> (j < n)%nat ->
  total n (fun m => dftf n f m * ex n (- (Z.of_nat m * Z.of_nat j)))%C = (RtoC (INR n) * f j)%C.
Proof.
  intros Hn Hj. transitivity (dftf n (dftf n f) (neg n j)).
  - unfold dftf at 2. apply total_ext. intros m Hm. f_equal.
    rewrite ex_neg by assumption. f_equal. lia.
  - rewrite dft_twice by (try apply neg_lt; assumption). now rewrite neg_neg.
Qed.

(** Parseval. *)
Lemma dft_parseval n f : (0 < n)%nat ->
  total n (fun m => dftf n f m * Cconj (dftf n f m))%C
  = (RtoC (INR n) * total n (fun j => f j * Cconj (f j)))%C.
Proof.
  intros Hn.
  rewrite (total_ext _ _ (fun m => total n (fun k => Cconj (f k) *
     (dftf n f m * ex n (- (Z.of_nat m * Z.of_nat k)))))%C).
  2:{ intros m _. unfold dftf at 2. rewrite total_conj, <- total_scal. apply total_ext. intros k _.
      rewrite Cconj_mult, ex_conj. ring. }
  rewrite total_swap, <- total_scal. apply total_ext. intros k Hk.
  rewrite total_scal, dft_inverse by assumption. ring.
Qed.

(** The transform of a real vector has mirror symmetry. *)
Lemma dft_real n f m : (0 < n)%nat -> (m < n)%nat -> (forall j, (j < n)%nat -> Cconj (f j) = f j) ->
  Cconj (dftf n f m) = dftf n f (neg n m).
Proof.
  intros Hn Hm H. unfold dftf. rewrite total_conj. apply total_ext. intros j Hj.
  rewrite Cconj_mult, H, ex_conj, ex_neg by assumption. f_equal.
Qed.
