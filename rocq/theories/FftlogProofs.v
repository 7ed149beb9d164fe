(* Facts about the FFTLog model: the kernel, the convolution carried out by two
   forward transforms, and what a constructed transform holds. *)
From Coq Require Import Reals ZArith List Lia Lra Bool.
From Flocq Require Import Core.Raux.
From Coquelicot Require Import Complex.
From Verif Require Import Base ArrayModel ArrayProofs RSum CSum Dft FftlogModel.
Import ListNotations.
Local Open Scope R_scope.

(* ------------------------------------------------------------------ *)
(* Convolution by two forward transforms                               *)

Section Conv.
Variable n : nat.
Hypothesis Hn : (0 < n)%nat.

Definition tr (u f : nat -> C) (j : nat) : C :=
  dftf n (fun m => dftf n f m * u m / RtoC (INR n))%C j.

Lemma INR_n : INR n <> 0.
Proof. apply not_0_INR. lia. Qed.

Lemma Cn_n0 : RtoC (INR n) <> RtoC 0.
Proof. intros E. apply RtoC_inj in E. now apply INR_n. Qed.

Lemma tr_ext u u' f f' j : (forall m, (m < n)%nat -> u m = u' m) ->
  (forall m, (m < n)%nat -> f m = f' m) -> tr u f j = tr u' f' j.
Proof.
  intros Hu Hf. apply dftf_ext. intros m Hm. rewrite (Hu m Hm). do 2 f_equal. now apply dftf_ext.
Qed.

(** Real in, real out, for a kernel with mirror symmetry. *)
Lemma tr_real u f j : (j < n)%nat ->
  (forall m, (m < n)%nat -> Cconj (u m) = u (neg n m)) ->
  (forall m, (m < n)%nat -> Cconj (f m) = f m) ->
  Cconj (tr u f j) = tr u f j.
Proof.
  intros Hj Hu Hf. unfold tr. set (V := fun m => (dftf n f m * u m / RtoC (INR n))%C).
  transitivity (total n (fun m => Cconj (V m * ex n (Z.of_nat j * Z.of_nat m)))%C);
    [unfold dftf; apply total_conj|].
  transitivity (total n (fun m => V (neg n m) * ex n (Z.of_nat j * Z.of_nat (neg n m)))%C);
    [|symmetry; exact (total_neg n (fun m => V m * ex n (Z.of_nat j * Z.of_nat m))%C)].
  unfold V. apply total_ext. intros m Hm. unfold Cdiv. rewrite !Cconj_mult, ex_conj, Hu by exact Hm.
  rewrite dft_real by assumption.
  replace (Cconj (/ RtoC (INR n))%C) with (/ RtoC (INR n))%C.
  2:{ rewrite <- RtoC_inv by apply INR_n. now rewrite Cconj_RtoC. }
  f_equal. replace (Z.of_nat j * Z.of_nat (neg n m))%Z with (Z.of_nat (neg n m) * Z.of_nat j)%Z by lia.
  rewrite ex_neg by assumption. f_equal. lia.
Qed.

(** The sum of squares. *)
Lemma tr_energy u f :
  total n (fun j => tr u f j * Cconj (tr u f j))%C
  = (total n (fun m => dftf n f m * Cconj (dftf n f m) * (u m * Cconj (u m))) / RtoC (INR n))%C.
Proof.
  unfold tr. rewrite dft_parseval by exact Hn. unfold Cdiv. rewrite <- total_scal, <- total_scal_r.
  apply total_ext. intros m _. rewrite !Cconj_mult.
  replace (Cconj (/ RtoC (INR n))%C) with (/ RtoC (INR n))%C.
  2:{ rewrite <- RtoC_inv by apply INR_n. now rewrite Cconj_RtoC. }
  pose proof Cn_n0 as N. field. exact N.
Qed.

Lemma neg_mul m j : (m < n)%nat ->
  ex n (Z.of_nat j * Z.of_nat (neg n m)) = ex n (- (Z.of_nat m * Z.of_nat j)).
Proof.
  intros Hm. replace (Z.of_nat j * Z.of_nat (neg n m))%Z with (Z.of_nat (neg n m) * Z.of_nat j)%Z by lia.
  now rewrite ex_neg.
Qed.

(** Two such convolutions in a row whose kernels multiply to one, except
    perhaps at one index that is its own mirror image. *)
Lemma tr_tr u u' f k j : (k < n)%nat -> (j < n)%nat -> neg n k = k ->
  (forall m, (m < n)%nat -> m <> k -> u (neg n m) * u' m = RtoC 1)%C ->
  tr u' (tr u f) j
  = (f j + (u k * u' k - RtoC 1) / RtoC (INR n) * dftf n f k * ex n (Z.of_nat j * Z.of_nat k))%C.
Proof.
  intros Hk Hj Nk Hw. pose proof Cn_n0 as N. unfold tr at 1.
  rewrite (dftf_ext n _ (fun m => dftf n f (neg n m) / RtoC (INR n)
     + (if (m =? k)%nat then dftf n f k * (u k * u' k - RtoC 1) / RtoC (INR n) else RtoC 0))%C).
  2:{ intros m Hm. unfold tr. rewrite dft_twice by assumption.
      destruct (Nat.eqb_spec m k) as [->|D].
      - rewrite Nk. field. exact N.
      - rewrite Cplus_0_r. transitivity (dftf n f (neg n m) * (u (neg n m) * u' m) / RtoC (INR n))%C.
        + field. exact N.
        + rewrite Hw by assumption. now rewrite Cmult_1_r. }
  unfold dftf at 1.
  rewrite (total_ext _ _ (fun m => dftf n f (neg n m) / RtoC (INR n) * ex n (Z.of_nat j * Z.of_nat m)
     + (if (m =? k)%nat then dftf n f k * (u k * u' k - RtoC 1) / RtoC (INR n) else RtoC 0)
        * ex n (Z.of_nat j * Z.of_nat m))%C) by (intros; ring).
  rewrite total_plus. f_equal.
  - rewrite total_neg.
    rewrite (total_ext _ _ (fun m => / RtoC (INR n) * (dftf n f m * ex n (- (Z.of_nat m * Z.of_nat j))))%C).
    + rewrite total_scal, dft_inverse by assumption. field. exact N.
    + intros m Hm. rewrite neg_neg, neg_mul by exact Hm. field. exact N.
  - rewrite (total_pick _ k); [|exact Hk|].
    + rewrite Nat.eqb_refl. field. exact N.
    + intros i _ Hi. apply Nat.eqb_neq in Hi. rewrite Hi. apply Cmult_0_l.
Qed.

Lemma tr_scal u c f j : tr u (fun i => c * f i)%C j = (c * tr u f j)%C.
Proof.
  unfold tr, dftf. rewrite <- total_scal. apply total_ext. intros m _.
  rewrite (total_ext _ (fun j0 => c * f j0 * _)%C (fun j0 => c * (f j0 * ex n (Z.of_nat m * Z.of_nat j0)))%C)
    by (intros; ring).
  rewrite total_scal. unfold Cdiv. ring.
Qed.
End Conv.

(* ------------------------------------------------------------------ *)
(* The kernel                                                          *)

Lemma polar_cis r t : polar r t = (RtoC r * cis t)%C.
Proof. unfold polar, cis, RtoC, Cmult. cbn [fst snd]. f_equal; ring. Qed.

Definition amp (g : gsl) (mu q : R) (N : nat) (dL : R) (m : nat) : R :=
  exp (q * ln 2 + lnr g ((mu + 1 + q) / 2) (INR m * (PI / (INR N * dL)))
       - lnr g ((mu + 1 - q) / 2) (INR m * (PI / (INR N * dL)))).

Definition phase (g : gsl) (mu q : R) (N : nat) (dL kr : R) (m : nat) : R :=
  INR m * (-2 * (PI / (INR N * dL)) * ln (kr / 2))
  + theta g ((mu + 1 + q) / 2) (INR m * (PI / (INR N * dL)))
  + theta g ((mu + 1 - q) / 2) (INR m * (PI / (INR N * dL))).

Lemma coeff_polar g mu q N dL kr m :
  coeff g mu q N dL kr m = polar (amp g mu q N dL m) (phase g mu q N dL kr m).
Proof.
  unfold coeff, amp, phase. destruct (Reqb q 0) eqn:E; [|reflexivity].
  apply Reqb_spec in E. subst q.
  replace ((mu + 1 + 0) / 2) with ((mu + 1) / 2) by lra.
  replace ((mu + 1 - 0) / 2) with ((mu + 1) / 2) by lra. f_equal; [|lra].
  replace (0 * ln 2 + _ - _) with 0 by ring. now rewrite exp_0.
Qed.

Lemma amp_pos g mu q N dL m : 0 < amp g mu q N dL m.
Proof. apply exp_pos. Qed.

Lemma amp_0 g mu N dL m : amp g mu 0 N dL m = 1.
Proof.
  unfold amp. replace ((mu + 1 + 0) / 2) with ((mu + 1 - 0) / 2) by lra.
  replace (0 * ln 2 + _ - _) with 0 by ring. apply exp_0.
Qed.

Lemma amp_opp g mu q N dL m : amp g mu q N dL m * amp g mu (- q) N dL m = 1.
Proof.
  unfold amp. rewrite <- exp_plus.
  replace (mu + 1 + - q) with (mu + 1 - q) by lra. replace (mu + 1 - - q) with (mu + 1 + q) by lra.
  rewrite <- exp_0. f_equal. ring.
Qed.

Lemma phase_opp g mu q N dL kr m : phase g mu (- q) N dL kr m = phase g mu q N dL kr m.
Proof.
  unfold phase. replace (mu + 1 + - q) with (mu + 1 - q) by lra. replace (mu + 1 - - q) with (mu + 1 + q) by lra. lra.
Qed.

(** The phase of the gamma function of a real argument. *)
Definition real_gamma (g : gsl) : Prop := forall x, sin (theta g x 0) = 0.

Lemma phase_0 g mu q N dL kr : real_gamma g -> sin (phase g mu q N dL kr 0) = 0.
Proof.
  intros H. unfold phase. cbn [INR]. rewrite !Rmult_0_l, Rplus_0_l, sin_plus, !H. ring.
Qed.

Lemma mid_arg N dL : (0 < N)%nat -> Nat.even N = true -> dL <> 0 ->
  INR (N / 2) * (PI / (INR N * dL)) = PI / (2 * dL).
Proof.
  intros HN HE HD. apply Nat.even_spec in HE as [k ->].
  replace (2 * k / 2)%nat with k by (rewrite Nat.mul_comm, Nat.div_mul; lia).
  rewrite mult_INR. cbn [INR]. field. split; [exact HD|]. apply not_0_INR. lia.
Qed.

Lemma phase_mid g mu q N dL kr : (0 < N)%nat -> Nat.even N = true -> dL <> 0 ->
  phase g mu q N dL kr (N / 2) = - (PI / dL) * ln (kr / 2)
    + theta g ((mu + 1 + q) / 2) (PI / (2 * dL)) + theta g ((mu + 1 - q) / 2) (PI / (2 * dL)).
Proof.
  intros HN HE HD. unfold phase. rewrite mid_arg by assumption. do 2 f_equal.
  replace (INR (N / 2) * (-2 * (PI / (INR N * dL)) * ln (kr / 2)))
    with (-2 * (INR (N / 2) * (PI / (INR N * dL))) * ln (kr / 2)) by ring.
  rewrite mid_arg by assumption. field. exact HD.
Qed.

Lemma sin_PI_Z z : sin (PI * IZR z) = 0.
Proof. apply sin_eq_0_1. exists z. ring. Qed.

(** Rounding moves by at most one half. *)
Lemma cround_near x : Rabs (x - IZR (cround x)) <= / 2.
Proof.
  unfold cround. destruct (Rleb 0 x).
  - pose proof (Zfloor_lb (x + / 2)). pose proof (Zfloor_ub (x + / 2)). apply Rabs_le. lra.
  - rewrite opp_IZR. pose proof (Zfloor_lb (- x + / 2)). pose proof (Zfloor_ub (- x + / 2)).
    apply Rabs_le. lra.
Qed.

(** The mid-point phase at the adjusted pivot is a whole number of half turns. *)
Lemma lowring_phase g mu q N dL kr : (0 < N)%nat -> Nat.even N = true -> 0 < dL -> 0 < kr ->
  exists z, phase g mu q N dL (lowring_pivot g mu q dL kr) (N / 2) = PI * IZR z.
Proof.
  intros HN HE HD HK. pose proof PI_RGT_0 as HP. rewrite phase_mid by (try assumption; lra).
  unfold lowring_pivot. destruct (Rltb 0 kr) eqn:E; [clear E|apply Rltb_false in E; lra].
  set (tp := theta g _ _). set (tm := theta g _ _).
  set (a := ln (2 / kr) / dL + (tp + tm) / PI).
  exists (cround a).
  replace (kr * exp (dL * (a - IZR (cround a))) / 2) with (kr / 2 * exp (dL * (a - IZR (cround a)))) by field.
  rewrite ln_mult, ln_exp by (try apply exp_pos; lra).
  assert (L : ln (2 / kr) = - ln (kr / 2)).
  { rewrite <- ln_Rinv by lra. f_equal. field. lra. }
  assert (A : a = - ln (kr / 2) / dL + (tp + tm) / PI) by (unfold a; rewrite L; reflexivity).
  rewrite A at 1. field. split; lra.
Qed.

Lemma lowring_pos g mu q dL kr : 0 < lowring_pivot g mu q dL kr.
Proof.
  unfold lowring_pivot. destruct (Rltb 0 kr) eqn:E; [|apply exp_pos].
  apply Rltb_spec in E. apply Rmult_lt_0_compat; [exact E|apply exp_pos].
Qed.

Lemma lowring_opp_pos g mu q dL kr : 0 < kr -> lowring_pivot g mu (- q) dL kr = lowring_pivot g mu q dL kr.
Proof.
  intros H. unfold lowring_pivot. destruct (Rltb 0 kr) eqn:E; [|apply Rltb_false in E; lra].
  replace (mu + 1 + - q) with (mu + 1 - q) by lra. replace (mu + 1 - - q) with (mu + 1 + q) by lra.
  now rewrite (Rplus_comm (theta g ((mu + 1 - q) / 2) _)).
Qed.

Lemma neg_mid N : (0 < N)%nat -> Nat.even N = true -> neg N (N / 2) = (N / 2)%nat.
Proof.
  intros HN HE. apply Nat.even_spec in HE as [k ->].
  replace (2 * k / 2)%nat with k by (rewrite Nat.mul_comm, Nat.div_mul; lia).
  unfold neg. destruct (Nat.eqb_spec k 0); lia.
Qed.

Lemma even_half N : Nat.even N = true -> exists k, N = (2 * k)%nat /\ (N / 2)%nat = k.
Proof.
  intros HE. apply Nat.even_spec in HE as [k ->]. exists k. split; [reflexivity|].
  rewrite Nat.mul_comm, Nat.div_mul; lia.
Qed.

Lemma odd_half N : Nat.even N = false -> exists k, N = (2 * k + 1)%nat /\ (N / 2)%nat = k.
Proof.
  intros HE. rewrite <- Nat.negb_odd in HE. apply negb_false_iff, Nat.odd_spec in HE as [k ->].
  exists k. split; [reflexivity|]. symmetry. apply (Nat.div_unique _ _ _ 1); lia.
Qed.

(** Away from zero and the mid-point an index and its mirror image lie on
    opposite halves. *)
Lemma kernel_low g mu q N dL kr m : (m < N)%nat -> (m <= N / 2)%nat ->
  (Nat.even N = true -> m <> N / 2)%nat ->
  kernel_at g mu q N dL kr m = coeff g mu q N dL kr m.
Proof.
  intros H1 H2 H3. unfold kernel_at.
  destruct (Nat.even N && (m =? N / 2)%nat) eqn:E.
  - apply andb_true_iff in E as [E1 E2]. apply Nat.eqb_eq in E2. now destruct (H3 E1).
  - now rewrite (proj2 (Nat.leb_le _ _) H2).
Qed.

Lemma kernel_high g mu q N dL kr m : (m < N)%nat -> (N / 2 < m)%nat ->
  kernel_at g mu q N dL kr m = Cconj (coeff g mu q N dL kr (N - m)).
Proof.
  intros H1 H2. unfold kernel_at.
  destruct (Nat.even N && (m =? N / 2)%nat) eqn:E.
  - apply andb_true_iff in E as [E1 E2]. apply Nat.eqb_eq in E2. lia.
  - now rewrite (proj2 (Nat.leb_gt _ _) H2).
Qed.

Lemma kernel_mid g mu q N dL kr : Nat.even N = true ->
  kernel_at g mu q N dL kr (N / 2) = RtoC (fst (coeff g mu q N dL kr (N / 2))).
Proof. intros H. unfold kernel_at. now rewrite H, Nat.eqb_refl. Qed.

(** Where an index lies. *)
Lemma index_cases N m : (m < N)%nat ->
  (m = 0 \/ (Nat.even N = true /\ m = N / 2) \/
   (0 < m <= N / 2 /\ (Nat.even N = true -> m <> N / 2) /\ neg N m = N - m /\ N / 2 < N - m < N) \/
   (N / 2 < m /\ neg N m = N - m /\ 0 < N - m <= N / 2 /\ (Nat.even N = true -> N - m <> N / 2)))%nat.
Proof.
  intros Hm. destruct (Nat.eq_dec m 0) as [->|N0]; [now left|right].
  assert (NG : neg N m = (N - m)%nat) by (unfold neg; destruct (Nat.eqb_spec m 0); [contradiction|reflexivity]).
  rewrite NG. destruct (Nat.even N) eqn:E.
  - apply even_half in E as (k & -> & ->).
    destruct (Nat.eq_dec m k) as [->|D]; [left; auto|right].
    destruct (Nat.le_gt_cases m k); [left|right]; repeat split; intros; lia.
  - apply odd_half in E as (k & -> & ->). right.
    destruct (Nat.le_gt_cases m k); [left|right]; repeat split; intros; try lia; discriminate.
Qed.

Lemma coeff0_real g mu q N dL kr : real_gamma g ->
  Cconj (coeff g mu q N dL kr 0) = coeff g mu q N dL kr 0.
Proof.
  intros G. rewrite coeff_polar. unfold polar, Cconj. cbn [fst snd]. rewrite phase_0 by exact G.
  f_equal. lra.
Qed.

Lemma kernel_hermitian g mu q N dL kr m : real_gamma g -> (m < N)%nat ->
  Cconj (kernel_at g mu q N dL kr m) = kernel_at g mu q N dL kr (neg N m).
Proof.
  intros G Hm. destruct (index_cases N m Hm) as [->|[[E ->]|[(H1 & H2 & H3 & H4)|(H1 & H3 & H2 & H4)]]].
  - change (neg N 0) with 0%nat. destruct (Nat.eq_dec N 1) as [->|N1].
    + rewrite kernel_low by (cbn; try lia; discriminate). now apply coeff0_real.
    + assert (1 <= N / 2)%nat by (apply (Nat.div_le_lower_bound N 2 1); lia).
      rewrite kernel_low by (intros; lia). now apply coeff0_real.
  - rewrite neg_mid by (try assumption; lia). rewrite kernel_mid by exact E. apply Cconj_RtoC.
  - rewrite H3, kernel_low by (try assumption; lia). rewrite kernel_high by lia.
    do 2 f_equal. lia.
  - rewrite H3, kernel_high by lia. rewrite Cconj_inv. symmetry. apply kernel_low; [lia|lia|assumption].
Qed.

Lemma coeff_opp g mu q N dL kr m :
  (Cconj (coeff g mu q N dL kr m) * coeff g mu (- q) N dL kr m)%C = RtoC 1.
Proof.
  rewrite !coeff_polar, phase_opp, !polar_cis, Cconj_mult, Cconj_RtoC.
  transitivity (RtoC (amp g mu q N dL m * amp g mu (- q) N dL m) * (cis (phase g mu q N dL kr m) * Cconj (cis (phase g mu q N dL kr m))))%C.
  - rewrite RtoC_mult. ring.
  - rewrite amp_opp, cis_norm. apply Cmult_1_l.
Qed.

(** Opposite biases: kernels are inverse, except at the mid-point. *)
Lemma kernel_opp g mu q N dL kr m : real_gamma g -> (m < N)%nat ->
  ~ (Nat.even N = true /\ m = N / 2)%nat ->
  (kernel_at g mu q N dL kr (neg N m) * kernel_at g mu (- q) N dL kr m)%C = RtoC 1.
Proof.
  intros G Hm NM. rewrite <- kernel_hermitian by assumption.
  destruct (index_cases N m Hm) as [->|[?|[(H1 & H2 & H3 & H4)|(H1 & H3 & H2 & H4)]]].
  - assert (L : forall q, kernel_at g mu q N dL kr 0 = coeff g mu q N dL kr 0).
    { intros. apply kernel_low; [lia|lia|]. intros E X. apply NM. auto. }
    rewrite !L. apply coeff_opp.
  - contradiction.
  - rewrite !kernel_low by (try assumption; lia). apply coeff_opp.
  - rewrite !kernel_high by lia. rewrite Cconj_inv.
    transitivity (Cconj (Cconj (coeff g mu q N dL kr (N - m)) * coeff g mu (- q) N dL kr (N - m)))%C.
    + now rewrite Cconj_mult, Cconj_inv.
    + rewrite coeff_opp. apply Cconj_RtoC.
Qed.

Lemma kernel_mid_opp g mu q N dL kr : Nat.even N = true ->
  (kernel_at g mu q N dL kr (N / 2) * kernel_at g mu (- q) N dL kr (N / 2))%C
  = RtoC (cos (phase g mu q N dL kr (N / 2)) ^ 2).
Proof.
  intros E. rewrite !kernel_mid by exact E. rewrite !coeff_polar, phase_opp. unfold polar. cbn [fst].
  rewrite <- RtoC_mult. f_equal.
  transitivity (amp g mu q N dL (N / 2) * amp g mu (- q) N dL (N / 2) * cos (phase g mu q N dL kr (N / 2)) ^ 2);
    [ring|]. rewrite amp_opp. ring.
Qed.

Lemma coeff_norm g mu N dL kr m :
  (coeff g mu 0 N dL kr m * Cconj (coeff g mu 0 N dL kr m))%C = RtoC 1.
Proof. rewrite coeff_polar, polar_cis, amp_0, Cmult_1_l. apply cis_norm. Qed.

Lemma kernel_norm g mu N dL kr m : (m < N)%nat ->
  ~ (Nat.even N = true /\ m = N / 2)%nat ->
  (kernel_at g mu 0 N dL kr m * Cconj (kernel_at g mu 0 N dL kr m))%C = RtoC 1.
Proof.
  intros Hm NM. destruct (Nat.le_gt_cases m (N / 2)) as [H|H].
  - rewrite kernel_low by (try assumption; intros E X; apply NM; auto). apply coeff_norm.
  - rewrite kernel_high by assumption. rewrite Cconj_inv, Cmult_comm. apply coeff_norm.
Qed.

Lemma kernel_mid_norm g mu N dL kr : Nat.even N = true ->
  (kernel_at g mu 0 N dL kr (N / 2) * Cconj (kernel_at g mu 0 N dL kr (N / 2)))%C
  = RtoC (cos (phase g mu 0 N dL kr (N / 2)) ^ 2).
Proof.
  intros E. rewrite kernel_mid by exact E. rewrite Cconj_RtoC, <- RtoC_mult, coeff_polar, amp_0.
  unfold polar. cbn [fst]. f_equal. ring.
Qed.
