(* C133: what the Lanczos approximation to the gamma function shares exactly
   with the gamma function. *)
From Coq Require Import Reals ZArith List Lia Lra Bool.
From Coquelicot Require Import Complex Derive.
From Verif Require Import Base ArrayModel ArrayProofs FftlogModel GammaModel GammaProofs.
Import ListNotations.
Local Open Scope R_scope.

(** The poles of the gamma function: 0, -1, -2, ... *)
Definition pole (z : C) : Prop := exists k : nat, z = RtoC (- INR k).
Definition whole_number (z : C) : Prop := exists k : Z, z = RtoC (IZR k).

Lemma Cexp_nz z : Cexp z <> RtoC 0.
Proof.
  intros K. unfold Cexp, RtoC in K. injection K as K1 K2.
  pose proof (exp_pos (fst z)). pose proof (sin2_cos2 (snd z)) as S. unfold Rsqr in S. nra.
Qed.
Lemma cosh_pos y : 0 < cosh y.
Proof. unfold cosh. pose proof (exp_pos y). pose proof (exp_pos (- y)). lra. Qed.
Lemma sinh_zero y : sinh y = 0 -> y = 0.
Proof.
  unfold sinh. intros H. assert (E : exp y = exp (- y)) by lra. apply exp_inv in E. lra.
Qed.
Lemma Csin_zero z : Csin (RtoC PI * z)%C = RtoC 0 <-> whole_number z.
Proof.
  destruct z as [x y]. unfold Csin, RtoC, Cmult. cbn [fst snd].
  replace (PI * x - 0 * y) with (x * PI) by ring. replace (PI * y + 0 * x) with (PI * y) by ring.
  split.
  - intros K. injection K as K1 K2. pose proof (cosh_pos (PI * y)) as C.
    assert (S : sin (x * PI) = 0) by nra.
    assert (N : cos (x * PI) <> 0).
    { intros E. pose proof (sin2_cos2 (x * PI)) as Q. rewrite S, E in Q. unfold Rsqr in Q. lra. }
    assert (H : sinh (PI * y) = 0).
    { apply Rmult_integral in K2 as [K2|K2]; [contradiction | exact K2]. }
    apply sinh_zero in H. pose proof PI_RGT_0 as P.
    assert (Y : y = 0) by (apply Rmult_integral in H as [H|H]; lra).
    destruct (sin_eq_0_0 _ S) as [k E]. exists k. unfold RtoC. rewrite Y. f_equal.
    apply Rmult_eq_reg_r with PI; lra.
  - intros [k E]. unfold RtoC in E. injection E as -> ->. rewrite Rmult_0_r, sinh_0.
    rewrite (sin_eq_0_1 (IZR k * PI)) by now exists k. f_equal; ring.
Qed.

(* The part of the code to the right of the line Re z = 1/2. *)
Lemma gamma_right n z :
  1 / 2 <= fst z ->
  exists s, lanczos_series (z - RtoC 1)%C = Ok s /\ s <> RtoC 0 /\ (snd z = 0 -> positive s)
    /\ eval_gamma_lanczos (S n) z
       = Ok (RtoC (sqrt (2 * PI)) * Cpow (z - RtoC 1 + RtoC gconst + RtoC (1 / 2)) (z - RtoC 1 + RtoC (1 / 2))
             * Cexp (- (z - RtoC 1 + RtoC gconst + RtoC (1 / 2))) * s)%C.
Proof.
  intros H. destruct (series_ok (z - RtoC 1)%C) as (s & E & N & P).
  { destruct z as [x y]. cbn in *. lra. }
  exists s. split; [exact E|]. split; [exact N|]. split.
  { intros Y. apply P. destruct z as [x y]. cbn in *. lra. }
  cbn [eval_gamma_lanczos].
  destruct (Rltb (fst z) (1 / 2)) eqn:B; [apply Rltb_spec in B; lra|].
  cbv zeta. rewrite E. reflexivity.
Qed.
Lemma gamma_right_nz n z :
  1 / 2 <= fst z -> exists v, eval_gamma_lanczos (S n) z = Ok v /\ v <> RtoC 0.
Proof.
  intros H. destruct (gamma_right n z H) as (s & _ & N & _ & E). eexists. split; [exact E|].
  repeat apply Cmult_neq_0; auto using Cexp_nz.
  - intros K. apply RtoC_inj in K. pose proof PI_RGT_0.
    assert (0 < sqrt (2 * PI)) by (apply sqrt_lt_R0; lra). lra.
  - apply Cexp_nz.
Qed.
Lemma gamma_left n z v :
  fst z < 1 / 2 -> eval_gamma_lanczos n (RtoC 1 - z)%C = Ok v ->
  eval_gamma_lanczos (S n) z = cdiv (RtoC PI) (Csin (RtoC PI * z) * v)%C.
Proof.
  intros H E. cbn [eval_gamma_lanczos].
  destruct (Rltb (fst z) (1 / 2)) eqn:B.
  - rewrite E. reflexivity.
  - apply Rltb_spec in H. congruence.
Qed.
Lemma mirror_right z : fst z < 1 / 2 -> 1 / 2 <= fst (RtoC 1 - z)%C.
Proof. destruct z as [x y]. cbn. lra. Qed.

(** No more than one nested call is ever made. *)
Theorem gamma_terminates : forall n (z : C),
  eval_gamma_lanczos (S (S n)) z = eval_gamma_lanczos 2 z
  /\ eval_gamma_lanczos (S (S n)) z <> Err OutOfFuel.
Proof.
  intros n z. destruct (Rlt_le_dec (fst z) (1 / 2)) as [H|H].
  - destruct (gamma_right n _ (mirror_right z H)) as (s & E0 & _ & _ & E).
    destruct (gamma_right 0 _ (mirror_right z H)) as (s' & E0' & _ & _ & E').
    rewrite E0 in E0'. injection E0' as <-.
    rewrite (gamma_left _ _ _ H E), (gamma_left _ _ _ H E'). split; [reflexivity|].
    unfold cdiv. destruct (_ && _); discriminate.
  - destruct (gamma_right (S n) z H) as (s & E0 & _ & _ & E).
    destruct (gamma_right 1 z H) as (s' & E0' & _ & _ & E').
    rewrite E0 in E0'. injection E0' as <-. rewrite E, E'. split; [reflexivity | discriminate].
Qed.

(** There is a value, and it is not zero, everywhere but at the poles of the
    gamma function. *)
Theorem gamma_defined : forall z : C,
  (pole z /\ eval_gamma_lanczos 2 z = Err NotANumber)
  \/ (~ pole z /\ exists v, eval_gamma_lanczos 2 z = Ok v /\ v <> RtoC 0).
Proof.
  intros z. destruct (Rlt_le_dec (fst z) (1 / 2)) as [H|H].
  - destruct (gamma_right_nz 0 _ (mirror_right z H)) as (v & E & N).
    rewrite (gamma_left _ _ _ H E).
    destruct (Ceq_dec (Csin (RtoC PI * z)%C) (RtoC 0)) as [S|S].
    + left. rewrite S, Cmult_0_l, cdiv_zero. split; [|reflexivity].
      apply Csin_zero in S as [k K]. exists (Z.to_nat (- k)). rewrite K in *. cbn [fst RtoC] in H.
      assert (k <= 0)%Z by (apply Z.lt_succ_r, lt_IZR; rewrite succ_IZR; lra).
      rewrite INR_IZR_INZ, Z2Nat.id, opp_IZR by lia. f_equal. ring.
    + right. split.
      * intros [k K]. apply S, Csin_zero. exists (- Z.of_nat k)%Z. rewrite opp_IZR, <- INR_IZR_INZ. exact K.
      * rewrite cdiv_ok by now apply Cmult_neq_0. eexists. split; [reflexivity|].
        unfold Cdiv. apply Cmult_neq_0.
        -- intros K. apply RtoC_inj in K. pose proof PI_RGT_0. lra.
        -- intros K. assert (X : (RtoC 1 = Csin (RtoC PI * z) * v * / (Csin (RtoC PI * z) * v))%C)
             by (field; auto).
           rewrite K, Cmult_0_r in X. apply RtoC_inj in X. lra.
  - right. split.
    + intros [k ->]. cbn [fst RtoC] in H. pose proof (pos_INR k). lra.
    + now apply gamma_right_nz.
Qed.

(** Euler's reflection formula holds exactly off the line Re z = 1/2. *)
Theorem gamma_reflection : forall z : C,
  fst z <> 1 / 2 -> ~ whole_number z ->
  exists v w, eval_gamma_lanczos 2 z = Ok v /\ eval_gamma_lanczos 2 (RtoC 1 - z)%C = Ok w
    /\ (v * w * Csin (RtoC PI * z) = RtoC PI)%C.
Proof.
  assert (A : forall z : C, fst z < 1 / 2 -> ~ whole_number z ->
    exists v w, eval_gamma_lanczos 2 z = Ok v /\ eval_gamma_lanczos 2 (RtoC 1 - z)%C = Ok w
    /\ (v * w * Csin (RtoC PI * z) = RtoC PI)%C).
  { intros z H W. destruct (gamma_right_nz 0 _ (mirror_right z H)) as (w & E & N).
    destruct (gamma_right 0 _ (mirror_right z H)) as (s & F & _ & _ & E').
    destruct (gamma_right 1 _ (mirror_right z H)) as (s' & F' & _ & _ & E'').
    rewrite F in F'. injection F' as <-. rewrite <- E', E in E''.
    rewrite (gamma_left _ _ _ H E).
    assert (S : Csin (RtoC PI * z)%C <> RtoC 0) by (intros K; now apply W, Csin_zero).
    rewrite cdiv_ok by now apply Cmult_neq_0.
    eexists; exists w. split; [reflexivity|]. split; [exact E''|]. field. auto. }
  intros z H W. destruct (Rlt_le_dec (fst z) (1 / 2)) as [L|L]; [now apply A|].
  destruct (A (RtoC 1 - z)%C) as (v & w & E1 & E2 & E3).
  - destruct z as [x y]. cbn in *. lra.
  - intros [k K]. apply W. exists (1 - k)%Z. assert (X : @eq C z (RtoC 1 - (RtoC 1 - z))%C) by ring.
    rewrite X, K, minus_IZR, RtoC_minus. reflexivity.
  - replace (RtoC 1 - (RtoC 1 - z))%C with z in E2 by ring.
    exists w, v. split; [exact E2|]. split; [exact E1|]. refine (eq_trans _ E3). rewrite (Cmult_comm w v). f_equal.
    destruct z as [x y]. unfold Csin, RtoC, Cmult, Cminus, Cplus, Copp. cbn [fst snd].
    replace (PI * (1 + - x) - 0 * (0 + - y)) with (PI - PI * x) by ring.
    replace (PI * (0 + - y) + 0 * (1 + - x)) with (- (PI * y)) by ring.
    replace (PI * x - 0 * y) with (PI * x) by ring. replace (PI * y + 0 * x) with (PI * y) by ring.
    rewrite sin_PI_x, (Rtrigo_facts.cos_pi_minus (PI * x)). unfold cosh, sinh. rewrite Ropp_involutive.
    apply (f_equal2 pair); field.
Qed.

(* Complex conjugation. *)
Lemma conj_mult v w : Cconj (v * w)%C = (Cconj v * Cconj w)%C.
Proof. destruct v, w. unfold Cconj, Cmult. cbn [fst snd]. f_equal; ring. Qed.
Lemma conj_plus v w : Cconj (v + w)%C = (Cconj v + Cconj w)%C.
Proof. destruct v, w. unfold Cconj, Cplus. cbn [fst snd]. f_equal; ring. Qed.
Lemma conj_opp v : Cconj (- v)%C = (- Cconj v)%C.
Proof. reflexivity. Qed.
Lemma conj_minus v w : Cconj (v - w)%C = (Cconj v - Cconj w)%C.
Proof. unfold Cminus. now rewrite conj_plus. Qed.
Lemma conj_real r : Cconj (RtoC r) = RtoC r.
Proof. unfold Cconj, RtoC. cbn [fst snd]. f_equal. ring. Qed.
Lemma conj_inv v : Cconj (/ v)%C = (/ Cconj v)%C.
Proof.
  destruct v as [x y]. unfold Cconj, Cinv. cbn [fst snd].
  replace ((- y) ^ 2) with (y ^ 2) by ring. f_equal. unfold Rdiv. ring.
Qed.
Lemma conj_exp z : Cconj (Cexp z) = Cexp (Cconj z).
Proof. unfold Cconj, Cexp. cbn [fst snd]. rewrite cos_neg, sin_neg. f_equal. ring. Qed.
Lemma conj_sin z : Cconj (Csin z) = Csin (Cconj z).
Proof.
  unfold Cconj, Csin. cbn [fst snd]. unfold cosh, sinh. rewrite Ropp_involutive. apply (f_equal2 pair); field.
Qed.
Lemma conj_log z : 0 < fst z -> Cconj (Clog z) = Clog (Cconj z).
Proof.
  intros H. unfold Clog, Cconj, Carg, Cmod. cbn [fst snd].
  rewrite (proj2 (Rltb_spec 0 (fst z)) H).
  replace ((- snd z) ^ 2) with (snd z ^ 2) by ring. f_equal.
  rewrite <- atan_opp. f_equal. unfold Rdiv. ring.
Qed.
Lemma conj_zero v : Cconj v = RtoC 0 -> v = RtoC 0.
Proof.
  destruct v as [x y]. unfold Cconj, RtoC. cbn [fst snd]. intros K. injection K as -> K. f_equal. lra.
Qed.
Definition conj_res (x : res C) : res C := v <- x ;; Ok (Cconj v).
Lemma conj_cdiv a b : cdiv (Cconj a) (Cconj b) = conj_res (cdiv a b).
Proof.
  destruct (Ceq_dec b (RtoC 0)) as [->|N].
  - rewrite conj_real, !cdiv_zero. reflexivity.
  - rewrite (cdiv_ok a b N), cdiv_ok by (intros K; now apply N, conj_zero).
    cbn [conj_res bind]. unfold Cdiv. now rewrite conj_mult, conj_inv.
Qed.
Lemma conj_series cs : forall i z acc,
  series_from cs i (Cconj z) (Cconj acc) = conj_res (series_from cs i z acc).
Proof.
  induction cs as [|c cs IH]; intros i z acc; cbn [series_from]; [reflexivity|].
  rewrite <- (conj_real c) at 1. rewrite <- (conj_real (IZR i)) at 1.
  rewrite <- conj_plus, conj_cdiv.
  destruct (cdiv (RtoC c) (z + RtoC (IZR i))%C) as [d|e]; cbn [conj_res bind]; [|reflexivity].
  rewrite <- conj_plus. apply IH.
Qed.
Lemma conj_lanczos z : lanczos_series (Cconj z) = conj_res (lanczos_series z).
Proof.
  unfold lanczos_series, pcoeff. rewrite <- conj_series, conj_real. reflexivity.
Qed.

(** Conjugate arguments have conjugate values. *)
Theorem gamma_conj : forall n (z : C),
  eval_gamma_lanczos n (Cconj z) = conj_res (eval_gamma_lanczos n z).
Proof.
  induction n as [|n IH]; intros z; [reflexivity|]. cbn [eval_gamma_lanczos].
  change (fst (Cconj z)) with (fst z).
  destruct (Rltb (fst z) (1 / 2)) eqn:B.
  - replace (RtoC 1 - Cconj z)%C with (Cconj (RtoC 1 - z)%C) by now rewrite conj_minus, conj_real.
    rewrite IH. destruct (eval_gamma_lanczos n (RtoC 1 - z)%C) as [g|e]; cbn [conj_res bind]; [|reflexivity].
    replace (Csin (RtoC PI * Cconj z) * Cconj g)%C with (Cconj (Csin (RtoC PI * z) * g)%C)
      by now rewrite conj_mult, conj_sin, conj_mult, conj_real.
    refine (eq_trans _ (conj_cdiv (RtoC PI) _)). now rewrite conj_real.
  - cbv zeta.
    assert (L : 1 / 2 <= fst z).
    { apply Rnot_lt_le. intros K. apply Rltb_spec in K. congruence. }
    replace (Cconj z - RtoC 1)%C with (Cconj (z - RtoC 1)%C) by now rewrite conj_minus, conj_real.
    rewrite conj_lanczos. destruct (lanczos_series (z - RtoC 1)%C) as [s|e]; cbn [conj_res bind]; [|reflexivity].
    f_equal. rewrite !conj_mult, conj_real. unfold Cpow. rewrite !conj_exp, conj_mult, conj_log.
    + rewrite conj_opp, !conj_plus, !conj_real. reflexivity.
    + destruct z as [x y]. cbn [fst] in L. unfold Cminus, Cplus, Copp, RtoC, gconst. cbn [fst snd]. lra.
Qed.

(** On the real axis off the poles the value is real, positive to the right of
    zero, and of the sign of sin(pi x) to the left of 1/2. *)
Theorem gamma_real : forall x,
  ~ pole (RtoC x) ->
  exists r, eval_gamma_lanczos 2 (RtoC x) = Ok (RtoC r) /\ (0 < x -> 0 < r)
    /\ (x < 1 / 2 -> 0 < r * sin (PI * x)).
Proof.
  assert (R : forall n x, 1 / 2 <= x -> exists r, 0 < r /\ eval_gamma_lanczos (S n) (RtoC x) = Ok (RtoC r)).
  { intros n x H. destruct (gamma_right n (RtoC x) H) as (s & _ & _ & P & E).
    destruct (P eq_refl) as (r & Hr & ->).
    set (t := x - 1 + gconst + 1 / 2). assert (T : 0 < t) by (unfold t, gconst; lra).
    exists (sqrt (2 * PI) * exp ((x - 1 + 1 / 2) * ln t) * exp (- t) * r). split.
    - pose proof PI_RGT_0. assert (0 < sqrt (2 * PI)) by (apply sqrt_lt_R0; lra).
      repeat apply Rmult_lt_0_compat; auto using exp_pos.
    - rewrite E. f_equal. rewrite <- RtoC_minus, <- !RtoC_plus. fold t. rewrite !RtoC_mult.
      assert (X : forall a, Cexp (RtoC a) = RtoC (exp a)).
      { intros a. unfold Cexp, RtoC. cbn [fst snd]. rewrite cos_0, sin_0. f_equal; ring. }
      rewrite <- RtoC_opp, X. unfold Cpow.
      assert (G : Clog (RtoC t) = RtoC (ln t)).
      { unfold Clog. rewrite Cmod_R, Rabs_pos_eq by lra. unfold Carg, RtoC. cbn [fst snd].
        rewrite (proj2 (Rltb_spec 0 t) T). unfold Rdiv. rewrite Rmult_0_l, atan_0. reflexivity. }
      rewrite G, <- RtoC_mult, X. reflexivity. }
  intros x N. destruct (Rlt_le_dec x (1 / 2)) as [H|H].
  - destruct (R 0%nat (1 - x)) as (g & Hg & E); [lra|].
    assert (S : Csin (RtoC PI * RtoC x)%C = RtoC (sin (PI * x))).
    { rewrite <- RtoC_mult. unfold Csin, RtoC. cbn [fst snd]. rewrite cosh_0, sinh_0. f_equal; ring. }
    assert (NS : sin (PI * x) <> 0).
    { intros K. rewrite K in S. apply Csin_zero in S as [k S]. apply RtoC_inj in S. subst x.
      apply N. exists (Z.to_nat (- k)). 
      assert (k <= 0)%Z by (apply Z.lt_succ_r, lt_IZR; rewrite succ_IZR; lra).
      rewrite INR_IZR_INZ, Z2Nat.id, opp_IZR by lia. f_equal. ring. }
    rewrite RtoC_minus in E. rewrite (gamma_left 1 (RtoC x) _ H E), S, <- RtoC_mult.
    assert (NG : sin (PI * x) * g <> 0) by (apply Rmult_integral_contrapositive_currified; lra).
    rewrite cdiv_ok by (intros K; now apply RtoC_inj in K).
    exists (PI / (sin (PI * x) * g)). split; [now rewrite RtoC_div|]. pose proof PI_RGT_0. split.
    + intros X. apply Rdiv_lt_0_compat; [lra|]. apply Rmult_lt_0_compat; [|lra].
      apply sin_gt_0; nra.
    + intros _. replace (PI / (sin (PI * x) * g) * sin (PI * x)) with (PI / g) by (field; lra).
      apply Rdiv_lt_0_compat; lra.
  - destruct (R 1%nat x H) as (r & Hr & E). exists r. split; [exact E|]. split; [auto | lra].
Qed.

(* Bounds on e by Taylor's formula. *)
Lemma Derive_n_exp k x : Derive_n exp k x = exp x.
Proof.
  revert x; induction k as [|k IH]; intros x; [reflexivity|]. cbn [Derive_n].
  rewrite (Derive_ext _ exp) by exact IH. apply is_derive_unique, is_derive_Reals, derivable_pt_lim_exp.
Qed.
Definition e_sum : R :=
  1 + 1 + 1 / 2 + 1 / 6 + 1 / 24 + 1 / 120 + 1 / 720 + 1 / 5040 + 1 / 40320 + 1 / 362880 + 1 / 3628800
  + 1 / 39916800 + 1 / 479001600 + 1 / 6227020800.
Lemma e_bounds : e_sum < exp 1 < e_sum + 3 / 87178291200.
Proof.
  destruct (Taylor_Lagrange exp 13 0 1) as (c & C & E).
  - lra.
  - intros t _ k _. destruct k as [|k]; [exact I|]. cbn [ex_derive_n].
    eapply ex_derive_ext; [intros u; symmetry; apply Derive_n_exp|].
    exists (exp t). apply is_derive_Reals, derivable_pt_lim_exp.
  - rewrite (sum_eq _ (fun m => / INR (fact m))) in E.
    2:{ intros m _. rewrite Derive_n_exp, exp_0, Rminus_0_r, pow1. field. apply INR_fact_neq_0. }
    rewrite Derive_n_exp, Rminus_0_r, pow1 in E.
    assert (F : forall m, INR (fact (S m)) = IZR (Z.of_nat (S m)) * INR (fact m)).
    { intros m. rewrite fact_simpl, mult_INR, (INR_IZR_INZ (S m)). reflexivity. }
    rewrite !tech5 in E. cbn [sum_f_R0] in E. rewrite !F in E.
    change (INR (fact 0)) with 1 in E. cbn [Z.of_nat Pos.of_succ_nat Pos.succ] in E.
    assert (X : exp 1 = e_sum + exp c / 87178291200) by (rewrite E; unfold e_sum; field).
    pose proof (exp_increasing c 1 ltac:(lra)). pose proof exp_le_3. pose proof (exp_pos c). lra.
Qed.

(** Concrete cases: the value at 1/2 is the square root of pi to nine digits; there
    is none at -2; that at -1/2 is negative. *)
Example half_case : exists r,
  eval_gamma_lanczos 2 (RtoC (1 / 2)) = Ok (RtoC r) /\ 0 < r /\ Rabs (r * r / PI - 1) <= / 10 ^ 8.
Proof.
  destruct (gamma_right 1 (RtoC (1 / 2))) as (s & E & _ & _ & G); [cbn; lra|].
  assert (S : s = RtoC (IZR 970265224426979424962507744546939 / IZR 1251250000000000000000000000000)).
  { replace (RtoC (1 / 2) - RtoC 1)%C with (RtoC (- (1 / 2))) in E by (rewrite <- RtoC_minus; f_equal; lra).
    unfold lanczos_series, pcoeff in E. cbn [series_from] in E.
    assert (D : forall c i, 1 <= IZR i ->
      cdiv (RtoC c) (RtoC (- (1 / 2)) + RtoC (IZR i))%C = Ok (RtoC (c / (IZR i - 1 / 2)))).
    { intros c i I. rewrite <- RtoC_plus, cdiv_ok by (intros K; apply RtoC_inj in K; lra).
      rewrite <- RtoC_div by lra. do 2 f_equal. f_equal. ring. }
    rewrite !D in E by (cbn; lra). cbn [bind Z.add Pos.add Pos.succ] in E.
    rewrite <- !RtoC_plus in E. injection E as E. rewrite <- E. f_equal. field. }
  set (q := IZR 970265224426979424962507744546939 / IZR 1251250000000000000000000000000) in S.
  exists (sqrt (2 * PI) * exp (- (7)) * q). pose proof PI_RGT_0 as P.
  assert (0 < sqrt (2 * PI)) by (apply sqrt_lt_R0; lra).
  assert (0 < q) by (unfold q; lra).
  split; [|split].
  - rewrite G, S. f_equal. rewrite <- RtoC_minus, <- !RtoC_plus. unfold gconst.
    replace (1 / 2 - 1 + 7 + 1 / 2) with 7 by lra. replace (1 / 2 - 1 + 1 / 2) with 0 by lra.
    assert (X : forall a, Cexp (RtoC a) = RtoC (exp a)).
    { intros a. unfold Cexp, RtoC. cbn [fst snd]. rewrite cos_0, sin_0. f_equal; ring. }
    unfold Cpow. rewrite Cmult_0_l, X, exp_0, <- RtoC_opp, X, <- !RtoC_mult. f_equal. ring.
  - apply Rmult_lt_0_compat; [apply Rmult_lt_0_compat; auto using exp_pos | assumption].
  - replace (sqrt (2 * PI) * exp (- (7)) * q * (sqrt (2 * PI) * exp (- (7)) * q) / PI)
      with (2 * q ^ 2 / exp 1 ^ 14).
    2:{ replace (sqrt (2 * PI) * exp (- (7)) * q * (sqrt (2 * PI) * exp (- (7)) * q))
          with (sqrt (2 * PI) * sqrt (2 * PI) * (exp (- (7)) * exp (- (7))) * q ^ 2) by ring.
        rewrite sqrt_sqrt by lra. rewrite <- exp_plus.
        replace (- (7) + - (7)) with (- (1 + (1 + (1 + (1 + (1 + (1 + (1 + (1 + (1 + (1 + (1 + (1 + (1 + 1)))))))))))))) by ring.
        rewrite exp_Ropp, !exp_plus. pose proof (exp_pos 1). field. lra. }
    assert (B : 2718281828 / 10 ^ 9 <= exp 1 <= 2718281829 / 10 ^ 9).
    { pose proof e_bounds as [B1 B2]. unfold e_sum in B1, B2. lra. }
    assert (L : (2718281828 / 10 ^ 9) ^ 14 <= exp 1 ^ 14) by (apply pow_incr; lra).
    assert (U : exp 1 ^ 14 <= (2718281829 / 10 ^ 9) ^ 14) by (apply pow_incr; lra).
    assert (0 < exp 1 ^ 14) by (apply pow_lt; lra).
    assert (V : 2 * q ^ 2 <= (1 + / 10 ^ 8) * (2718281828 / 10 ^ 9) ^ 14) by (unfold q; lra).
    assert (W : (1 - / 10 ^ 8) * (2718281829 / 10 ^ 9) ^ 14 <= 2 * q ^ 2) by (unfold q; lra).
    set (T := / 10 ^ 8) in *. assert (0 < T < 1) by (unfold T; lra). clearbody T.
    set (lo := (2718281828 / 10 ^ 9) ^ 14) in *. set (hi := (2718281829 / 10 ^ 9) ^ 14) in *.
    clearbody lo hi. set (y := exp 1 ^ 14) in *. clearbody y. set (x := 2 * q ^ 2) in *. clearbody x. clear - L U V W H1 H2.
    apply Rabs_le. split.
    + enough (1 - T <= x / y) by lra.
      apply Rmult_le_reg_r with y; [lra|].
      replace (x / y * y) with x by (field; lra). nra.
    + enough (x / y <= 1 + T) by lra.
      apply Rmult_le_reg_r with y; [lra|].
      replace (x / y * y) with x by (field; lra). nra.
Qed.
Example pole_case : eval_gamma_lanczos 2 (RtoC (- (2))) = Err NotANumber.
Proof.
  destruct (gamma_defined (RtoC (- (2)))) as [[_ E]|[N _]]; [exact E|].
  exfalso. apply N. exists 2%nat. f_equal; cbn; lra.
Qed.
Example negative_case : exists r, eval_gamma_lanczos 2 (RtoC (- / 2)) = Ok (RtoC r) /\ r < 0.
Proof.
  destruct (gamma_real (- / 2)) as (r & E & _ & S).
  - intros [k K]. apply RtoC_inj in K. rewrite INR_IZR_INZ in K.
    assert (2 * Z.of_nat k = 1)%Z by (apply eq_IZR; rewrite mult_IZR; lra). lia.
  - exists r. split; [exact E|]. specialize (S ltac:(lra)).
    replace (PI * - / 2) with (- (PI / 2)) in S by field. rewrite sin_neg, sin_PI2 in S. lra.
Qed.

Print Assumptions gamma_terminates.
Print Assumptions gamma_defined.
Print Assumptions gamma_reflection.
Print Assumptions gamma_conj.
Print Assumptions gamma_real.
