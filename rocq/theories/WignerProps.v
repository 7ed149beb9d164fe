(* Wigner 3-j symbols by the Racah formula: the quantity that [gsl_sf_coupling_3j]
   is documented to return (maths.cpp 167-169).  Its symmetries discharge the
   assumptions of the theorems on spherical orders (claim C25). *)
From Coq Require Import Reals ZArith List Lia Lra Bool Permutation.
From Coquelicot Require Import Complex.
From Verif Require Import Base ArrayModel ArrayProofs RSum CSum BinVecModel BinVecProps ThreePtModel OrderProps.
Import ListNotations.
Open Scope Z_scope.

Definition factZ (n : Z) : R := INR (fact (Z.to_nat n)).

(** One term of the Racah sum; zero if a factorial has a negative argument. *)
Definition racah_term (l1 l2 L m1 m2 k : Z) : R :=
  let args := [k; l1 + l2 - L - k; l1 - m1 - k; l2 + m2 - k; L - l2 + m1 + k; L - l1 - m2 + k] in
  if forallb (Z.leb 0) args
  then (sign k / fold_right Rmult 1 (map factZ args))%R else 0%R.

Definition wigner_3j (l1 l2 L : Z) (t : triplet) : R :=
  let '(m1, m2, M) := t in
  if (m1 + m2 + M =? 0) && (Z.abs m1 <=? l1) && (Z.abs m2 <=? l2) && (Z.abs M <=? L) &&
     (Z.abs (l1 - l2) <=? L) && (L <=? l1 + l2)
  then (sign (l1 - l2 - M)
        * sqrt (factZ (l1 + l2 - L) * factZ (l1 - l2 + L) * factZ (- l1 + l2 + L) / factZ (l1 + l2 + L + 1))
        * sqrt (factZ (l1 + m1) * factZ (l1 - m1) * factZ (l2 + m2) * factZ (l2 - m2) * factZ (L + M) * factZ (L - M))
        * rsum (map (racah_term l1 l2 L m1 m2) (arange 0 (l1 + l2 - L + 1))))%R
  else 0%R.

Lemma rsum_reverse (f : Z -> R) n :
  rsum (map (fun k => f (n - k)) (arange 0 (n + 1))) = rsum (map f (arange 0 (n + 1))).
Proof.
  rewrite <- (map_map (fun k => n - k) f). apply rsum_perm. apply Permutation_map.
  apply NoDup_Permutation.
  - apply FinFun.Injective_map_NoDup; [intros x y; lia|apply NoDup_arange].
  - apply NoDup_arange.
  - intros k. rewrite in_map_iff, In_arange. split.
    + intros (j & <- & H). apply In_arange in H. lia.
    + intros H. exists (n - k). split; [lia|apply In_arange; lia].
Qed.

(** The reversal symmetry of the 3-j symbols. *)
Theorem wigner_reversal : forall l1 l2 L, reversal_symmetric l1 l2 L (wigner_3j l1 l2 L).
Proof.
  intros l1 l2 L [[m1 m2] M]. unfold wigner_3j, mirrored. rewrite !Z.abs_opp.
  replace (- m1 + - m2 + - M =? 0) with (m1 + m2 + M =? 0).
  2: { destruct (Z.eqb_spec (m1 + m2 + M) 0), (Z.eqb_spec (- m1 + - m2 + - M) 0); lia. }
  destruct ((m1 + m2 + M =? 0) && _ && _ && _ && _ && _) eqn:C; [|ring].
  replace (l1 + - m1) with (l1 - m1) by lia. replace (l1 - - m1) with (l1 + m1) by lia.
  replace (l2 + - m2) with (l2 - m2) by lia. replace (l2 - - m2) with (l2 + m2) by lia.
  replace (L + - M) with (L - M) by lia. replace (L - - M) with (L + M) by lia.
  set (n := l1 + l2 - L).
  replace (map (racah_term l1 l2 L (- m1) (- m2)) (arange 0 (n + 1)))
    with (map (fun k => (sign n * racah_term l1 l2 L m1 m2 (n - k))%R) (arange 0 (n + 1))).
  - rewrite rsum_map_scal, (rsum_reverse (racah_term l1 l2 L m1 m2) n).
    replace (l1 - l2 - - M) with (l1 - l2 + M) by lia. rewrite sign_plus, (sign_minus (l1 - l2) M).
    assert (S : sign (l1 + l2 + L) = sign n).
    { replace (l1 + l2 + L) with (n + 2 * L) by (unfold n; lia). rewrite (sign_plus n), sign_even. ring. }
    rewrite S.
    replace (factZ (l1 - m1) * factZ (l1 + m1) * factZ (l2 - m2) * factZ (l2 + m2) * factZ (L - M) * factZ (L + M))%R
      with (factZ (l1 + m1) * factZ (l1 - m1) * factZ (l2 + m2) * factZ (l2 - m2) * factZ (L + M) * factZ (L - M))%R by ring.
    ring.
  - apply map_ext. intros k. unfold racah_term.
    replace (l1 + l2 - L - (n - k)) with k by (unfold n; lia).
    replace (l1 - m1 - (n - k)) with (L - l2 + - m1 + k) by (unfold n; lia).
    replace (l2 + m2 - (n - k)) with (L - l1 - - m2 + k) by (unfold n; lia).
    replace (L - l2 + m1 + (n - k)) with (l1 - - m1 - k) by (unfold n; lia).
    replace (L - l1 - m2 + (n - k)) with (l2 + - m2 - k) by (unfold n; lia).
    replace (l1 + l2 - L - k) with (n - k) by (unfold n; lia).
    cbn [forallb map fold_right].
    set (a := (L - l2 + - m1 + k)). set (b := (L - l1 - - m2 + k)).
    set (d := (l1 - - m1 - k)). set (e := (l2 + - m2 - k)).
    replace ((0 <=? n - k) && ((0 <=? k) && ((0 <=? a) && ((0 <=? b) && ((0 <=? d) && ((0 <=? e) && true))))))
      with ((0 <=? k) && ((0 <=? n - k) && ((0 <=? d) && ((0 <=? e) && ((0 <=? a) && ((0 <=? b) && true)))))).
    2: { destruct (0 <=? k), (0 <=? n - k), (0 <=? a), (0 <=? b), (0 <=? d), (0 <=? e); reflexivity. }
    match goal with |- context [if ?b then _ else _] => destruct b end; [|ring]. rewrite sign_minus.
    replace (factZ (n - k) * (factZ k * (factZ a * (factZ b * (factZ d * (factZ e * 1))))))%R
      with (factZ k * (factZ (n - k) * (factZ d * (factZ e * (factZ a * (factZ b * 1))))))%R by ring.
    unfold Rdiv. assert (S := sign_sqr n).
    transitivity ((sign n * sign n) * sign k * / (factZ k * (factZ (n - k) * (factZ d * (factZ e * (factZ a * (factZ b * 1)))))))%R;
      [ring|]. rewrite S. ring.
Qed.

(** The selection rule. *)
Theorem wigner_selection : forall l1 l2 L m1 m2 M,
  wigner_3j l1 l2 L (m1, m2, M) <> 0%R ->
  m1 + m2 + M = 0 /\ in_range l1 l2 L (m1, m2, M) /\ Z.abs (l1 - l2) <= L <= l1 + l2.
Proof.
  intros l1 l2 L m1 m2 M H. unfold wigner_3j in H.
  destruct ((m1 + m2 + M =? 0) && _ && _ && _ && _ && _) eqn:C; [|contradiction].
  rewrite !andb_true_iff, Z.eqb_eq, !Z.leb_le in C. cbn [in_range]. lia.
Qed.

(** Accepted degrees have an even sum. *)
Theorem accepted_degrees_even : forall l1 l2 L,
  validate_coupling (wigner_3j l1 l2 L) = Ok tt -> Z.Even (l1 + l2 + L) /\ Z.abs (l1 - l2) <= L <= l1 + l2.
Proof.
  intros l1 l2 L V. split.
  - assert (S := validated_even l1 l2 L _ V (wigner_reversal l1 l2 L)).
    destruct (Z.Even_or_Odd (l1 + l2 + L)) as [E|[q E]]; [exact E|].
    rewrite E, sign_plus, sign_even, sign_1 in S. lra.
  - unfold validate_coupling in V. destruct (Rltb _ _) eqn:R in V; [discriminate|]. apply Rltb_false in R.
    apply (wigner_selection l1 l2 L 0 0 0). intros Z. rewrite Z, Rabs_R0 in R. unfold eps_coupling in R. lra.
Qed.

(** C25 with the 3-j symbols put in; only the separation from the threshold is left. *)
Theorem raw_sum_complete_wigner :
  forall l1 l2 L v, let w := wigner_3j l1 l2 L in
  validate_coupling w = Ok tt -> well_separated l1 l2 L w ->
  (forall m1 m2 M, in_range l1 l2 L (m1, m2, M) -> m1 + m2 + M = 0 ->
     v (- m1, - m2, - M) = (RtoC (sign L) * Cconj (v (m1, m2, M)))%C) ->
  raw_survey l1 l2 L w v = Ok (weighted_sum l1 l2 L w v (all_orders l1 l2 L)).
Proof.
  intros l1 l2 L v w V W Hv. apply raw_sum_complete; auto; [apply wigner_reversal|].
  intros [[m1 m2] M] R Z. apply Hv; [exact R|]. apply (wigner_selection l1 l2 L m1 m2 M).
  intros E. apply Z. unfold weight. unfold w. rewrite E. ring.
Qed.

(** Degrees (1, 1, 0): the symbols, and the sum over the nine orders. *)
Lemma factZ_values : factZ 0 = 1%R /\ factZ 1 = 1%R /\ factZ 2 = 2%R /\ factZ 3 = 6%R.
Proof.
  unfold factZ. rewrite !INR_IZR_INZ. repeat split; reflexivity.
Qed.

Lemma wigner_110 m : - 1 <= m <= 1 ->
  wigner_3j 1 1 0 (m, - m, 0) = (sign (1 - m) * sqrt (1 / 3))%R.
Proof.
  intros H. assert (C : m = -1 \/ m = 0 \/ m = 1) by lia.
  destruct factZ_values as (F0 & F1 & F2 & F3).
  assert (S4 : sqrt 4 = 2%R) by (replace 4%R with (2 * 2)%R by ring; apply sqrt_square; lra).
  assert (S13 : sqrt (2 * 1 * 1 / 6) = sqrt (1 / 3)) by (f_equal; lra).
  assert (sm1 : sign (-1) = (-1)%R) by (change (-1) with (- (1)); now rewrite sign_opp, sign_1).
  assert (s2 : sign 2 = 1%R) by (apply (sign_even 1)).
  destruct C as [->|[->| ->]]; unfold wigner_3j; cbn -[factZ sign sqrt racah_term arange];
    change (arange 0 3) with [0; 1; 2]; cbn [map]; rewrite !rsum_cons, rsum_nil; unfold racah_term;
    cbn -[factZ sign sqrt]; rewrite ?F0, ?F1, ?F2, ?F3, ?sign_0, ?sign_1, ?sm1, ?s2, S13.
  - replace (1 * 2 * 2 * 1 * 1 * 1)%R with 4%R by ring. rewrite S4. field.
  - replace (1 * 1 * 1 * 1 * 1 * 1)%R with 1%R by ring. rewrite sqrt_1. field.
  - replace (2 * 1 * 1 * 2 * 1 * 1)%R with 4%R by ring. rewrite S4. field.
Qed.

Lemma weight_110 m1 m2 : - 1 <= m1 <= 1 ->
  weight 1 1 0 (wigner_3j 1 1 0) (m1, m2, 0) = if (m1 + m2 =? 0) then (-3 * sign (1 - m1))%R else 0%R.
Proof.
  intros H. unfold weight. change (0, 0, 0) with (0, - 0, 0). rewrite (wigner_110 0) by lia. rewrite Z.sub_0_r, sign_1.
  destruct (Z.eqb_spec (m1 + m2) 0) as [E|E].
  - replace m2 with (- m1) by lia. rewrite wigner_110 by lia.
    replace ((2 * IZR 1 + 1) * (2 * IZR 1 + 1) * (2 * IZR 0 + 1) * (-1 * sqrt (1 / 3)) * (sign (1 - m1) * sqrt (1 / 3)))%R
      with (-9 * sign (1 - m1) * (sqrt (1 / 3) * sqrt (1 / 3)))%R by ring.
    rewrite sqrt_sqrt by lra. lra.
  - unfold wigner_3j. rewrite Z.add_0_r, (proj2 (Z.eqb_neq _ _) E). cbn [andb]. ring.
Qed.

Lemma well_separated_110 : well_separated 1 1 0 (wigner_3j 1 1 0).
Proof.
  intros [[m1 m2] M] (H1 & H2 & H3). assert (M = 0) by lia. subst M. rewrite weight_110 by lia.
  destruct (m1 + m2 =? 0); [right|now left]. unfold eps_coupling.
  destruct (sign_cases (1 - m1)) as [-> | ->]; [rewrite Rabs_left by lra|rewrite Rabs_right by lra]; lra.
Qed.

Lemma validated_110 : validate_coupling (wigner_3j 1 1 0) = Ok tt.
Proof.
  unfold validate_coupling. change (0, 0, 0) with (0, - 0, 0). rewrite wigner_110 by lia.
  replace (Rltb _ _) with false; [reflexivity|]. symmetry. apply Rltb_false. rewrite Z.sub_0_r, sign_1.
  rewrite Rabs_mult, Rabs_left, (Rabs_right (sqrt (1 / 3))) by (try lra; apply Rle_ge, sqrt_pos).
  assert (sqrt (1 / 9) <= sqrt (1 / 3))%R by (apply sqrt_le_1; lra).
  assert (sqrt (1 / 9) = 1 / 3)%R by (replace (1 / 9)%R with ((1 / 3) * (1 / 3))%R by field; apply sqrt_square; lra).
  unfold eps_coupling. lra.
Qed.

Example orders_case :
  raw_survey 1 1 0 (wigner_3j 1 1 0) (fun t => (1, IZR (fst (fst t))))%R = Ok (RtoC (-3)).
Proof.
  rewrite raw_sum_complete_wigner; [|exact validated_110|exact well_separated_110|].
  - f_equal. unfold weighted_sum.
    change (all_orders 1 1 0) with
      [(-1, -1, 0); (-1, 0, 0); (-1, 1, 0); (0, -1, 0); (0, 0, 0); (0, 1, 0); (1, -1, 0); (1, 0, 0); (1, 1, 0)].
    cbn [map]. rewrite !weight_110 by lia. cbn [Z.add Z.eqb Pos.add Z.pos_sub fst].
    change (1 - -1) with (2 * 1). change (1 - 0) with 1. change (1 - 1) with 0. rewrite sign_even, sign_1, sign_0.
    unfold csum, Cplus, Cmult, RtoC. cbn [fold_right fst snd]. f_equal; ring.
  - intros m1 m2 M _ _. cbn [fst]. rewrite sign_0, opp_IZR. unfold Cconj, Cmult, RtoC. cbn [fst snd]. f_equal; ring.
Qed.

Print Assumptions wigner_reversal.
Print Assumptions raw_sum_complete_wigner.
