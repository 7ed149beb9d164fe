(* Coefficients of window convolution terms: a trivial window, a constant
   correlation function, and where no coefficient is returned (C118). *)
From Coq Require Import String.
From Coq Require Import Reals ZArith List Lia Lra Bool.
From Coquelicot Require Import Complex.
From Verif Require Import Base ArrayModel ArrayProofs RSum CSum BinVecModel BinVecProps ThreePtModel OrderProps WignerProps
  CorrProps MultipoleModel WindowModel WindowProps WinConvModel CoeffModel.
Import ListNotations.
Local Open Scope R_scope.

(* ------------------------------------------------------------------ *)
(* Triangle coefficients                                               *)

Definition triangle (a b c : Z) : Prop := (a <= b + c /\ b <= a + c /\ c <= a + b)%Z.

Lemma sum_one (f : Z -> R) lo hi k0 : (lo <= k0 < hi)%Z -> (forall k, (lo <= k < hi)%Z -> k <> k0 -> f k = 0) ->
  rsum (map f (arange lo hi)) = f k0.
Proof.
  intros H0 H. assert (I : In k0 (arange lo hi)) by (apply In_arange; lia). pose proof (NoDup_arange lo hi) as N.
  assert (H' : forall k, In k (arange lo hi) -> k <> k0 -> f k = 0) by (intros k Hk; apply In_arange in Hk; apply H; lia).
  clear H H0. induction (arange lo hi) as [|k ks IH]; [contradiction|]. inversion N as [|? ? N1 N2]; subst.
  cbn [map]. rewrite rsum_cons. destruct (Z.eq_dec k k0) as [->|D].
  - rewrite (rsum_map_zero f ks); [ring|]. intros x Hx. apply H'; [now right|]. intros ->. contradiction.
  - destruct I as [I|I]; [contradiction|]. rewrite (H' k (or_introl eq_refl) D), IH; [ring|exact I|exact N2|].
    intros x Hx. apply H'. now right.
Qed.

Lemma delta_true a b c : triangle a b c ->
  delta_coeff a b c = sqrt (factZ (a + b - c) * factZ (a + c - b) * factZ (b + c - a) / factZ (a + b + c + 1)).
Proof.
  intros (H1 & H2 & H3). unfold delta_coeff.
  replace ((a + b - c <? 0) || (a + c - b <? 0) || (b + c - a <? 0))%Z with false; [reflexivity|].
  symmetry. rewrite !orb_false_iff, !Z.ltb_ge. lia.
Qed.
Lemma delta_false a b c : ~ triangle a b c -> delta_coeff a b c = 0.
Proof.
  intros H. unfold delta_coeff.
  replace ((a + b - c <? 0) || (a + c - b <? 0) || (b + c - a <? 0))%Z with true; [reflexivity|].
  symmetry. rewrite !orb_true_iff, !Z.ltb_lt. unfold triangle in H. lia.
Qed.
Lemma triangle_dec a b c : {triangle a b c} + {~ triangle a b c}.
Proof. unfold triangle. destruct (Z_le_dec a (b + c)), (Z_le_dec b (a + c)), (Z_le_dec c (a + b)); (left; lia) || (right; lia). Qed.

Lemma delta_swap a b c : delta_coeff a b c = delta_coeff b a c.
Proof.
  destruct (triangle_dec a b c) as [T|T].
  - rewrite !delta_true by (unfold triangle in *; lia). f_equal. replace (b + a - c)%Z with (a + b - c)%Z by lia.
    replace (b + a + c + 1)%Z with (a + b + c + 1)%Z by lia. f_equal. ring.
  - rewrite !delta_false by (unfold triangle in *; lia). reflexivity.
Qed.

Lemma fact_step n : (0 <= n)%Z -> factZ (n + 1) = factZ n * (IZR n + 1).
Proof.
  intros H. unfold factZ. replace (Z.to_nat (n + 1)) with (S (Z.to_nat n)) by lia.
  rewrite fact_simpl, mult_INR, S_INR, INR_IZR_INZ, Z2Nat.id by lia. ring.
Qed.

Lemma delta_zero c : (0 <= c)%Z -> delta_coeff c 0 c = / sqrt (IZR (2 * c + 1)).
Proof.
  intros H. rewrite delta_true by (unfold triangle; lia). rewrite <- sqrt_inv. f_equal.
  replace (c + 0 - c)%Z with 0%Z by lia. replace (0 + c - c)%Z with 0%Z by lia. replace (c + c - 0)%Z with (2 * c)%Z by lia.
  replace (c + 0 + c + 1)%Z with (2 * c + 1)%Z by lia. rewrite fact_step by lia. rewrite plus_IZR.
  assert (F0 : factZ 0 = 1) by reflexivity. rewrite F0. pose proof (fact_pos_Z (2 * c)).
  assert (0 <= IZR (2 * c)) by (apply IZR_le; lia). field. lra.
Qed.

Lemma delta_square a b c : triangle a b c -> (0 <= a + b + c)%Z ->
  delta_coeff a b c * delta_coeff a b c = factZ (a + b - c) * factZ (a + c - b) * factZ (b + c - a) / factZ (a + b + c + 1).
Proof.
  intros T _. rewrite delta_true by exact T. apply sqrt_def. left.
  apply Rdiv_lt_0_compat; [repeat apply Rmult_lt_0_compat|]; apply fact_pos_Z.
Qed.

(* ------------------------------------------------------------------ *)
(* Racah coefficients with a zero                                      *)

Lemma racah_turn a b c d e f : racah a b c d e f = racah c d a b e f.
Proof.
  unfold racah. f_equal; [|f_equal; lia]. f_equal.
  - rewrite (delta_swap a c f), (delta_swap b d f). ring.
  - rewrite (Z.max_comm (a + b + e)). replace (c + a + f)%Z with (a + c + f)%Z by lia. replace (d + b + f)%Z with (b + d + f)%Z by lia.
    replace (c + d + a + b)%Z with (a + b + c + d)%Z by lia.
    replace (Z.min (c + b + e + f) (d + a + e + f)) with (Z.min (a + d + e + f) (b + c + e + f)) by lia.
    f_equal. apply map_ext. intros k. unfold racah_summand.
    replace (k - c - a - f)%Z with (k - a - c - f)%Z by lia. replace (k - d - b - f)%Z with (k - b - d - f)%Z by lia.
    replace (c + d + a + b - k)%Z with (a + b + c + d - k)%Z by lia. replace (c + b + e + f - k)%Z with (b + c + e + f - k)%Z by lia.
    replace (d + a + e + f - k)%Z with (a + d + e + f - k)%Z by lia. f_equal. ring.
Qed.

Lemma racah_flip a b c d e f : racah a b c d e f = racah b a d c e f.
Proof.
  unfold racah. f_equal; [|f_equal; lia]. f_equal.
  - rewrite (delta_swap a b e), (delta_swap c d e). ring.
  - rewrite (Z.max_comm (a + c + f)). replace (b + a + e)%Z with (a + b + e)%Z by lia. replace (d + c + e)%Z with (c + d + e)%Z by lia.
    replace (b + a + d + c)%Z with (a + b + c + d)%Z by lia.
    replace (Z.min (b + c + e + f) (a + d + e + f)) with (Z.min (a + d + e + f) (b + c + e + f)) by lia.
    f_equal. apply map_ext. intros k. unfold racah_summand.
    replace (k - b - a - e)%Z with (k - a - b - e)%Z by lia. replace (k - d - c - e)%Z with (k - c - d - e)%Z by lia.
    replace (b + a + d + c - k)%Z with (a + b + c + d - k)%Z by lia. f_equal. ring.
Qed.

Lemma sqrt_pos_deg c : (0 <= c)%Z -> 0 < IZR (2 * c + 1) /\ 0 < sqrt (IZR (2 * c + 1)).
Proof. intros H. assert (P : 0 < IZR (2 * c + 1)) by (apply IZR_lt; lia). split; [exact P|now apply sqrt_lt_R0]. Qed.

Lemma racah_zero a b c : (0 <= a)%Z -> (0 <= b)%Z -> (0 <= c)%Z -> triangle a b c ->
  racah a b c 0 c b = / (sqrt (IZR (2 * b + 1)) * sqrt (IZR (2 * c + 1))).
Proof.
  intros Ha Hb Hc T. unfold racah. unfold triangle in T.
  replace (Z.max (Z.max (a + b + c) (c + 0 + c)) (Z.max (a + c + b) (b + 0 + b))) with (a + b + c)%Z by lia.
  replace (Z.min (a + b + c + 0) (Z.min (a + 0 + c + b) (b + c + c + b))) with (a + b + c)%Z by lia.
  rewrite (sum_one _ _ _ (a + b + c)) by lia. unfold racah_summand.
  replace (a + b + c - a - b - c)%Z with 0%Z by lia. replace (a + b + c - c - 0 - c)%Z with (a + b - c)%Z by lia.
  replace (a + b + c - a - c - b)%Z with 0%Z by lia. replace (a + b + c - b - 0 - b)%Z with (a + c - b)%Z by lia.
  replace (a + b + c + 0 - (a + b + c))%Z with 0%Z by lia. replace (a + 0 + c + b - (a + b + c))%Z with 0%Z by lia.
  replace (b + c + c + b - (a + b + c))%Z with (b + c - a)%Z by lia. replace (a + b + c + 0)%Z with (a + b + c)%Z by lia.
  assert (F0 : factZ 0 = 1) by reflexivity. rewrite F0, !delta_zero by assumption.
  destruct (sqrt_pos_deg b Hb) as [_ B1]. destruct (sqrt_pos_deg c Hc) as [_ C1].
  assert (TB : triangle a b c) by (unfold triangle; lia).
  assert (SW : delta_coeff a c b = delta_coeff a b c).
  { rewrite !delta_true by (unfold triangle; lia). f_equal. replace (a + c + b + 1)%Z with (a + b + c + 1)%Z by lia.
    replace (c + b - a)%Z with (b + c - a)%Z by lia. f_equal. ring. }
  rewrite SW. pose proof (delta_square a b c TB ltac:(lia)) as SQ. set (D := delta_coeff a b c) in *.
  set (X := factZ (a + b - c)) in *. set (Y := factZ (a + c - b)) in *. set (Z0 := factZ (b + c - a)) in *. set (S := factZ (a + b + c + 1)) in *.
  assert (PX : 0 < X) by apply fact_pos_Z. assert (PY : 0 < Y) by apply fact_pos_Z. assert (PZ : 0 < Z0) by apply fact_pos_Z. assert (PS : 0 < S) by apply fact_pos_Z.
  set (sb := sqrt (IZR (2 * b + 1))) in *. set (sc := sqrt (IZR (2 * c + 1))) in *.
  pose proof (sign_sqr (a + b + c)) as SS. set (s := sign (a + b + c)) in *.
  transitivity (D * D * (S / (X * Y * Z0)) * (s * s) * / (sb * sc)).
  - field. repeat split; lra.
  - rewrite SQ, SS. field. repeat split; lra.
Qed.

Lemma racah_zero_f a b c e f : (0 <= b)%Z -> (0 <= f)%Z -> f <> b -> racah a b c 0 e f = 0.
Proof.
  intros Hb Hf NE. unfold racah. rewrite (delta_false b 0 f) by (unfold triangle; lia). ring.
Qed.

(* ------------------------------------------------------------------ *)
(* 9-j symbols with a row of zeros                                     *)

Lemma nine_zero_first a b c : (0 <= a)%Z -> (0 <= b)%Z -> (0 <= c)%Z -> triangle a b c ->
  wigner_9j 0 0 0 a b c a b c = / (sqrt (IZR (2 * a + 1)) * sqrt (IZR (2 * b + 1)) * sqrt (IZR (2 * c + 1))).
Proof.
  intros Ha Hb Hc T. unfold wigner_9j. destruct T as (T1 & T2 & T3).
  rewrite (sum_one _ _ _ c).
  - rewrite (racah_turn 0 0 c c 0 c), (racah_zero c c 0) by (unfold triangle; lia).
    rewrite (racah_zero a c b) by (unfold triangle; lia).
    rewrite (racah_turn 0 a c b a c), (racah_flip c b 0 a a c), (racah_zero b c a) by (unfold triangle; lia).
    destruct (sqrt_pos_deg a Ha) as [_ A1]. destruct (sqrt_pos_deg b Hb) as [_ B1]. destruct (sqrt_pos_deg c Hc) as [C0 C1].
    replace (IZR (2 * 0 + 1)) with 1 by reflexivity. rewrite sqrt_1.
    rewrite <- (sqrt_def (IZR (2 * c + 1))) at 1 by lra. field. repeat split; lra.
  - lia.
  - intros k Hk NE. rewrite (racah_turn 0 0 c c 0 k), (racah_zero_f c c 0 0 k) by lia. ring.
Qed.

Lemma nine_zero_second a b c : (0 <= a)%Z -> (0 <= b)%Z -> (0 <= c)%Z -> triangle a b c ->
  wigner_9j a b c 0 0 0 a b c = / (sqrt (IZR (2 * a + 1)) * sqrt (IZR (2 * b + 1)) * sqrt (IZR (2 * c + 1))).
Proof.
  intros Ha Hb Hc T. unfold wigner_9j. destruct T as (T1 & T2 & T3).
  rewrite (sum_one _ _ _ b).
  - rewrite (racah_zero a b c) by (unfold triangle; lia).
    rewrite (racah_turn 0 0 b b 0 b), (racah_zero b b 0) by (unfold triangle; lia).
    rewrite (racah_turn a 0 c b a b), (racah_zero c b a) by (unfold triangle; lia).
    destruct (sqrt_pos_deg a Ha) as [_ A1]. destruct (sqrt_pos_deg b Hb) as [B0 B1]. destruct (sqrt_pos_deg c Hc) as [_ C1].
    replace (IZR (2 * 0 + 1)) with 1 by reflexivity. rewrite sqrt_1.
    rewrite <- (sqrt_def (IZR (2 * b + 1))) at 1 by lra. field. repeat split; lra.
  - lia.
  - intros k Hk NE. rewrite (racah_zero_f a b c c k) by lia. ring.
Qed.

(* ------------------------------------------------------------------ *)
(* 3-j factors                                                         *)

Lemma h_valid a b c : h_factor a b c <> 0 ->
  (0 <= a)%Z /\ (0 <= b)%Z /\ (0 <= c)%Z /\ triangle a b c /\ sign (a + b + c) = 1.
Proof.
  intros H. pose proof (wigner_reversal a b c (0, 0, 0)%Z) as RV. cbn [mirrored Z.opp] in RV.
  unfold h_factor in H.
  assert (S : sign (a + b + c) = 1).
  { destruct (sign_cases (a + b + c)) as [E|E]; [exact E|]. rewrite E in RV. exfalso. apply H. lra. }
  unfold wigner_3j in H.
  destruct ((0 + 0 + 0 =? 0)%Z && (Z.abs 0 <=? a)%Z && (Z.abs 0 <=? b)%Z && (Z.abs 0 <=? c)%Z && (Z.abs (a - b) <=? c)%Z && (c <=? a + b)%Z) eqn:E; [|now contradict H].
  rewrite !andb_true_iff, !Z.leb_le in E. cbn [Z.abs] in E. unfold triangle. repeat split; try lia; exact S.
Qed.

Lemma h_mid l q : (0 <= l)%Z -> (0 <= q)%Z -> h_factor l 0 q = if Z.eqb l q then sign l / sqrt (IZR (2 * l + 1)) else 0.
Proof.
  intros Hl Hq. destruct (Z.eqb_spec l q) as [<-|NE].
  - unfold h_factor. pose proof (wigner_zero l 0 ltac:(cbn; lia)) as W. change (- 0)%Z with 0%Z in W. rewrite W, Z.add_0_r.
    now rewrite plus_IZR, mult_IZR.
  - destruct (Req_dec (h_factor l 0 q) 0) as [E|E]; [exact E|]. apply h_valid in E as (_ & _ & _ & T & _). unfold triangle in T. lia.
Qed.

Lemma h_last l z : (0 <= l)%Z -> (0 <= z)%Z -> h_factor l z 0 = if Z.eqb l z then sign l / sqrt (IZR (2 * l + 1)) else 0.
Proof.
  intros Hl Hz. destruct (Z.eqb_spec l z) as [<-|NE].
  - unfold h_factor, wigner_3j.
    replace ((0 + 0 + 0 =? 0)%Z && (Z.abs 0 <=? l)%Z && (Z.abs 0 <=? l)%Z && (Z.abs 0 <=? 0)%Z && (Z.abs (l - l) <=? 0)%Z && (0 <=? l + l)%Z) with true
      by (symmetry; rewrite !andb_true_iff, !Z.leb_le, Z.sub_diag; cbn [Z.abs]; repeat split; lia).
    rewrite (sum_one _ _ _ l).
    + replace (l - l - 0)%Z with 0%Z by lia. replace (l + l - 0)%Z with (2 * l)%Z by lia. replace (l - l + 0)%Z with 0%Z by lia.
      replace (- l + l + 0)%Z with 0%Z by lia. replace (l + l + 0 + 1)%Z with (2 * l + 1)%Z by lia.
      replace (l + 0)%Z with l by lia. replace (l - 0)%Z with l by lia. change (0 + 0)%Z with 0%Z. change (0 - 0)%Z with 0%Z.
      unfold racah_term. replace (l + l - 0 - l)%Z with l by lia. replace (l - 0 - l)%Z with 0%Z by lia.
      replace (l + 0 - l)%Z with 0%Z by lia. replace (0 - l + 0 + l)%Z with 0%Z by lia. replace (0 - l - 0 + l)%Z with 0%Z by lia.
      cbn [forallb map fold_right]. replace (0 <=? l)%Z with true by (symmetry; apply Z.leb_le; lia). change (0 <=? 0)%Z with true. cbn [andb].
      assert (F0 : factZ 0 = 1) by reflexivity. rewrite F0, sign_0. rewrite fact_step by lia.
      pose proof (fact_pos_Z l) as Fl. pose proof (fact_pos_Z (2 * l)) as F2. destruct (sqrt_pos_deg l Hl) as [P0 P1].
      rewrite plus_IZR in P0, P1 |- *. set (n := IZR (2 * l)) in *.
      replace (factZ (2 * l) * 1 * 1 / (factZ (2 * l) * (n + 1))) with (/ (n + 1)) by (field; lra).
      replace (factZ l * factZ l * factZ l * factZ l * 1 * 1) with ((factZ l * factZ l) * (factZ l * factZ l)) by ring.
      rewrite sqrt_square by (left; now apply Rmult_lt_0_compat). rewrite sqrt_inv. field. split; lra.
    + lia.
    + intros k Hk NE. unfold racah_term.
      replace (forallb (Z.leb 0) [k; l + l - 0 - k; l - 0 - k; l + 0 - k; 0 - l + 0 + k; 0 - l - 0 + k]%Z) with false; [reflexivity|].
      symmetry. apply not_true_is_false. intros E. cbn [forallb] in E. rewrite !andb_true_iff, !Z.leb_le in E. lia.
  - destruct (Req_dec (h_factor l z 0) 0) as [E|E]; [exact E|]. apply h_valid in E as (_ & _ & _ & T & _). unfold triangle in T. lia.
Qed.

Lemma h_000 : h_factor 0 0 0 = 1.
Proof. rewrite h_mid by lia. cbn [Z.eqb]. rewrite sign_0. change (2 * 0 + 1)%Z with 1%Z. rewrite sqrt_1. field. Qed.

(* ------------------------------------------------------------------ *)
(* The coefficient as a number                                         *)

(** The coefficient as written in the literature: N 9j H_m H H H / (H_Z H_Q). *)
Definition coeff_value (m q z : Z * Z * Z) : R :=
  let '(l1, l2, L) := m in
  let '(z1, z2, zL) := z in
  let '(q1, q2, qL) := q in
  IZR ((2 * l1 + 1) * (2 * l2 + 1) * (2 * L + 1)) * wigner_9j q1 q2 qL z1 z2 zL l1 l2 L
  * (wigner_3j l1 l2 L (0, 0, 0)%Z / (wigner_3j z1 z2 zL (0, 0, 0)%Z * wigner_3j q1 q2 qL (0, 0, 0)%Z)
     * wigner_3j l1 z1 q1 (0, 0, 0)%Z * wigner_3j l2 z2 q2 (0, 0, 0)%Z * wigner_3j L zL qL (0, 0, 0)%Z).

Definition has_symbol (m : Z * Z * Z) : Prop := let '(a, b, c) := m in wigner_3j a b c (0, 0, 0)%Z <> 0.

Lemma over_finite x y : y <> 0 -> over (Finite x) y = Finite (x * / y).
Proof. intros H. unfold over. apply Reqb_false in H. rewrite H. reflexivity. Qed.

Lemma coeff_finite m q z : has_symbol q -> has_symbol z -> coeff_number m q z = Finite (coeff_value m q z).
Proof.
  destruct m as [[l1 l2] L], q as [[q1 q2] qL], z as [[z1 z2] zL]. cbn [has_symbol]. intros HQ HZ.
  unfold coeff_number, h_factor. rewrite (over_finite _ _ HZ), (over_finite _ _ HQ). cbn [times].
  f_equal. unfold coeff_value, n_prefactor. field. split; assumption.
Qed.

(** A product with `zoo` or `nan` in it is not finite. *)
Definition infinite (a : number) : Prop := match a with Finite _ => False | _ => True end.
Lemma times_infinite_l a b : infinite a -> infinite (times a b).
Proof. destruct a, b; cbn; try easy. destruct (Reqb x 0); easy. Qed.
Lemma times_infinite_r a b : infinite b -> infinite (times a b).
Proof. destruct a, b; cbn; try easy. destruct (Reqb x 0); easy. Qed.
Lemma over_zero a : infinite (over a 0).
Proof. unfold over. assert (E : Reqb 0 0 = true) by now apply Reqb_spec. rewrite E. now apply times_infinite_r. Qed.

Lemma coeff_infinite m q z : ~ has_symbol q \/ ~ has_symbol z -> infinite (coeff_number m q z).
Proof.
  destruct m as [[l1 l2] L], q as [[q1 q2] qL], z as [[z1 z2] zL]. cbn [has_symbol]. intros H.
  unfold coeff_number. apply times_infinite_r. do 3 apply times_infinite_l. unfold h_factor.
  destruct (Req_dec (wigner_3j q1 q2 qL (0, 0, 0)%Z) 0) as [E|E]; [rewrite E; apply over_zero|].
  destruct (Req_dec (wigner_3j z1 z2 zL (0, 0, 0)%Z) 0) as [E'|E'].
  - rewrite E'. unfold over at 1. apply times_infinite_l. apply over_zero.
  - destruct H as [H|H]; contradict H; assumption.
Qed.

Definition same3 (m z : Z * Z * Z) : bool :=
  let '(a, b, c) := m in let '(x, y, w) := z in ((a =? x) && (b =? y) && (c =? w))%Z.

Lemma cubes a b c s1 s2 s3 (x := sqrt (IZR (2 * a + 1))) (y := sqrt (IZR (2 * b + 1))) (w := sqrt (IZR (2 * c + 1))) :
  (0 <= a)%Z -> (0 <= b)%Z -> (0 <= c)%Z -> s1 * s2 * s3 = 1 ->
  IZR ((2 * a + 1) * (2 * b + 1) * (2 * c + 1)) * / (x * y * w) * (s1 / x * (s2 / y) * (s3 / w)) = 1.
Proof.
  intros Ha Hb Hc S. destruct (sqrt_pos_deg a Ha) as [A0 A1]. destruct (sqrt_pos_deg b Hb) as [B0 B1]. destruct (sqrt_pos_deg c Hc) as [C0 C1].
  rewrite !mult_IZR. rewrite <- (sqrt_def (IZR (2 * a + 1))), <- (sqrt_def (IZR (2 * b + 1))), <- (sqrt_def (IZR (2 * c + 1))) by lra.
  fold x y w in A1, B1, C1 |- *. transitivity (s1 * s2 * s3); [|exact S]. field. repeat split; lra.
Qed.

Lemma sign_three a b c : sign (a + b + c) = sign a * sign b * sign c.
Proof. now rewrite !sign_plus. Qed.

Lemma value_trivial m z : has_symbol m -> has_symbol z -> coeff_value m (0, 0, 0)%Z z = if same3 m z then 1 else 0.
Proof.
  destruct m as [[l1 l2] L], z as [[z1 z2] zL]. cbn [has_symbol]. intros HM HZ.
  pose proof (h_valid _ _ _ HM) as (M1 & M2 & M3 & MT & MS). pose proof (h_valid _ _ _ HZ) as (Z1 & Z2 & Z3 & _ & _).
  unfold coeff_value. fold (h_factor l1 z1 0) (h_factor l2 z2 0) (h_factor L zL 0) (h_factor 0 0 0).
  rewrite h_000, !h_last by assumption. unfold same3.
  destruct (Z.eqb_spec l1 z1) as [<-|]; cbn [andb]; [|ring].
  destruct (Z.eqb_spec l2 z2) as [<-|]; cbn [andb]; [|ring].
  destruct (Z.eqb_spec L zL) as [<-|]; [|ring].
  rewrite nine_zero_first by assumption. rewrite sign_three in MS.
  transitivity (IZR ((2 * l1 + 1) * (2 * l2 + 1) * (2 * L + 1)) * / (sqrt (IZR (2 * l1 + 1)) * sqrt (IZR (2 * l2 + 1)) * sqrt (IZR (2 * L + 1)))
    * (sign l1 / sqrt (IZR (2 * l1 + 1)) * (sign l2 / sqrt (IZR (2 * l2 + 1))) * (sign L / sqrt (IZR (2 * L + 1))))).
  - match goal with |- _ * (?h / (?h * 1) * ?a * ?b * ?c) = _ => replace (h / (h * 1)) with 1 by (field; exact HM) end. ring.
  - now apply cubes.
Qed.

Lemma value_constant m q : has_symbol m -> has_symbol q -> coeff_value m q (0, 0, 0)%Z = if same3 q m then 1 else 0.
Proof.
  destruct m as [[l1 l2] L], q as [[q1 q2] qL]. cbn [has_symbol]. intros HM HQ.
  pose proof (h_valid _ _ _ HM) as (M1 & M2 & M3 & MT & MS). pose proof (h_valid _ _ _ HQ) as (Q1 & Q2 & Q3 & _ & _).
  unfold coeff_value. fold (h_factor l1 0 q1) (h_factor l2 0 q2) (h_factor L 0 qL) (h_factor 0 0 0).
  rewrite h_000, !h_mid by assumption. unfold same3. rewrite (Z.eqb_sym q1), (Z.eqb_sym q2), (Z.eqb_sym qL).
  destruct (Z.eqb_spec l1 q1) as [<-|]; cbn [andb]; [|ring].
  destruct (Z.eqb_spec l2 q2) as [<-|]; cbn [andb]; [|ring].
  destruct (Z.eqb_spec L qL) as [<-|]; [|ring].
  rewrite nine_zero_second by assumption. rewrite sign_three in MS.
  transitivity (IZR ((2 * l1 + 1) * (2 * l2 + 1) * (2 * L + 1)) * / (sqrt (IZR (2 * l1 + 1)) * sqrt (IZR (2 * l2 + 1)) * sqrt (IZR (2 * L + 1)))
    * (sign l1 / sqrt (IZR (2 * l1 + 1)) * (sign l2 / sqrt (IZR (2 * l2 + 1))) * (sign L / sqrt (IZR (2 * L + 1))))).
  - match goal with |- _ * (?h / (1 * ?h) * ?a * ?b * ?c) = _ => replace (h / (1 * h)) with 1 by (field; exact HM) end. ring.
  - now apply cubes.
Qed.

(* ------------------------------------------------------------------ *)
(* Theorems                                                            *)

(** A multipole given in any of the accepted forms. *)
Definition given (m : mlike) (t : Z * Z * Z) : Prop := let '(a, b, c) := t in multipole m = Ok [a; b; c].

Lemma meq_same m q (tm tq : Z * Z * Z) : given m tm -> given q tq ->
  exists lm lq, multipole m = Ok lm /\ multipole q = Ok lq /\ three lm = Ok tm /\ three lq = Ok tq /\ meq lq lm = same3 tq tm.
Proof.
  destruct tm as [[a b] c], tq as [[x y] w]. cbn. intros Hm Hq. exists [a; b; c]%Z, [x; y; w]%Z. repeat split; try assumption.
  destruct (meq [x; y; w]%Z [a; b; c]%Z) eqn:E.
  - apply meq_spec in E. injection E as -> -> ->. now rewrite !Z.eqb_refl.
  - symmetry. apply not_true_is_false. intros T. rewrite !andb_true_iff, !Z.eqb_eq in T. destruct T as [[-> ->] ->].
    now rewrite meq_refl in E.
Qed.

Lemma coeff_run m q z tm tq tz : given m tm -> given q tq -> given z tz -> is_ic z = false ->
  winconv_coeff m q z = as_float (coeff_number tm tq tz).
Proof.
  destruct tm as [[a b] c], tq as [[x y] w], tz as [[u v] t]. cbn [given]. intros Hm Hq Hz I.
  unfold winconv_coeff. rewrite Hm. cbn. rewrite Hq. cbn. rewrite I, Hz. reflexivity.
Qed.

(** The coefficient returned is the one of the convolution formula, whenever
    the symbols divided by do not vanish. *)
Theorem coeff_formula m q z tm tq tz : given m tm -> given q tq -> given z tz -> is_ic z = false ->
  has_symbol tq -> has_symbol tz -> winconv_coeff m q z = Ok (coeff_value tm tq tz).
Proof.
  intros Hm Hq Hz I SQ SZ. rewrite (coeff_run _ _ _ _ _ _ Hm Hq Hz I), coeff_finite by assumption. reflexivity.
Qed.

(** With the monopole of the window a multipole takes its own correlation
    function with coefficient 1 and no other one. *)
Theorem coeff_trivial_window m q z tm tz : given m tm -> given q (0, 0, 0)%Z -> given z tz -> is_ic z = false ->
  has_symbol tm -> has_symbol tz -> winconv_coeff m q z = Ok (if same3 tm tz then 1 else 0).
Proof.
  intros Hm Hq Hz I SM SZ. rewrite (coeff_formula _ _ _ _ _ _ Hm Hq Hz I); [now rewrite value_trivial| |exact SZ].
  cbn [has_symbol]. fold (h_factor 0 0 0). rewrite h_000. lra.
Qed.

(** With the monopole of the correlation function, which stands for a constant,
    a multipole takes the window of the same multipole with coefficient 1 and
    no other one; 'ic' takes the negative of it. *)
Theorem coeff_constant m q z i tm tq : given m tm -> given q tq -> given z (0, 0, 0)%Z -> is_ic z = false -> is_ic i = true ->
  has_symbol tm -> has_symbol tq ->
  exists c, winconv_coeff m q z = Ok c /\ winconv_coeff m q i = Ok (- c) /\ c = (if same3 tq tm then 1 else 0).
Proof.
  intros Hm Hq Hz I J SM SQ. exists (if same3 tq tm then 1 else 0). split; [|split; [|reflexivity]].
  - rewrite (coeff_formula _ _ _ _ _ _ Hm Hq Hz I SQ); [now rewrite value_constant|].
    cbn [has_symbol]. fold (h_factor 0 0 0). rewrite h_000. lra.
  - destruct (meq_same _ _ _ _ Hm Hq) as (lm & lq & E1 & E2 & _ & _ & E3). unfold winconv_coeff. rewrite E1. cbn. rewrite E2. cbn.
    rewrite J, E3. destruct (same3 tq tm); f_equal; ring.
Qed.

(** Where a symbol divided by vanishes no coefficient is returned, though the
    multipoles are all accepted. *)
Theorem coeff_undefined m q z tm tq tz : given m tm -> given q tq -> given z tz -> is_ic z = false ->
  ~ has_symbol tq \/ ~ has_symbol tz ->
  winconv_coeff m q z = Err NotANumber \/ winconv_coeff m q z = Err TypeError.
Proof.
  intros Hm Hq Hz I S. rewrite (coeff_run _ _ _ _ _ _ Hm Hq Hz I). pose proof (coeff_infinite tm tq tz S) as F.
  destruct (coeff_number tm tq tz); [contradiction|now right|now left].
Qed.

(** Coefficients that do not vanish couple degrees that can be the sides of a
    triangle and add up to an even number, in all six triples. *)
Definition coupled (a b c : Z) : Prop := (triangle a b c /\ Z.Even (a + b + c))%Z.

Lemma symbol_coupled a b c : wigner_3j a b c (0, 0, 0)%Z <> 0 -> coupled a b c.
Proof.
  intros H. apply h_valid in H as (_ & _ & _ & T & S). split; [exact T|].
  destruct (Z.Even_or_Odd (a + b + c)) as [E|[k E]]; [exact E|]. exfalso. rewrite E, sign_plus, sign_1 in S.
  rewrite (sign_even k) in S. lra.
Qed.

Theorem coeff_selection m q z l1 l2 L q1 q2 qL z1 z2 zL c :
  given m (l1, l2, L) -> given q (q1, q2, qL) -> given z (z1, z2, zL) -> is_ic z = false ->
  winconv_coeff m q z = Ok c -> c <> 0 ->
  coupled l1 l2 L /\ coupled q1 q2 qL /\ coupled z1 z2 zL /\ coupled l1 z1 q1 /\ coupled l2 z2 q2 /\ coupled L zL qL.
Proof.
  intros Hm Hq Hz I E NZ.
  assert (SQ : has_symbol (q1, q2, qL)).
  { cbn [has_symbol]. intros Q. destruct (coeff_undefined _ _ _ _ _ _ Hm Hq Hz I) as [X|X]; [left; cbn; tauto|congruence|congruence]. }
  assert (SZ : has_symbol (z1, z2, zL)).
  { cbn [has_symbol]. intros Q. destruct (coeff_undefined _ _ _ _ _ _ Hm Hq Hz I) as [X|X]; [right; cbn; tauto|congruence|congruence]. }
  rewrite (coeff_formula _ _ _ _ _ _ Hm Hq Hz I SQ SZ) in E.
  assert (E' : coeff_value (l1, l2, L) (q1, q2, qL) (z1, z2, zL) = c) by congruence. clear E. rename E' into E.
  cbn [has_symbol] in SQ, SZ. unfold coeff_value in E.
  assert (N : forall x, (x = 0 -> c = 0) -> x <> 0) by (intros x Hx X; exact (NZ (Hx X))).
  refine (conj _ (conj _ (conj _ (conj _ (conj _ _))))); (apply symbol_coupled; try assumption; apply N; intros X; rewrite <- E, X; unfold Rdiv; ring).
Qed.

(** Of the terms of a multipole with the monopole of the window, over any set
    of correlation function multipoles, one is left: the identity. *)
Theorem coeff_terms_trivial (m : Z * Z * Z) (zs : list (Z * Z * Z)) : has_symbol m -> Forall has_symbol zs -> NoDup zs -> In m zs ->
  let as_m := fun t : Z * Z * Z => let '(a, b, c) := t in MSeq [a; b; c] in
  filter (fun z => match winconv_coeff (as_m m) (MSeq [0; 0; 0]%Z) (as_m z) with Ok c => negb (Reqb c 0) | Err _ => true end) zs = [m]
  /\ winconv_coeff (as_m m) (MSeq [0; 0; 0]%Z) (as_m m) = Ok 1.
Proof.
  intros SM SZ N I as_m.
  assert (G : forall t, has_symbol t -> given (as_m t) t).
  { intros [[a b] c] H. apply h_valid in H as (A & B & C0 & _ & _). unfold as_m, given, multipole.
    cbn. repeat match goal with |- context [(?x <? 0)%Z] => replace (x <? 0)%Z with false by (symmetry; apply Z.ltb_ge; lia) end. reflexivity. }
  assert (G0 : given (MSeq [0; 0; 0]%Z) (0, 0, 0)%Z) by reflexivity.
  assert (IC : forall t, is_ic (as_m t) = false) by (intros [[a b] c]; reflexivity).
  assert (V : forall z, has_symbol z -> winconv_coeff (as_m m) (MSeq [0; 0; 0]%Z) (as_m z) = Ok (if same3 m z then 1 else 0)).
  { intros z Hz. apply coeff_trivial_window; auto. }
  assert (SS : forall z, same3 m z = true <-> z = m).
  { destruct m as [[a b] c]. intros [[x y] w]. cbn. rewrite !andb_true_iff, !Z.eqb_eq. split; [intros [[-> ->] ->]; reflexivity|intros [= -> -> ->]; auto]. }
  split.
  - assert (FE : filter (fun z => match winconv_coeff (as_m m) (MSeq [0; 0; 0]%Z) (as_m z) with Ok c => negb (Reqb c 0) | Err _ => true end) zs
      = filter (same3 m) zs).
    { apply filter_ext_in. intros z Hz. rewrite Forall_forall in SZ. rewrite (V z (SZ z Hz)). destruct (same3 m z).
      - assert (E : Reqb 1 0 = false) by (apply Reqb_false; lra). now rewrite E.
      - assert (E : Reqb 0 0 = true) by (now apply Reqb_spec). now rewrite E. }
    rewrite FE. clear FE V G SZ. induction zs as [|z zs IH]; [contradiction|]. inversion N as [|? ? N1 N2]; subst. cbn [filter].
    destruct (same3 m z) eqn:E.
    + apply SS in E as ->. f_equal. destruct (filter (same3 m) zs) as [|y ys] eqn:F; [reflexivity|].
      assert (In y (filter (same3 m) zs)) as Y by (rewrite F; now left). apply filter_In in Y as [Y1 Y2]. apply SS in Y2 as ->. contradiction.
    + destruct I as [->|I]; [|now apply IH]. assert (X : same3 m m = true) by (now apply SS). congruence.
  - rewrite (V m SM). assert (X : same3 m m = true) by (now apply SS). now rewrite X.
Qed.

(** Not every accepted triple of multipoles has a coefficient: with the
    degrees (1, 1, 1), whose sum is odd, the coefficient of a multipole with
    itself in a trivial window is not a number. *)
Theorem coeff_total_refuted :
  exists m q z, given m (1, 1, 1)%Z /\ given q (0, 0, 0)%Z /\ given z (1, 1, 1)%Z /\ winconv_coeff m q z = Err NotANumber.
Proof.
  exists (MSeq [1; 1; 1]%Z), (MSeq [0; 0; 0]%Z), (MSeq [1; 1; 1]%Z).
  assert (H1 : h_factor 1 1 1 = 0).
  { destruct (Req_dec (h_factor 1 1 1) 0) as [E|E]; [exact E|]. apply h_valid in E as (_ & _ & _ & _ & S).
    change (1 + 1 + 1)%Z with (2 * 1 + 1)%Z in S. rewrite sign_plus, sign_1, sign_even in S. lra. }
  repeat split. rewrite (coeff_run _ _ _ (1, 1, 1)%Z (0, 0, 0)%Z (1, 1, 1)%Z) by reflexivity.
  unfold coeff_number. rewrite H1, h_000. unfold over at 2.
  assert (E0 : Reqb 0 0 = true) by now apply Reqb_spec. rewrite E0. cbn [times]. rewrite E0. reflexivity.
Qed.

(** Concrete: the quadrupole (2, 0, 2), in the window's monopole, takes itself
    with coefficient 1 and not the monopole. *)
Example coeff_case :
  has_symbol (2, 0, 2)%Z /\ winconv_coeff (MSeq [2; 0; 2]%Z) (MSeq [0; 0; 0]%Z) (MSeq [2; 0; 2]%Z) = Ok 1
  /\ winconv_coeff (MSeq [2; 0; 2]%Z) (MSeq [0; 0; 0]%Z) (MSeq [0; 0; 0]%Z) = Ok 0
  /\ winconv_coeff (MSeq [2; 0; 2]%Z) (MSeq [2; 0; 2]%Z) (MStr "ic") = Ok (-1).
Proof.
  assert (S : has_symbol (2, 0, 2)%Z).
  { cbn [has_symbol]. fold (h_factor 2 0 2). rewrite h_mid by lia. cbn [Z.eqb Pos.eqb]. assert (S2 : sign 2 = 1) by (exact (sign_even 1)). rewrite S2.
    apply Rmult_integral_contrapositive_currified; [lra|]. apply Rinv_neq_0_compat. apply Rgt_not_eq. apply sqrt_lt_R0. apply IZR_lt. lia. }
  assert (S0 : has_symbol (0, 0, 0)%Z) by (cbn [has_symbol]; fold (h_factor 0 0 0); rewrite h_000; lra).
  split; [exact S|]. split; [|split].
  - exact (coeff_trivial_window (MSeq [2; 0; 2]%Z) (MSeq [0; 0; 0]%Z) (MSeq [2; 0; 2]%Z) (2, 0, 2)%Z (2, 0, 2)%Z eq_refl eq_refl eq_refl eq_refl S S).
  - exact (coeff_trivial_window (MSeq [2; 0; 2]%Z) (MSeq [0; 0; 0]%Z) (MSeq [0; 0; 0]%Z) (2, 0, 2)%Z (0, 0, 0)%Z eq_refl eq_refl eq_refl eq_refl S S0).
  - destruct (coeff_constant (MSeq [2; 0; 2]%Z) (MSeq [2; 0; 2]%Z) (MSeq [0; 0; 0]%Z) (MStr "ic") (2, 0, 2)%Z (2, 0, 2)%Z
      eq_refl eq_refl eq_refl eq_refl eq_refl S S) as (c & _ & E & ->). exact E.
Qed.

Print Assumptions coeff_trivial_window.
Print Assumptions coeff_terms_trivial.
Print Assumptions coeff_constant.
Print Assumptions coeff_selection.
Print Assumptions coeff_undefined.
