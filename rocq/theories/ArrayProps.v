(* Claims C04, C05, C07: 1-d array extrapolation and checks. *)
From Coq Require Import Reals ZArith List Lia Lra Bool.
From Verif Require Import Base ArrayModel ArrayProofs.
Import ListNotations.
Open Scope R_scope.

(** ** Specification vocabulary *)

(** [out] is [a] with [n] extra entries on either side. *)
Definition extends (a out : list R) (n : nat) : Prop :=
  exists l r, out = l ++ a ++ r /\ length l = n /\ length r = n.

(** Positions that belong to the added ends (with the two neighbours needed
    to speak about a step): left triples start below [n], right triples end
    beyond the original samples. *)
Definition end_triple (len n i : nat) : Prop :=
  (i < n)%nat \/ (n + len - 2 <= i /\ i + 2 < n + len + n)%nat.

(** Equal spacing / equal ratio at a triple. *)
Definition equal_step (out : list R) (i : nat) : Prop :=
  nth (i + 1) out 0 - nth i out 0 = nth (i + 2) out 0 - nth (i + 1) out 0.
Definition equal_ratio (out : list R) (i : nat) : Prop :=
  nth i out 0 * nth (i + 2) out 0 = nth (i + 1) out 0 * nth (i + 1) out 0.

(** ** C04 *)

Lemma extends_lar l a r n : length l = n -> length r = n -> extends a (l ++ a ++ r) n.
Proof. intros. exists l, r. auto. Qed.

Theorem extrap_pad_correct :
  forall a n cl cu, (2 <= length a)%nat ->
  exists out, extrap_pad a (Z.of_nat n) cl cu = Ok out /\
    extends a out n /\
    (forall i, (i < n)%nat -> nth i out 0 = cl /\ nth (n + length a + i) out 0 = cu).
Proof.
  intros a n cl cu Ha.
  exists (repeat cl n ++ a ++ repeat cu n). split; [|split].
  - unfold extrap_pad. rewrite check_plain by exact Ha. unfold np_full. cbn [bind].
    destruct (Z.of_nat n <? 0)%Z eqn:E; [apply Z.ltb_lt in E; lia|].
    cbn [bind]. now rewrite Nat2Z.id.
  - apply extends_lar; apply repeat_length.
  - intros i Hi. rewrite !nth_lar, repeat_length.
    assert (R : forall c, nth i (repeat c n) 0 = c).
    { intros c. revert i Hi. clear. induction n; intros i Hi; [lia|].
      destruct i; simpl; [reflexivity|]. apply IHn. lia. }
    split.
    + destruct (i <? n)%nat eqn:E; [apply R|apply Nat.ltb_ge in E; lia].
    + destruct (n + length a + i <? n)%nat eqn:E; [apply Nat.ltb_lt in E; lia|].
      destruct (n + length a + i <? n + length a)%nat eqn:E2; [apply Nat.ltb_lt in E2; lia|].
      replace (n + length a + i - n - length a)%nat with i by lia. apply R.
Qed.

Example extrap_pad_case :
  extrap_pad [1; 2; 4] 2 0 9 = Ok [0; 0; 1; 2; 4; 9; 9].
Proof. reflexivity. Qed.

Theorem extrap_lin_correct :
  forall a n, (2 <= length a)%nat ->
  exists out, extrap_lin a (Z.of_nat n) = Ok out /\
    extends a out n /\
    (forall i, end_triple (length a) n i -> equal_step out i).
Proof.
  intros a n Ha. exists (lin_out a n). split; [now apply extrap_lin_eq|]. split.
  - unfold lin_out. apply extends_lar; rewrite map_length, arange_length; lia.
  - intros i [Hi|Hi]; unfold equal_step.
    + rewrite !lin_out_left by lia. rewrite !plus_INR. simpl. ring.
    + rewrite !lin_out_right by lia. rewrite !plus_INR. simpl. ring.
Qed.

Example extrap_lin_case :
  exists out, extrap_lin [1; 2; 4] 2 = Ok out /\ nth 0 out 0 = -1 /\ nth 1 out 0 = 0 /\
    nth 5 out 0 = 6 /\ nth 6 out 0 = 8 /\ end_triple 3 2 0 /\ end_triple 3 2 4.
Proof.
  exists (lin_out [1; 2; 4] 2). split; [apply (extrap_lin_eq _ 2); simpl; lia|].
  rewrite !lin_out_left by (simpl; lia). rewrite !lin_out_right by (simpl; lia).
  unfold atm1, atm2, at0, at1. simpl.
  repeat split; try lra; unfold end_triple; lia.
Qed.

(** Extending by [n] and then by [m] is extending by [n + m]. *)
Theorem extrap_lin_compose :
  forall a n m, (2 <= length a)%nat ->
  (b <- extrap_lin a (Z.of_nat n) ;; extrap_lin b (Z.of_nat m)) =
  extrap_lin a (Z.of_nat (n + m)).
Proof.
  intros a n m Ha. rewrite (extrap_lin_eq a n Ha). cbn [bind].
  assert (Lb : length (lin_out a n) = (n + length a + n)%nat) by apply lin_out_length.
  rewrite extrap_lin_eq by lia. rewrite extrap_lin_eq by exact Ha. f_equal.
  assert (L1 : length (lin_out (lin_out a n) m) = (m + (n + length a + n) + m)%nat)
    by (rewrite lin_out_length, Lb; lia).
  apply (nth_ext _ _ 0 0); [rewrite L1, lin_out_length; lia|].
  intros i Hi. rewrite L1 in Hi.
  assert (B0 : at0 (lin_out a n) = at0 a - (at1 a - at0 a) * INR n).
  { unfold at0 at 1. rewrite lin_out_left by lia. simpl. ring. }
  assert (B1 : at1 (lin_out a n) - at0 (lin_out a n) = at1 a - at0 a).
  { rewrite B0. unfold at1 at 1. rewrite lin_out_left by lia. simpl INR at 1. ring. }
  assert (E0 : atm1 (lin_out a n) = atm1 a + (atm1 a - atm2 a) * INR n).
  { unfold atm1 at 1. rewrite Lb, lin_out_right by lia. rewrite <- minus_INR by lia.
    do 3 f_equal. lia. }
  assert (E1 : atm1 (lin_out a n) - atm2 (lin_out a n) = atm1 a - atm2 a).
  { rewrite E0. unfold atm2 at 2. rewrite Lb, lin_out_right by lia.
    rewrite !minus_INR by lia. rewrite !plus_INR. simpl. ring. }
  destruct (le_lt_dec i m) as [H|H].
  - rewrite !lin_out_left by lia. rewrite B1, B0, plus_INR. ring.
  - destruct (le_lt_dec (m + n + length a + n) i) as [H2|H2].
    + rewrite (lin_out_right (lin_out a n)) by lia.
      rewrite (lin_out_right a) by lia. rewrite E1, E0, Lb.
      rewrite !minus_INR by lia. rewrite !plus_INR. ring.
    + replace i with (m + (i - m))%nat at 1 by lia.
      rewrite lin_out_mid by lia.
      destruct (le_lt_dec (i - m) n) as [H3|H3].
      * rewrite !lin_out_left by lia. rewrite minus_INR, plus_INR by lia. ring.
      * destruct (le_lt_dec (n + length a) (i - m)) as [H4|H4].
        -- rewrite !lin_out_right by lia. rewrite !minus_INR by lia. rewrite !plus_INR. ring.
        -- replace (i - m)%nat with (n + (i - m - n))%nat by lia.
           replace i with (n + m + (i - m - n))%nat at 2 by lia.
           rewrite !lin_out_mid by lia. reflexivity.
Qed.

Example extrap_lin_compose_case :
  exists b, extrap_lin [1; 2; 4] 1 = Ok b /\ length b = 5%nat /\ is_ok (extrap_lin b 2).
Proof. eexists. split; [reflexivity|]. split; [reflexivity|]. eexists. reflexivity. Qed.

(** A log-linear extension is possible when the end pairs have a common sign. *)
Definition same_sign_ends (a : list R) : Prop :=
  0 < nth 0 a 0 * nth 1 a 0 /\
  0 < nth (length a - 1) a 0 * nth (length a - 2) a 0.

Lemma same_sign_epsign a : same_sign_ends a -> epsign_ok false a = true.
Proof.
  intros [H1 H2]. unfold epsign_ok, at0, at1, atm1, atm2.
  apply Rltb_spec in H1. apply Rltb_spec in H2. now rewrite H1, H2.
Qed.

Lemma same_sign_nz a : same_sign_ends a -> at0 a <> 0 /\ at1 a <> 0 /\ atm1 a <> 0 /\ atm2 a <> 0.
Proof.
  intros [H1 H2]. unfold at0, at1, atm1, atm2.
  repeat split; intros E; rewrite E in *; rewrite ?Rmult_0_l, ?Rmult_0_r in *; lra.
Qed.

Lemma loglin_out_left' a n i : (2 <= length a)%nat -> at0 a <> 0 -> at1 a <> 0 -> (i <= n + 1)%nat ->
  nth i (loglin_out a n) 0 = at0 a * (at1 a / at0 a) ^ i * (at0 a / at1 a) ^ n.
Proof.
  intros Ha N0 N1 Hi.
  assert (P : forall k, (at1 a / at0 a) ^ k * (at0 a / at1 a) ^ k = 1).
  { intros k. rewrite <- Rpow_mult_distr.
    replace (at1 a / at0 a * (at0 a / at1 a)) with 1 by (field; auto). apply pow1. }
  destruct (le_lt_dec i n) as [H|H].
  - rewrite loglin_out_left by lia.
    replace n with (i + (n - i))%nat at 2 by lia. rewrite pow_add.
    rewrite Rmult_assoc, <- (Rmult_assoc (_ ^ i)), P. ring.
  - replace i with (n + 1)%nat by lia. rewrite loglin_out_mid by lia.
    rewrite pow_add, pow_1. fold (at1 a).
    replace (at0 a * ((at1 a / at0 a) ^ n * (at1 a / at0 a)) * (at0 a / at1 a) ^ n)
      with (at0 a * (at1 a / at0 a) * ((at1 a / at0 a) ^ n * (at0 a / at1 a) ^ n)) by ring.
    rewrite P. field. auto.
Qed.

Lemma loglin_out_right' a n i : (2 <= length a)%nat -> atm1 a <> 0 -> atm2 a <> 0 ->
  (n + length a - 2 <= i < n + length a + n)%nat ->
  nth i (loglin_out a n) 0 = atm2 a * (atm1 a / atm2 a) ^ (i - (n + length a - 2)).
Proof.
  intros Ha N1 N2 Hi.
  destruct (Nat.eq_dec i (n + length a - 2)) as [->|Hne].
  - replace (n + length a - 2)%nat with (n + (length a - 2))%nat at 1 by lia.
    rewrite loglin_out_mid by lia. rewrite Nat.sub_diag. unfold atm2. simpl. ring.
  - rewrite loglin_out_right by lia.
    replace (i - (n + length a - 2))%nat with (S (i - (n + length a - 1))) by lia.
    simpl. field. auto.
Qed.

Theorem extrap_loglin_correct :
  forall a n, (2 <= length a)%nat -> same_sign_ends a ->
  exists out, extrap_loglin a (Z.of_nat n) = Ok out /\
    extends a out n /\
    (forall i, end_triple (length a) n i -> equal_ratio out i) /\
    (forall i, (i < n)%nat ->
       0 < nth i out 0 * nth 0 a 0 /\ 0 < nth (n + length a + i) out 0 * nth (length a - 1) a 0).
Proof.
  intros a n Ha Hs. destruct (same_sign_nz a Hs) as (N0 & N1 & M1 & M2).
  exists (loglin_out a n). split; [|split; [|split]].
  - apply extrap_loglin_eq; auto. now apply same_sign_epsign.
  - unfold loglin_out. apply extends_lar;
      rewrite map_length, ?arange_length, ?arange_down_length; lia.
  - intros i [Hi|Hi]; unfold equal_ratio.
    + rewrite !loglin_out_left' by (auto; lia). rewrite !pow_add. simpl. ring.
    + rewrite !loglin_out_right' by (auto; lia).
      replace (i + 2 - (n + length a - 2))%nat with (S (S (i - (n + length a - 2)))) by lia.
      replace (i + 1 - (n + length a - 2))%nat with (S (i - (n + length a - 2))) by lia.
      simpl. ring.
  - intros i Hi.
    assert (Q : forall x y k, x <> 0 -> 0 < x * y -> 0 < x * (x / y) ^ k * x).
    { intros x y k Nx Hxy.
      assert (Ny : y <> 0) by (intros ->; lra).
      assert (0 < x * x) by (now apply Rsqr_pos_lt).
      assert (0 < y * y) by (now apply Rsqr_pos_lt).
      assert (0 < x / y).
      { replace (x / y) with (x * y / (y * y)) by (field; auto).
        now apply Rdiv_lt_0_compat. }
      replace (x * (x / y) ^ k * x) with (x * x * (x / y) ^ k) by ring.
      apply Rmult_lt_0_compat; [assumption|]. now apply pow_lt. }
    destruct Hs as [Hs1 Hs2]. split.
    + rewrite loglin_out_left by lia. apply Q; auto.
    + rewrite loglin_out_right by lia. apply Q; auto.
Qed.

Example extrap_loglin_case :
  same_sign_ends [1; 2; -4; -2] /\
  exists out, extrap_loglin [1; 2; -4; -2] 2 = Ok out /\ nth 0 out 0 = 1 / 4 /\ nth 7 out 0 = - 1 / 2.
Proof.
  assert (S : same_sign_ends [1; 2; -4; -2]) by (split; simpl; lra).
  split; [exact S|].
  exists (loglin_out [1; 2; -4; -2] 2). split.
  - apply (extrap_loglin_eq _ 2); [simpl; lia|now apply same_sign_epsign|].
    right. split; [unfold at1|unfold atm2]; simpl; lra.
  - rewrite loglin_out_left by (simpl; lia). rewrite loglin_out_right by (simpl; lia).
    unfold at0, at1, atm1, atm2. simpl. lra.
Qed.

Theorem extrap_loglin_compose :
  forall a n m, (2 <= length a)%nat -> same_sign_ends a ->
  (b <- extrap_loglin a (Z.of_nat n) ;; extrap_loglin b (Z.of_nat m)) =
  extrap_loglin a (Z.of_nat (n + m)).
Proof.
  intros a n m Ha Hs. destruct (same_sign_nz a Hs) as (N0 & N1 & M1 & M2).
  pose proof (same_sign_epsign a Hs) as He.
  assert (Lb : length (loglin_out a n) = (n + length a + n)%nat) by apply loglin_out_length.
  assert (r1 : at0 a / at1 a <> 0) by (apply Rmult_integral_contrapositive_currified; auto using Rinv_neq_0_compat).
  assert (r2 : atm1 a / atm2 a <> 0) by (apply Rmult_integral_contrapositive_currified; auto using Rinv_neq_0_compat).
  assert (p1 : (at0 a / at1 a) ^ n <> 0) by (now apply pow_nonzero).
  assert (p2 : (atm1 a / atm2 a) ^ n <> 0) by (now apply pow_nonzero).
  assert (B0 : at0 (loglin_out a n) = at0 a * (at0 a / at1 a) ^ n).
  { unfold at0 at 1. rewrite loglin_out_left' by (auto; lia). simpl. ring. }
  assert (B1 : at1 (loglin_out a n) = at1 a * (at0 a / at1 a) ^ n).
  { unfold at1 at 1. rewrite loglin_out_left' by (auto; lia). simpl. field. auto. }
  assert (E0 : atm1 (loglin_out a n) = atm1 a * (atm1 a / atm2 a) ^ n).
  { unfold atm1 at 1. rewrite Lb, loglin_out_right by lia.
    replace (n + length a + n - 1 - (n + length a - 1))%nat with n by lia. reflexivity. }
  assert (E1 : atm2 (loglin_out a n) = atm2 a * (atm1 a / atm2 a) ^ n).
  { unfold atm2 at 1. rewrite Lb, loglin_out_right' by (auto; lia).
    replace (n + length a + n - 2 - (n + length a - 2))%nat with n by lia. reflexivity. }
  assert (Rb : at0 (loglin_out a n) / at1 (loglin_out a n) = at0 a / at1 a).
  { rewrite B0, B1. field. auto. }
  assert (Re : atm1 (loglin_out a n) / atm2 (loglin_out a n) = atm1 a / atm2 a).
  { rewrite E0, E1. field. auto. }
  rewrite (extrap_loglin_eq a n Ha He) by auto. cbn [bind].
  assert (Hsb : same_sign_ends (loglin_out a n)).
  { assert (Q : forall x y c, 0 < x * y -> c <> 0 -> 0 < x * c * (y * c)).
    { intros x y c Hxy Hc. replace (x * c * (y * c)) with (x * y * (c * c)) by ring.
      apply Rmult_lt_0_compat; auto. now apply Rsqr_pos_lt. }
    destruct Hs as [S1 S2]. split.
    - fold (at0 (loglin_out a n)) (at1 (loglin_out a n)). rewrite B0, B1. apply Q; auto.
    - fold (atm1 (loglin_out a n)) (atm2 (loglin_out a n)). rewrite E0, E1. apply Q; auto. }
  rewrite extrap_loglin_eq;
    [|lia|now apply same_sign_epsign|right; now destruct (same_sign_nz _ Hsb) as (_ & ? & _ & ?)].
  rewrite extrap_loglin_eq by auto. f_equal.
  assert (L1 : length (loglin_out (loglin_out a n) m) = (m + (n + length a + n) + m)%nat)
    by (rewrite loglin_out_length, Lb; lia).
  apply (nth_ext _ _ 0 0); [rewrite L1, loglin_out_length; lia|].
  intros i Hi. rewrite L1 in Hi.
  destruct (le_lt_dec i m) as [H|H].
  - rewrite !loglin_out_left by lia. rewrite Rb, B0.
    replace (n + m - i)%nat with (n + (m - i))%nat by lia. rewrite pow_add. ring.
  - destruct (le_lt_dec (m + n + length a + n) i) as [H2|H2].
    + rewrite !loglin_out_right by lia. rewrite Re, E0, Lb.
      replace (i - (n + m + length a - 1))%nat
        with (n + (i - (m + (n + length a + n) - 1)))%nat by lia.
      rewrite pow_add. ring.
    + replace i with (m + (i - m))%nat at 1 by lia.
      rewrite loglin_out_mid by lia.
      destruct (le_lt_dec (i - m) n) as [H3|H3].
      * rewrite !loglin_out_left by lia. do 2 f_equal. lia.
      * destruct (le_lt_dec (n + length a) (i - m)) as [H4|H4].
        -- rewrite !loglin_out_right by lia. do 2 f_equal. lia.
        -- replace (i - m)%nat with (n + (i - m - n))%nat by lia.
           replace i with (n + m + (i - m - n))%nat at 2 by lia.
           rewrite !loglin_out_mid by lia. reflexivity.
Qed.

Example extrap_loglin_compose_case : same_sign_ends [3; 6; 6; -5; -10].
Proof. split; simpl; lra. Qed.

(** Exactly which arrays the log-linear extrapolator accepts, and the hole in
    its endpoint check: an array ending in two zeros passes the check but the
    added points are 0/0. *)
Definition end_ok (x y : R) : Prop := 0 < x * y \/ x = 0.

Theorem extrap_loglin_outcome :
  forall a n, (0 < n)%nat ->
  let x0 := nth 0 a 0 in let x1 := nth 1 a 0 in
  let y0 := nth (length a - 1) a 0 in let y1 := nth (length a - 2) a 0 in
  ((length a < 2)%nat -> extrap_loglin a (Z.of_nat n) = Err ShapeError) /\
  ((2 <= length a)%nat -> ~ (end_ok x0 x1 /\ end_ok y0 y1) ->
     extrap_loglin a (Z.of_nat n) = Err MixedSignError) /\
  ((2 <= length a)%nat -> end_ok x0 x1 /\ end_ok y0 y1 ->
     (extrap_loglin a (Z.of_nat n) = Err NotANumber <-> (x1 = 0 \/ y1 = 0)) /\
     (is_ok (extrap_loglin a (Z.of_nat n)) <-> (x1 <> 0 /\ y1 <> 0))).
Proof.
  intros a n Hn x0 x1 y0 y1.
  assert (E : epsign_ok false a = true <-> end_ok x0 x1 /\ end_ok y0 y1).
  { unfold epsign_ok, end_ok. rewrite andb_true_iff, !orb_true_iff, !Rltb_spec, !Reqb_spec.
    reflexivity. }
  split; [|split].
  - intros H. unfold extrap_loglin. now rewrite check_small.
  - intros H He. unfold extrap_loglin, check_1d_array.
    destruct (length a <? 2)%nat eqn:E2; [apply Nat.ltb_lt in E2; lia|].
    destruct (epsign_ok false a) eqn:E3; [tauto|]. reflexivity.
  - intros H He. apply E in He. unfold extrap_loglin.
    rewrite check_epsign_ok by assumption. cbn [bind].
    replace (0 <? Z.of_nat n)%Z with true by (symmetry; apply Z.ltb_lt; lia).
    cbn [andb]. destruct (Reqb (at1 a) 0 || Reqb (atm2 a) 0) eqn:E4.
    + rewrite orb_true_iff, !Reqb_spec in E4. unfold at1, atm2 in E4. fold x1 y1 in E4.
      split; [tauto|]. split; [intros [o Ho]; discriminate|tauto].
    + apply orb_false_iff in E4 as [E4 E5]. apply Reqb_false in E4, E5.
      unfold at1, atm2 in E4, E5. fold x1 in E4. fold y1 in E5.
      split; [split; [discriminate|tauto]|]. split; [tauto|]. intros _. eexists. reflexivity.
Qed.

Example extrap_loglin_outcome_case :
  extrap_loglin [0; 0; 1; 2] 1 = Err NotANumber /\ is_ok (extrap_loglin [0; 3; 1; 2] 1).
Proof.
  split.
  - apply (extrap_loglin_outcome [0; 0; 1; 2] 1); simpl; try lia; unfold end_ok; lra.
  - apply (extrap_loglin_outcome [0; 3; 1; 2] 1); simpl; try lia; unfold end_ok; lra.
Qed.

(** ** C05 *)

Theorem cpp_extrap_pad_agrees :
  forall a n cl cu, (2 <= length a)%nat ->
  extrap_pad a (Z.of_nat n) cl cu = Ok (cpp_extrap_pad a n cl cu).
Proof.
  intros a n cl cu Ha.
  destruct (extrap_pad_correct a n cl cu Ha) as (out & -> & (l & r & -> & Hl & Hr) & H).
  f_equal. unfold cpp_extrap_pad.
  apply (nth_ext _ _ 0 0).
  { rewrite map_length, seq_length, !app_length. lia. }
  intros i Hi. rewrite !app_length in Hi. rewrite nth_tab by lia.
  destruct (i <? n)%nat eqn:E1.
  - apply Nat.ltb_lt in E1. now apply H.
  - apply Nat.ltb_ge in E1. destruct (i <? n + length a)%nat eqn:E2.
    + apply Nat.ltb_lt in E2. rewrite nth_lar, Hl.
      destruct (i <? n)%nat eqn:E3; [apply Nat.ltb_lt in E3; lia|].
      destruct (i <? n + length a)%nat eqn:E4; [reflexivity|apply Nat.ltb_ge in E4; lia].
    + apply Nat.ltb_ge in E2.
      replace i with (n + length a + (i - n - length a))%nat by lia.
      apply H. lia.
Qed.

Theorem cpp_extrap_lin_agrees :
  forall a n, (2 <= length a)%nat ->
  cpp_extrap_lin a n = extrap_lin a (Z.of_nat n).
Proof.
  intros a n Ha. rewrite extrap_lin_eq by exact Ha. unfold cpp_extrap_lin.
  destruct (length a <? 2)%nat eqn:E; [apply Nat.ltb_lt in E; lia|]. f_equal.
  apply (nth_ext _ _ 0 0).
  { now rewrite lin_out_length, map_length, seq_length. }
  intros i Hi. rewrite map_length, seq_length in Hi. rewrite nth_tab by lia.
  destruct (i <? n)%nat eqn:E1.
  - apply Nat.ltb_lt in E1. rewrite lin_out_left by lia. rewrite INR_IZR_sub.
    unfold at0, at1. ring.
  - apply Nat.ltb_ge in E1. destruct (i <? n + length a)%nat eqn:E2.
    + apply Nat.ltb_lt in E2. replace i with (n + (i - n))%nat at 2 by lia.
      now rewrite lin_out_mid by lia.
    + apply Nat.ltb_ge in E2. rewrite lin_out_right by lia.
      replace (Z.of_nat i - (Z.of_nat n + Z.of_nat (length a) - 1))%Z
        with (Z.of_nat i - Z.of_nat (n + length a - 1))%Z by lia.
      rewrite INR_IZR_sub. unfold atm1, atm2. ring.
Qed.

Example cpp_extrap_lin_agrees_case : exists out, cpp_extrap_lin [1; 2; 4] 1 = Ok out /\ length out = 5%nat.
Proof. eexists. split; reflexivity. Qed.

(** Whenever the C++ log-linear extrapolator accepts, Python returns the same
    array. *)
Theorem cpp_extrap_loglin_agrees :
  forall a n out, cpp_extrap_loglin a n = Ok out -> extrap_loglin a (Z.of_nat n) = Ok out.
Proof.
  intros a n out. unfold cpp_extrap_loglin.
  destruct (length a =? 0)%nat eqn:E0; [discriminate|].
  destruct (cpp_check_sign a) eqn:Es; [|discriminate].
  destruct (length a <? 2)%nat eqn:E2; [discriminate|]. cbn [negb].
  apply Nat.ltb_ge in E2. intros H. injection H as <-.
  unfold cpp_check_sign in Es. rewrite all_adjacent_spec in Es.
  assert (P : forall i, (S i < length a)%nat -> 0 < nth i a 0 * nth (S i) a 0).
  { intros i Hi. specialize (Es i Hi). apply negb_true_iff, Rleb_false in Es. exact Es. }
  assert (Hs : same_sign_ends a).
  { split; [apply P; lia|].
    specialize (P (length a - 2)%nat ltac:(lia)).
    replace (S (length a - 2)) with (length a - 1)%nat in P by lia. lra. }
  destruct (same_sign_nz a Hs) as (N0 & N1 & M1 & M2).
  rewrite extrap_loglin_eq; [|lia|now apply same_sign_epsign|auto]. f_equal.
  assert (Pos : forall x y, 0 < x * y -> 0 < y / x).
  { intros x y Hxy. assert (x <> 0) by (intros ->; lra).
    replace (y / x) with (x * y / (x * x)) by (field; auto).
    apply Rdiv_lt_0_compat; auto. now apply Rsqr_pos_lt. }
  destruct Hs as [S1 S2].
  apply (nth_ext _ _ 0 0).
  { now rewrite loglin_out_length, map_length, seq_length. }
  intros i Hi. rewrite loglin_out_length in Hi. rewrite nth_tab by lia.
  destruct (i <? n)%nat eqn:E1.
  - apply Nat.ltb_lt in E1. rewrite loglin_out_left by lia. fold (at0 a) (at1 a). f_equal.
    replace (at0 a / at1 a) with (/ (at1 a / at0 a)) by (field; auto).
    rewrite <- (exp_ln (at1 a / at0 a)) at 1 by (apply Pos; exact S1).
    rewrite <- exp_Ropp, <- exp_mult_nat. f_equal.
    rewrite INR_IZR_sub, minus_INR by lia. ring.
  - apply Nat.ltb_ge in E1. destruct (i <? n + length a)%nat eqn:E3.
    + apply Nat.ltb_lt in E3. replace i with (n + (i - n))%nat at 1 by lia.
      now rewrite loglin_out_mid by lia.
    + apply Nat.ltb_ge in E3. rewrite loglin_out_right by lia.
      fold (atm1 a) (atm2 a). f_equal.
      rewrite <- (exp_ln (atm1 a / atm2 a)) at 1 by (apply Pos; unfold atm1, atm2; lra).
      rewrite <- exp_mult_nat. f_equal. f_equal.
      rewrite INR_IZR_INZ. f_equal. lia.
Qed.

Example cpp_extrap_loglin_agrees_case : is_ok (cpp_extrap_loglin [1; 2; 8] 3).
Proof.
  unfold cpp_extrap_loglin.
  replace (cpp_check_sign [1; 2; 8]) with true; [eexists; reflexivity|].
  symmetry. apply all_adjacent_spec. intros i Hi. simpl in Hi.
  apply negb_true_iff, Rleb_false. destruct i as [|[|i]]; simpl; try lra. lia.
Qed.

(** They do not accept the same inputs: Python only looks at the end pairs. *)
Theorem extrap_loglin_same_domain_refuted :
  exists a n out, extrap_loglin a (Z.of_nat n) = Ok out /\ cpp_extrap_loglin a n = Err ValueError.
Proof.
  exists [1; 2; -2; -1], 1%nat. eexists. split.
  - apply extrap_loglin_eq; [simpl; lia| |right; unfold at1, atm2; simpl; lra].
    apply same_sign_epsign. split; simpl; lra.
  - unfold cpp_extrap_loglin.
    replace (cpp_check_sign [1; 2; -2; -1]) with false; [reflexivity|].
    symmetry. apply not_true_is_false. intros H. unfold cpp_check_sign in H.
    rewrite all_adjacent_spec in H.
    specialize (H 1%nat ltac:(simpl; lia)). apply negb_true_iff, Rleb_false in H.
    simpl in H. lra.
Qed.

(** ** C07 *)

Definition monotone (a : list R) : Prop :=
  (forall i, (S i < length a)%nat -> nth i a 0 <= nth (S i) a 0) \/
  (forall i, (S i < length a)%nat -> nth (S i) a 0 <= nth i a 0).

Definition constant (a : list R) : Prop :=
  forall i j, (i < length a)%nat -> (j < length a)%nat -> nth i a 0 = nth j a 0.

(** What the check accepts: constant arrays only. *)
Theorem check_sorted_accepts_constants :
  forall a, (2 <= length a)%nat ->
  (check_1d_array true false false false a = Ok a <-> constant a) /\
  (check_1d_array true false false false a = Err OrderError <-> ~ constant a).
Proof.
  intros a Ha.
  assert (E : all_adjacent Rleb a = true /\ all_adjacent (fun x y => Rleb y x) a = true <-> constant a).
  { rewrite !all_adjacent_spec. split.
    - intros [H1 H2].
      assert (S : forall i, (S i < length a)%nat -> nth (S i) a 0 = nth i a 0).
      { intros i Hi. specialize (H1 i Hi). specialize (H2 i Hi).
        apply Rleb_spec in H1, H2. lra. }
      assert (Z : forall i, (i < length a)%nat -> nth i a 0 = nth 0 a 0).
      { induction i as [|i IH]; intros Hi; [reflexivity|].
        rewrite S by exact Hi. apply IH. lia. }
      intros i j Hi Hj. now rewrite (Z i Hi), (Z j Hj).
    - intros C. split; intros i Hi; apply Rleb_spec; rewrite (C i (S i)) by lia; lra. }
  unfold check_1d_array.
  destruct (length a <? 2)%nat eqn:E2; [apply Nat.ltb_lt in E2; lia|].
  destruct (all_adjacent Rleb a) eqn:A1, (all_adjacent (fun x y => Rleb y x) a) eqn:A2;
    cbn [negb orb andb].
  - assert (C : constant a) by (apply E; auto). split; split; auto; intros; congruence || tauto.
  - assert (C : ~ constant a) by (intros C; apply E in C; destruct C; congruence).
    split; split; auto; intros; congruence || tauto.
  - assert (C : ~ constant a) by (intros C; apply E in C; destruct C; congruence).
    split; split; auto; intros; congruence || tauto.
  - assert (C : ~ constant a) by (intros C; apply E in C; destruct C; congruence).
    split; split; auto; intros; congruence || tauto.
Qed.

Example check_sorted_accepts_constants_case : constant [3; 3; 3] /\ ~ constant [1; 2; 3].
Proof.
  split.
  - intros i j Hi Hj. simpl in Hi, Hj.
    destruct i as [|[|[|i]]], j as [|[|[|j]]]; simpl; try reflexivity; lia.
  - intros C. specialize (C 0%nat 1%nat ltac:(simpl; lia) ltac:(simpl; lia)). simpl in C. lra.
Qed.

(** So the documented check ("sorted") is refuted: a sorted array is rejected. *)
Theorem check_sorted_refuted :
  exists a, monotone a /\ check_1d_array true false false false a = Err OrderError.
Proof.
  exists [1; 2; 3]. split.
  - left. intros i Hi. simpl in Hi. destruct i as [|[|i]]; simpl; try lra. lia.
  - apply check_sorted_accepts_constants; [simpl; lia|].
    apply check_sorted_accepts_constants_case.
Qed.

(** The spacing check accepts every arithmetic progression, whatever its
    length, start and step. *)
Theorem check_lin_accepts_progressions :
  forall n x d, (2 <= n)%nat ->
  let a := map (fun i => x + d * INR i) (seq 0 n) in
  check_1d_array false false true false a = Ok a.
Proof.
  intros n x d Hn a. unfold check_1d_array.
  assert (La : length a = n) by (unfold a; now rewrite map_length, seq_length).
  rewrite La. destruct (n <? 2)%nat eqn:E; [apply Nat.ltb_lt in E; lia|].
  cbn [andb].
  assert (D : forall n s, diffs (map (fun i => x + d * INR i) (seq s n)) = repeat d (n - 1)).
  { clear. induction n as [|n IH]; intros s; [reflexivity|].
    destruct n as [|n]; [reflexivity|].
    specialize (IH (S s)). cbn [seq map diffs] in *. rewrite IH.
    replace (S (S n) - 1)%nat with (S (S n - 1)) by lia. cbn [repeat]. f_equal.
    rewrite S_INR. ring. }
  assert (M : rmean (repeat d (n - 1)) = d).
  { unfold rmean. rewrite repeat_length.
    assert (Hr : forall k, rsum (repeat d k) = INR k * d).
    { induction k as [|k IH]; [simpl; ring|]. cbn [repeat rsum fold_right].
      fold (rsum (repeat d k)). rewrite IH, S_INR. ring. }
    rewrite Hr. field. apply not_0_INR. lia. }
  unfold a. rewrite D, M.
  replace (allclose (repeat d (n - 1)) d) with true; [reflexivity|].
  symmetry. unfold allclose. apply forallb_forall. intros v Hv.
  apply repeat_spec in Hv. subst v. apply Rleb_spec.
  rewrite Rminus_diag_eq, Rabs_R0 by reflexivity.
  pose proof (Rabs_pos d). lra.
Qed.

Print Assumptions extrap_pad_correct.
Print Assumptions extrap_lin_correct.
Print Assumptions extrap_lin_compose.
Print Assumptions extrap_loglin_correct.
Print Assumptions extrap_loglin_compose.
Print Assumptions extrap_loglin_outcome.
Print Assumptions cpp_extrap_pad_agrees.
Print Assumptions cpp_extrap_lin_agrees.
Print Assumptions cpp_extrap_loglin_agrees.
Print Assumptions extrap_loglin_same_domain_refuted.
Print Assumptions check_sorted_accepts_constants.
Print Assumptions check_sorted_refuted.
Print Assumptions check_lin_accepts_progressions.
