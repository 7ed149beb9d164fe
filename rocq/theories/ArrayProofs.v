(* Lemmas about ArrayModel. *)
From Coq Require Import Reals ZArith List Lia Lra Bool.
From Verif Require Import Base ArrayModel.
Import ListNotations.
Open Scope R_scope.

Lemma Rleb_spec x y : Rleb x y = true <-> x <= y.
Proof. unfold Rleb. destruct (Rle_dec x y); split; intros; auto; discriminate. Qed.
Lemma Rltb_spec x y : Rltb x y = true <-> x < y.
Proof. unfold Rltb. destruct (Rlt_dec x y); split; intros; auto; discriminate. Qed.
Lemma Reqb_spec x y : Reqb x y = true <-> x = y.
Proof. unfold Reqb. destruct (Req_EM_T x y); split; intros; auto; discriminate. Qed.
Lemma Rleb_false x y : Rleb x y = false <-> y < x.
Proof. unfold Rleb. destruct (Rle_dec x y); split; intros; auto; try discriminate; lra. Qed.
Lemma Rltb_false x y : Rltb x y = false <-> y <= x.
Proof. unfold Rltb. destruct (Rlt_dec x y); split; intros; auto; try discriminate; lra. Qed.
Lemma Reqb_false x y : Reqb x y = false <-> x <> y.
Proof. unfold Reqb. destruct (Req_EM_T x y); split; intros; auto; try discriminate; tauto. Qed.

Lemma arange_length lo hi : length (arange lo hi) = Z.to_nat (hi - lo).
Proof. unfold arange. now rewrite map_length, seq_length. Qed.

Lemma arange_down_length n : length (arange_down n) = Z.to_nat n.
Proof. unfold arange_down. now rewrite map_length, seq_length. Qed.

Lemma nth_map_arange (f : Z -> R) lo hi i d :
  (i < Z.to_nat (hi - lo))%nat ->
  nth i (map f (arange lo hi)) d = f (lo + Z.of_nat i)%Z.
Proof.
  intros H. rewrite (nth_indep _ d (f 0%Z)) by (now rewrite map_length, arange_length).
  rewrite map_nth. f_equal. unfold arange.
  set (g := fun i0 : nat => (lo + Z.of_nat i0)%Z).
  rewrite (nth_indep _ 0%Z (g 0%nat)) by (now rewrite map_length, seq_length).
  rewrite map_nth, seq_nth by exact H. reflexivity.
Qed.

Lemma nth_map_arange_down (f : Z -> R) n i d :
  (i < Z.to_nat n)%nat ->
  nth i (map f (arange_down n)) d = f (n - Z.of_nat i)%Z.
Proof.
  intros H. rewrite (nth_indep _ d (f 0%Z)) by (now rewrite map_length, arange_down_length).
  rewrite map_nth. f_equal. unfold arange_down.
  set (g := fun i0 : nat => (n - Z.of_nat i0)%Z).
  rewrite (nth_indep _ 0%Z (g 0%nat)) by (now rewrite map_length, seq_length).
  rewrite map_nth, seq_nth by exact H. reflexivity.
Qed.

Lemma nth_tab (f : nat -> R) n i d : (i < n)%nat -> nth i (map f (seq 0 n)) d = f i.
Proof.
  intros H. rewrite (nth_indep _ d (f 0%nat)) by (now rewrite map_length, seq_length).
  now rewrite map_nth, seq_nth.
Qed.

(** Positions in [l ++ a ++ r]. *)
Lemma nth_lar (l a r : list R) i d :
  nth i (l ++ a ++ r) d =
  if (i <? length l)%nat then nth i l d
  else if (i <? length l + length a)%nat then nth (i - length l) a d
  else nth (i - length l - length a) r d.
Proof.
  destruct (i <? length l)%nat eqn:E1.
  - apply Nat.ltb_lt in E1. now rewrite app_nth1.
  - apply Nat.ltb_ge in E1. rewrite app_nth2 by lia.
    destruct (i <? length l + length a)%nat eqn:E2.
    + apply Nat.ltb_lt in E2. rewrite app_nth1 by lia. reflexivity.
    + apply Nat.ltb_ge in E2. rewrite app_nth2 by lia. reflexivity.
Qed.

Lemma check_plain a : (2 <= length a)%nat -> check_1d_array false false false false a = Ok a.
Proof.
  intros H. unfold check_1d_array.
  destruct (length a <? 2)%nat eqn:E; [apply Nat.ltb_lt in E; lia|]. reflexivity.
Qed.

Lemma check_small cs ce cl cg a : (length a < 2)%nat -> check_1d_array cs ce cl cg a = Err ShapeError.
Proof.
  intros H. unfold check_1d_array. apply Nat.ltb_lt in H. now rewrite H.
Qed.

Lemma check_epsign_ok a : (2 <= length a)%nat -> epsign_ok false a = true ->
  check_1d_array false true false false a = Ok a.
Proof.
  intros H He. unfold check_1d_array.
  destruct (length a <? 2)%nat eqn:E; [apply Nat.ltb_lt in E; lia|].
  cbn [andb]. now rewrite He.
Qed.

(** Linear extrapolation: the value formulas, valid on the added points and
    on the two adjacent original points. *)
Definition lin_out (a : list R) (n : nat) : list R :=
  map (fun k => at0 a + (at1 a - at0 a) * IZR k) (arange (- Z.of_nat n) 0)
  ++ a ++
  map (fun k => atm1 a + (atm1 a - atm2 a) * IZR k) (arange 1 (Z.of_nat n + 1)).

Lemma lin_out_length a n : length (lin_out a n) = (n + length a + n)%nat.
Proof.
  unfold lin_out. rewrite !app_length, !map_length, !arange_length. lia.
Qed.

Lemma extrap_lin_eq a n : (2 <= length a)%nat ->
  extrap_lin a (Z.of_nat n) = Ok (lin_out a n).
Proof. intros H. unfold extrap_lin. rewrite check_plain by exact H. reflexivity. Qed.

Lemma lin_out_left a n i : (2 <= length a)%nat -> (i <= n + 1)%nat ->
  nth i (lin_out a n) 0 = at0 a + (at1 a - at0 a) * (INR i - INR n).
Proof.
  intros Ha Hi. unfold lin_out. rewrite nth_lar, map_length, arange_length.
  replace (Z.to_nat (0 - - Z.of_nat n)) with n by lia.
  destruct (i <? n)%nat eqn:E1.
  - apply Nat.ltb_lt in E1. rewrite nth_map_arange by lia.
    rewrite plus_IZR, opp_IZR, <- !INR_IZR_INZ. ring.
  - apply Nat.ltb_ge in E1.
    destruct (i <? n + length a)%nat eqn:E2; [|apply Nat.ltb_ge in E2; lia].
    assert (Hc : i = n \/ i = S n) by lia. destruct Hc as [->| ->].
    + replace (n - n)%nat with 0%nat by lia. unfold at0. ring.
    + replace (S n - n)%nat with 1%nat by lia. rewrite S_INR. unfold at0, at1. ring.
Qed.

Lemma lin_out_mid a n i : (i < length a)%nat ->
  nth (n + i) (lin_out a n) 0 = nth i a 0.
Proof.
  intros Hi. unfold lin_out. rewrite nth_lar, map_length, arange_length.
  replace (Z.to_nat (0 - - Z.of_nat n)) with n by lia.
  destruct (n + i <? n)%nat eqn:E1; [apply Nat.ltb_lt in E1; lia|].
  destruct (n + i <? n + length a)%nat eqn:E2; [|apply Nat.ltb_ge in E2; lia].
  f_equal. lia.
Qed.

Lemma lin_out_right a n i : (2 <= length a)%nat ->
  (n + length a - 2 <= i < n + length a + n)%nat ->
  nth i (lin_out a n) 0 =
  atm1 a + (atm1 a - atm2 a) * (INR i - INR (n + length a - 1)).
Proof.
  intros Ha Hi.
  destruct (le_lt_dec (n + length a) i) as [H|H].
  - unfold lin_out. rewrite nth_lar, map_length, arange_length.
    replace (Z.to_nat (0 - - Z.of_nat n)) with n by lia.
    destruct (i <? n)%nat eqn:E1; [apply Nat.ltb_lt in E1; lia|].
    destruct (i <? n + length a)%nat eqn:E2; [apply Nat.ltb_lt in E2; lia|].
    rewrite nth_map_arange by lia.
    do 2 f_equal. rewrite <- minus_INR by lia. rewrite INR_IZR_INZ. f_equal. lia.
  - replace i with (n + (i - n))%nat at 1 by lia. rewrite lin_out_mid by lia.
    assert (Hc : i = (n + length a - 1)%nat \/ S i = (n + length a - 1)%nat) by lia.
    destruct Hc as [->|Hc].
    + unfold atm1. replace (n + length a - 1 - n)%nat with (length a - 1)%nat by lia. ring.
    + rewrite <- Hc, S_INR. unfold atm1, atm2.
      replace (i - n)%nat with (length a - 2)%nat by lia. ring.
Qed.

(** Log-linear extrapolation. *)
Definition loglin_out (a : list R) (n : nat) : list R :=
  map (fun k => at0 a * rpow (at0 a / at1 a) k) (arange_down (Z.of_nat n))
  ++ a ++
  map (fun k => atm1 a * rpow (atm1 a / atm2 a) k) (arange 1 (Z.of_nat n + 1)).

Lemma loglin_out_length a n : length (loglin_out a n) = (n + length a + n)%nat.
Proof.
  unfold loglin_out. rewrite !app_length, !map_length, arange_length, arange_down_length. lia.
Qed.

Lemma extrap_loglin_eq a n : (2 <= length a)%nat -> epsign_ok false a = true ->
  (n = 0%nat \/ (at1 a <> 0 /\ atm2 a <> 0)) ->
  extrap_loglin a (Z.of_nat n) = Ok (loglin_out a n).
Proof.
  intros H He Hn. unfold extrap_loglin. rewrite check_epsign_ok by assumption.
  cbn [bind].
  replace ((0 <? Z.of_nat n)%Z && (Reqb (at1 a) 0 || Reqb (atm2 a) 0)) with false; [reflexivity|].
  symmetry. destruct Hn as [->|[H1 H2]]; [reflexivity|].
  apply Reqb_false in H1. apply Reqb_false in H2. rewrite H1, H2. apply andb_false_r.
Qed.

Lemma loglin_out_mid a n i : (i < length a)%nat ->
  nth (n + i) (loglin_out a n) 0 = nth i a 0.
Proof.
  intros Hi. unfold loglin_out. rewrite nth_lar, map_length, arange_down_length.
  rewrite Nat2Z.id.
  destruct (n + i <? n)%nat eqn:E1; [apply Nat.ltb_lt in E1; lia|].
  destruct (n + i <? n + length a)%nat eqn:E2; [|apply Nat.ltb_ge in E2; lia].
  f_equal. lia.
Qed.

Lemma loglin_out_left a n i : (2 <= length a)%nat -> (i <= n)%nat ->
  nth i (loglin_out a n) 0 = at0 a * (at0 a / at1 a) ^ (n - i).
Proof.
  intros Ha Hi. destruct (Nat.eq_dec i n) as [->|Hne].
  - replace n with (n + 0)%nat at 1 by lia. rewrite loglin_out_mid by lia.
    rewrite Nat.sub_diag. unfold at0. simpl. ring.
  - unfold loglin_out. rewrite nth_lar, map_length, arange_down_length, Nat2Z.id.
    destruct (i <? n)%nat eqn:E1; [|apply Nat.ltb_ge in E1; lia].
    rewrite nth_map_arange_down by lia. unfold rpow.
    f_equal. f_equal. lia.
Qed.

Lemma loglin_out_right a n i : (2 <= length a)%nat ->
  (n + length a - 1 <= i < n + length a + n)%nat ->
  nth i (loglin_out a n) 0 = atm1 a * (atm1 a / atm2 a) ^ (i - (n + length a - 1)).
Proof.
  intros Ha Hi. destruct (Nat.eq_dec i (n + length a - 1)) as [->|Hne].
  - replace (n + length a - 1)%nat with (n + (length a - 1))%nat at 1 by lia.
    rewrite loglin_out_mid by lia. rewrite Nat.sub_diag. unfold atm1. simpl. ring.
  - unfold loglin_out. rewrite nth_lar, map_length, arange_down_length, Nat2Z.id.
    destruct (i <? n)%nat eqn:E1; [apply Nat.ltb_lt in E1; lia|].
    destruct (i <? n + length a)%nat eqn:E2; [apply Nat.ltb_lt in E2; lia|].
    rewrite nth_map_arange by lia. unfold rpow. f_equal. f_equal. lia.
Qed.

(** All adjacent. *)
Lemma all_adjacent_spec rel a :
  all_adjacent rel a = true <->
  forall i, (S i < length a)%nat -> rel (nth i a 0) (nth (S i) a 0) = true.
Proof.
  induction a as [|x [|y t] IH].
  - simpl. split; auto. intros _ i Hi. lia.
  - simpl. split; auto. intros _ i Hi. lia.
  - cbn [all_adjacent]. rewrite andb_true_iff, IH. split.
    + intros [H1 H2] [|i] Hi; [exact H1|]. apply H2. simpl in *. lia.
    + intros H. split; [apply (H 0%nat); simpl; lia|].
      intros i Hi. apply (H (S i)). simpl in *. lia.
Qed.

Lemma INR_IZR_sub (i j : nat) : IZR (Z.of_nat i - Z.of_nat j) = INR i - INR j.
Proof. now rewrite minus_IZR, <- !INR_IZR_INZ. Qed.

Lemma exp_mult_nat x k : exp (INR k * x) = exp x ^ k.
Proof.
  induction k as [|k IH]; [rewrite Rmult_0_l; apply exp_0|].
  rewrite S_INR, Rmult_plus_distr_r, Rmult_1_l, exp_plus, IH. simpl. ring.
Qed.
