(* Claim C06 (and the 2-d part of C07): 2-d extrapolation. *)
From Coq Require Import Reals ZArith List Lia Lra Bool.
From Verif Require Import Base ArrayModel ArrayProofs Array2dModel ArrayProps.
Import ListNotations.
Open Scope R_scope.

(** ** Specification vocabulary *)
Definition entry (m : list (list R)) (i j : nat) : R := nth j (nth i m []) 0.

Definition shape (m : list (list R)) (r c : nat) : Prop :=
  length m = r /\ Forall (fun row => length row = c) m.

(** [t] is the transpose of [m]. *)
Definition is_transpose (m t : list (list R)) (r c : nat) : Prop :=
  shape m r c /\ shape t c r /\
  forall i j, (i < r)%nat -> (j < c)%nat -> entry t j i = entry m i j.

(** The centre of [out] is [m]. *)
Definition centred (m out : list (list R)) (r c nr nc : nat) : Prop :=
  forall i j, (i < r)%nat -> (j < c)%nat -> entry out (nr + i) (nc + j) = entry m i j.

Definition column (m : list (list R)) (j : nat) : list R := map (fun row => nth j row 0) m.

(** ** Proof support *)
Lemma shape_row m r c i : shape m r c -> (i < r)%nat -> length (nth i m []) = c.
Proof.
  intros [H1 H2] Hi. rewrite Forall_forall in H2. apply H2. apply nth_In. lia.
Qed.

Lemma matrix_ext m1 m2 r c : shape m1 r c -> shape m2 r c ->
  (forall i j, (i < r)%nat -> (j < c)%nat -> entry m1 i j = entry m2 i j) -> m1 = m2.
Proof.
  intros S1 S2 H. apply (nth_ext _ _ [] []).
  - destruct S1, S2. lia.
  - intros i Hi. assert (Hi' : (i < r)%nat) by (destruct S1; lia).
    apply (nth_ext _ _ 0 0).
    + now rewrite (shape_row _ _ _ _ S1 Hi'), (shape_row _ _ _ _ S2 Hi').
    + intros j Hj. rewrite (shape_row _ _ _ _ S1 Hi') in Hj. now apply H.
Qed.

Lemma ncols_shape m r c : shape m r c -> (0 < r)%nat -> ncols m = c.
Proof. intros S H. unfold ncols. now apply (shape_row _ _ _ _ S). Qed.

Lemma transpose_shape m r c : shape m r c -> (0 < r)%nat -> shape (transpose m) c r.
Proof.
  intros S H. unfold transpose. rewrite (ncols_shape m r c S H). split.
  - now rewrite map_length, seq_length.
  - apply Forall_forall. intros row Hr. apply in_map_iff in Hr as (j & <- & Hj).
    rewrite map_length. apply S.
Qed.

Lemma transpose_entry m r c i j : shape m r c -> (0 < r)%nat -> (i < r)%nat -> (j < c)%nat ->
  entry (transpose m) j i = entry m i j.
Proof.
  intros S H Hi Hj. unfold entry, transpose. rewrite (ncols_shape m r c S H).
  set (f := fun j0 : nat => map (fun row => nth j0 row 0) m).
  rewrite (nth_indep _ [] (f 0%nat)) by (now rewrite map_length, seq_length).
  rewrite map_nth, seq_nth by exact Hj. unfold f. simpl.
  rewrite (nth_indep _ 0 (nth j [] 0)) by (rewrite map_length; destruct S; lia).
  rewrite (map_nth (fun row => nth j row 0)). reflexivity.
Qed.

Lemma transpose_row m r c j : shape m r c -> (0 < r)%nat -> (j < c)%nat ->
  nth j (transpose m) [] = column m j.
Proof.
  intros S H Hj. unfold transpose. rewrite (ncols_shape m r c S H).
  set (f := fun j0 : nat => map (fun row => nth j0 row 0) m).
  rewrite (nth_indep _ [] (f 0%nat)) by (now rewrite map_length, seq_length).
  rewrite map_nth, seq_nth by exact Hj. reflexivity.
Qed.

Lemma column_nth m r c i j : shape m r c -> (i < r)%nat -> nth i (column m j) 0 = entry m i j.
Proof.
  intros S Hi. unfold column, entry.
  rewrite (nth_indep _ 0 (nth j [] 0)) by (rewrite map_length; destruct S; lia).
  now rewrite (map_nth (fun row => nth j row 0)).
Qed.

Lemma row_map_entry (f : list R -> list R) m r c i j : shape m r c -> (i < r)%nat ->
  entry (map f m) i j = nth j (f (nth i m [])) 0.
Proof.
  intros [S1 S2] Hi. unfold entry.
  rewrite (nth_indep _ [] (f [])) by (rewrite map_length; lia).
  now rewrite map_nth.
Qed.

Lemma row_map_shape (f : list R -> list R) m r c c' : shape m r c ->
  (forall row, length row = c -> length (f row) = c') -> shape (map f m) r c'.
Proof.
  intros [S1 S2] Hf. split; [now rewrite map_length|].
  apply Forall_forall. intros row Hr. apply in_map_iff in Hr as (x & <- & Hx).
  apply Hf. rewrite Forall_forall in S2. now apply S2.
Qed.

Lemma row_lin_is m n : extrap2d_row_lin m (Z.of_nat n) = map (fun row => lin_out row n) m.
Proof.
  unfold extrap2d_row_lin, lin_out. apply map_ext. intros row.
  f_equal; [|f_equal]; apply map_ext; intros; ring.
Qed.

(** Uniform description of one output position: which two samples and
    which multiple of their difference. *)
Definition pos_p (len n k : nat) : nat :=
  if (k <? n)%nat then 0 else if (k <? n + len)%nat then (k - n) else (len - 1).
Definition pos_q (len n k : nat) : nat :=
  if (k <? n)%nat then 1 else if (k <? n + len)%nat then (k - n) else (len - 2).
Definition pos_e (len n k : nat) : nat :=
  if (k <? n)%nat then n - k else if (k <? n + len)%nat then 0 else (k - (n + len - 1)).

Lemma pos_bounds len n k : (2 <= len)%nat -> (pos_p len n k < len)%nat /\ (pos_q len n k < len)%nat.
Proof.
  intros H. unfold pos_p, pos_q.
  destruct (k <? n)%nat eqn:E1; [lia|].
  destruct (k <? n + len)%nat eqn:E2; [apply Nat.ltb_lt in E2; apply Nat.ltb_ge in E1; lia|lia].
Qed.

Lemma lin_out_pos a n k : (2 <= length a)%nat -> (k < n + length a + n)%nat ->
  nth k (lin_out a n) 0 =
  nth (pos_p (length a) n k) a 0 +
  (nth (pos_p (length a) n k) a 0 - nth (pos_q (length a) n k) a 0) * INR (pos_e (length a) n k).
Proof.
  intros Ha Hk. unfold pos_p, pos_q, pos_e.
  destruct (k <? n)%nat eqn:E1.
  - apply Nat.ltb_lt in E1. rewrite lin_out_left by lia. rewrite minus_INR by lia.
    unfold at0, at1. ring.
  - apply Nat.ltb_ge in E1. destruct (k <? n + length a)%nat eqn:E2.
    + apply Nat.ltb_lt in E2. replace k with (n + (k - n))%nat at 1 by lia.
      rewrite lin_out_mid by lia. simpl. ring.
    + apply Nat.ltb_ge in E2. rewrite lin_out_right by lia. rewrite (minus_INR k (n + length a - 1)) by lia.
      unfold atm1, atm2. ring.
Qed.

Lemma loglin_out_pos a n k : (2 <= length a)%nat -> (k < n + length a + n)%nat ->
  nth k (loglin_out a n) 0 =
  nth (pos_p (length a) n k) a 0 *
  (nth (pos_p (length a) n k) a 0 / nth (pos_q (length a) n k) a 0) ^ (pos_e (length a) n k).
Proof.
  intros Ha Hk. unfold pos_p, pos_q, pos_e.
  destruct (k <? n)%nat eqn:E1.
  - apply Nat.ltb_lt in E1. rewrite loglin_out_left by lia. reflexivity.
  - apply Nat.ltb_ge in E1. destruct (k <? n + length a)%nat eqn:E2.
    + apply Nat.ltb_lt in E2. replace k with (n + (k - n))%nat at 1 by lia.
      rewrite loglin_out_mid by lia. simpl. ring.
    + apply Nat.ltb_ge in E2. rewrite loglin_out_right by lia. reflexivity.
Qed.

(** Entry of the two-pass extension of [m] given a 1-d pass [f]. *)
Definition two_pass (f : list R -> nat -> list R) (m : matrix) (nr nc : nat) : matrix :=
  transpose (map (fun row => f row nr) (transpose (map (fun row => f row nc) m))).

Section TwoPass.
  Context (f : list R -> nat -> list R).
  Hypothesis f_len : forall a n, length (f a n) = (n + length a + n)%nat.
  Hypothesis f_mid : forall a n i, (i < length a)%nat -> nth (n + i) (f a n) 0 = nth i a 0.
  Context (m : matrix) (r c nr nc : nat).
  Hypothesis Sm : shape m r c.
  Hypothesis Hr : (2 <= r)%nat.
  Hypothesis Hc : (2 <= c)%nat.

  Let m1 := map (fun row => f row nc) m.
  Let S1 : shape m1 r (nc + c + nc).
  Proof. apply (row_map_shape _ m r c); auto. intros row E. rewrite f_len, E. reflexivity. Qed.
  Let t1 := transpose m1.
  Let St1 : shape t1 (nc + c + nc) r.
  Proof. apply transpose_shape; auto. lia. Qed.
  Let m2 := map (fun row => f row nr) t1.
  Let S2 : shape m2 (nc + c + nc) (nr + r + nr).
  Proof. apply (row_map_shape _ t1 (nc + c + nc) r); auto. intros row E. rewrite f_len, E. reflexivity. Qed.

  Lemma two_pass_shape : shape (two_pass f m nr nc) (nr + r + nr) (nc + c + nc).
  Proof. apply transpose_shape; auto. lia. Qed.

  (** Row [i] of the result of pass one, and entries after pass two. *)
  Lemma two_pass_entry i j : (i < nr + r + nr)%nat -> (j < nc + c + nc)%nat ->
    entry (two_pass f m nr nc) i j =
    nth i (f (map (fun row => nth j (f row nc) 0) m) nr) 0.
  Proof.
    intros Hi Hj. unfold two_pass. fold m1 t1 m2.
    rewrite (transpose_entry m2 (nc + c + nc) (nr + r + nr) j i S2) by lia.
    unfold m2. rewrite (row_map_entry _ t1 (nc + c + nc) r j i St1 Hj).
    f_equal. unfold t1. rewrite (transpose_row m1 r (nc + c + nc)) by (auto; lia).
    unfold column, m1. now rewrite map_map.
  Qed.

  Lemma col_pass_length j : length (map (fun row => nth j (f row nc) 0) m) = r.
  Proof. rewrite map_length. apply Sm. Qed.

  Lemma col_pass_nth i j : (i < r)%nat ->
    nth i (map (fun row => nth j (f row nc) 0) m) 0 = nth j (f (nth i m []) nc) 0.
  Proof.
    intros Hi. set (g := fun row => nth j (f row nc) 0).
    rewrite (nth_indep _ 0 (g [])) by (rewrite map_length; destruct Sm; lia).
    now rewrite map_nth.
  Qed.

  Lemma two_pass_centred : centred m (two_pass f m nr nc) r c nr nc.
  Proof.
    intros i j Hi Hj. rewrite two_pass_entry by lia.
    rewrite f_mid by (now rewrite col_pass_length).
    rewrite col_pass_nth by exact Hi. rewrite f_mid; [reflexivity|].
    now rewrite (shape_row m r c i Sm Hi).
  Qed.

  Lemma two_pass_column j : (j < nc + c + nc)%nat ->
    column (two_pass f m nr nc) j = f (map (fun row => nth j (f row nc) 0) m) nr.
  Proof.
    intros Hj. apply (nth_ext _ _ 0 0).
    - unfold column. rewrite map_length, f_len, col_pass_length. apply two_pass_shape.
    - intros i Hi. unfold column in Hi. rewrite map_length in Hi.
      destruct two_pass_shape as [L _]. rewrite L in Hi.
      rewrite (column_nth _ _ _ i j two_pass_shape Hi).
      apply two_pass_entry; assumption.
  Qed.
End TwoPass.

Lemma transpose_two_pass_lin m r c nr nc : shape m r c -> (2 <= r)%nat -> (2 <= c)%nat ->
  transpose (two_pass lin_out m nr nc) = two_pass lin_out (transpose m) nc nr.
Proof.
  intros S Hr Hc.
  assert (St : shape (transpose m) c r) by (apply transpose_shape; auto; lia).
  assert (S2 : shape (two_pass lin_out m nr nc) (nr + r + nr) (nc + c + nc))
    by (apply two_pass_shape; auto using lin_out_length).
  apply (matrix_ext _ _ (nc + c + nc) (nr + r + nr)).
  - apply transpose_shape; auto; lia.
  - apply two_pass_shape; auto using lin_out_length.
  - intros j i Hj Hi.
    rewrite (transpose_entry _ (nr + r + nr) (nc + c + nc) i j S2) by lia.
    rewrite (two_pass_entry lin_out lin_out_length m r c nr nc S Hr Hc i j Hi Hj).
    rewrite (two_pass_entry lin_out lin_out_length (transpose m) c r nc nr St Hc Hr j i Hj Hi).
    pose proof (pos_bounds r nr i Hr) as [P1 P2]. pose proof (pos_bounds c nc j Hc) as [Q1 Q2].
    rewrite lin_out_pos by (rewrite (col_pass_length lin_out m r c nc S); lia).
    rewrite (lin_out_pos (map _ (transpose m)))
      by (rewrite (col_pass_length lin_out (transpose m) c r nr St); lia).
    rewrite (col_pass_length lin_out m r c nc S), (col_pass_length lin_out (transpose m) c r nr St).
    rewrite !(col_pass_nth lin_out m r c nc S) by lia.
    rewrite !(col_pass_nth lin_out (transpose m) c r nr St) by lia.
    rewrite !lin_out_pos;
      rewrite ?(shape_row m r c _ S), ?(shape_row _ c r _ St); try lia.
    fold (entry m (pos_p r nr i) (pos_p c nc j)) (entry m (pos_p r nr i) (pos_q c nc j))
         (entry m (pos_q r nr i) (pos_p c nc j)) (entry m (pos_q r nr i) (pos_q c nc j)).
    fold (entry (transpose m) (pos_p c nc j) (pos_p r nr i)) (entry (transpose m) (pos_p c nc j) (pos_q r nr i))
         (entry (transpose m) (pos_q c nc j) (pos_p r nr i)) (entry (transpose m) (pos_q c nc j) (pos_q r nr i)).
    rewrite !(transpose_entry m r c) by (auto; lia). ring.
Qed.

Lemma transpose_two_pass_loglin m r c nr nc : shape m r c -> (2 <= r)%nat -> (2 <= c)%nat ->
  transpose (two_pass loglin_out m nr nc) = two_pass loglin_out (transpose m) nc nr.
Proof.
  intros S Hr Hc.
  assert (St : shape (transpose m) c r) by (apply transpose_shape; auto; lia).
  assert (S2 : shape (two_pass loglin_out m nr nc) (nr + r + nr) (nc + c + nc))
    by (apply two_pass_shape; auto using loglin_out_length).
  apply (matrix_ext _ _ (nc + c + nc) (nr + r + nr)).
  - apply transpose_shape; auto; lia.
  - apply two_pass_shape; auto using loglin_out_length.
  - intros j i Hj Hi.
    rewrite (transpose_entry _ (nr + r + nr) (nc + c + nc) i j S2) by lia.
    rewrite (two_pass_entry loglin_out loglin_out_length m r c nr nc S Hr Hc i j Hi Hj).
    rewrite (two_pass_entry loglin_out loglin_out_length (transpose m) c r nc nr St Hc Hr j i Hj Hi).
    pose proof (pos_bounds r nr i Hr) as [P1 P2]. pose proof (pos_bounds c nc j Hc) as [Q1 Q2].
    rewrite loglin_out_pos by (rewrite (col_pass_length loglin_out m r c nc S); lia).
    rewrite (loglin_out_pos (map _ (transpose m)))
      by (rewrite (col_pass_length loglin_out (transpose m) c r nr St); lia).
    rewrite (col_pass_length loglin_out m r c nc S), (col_pass_length loglin_out (transpose m) c r nr St).
    rewrite !(col_pass_nth loglin_out m r c nc S) by lia.
    rewrite !(col_pass_nth loglin_out (transpose m) c r nr St) by lia.
    rewrite !loglin_out_pos;
      rewrite ?(shape_row m r c _ S), ?(shape_row _ c r _ St); try lia.
    fold (entry m (pos_p r nr i) (pos_p c nc j)) (entry m (pos_p r nr i) (pos_q c nc j))
         (entry m (pos_q r nr i) (pos_p c nc j)) (entry m (pos_q r nr i) (pos_q c nc j)).
    fold (entry (transpose m) (pos_p c nc j) (pos_p r nr i)) (entry (transpose m) (pos_p c nc j) (pos_q r nr i))
         (entry (transpose m) (pos_q c nc j) (pos_p r nr i)) (entry (transpose m) (pos_q c nc j) (pos_q r nr i)).
    rewrite !(transpose_entry m r c) by (auto; lia).
    unfold Rdiv.
    repeat (rewrite ?Rpow_mult_distr, ?Rinv_mult, ?pow_inv, <- ?pow_mult).
    rewrite !(Nat.mul_comm (pos_e r nr i)). rewrite ?Rinv_inv. ring.
Qed.

Lemma check_2d_plain m r c : shape m r c -> (2 <= r)%nat -> (2 <= c)%nat ->
  check_2d_array false false m = Ok m.
Proof.
  intros S Hr Hc. unfold check_2d_array, nrows. rewrite (ncols_shape m r c S) by lia.
  destruct S as [-> _].
  destruct (r <? 2)%nat eqn:E1; [apply Nat.ltb_lt in E1; lia|].
  destruct (c <? 2)%nat eqn:E2; [apply Nat.ltb_lt in E2; lia|]. reflexivity.
Qed.

Lemma extrap2d_lin_eq m r c nr nc : shape m r c -> (2 <= r)%nat -> (2 <= c)%nat ->
  extrap2d_lin m (ExtPair (Z.of_nat nr) (Z.of_nat nc)) = Ok (two_pass lin_out m nr nc).
Proof.
  intros S Hr Hc. unfold extrap2d_lin. rewrite (check_2d_plain m r c) by assumption.
  cbn [bind unpack_ext]. unfold two_pass. now rewrite !row_lin_is.
Qed.

(** ** C06 *)

(** Shape, centre, and linear continuation along every row and column. *)
Theorem extrap2d_lin_correct :
  forall m r c nr nc, shape m r c -> (2 <= r)%nat -> (2 <= c)%nat ->
  exists out,
    extrap2d_lin m (ExtPair (Z.of_nat nr) (Z.of_nat nc)) = Ok out /\
    shape out (nr + r + nr) (nc + c + nc) /\
    centred m out r c nr nc /\
    (forall i j, (i < nr + r + nr)%nat -> end_triple c nc j -> equal_step (nth i out []) j) /\
    (forall i j, (j < nc + c + nc)%nat -> end_triple r nr i -> equal_step (column out j) i).
Proof.
  intros m r c nr nc S Hr Hc. exists (two_pass lin_out m nr nc).
  assert (St : shape (transpose m) c r) by (apply transpose_shape; auto; lia).
  assert (So : shape (two_pass lin_out m nr nc) (nr + r + nr) (nc + c + nc))
    by (apply two_pass_shape; auto using lin_out_length).
  assert (Col : forall m' r' c' nr' nc' i j, shape m' r' c' -> (2 <= r')%nat -> (2 <= c')%nat ->
    (j < nc' + c' + nc')%nat -> end_triple r' nr' i ->
    equal_step (column (two_pass lin_out m' nr' nc') j) i).
  { intros m' r' c' nr' nc' i j S' Hr' Hc' Hj Ht.
    rewrite (two_pass_column lin_out lin_out_length m' r' c' nr' nc') by assumption.
    set (col := map _ m').
    assert (L : length col = r') by (unfold col; rewrite map_length; apply S').
    destruct (extrap_lin_correct col nr' ltac:(lia)) as (out & E & _ & H).
    rewrite extrap_lin_eq in E by lia. injection E as <-. apply H. now rewrite L. }
  split; [now apply (extrap2d_lin_eq m r c)|]. split; [exact So|].
  split; [apply two_pass_centred; auto using lin_out_length, lin_out_mid|]. split.
  - intros i j Hi Ht.
    pose proof (Col (transpose m) c r nc nr j i St Hc Hr Hi Ht) as H.
    rewrite <- (transpose_two_pass_lin m r c nr nc S Hr Hc) in H.
    assert (E : column (transpose (two_pass lin_out m nr nc)) i = nth i (two_pass lin_out m nr nc) []).
    { pose proof (transpose_shape _ _ _ So ltac:(lia)) as St2.
      apply (nth_ext _ _ 0 0).
      - unfold column. rewrite map_length, (shape_row _ _ _ _ So Hi). apply St2.
      - intros k Hk. unfold column in Hk. rewrite map_length in Hk.
        destruct St2 as [L2 F2]. rewrite L2 in Hk.
        rewrite (column_nth _ (nc + c + nc) (nr + r + nr)) by (auto; split; auto).
        rewrite (transpose_entry _ (nr + r + nr) (nc + c + nc)) by (auto; lia). reflexivity. }
    rewrite E in H. exact H.
  - intros i j Hj Ht. apply (Col m r c); assumption.
Qed.

Example extrap2d_lin_case :
  shape [[1; 2; 4]; [3; 5; 9]] 2 3 /\
  exists out, extrap2d_lin [[1; 2; 4]; [3; 5; 9]] (ExtPair 1 2) = Ok out /\
    entry out 0 0 = -1 /\ entry out 0 1 = -1 /\ entry out 1 1 = 0.
Proof.
  assert (S : shape [[1; 2; 4]; [3; 5; 9]] 2 3) by (split; repeat constructor).
  split; [exact S|].
  exists (two_pass lin_out [[1; 2; 4]; [3; 5; 9]] 1 2). split.
  - apply (extrap2d_lin_eq _ 2 3 1 2); auto.
  - rewrite !(two_pass_entry lin_out lin_out_length _ 2 3 1 2 S) by lia.
    rewrite !lin_out_left by (simpl; lia). cbn [map nth].
    unfold at0, at1. cbn [map nth]. rewrite !lin_out_left by (simpl; lia).
    unfold at0, at1. simpl. lra.
Qed.

(** The two axes may be extended in either order: extrapolating the transpose
    (so columns first) gives the transpose. *)
Theorem extrap2d_lin_order_independent :
  forall m t r c nr nc out outt, (2 <= r)%nat -> (2 <= c)%nat -> is_transpose m t r c ->
  extrap2d_lin m (ExtPair (Z.of_nat nr) (Z.of_nat nc)) = Ok out ->
  extrap2d_lin t (ExtPair (Z.of_nat nc) (Z.of_nat nr)) = Ok outt ->
  is_transpose out outt (nr + r + nr) (nc + c + nc).
Proof.
  intros m t r c nr nc out outt Hr Hc (Sm & St & Ht) E1 E2.
  assert (t = transpose m).
  { apply (matrix_ext _ _ c r); auto.
    - apply transpose_shape; auto; lia.
    - intros i j Hi Hj. rewrite Ht by lia. now rewrite (transpose_entry m r c) by (auto; lia). }
  subst t.
  rewrite (extrap2d_lin_eq m r c) in E1 by assumption. injection E1 as <-.
  rewrite (extrap2d_lin_eq (transpose m) c r) in E2 by assumption. injection E2 as <-.
  rewrite <- (transpose_two_pass_lin m r c) by assumption.
  assert (So : shape (two_pass lin_out m nr nc) (nr + r + nr) (nc + c + nc))
    by (apply two_pass_shape; auto using lin_out_length).
  split; [exact So|]. split; [apply transpose_shape; auto; lia|].
  intros i j Hi Hj. rewrite (transpose_entry _ (nr + r + nr) (nc + c + nc)) by (auto; lia). reflexivity.
Qed.

Example extrap2d_lin_order_case :
  is_transpose [[1; 2; 4]; [3; 5; 9]] [[1; 3]; [2; 5]; [4; 9]] 2 3.
Proof.
  split; [split; repeat constructor|]. split; [split; repeat constructor|].
  intros i j Hi Hj. destruct i as [|[|i]], j as [|[|[|j]]]; try reflexivity; lia.
Qed.

(** Log-linear: all rows and columns have like-signed end pairs. *)
Definition like_signed (m : list (list R)) (c : nat) : Prop :=
  Forall same_sign_ends m /\
  forall j, (j < c)%nat -> same_sign_ends (column m j).

Lemma row_loglin_ok m n :
  Forall (fun row => at1 row <> 0 /\ atm2 row <> 0) m ->
  extrap2d_row_loglin m (Z.of_nat n) = Ok (map (fun row => loglin_out row n) m).
Proof.
  intros H. unfold extrap2d_row_loglin.
  replace (existsb (fun row => Reqb (at1 row) 0 || Reqb (atm2 row) 0) m) with false.
  - rewrite andb_false_r. reflexivity.
  - symmetry. apply not_true_is_false. rewrite existsb_exists.
    intros (row & Hin & E). rewrite Forall_forall in H. destruct (H row Hin) as [H1 H2].
    apply Reqb_false in H1, H2. rewrite H1, H2 in E. discriminate.
Qed.

Lemma like_signed_transpose m r c : shape m r c -> (2 <= r)%nat -> (2 <= c)%nat ->
  like_signed m c -> like_signed (transpose m) r.
Proof.
  intros S Hr Hc [H1 H2].
  assert (St : shape (transpose m) c r) by (apply transpose_shape; auto; lia).
  split.
  - apply Forall_forall. intros row Hrow. apply (In_nth _ _ []) in Hrow as (j & Hj & <-).
    destruct St as [L _]. rewrite L in Hj. rewrite (transpose_row m r c) by (auto; lia).
    now apply H2.
  - intros i Hi.
    replace (column (transpose m) i) with (nth i m []).
    + rewrite Forall_forall in H1. apply H1. apply nth_In. destruct S; lia.
    + symmetry. apply (nth_ext _ _ 0 0).
      * unfold column. rewrite map_length, (shape_row _ _ _ _ S Hi). apply St.
      * intros k Hk. unfold column in Hk. rewrite map_length in Hk.
        pose proof St as [L _]. rewrite L in Hk.
        rewrite (column_nth _ c r) by auto.
        rewrite (transpose_entry m r c) by (auto; lia). reflexivity.
Qed.

Lemma loglin_pos_nonzero row n j : (2 <= length row)%nat -> same_sign_ends row ->
  (j < n + length row + n)%nat ->
  (forall k, (k < length row)%nat -> (n <= j < n + length row)%nat -> nth k row 0 <> 0) ->
  nth j (loglin_out row n) 0 <> 0.
Proof.
  intros L Hs Hj Hm. destruct (same_sign_nz row Hs) as (N0 & N1 & M1 & M2).
  rewrite loglin_out_pos by assumption.
  assert (X : forall x y k, x <> 0 -> y <> 0 -> x * (x / y) ^ k <> 0).
  { intros x y k Hx Hy. apply Rmult_integral_contrapositive_currified; auto.
    apply pow_nonzero. apply Rmult_integral_contrapositive_currified; auto.
    now apply Rinv_neq_0_compat. }
  unfold pos_p, pos_q.
  destruct (j <? n)%nat eqn:E1; [apply X; auto|]. apply Nat.ltb_ge in E1.
  destruct (j <? n + length row)%nat eqn:E2; [apply Nat.ltb_lt in E2; apply X; apply Hm; lia|].
  apply X; auto.
Qed.

Lemma extrap2d_loglin_eq m r c nr nc : shape m r c -> (2 <= r)%nat -> (2 <= c)%nat ->
  like_signed m c ->
  extrap2d_loglin m (ExtPair (Z.of_nat nr) (Z.of_nat nc)) = Ok (two_pass loglin_out m nr nc).
Proof.
  intros S Hr Hc HL. pose proof HL as [H1 H2].
  pose proof (like_signed_transpose m r c S Hr Hc HL) as [H3 H4].
  unfold extrap2d_loglin, check_2d_array, nrows. rewrite (ncols_shape m r c S) by lia.
  pose proof S as [L F]. rewrite L.
  destruct (r <? 2)%nat eqn:E1; [apply Nat.ltb_lt in E1; lia|].
  destruct (c <? 2)%nat eqn:E2; [apply Nat.ltb_lt in E2; lia|].
  cbn [orb andb].
  replace (epsign2d_ok m) with true.
  2:{ symmetry. unfold epsign2d_ok. rewrite andb_true_iff, !forallb_forall.
      rewrite Forall_forall in H1, H3. split; intros x Hx; apply same_sign_epsign; auto. }
  cbn [negb bind unpack_ext].
  rewrite row_loglin_ok.
  2:{ apply Forall_forall. rewrite Forall_forall in H1. intros row Hrow.
      destruct (same_sign_nz row (H1 row Hrow)) as (? & ? & ? & ?). auto. }
  cbn [bind]. set (m1 := map (fun row => loglin_out row nc) m).
  assert (S1 : shape m1 r (nc + c + nc)).
  { apply (row_map_shape _ m r c); auto. intros row E. rewrite loglin_out_length, E. reflexivity. }
  rewrite row_loglin_ok.
  2:{ apply Forall_forall. intros row Hrow. apply (In_nth _ _ []) in Hrow as (j & Hj & <-).
      assert (St1 : shape (transpose m1) (nc + c + nc) r) by (apply transpose_shape; auto; lia).
      pose proof St1 as [L1 _]. rewrite L1 in Hj.
      rewrite (transpose_row m1 r (nc + c + nc)) by (auto; lia).
      assert (Lc : length (column m1 j) = r) by (unfold column; rewrite map_length; apply S1).
      assert (G : forall i, (i = 1 \/ i = r - 2)%nat -> nth i (column m1 j) 0 <> 0).
      { intros i Hi. assert (Hi' : (i < r)%nat) by lia.
        rewrite (column_nth m1 r (nc + c + nc)) by auto.
        unfold m1. rewrite (row_map_entry _ m r c) by auto.
        pose proof (shape_row m r c i S Hi') as Li.
        apply loglin_pos_nonzero; rewrite ?Li; try lia.
        - rewrite Forall_forall in H1. apply H1. apply nth_In. lia.
        - intros k Hk _. fold (entry m i k). rewrite <- (column_nth m r c i k S Hi').
          destruct (same_sign_nz _ (H2 k Hk)) as (_ & Q1 & _ & Q2).
          unfold at1, atm2 in *.
          assert (Lk : length (column m k) = r) by (unfold column; rewrite map_length; apply S).
          rewrite Lk in Q2.
          destruct Hi as [->| ->]; assumption. }
      unfold at1, atm2. rewrite Lc. split; apply G; lia. }
  reflexivity.
Qed.

Theorem extrap2d_loglin_correct :
  forall m r c nr nc, shape m r c -> (2 <= r)%nat -> (2 <= c)%nat -> like_signed m c ->
  exists out,
    extrap2d_loglin m (ExtPair (Z.of_nat nr) (Z.of_nat nc)) = Ok out /\
    shape out (nr + r + nr) (nc + c + nc) /\
    centred m out r c nr nc /\
    (forall i j, (i < nr + r + nr)%nat -> end_triple c nc j -> equal_ratio (nth i out []) j) /\
    (forall i j, (j < nc + c + nc)%nat -> end_triple r nr i -> equal_ratio (column out j) i).
Proof.
  intros m r c nr nc S Hr Hc HL. exists (two_pass loglin_out m nr nc).
  assert (St : shape (transpose m) c r) by (apply transpose_shape; auto; lia).
  assert (So : shape (two_pass loglin_out m nr nc) (nr + r + nr) (nc + c + nc))
    by (apply two_pass_shape; auto using loglin_out_length).
  assert (Col : forall m' r' c' nr' nc' i j, shape m' r' c' -> (2 <= r')%nat -> (2 <= c')%nat ->
    like_signed m' c' -> (j < nc' + c' + nc')%nat -> end_triple r' nr' i ->
    equal_ratio (column (two_pass loglin_out m' nr' nc') j) i).
  { intros m' r' c' nr' nc' i j S' Hr' Hc' HL' Hj Ht.
    rewrite (two_pass_column loglin_out loglin_out_length m' r' c' nr' nc') by assumption.
    pose proof (col_pass_length loglin_out m' r' c' nc' S' j) as L.
    set (col := map _ m') in *.
    assert (G : forall k, (k = 0 \/ k = 1 \/ k = r' - 2 \/ k = r' - 1)%nat -> nth k col 0 <> 0).
    { intros k Hk. assert (Hk' : (k < r')%nat) by lia. unfold col.
      rewrite (col_pass_nth loglin_out m' r' c' nc' S') by lia.
      pose proof (shape_row m' r' c' k S' Hk') as Lk.
      destruct HL' as [F1 F2].
      apply loglin_pos_nonzero; rewrite ?Lk; try lia.
      - rewrite Forall_forall in F1. apply F1. apply nth_In. destruct S'; lia.
      - intros l Hl _. fold (entry m' k l). rewrite <- (column_nth m' r' c' k l S' Hk').
        destruct (same_sign_nz _ (F2 l Hl)) as (Q0 & Q1 & Q3 & Q2).
        unfold at0, at1, atm1, atm2 in *.
        assert (Lc : length (column m' l) = r') by (unfold column; rewrite map_length; apply S').
        rewrite Lc in Q2, Q3.
        destruct Hk as [->|[->|[->| ->]]]; assumption. }
    unfold equal_ratio. rewrite <- L in Ht. destruct Ht as [Ht|Ht].
    - rewrite !loglin_out_left';
        try (unfold at0, at1; apply G; lia); try lia.
      rewrite !pow_add. simpl. ring.
    - rewrite !loglin_out_right';
        try (unfold atm1, atm2; rewrite L; apply G; lia); try lia.
      replace (i + 2 - (nr' + length col - 2))%nat with (Datatypes.S (Datatypes.S (i - (nr' + length col - 2)))) by lia.
      replace (i + 1 - (nr' + length col - 2))%nat with (Datatypes.S (i - (nr' + length col - 2))) by lia.
      simpl. ring. }
  split; [now apply (extrap2d_loglin_eq m r c)|]. split; [exact So|].
  split; [apply two_pass_centred; auto using loglin_out_length, loglin_out_mid|]. split.
  - intros i j Hi Ht.
    pose proof (Col (transpose m) c r nc nr j i St Hc Hr
      (like_signed_transpose m r c S Hr Hc HL) Hi Ht) as H.
    rewrite <- (transpose_two_pass_loglin m r c nr nc S Hr Hc) in H.
    assert (E : column (transpose (two_pass loglin_out m nr nc)) i = nth i (two_pass loglin_out m nr nc) []).
    { pose proof (transpose_shape _ _ _ So ltac:(lia)) as St2.
      apply (nth_ext _ _ 0 0).
      - unfold column. rewrite map_length, (shape_row _ _ _ _ So Hi). apply St2.
      - intros k Hk. unfold column in Hk. rewrite map_length in Hk.
        pose proof St2 as [L2 F2]. rewrite L2 in Hk.
        rewrite (column_nth _ (nc + c + nc) (nr + r + nr)) by auto.
        rewrite (transpose_entry _ (nr + r + nr) (nc + c + nc)) by (auto; lia). reflexivity. }
    rewrite E in H. exact H.
  - intros i j Hj Ht. apply (Col m r c); assumption.
Qed.

Example extrap2d_loglin_case : like_signed [[1; 2; 4]; [3; 5; 9]] 3.
Proof.
  split.
  - repeat constructor; simpl; lra.
  - intros j Hj. destruct j as [|[|[|j]]]; try lia; split; simpl; lra.
Qed.

Theorem extrap2d_loglin_order_independent :
  forall m t r c nr nc out outt, (2 <= r)%nat -> (2 <= c)%nat -> is_transpose m t r c ->
  like_signed m c ->
  extrap2d_loglin m (ExtPair (Z.of_nat nr) (Z.of_nat nc)) = Ok out ->
  extrap2d_loglin t (ExtPair (Z.of_nat nc) (Z.of_nat nr)) = Ok outt ->
  is_transpose out outt (nr + r + nr) (nc + c + nc).
Proof.
  intros m t r c nr nc out outt Hr Hc (Sm & St & Ht) HL E1 E2.
  assert (t = transpose m).
  { apply (matrix_ext _ _ c r); auto.
    - apply transpose_shape; auto; lia.
    - intros i j Hi Hj. rewrite Ht by lia. now rewrite (transpose_entry m r c) by (auto; lia). }
  subst t.
  rewrite (extrap2d_loglin_eq m r c) in E1 by assumption. injection E1 as <-.
  rewrite (extrap2d_loglin_eq (transpose m) c r) in E2;
    auto using (like_signed_transpose m r c). injection E2 as <-.
  rewrite <- (transpose_two_pass_loglin m r c) by assumption.
  assert (So : shape (two_pass loglin_out m nr nc) (nr + r + nr) (nc + c + nc))
    by (apply two_pass_shape; auto using loglin_out_length).
  split; [exact So|]. split; [apply transpose_shape; auto; lia|].
  intros i j Hi Hj. rewrite (transpose_entry _ (nr + r + nr) (nc + c + nc)) by (auto; lia). reflexivity.
Qed.

(** An integer [n_ext] means the same extension on both axes. *)
Theorem extrap2d_int_ext :
  forall m n, extrap2d_lin m (ExtInt n) = extrap2d_lin m (ExtPair n n) /\
              extrap2d_loglin m (ExtInt n) = extrap2d_loglin m (ExtPair n n).
Proof. intros. split; reflexivity. Qed.

(** *** Constant padding *)

(** The values used for padding: a scalar is repeated. *)
Definition pad_is (p : pad_arg) (n : nat) (l : list R) : Prop :=
  length l = n /\ match p with PadScalar v => l = repeat v n | PadSeq l' => l' = l end.

(** Corner consistency as documented. *)
Definition corners_agree (crl cru ccl ccu : list R) (r c : nat) : Prop :=
  nth 0 crl 0 = nth 0 ccl 0 /\ nth 0 cru 0 = nth (c - 1) ccl 0 /\
  nth (r - 1) crl 0 = nth 0 ccu 0 /\ nth (r - 1) cru 0 = nth (c - 1) ccu 0.

(** The schematic picture of the docstring, with [up] rows above and below
    and [left] columns on either side. *)
Definition padded (m out : list (list R)) (r c up left : nat) (crl cru ccl ccu : list R) : Prop :=
  shape out (up + r + up) (left + c + left) /\
  centred m out r c up left /\
  (forall i k, (i < r)%nat -> (k < left)%nat ->
     entry out (up + i) k = nth i crl 0 /\ entry out (up + i) (left + c + k) = nth i cru 0) /\
  (forall j k, (j < c)%nat -> (k < up)%nat ->
     entry out k (left + j) = nth j ccl 0 /\ entry out (up + r + k) (left + j) = nth j ccu 0) /\
  (forall k l, (k < up)%nat -> (l < left)%nat ->
     entry out k l = nth 0 crl 0 /\ entry out k (left + c + l) = nth 0 cru 0 /\
     entry out (up + r + k) l = nth (r - 1) crl 0 /\
     entry out (up + r + k) (left + c + l) = nth (r - 1) cru 0).

Lemma nth_repeat_R x k i d : (i < k)%nat -> nth i (repeat x k) d = (x : R).
Proof. revert i; induction k; intros i Hi; [lia|]. destruct i; simpl; auto. apply IHk. lia. Qed.
Lemma nth_repeat_row (x : list R) k i d : (i < k)%nat -> nth i (repeat x k) d = x.
Proof. revert i; induction k; intros i Hi; [lia|]. destruct i; simpl; auto. apply IHk. lia. Qed.

Lemma tile_cols_nth l k i : (i < length l)%nat -> nth i (tile_cols l k) [] = repeat (nth i l 0) k.
Proof.
  intros Hi. unfold tile_cols.
  rewrite (nth_indep _ [] (repeat 0 k)) by (now rewrite map_length).
  now rewrite (map_nth (fun x => repeat x k)).
Qed.

Lemma hstack_nth (a b c : matrix) i : (i < length a)%nat -> length a = length b -> length b = length c ->
  nth i (map (fun t => fst (fst t) ++ snd (fst t) ++ snd t) (combine (combine a b) c)) [] =
  nth i a [] ++ nth i b [] ++ nth i c [].
Proof.
  intros Hi E1 E2.
  rewrite (nth_indep _ [] ((fun t : list R * list R * list R => fst (fst t) ++ snd (fst t) ++ snd t) (([], []), []))).
  2:{ rewrite map_length, !combine_length. lia. }
  rewrite (map_nth (fun t : list R * list R * list R => fst (fst t) ++ snd (fst t) ++ snd t)).
  rewrite combine_nth by (rewrite combine_length; lia).
  rewrite combine_nth by lia. reflexivity.
Qed.

Lemma entry_lar_row (l m r : list R) nl c j :
  length l = nl -> length m = c ->
  ((j < nl)%nat -> nth j (l ++ m ++ r) 0 = nth j l 0) /\
  ((j < c)%nat -> nth (nl + j) (l ++ m ++ r) 0 = nth j m 0) /\
  nth (nl + c + j) (l ++ m ++ r) 0 = nth j r 0.
Proof.
  intros <- <-. rewrite !nth_lar. split; [|split].
  - intros H. apply Nat.ltb_lt in H. now rewrite H.
  - intros H. destruct (length l + j <? length l)%nat eqn:E; [apply Nat.ltb_lt in E; lia|].
    destruct (length l + j <? length l + length m)%nat eqn:E2; [f_equal; lia|apply Nat.ltb_ge in E2; lia].
  - destruct (length l + length m + j <? length l)%nat eqn:E; [apply Nat.ltb_lt in E; lia|].
    destruct (length l + length m + j <? length l + length m)%nat eqn:E2; [apply Nat.ltb_lt in E2; lia|].
    f_equal; lia.
Qed.

Lemma pad_values_is p n l : pad_is p n l -> pad_values p n = l.
Proof. intros [_ H]. destruct p; simpl; auto. Qed.

(** The padding routine in full: for every admissible choice of constants the
    result is the docstring's picture, except that [n_ext = (nr, nc)] puts
    [nc] rows above and below and [nr] columns to the left and right. *)
Theorem extrap2d_pad_correct :
  forall m r c nr nc pl pu ql qu crl cru ccl ccu,
  shape m r c -> (2 <= r)%nat -> (2 <= c)%nat ->
  pad_is pl r crl -> pad_is pu r cru -> pad_is ql c ccl -> pad_is qu c ccu ->
  corners_agree crl cru ccl ccu r c ->
  exists out,
    extrap2d_pad m (ExtPair (Z.of_nat nr) (Z.of_nat nc)) pl pu ql qu = Ok out /\
    padded m out r c nc nr crl cru ccl ccu.
Proof.
  intros m r c nr nc pl pu ql qu crl cru ccl ccu Sm Hr Hc Pl Pu Ql Qu (C1 & C2 & C3 & C4).
  unfold extrap2d_pad. rewrite (check_2d_plain m r c) by assumption. cbn [bind].
  rewrite (ncols_shape m r c Sm) by lia. pose proof Sm as [L F]. unfold nrows. rewrite L.
  rewrite (pad_values_is _ _ _ Pl), (pad_values_is _ _ _ Pu), (pad_values_is _ _ _ Ql), (pad_values_is _ _ _ Qu).
  destruct Pl as [Ll _], Pu as [Lu _], Ql as [Kl _], Qu as [Ku _].
  assert (Q : forall l n, length l = n -> (2 <= n)%nat ->
     seq_first l = Ok (nth 0 l 0) /\ seq_last l = Ok (nth (n - 1) l 0)).
  { intros l n <- Hn. destruct l; [simpl in Hn; lia|]. split; reflexivity. }
  destruct (Q crl r Ll Hr) as [-> ->]. destruct (Q cru r Lu Hr) as [-> ->].
  destruct (Q ccl c Kl Hc) as [-> ->]. destruct (Q ccu c Ku Hc) as [-> ->]. cbn [bind].
  rewrite C1, C2, C3, C4.
  rewrite !(proj2 (Reqb_spec _ _) eq_refl). cbn [negb unpack_ext].
  replace ((Z.of_nat nr <? 0) || (Z.of_nat nc <? 0))%Z with false
    by (symmetry; apply orb_false_iff; split; apply Z.ltb_ge; lia).
  rewrite !Nat2Z.id. set (al := tile_cols crl nr). set (ar := tile_cols cru nr).
  assert (La : length al = r) by (unfold al, tile_cols; now rewrite map_length).
  assert (Lr : length ar = r) by (unfold ar, tile_cols; now rewrite map_length).
  assert (Na : forall i, (i < r)%nat -> nth i al [] = repeat (nth i crl 0) nr)
    by (intros i Hi; apply tile_cols_nth; lia).
  assert (Nr : forall i, (i < r)%nat -> nth i ar [] = repeat (nth i cru 0) nr)
    by (intros i Hi; apply tile_cols_nth; lia).
  unfold hstack3. rewrite La, Lr, L, Nat.eqb_refl. cbn [negb orb bind].
  set (a_ := map _ (combine (combine al m) ar)).
  assert (Lm : length a_ = r) by (unfold a_; rewrite map_length, !combine_length; lia).
  assert (Rows : forall i, (i < r)%nat ->
    nth i a_ [] = repeat (nth i crl 0) nr ++ nth i m [] ++ repeat (nth i cru 0) nr).
  { intros i Hi. unfold a_. rewrite hstack_nth by lia. now rewrite Na, Nr. }
  assert (Sa : shape a_ r (nr + c + nr)).
  { split; [exact Lm|]. apply Forall_forall. intros row Hrow.
    apply (In_nth _ _ []) in Hrow as (i & Hi & <-). rewrite Rows by lia.
    rewrite !app_length, !repeat_length, (shape_row m r c i Sm) by lia. lia. }
  rewrite (Na 0%nat), (Nr 0%nat), (Na (r - 1)%nat), (Nr (r - 1)%nat) by lia.
  set (top := repeat (nth 0 crl 0) nr ++ ccl ++ repeat (nth 0 cru 0) nr).
  set (bot := repeat (nth (r - 1) crl 0) nr ++ ccu ++ repeat (nth (r - 1) cru 0) nr).
  assert (Ltop : length top = (nr + c + nr)%nat)
    by (unfold top; rewrite !app_length, !repeat_length; lia).
  assert (Lbot : length bot = (nr + c + nr)%nat)
    by (unfold bot; rewrite !app_length, !repeat_length; lia).
  assert (Fout : Forall (fun row => length row = (nr + c + nr)%nat) (repeat top nc ++ a_ ++ repeat bot nc)).
  { apply Forall_app. split; [|apply Forall_app; split].
    - apply Forall_forall. intros x Hx. apply repeat_spec in Hx. now subst.
    - apply Sa.
    - apply Forall_forall. intros x Hx. apply repeat_spec in Hx. now subst. }
  unfold vstack3. rewrite (ncols_shape a_ r (nr + c + nr) Sa) by lia.
  replace (forallb _ _) with true.
  2:{ symmetry. apply forallb_forall. intros x Hx. rewrite Forall_forall in Fout.
      apply Nat.eqb_eq. now apply Fout. }
  eexists. split; [reflexivity|].
  set (out := repeat top nc ++ a_ ++ repeat bot nc).
  assert (O1 : forall k, (k < nc)%nat -> nth k out [] = top).
  { intros k Hk. unfold out. rewrite app_nth1 by (rewrite repeat_length; lia). now apply nth_repeat_row. }
  assert (O2 : forall i, (i < r)%nat -> nth (nc + i) out [] = nth i a_ []).
  { intros i Hi. unfold out. rewrite app_nth2 by (rewrite repeat_length; lia).
    rewrite repeat_length, app_nth1 by lia. f_equal. lia. }
  assert (O3 : forall k, (k < nc)%nat -> nth (nc + r + k) out [] = bot).
  { intros k Hk. unfold out. rewrite app_nth2 by (rewrite repeat_length; lia).
    rewrite repeat_length, app_nth2 by lia. apply nth_repeat_row. lia. }
  unfold padded. split; [|split; [|split; [|split]]].
  - split; [|exact Fout]. unfold out. rewrite !app_length, !repeat_length. lia.
  - intros i j Hi Hj. unfold entry. rewrite O2, Rows by exact Hi.
    apply (entry_lar_row _ _ _ nr c); rewrite ?repeat_length; auto.
    now apply (shape_row m r c).
  - intros i k Hi Hk. unfold entry. rewrite O2, Rows by exact Hi.
    destruct (entry_lar_row (repeat (nth i crl 0) nr) (nth i m []) (repeat (nth i cru 0) nr) nr c k)
      as (E1 & _ & E3); [apply repeat_length|now apply (shape_row m r c)|].
    rewrite E1, E3 by exact Hk. now rewrite !nth_repeat_R.
  - intros j k Hj Hk. unfold entry. rewrite O1, O3 by exact Hk. unfold top, bot.
    split; (eapply (proj1 (proj2 (entry_lar_row _ _ _ nr c j _ _))); exact Hj).
    Unshelve. all: auto using repeat_length.
  - intros k l Hk Hl. unfold entry. rewrite O1, O3 by exact Hk. unfold top, bot.
    destruct (entry_lar_row (repeat (nth 0 crl 0) nr) ccl (repeat (nth 0 cru 0) nr) nr c l)
      as (E1 & _ & E3); [apply repeat_length|exact Kl|].
    destruct (entry_lar_row (repeat (nth (r - 1) crl 0) nr) ccu (repeat (nth (r - 1) cru 0) nr) nr c l)
      as (D1 & _ & D3); [apply repeat_length|exact Ku|].
    rewrite E1, E3, D1, D3 by exact Hl. now rewrite !nth_repeat_R.
Qed.

Example extrap2d_pad_case :
  corners_agree [1; 5] [2; 6] [1; 7; 2] [5; 8; 6] 2 3 /\
  pad_is (PadScalar 4) 2 [4; 4] /\ pad_is (PadSeq [1; 5]) 2 [1; 5].
Proof. repeat split. Qed.

(** The padding routine uses the two extents the other way round from the
    other extrapolators: [n_ext = (nr, nc)] adds [nc] rows and [nr] columns. *)
Theorem extrap2d_pad_extents_refuted :
  exists m r c nr nc p out, shape m r c /\ (2 <= r)%nat /\ (2 <= c)%nat /\
    extrap2d_pad m (ExtPair (Z.of_nat nr) (Z.of_nat nc)) p p p p = Ok out /\
    ~ shape out (nr + r + nr) (nc + c + nc).
Proof.
  assert (S : shape [[1; 2]; [3; 4]] 2 2) by (split; repeat constructor).
  destruct (extrap2d_pad_correct [[1; 2]; [3; 4]] 2 2 1 0 (PadScalar 0) (PadScalar 0) (PadScalar 0)
    (PadScalar 0) [0; 0] [0; 0] [0; 0] [0; 0] S) as (out & E & (H & _));
    try lia; try (repeat split; fail).
  exists [[1; 2]; [3; 4]], 2%nat, 2%nat, 1%nat, 0%nat, (PadScalar 0), out.
  repeat split; auto. intros [H' _]. destruct H as [H _]. lia.
Qed.

(** *** 2-d sortedness check: rejects a matrix sorted along rows and columns. *)
Theorem check_sorted_2d_refuted :
  exists m, shape m 2 2 /\ Forall monotone m /\ (forall j, (j < 2)%nat -> monotone (column m j)) /\
    check_2d_array true false m = Err OrderError.
Proof.
  exists [[1; 2]; [3; 4]]. split; [split; repeat constructor|]. split; [|split].
  - constructor; [|constructor; [|constructor]]; left; intros i Hi; simpl in Hi; destruct i; simpl; try lra; lia.
  - intros j Hj. left. intros i Hi. simpl in Hi.
    destruct i, j as [|[|j]]; simpl; try lra; lia.
  - unfold check_2d_array. simpl nrows. simpl ncols. cbn [Nat.ltb Nat.leb orb].
    replace (rows_sorted [[1; 2]; [3; 4]]) with false; [reflexivity|].
    symmetry. apply not_true_is_false. unfold rows_sorted.
    rewrite andb_true_iff, !forallb_forall. intros [_ H].
    specialize (H [1; 2] ltac:(left; reflexivity)). rewrite all_adjacent_spec in H.
    specialize (H 0%nat ltac:(simpl; lia)). apply Rleb_spec in H. simpl in H. lra.
Qed.

Print Assumptions extrap2d_lin_correct.
Print Assumptions extrap2d_lin_order_independent.
Print Assumptions extrap2d_loglin_correct.
Print Assumptions extrap2d_loglin_order_independent.
Print Assumptions extrap2d_int_ext.
Print Assumptions extrap2d_pad_extents_refuted.
Print Assumptions extrap2d_pad_correct.
Print Assumptions check_sorted_2d_refuted.
