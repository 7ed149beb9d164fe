(* Lemmas about MpiModel. *)
From Coq Require Import ZArith List Lia Bool Permutation Sorted.
From Verif Require Import Base MpiModel.
Import ListNotations.
Open Scope Z_scope.

Lemma div_shift t p i :
  2 <= p -> 0 <= i < p - 1 -> (t - t / p + i) / (p - 1) = (t + (i + 1)) / p.
Proof.
  intros Hp Hi.
  pose proof (Z.div_mod t p ltac:(lia)) as E.
  pose proof (Z.mod_pos_bound t p ltac:(lia)) as B.
  set (q := t / p) in *. set (r := t mod p) in *.
  destruct (Z_lt_le_dec (r + i) (p - 1)) as [H|H].
  - transitivity q.
    + symmetry. apply Z.div_unique_pos with (r := r + i); lia.
    + apply Z.div_unique_pos with (r := r + i + 1); lia.
  - transitivity (q + 1).
    + symmetry. apply Z.div_unique_pos with (r := r + i - (p - 1)); lia.
    + apply Z.div_unique_pos with (r := r + i + 1 - p); lia.
Qed.

(** Closed form of the loop. *)
Lemma allocate_loop_spec n : forall fuel t acc,
  0 < t -> (n + 2 <= fuel)%nat ->
  allocate_loop fuel t (Z.of_nat (S n)) acc =
  Ok (acc ++ map (fun i => (t + Z.of_nat i) / Z.of_nat (S n)) (seq 0 (S n))).
Proof.
  induction n as [|n IH]; intros fuel t acc Ht Hf.
  - destruct fuel as [|[|fuel]]; [lia|lia|]. cbn -[Z.div].
    rewrite (proj2 (Z.ltb_lt 0 t) Ht).
    rewrite Z.div_1_r. rewrite Z.sub_diag. cbn.
    rewrite Z.add_0_r, Z.div_1_r. reflexivity.
  - destruct fuel as [|fuel]; [lia|]. cbn -[Z.div Z.of_nat seq].
    rewrite (proj2 (Z.ltb_lt 0 t) Ht).
    destruct (Z.of_nat (S (S n)) =? 0) eqn:E; [apply Z.eqb_eq in E; lia|].
    replace (Z.of_nat (S (S n)) - 1) with (Z.of_nat (S n)) by lia.
    rewrite IH; [| |lia].
    2:{ assert (t / Z.of_nat (S (S n)) < t) by (apply Z.div_lt; lia). lia. }
    rewrite <- app_assoc. f_equal. f_equal.
    change (seq 0 (S (S n))) with (0%nat :: seq 1 (S n)).
    cbn [map app].
    change (Z.of_nat 0) with 0. rewrite Z.add_0_r. f_equal.
    rewrite <- (seq_shift (S n) 0), map_map.
    apply map_ext_in. intros i Hi. apply in_seq in Hi.
    replace (Z.of_nat (S n)) with (Z.of_nat (S (S n)) - 1) by lia.
    replace (Z.of_nat (S i)) with (Z.of_nat i + 1) by lia.
    apply div_shift; lia.
Qed.

Lemma allocate_tasks_closed fuel t p :
  0 < t -> 0 < p -> (Z.to_nat p < fuel)%nat ->
  forall a, a = PyInt t \/ a = NpInt t ->
  allocate_tasks fuel a (PyInt p) =
  Ok (map (fun i => (t + Z.of_nat i) / p) (seq 0 (Z.to_nat p))).
Proof.
  intros Ht Hp Hf a Ha.
  assert (E : (t <=? 0) || (p <=? 0) = false).
  { apply orb_false_intro; apply Z.leb_gt; lia. }
  destruct (Z.to_nat p) as [|n] eqn:En; [lia|].
  assert (Ep : p = Z.of_nat (S n)) by lia. subst p.
  destruct Ha; subst a; cbn [allocate_tasks]; rewrite E;
    rewrite allocate_loop_spec by lia; reflexivity.
Qed.

(** Sum of the closed form, by induction through the loop invariant. *)
Lemma closed_sum n : forall t, 0 < t ->
  zsum (map (fun i => (t + Z.of_nat i) / Z.of_nat (S n)) (seq 0 (S n))) = t.
Proof.
  induction n as [|n IH]; intros t Ht.
  - cbn. rewrite Z.add_0_r, Z.div_1_r. lia.
  - change (seq 0 (S (S n))) with (0%nat :: seq 1 (S n)).
    cbn [map zsum fold_right]. change (Z.of_nat 0) with 0. rewrite Z.add_0_r.
    rewrite <- (seq_shift (S n) 0), map_map.
    assert (t / Z.of_nat (S (S n)) < t) by (apply Z.div_lt; lia).
    specialize (IH (t - t / Z.of_nat (S (S n))) ltac:(lia)).
    rewrite (map_ext_in _ (fun i =>
      (t - t / Z.of_nat (S (S n)) + Z.of_nat i) / Z.of_nat (S n))).
    + unfold zsum in IH. rewrite IH. lia.
    + intros i Hi. apply in_seq in Hi.
      replace (Z.of_nat (S n)) with (Z.of_nat (S (S n)) - 1) by lia.
      replace (Z.of_nat (S i)) with (Z.of_nat i + 1) by lia.
      symmetry. apply div_shift; lia.
Qed.

Lemma closed_bounds t p i : 0 < t -> 0 < p -> 0 <= i < p ->
  0 <= t / p <= (t + i) / p /\ (t + i) / p <= t / p + 1.
Proof.
  intros Ht Hp Hi. split; [split|].
  - apply Z.div_pos; lia.
  - apply Z.div_le_mono; lia.
  - replace (t / p + 1) with ((t + 1 * p) / p) by (rewrite Z.div_add by lia; lia).
    apply Z.div_le_mono; lia.
Qed.

(** Cumulative sums. *)
Lemma cumsum_length acc l : length (cumsum_from acc l) = length l.
Proof. revert acc; induction l; intros; simpl; auto. Qed.

Lemma cumsum_nth l : forall acc i, (i < length l)%nat ->
  nth_error (cumsum_from acc l) i = Some (acc + zsum (firstn (S i) l)).
Proof.
  induction l as [|a l IH]; intros acc i Hi; [simpl in Hi; lia|].
  destruct i as [|i].
  - simpl. f_equal. lia.
  - simpl in Hi. cbn [cumsum_from nth_error]. rewrite IH by lia.
    cbn [firstn zsum fold_right]. f_equal. unfold zsum. simpl. lia.
Qed.

Lemma breakpoints_nth l i : (i <= length l)%nat ->
  nth_error (breakpoints l) i = Some (zsum (firstn i l)).
Proof.
  intros Hi. destruct i as [|i]; [reflexivity|].
  unfold breakpoints. cbn [nth_error]. rewrite cumsum_nth by lia. f_equal.
Qed.

Lemma breakpoints_nth_none l i : (length l < i)%nat ->
  nth_error (breakpoints l) i = None.
Proof.
  intros Hi. apply nth_error_None. unfold breakpoints. simpl.
  rewrite cumsum_length. lia.
Qed.

Definition seg_of (l : list Z) (i : nat) : slice :=
  (zsum (firstn i l), zsum (firstn (S i) l)).

Lemma segments_map l n : (n <= length l)%nat ->
  sequence (map (fun rank =>
                   start <- py_nth (breakpoints l) rank ;;
                   stop <- py_nth (breakpoints l) (S rank) ;;
                   Ok (start, stop)) (seq 0 n)) = Ok (map (seg_of l) (seq 0 n)).
Proof.
  intros Hn. rewrite <- sequence_ok_map, map_map. f_equal.
  apply map_ext_in. intros i Hi. apply in_seq in Hi.
  unfold py_nth. rewrite !breakpoints_nth by lia. reflexivity.
Qed.

Lemma sequence_err {A} (l1 l2 : list (res A)) e :
  (exists v, sequence l1 = Ok v) -> sequence (l1 ++ Err e :: l2) = Err e.
Proof.
  induction l1 as [|x l1 IH]; simpl; intros [v Hv]; [reflexivity|].
  destruct x as [a|]; simpl in *; [|discriminate].
  destruct (sequence l1) as [w|] eqn:E; simpl in *; [|discriminate].
  rewrite IH; eauto.
Qed.

Lemma segments_err l n : (length l < n)%nat ->
  sequence (map (fun rank =>
                   start <- py_nth (breakpoints l) rank ;;
                   stop <- py_nth (breakpoints l) (S rank) ;;
                   Ok (start, stop)) (seq 0 n)) = Err IndexError.
Proof.
  intros Hn.
  replace n with (length l + S (n - length l - 1))%nat by lia.
  rewrite seq_app, map_app. cbn [seq map].
  assert (E : forall rank, rank = length l ->
    (start <- py_nth (breakpoints l) rank ;;
     stop <- py_nth (breakpoints l) (S rank) ;;
     Ok (start, stop)) = Err IndexError).
  { intros rank ->. unfold py_nth.
    rewrite breakpoints_nth, breakpoints_nth_none by lia. reflexivity. }
  rewrite (E (0 + length l)%nat) by lia.
  apply sequence_err. eexists. apply segments_map. lia.
Qed.

Lemma slice_indices_range a n :
  slice_indices (a, a + Z.of_nat n) =
  map (fun i => a + Z.of_nat i) (seq 0 n).
Proof.
  unfold slice_indices. cbn [fst snd]. replace (a + Z.of_nat n - a) with (Z.of_nat n) by lia.
  now rewrite Nat2Z.id.
Qed.

Lemma seg_cons_shift a l i :
  seg_of (a :: l) (S i) = (a + fst (seg_of l i), a + snd (seg_of l i)).
Proof. unfold seg_of. cbn [firstn zsum fold_right fst snd]. reflexivity. Qed.

Lemma zsum_nonneg l : Forall (fun a => 0 <= a) l -> 0 <= zsum l.
Proof. induction 1; unfold zsum in *; simpl; lia. Qed.

Lemma slice_indices_shift a s :
  slice_indices (a + fst s, a + snd s) = map (Z.add a) (slice_indices s).
Proof.
  unfold slice_indices. cbn [fst snd].
  replace (a + snd s - (a + fst s)) with (snd s - fst s) by lia.
  rewrite map_map. apply map_ext. intros. lia.
Qed.

(** Segments tile [0, sum) exactly. *)
Lemma segments_tile l : Forall (fun a => 0 <= a) l ->
  concat (map (fun i => slice_indices (seg_of l i)) (seq 0 (length l))) =
  map Z.of_nat (seq 0 (Z.to_nat (zsum l))).
Proof.
  induction l as [|a l IH]; intros H; [reflexivity|].
  inversion H as [|? ? Ha Hl]; subst. specialize (IH Hl).
  pose proof (zsum_nonneg l Hl) as Hs.
  cbn [length seq map concat].
  rewrite <- seq_shift, map_map.
  rewrite (map_ext _ (fun i => map (Z.add a) (slice_indices (seg_of l i)))).
  2:{ intros i. rewrite seg_cons_shift. apply slice_indices_shift. }
  rewrite <- (map_map (fun i => slice_indices (seg_of l i)) (map (Z.add a))).
  rewrite <- concat_map, IH.
  unfold seg_of at 1. cbn [firstn zsum fold_right].
  unfold slice_indices. cbn [fst snd].
  replace (a + 0 - 0) with a by lia.
  fold (zsum l).
  replace (Z.to_nat (a + zsum l)) with (Z.to_nat a + Z.to_nat (zsum l))%nat by lia.
  rewrite seq_app, map_app. f_equal.
  rewrite Nat.add_0_l.
  replace (seq (Z.to_nat a) (Z.to_nat (zsum l)))
    with (map (fun i => (Z.to_nat a + i)%nat) (seq 0 (Z.to_nat (zsum l)))).
  - rewrite !map_map. apply map_ext. intros; lia.
  - clear. generalize (Z.to_nat (zsum l)) as n, (Z.to_nat a) as k.
    induction n as [|n IHn]; intros k; [reflexivity|].
    cbn [seq map]. f_equal; [lia|].
    rewrite <- (IHn (S k)), <- (seq_shift n 0), map_map. apply map_ext. intros; lia.
Qed.

(** * Gather *)

Lemma write_at_length {A} (buf : list A) off chunk :
  (off + length chunk <= length buf)%nat ->
  length (write_at buf off chunk) = length buf.
Proof.
  intros H. unfold write_at. rewrite !app_length, firstn_length, skipn_length. lia.
Qed.

Lemma write_at_nth {A} (buf : list A) off chunk i :
  (off + length chunk <= length buf)%nat ->
  nth_error (write_at buf off chunk) i =
  if (off <=? i)%nat && (i <? off + length chunk)%nat
  then nth_error chunk (i - off) else nth_error buf i.
Proof.
  intros H. unfold write_at.
  assert (L : length (firstn off buf) = off) by (rewrite firstn_length; lia).
  destruct (off <=? i)%nat eqn:E1; simpl.
  - apply Nat.leb_le in E1. rewrite nth_error_app2 by lia. rewrite L.
    destruct (i <? off + length chunk)%nat eqn:E2.
    + apply Nat.ltb_lt in E2. rewrite nth_error_app1 by lia. reflexivity.
    + apply Nat.ltb_ge in E2. rewrite nth_error_app2 by lia.
      assert (G : forall (l : list A) n m, nth_error (skipn n l) m = nth_error l (n + m)).
      { clear. induction l; intros n m; destruct n; simpl; auto.
        now destruct m. }
      rewrite G. f_equal. lia.
  - apply Nat.leb_gt in E1. rewrite nth_error_app1 by lia.
    assert (G : forall (l : list A) n m, (m < n)%nat -> nth_error (firstn n l) m = nth_error l m).
    { clear. induction l; intros n m H; destruct n; simpl; auto; try lia.
      destruct m; simpl; auto. apply IHl; lia. }
    apply G. lia.
Qed.

(** Messages whose positions in [target] match [target]'s content. *)
Definition msg_ok {A} (target : list A) (m : nat * list A) : Prop :=
  (fst m + length (snd m) <= length target)%nat /\
  forall i, (i < length (snd m))%nat ->
    nth_error target (fst m + i) = nth_error (snd m) i.

Definition covered {A} (m : nat * list A) (i : nat) : Prop :=
  (fst m <= i < fst m + length (snd m))%nat.

Lemma gatherv_covers {A} (target : list A) msgs : forall buf,
  length buf = length target ->
  Forall (msg_ok target) msgs ->
  length (gatherv buf msgs) = length target /\
  forall i, (nth_error buf i = nth_error target i \/ Exists (fun m => covered m i) msgs) ->
    nth_error (gatherv buf msgs) i = nth_error target i.
Proof.
  induction msgs as [|m msgs IH]; intros buf L H.
  - split; [assumption|]. intros i [E|E]; [assumption|inversion E].
  - inversion H as [|? ? [Hm1 Hm2] Hms]; subst.
    assert (L' : length (write_at buf (fst m) (snd m)) = length target)
      by (rewrite write_at_length; lia).
    destruct (IH _ L' Hms) as [I1 I2]. split; [exact I1|].
    intros i Hi. apply I2.
    rewrite write_at_nth by lia.
    destruct ((fst m <=? i)%nat && (i <? fst m + length (snd m))%nat) eqn:E.
    + left. apply andb_prop in E as [E1 E2].
      apply Nat.leb_le in E1. apply Nat.ltb_lt in E2.
      rewrite <- Hm2 by lia. f_equal. lia.
    + destruct Hi as [Hi|Hi]; [left; exact Hi|].
      inversion Hi as [? ? Hc|? ? Hc]; subst; [|right; exact Hc].
      exfalso. unfold covered in Hc. apply andb_false_iff in E as [E|E].
      * apply Nat.leb_gt in E. lia.
      * apply Nat.ltb_ge in E. lia.
Qed.

Lemma nth_error_ext {A} (l1 l2 : list A) :
  (forall i, nth_error l1 i = nth_error l2 i) -> l1 = l2.
Proof.
  revert l2; induction l1 as [|a l1 IH]; intros [|b l2] H; auto.
  - specialize (H 0%nat); discriminate.
  - specialize (H 0%nat); discriminate.
  - f_equal; [specialize (H 0%nat); simpl in H; congruence|].
    apply IH. intros i. apply (H (S i)).
Qed.

Lemma concat_firstn_length {A} (parts : list (list A)) r :
  length (concat (firstn r parts)) = list_sum (firstn r (map (@length A) parts)).
Proof.
  revert r; induction parts as [|p parts IH]; intros [|r]; simpl; auto.
  rewrite app_length, IH. reflexivity.
Qed.

Lemma concat_split {A} (parts : list (list A)) r p :
  nth_error parts r = Some p ->
  concat parts = concat (firstn r parts) ++ p ++ concat (skipn (S r) parts).
Proof.
  revert r; induction parts as [|q parts IH]; intros [|r] H; simpl in *; try discriminate.
  - injection H as <-. reflexivity.
  - rewrite (IH r H). now rewrite <- app_assoc.
Qed.

Lemma combine_offsets_nth {A} (parts : list (list A)) m :
  In m (combine (gather_offsets (map (@length A) parts)) parts) ->
  exists r p, nth_error parts r = Some p /\
    m = (length (concat (firstn r parts)), p).
Proof.
  intros H. apply In_nth_error in H as [r H]. exists r.
  assert (G : forall (X Y : Type) (l1 : list X) (l2 : list Y) r x,
    nth_error (combine l1 l2) r = Some x ->
    nth_error l1 r = Some (fst x) /\ nth_error l2 r = Some (snd x)).
  { clear. induction l1; intros [|b l2] [|r] x H; simpl in *; try discriminate.
    - injection H as <-. auto.
    - apply IHl1; auto. }
  apply G in H as [H1 H2]. exists (snd m). split; [exact H2|].
  unfold gather_offsets in H1. rewrite nth_error_map in H1.
  destruct (nth_error (seq 0 (length (map (@length A) parts))) r) as [k|] eqn:E; [|discriminate].
  assert (k = r).
  { assert (Hr : (r < length (map (@length A) parts))%nat).
    { rewrite <- (seq_length (length (map (@length A) parts)) 0).
      apply nth_error_Some. congruence. }
    rewrite (nth_error_nth' _ 0%nat) in E by (now rewrite seq_length).
    rewrite seq_nth in E by exact Hr. injection E. lia. }
  subst k. injection H1 as H1. destruct m as [o q]. simpl in *.
  now rewrite concat_firstn_length, H1.
Qed.

Lemma gatherv_concat {A} (parts : list (list A)) buf msgs :
  length buf = length (concat parts) ->
  Permutation msgs (combine (gather_offsets (map (@length A) parts)) parts) ->
  gatherv buf msgs = concat parts.
Proof.
  intros L P.
  assert (F : Forall (msg_ok (concat parts)) msgs).
  { apply Forall_forall. intros m Hm.
    apply (Permutation_in _ P) in Hm.
    apply combine_offsets_nth in Hm as (r & p & Hr & ->).
    rewrite (concat_split parts r p Hr). split.
    - cbn [fst snd]. rewrite !app_length. lia.
    - cbn [fst snd]. intros i Hi. rewrite nth_error_app2 by lia.
      rewrite nth_error_app1 by lia. f_equal. lia. }
  destruct (gatherv_covers _ _ _ L F) as [L2 H].
  apply nth_error_ext. intros i.
  destruct (le_lt_dec (length (concat parts)) i) as [Hi|Hi].
  { rewrite !(proj2 (nth_error_None _ _)) by lia. reflexivity. }
  apply H. right.
  (* find the part that covers i *)
  assert (G : forall (parts : list (list A)) i, (i < length (concat parts))%nat ->
    exists r p, nth_error parts r = Some p /\
      (length (concat (firstn r parts)) <= i < length (concat (firstn r parts)) + length p)%nat).
  { clear. induction parts as [|q parts IH]; intros i Hi; [simpl in Hi; lia|].
    simpl in Hi. rewrite app_length in Hi.
    destruct (le_lt_dec (length q) i) as [H|H].
    - destruct (IH (i - length q)%nat ltac:(lia)) as (r & p & H1 & H2).
      exists (S r), p. split; [exact H1|]. simpl. rewrite app_length. lia.
    - exists 0%nat, q. split; [reflexivity|]. simpl. lia. }
  destruct (G parts i Hi) as (r & p & Hr & Hc).
  apply Exists_exists. exists (length (concat (firstn r parts)), p). split.
  - apply (Permutation_in _ (Permutation_sym P)).
    assert (Lr : (r < length parts)%nat) by (apply nth_error_Some; congruence).
    apply (nth_error_In _ r).
    assert (C : forall (X Y : Type) (l1 : list X) (l2 : list Y) r x y,
      nth_error l1 r = Some x -> nth_error l2 r = Some y ->
      nth_error (combine l1 l2) r = Some (x, y)).
    { clear. induction l1; intros [|b l2] [|r] x y H1 H2; simpl in *; try discriminate.
      - congruence.
      - auto. }
    apply C; [|exact Hr].
    unfold gather_offsets. rewrite nth_error_map.
    rewrite (nth_error_nth' _ 0%nat) by (now rewrite seq_length, map_length).
    rewrite seq_nth by (now rewrite map_length). simpl.
    f_equal. symmetry. apply concat_firstn_length.
  - exact Hc.
Qed.

(** * Warnings *)
Section Warnings.
  Context {K P : Type} (K_eqb : K -> K -> bool).
  Hypothesis K_eqb_spec : forall a b, K_eqb a b = true <-> a = b.

  Lemma existsb_eqb k l : existsb (K_eqb k) l = true <-> In k l.
  Proof.
    rewrite existsb_exists. split.
    - intros (x & Hx & E). apply K_eqb_spec in E. now subst.
    - intros H. exists k. split; auto. now apply K_eqb_spec.
  Qed.

  Lemma restore_loop_prefix : forall (captured restored : list (record (K:=K) (P:=P))) seen,
    exists tail, restore_loop K_eqb captured restored seen = restored ++ tail.
  Proof.
    induction captured as [|r t IH]; intros restored seen; simpl.
    - exists []. now rewrite app_nil_r.
    - destruct (existsb _ _); [apply IH|].
      destruct (IH (restored ++ [r]) (fst r :: seen)) as [tl E].
      rewrite E, <- app_assoc. eauto.
  Qed.

  Lemma restore_loop_acc : forall (captured restored : list (record (K:=K) (P:=P))) seen,
    restore_loop K_eqb captured restored seen =
    restored ++ restore_loop K_eqb captured [] seen.
  Proof.
    induction captured as [|r t IH]; intros restored seen; simpl.
    - now rewrite app_nil_r.
    - destruct (existsb _ _); [apply IH|].
      rewrite IH, (IH [r]), <- app_assoc. reflexivity.
  Qed.
End Warnings.
