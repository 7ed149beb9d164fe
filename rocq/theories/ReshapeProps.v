(* Claim C09: flattened three-point tables and matrices. *)
From Coq Require Import Reals ZArith List Lia Lra Bool FinFun.
From Verif Require Import Base ArrayModel ArrayProofs Array2dModel Array2dProps OscilProps ReshapeModel.
Import ListNotations.
Open Scope R_scope.

(** ** Specification vocabulary *)

(** Rows of the upper triangle, one after the other. *)
Definition upper_triangle (m : list (list R)) : list R :=
  flat_map (fun i => skipn i (nth i m [])) (seq 0 (length m)).

Definition symmetric (m : list (list R)) (n : nat) : Prop :=
  forall i j, (i < n)%nat -> (j < n)%nat -> entry m i j = entry m j i.

(** Coordinates: every row has (at least) two entries. *)
Definition pairs (paired : list (list R)) : Prop :=
  Forall (fun row => (2 <= length row)%nat) paired.

(** ** The triangular index *)
Definition row_cells (n i : nat) : list (nat * nat) := map (fun j => (i, j)) (seq i (n - i)).

Lemma prefix_length n i : (i <= n)%nat ->
  (2 * length (flat_map (row_cells n) (seq 0 i)) = (2 * n - i + 1) * i)%nat.
Proof.
  induction i as [|i IH]; intros H; [simpl; lia|].
  rewrite seq_S, flat_map_app, app_length. simpl flat_map. rewrite app_nil_r.
  unfold row_cells at 2. rewrite map_length, seq_length, Nat.mul_add_distr_l, IH by lia. nia.
Qed.

Lemma prefix_length' n i : (i <= n)%nat ->
  length (flat_map (row_cells n) (seq 0 i)) = ((2 * n - i + 1) * i / 2)%nat.
Proof.
  intros H. rewrite <- (prefix_length n i H), Nat.mul_comm. symmetry. now apply Nat.div_mul.
Qed.

Lemma triu_length n : (2 * length (triu_indices n) = n * (n + 1))%nat.
Proof.
  change (triu_indices n) with (flat_map (row_cells n) (seq 0 n)).
  rewrite prefix_length by lia. nia.
Qed.

Lemma triu_split n i : (i < n)%nat ->
  triu_indices n = flat_map (row_cells n) (seq 0 i) ++ row_cells n i ++ flat_map (row_cells n) (seq (S i) (n - S i)).
Proof.
  intros H. change (triu_indices n) with (flat_map (row_cells n) (seq 0 n)).
  replace n with (i + (1 + (n - S i)))%nat at 2 by lia.
  rewrite seq_app, flat_map_app. f_equal.
Qed.

Lemma nth_row_cells n i j d : (i <= j)%nat -> (j < n)%nat -> nth (j - i) (row_cells n i) d = (i, j).
Proof.
  intros H1 H2. unfold row_cells. set (f := fun j0 : nat => (i, j0)).
  rewrite (nth_indep _ d (f 0%nat)) by (rewrite map_length, seq_length; lia).
  rewrite map_nth, seq_nth by lia. unfold f. f_equal. lia.
Qed.

Lemma nth_triu n i j d : (i <= j)%nat -> (j < n)%nat ->
  nth (cpp_triu_index n i j) (triu_indices n) d = (i, j).
Proof.
  intros H1 H2. rewrite (triu_split n i) by lia. unfold cpp_triu_index.
  rewrite <- prefix_length' by lia. rewrite app_nth2 by lia.
  replace (_ + (j - i) - _)%nat with (j - i)%nat by lia.
  rewrite app_nth1 by (unfold row_cells; rewrite map_length, seq_length; lia).
  now apply nth_row_cells.
Qed.

Lemma triu_index_lt n i j : (i <= j)%nat -> (j < n)%nat ->
  (cpp_triu_index n i j < length (triu_indices n))%nat.
Proof.
  intros H1 H2. rewrite (triu_split n i) by lia. unfold cpp_triu_index.
  rewrite <- prefix_length' by lia. rewrite !app_length. unfold row_cells at 3.
  rewrite map_length, seq_length. lia.
Qed.

Lemma triu_in n i j : In (i, j) (triu_indices n) <-> (i <= j < n)%nat.
Proof.
  unfold triu_indices. rewrite in_flat_map. split.
  - intros (x & Hx & Hp). apply in_map_iff in Hp as (y & E & Hy). injection E as -> ->.
    apply in_seq in Hx, Hy. lia.
  - intros H. exists i. split; [apply in_seq; lia|]. apply in_map_iff. exists j.
    split; [reflexivity|]. apply in_seq. lia.
Qed.

Lemma NoDup_flat_rows n k s : NoDup (flat_map (row_cells n) (seq s k)).
Proof.
  revert s. induction k as [|k IH]; intros s; simpl; [constructor|].
  apply NoDup_app_intro.
  - unfold row_cells. apply FinFun.Injective_map_NoDup; [|apply seq_NoDup].
    intros a b E. congruence.
  - apply IH.
  - intros p Hp Hq. unfold row_cells in Hp. apply in_map_iff in Hp as (j & <- & _).
    apply in_flat_map in Hq as (i & Hi & Hq). unfold row_cells in Hq.
    apply in_map_iff in Hq as (j' & E & _). injection E as -> _. apply in_seq in Hi. lia.
Qed.

Lemma triu_NoDup n : NoDup (triu_indices n).
Proof. apply NoDup_flat_rows. Qed.

(** ** Scatter writes *)
Lemma set_nth_length {A} (l : list A) i v : length (set_nth l i v) = length l.
Proof. revert i. induction l as [|x l IH]; intros [|i]; simpl; auto. Qed.

Lemma nth_set_nth {A} (l : list A) i j v d : (i < length l)%nat ->
  nth j (set_nth l i v) d = if (j =? i)%nat then v else nth j l d.
Proof.
  revert i j. induction l as [|x l IH]; intros i j H; simpl in H; [lia|].
  destruct i as [|i], j as [|j]; simpl; try reflexivity. apply IH. lia.
Qed.

Lemma set_entry_shape m r c p v : shape m r c -> (fst p < r)%nat -> shape (set_entry m p v) r c.
Proof.
  intros S Hp. assert (S' := S). destruct S as [S1 S2]. unfold set_entry. split; [now rewrite set_nth_length|].
  apply Forall_forall. intros row Hr. apply (In_nth _ _ []) in Hr as (i & Hi & <-).
  rewrite set_nth_length in Hi. rewrite nth_set_nth by lia.
  destruct (i =? fst p)%nat; [rewrite set_nth_length|]; apply (shape_row _ _ _ _ S'); lia.
Qed.

Lemma set_entry_entry m r c p v i j : shape m r c -> (fst p < r)%nat -> (snd p < c)%nat ->
  entry (set_entry m p v) i j = if (i =? fst p)%nat && (j =? snd p)%nat then v else entry m i j.
Proof.
  intros S H1 H2. unfold entry, set_entry. rewrite nth_set_nth by (destruct S; lia).
  destruct (i =? fst p)%nat eqn:E; [|reflexivity]. apply Nat.eqb_eq in E. subst i.
  rewrite nth_set_nth by (rewrite (shape_row _ _ _ _ S H1); exact H2).
  destruct (j =? snd p)%nat; reflexivity.
Qed.

Definition scatter (m : matrix) (l : list ((nat * nat) * R)) : matrix :=
  fold_left (fun m pv => set_entry m (fst pv) (snd pv)) l m.

Lemma scatter_spec l : forall m r c, shape m r c ->
  (forall p v, In (p, v) l -> (fst p < r)%nat /\ (snd p < c)%nat) ->
  NoDup (map fst l) ->
  shape (scatter m l) r c /\
  (forall p v, In (p, v) l -> entry (scatter m l) (fst p) (snd p) = v) /\
  (forall i j, ~ In (i, j) (map fst l) -> entry (scatter m l) i j = entry m i j).
Proof.
  induction l as [|[p v] l IH]; intros m r c S B N; simpl.
  - split; [exact S|]. split; [intros ? ? []|reflexivity].
  - inversion N as [|? ? N1 N2]; subst. simpl in N1.
    destruct (B p v (or_introl eq_refl)) as [B1 B2].
    assert (S1 := set_entry_shape m r c p v S B1).
    destruct (IH (set_entry m p v) r c S1) as (C1 & C2 & C3).
    { intros q w Hq. apply (B q w). now right. }
    { exact N2. }
    split; [exact C1|]. split.
    + intros q w [E|H]; [|now apply C2]. injection E as <- <-. destruct p as [pi pj].
      change (fold_left _ l _) with (scatter (set_entry m (pi, pj) v) l).
      rewrite C3 by exact N1. rewrite (set_entry_entry m r c) by assumption. simpl.
      now rewrite !Nat.eqb_refl.
    + intros i j H. change (fold_left _ l _) with (scatter (set_entry m p v) l).
      rewrite C3 by tauto. rewrite (set_entry_entry m r c) by assumption.
      destruct (i =? fst p)%nat eqn:E1; [|reflexivity]. destruct (j =? snd p)%nat eqn:E2; [|reflexivity].
      apply Nat.eqb_eq in E1, E2. exfalso. apply H. left. destruct p; simpl in *; congruence.
Qed.

Lemma assign_at_scatter m idx vals : length idx = length vals -> assign_at m idx vals = Ok (scatter m (combine idx vals)).
Proof.
  intros L. unfold assign_at. destruct vals as [|v [|w vals]].
  - simpl in L |- *. destruct idx; [reflexivity|discriminate].
  - simpl in L. destruct idx as [|p [|q idx]]; try discriminate. reflexivity.
  - rewrite L, Nat.eqb_refl. reflexivity.
Qed.

Lemma combine_fst {A B} (a : list A) (b : list B) : length a = length b -> map fst (combine a b) = a.
Proof.
  revert b. induction a as [|x a IH]; intros [|y b] H; simpl in *; try discriminate; auto.
  f_equal. apply IH. lia.
Qed.

Lemma in_combine_nth {A B} (a : list A) (b : list B) k d e : length a = length b -> (k < length a)%nat ->
  In (nth k a d, nth k b e) (combine a b).
Proof.
  revert b k. induction a as [|x a IH]; intros [|y b] k H Hk; simpl in *; try lia.
  destruct k as [|k]; [now left|]. right. apply IH; lia.
Qed.

(** ** Square roots *)
Lemma Int_part_INR n : Int_part (INR n) = Z.of_nat n.
Proof.
  rewrite INR_IZR_INZ. unfold Int_part.
  replace (up (IZR (Z.of_nat n))) with (Z.of_nat n + 1)%Z; [lia|].
  apply tech_up; rewrite plus_IZR; lra.
Qed.

Lemma isclose_refl x : isclose x x = true.
Proof.
  unfold isclose. apply Rleb_spec. unfold Rminus. rewrite Rplus_opp_r, Rabs_R0.
  assert (P := Rabs_pos x). nra.
Qed.

Lemma triu_root L n : (2 * L = n * (n + 1))%nat -> (sqrt (8 * INR L + 1) - 1) / 2 = INR n.
Proof.
  intros H. assert (E : 2 * INR L = INR n * (INR n + 1)).
  { apply (f_equal INR) in H. rewrite !mult_INR, plus_INR in H. simpl in H. lra. }
  replace (8 * INR L + 1) with ((2 * INR n + 1) * (2 * INR n + 1)) by nra.
  rewrite sqrt_square by (assert (P := pos_INR n); lra). field.
Qed.

Lemma full_root n : sqrt (INR (n * n)) = INR n.
Proof. rewrite mult_INR. apply sqrt_square, pos_INR. Qed.

Lemma second_column_ok paired n : pairs paired -> (n <= length paired)%nat ->
  exists c, second_column paired n = Ok c /\ length c = n /\
    forall i, (i < n)%nat -> nth i c 0 = entry paired i 1.
Proof.
  intros P H. unfold second_column.
  set (f := fun row : list R => match nth_error row 1 with Some x => Ok x | None => Err IndexError end).
  assert (F : forall row, In row (firstn n paired) -> f row = Ok (nth 1 row 0)).
  { intros row Hr. assert (Hp : In row paired) by (rewrite <- (firstn_skipn n paired); apply in_app_iff; now left).
    unfold pairs in P. rewrite Forall_forall in P. specialize (P row Hp). unfold f.
    rewrite (nth_error_nth' row 0) by lia. reflexivity. }
  destruct (sequence_total f (firstn n paired)) as (c & E); [eauto|].
  exists c. split; [exact E|]. apply sequence_ok in E as [L N]. rewrite firstn_length in *.
  split; [lia|]. intros i Hi. specialize (N i [] 0 ltac:(lia)).
  rewrite F in N by (apply nth_In; rewrite firstn_length; lia). injection N as <-.
  unfold entry. f_equal. rewrite <- (firstn_skipn n paired) at 2.
  rewrite app_nth1; [reflexivity|]. rewrite firstn_length. lia.
Qed.

(** ** C09, upper-triangular shape.  A table with n(n+1)/2 entries is turned into
    the symmetric n x n matrix whose (i, j) and (j, i) entries are the flat entry
    at the position the C++ code uses for bins i <= j; the coordinates are
    the second coordinates of the first n rows. *)
Theorem reshape_triu_correct :
  forall n paired flat, length paired = length flat -> pairs paired ->
  (2 * length flat = n * (n + 1))%nat ->
  exists coords m, reshape_threept_datatab true paired flat Triu = Ok (coords, m) /\
    length coords = n /\ (forall i, (i < n)%nat -> nth i coords 0 = entry paired i 1) /\
    shape m n n /\ symmetric m n /\
    forall i j, (i <= j)%nat -> (j < n)%nat -> entry m i j = nth (cpp_triu_index n i j) flat 0.
Proof.
  intros n paired flat L P T. unfold reshape_threept_datatab. rewrite L, Nat.eqb_refl. cbn [negb].
  rewrite (triu_root _ n T), Int_part_INR, <- INR_IZR_INZ, isclose_refl. cbn [negb].
  rewrite Nat2Z.id.
  assert (TL : length (triu_indices n) = length flat) by (assert (Q := triu_length n); lia).
  destruct (second_column_ok paired n P) as (c & -> & Lc & Nc).
  { destruct n; [lia|]. nia. }
  cbn [bind]. rewrite assign_at_scatter by exact TL. cbn [bind].
  set (m1 := scatter _ _).
  assert (S0 : shape (repeat (repeat 0 n) n) n n).
  { split; [apply repeat_length|]. apply Forall_forall. intros r Hr. apply repeat_spec in Hr. subst. apply repeat_length. }
  destruct (scatter_spec (combine (triu_indices n) flat) (repeat (repeat 0 n) n) n n S0) as (A1 & A2 & A3).
  { intros [i j] v Hv. apply in_combine_l in Hv. apply triu_in in Hv. simpl. lia. }
  { rewrite combine_fst by exact TL. apply triu_NoDup. }
  fold m1 in A1, A2, A3.
  set (swap := fun p : nat * nat => (snd p, fst p)).
  rewrite assign_at_scatter by (rewrite map_length; exact TL). cbn [bind].
  destruct (scatter_spec (combine (map swap (triu_indices n)) flat) m1 n n A1) as (B1 & B2 & B3).
  { intros [i j] v Hv. apply in_combine_l in Hv. apply in_map_iff in Hv as ([a b] & E & Hv).
    apply triu_in in Hv. unfold swap in E. simpl in E. injection E as <- <-. simpl. lia. }
  { rewrite combine_fst by (rewrite map_length; exact TL).
    apply FinFun.Injective_map_NoDup; [|apply triu_NoDup]. intros [a b] [a' b'] E. unfold swap in E. simpl in E. congruence. }
  set (m2 := scatter m1 _) in *.
  assert (LOW : forall i j, (i <= j)%nat -> (j < n)%nat -> entry m2 j i = nth (cpp_triu_index n i j) flat 0).
  { intros i j Hij Hj. assert (K := triu_index_lt n i j Hij Hj).
    specialize (B2 (j, i) (nth (cpp_triu_index n i j) flat 0)). apply B2.
    assert (I := in_combine_nth (map swap (triu_indices n)) flat (cpp_triu_index n i j) (swap (0%nat, 0%nat)) 0).
    rewrite map_nth, nth_triu in I by assumption. apply I; rewrite map_length; [exact TL|exact K]. }
  assert (UP : forall i j, (i <= j)%nat -> (j < n)%nat -> entry m2 i j = nth (cpp_triu_index n i j) flat 0).
  { intros i j Hij Hj. destruct (Nat.eq_dec i j) as [<-|D]; [now apply LOW|].
    rewrite B3.
    - assert (K := triu_index_lt n i j Hij Hj).
      apply (A2 (i, j) (nth (cpp_triu_index n i j) flat 0)).
      assert (I := in_combine_nth (triu_indices n) flat (cpp_triu_index n i j) (0%nat, 0%nat) 0).
      rewrite nth_triu in I by assumption. apply I; [exact TL|exact K].
    - rewrite combine_fst by (rewrite map_length; exact TL). intros I.
      apply in_map_iff in I as ([a b] & E & I). apply triu_in in I. unfold swap in E. simpl in E.
      injection E as <- <-. lia. }
  exists c, m2. repeat split; auto.
  - apply B1.
  - apply B1.
  - intros i j Hi Hj. destruct (le_lt_dec i j) as [H|H].
    + rewrite UP, LOW by lia. reflexivity.
    + rewrite LOW, UP by lia. reflexivity.
Qed.

(** Positions are a bijection between pairs i <= j < n and 0 .. n(n+1)/2 - 1. *)
Theorem triu_index_bijective :
  forall n,
  (forall i j, (i <= j)%nat -> (j < n)%nat -> (2 * cpp_triu_index n i j < n * (n + 1))%nat) /\
  (forall i j i' j', (i <= j)%nat -> (j < n)%nat -> (i' <= j')%nat -> (j' < n)%nat ->
     cpp_triu_index n i j = cpp_triu_index n i' j' -> i = i' /\ j = j') /\
  (forall k, (2 * k < n * (n + 1))%nat ->
     exists i j, (i <= j)%nat /\ (j < n)%nat /\ cpp_triu_index n i j = k).
Proof.
  intros n. assert (TL := triu_length n). split; [|split].
  - intros i j H1 H2. assert (K := triu_index_lt n i j H1 H2). lia.
  - intros i j i' j' H1 H2 H3 H4 E.
    assert (A := nth_triu n i j (0, 0)%nat H1 H2). rewrite E, nth_triu in A by assumption.
    injection A as <- <-. auto.
  - intros k Hk. destruct (nth k (triu_indices n) (0, 0)%nat) as [i j] eqn:E.
    assert (Hk' : (k < length (triu_indices n))%nat) by lia.
    assert (I := nth_In _ (0, 0)%nat Hk'). rewrite E in I. apply triu_in in I.
    exists i, j. split; [lia|]. split; [lia|].
    assert (K := triu_index_lt n i j ltac:(lia) ltac:(lia)).
    apply (proj1 (NoDup_nth (triu_indices n) (0, 0)%nat) (triu_NoDup n)); [exact K|exact Hk'|].
    rewrite E. apply nth_triu; lia.
Qed.

(** Reading the upper triangle of the result row by row gives the table back. *)
Lemma nth_ext_R (a b : list R) : length a = length b -> (forall i, (i < length a)%nat -> nth i a 0 = nth i b 0) -> a = b.
Proof. intros. now apply (nth_ext _ _ 0 0). Qed.

Lemma upper_triangle_cells m n : shape m n n ->
  upper_triangle m = map (fun p => entry m (fst p) (snd p)) (triu_indices n).
Proof.
  intros S. unfold upper_triangle, triu_indices. rewrite (proj1 S).
  assert (F : forall k s, (s + k <= n)%nat ->
    flat_map (fun i => skipn i (nth i m [])) (seq s k) =
    map (fun p => entry m (fst p) (snd p)) (flat_map (row_cells n) (seq s k))).
  { induction k as [|k IH]; intros s Hs; [reflexivity|]. simpl. rewrite map_app. f_equal; [|apply IH; lia].
    unfold row_cells. rewrite map_map. simpl.
    assert (Lr := shape_row _ _ _ s S ltac:(lia)).
    apply nth_ext_R; [rewrite skipn_length, map_length, seq_length; lia|].
    intros j Hj. rewrite skipn_length in Hj. rewrite nth_skipn_R.
    rewrite (nth_indep (map _ _) 0 (entry m s 0%nat)) by (rewrite map_length, seq_length; lia).
    rewrite (map_nth (fun x => entry m s x)), seq_nth by lia. reflexivity. }
  apply F. lia.
Qed.

Theorem reshape_triu_flattens_back :
  forall paired flat coords m, pairs paired ->
  reshape_threept_datatab true paired flat Triu = Ok (coords, m) ->
  upper_triangle m = flat.
Proof.
  intros paired flat coords m P H.
  assert (T : exists n, (2 * length flat = n * (n + 1))%nat /\ length paired = length flat).
  { unfold reshape_threept_datatab in H. cbn [negb] in H.
    destruct (length paired =? length flat)%nat eqn:EL; [|discriminate]. apply Nat.eqb_eq in EL.
    cbn [negb] in H. destruct (negb (isclose _ _)); [discriminate|].
    apply bind_ok in H as (c & _ & H). apply bind_ok in H as (m1 & H1 & _).
    unfold assign_at in H1. destruct flat as [|v [|w flat]].
    - exists 0%nat. simpl in *. lia.
    - exists 1%nat. simpl in *. lia.
    - destruct (_ =? _)%nat eqn:E in H1; [|discriminate]. apply Nat.eqb_eq in E.
      eexists. split; [rewrite <- E; apply triu_length|exact EL]. }
  destruct T as (n & T & L).
  destruct (reshape_triu_correct n paired flat L P T) as (c & m' & E & _ & _ & S & _ & V).
  rewrite E in H. injection H as <- <-.
  assert (TL := triu_length n).
  rewrite (upper_triangle_cells m' n S). apply nth_ext_R; rewrite map_length; [lia|].
  intros k Hk. rewrite (nth_indep _ 0 (entry m' 0 0)) by (now rewrite map_length).
  rewrite (map_nth (fun p => entry m' (fst p) (snd p)) _ (0, 0)%nat).
  destruct (nth k (triu_indices n) (0, 0)%nat) as [i j] eqn:E'.
  assert (I := nth_In _ (0, 0)%nat Hk). rewrite E' in I. apply triu_in in I. simpl.
  rewrite V by lia. f_equal.
  apply (proj1 (NoDup_nth (triu_indices n) (0, 0)%nat) (triu_NoDup n)).
  - apply triu_index_lt; lia.
  - exact Hk.
  - rewrite E'. apply nth_triu; lia.
Qed.

Lemma skipn_add {A} a b (l : list A) : skipn a (skipn b l) = skipn (b + a) l.
Proof.
  revert l. induction b as [|b IH]; intros l; [reflexivity|].
  destruct l as [|x l]; [now destruct a|]. simpl. apply IH.
Qed.

(** ** C09, full shape. *)
Theorem reshape_full_correct :
  forall n paired flat, length paired = length flat -> pairs paired ->
  length flat = (n * n)%nat ->
  exists coords m, reshape_threept_datatab true paired flat Full = Ok (coords, m) /\
    length coords = n /\ (forall i, (i < n)%nat -> nth i coords 0 = entry paired i 1) /\
    shape m n n /\ concat m = flat /\
    forall i j, (i < n)%nat -> (j < n)%nat -> entry m i j = nth (cpp_full_index n i j) flat 0.
Proof.
  intros n paired flat L P T. unfold reshape_threept_datatab. rewrite L, Nat.eqb_refl. cbn [negb].
  rewrite T, full_root, Int_part_INR, <- INR_IZR_INZ, isclose_refl. cbn [negb]. rewrite Nat2Z.id.
  destruct (second_column_ok paired n P) as (c & -> & Lc & Nc).
  { destruct n; [lia|]. nia. }
  cbn [bind]. unfold reshape_square. rewrite T, Nat.eqb_refl. cbn [negb bind].
  set (f := fun i : nat => firstn n (skipn (i * n) flat)).
  exists c, (map f (seq 0 n)). split; [reflexivity|]. split; [exact Lc|]. split; [exact Nc|].
  assert (Lf : forall i, (i < n)%nat -> length (f i) = n).
  { intros i Hi. unfold f. rewrite firstn_length, skipn_length. nia. }
  split; [|split].
  - split; [now rewrite map_length, seq_length|]. apply Forall_forall. intros row Hr.
    apply in_map_iff in Hr as (i & <- & Hi). apply in_seq in Hi. apply Lf. lia.
  - assert (C : forall k s, (s + k <= n)%nat -> concat (map f (seq s k)) = firstn (k * n) (skipn (s * n) flat)).
    { induction k as [|k IH]; intros s Hs; [reflexivity|]. cbn [seq map concat]. rewrite IH by lia.
      unfold f. replace (S k * n)%nat with (n + k * n)%nat by lia.
      rewrite <- (firstn_skipn n (skipn (s * n) flat)) at 2.
      rewrite firstn_app, firstn_firstn, firstn_length, skipn_length.
      replace (Nat.min (n + k * n) n) with n by lia.
      replace (n + k * n - Nat.min n (length flat - s * n))%nat with (k * n)%nat by nia.
      f_equal. f_equal. rewrite skipn_add. f_equal. lia. }
    rewrite C by lia. simpl. apply firstn_all2. lia.
  - intros i j Hi Hj. unfold entry. rewrite (nth_indep _ [] (f 0%nat)) by (now rewrite map_length, seq_length).
    rewrite map_nth, seq_nth by lia. simpl. unfold f, cpp_full_index.
    rewrite <- nth_skipn_R. rewrite <- (firstn_skipn n (skipn (i * n) flat)) at 2.
    rewrite app_nth1; [reflexivity|]. rewrite firstn_length, skipn_length. nia.
Qed.

(** ** Rejections: bad dimensions, unequal lengths, lengths that are not
    triangular (square) numbers, unknown shapes. *)
Theorem reshape_rejects :
  forall ndim2 paired flat shape, pairs paired ->
  (exists out, reshape_threept_datatab ndim2 paired flat shape = Ok out) <->
  (ndim2 = true /\ length paired = length flat /\
   ((shape = Triu /\ exists n, (2 * length flat = n * (n + 1))%nat) \/
    (shape = Full /\ exists n, length flat = (n * n)%nat))).
Proof.
  intros ndim2 paired flat shape P. split.
  - intros (out & H). unfold reshape_threept_datatab in H.
    destruct ndim2; [|discriminate]. cbn [negb] in H.
    destruct (length paired =? length flat)%nat eqn:EL; [|discriminate]. apply Nat.eqb_eq in EL.
    cbn [negb] in H. split; [reflexivity|]. split; [exact EL|]. destruct shape; [left|right|discriminate]; split; auto.
    + destruct (negb (isclose _ _)); [discriminate|].
      apply bind_ok in H as (c & _ & H). apply bind_ok in H as (m1 & H1 & _).
      unfold assign_at in H1. destruct flat as [|v [|w flat]].
      * exists 0%nat. simpl in *. lia.
      * exists 1%nat. simpl in *. lia.
      * destruct (_ =? _)%nat eqn:E in H1; [|discriminate]. apply Nat.eqb_eq in E.
        eexists. rewrite <- E. apply triu_length.
    + destruct (negb (isclose _ _)); [discriminate|].
      apply bind_ok in H as (c & _ & H). apply bind_ok in H as (m1 & H1 & _).
      unfold reshape_square in H1. destruct (_ =? _)%nat eqn:E in H1; [|discriminate].
      apply Nat.eqb_eq in E. eauto.
  - intros (-> & L & [(-> & n & T)|(-> & n & T)]).
    + destruct (reshape_triu_correct n paired flat L P T) as (c & m & E & _). eauto.
    + destruct (reshape_full_correct n paired flat L P T) as (c & m & E & _). eauto.
Qed.

(** ** Concrete cases *)
Example reshape_triu_case :
  exists coords m, reshape_threept_datatab true [[1;1];[1;2];[1;3];[2;2];[2;3];[3;3]] [10;11;12;13;14;15] Triu
    = Ok (coords, m) /\ nth 2 coords 0 = 3 /\ entry m 1 2 = 14 /\ entry m 2 1 = 14 /\ entry m 0 2 = 12.
Proof.
  destruct (reshape_triu_correct 3 [[1;1];[1;2];[1;3];[2;2];[2;3];[3;3]] [10;11;12;13;14;15])
    as (c & m & E & _ & Nc & _ & Sy & V); [reflexivity|repeat constructor|reflexivity|].
  exists c, m. split; [exact E|]. split; [exact (Nc 2%nat ltac:(lia))|].
  split; [exact (V 1%nat 2%nat ltac:(lia) ltac:(lia))|]. split.
  - rewrite Sy by lia. exact (V 1%nat 2%nat ltac:(lia) ltac:(lia)).
  - exact (V 0%nat 2%nat ltac:(lia) ltac:(lia)).
Qed.

Example reshape_full_case :
  exists coords m, reshape_threept_datatab true [[1;1];[1;2];[2;1];[2;2]] [10;11;12;13] Full
    = Ok (coords, m) /\ entry m 1 0 = 12.
Proof.
  destruct (reshape_full_correct 2 [[1;1];[1;2];[2;1];[2;2]] [10;11;12;13])
    as (c & m & E & _ & _ & _ & _ & V); [reflexivity|repeat constructor|reflexivity|].
  exists c, m. split; [exact E|]. exact (V 1%nat 0%nat ltac:(lia) ltac:(lia)).
Qed.

Example reshape_rejects_case :
  ~ exists out, reshape_threept_datatab true [[1;1];[1;2];[2;2];[2;3]] [1;2;3;4] Triu = Ok out.
Proof.
  rewrite reshape_rejects by (repeat constructor). intros (_ & _ & [(_ & n & H)|(E & _)]); [|discriminate].
  simpl in H. destruct n as [|[|[|[|n]]]]; lia.
Qed.

Print Assumptions reshape_triu_correct.
Print Assumptions triu_index_bijective.
Print Assumptions reshape_triu_flattens_back.
Print Assumptions reshape_full_correct.
Print Assumptions reshape_rejects.
