(* C128: measured windows loaded from text files. *)
From Coq Require Import String Ascii.
From Coq Require Import Reals ZArith List Lia Lra Bool Permutation.
From Verif Require Import Base ArrayModel Array2dModel Array2dProps ReshapeModel ReshapeProps
  MultipoleModel MultipoleProps WindowModel WindowProps SaveModel SaveProps WinTextModel.
From Verif Require ThreePtModel ThreePtProps LoadModel ParamModel.
Import ListNotations.
Local Open Scope R_scope.

(* ------------------------------------------------------------------ *)
(** * Vocabulary *)

(** A measured three-point window: degrees, number of bins, effective
    separation of each bin, and the raw statistic and its shot noise (real and
    imaginary parts) for each pair of bins. *)
Record measured := {
  degrees : list Z; bins : nat; separation : nat -> R;
  raw : nat -> nat -> R * R; shot : nat -> nat -> R * R
}.

(** The names of shapes in parameters. *)
Definition named (s : string) (sh : ThreePtModel.shape) : Prop :=
  (s = "triu"%string /\ sh = ThreePtModel.Triu) \/ (s = "full"%string /\ sh = ThreePtModel.Full).

(** The results [m] list the statistic of each pair of bins where the
    measurement stores it (C24). *)
Definition arranged (sh : ThreePtModel.shape) (x : measured) (m : threepcf) : Prop :=
  ThreePtModel.dv_dim sh (Z.of_nat (bins x)) 0 = Ok (Z.of_nat (zeta_dim m)) /\
  forall k row col,
    In (Z.of_nat k, (Z.of_nat row, Z.of_nat col)) (ThreePtModel.raw_writes sh (Z.of_nat (bins x)) 0) ->
    r1_eff m k = separation x row /\ r2_eff m k = separation x col /\
    zeta_raw m k = raw x row col /\ zeta_shot m k = shot x row col.

(** The text is the table of results (C110) measured with `form='full'`. *)
Definition table_for (x : measured) (text : string) : Prop :=
  exists q name sh m l,
    ParamModel.form q = "full"%string /\
    degrees x = [ParamModel.ell1 q; ParamModel.ell2 q; ParamModel.ELL q] /\
    ParamModel.val_shape q = Ok name /\ named name sh /\ arranged sh x m /\
    tabulates text (columns l (Zeta m)) (zeta_dim m).

(** The pair of bins standing for (i, j): when both degrees are equal only
    pairs in ascending order are measured. *)
Definition pair_for (x : measured) (i j : nat) : nat * nat :=
  if Z.eqb (nth 0 (degrees x) 0%Z) (nth 1 (degrees x) 0%Z)
  then (Nat.min i j, Nat.max i j) else (i, j).

(** The window has, for the multipole measured, its separations to ten digits
    and the real part of raw minus shot (or of raw), times the square of the
    contrast, up to half a unit of the tenth digit of each number. *)
Definition holds_measured (w : window) (alpha : R) (subtract : bool) (x : measured) : Prop :=
  exists r q, r_of w (degrees x) = Ok r /\ lookup (w_Q w) (degrees x) = Ok q /\
    length r = bins x /\ Array2dProps.shape q (bins x) (bins x) /\
    (forall i, (i < bins x)%nat -> near (nth i r 0) (separation x i)) /\
    forall i j, (i < bins x)%nat -> (j < bins x)%nat ->
      let p := pair_for x i j in
      let s := fst (raw x (fst p) (snd p)) in
      let n := if subtract then fst (shot x (fst p) (snd p)) else 0 in
      Rabs (Array2dProps.entry q i j - alpha * alpha * (s - n))
        <= alpha * alpha * (/ 2 * / 10 ^ 9 * (Rabs s + Rabs n)).

(** Columns read: effective separations, real parts of raw and of shot. *)
Definition columns_for (subtract : bool) : list nat :=
  if subtract then default_columns else [1; 4; 6]%nat.

(** Keys written in one way. *)
Definition one_kind (keys : list mlike) : Prop :=
  (exists s, keys = map MStr s) \/ (exists l, keys = map MSeq l) \/ (exists l, keys = map MCopy l).

(* ------------------------------------------------------------------ *)
(** * Sorting items *)

Definition comparable (l : list item) : Prop :=
  forall a b, In a l -> In b l -> exists t, key_lt (fst a) (fst b) = Ok t.

Lemma insert_item_ok x l : comparable (x :: l) ->
  exists r, insert_item x l = Ok r /\ Permutation (x :: l) r.
Proof.
  induction l as [|y l IH]; intros C; [exists [x]; auto|].
  cbn [insert_item]. destruct (C y x) as (t & ->); [right; now left|now left|]. cbn [bind].
  destruct t; [|exists (x :: y :: l); auto].
  destruct IH as (r & E & P).
  { intros a b A B. apply C; [destruct A as [->|A]|destruct B as [->|B]]; auto using in_eq, in_cons. }
  rewrite E. cbn [bind]. exists (y :: r). split; [reflexivity|].
  rewrite perm_swap. now constructor.
Qed.

Lemma insert_item_perm x l r : insert_item x l = Ok r -> Permutation (x :: l) r.
Proof.
  revert r; induction l as [|y l IH]; intros r H; cbn [insert_item] in H; [injection H as <-; auto|].
  apply bind_ok in H as (t & _ & H). destruct t; [|injection H as <-; auto].
  apply bind_ok in H as (r' & E & H). injection H as <-. rewrite perm_swap. constructor. auto.
Qed.

Lemma sorted_items_perm l r : sorted_items l = Ok r -> Permutation l r.
Proof.
  revert r; induction l as [|x l IH]; intros r H; cbn [sorted_items] in H; [injection H as <-; auto|].
  apply bind_ok in H as (s & E & H). apply insert_item_perm in H. rewrite <- H. constructor. auto.
Qed.

Lemma sorted_items_ok l : comparable l -> exists r, sorted_items l = Ok r.
Proof.
  induction l as [|x l IH]; intros C; [exists []; auto|].
  destruct IH as (s & E). { intros a b A B. apply C; auto using in_cons. }
  cbn [sorted_items]. rewrite E. cbn [bind]. pose proof (sorted_items_perm _ _ E) as P.
  destruct (insert_item_ok x s) as (r & H & _); [|eauto].
  intros a b A B. apply C; [destruct A as [->|A]|destruct B as [->|B]]; try apply in_eq; apply in_cons;
    eapply Permutation_in; try apply Permutation_sym; eauto.
Qed.

Lemma one_kind_comparable (l : list item) ms : one_kind (map fst l) ->
  Forall2 (fun it m => multipole (fst it) = Ok m) l ms -> Forall (fun m => length m = 3%nat) ms ->
  comparable l.
Proof.
  intros K F L a b A B.
  pose proof (in_map fst _ _ A) as A'. pose proof (in_map fst _ _ B) as B'.
  destruct K as [(s & K)|[(s & K)|(s & K)]]; rewrite K in A', B';
    apply in_map_iff in A' as (u & Ea & _); apply in_map_iff in B' as (v & Eb & _);
    rewrite <- Ea, <- Eb; cbn [key_lt]; eauto.
  assert (Q : forall it k, In it l -> MCopy k = fst it -> length k = 3%nat).
  { intros it k I E. clear - F L I E. induction F as [|it' m l ms H F IH]; [destruct I|].
    inversion L; subst. destruct I as [->|I]; [|now apply IH].
    rewrite <- E in H. cbn [multipole] in H. injection H as ->. assumption. }
  destruct (mlt_ok 3 u v) as (t & -> & _); try lia; eauto.
Qed.

(* ------------------------------------------------------------------ *)
(** * Reading a file *)

Lemma nth_default_nth (l : list R) i v : nth_error l i = Some v -> nth i l 0 = v.
Proof. apply nth_error_nth. Qed.

Lemma column_rows (table : list (list R)) c (f : nat -> SaveProps.entry) k :
  (forall i, (i < length table)%nat -> exists row v, nth_error table i = Some row /\
     nth_error row c = Some v /\ reads v (f (k + i)%nat)) ->
  exists l, column_of table c = Ok l /\ length l = length table /\
    forall i, (i < length table)%nat -> reads (nth i l 0) (f (k + i)%nat).
Proof.
  unfold column_of. revert k. induction table as [|row table IH]; intros k H.
  - exists []. split; [reflexivity|]. split; [reflexivity|]. cbn [length]. lia.
  - destruct (H 0%nat) as (row' & v & E & Ev & Rv); [cbn [length]; lia|]. injection E as <-.
    destruct (IH (S k)) as (l & El & Ll & Fl).
    { intros i Hi. destruct (H (S i)) as (row' & v' & E' & Ev' & Rv'); [cbn [length]; lia|].
      exists row', v'. cbn [nth_error] in E'. replace (S k + i)%nat with (k + S i)%nat by lia. auto. }
    cbn [map sequence]. rewrite Ev. cbn [bind]. rewrite El. cbn [bind]. exists (v :: l).
    split; [reflexivity|]. split; [cbn [length]; now rewrite Ll|].
    intros [|i] Hi; cbn [nth]; [exact Rv|]. cbn [length] in Hi.
    replace (k + S i)%nat with (S k + i)%nat by lia. apply Fl. lia.
Qed.

Lemma Forall2_nth {A B} (P : A -> B -> Prop) a b i y : Forall2 P a b -> nth_error b i = Some y ->
  exists x, nth_error a i = Some x /\ P x y.
Proof.
  intros F. revert i. induction F as [|x y' a b H F IH]; intros [|i] E; try discriminate E.
  - injection E as <-. exists x. auto.
  - apply IH. exact E.
Qed.

Lemma column_read text cols n c name f : tabulates text cols n -> nth_error cols c = Some (name, f) ->
  exists l, column_of (table_of text) c = Ok l /\ length l = n /\
    forall i, (i < n)%nat -> reads (nth i l 0) (f i).
Proof.
  intros T E. destruct (tabulates_read _ _ _ T) as (L & F). unfold table_of.
  destruct (column_rows (map LoadModel.row_of (LoadModel.data_lines text)) c f 0) as (l & El & Ll & Fl).
  { intros i Hi. rewrite L in Hi. destruct (F i Hi) as (row & Er & F2).
    destruct (Forall2_nth _ _ _ _ _ F2 E) as (v & Ev & Rv). exists row, v. auto. }
  exists l. rewrite L in *. auto.
Qed.

Lemma table_length text cols n : tabulates text cols n -> length (table_of text) = n.
Proof. intros T. apply (tabulates_read _ _ _ T). Qed.

Lemma column_stack_nth a b n i : length a = n -> length b = n -> (i < n)%nat ->
  nth i (column_stack a b) [] = [nth i a 0; nth i b 0].
Proof.
  intros A B I. unfold column_stack.
  rewrite (nth_indep _ [] ((fun p : R * R => [fst p; snd p]) (0, 0))) by (rewrite map_length, combine_length; lia).
  rewrite (map_nth (fun p : R * R => [fst p; snd p]) _ (0, 0) i), combine_nth by lia. reflexivity.
Qed.

Lemma minus_nth a b n i : length a = n -> length b = n -> (i < n)%nat ->
  nth i (minus a b) 0 = nth i a 0 - nth i b 0.
Proof.
  intros A B I. unfold minus.
  rewrite (nth_indep _ 0 ((fun p : R * R => fst p - snd p) (0, 0))) by (rewrite map_length, combine_length; lia).
  rewrite (map_nth (fun p : R * R => fst p - snd p) _ (0, 0) i), combine_nth by lia. reflexivity.
Qed.

Lemma pairs_stack a b : pairs (column_stack a b).
Proof.
  unfold pairs. apply Forall_forall. intros row I. apply in_map_iff in I as (p & <- & _). reflexivity.
Qed.

Definition unit_tenth : R := / 2 * / 10 ^ 9.

Lemma read_pole_ok text l m subtract : tabulates text (columns l (Zeta m)) (zeta_dim m) ->
  zeta_dim m <> 1%nat ->
  exists paired flat, read_pole text subtract (columns_for subtract) = Ok (paired, flat) /\
    length paired = zeta_dim m /\ length flat = zeta_dim m /\ pairs paired /\
    forall k, (k < zeta_dim m)%nat ->
      near (Array2dProps.entry paired k 1) (r2_eff m k) /\
      Rabs (nth k flat 0 - (fst (zeta_raw m k) - (if subtract then fst (zeta_shot m k) else 0)))
        <= unit_tenth * (Rabs (fst (zeta_raw m k)) + Rabs (if subtract then fst (zeta_shot m k) else 0)).
Proof.
  intros T N. pose proof (table_length _ _ _ T) as TL.
  destruct (column_read _ _ _ 1 _ _ T eq_refl) as (c1 & E1 & L1 & F1).
  destruct (column_read _ _ _ 4 _ _ T eq_refl) as (c4 & E4 & L4 & F4).
  destruct (column_read _ _ _ 6 _ _ T eq_refl) as (c6 & E6 & L6 & F6).
  destruct (column_read _ _ _ 8 _ _ T eq_refl) as (c8 & E8 & L8 & F8).
  cbn [snd value real reads] in F1, F4, F6, F8.
  assert (S : forall a b, length a = zeta_dim m -> length b = zeta_dim m -> length (column_stack a b) = zeta_dim m).
  { intros a b A B. unfold column_stack. rewrite map_length, combine_length. lia. }
  assert (U : forall (A : Type) (a b : A), match table_of text with [_] => a | _ => b end = b).
  { intros A a b. destruct (table_of text) as [|? [|? ?]]; try reflexivity. cbn [length] in TL. lia. }
  destruct subtract; cbn [columns_for default_columns read_pole length Nat.eqb negb]; unfold read_pole, loadtxt;
    cbn [columns_for default_columns length Nat.eqb negb map sequence].
  - rewrite E1. cbn [bind]. rewrite E4. cbn [bind]. rewrite E6. cbn [bind]. rewrite E8. cbn [bind].
    rewrite U. cbn [bind]. exists (column_stack c1 c4), (minus c6 c8). split; [reflexivity|].
    split; [auto|]. split; [unfold minus; rewrite map_length, combine_length; lia|].
    split; [apply pairs_stack|]. intros k K. split.
    + unfold Array2dProps.entry. rewrite (column_stack_nth c1 c4 (zeta_dim m)) by auto. apply F4, K.
    + rewrite (minus_nth c6 c8 (zeta_dim m)) by auto. specialize (F6 k K). specialize (F8 k K).
      unfold reads, real, near in F6, F8. fold unit_tenth in F6, F8.
      set (a := fst (zeta_raw m k)) in *. set (b := fst (zeta_shot m k)) in *.
      replace (nth k c6 0 - nth k c8 0 - (a - b)) with ((nth k c6 0 - a) + - (nth k c8 0 - b)) by ring.
      eapply Rle_trans; [apply Rabs_triang|]. rewrite Rabs_Ropp. lra.
  - rewrite E1. cbn [bind]. rewrite E4. cbn [bind]. rewrite E6. cbn [bind].
    rewrite U. cbn [bind]. exists (column_stack c1 c4), c6. split; [reflexivity|].
    split; [auto|]. split; [exact L6|].
    split; [apply pairs_stack|]. intros k K. split.
    + unfold Array2dProps.entry. rewrite (column_stack_nth c1 c4 (zeta_dim m)) by auto. apply F4, K.
    + specialize (F6 k K). unfold reads, real, near in F6. fold unit_tenth in F6. rewrite Rabs_R0, Rminus_0_r. lra.
Qed.

(** One row is not an array. *)
Lemma read_pole_one text l m subtract : tabulates text (columns l (Zeta m)) (zeta_dim m) ->
  zeta_dim m = 1%nat -> read_pole text subtract (columns_for subtract) = Err TypeError.
Proof.
  intros T N. pose proof (table_length _ _ _ T) as TL. rewrite N in TL.
  destruct (column_read _ _ _ 1 _ _ T eq_refl) as (c1 & E1 & L1 & F1).
  destruct (column_read _ _ _ 4 _ _ T eq_refl) as (c4 & E4 & L4 & F4).
  destruct (column_read _ _ _ 6 _ _ T eq_refl) as (c6 & E6 & L6 & F6).
  destruct (column_read _ _ _ 8 _ _ T eq_refl) as (c8 & E8 & L8 & F8).
  assert (U : forall (A : Type) (a b : A), match table_of text with [_] => a | _ => b end = a).
  { intros A a b. destruct (table_of text) as [|? [|? ?]]; try reflexivity; cbn [length] in TL; lia. }
  destruct subtract; unfold read_pole, loadtxt;
    cbn [columns_for default_columns length Nat.eqb negb map sequence].
  - rewrite E1. cbn [bind]. rewrite E4. cbn [bind]. rewrite E6. cbn [bind]. rewrite E8. cbn [bind].
    rewrite U. reflexivity.
  - rewrite E1. cbn [bind]. rewrite E4. cbn [bind]. rewrite E6. cbn [bind]. rewrite U. reflexivity.
Qed.

(* ------------------------------------------------------------------ *)
(** * Matrices *)

Lemma triu_index_Z n i j : (i <= j)%nat -> (j < n)%nat ->
  Z.of_nat (cpp_triu_index n i j)
  = ((2 * Z.of_nat n - Z.of_nat i + 1) * Z.of_nat i / 2 + (Z.of_nat j - Z.of_nat i))%Z.
Proof.
  intros H1 H2. unfold cpp_triu_index. rewrite Nat2Z.inj_add, Nat2Z.inj_div.
  rewrite Nat2Z.inj_mul, Nat2Z.inj_add, !Nat2Z.inj_sub, Nat2Z.inj_mul by lia. reflexivity.
Qed.

(** What the file of a measurement becomes. *)
Lemma pole_of_file x text subtract : table_for x text -> (2 <= bins x)%nat ->
  exists sym paired flat r q,
    read_pole text subtract (columns_for subtract) = Ok (paired, flat) /\
    issym (degrees x) = Ok sym /\
    reshape_threept_datatab true paired flat (if sym : bool then Triu else Full) = Ok (r, q) /\
    length r = bins x /\ Array2dProps.shape q (bins x) (bins x) /\
    (forall i, (i < bins x)%nat -> near (nth i r 0) (separation x i)) /\
    forall i j, (i < bins x)%nat -> (j < bins x)%nat ->
      let p := pair_for x i j in
      let s := fst (raw x (fst p) (snd p)) in
      let n := if subtract then fst (shot x (fst p) (snd p)) else 0 in
      Rabs (Array2dProps.entry q i j - (s - n)) <= unit_tenth * (Rabs s + Rabs n).
Proof.
  intros (p & name & sh & m & l & Fm & D & V & NM & (Dim & Arr) & T) B.
  assert (SH : sh = if Z.eqb (ParamModel.ell1 p) (ParamModel.ell2 p) then ThreePtModel.Triu else ThreePtModel.Full).
  { unfold ParamModel.val_shape in V. rewrite Fm in V. cbn in V.
    destruct (Z.eqb _ _); injection V as <-; destruct NM as [(E & ->)|(E & ->)];
      first [reflexivity|discriminate E]. }
  set (n := bins x) in *.
  assert (OK : ThreePtProps.shape_ok sh (Z.of_nat n) 0).
  { split; [lia|]. rewrite SH. now destruct (Z.eqb _ _). }
  unfold pair_for. rewrite D. cbn [nth issym].
  destruct (Z.eqb (ParamModel.ell1 p) (ParamModel.ell2 p)); subst sh.
  - cbn [ThreePtModel.dv_dim] in Dim. injection Dim as Dim.
    assert (D2 : (2 * zeta_dim m = n * (n + 1))%nat).
    { assert (Q := triu_length n).
      assert (Z.of_nat n * (Z.of_nat n + 1) = 2 * Z.of_nat (length (triu_indices n)))%Z by lia.
      rewrite H, Z.mul_comm, Z.div_mul in Dim by lia. lia. }
    destruct (read_pole_ok text l m subtract T) as (paired & flat & RP & LP & LF & P & F); [nia|].
    destruct (reshape_triu_correct n paired flat) as (r & q & E & Lr & Nr & Sq & Sy & Eq); [congruence|exact P|lia|].
    assert (K : forall i j, (i <= j)%nat -> (j < n)%nat -> (cpp_triu_index n i j < zeta_dim m)%nat /\
      In (Z.of_nat (cpp_triu_index n i j), (Z.of_nat i, Z.of_nat j))
         (ThreePtModel.raw_writes ThreePtModel.Triu (Z.of_nat n) 0)).
    { intros i j Hi Hj. split; [pose proof (triu_index_lt n i j Hi Hj); pose proof (triu_length n); lia|].
      apply ThreePtProps.In_raw; [exact OK|]. split; [unfold ThreePtProps.wanted; lia|].
      now apply triu_index_Z. }
    exists true, paired, flat, r, q. repeat split; auto; try apply Sq.
    + intros i Hi. rewrite Nr by exact Hi. destruct (K 0%nat i) as (K1 & K2); [lia|exact Hi|].
      assert (I0 : cpp_triu_index n 0 i = i).
      { unfold cpp_triu_index. rewrite Nat.mul_0_r. cbn [Nat.div Nat.divmod fst Nat.add]. lia. }
      rewrite I0 in *. destruct (F i K1) as (F1 & _). destruct (Arr i 0%nat i K2) as (_ & <- & _). exact F1.
    + cbn [fst snd]. intros i j Hi Hj.
      assert (EE : Array2dProps.entry q i j = nth (cpp_triu_index n (Nat.min i j) (Nat.max i j)) flat 0).
      { destruct (le_lt_dec i j) as [H|H].
        - rewrite Nat.min_l, Nat.max_r by lia. apply Eq; lia.
        - rewrite Nat.min_r, Nat.max_l by lia. rewrite (Sy i j) by lia. apply Eq; lia. }
      rewrite EE. set (a := Nat.min i j). set (b := Nat.max i j).
      destruct (K a b) as (K1 & K2); [unfold a, b; lia|unfold b; lia|].
      destruct (F _ K1) as (_ & F2). destruct (Arr _ _ _ K2) as (_ & _ & A1 & A2).
      rewrite A1, A2 in F2. exact F2.
  - cbn [ThreePtModel.dv_dim] in Dim. injection Dim as Dim.
    assert (D2 : (zeta_dim m = n * n)%nat) by nia.
    destruct (read_pole_ok text l m subtract T) as (paired & flat & RP & LP & LF & P & F); [nia|].
    destruct (reshape_full_correct n paired flat) as (r & q & E & Lr & Nr & Sq & _ & Eq); [congruence|exact P|lia|].
    assert (K : forall i j, (i < n)%nat -> (j < n)%nat -> (cpp_full_index n i j < zeta_dim m)%nat /\
      In (Z.of_nat (cpp_full_index n i j), (Z.of_nat i, Z.of_nat j))
         (ThreePtModel.raw_writes ThreePtModel.Full (Z.of_nat n) 0)).
    { intros i j Hi Hj. split; [unfold cpp_full_index; nia|].
      apply ThreePtProps.In_raw; [exact OK|]. split; [unfold ThreePtProps.wanted; lia|].
      unfold cpp_full_index. lia. }
    exists false, paired, flat, r, q. repeat split; auto; try apply Sq.
    + intros i Hi. rewrite Nr by exact Hi. destruct (K 0%nat i) as (K1 & K2); [lia|exact Hi|].
      change (cpp_full_index n 0 i) with i in *. destruct (F i K1) as (F1 & _).
      destruct (Arr i 0%nat i K2) as (_ & <- & _). exact F1.
    + cbn [fst snd]. intros i j Hi Hj. rewrite Eq by assumption.
      destruct (K i j Hi Hj) as (K1 & K2).
      destruct (F _ K1) as (_ & F2). destruct (Arr _ _ _ K2) as (_ & _ & A1 & A2).
      rewrite A1, A2 in F2. exact F2.
Qed.

(* ------------------------------------------------------------------ *)
(** * Loading *)

Section Loading.
Variable spline : list R -> matrix -> res (R -> R -> R).
Variable file : string -> res string.

(** The path of an item leads to the table of a measurement of the multipole
    its key stands for. *)
Definition item_for (it : item) (x : measured) : Prop :=
  multipole (fst it) = Ok (degrees x) /\
  exists text, file (snd it) = Ok text /\ table_for x text.

Definition pole_for (subtract : bool) (p : mlike * (list (list R) * list R)) (x : measured) : Prop :=
  multipole (fst p) = Ok (degrees x) /\
  exists text, table_for x text /\ read_pole text subtract (columns_for subtract) = Ok (snd p).

Lemma degrees_three x text : table_for x text -> length (degrees x) = 3%nat.
Proof. intros (q & name & sh & m & l & _ & D & _). now rewrite D. Qed.

Lemma files_read subtract items xs : Forall2 item_for items xs -> Forall (fun x => 2 <= bins x)%nat xs ->
  exists poles, sequence (map (fun it : item =>
             text <- file (snd it) ;;
             pole <- read_pole text subtract (columns_for subtract) ;;
             Ok (fst it, pole)) items) = Ok poles /\ Forall2 (pole_for subtract) poles xs.
Proof.
  intros F. induction F as [|it x items xs (M & text & Ef & T) F IH]; intros B; [exists []; auto|].
  inversion B as [|? ? B1 B2]; subst. destruct (IH B2) as (poles & E & P).
  destruct (pole_of_file x text subtract T B1) as (sym & paired & flat & r & q & RP & _).
  cbn [map sequence]. rewrite Ef. cbn [bind]. rewrite RP. cbn [bind]. rewrite E. cbn [bind].
  exists ((fst it, (paired, flat)) :: poles). split; [reflexivity|]. constructor; [|exact P].
  split; [exact M|]. exists text. auto.
Qed.

Lemma check_points_kind (d : mdict (list R)) : Forall (fun kr => 2 <= length (snd kr))%nat d ->
  check_points d = Ok tt \/ check_points d = Err MixedSignError \/ check_points d = Err SpacingError.
Proof.
  unfold check_points. induction d as [|[k r] d IH]; intros F; [now left|]. inversion F as [|? ? F1 F2]; subst.
  cbn [snd] in F1.
  assert (C : check_1d_array false false false true r = Ok r \/
              check_1d_array false false false true r = Err MixedSignError \/
              check_1d_array false false false true r = Err SpacingError).
  { unfold check_1d_array. destruct (Nat.ltb_spec (length r) 2) as [H|_]; [lia|]. cbn [andb].
    destruct (negb (epsign_ok true r)); [auto|]. destruct (_ || _ || _); auto. }
  cbn [map sequence snd]. destruct C as [C|[C|C]]; rewrite C; cbn [bind]; auto.
  specialize (IH F2). destruct (sequence _) as [l|e]; cbn [bind] in *; [now left|]. exact IH.
Qed.

Lemma init_total subtract poles xs alpha : Forall2 (pole_for subtract) poles xs ->
  Forall (fun x => 2 <= bins x)%nat xs -> NoDup (map degrees xs) ->
  exists w, init spline poles alpha (ABool false) = Ok w /\ msorted (map degrees xs) = Ok (w_multipoles w).
Proof.
  intros F B N. unfold init.
  assert (S : exists l, sequence (map (fun p : mlike * (list (list R) * list R) =>
         m <- multipole (fst p) ;;
         sym <- issym m ;;
         rq <- reshape_threept_datatab true (fst (snd p)) (snd (snd p))
                 (if sym : bool then Triu else Full) ;;
         Ok (m, (fst rq, map (map (fun x => alpha ^ 2 * x)) (snd rq)))) poles) = Ok l /\
       map fst l = map degrees xs /\ Forall (fun kv => 2 <= length (fst (snd kv)))%nat l).
  { clear N. induction F as [|p x poles xs (M & text & T & RP) F IH]; [exists []; auto|].
    inversion B as [|? ? B1 B2]; subst. destruct (IH B2) as (l & E & K & L).
    destruct (pole_of_file x text subtract T B1) as (sym & paired & flat & r & q & RP' & SY & RE & Lr & _).
    rewrite RP in RP'. injection RP' as RP'. cbn [map sequence]. rewrite M. cbn [bind]. rewrite SY. cbn [bind].
    rewrite RP'. cbn [fst snd]. rewrite RE. cbn [bind]. rewrite E. cbn [bind fst snd].
    eexists. split; [reflexivity|]. split; [cbn [map fst]; now rewrite K|]. constructor; [|exact L].
    cbn [fst snd]. lia. }
  destruct S as (l & -> & K & L). cbn [bind].
  destruct (sorted_exact 3 (map degrees xs)) as (ms & EM & _); [lia| |].
  { intros a I. apply in_map_iff in I as (x & <- & I).
    clear - F I. induction F as [|p y poles xs (_ & text & T & _) F IH]; [destruct I|].
    destruct I as [->|I]; [eapply degrees_three; eauto|auto]. }
  rewrite K, EM. cbn [bind]. rewrite store_all by (cbn [app]; now rewrite K). cbn [app].
  unfold loglin_step.
  match goal with |- context [check_points ?d] => destruct (check_points_kind d) as [H|[H|H]] end.
  { apply Forall_map. cbn [snd]. exact L. }
  all: rewrite H; eexists; split; reflexivity.
Qed.

Lemma init_holds subtract poles xs alpha w : Forall2 (pole_for subtract) poles xs ->
  Forall (fun x => 2 <= bins x)%nat xs -> NoDup (map degrees xs) ->
  init spline poles alpha (ABool false) = Ok w -> Forall (holds_measured w alpha subtract) xs.
Proof.
  intros F B N H. apply Forall_forall. intros x I.
  assert (G : Forall2 (fun p m => multipole (fst p) = Ok m) poles (map degrees xs)).
  { clear - F. induction F as [|p x poles xs (M & _) F IH]; constructor; auto. }
  assert (P : exists p text, In (p, degrees x) (combine poles (map degrees xs)) /\ table_for x text /\
                read_pole text subtract (columns_for subtract) = Ok (snd p)).
  { clear - F I. induction F as [|p y poles xs (M & text & T & RP) F IH]; [destruct I|].
    destruct I as [->|I].
    - exists p, text. split; [now left|auto].
    - destruct (IH I) as (p' & text' & J & Q). exists p', text'. split; [now right|exact Q]. }
  destruct P as (p & text & J & T & RP).
  destruct (init_exact spline poles alpha w _ H G N p _ J) as (sym & r & q & q' & SY & RE & Er & Eq & Ln & Lr' & V).
  assert (B1 : (2 <= bins x)%nat) by (rewrite Forall_forall in B; auto).
  destruct (pole_of_file x text subtract T B1)
    as (sym' & paired & flat & r' & q0 & RP' & SY' & RE' & Lr & Sq & Nr & E).
  rewrite RP in RP'. injection RP' as RP'. rewrite SY in SY'. injection SY' as <-.
  rewrite RP' in RE. cbn [fst snd] in RE. rewrite RE in RE'. injection RE' as <- <-.
  exists r, q'. split; [exact Er|]. split; [exact Eq|]. split; [exact Lr|].
  split; [|split; [exact Nr|]].
  - destruct Sq as (S1 & S2). split; [congruence|]. apply Forall_forall. intros row Ir.
    apply (In_nth _ _ []) in Ir as (i & Hi & <-). rewrite Lr'. rewrite Ln in Hi.
    rewrite Forall_forall in S2. apply S2, nth_In, Hi.
  - intros i j Hi Hj. specialize (E i j Hi Hj). cbv zeta in *.
    set (s := fst (raw x _ _)) in *. set (n := if subtract then _ else 0) in *.
    unfold Array2dProps.entry in *. rewrite V.
    replace (alpha * alpha * nth j (nth i q []) 0 - alpha * alpha * (s - n))
      with (alpha * alpha * (nth j (nth i q []) 0 - (s - n))) by ring.
    assert (A : 0 <= alpha * alpha) by nra. rewrite Rabs_mult, (Rabs_pos_eq _ A).
    apply Rmult_le_compat_l; [exact A|]. exact E.
Qed.

(** C128: tables of measured windows are loaded, without resampling, as the
    windows measured, whatever order the files are given in.  The multipoles
    are those of the keys, ordered as `sorted` orders them; the sources are the
    paths. *)
Theorem loaded_window :
  forall items xs subtract alpha,
  Forall2 item_for items xs -> one_kind (map fst items) ->
  NoDup (map degrees xs) -> Forall (fun x => 2 <= bins x)%nat xs ->
  exists w sources,
    load_from_textfiles spline file items subtract (columns_for subtract) alpha (ABool false)
      = Ok (w, sources) /\
    Forall (holds_measured w alpha subtract) xs /\
    Permutation (map degrees xs) (w_multipoles w) /\ ascending (w_multipoles w) /\
    Permutation (map snd items) sources.
Proof.
  intros items xs subtract alpha F K N B.
  assert (M3 : Forall (fun m => length m = 3%nat) (map degrees xs)).
  { apply Forall_map. clear - F. induction F as [|it x items xs (_ & text & _ & T) F IH]; constructor; auto.
    eapply degrees_three; eauto. }
  destruct (sorted_items_ok items) as (items' & ES).
  { apply (one_kind_comparable items (map degrees xs)); auto.
    clear - F. induction F as [|it x items xs (M & _) F IH]; constructor; auto. }
  pose proof (sorted_items_perm _ _ ES) as P.
  destruct (Permutation_Forall2 P F) as (xs' & P' & F').
  assert (N' : NoDup (map degrees xs')) by (eapply Permutation_NoDup; [apply Permutation_map, P'|exact N]).
  assert (B' : Forall (fun x => 2 <= bins x)%nat xs') by (eapply Permutation_Forall; eauto).
  destruct (files_read subtract items' xs' F' B') as (poles & EP & FP).
  destruct (init_total subtract poles xs' alpha FP B' N') as (w & EI & EM).
  pose proof (init_holds subtract poles xs' alpha w FP B' N' EI) as H.
  unfold load_from_textfiles. rewrite ES. cbn [bind]. rewrite EP. cbn [bind]. rewrite EI. cbn [bind].
  exists w, (map snd items'). split; [reflexivity|].
  split; [eapply Permutation_Forall; [apply Permutation_sym, P'|exact H]|].
  destruct (sorted_exact 3 (map degrees xs')) as (ms & EM' & PM & AM & _); [lia| |].
  { intros a I. rewrite Forall_forall in M3. apply M3.
    eapply Permutation_in; [apply Permutation_map, Permutation_sym, P'|exact I]. }
  rewrite EM in EM'. injection EM' as <-. split; [|split; [exact AM|now apply Permutation_map]].
  rewrite <- PM. now apply Permutation_map.
Qed.

(** By default the samples may be replaced by one: either the window is that
    of [loaded_window], its points log-spaced, or every multipole has a single
    sample at the first separation. *)
Theorem loaded_default :
  forall items subtract usecols alpha w sources,
  load_from_textfiles spline file items subtract usecols alpha (ABool true) = Ok (w, sources) ->
  exists w0,
    load_from_textfiles spline file items subtract usecols alpha (ABool false) = Ok (w0, sources) /\
    ((w = w0 /\ forall m r, r_of w m = Ok r -> spaced r) \/
     forall m r q, r_of w0 m = Ok r -> lookup (w_Q w0) m = Ok q ->
       exists v, r_of w m = Ok [nth 0 r 0] /\ lookup (w_Q w) m = Ok [[v]]).
Proof.
  intros items subtract usecols alpha w sources H. unfold load_from_textfiles in *.
  destruct (sorted_items items) as [its|]; [|discriminate]. cbn [bind] in *.
  destruct (sequence _) as [poles|]; [|discriminate]. cbn [bind] in *.
  destruct (init spline poles alpha (ABool true)) as [w1|] eqn:E; [|discriminate]. injection H as -> <-.
  destruct (default_loses_samples spline poles alpha w E) as (w0 & -> & C). cbn [bind]. eauto.
Qed.

(** C128 fails for a window measured in one bin: it cannot be loaded, whatever
    else is asked for. *)
Theorem one_bin_fails :
  forall items xs subtract alpha make_loglin x,
  Forall2 item_for items xs -> In x xs -> bins x = 1%nat ->
  forall out, load_from_textfiles spline file items subtract (columns_for subtract) alpha make_loglin <> Ok out.
Proof.
  intros items xs subtract alpha ml x F I B out H. unfold load_from_textfiles in H.
  apply bind_ok in H as (its & ES & H). apply bind_ok in H as (poles & EP & _).
  pose proof (sorted_items_perm _ _ ES) as P.
  destruct (Permutation_Forall2 P F) as (xs' & P' & F'). pose proof (Permutation_in _ P' I) as I'.
  clear - F' I' EP B. revert poles EP. induction F' as [|it y its xs' (M & text & Ef & T) F' IH]; [destruct I'|].
  intros poles EP. cbn [map sequence] in EP. apply bind_ok in EP as (p & E1 & EP).
  apply bind_ok in EP as (ps & E2 & _). destruct I' as [->|I']; [|exact (IH I' _ E2)].
  rewrite Ef in E1. cbn [bind] in E1.
  destruct T as (q & name & sh & m & l & Fm & D & V & NM & (Dim & _) & T).
  assert (Z1 : zeta_dim m = 1%nat).
  { rewrite B in Dim. destruct NM as [(_ & ->)|(_ & ->)]; cbn [ThreePtModel.dv_dim] in Dim;
      injection Dim as Dim; apply Nat2Z.inj; rewrite <- Dim; reflexivity. }
  rewrite (read_pole_one text l m subtract T Z1) in E1. discriminate E1.
Qed.

(** Numbers of columns other than four, or three without shot noise, are
    refused once there is a file to read. *)
Theorem columns_refused :
  forall items subtract usecols alpha make_loglin out,
  items <> [] -> length usecols <> length (columns_for subtract) ->
  load_from_textfiles spline file items subtract usecols alpha make_loglin <> Ok out.
Proof.
  intros items subtract usecols alpha ml out NE L H. unfold load_from_textfiles in H.
  apply bind_ok in H as (its & ES & H). apply bind_ok in H as (poles & EP & _).
  pose proof (sorted_items_perm _ _ ES) as P.
  destruct its as [|it its]; [apply Permutation_sym, Permutation_nil in P; contradiction|].
  cbn [map sequence] in EP. apply bind_ok in EP as (p & E1 & _). apply bind_ok in E1 as (text & _ & E1).
  apply bind_ok in E1 as (pole & E1 & _). unfold read_pole in E1.
  destruct subtract; cbn [columns_for default_columns length] in L; apply Nat.eqb_neq in L; rewrite L in E1;
    discriminate E1.
Qed.

End Loading.

(* ------------------------------------------------------------------ *)
(** * Cases *)

(** Degrees (l, l, n) in two bins: results in the order of the triangle. *)
Definition params_for (l n : Z) : ParamModel.measuring :=
  {| ParamModel.catalogue_type := "random"; ParamModel.statistic_type := "3pcf-win";
     ParamModel.npoint := "3pt"; ParamModel.space := "config";
     ParamModel.ell1 := l; ParamModel.ell2 := l; ParamModel.ELL := n;
     ParamModel.form := "full"; ParamModel.norm_convention := "particle";
     ParamModel.shape := "triu"; ParamModel.binning := "lin"; ParamModel.bin_min := 0;
     ParamModel.bin_max := 1; ParamModel.num_bins := 2; ParamModel.idx_bin := 0 |}.

Definition two_bins (l n : Z) : measured :=
  {| degrees := [l; l; n]; bins := 2; separation := fun i => INR i + 1;
     raw := fun i j => (INR i + 10 * INR j, 7); shot := fun i j => (INR j, 5) |}.

Definition row_bin (k : nat) : nat := match k with 2 => 1 | _ => 0 end%nat.
Definition col_bin (k : nat) : nat := match k with 0 => 0 | _ => 1 end%nat.

Definition two_results : threepcf :=
  {| zeta_dim := 3;
     r1_bin := fun k => INR (row_bin k) + 1; r1_eff := fun k => INR (row_bin k) + 1;
     npairs_1 := fun _ => 3%Z;
     r2_bin := fun k => INR (col_bin k) + 1; r2_eff := fun k => INR (col_bin k) + 1;
     npairs_2 := fun _ => 3%Z;
     zeta_raw := fun k => (INR (row_bin k) + 10 * INR (col_bin k), 7);
     zeta_shot := fun k => (INR (col_bin k), 5) |}.

Definition two_text (l n : Z) : string := written (cpp_table (params_for l n) (Zeta two_results)).

Lemma two_table l n : (String.length (degrees_text (Zeta two_results) (params_for l n)) <= 7)%nat ->
  table_for (two_bins l n) (two_text l n).
Proof.
  intros L. exists (params_for l n), "triu"%string, ThreePtModel.Triu, two_results,
    (degrees_text (Zeta two_results) (params_for l n)).
  split; [reflexivity|]. split; [reflexivity|]. split; [unfold ParamModel.val_shape; cbn; now rewrite Z.eqb_refl|].
  split; [now left|]. split.
  - split; [reflexivity|]. intros k row col I.
    change (ThreePtModel.raw_writes ThreePtModel.Triu (Z.of_nat (bins (two_bins l n))) 0)
      with [(0, (0, 0)); (1, (0, 1)); (2, (1, 1))]%Z in I.
    assert (C : (k = 0 /\ row = 0 /\ col = 0 \/ k = 1 /\ row = 0 /\ col = 1 \/ k = 2 /\ row = 1 /\ col = 1)%nat).
    { destruct I as [I|[I|[I|[]]]]; injection I as I1 I2 I3; lia. }
    destruct C as [(-> & -> & ->)|[(-> & -> & ->)|(-> & -> & ->)]]; repeat split; reflexivity.
  - apply (program_table (params_for l n) (Zeta two_results) []); [constructor|exact L].
Qed.

Definition two_files (path : string) : res string :=
  if String.eqb path "a" then Ok (two_text 1 2)
  else if String.eqb path "b" then Ok (two_text 2 0) else Err IOErr.

Definition two_items : list item := [(MStr "112", "a"); (MStr "220", "b")]%string.

Lemma two_items_for : Forall2 (item_for two_files) two_items [two_bins 1 2; two_bins 2 0].
Proof.
  repeat constructor; eexists; (split; [reflexivity|]); apply two_table; cbn; lia.
Qed.

(** Two multipoles in two bins: both are loaded; off the diagonal, both entries
    are raw minus shot of the pair in ascending order. *)
Example loaded_case : forall spline, exists w,
  load_from_textfiles spline two_files two_items true default_columns 2 (ABool false)
    = Ok (w, ["a"; "b"]%string) /\
  w_multipoles w = [[2; 2; 0]; [1; 1; 2]]%Z /\
  exists r q, r_of w [1; 1; 2]%Z = Ok r /\ lookup (w_Q w) [1; 1; 2]%Z = Ok q /\
    Rabs (Array2dProps.entry q 1 0 - 36) <= / 1000000 /\
    Rabs (Array2dProps.entry q 0 1 - 36) <= / 1000000 /\
    Rabs (nth 1 r 0 - 2) <= / 1000000.
Proof.
  intros spline.
  destruct (loaded_window spline two_files two_items _ true 2 two_items_for) as (w & src & E & H & P & A & S).
  - left. exists ["112"; "220"]%string. reflexivity.
  - repeat constructor; cbn; intuition discriminate.
  - repeat constructor.
  - exists w. change (columns_for true) with default_columns in E.
    assert (src = ["a"; "b"]%string) as ->.
    { pose proof E as E'. unfold load_from_textfiles in E'.
      change (sorted_items two_items) with (Ok two_items) in E'. cbn [bind] in E'.
      apply bind_ok in E' as (ps & _ & E'). apply bind_ok in E' as (w' & _ & E'). now injection E' as _ <-. }
    split; [exact E|]. split.
    + cbn [map degrees two_bins] in P. apply Permutation_length_2_inv in P as [P|P]; [|exact P].
      exfalso. rewrite P in A. specialize (A 0%nat 1%nat). cbn [length nth] in A.
      apply A; [lia|]. unfold before. left. unfold at_. cbn. lia.
    + inversion H as [|? ? (r & q & Er & Eq & Lr & Sq & Nr & F) _]; subst. exists r, q.
      split; [exact Er|]. split; [exact Eq|].
      cbn [bins two_bins] in F, Nr.
      pose proof (F 1 0)%nat as F1. pose proof (F 0 1)%nat as F2. specialize (Nr 1%nat).
      unfold pair_for, near in *. cbn in F1, F2, Nr.
      specialize (F1 ltac:(lia) ltac:(lia)). specialize (F2 ltac:(lia) ltac:(lia)). specialize (Nr ltac:(lia)).
      rewrite (Rabs_pos_eq (0 + 10 * 1)), (Rabs_pos_eq 1) in F1, F2 by lra.
      rewrite (Rabs_pos_eq (1 + 1)) in Nr by lra.
      replace (2 * 2 * (0 + 10 * 1 - 1)) with 36 in F1, F2 by lra. replace (1 + 1) with 2 in Nr by lra.
      repeat split; lra.
Qed.

(** C128: the sources are in the order of the keys as they are written, not in
    that of the multipoles, so the two lists do not go together. *)
Theorem sources_refuted :
  forall spline, exists file items xs w sources,
  Forall2 (item_for file) items xs /\ one_kind (map fst items) /\ NoDup (map degrees xs) /\
  load_from_textfiles spline file items true default_columns 1 (ABool false) = Ok (w, sources) /\
  exists i it m m', In it items /\ nth_error sources i = Some (snd it) /\
    multipole (fst it) = Ok m /\ nth_error (w_multipoles w) i = Some m' /\ m <> m'.
Proof.
  intros spline. exists two_files, two_items, [two_bins 1 2; two_bins 2 0].
  destruct (loaded_window spline two_files two_items _ true 1 two_items_for) as (w & src & E & H & P & A & S).
  - left. exists ["112"; "220"]%string. reflexivity.
  - repeat constructor; cbn; intuition discriminate.
  - repeat constructor.
  - exists w, src. change (columns_for true) with default_columns in E.
    split; [exact two_items_for|]. split; [left; exists ["112"; "220"]%string; reflexivity|].
    split; [repeat constructor; cbn; intuition discriminate|]. split; [exact E|].
    assert (src = ["a"; "b"]%string) as ->.
    { pose proof E as E'. unfold load_from_textfiles in E'.
      change (sorted_items two_items) with (Ok two_items) in E'. cbn [bind] in E'.
      apply bind_ok in E' as (ps & _ & E'). apply bind_ok in E' as (w' & _ & E'). now injection E' as _ <-. }
    assert (W : w_multipoles w = [[2; 2; 0]; [1; 1; 2]]%Z).
    { cbn [map degrees two_bins] in P. apply Permutation_length_2_inv in P as [P|P]; [|exact P].
      exfalso. rewrite P in A. specialize (A 0%nat 1%nat). cbn [length nth] in A.
      apply A; [lia|]. unfold before. left. unfold at_. cbn. lia. }
    exists 0%nat, (MStr "112", "a")%string, [1; 1; 2]%Z, [2; 2; 0]%Z.
    split; [now left|]. split; [reflexivity|]. split; [reflexivity|]. split; [now rewrite W|discriminate].
Qed.

(** C128 is refuted for a window of one bin. *)
Definition one_bin : measured :=
  {| degrees := [0; 0; 0]%Z; bins := 1; separation := fun _ => 1;
     raw := fun _ _ => (3, 0); shot := fun _ _ => (1, 0) |}.

Definition one_results : threepcf :=
  {| zeta_dim := 1; r1_bin := fun _ => 1; r1_eff := fun _ => 1; npairs_1 := fun _ => 3%Z;
     r2_bin := fun _ => 1; r2_eff := fun _ => 1; npairs_2 := fun _ => 3%Z;
     zeta_raw := fun _ => (3, 0); zeta_shot := fun _ => (1, 0) |}.

Theorem one_bin_refuted :
  exists file items xs, Forall2 (item_for file) items xs /\ one_kind (map fst items) /\
    NoDup (map degrees xs) /\ xs <> [] /\
    forall spline alpha make_loglin out,
      load_from_textfiles spline file items true default_columns alpha make_loglin <> Ok out.
Proof.
  set (text := written (cpp_table (params_for 0 0) (Zeta one_results))).
  exists (fun _ => Ok text), [(MSeq [0; 0; 0]%Z, "a"%string)], [one_bin].
  assert (F : Forall2 (item_for (fun _ => Ok text)) [(MSeq [0; 0; 0]%Z, "a"%string)] [one_bin]).
  { repeat constructor. exists text. split; [reflexivity|].
    exists (params_for 0 0), "triu"%string, ThreePtModel.Triu, one_results,
      (degrees_text (Zeta one_results) (params_for 0 0)).
    split; [reflexivity|]. split; [reflexivity|]. split; [reflexivity|]. split; [now left|]. split.
    - split; [reflexivity|]. intros k row col _. repeat split.
    - apply (program_table (params_for 0 0) (Zeta one_results) []); [constructor|cbn; lia]. }
  split; [exact F|]. split; [right; left; now exists [[0; 0; 0]%Z]|].
  split; [repeat constructor; auto|]. split; [discriminate|].
  intros spline alpha ml out. exact (one_bin_fails spline _ _ _ true alpha ml one_bin F (or_introl eq_refl) eq_refl out).
Qed.

Print Assumptions loaded_window.
Print Assumptions loaded_default.
Print Assumptions one_bin_fails.
Print Assumptions one_bin_refuted.
Print Assumptions columns_refused.
Print Assumptions sources_refuted.
