(* Claims C24 and C25: three-point data vector and sum over spherical orders. *)
From Coq Require Import Reals ZArith List Lia Lra Bool Permutation.
From Coquelicot Require Import Complex.
From Verif Require Import Base ArrayModel ArrayProofs RSum BinVecModel BinVecProps ThreePtModel.
Import ListNotations.
Open Scope Z_scope.

(** ** C24: specification vocabulary *)

(** Parameters that pass validation: at least one bin, the offset within the
    bins, a non-negative row. *)
Definition shape_ok (sh : shape) (nb idx : Z) : Prop :=
  0 < nb /\
  match sh with
  | OffDiag => Z.abs idx < nb
  | Row => 0 <= idx < nb
  | OtherShape => False
  | _ => True
  end.

(** Bin pairs that make up the statistic in each shape. *)
Definition wanted (sh : shape) (nb idx row col : Z) : Prop :=
  0 <= row < nb /\ 0 <= col < nb /\
  match sh with
  | Diag => row = col
  | OffDiag => col - row = idx
  | Row => row = idx
  | Full => True
  | Triu => row <= col
  | OtherShape => False
  end.

(** ** Proof support *)
Lemma flat_map_arange_blocks (start : Z -> Z) (lo : Z -> Z) (f : Z -> Z -> Z) n : 0 <= n -> forall hi,
  (forall r, 0 <= r < n -> lo r <= hi) ->
  (forall r c, 0 <= r < n -> lo r <= c < hi -> f r c = start r + (c - lo r)) ->
  (forall r, 0 <= r < n -> start (r + 1) = start r + (hi - lo r)) -> start 0 = 0 ->
  flat_map (fun r => map (f r) (arange (lo r) hi)) (arange 0 n) = arange 0 (start n) /\ 0 <= start n.
Proof.
  intros Hn hi H1 H2 H3 H0. revert H1 H2 H3. pattern n. apply natlike_ind; [| |exact Hn].
  - intros. rewrite H0. rewrite !arange_empty by lia. split; [reflexivity|lia].
  - clear n Hn. intros n Hn IH H1 H2 H3. unfold Z.succ in *.
    destruct IH as [IH P].
    { intros; apply H1; lia. } { intros; apply H2; lia. } { intros; apply H3; lia. }
    rewrite (arange_snoc 0 (n + 1)) by lia. replace (n + 1 - 1) with n by lia.
    rewrite flat_map_app, IH. cbn [flat_map]. rewrite app_nil_r.
    assert (Hl := H1 n ltac:(lia)). rewrite (H3 n) by lia. split; [|lia].
    rewrite (arange_split 0 (start n) (start n + (hi - lo n))) by lia. f_equal.
    unfold arange. rewrite map_map. replace (start n + (hi - lo n) - start n) with (hi - lo n) by lia.
    apply map_ext_in. intros k Hk. apply in_seq in Hk. rewrite H2 by lia. lia.
Qed.

Lemma map_flat_map {A B D} (g : B -> D) (f : A -> list B) l :
  map g (flat_map f l) = flat_map (fun x => map g (f x)) l.
Proof. induction l as [|a l IH]; [reflexivity|]. cbn [flat_map]. now rewrite map_app, IH. Qed.

Lemma triu_start nb r : (2 * nb - (r + 1) + 1) * (r + 1) / 2 = (2 * nb - r + 1) * r / 2 + (nb - r).
Proof.
  replace ((2 * nb - (r + 1) + 1) * (r + 1)) with ((2 * nb - r + 1) * r + (nb - r) * 2) by ring.
  now rewrite Z.div_add by lia.
Qed.

Lemma raw_indices sh nb idx dim : shape_ok sh nb idx -> dv_dim sh nb idx = Ok dim ->
  map fst (raw_writes sh nb idx) = arange 0 dim /\ 0 < dim.
Proof.
  intros [Hn Hs] Hd. unfold raw_writes. rewrite Hd. destruct sh; cbn [dv_dim] in Hd; try discriminate;
  injection Hd as <-; rewrite ?map_map; cbn [fst]; rewrite ?map_id; try (split; [reflexivity|lia]).
  - split; [|lia]. rewrite <- (map_id (arange 0 (nb - Z.abs idx))) at 2. apply map_ext. intros i. now destruct (0 <=? idx).
  - rewrite map_flat_map.
    destruct (flat_map_arange_blocks (fun r => r * nb) (fun _ => 0) (full_index nb) nb ltac:(lia) nb) as [E P].
    + lia. + intros. unfold full_index. lia. + intros; lia. + lia.
    + split; [|nia]. rewrite <- E. apply flat_map_ext. intros r. now rewrite map_map.
  - rewrite map_flat_map.
    destruct (flat_map_arange_blocks (fun r => (2 * nb - r + 1) * r / 2) (fun r => r) (triu_index nb) nb ltac:(lia) nb) as [E P].
    + lia. + intros. reflexivity. + intros; apply triu_start. + now rewrite Z.mul_0_r.
    + replace ((2 * nb - nb + 1) * nb) with (nb * (nb + 1)) in * by ring.
      split; [|apply Z.div_str_pos; nia]. rewrite <- E. apply flat_map_ext. intros r. now rewrite map_map.
Qed.

Lemma In_raw sh nb idx i row col : shape_ok sh nb idx ->
  In (i, (row, col)) (raw_writes sh nb idx) <->
  wanted sh nb idx row col /\
  i = match sh with
      | Diag | Row => col
      | OffDiag => Z.min row col
      | Full => row * nb + col
      | _ => (2 * nb - row + 1) * row / 2 + (col - row)
      end.
Proof.
  intros [Hn Hs]. unfold raw_writes, wanted. destruct sh; cbn [dv_dim]; try contradiction.
  - rewrite in_map_iff. split.
    + intros (j & E & H). apply In_arange in H. injection E as -> -> ->. lia.
    + intros ((H1 & H2 & ->) & ->). exists col. split; [reflexivity|]. apply In_arange. lia.
  - rewrite in_map_iff. destruct (0 <=? idx) eqn:E0; [apply Z.leb_le in E0|apply Z.leb_gt in E0].
    + split.
      * intros (j & E & H). apply In_arange in H. injection E as -> -> <-. lia.
      * intros ((H1 & H2 & H3) & ->). exists row. split; [f_equal; [lia|f_equal; lia]|]. apply In_arange. lia.
    + split.
      * intros (j & E & H). apply In_arange in H. injection E as -> <- ->. lia.
      * intros ((H1 & H2 & H3) & ->). exists col. split; [f_equal; [lia|f_equal; lia]|]. apply In_arange. lia.
  - rewrite in_map_iff. split.
    + intros (j & E & H). apply In_arange in H. injection E as -> <- ->. lia.
    + intros ((H1 & H2 & ->) & ->). exists col. split; [reflexivity|]. apply In_arange. lia.
  - rewrite in_flat_map. split.
    + intros (r & Hr & H). apply in_map_iff in H. destruct H as (c & E & Hc). injection E as <- -> ->.
      apply In_arange in Hr. apply In_arange in Hc. unfold full_index. lia.
    + intros ((H1 & H2 & _) & ->). exists row. split; [apply In_arange; lia|]. apply in_map_iff. exists col.
      split; [reflexivity|apply In_arange; lia].
  - rewrite in_flat_map. split.
    + intros (r & Hr & H). apply in_map_iff in H. destruct H as (c & E & Hc). injection E as <- -> ->.
      apply In_arange in Hr. apply In_arange in Hc. unfold triu_index. lia.
    + intros ((H1 & H2 & H3) & ->). exists row. split; [apply In_arange; lia|]. apply in_map_iff. exists col.
      split; [reflexivity|apply In_arange; lia].
Qed.

Lemma NoDup_map_inv' {A B} (f : A -> B) l : NoDup (map f l) -> NoDup l.
Proof. apply NoDup_map_inv. Qed.

(** ** C24 *)

(** In every shape the entries are written in order, from the first to the last,
    each once; the pairs of bins written are exactly the wanted ones, each once. *)
Theorem data_vector_covered :
  forall sh nb idx, shape_ok sh nb idx ->
  exists dim, dv_dim sh nb idx = Ok dim /\
    map fst (raw_writes sh nb idx) = arange 0 dim /\
    NoDup (map snd (raw_writes sh nb idx)) /\
    (forall row col, In (row, col) (map snd (raw_writes sh nb idx)) <-> wanted sh nb idx row col).
Proof.
  intros sh nb idx Hok. assert (D : exists dim, dv_dim sh nb idx = Ok dim).
  { destruct Hok as [_ Hs]. destruct sh; cbn [dv_dim]; eauto. contradiction. }
  destruct D as (dim & D). exists dim. split; [exact D|]. destruct (raw_indices sh nb idx dim Hok D) as [E P].
  split; [exact E|]. split.
  - assert (N : NoDup (raw_writes sh nb idx)) by (apply (NoDup_map_inv fst); rewrite E; apply NoDup_arange).
    assert (I : forall x y, In x (raw_writes sh nb idx) -> In y (raw_writes sh nb idx) -> snd x = snd y -> x = y).
    { intros [i [r c]] [i' [r' c']] Hx Hy Exy. cbn [snd] in Exy. injection Exy as <- <-.
      apply In_raw in Hx; [|exact Hok]. apply In_raw in Hy; [|exact Hok]. destruct Hx as [_ ->]. destruct Hy as [_ ->]. reflexivity. }
    clear E. induction (raw_writes sh nb idx) as [|x l IH]; [constructor|]. inversion N as [|? ? N1 N2]; subst.
    cbn [map]. constructor.
    + intros Hx. apply in_map_iff in Hx. destruct Hx as (y & Ey & Hy). apply N1.
      rewrite (I x y); auto; [now left|now right].
    + apply IH; [exact N2|]. intros. apply I; auto; now right.
  - intros row col. rewrite in_map_iff. split.
    + intros ([i [r c]] & Ex & H). cbn [snd] in Ex. injection Ex as -> ->. apply In_raw in H; [|exact Hok]. tauto.
    + intros H. eexists. split; [|apply In_raw; [exact Hok|split; [exact H|reflexivity]]]. reflexivity.
Qed.

(** An unknown shape is rejected. *)
Theorem data_vector_unknown_shape : forall nb idx, dv_dim OtherShape nb idx = Err InvalidParameter.
Proof. reflexivity. Qed.

(** Shot noise that depends on the first bin: every entry once, with the first bin of
    the entry. *)
Theorem shotnoise_row_entries :
  forall sh nb idx, shape_ok sh nb idx ->
  NoDup (map fst (sn_row_writes sh nb idx)) /\
  forall i b, In (i, b) (sn_row_writes sh nb idx) <-> exists col, In (i, (b, col)) (raw_writes sh nb idx).
Proof.
  intros sh nb idx Hok. assert (D : exists dim, dv_dim sh nb idx = Ok dim).
  { destruct Hok as [_ Hs]. destruct sh; cbn [dv_dim]; eauto. contradiction. }
  destruct D as (dim & D). destruct (raw_indices sh nb idx dim Hok D) as [E P].
  assert (M : sn_row_writes sh nb idx = map (fun x => (fst x, fst (snd x))) (raw_writes sh nb idx)).
  { unfold sn_row_writes, raw_writes. rewrite D. destruct sh; rewrite ?map_map; try reflexivity.
    - apply map_ext. intros i. now destruct (0 <=? idx).
    - rewrite map_flat_map. apply flat_map_ext. intros r. now rewrite map_map.
    - rewrite map_flat_map. apply flat_map_ext. intros r. now rewrite map_map. }
  rewrite M. split.
  - rewrite map_map. cbn [fst]. change (map (fun x : Z * (Z * Z) => fst x)) with (map (@fst Z (Z * Z))).
    rewrite E. apply NoDup_arange.
  - intros i b. rewrite in_map_iff. split.
    + intros ([j [r c]] & Ex & H). cbn [fst snd] in Ex. injection Ex as -> ->. eauto.
    + intros (col & H). exists (i, (b, col)). auto.
Qed.

(** Shot noise that depends on the second bin: the same, except for the full shape. *)
Theorem shotnoise_col_entries :
  forall sh nb idx, shape_ok sh nb idx -> sh <> Full ->
  NoDup (map fst (sn_col_writes sh nb idx)) /\
  forall i b, In (i, b) (sn_col_writes sh nb idx) <-> exists row, In (i, (row, b)) (raw_writes sh nb idx).
Proof.
  intros sh nb idx Hok HF.
  assert (Q : forall i b, In (i, b) (sn_col_writes sh nb idx) <-> exists row, In (i, (row, b)) (raw_writes sh nb idx)).
  { intros i b. destruct (Hok) as [Hn Hs].
    transitivity (exists row, wanted sh nb idx row b /\
       i = match sh with Diag | Row => b | OffDiag => Z.min row b | Full => row * nb + b
                       | _ => (2 * nb - row + 1) * row / 2 + (b - row) end).
    2: { split; intros (row & H); exists row; now apply In_raw. }
    unfold sn_col_writes, wanted. destruct sh; cbn [dv_dim]; try contradiction.
    - rewrite in_map_iff. split.
      + intros (j & E & H). apply In_arange in H. injection E as -> ->. exists b. lia.
      + intros (row & H & ->). exists b. split; [reflexivity|apply In_arange; lia].
    - rewrite in_map_iff. destruct (0 <=? idx) eqn:E0; [apply Z.leb_le in E0|apply Z.leb_gt in E0]; split.
      + intros (j & E & H). apply In_arange in H. injection E as -> <-. exists i. lia.
      + intros (row & H & ->). exists row. split; [f_equal; lia|apply In_arange; lia].
      + intros (j & E & H). apply In_arange in H. injection E as -> ->. exists (b - idx). lia.
      + intros (row & H & ->). exists b. split; [f_equal; lia|apply In_arange; lia].
    - rewrite in_map_iff. split.
      + intros (j & E & H). apply In_arange in H. injection E as -> ->. exists idx. lia.
      + intros (row & H & ->). exists b. split; [reflexivity|apply In_arange; lia].
    - rewrite in_flat_map. split.
      + intros (c & Hc & H). apply in_map_iff in H. destruct H as (r & E & Hr). injection E as <- ->.
        apply In_arange in Hr. apply In_arange in Hc. exists r. unfold triu_index. lia.
      + intros (row & (H1 & H2 & H3) & ->). exists b. split; [apply In_arange; lia|]. apply in_map_iff.
        exists row. split; [reflexivity|apply In_arange; lia]. }
  split; [|exact Q]. destruct (Hok) as [Hn Hs]. unfold sn_col_writes. destruct sh; cbn [dv_dim]; try contradiction.
  - rewrite map_map. cbn [fst]. rewrite map_id. apply NoDup_arange.
  - rewrite map_map. cbn [fst]. rewrite map_id. apply NoDup_arange.
  - rewrite map_map. cbn [fst]. rewrite map_id. apply NoDup_arange.
  - rewrite map_flat_map. apply NoDup_flat_map; [apply NoDup_arange| |].
    + intros c Hc. apply In_arange in Hc. rewrite map_map. cbn [fst].
      assert (I : forall r r', In r (arange 0 (c + 1)) -> In r' (arange 0 (c + 1)) ->
                  triu_index nb r c = triu_index nb r' c -> r = r').
      { intros r r' Hr Hr' Er. apply In_arange in Hr. apply In_arange in Hr'.
        destruct (data_vector_covered Triu nb idx Hok) as (dim & D & E & N & _).
        assert (X : forall q, 0 <= q < c + 1 -> In (triu_index nb q c, (q, c)) (raw_writes Triu nb idx)).
        { intros q Hq. apply In_raw; [exact Hok|]. unfold wanted, triu_index. lia. }
        assert (X1 := X r Hr). assert (X2 := X r' Hr'). rewrite Er in X1.
        assert (NF : NoDup (map fst (raw_writes Triu nb idx))) by (rewrite E; apply NoDup_arange).
        clear - X1 X2 NF. induction (raw_writes Triu nb idx) as [|[i p] l IH]; [contradiction|].
        inversion NF as [|? ? N1 N2]; subst. destruct X1 as [X1|X1], X2 as [X2|X2].
        - congruence.
        - exfalso. apply N1. injection X1 as -> _. apply in_map_iff. eexists. split; [|exact X2]. reflexivity.
        - exfalso. apply N1. injection X2 as -> _. apply in_map_iff. eexists. split; [|exact X1]. reflexivity.
        - now apply IH. }
      assert (N := NoDup_arange 0 (c + 1)). induction (arange 0 (c + 1)) as [|r l IH]; [constructor|].
      inversion N as [|? ? N1 N2]; subst. cbn [map]. constructor.
      * intros Hx. apply in_map_iff in Hx. destruct Hx as (r' & Er & Hr'). apply N1.
        rewrite (I r r'); auto; [now left|now right].
      * apply IH; [|exact N2]. intros. apply I; auto; now right.
    + intros c c' i Hc Hc' H H'. apply in_map_iff in H. destruct H as ([i1 b1] & E1 & H). cbn [fst] in E1. subst i1.
      apply in_map_iff in H'. destruct H' as ([i2 b2] & E2 & H'). cbn [fst] in E2. subst i2.
      apply in_map_iff in H. destruct H as (r & E & Hr). injection E as Ei <-.
      apply in_map_iff in H'. destruct H' as (r' & E' & Hr'). injection E' as Ei' <-.
      apply In_arange in Hr. apply In_arange in Hr'. apply In_arange in Hc. apply In_arange in Hc'.
      destruct (data_vector_covered Triu nb idx Hok) as (dim & D & E & N & _).
      assert (X1 : In (i, (r, c)) (raw_writes Triu nb idx)).
      { apply In_raw; [exact Hok|]. unfold wanted. split; [lia|]. rewrite <- Ei. reflexivity. }
      assert (X2 : In (i, (r', c')) (raw_writes Triu nb idx)).
      { apply In_raw; [exact Hok|]. unfold wanted. split; [lia|]. rewrite <- Ei'. reflexivity. }
      assert (NF : NoDup (map fst (raw_writes Triu nb idx))) by (rewrite E; apply NoDup_arange).
      clear - X1 X2 NF. induction (raw_writes Triu nb idx) as [|[j p] l IH]; [contradiction|].
      inversion NF as [|? ? N1 N2]; subst. destruct X1 as [X1|X1], X2 as [X2|X2].
      * congruence.
      * exfalso. apply N1. injection X1 as -> _. apply in_map_iff. eexists. split; [|exact X2]. reflexivity.
      * exfalso. apply N1. injection X2 as -> _. apply in_map_iff. eexists. split; [|exact X1]. reflexivity.
      * now apply IH.
Qed.

(** Three-point correlation function shot noise: exactly the entries with equal bins. *)
Theorem shotnoise_equal_entries :
  forall sh nb idx, shape_ok sh nb idx ->
  NoDup (map fst (sn_equal_writes sh nb idx)) /\
  forall i b, In (i, b) (sn_equal_writes sh nb idx) <-> In (i, (b, b)) (raw_writes sh nb idx).
Proof.
  intros sh nb idx Hok.
  assert (Q : forall i b, In (i, b) (sn_equal_writes sh nb idx) <-> In (i, (b, b)) (raw_writes sh nb idx)).
  { intros i b. rewrite In_raw by exact Hok. destruct (Hok) as [Hn Hs].
    unfold sn_equal_writes, wanted. destruct sh; cbn [dv_dim]; try contradiction.
    - rewrite in_map_iff. split.
      + intros (j & E & H). apply In_arange in H. injection E as -> ->. lia.
      + intros (H & ->). exists b. split; [reflexivity|apply In_arange; lia].
    - destruct (Z.eqb_spec idx 0) as [->|N].
      + rewrite in_map_iff. split.
        * intros (j & E & H). apply In_arange in H. injection E as -> ->. lia.
        * intros (H & ->). exists b. split; [f_equal; lia|apply In_arange; lia].
      + split; [contradiction|]. lia.
    - cbn [In]. split.
      + intros [E|[]]. injection E as <- <-. lia.
      + intros (H & ->). left. f_equal; lia.
    - rewrite in_map_iff. split.
      + intros (j & E & H). apply In_arange in H. injection E as <- ->. lia.
      + intros (H & ->). exists b. split; [reflexivity|apply In_arange; lia].
    - rewrite in_map_iff. split.
      + intros (j & E & H). apply In_arange in H. injection E as <- ->. split; [lia|].
        now rewrite Z.sub_diag, Z.add_0_r.
      + intros (H & ->). exists b. split; [|apply In_arange; lia]. now rewrite Z.sub_diag, Z.add_0_r. }
  split; [|exact Q].
  (* the entry determines the bin and bins occur once *)
  assert (NB : NoDup (map snd (sn_equal_writes sh nb idx))).
  { destruct (Hok) as [Hn Hs]. unfold sn_equal_writes. destruct sh; cbn [dv_dim]; try contradiction.
    - rewrite map_map. cbn [snd]. rewrite map_id. apply NoDup_arange.
    - destruct (idx =? 0); [|constructor]. rewrite map_map. cbn [snd]. rewrite map_id. apply NoDup_arange.
    - repeat constructor. intros [].
    - rewrite map_map. cbn [snd]. rewrite map_id. apply NoDup_arange.
    - rewrite map_map. cbn [snd]. rewrite map_id. apply NoDup_arange. }
  assert (F : forall i b b', In (i, b) (sn_equal_writes sh nb idx) -> In (i, b') (sn_equal_writes sh nb idx) -> b = b').
  { intros i b b' H H'. apply Q in H. apply Q in H'.
    destruct (data_vector_covered sh nb idx Hok) as (dim & D & E & N & _).
    assert (NF : NoDup (map fst (raw_writes sh nb idx))) by (rewrite E; apply NoDup_arange).
    clear - H H' NF. induction (raw_writes sh nb idx) as [|[j p] l IH]; [contradiction|].
    inversion NF as [|? ? N1 N2]; subst. destruct H as [X1|X1], H' as [X2|X2].
    - congruence.
    - exfalso. apply N1. injection X1 as -> _. apply in_map_iff. eexists. split; [|exact X2]. reflexivity.
    - exfalso. apply N1. injection X2 as -> _. apply in_map_iff. eexists. split; [|exact X1]. reflexivity.
    - now apply IH. }
  clear Q. induction (sn_equal_writes sh nb idx) as [|[i b] l IH]; [constructor|]. cbn [map fst snd] in *.
  inversion NB as [|? ? N1 N2]; subst. constructor.
  - intros H. apply in_map_iff in H. destruct H as ([i' b'] & E & H). cbn [fst] in E. subst i'.
    apply N1. apply in_map_iff. exists (i, b'). split; [|exact H]. cbn [snd].
    symmetry. apply (F i); [now left|now right].
  - apply IH; [exact N2|]. intros. apply (F i0); now right.
Qed.

(** For the full shape with [ell1 = 0] the code writes past the end of the data
    vector, for every number of bins and whatever the values. *)
Theorem shotnoise_full_in_range_refuted :
  forall nb idx dim (dv : list R) (x : Z -> R), 0 < nb -> dv_dim Full nb idx = Ok dim ->
  Z.of_nat (length dv) = dim ->
  add_all dv (map (fun ib => (fst ib, x (snd ib))) (sn_col_writes Full nb idx)) = Err OutOfBounds.
Proof.
  intros nb idx dim dv x Hn D L. injection D as <-.
  assert (G : forall ws (dv : list R), Z.of_nat (length dv) = nb * nb ->
     (exists i y, In (i, y) ws /\ nb * nb <= i) -> add_all dv ws = Err OutOfBounds).
  { clear dv L. induction ws as [|[i y] ws IH]; intros dv L (i0 & y0 & H & Hi); [contradiction|].
    cbn [add_all]. unfold add_at.
    destruct ((0 <=? i) && (i <? Z.of_nat (length dv))) eqn:E; [|reflexivity]. cbn [bind].
    destruct H as [H|H].
    - injection H as -> ->. rewrite andb_true_iff, Z.ltb_lt in E. lia.
    - apply IH; [rewrite map_length, seq_length; exact L|]. eauto. }
  apply G; [exact L|].
  exists (full_index nb nb 0), (x 0). split; [|unfold full_index; lia].
  apply in_map_iff. exists (full_index nb nb 0, 0). split; [reflexivity|].
  unfold sn_col_writes. cbn [dv_dim]. apply in_flat_map. exists 0. split; [apply In_arange; lia|].
  apply in_map_iff. exists nb. split; [reflexivity|apply In_arange; lia].
Qed.

(** The other shapes stay in range: writing succeeds. *)
Theorem shotnoise_in_range :
  forall sh nb idx dim (dv : list R) (x : Z -> R), shape_ok sh nb idx -> dv_dim sh nb idx = Ok dim ->
  Z.of_nat (length dv) = dim ->
  let values ws := map (fun ib : Z * Z => (fst ib, x (snd ib))) ws in
  is_ok (add_all dv (values (sn_row_writes sh nb idx))) /\
  is_ok (add_all dv (values (sn_equal_writes sh nb idx))) /\
  (sh <> Full -> is_ok (add_all dv (values (sn_col_writes sh nb idx)))).
Proof.
  intros sh nb idx dim dv x Hok D L values.
  destruct (raw_indices sh nb idx dim Hok D) as [E _].
  assert (B : forall i p, In (i, p) (raw_writes sh nb idx) -> 0 <= i < dim).
  { intros i p H. apply In_arange. rewrite <- E. apply in_map_iff. exists (i, p). auto. }
  assert (G : forall ws (dv : list R), Z.of_nat (length dv) = dim ->
     (forall i b, In (i, b) ws -> 0 <= i < dim) -> is_ok (add_all dv (values ws))).
  { clear dv L. induction ws as [|[i b] ws IH]; intros dv L H; [now exists dv|].
    cbn [values map add_all fst snd]. unfold add_at. rewrite L.
    assert (Hi := H i b (or_introl eq_refl)).
    rewrite (proj2 (Z.leb_le 0 i)), (proj2 (Z.ltb_lt i dim)) by lia. cbn [andb bind].
    apply IH; [rewrite map_length, seq_length; exact L|]. intros. apply (H i0 b0). now right. }
  split; [|split].
  - apply G; [exact L|]. intros i b H. apply (proj2 (shotnoise_row_entries sh nb idx Hok)) in H.
    destruct H as (c & H). eapply B; eauto.
  - apply G; [exact L|]. intros i b H. apply (proj2 (shotnoise_equal_entries sh nb idx Hok)) in H. eapply B; eauto.
  - intros HF. apply G; [exact L|]. intros i b H. apply (proj2 (shotnoise_col_entries sh nb idx Hok HF)) in H.
    destruct H as (r & H). eapply B; eauto.
Qed.

Example data_vector_case :
  raw_writes Triu 3 0 = [(0, (0, 0)); (1, (0, 1)); (2, (0, 2)); (3, (1, 1)); (4, (1, 2)); (5, (2, 2))] /\
  raw_writes OffDiag 4 (-2) = [(0, (2, 0)); (1, (3, 1))] /\
  map fst (sn_col_writes Full 2 0) = [0; 2; 4; 1; 3; 5] /\ dv_dim Full 2 0 = Ok 4.
Proof. repeat split. Qed.

Print Assumptions data_vector_covered.
Print Assumptions shotnoise_row_entries.
Print Assumptions shotnoise_col_entries.
Print Assumptions shotnoise_equal_entries.
Print Assumptions shotnoise_full_in_range_refuted.
Print Assumptions shotnoise_in_range.
