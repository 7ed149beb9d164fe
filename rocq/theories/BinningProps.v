(* Claims C10-C13: binning. *)
From Coq Require Import Reals ZArith List Lia Lra Bool.
From Verif Require Import Base ArrayModel ArrayProofs BinningModel.
Import ListNotations.
Open Scope R_scope.

(** ** Specification vocabulary *)

(** [edges], [centres], [widths] describe [n] adjoining bins from [lo] to [hi]. *)
Definition describes (n : nat) (lo hi : R) (b : list R * list R * list R) : Prop :=
  let '(edges, centres, widths) := b in
  length edges = S n /\ length centres = n /\ length widths = n /\
  nth 0 edges 0 = lo /\ nth n edges 0 = hi /\
  (forall i, (i < n)%nat ->
     nth i edges 0 < nth (S i) edges 0 /\
     nth i centres 0 = (nth i edges 0 + nth (S i) edges 0) / 2 /\
     nth i widths 0 = nth (S i) edges 0 - nth i edges 0).

(** [x] lies in bin [i]. *)
Definition in_bin (edges : list R) (i : nat) (x : R) : Prop :=
  nth i edges 0 <= x < nth (S i) edges 0.

(** Coordinates from [lo] below [hi] lie in exactly one of [n] bins, all
    others in none. *)
Definition partitions (n : nat) (lo hi : R) (edges : list R) : Prop :=
  forall x, (lo <= x < hi -> exists! i, (i < n)%nat /\ in_bin edges i x) /\
            (~ (lo <= x < hi) -> forall i, (i < n)%nat -> ~ in_bin edges i x).

(** ** Proof support *)
Lemma edges_mono n edges i j : (forall k, (k < n)%nat -> nth k edges 0 < nth (S k) edges 0) ->
  (i <= j)%nat -> (j <= n)%nat -> nth i edges 0 <= nth j edges 0.
Proof.
  intros H Hij Hj. induction j as [|j IH].
  - replace i with 0%nat by lia. lra.
  - destruct (Nat.eq_dec i (S j)) as [->|D]; [lra|]. specialize (IH ltac:(lia) ltac:(lia)).
    specialize (H j ltac:(lia)). lra.
Qed.

Lemma describes_partitions n lo hi b : describes n lo hi b -> partitions n lo hi (fst (fst b)).
Proof.
  destruct b as [[edges centres] widths]. intros (_ & _ & _ & H0 & Hn & H) x. simpl.
  assert (M : forall k, (k < n)%nat -> nth k edges 0 < nth (S k) edges 0) by (intros; now apply H).
  split.
  - intros [Hl Hu]. assert (E : exists i, (i < n)%nat /\ in_bin edges i x).
    { assert (G : forall m, (m <= n)%nat -> x < nth m edges 0 -> exists i, (i < n)%nat /\ in_bin edges i x).
      { induction m as [|m IH]; intros Hm Hx; [lra|].
        destruct (Rlt_dec x (nth m edges 0)) as [L|L]; [apply IH; [lia|exact L]|].
        exists m. split; [lia|]. split; [lra|exact Hx]. }
      apply (G n); [lia|]. now rewrite Hn. }
    destruct E as (i & Hi & Bi). exists i. split; [auto|].
    intros j [Hj Bj]. unfold in_bin in *.
    destruct (lt_eq_lt_dec i j) as [[L|E]|L]; [|exact E|].
    + assert (Q := edges_mono n edges (S i) j M ltac:(lia) ltac:(lia)). lra.
    + assert (Q := edges_mono n edges (S j) i M ltac:(lia) ltac:(lia)). lra.
  - intros N i Hi [B1 B2]. apply N. rewrite <- H0, <- Hn.
    assert (Q1 := edges_mono n edges 0 i M ltac:(lia) ltac:(lia)).
    assert (Q2 := edges_mono n edges (S i) n M ltac:(lia) ltac:(lia)). lra.
Qed.

Lemma nth_map_arange_app (f : Z -> R) lo hi i (x : R) :
  nth i (map f (arange lo hi) ++ [x]) 0 =
  if (i <? Z.to_nat (hi - lo))%nat then f (lo + Z.of_nat i)%Z
  else if (i =? Z.to_nat (hi - lo))%nat then x else 0.
Proof.
  destruct (i <? Z.to_nat (hi - lo))%nat eqn:E.
  - apply Nat.ltb_lt in E. rewrite app_nth1 by (now rewrite map_length, arange_length).
    now apply nth_map_arange.
  - apply Nat.ltb_ge in E. rewrite app_nth2 by (now rewrite map_length, arange_length).
    rewrite map_length, arange_length. destruct (i =? Z.to_nat (hi - lo))%nat eqn:E2.
    + apply Nat.eqb_eq in E2. rewrite E2, Nat.sub_diag. reflexivity.
    + apply Nat.eqb_neq in E2. rewrite nth_overflow; [reflexivity|]. simpl. lia.
Qed.

(** ** C10 *)
Lemma lin_edge lo hi n i : (0 < n)%nat -> (i <= n)%nat ->
  nth i (fst (fst (lin_bins lo hi (Z.of_nat n)))) 0 = lo + (hi - lo) / INR n * INR i.
Proof.
  intros Hn Hi. unfold lin_bins, irange. cbn [fst]. rewrite nth_map_arange_app.
  rewrite Z.sub_0_r, Nat2Z.id. assert (P : INR n <> 0) by (apply not_0_INR; lia).
  rewrite <- INR_IZR_INZ.
  destruct (i <? n)%nat eqn:E.
  - rewrite Z.add_0_l, <- INR_IZR_INZ. reflexivity.
  - apply Nat.ltb_ge in E. assert (i = n) by lia. subst i. rewrite Nat.eqb_refl. field. exact P.
Qed.

Theorem lin_bins_correct :
  forall lo hi n, (0 < n)%nat -> lo < hi ->
  let b := lin_bins lo hi (Z.of_nat n) in
  describes n lo hi b /\ partitions n lo hi (fst (fst b)) /\
  (forall i, (i < n)%nat -> nth i (snd b) 0 = (hi - lo) / INR n).
Proof.
  intros lo hi n Hn Hlt b. assert (P : 0 < INR n) by (apply lt_0_INR; lia).
  assert (Pd : 0 < (hi - lo) / INR n) by (apply Rdiv_lt_0_compat; lra).
  assert (W : forall i, (i < n)%nat -> nth i (snd b) 0 = (hi - lo) / INR n).
  { intros i Hi. unfold b, lin_bins, irange. cbn [snd]. rewrite nth_map_arange by lia.
    now rewrite <- INR_IZR_INZ. }
  assert (D : describes n lo hi b).
  { assert (E := lin_edge lo hi n). fold b in E. unfold describes.
    assert (C : forall i, (i < n)%nat -> nth i (snd (fst b)) 0 = lo + (hi - lo) / INR n * INR i + (hi - lo) / INR n / 2).
    { intros i Hi. unfold b, lin_bins, irange. cbn [snd fst]. rewrite nth_map_arange by lia.
      now rewrite Z.add_0_l, <- !INR_IZR_INZ. }
    assert (L : length (fst (fst b)) = S n /\ length (snd (fst b)) = n /\ length (snd b) = n).
    { unfold b, lin_bins, irange. cbn [fst snd]. rewrite app_length, !map_length, !arange_length. simpl. lia. }
    destruct b as [[e c] w]. cbn [fst snd] in *. destruct L as (L1 & L2 & L3).
    repeat split; auto.
    - rewrite E by lia. simpl. ring.
    - rewrite E by lia. field. lra.
    - rewrite !E by lia. rewrite S_INR. nra.
    - rewrite C, !E, S_INR by lia. field. lra.
    - rewrite W, !E, S_INR by lia. ring. }
  split; [exact D|]. split; [now apply describes_partitions|exact W].
Qed.

Lemma log_edge lo hi n : 0 < lo -> 0 < hi -> (0 < n)%nat ->
  exists b, log_bins lo hi (Z.of_nat n) = Ok b /\
    (length (fst (fst b)) = S n /\ length (snd (fst b)) = n /\ length (snd b) = n) /\
    (forall i, (i <= n)%nat -> nth i (fst (fst b)) 0 = lo * exp ((ln hi - ln lo) / INR n * INR i)) /\
    (forall i, (i < n)%nat -> nth i (snd (fst b)) 0 =
       (lo * exp ((ln hi - ln lo) / INR n * INR i) + lo * exp ((ln hi - ln lo) / INR n * INR (S i))) / 2) /\
    (forall i, (i < n)%nat -> nth i (snd b) 0 =
       lo * exp ((ln hi - ln lo) / INR n * INR (S i)) - lo * exp ((ln hi - ln lo) / INR n * INR i)).
Proof.
  intros Hlo Hhi Hn. unfold log_bins.
  destruct (Reqb lo 0) eqn:E1; [apply Reqb_spec in E1; lra|].
  destruct (Rleb lo 0) eqn:E2; [apply Rleb_spec in E2; lra|].
  destruct (Rleb hi 0) eqn:E3; [apply Rleb_spec in E3; lra|]. cbn [orb].
  assert (P : INR n <> 0) by (apply not_0_INR; lia).
  eexists. split; [reflexivity|]. cbn [fst snd]. unfold irange. split; [|split; [|split]].
  - rewrite app_length, !map_length, !arange_length. simpl. lia.
  - intros i Hi. rewrite nth_map_arange_app, Z.sub_0_r, Nat2Z.id, <- INR_IZR_INZ.
    destruct (i <? n)%nat eqn:E.
    + now rewrite Z.add_0_l, <- INR_IZR_INZ.
    + apply Nat.ltb_ge in E. assert (i = n) by lia. subst i. rewrite Nat.eqb_refl.
      replace ((ln hi - ln lo) / INR n * INR n) with (ln hi + - ln lo) by (field; exact P).
      rewrite exp_plus, exp_Ropp, !exp_ln by assumption. field. lra.
  - intros i Hi. rewrite nth_map_arange by lia.
    replace (0 + Z.of_nat i + 1)%Z with (Z.of_nat (S i)) by lia.
    now rewrite Z.add_0_l, <- !INR_IZR_INZ.
  - intros i Hi. rewrite nth_map_arange by lia.
    replace (0 + Z.of_nat i + 1)%Z with (Z.of_nat (S i)) by lia.
    now rewrite Z.add_0_l, <- !INR_IZR_INZ.
Qed.

Lemma exp_lt x y : x < y -> exp x < exp y.
Proof. apply exp_increasing. Qed.

Theorem log_bins_correct :
  forall lo hi n, (0 < n)%nat -> 0 < lo -> lo < hi ->
  exists b, log_bins lo hi (Z.of_nat n) = Ok b /\
  describes n lo hi b /\ partitions n lo hi (fst (fst b)) /\
  (forall i, (i + 2 <= n)%nat ->
     nth i (fst (fst b)) 0 * nth (i + 2) (fst (fst b)) 0 = nth (i + 1) (fst (fst b)) 0 ^ 2).
Proof.
  intros lo hi n Hn Hlo Hlt.
  destruct (log_edge lo hi n Hlo ltac:(lra) Hn) as (b & E & (L1 & L2 & L3) & Ee & Ec & Ew).
  exists b. split; [exact E|].
  assert (P : 0 < INR n) by (apply lt_0_INR; lia).
  assert (Pl : ln lo < ln hi) by (apply ln_increasing; lra).
  assert (Pd : 0 < (ln hi - ln lo) / INR n) by (apply Rdiv_lt_0_compat; lra).
  assert (D : describes n lo hi b).
  { unfold describes. destruct b as [[e c] w]. cbn [fst snd] in *.
    repeat split; auto.
    - rewrite Ee by lia. simpl. rewrite Rmult_0_r, exp_0. ring.
    - rewrite Ee by lia.
      replace ((ln hi - ln lo) / INR n * INR n) with (ln hi + - ln lo) by (field; lra).
      rewrite exp_plus, exp_Ropp, !exp_ln by lra. field. lra.
    - rewrite !Ee by lia. apply Rmult_lt_compat_l; [exact Hlo|]. apply exp_lt. rewrite S_INR. nra.
    - rewrite Ec, !Ee by lia. reflexivity.
    - rewrite Ew, !Ee by lia. reflexivity. }
  split; [exact D|]. split; [now apply describes_partitions|].
  intros i Hi. rewrite !Ee by lia. rewrite !plus_INR. simpl.
  rewrite !Rmult_plus_distr_l, !exp_plus, Rmult_1_r. ring.
Qed.

(** What [set_bins] does from the user's side, scheme 'lin' or 'log': bad input is
    rejected, good input gives bins as described. *)
Theorem set_bins_lin_log :
  forall sp sc lo hi n,
  (sc = Lin /\ 0 <= lo \/ sc = Log /\ 0 < lo) -> lo < hi -> (0 < n)%nat ->
  exists s, py_set_bins (py_new sp sc) lo hi (Z.of_nat n) = (s, None) /\
    p_min s = Some lo /\ p_max s = Some hi /\ p_num s = Some (Z.of_nat n) /\
    describes n lo hi (p_edges s, p_centres s, p_widths s) /\
    partitions n lo hi (p_edges s).
Proof.
  intros sp sc lo hi n Hsc Hlt Hn. unfold py_set_bins, cpp_set_bins. simpl.
  destruct (Rltb lo 0) eqn:E1; [apply Rltb_spec in E1; destruct Hsc as [[_ ?]|[_ ?]]; lra|].
  destruct (Z.of_nat n <=? 0)%Z eqn:E2; [apply Z.leb_le in E2; lia|].
  unfold cpp_set_bins0, compute_bins. simpl.
  destruct Hsc as [[-> Hlo]|[-> Hlo]].
  - destruct (lin_bins_correct lo hi n Hn Hlt) as (D & P & _).
    destruct (lin_bins lo hi (Z.of_nat n)) as [[e c] w]. eexists. split; [reflexivity|].
    simpl. repeat (split; [reflexivity|]). split; [exact D|exact P].
  - destruct (log_bins_correct lo hi n Hn Hlo Hlt) as (b & -> & D & P & _).
    destruct b as [[e c] w]. eexists. split; [reflexivity|].
    simpl. repeat (split; [reflexivity|]). split; [exact D|exact P].
Qed.

(** Which ranges are refused: negative minimum, no bins, zero minimum for 'log'
    (and, for 'log', a non-positive maximum gives NaN bins). *)
Theorem set_bins_refusals :
  forall s lo hi n, (lo < 0 \/ (n <= 0)%Z) ->
  snd (py_set_bins s lo hi n) = Some InvalidParameter.
Proof.
  intros s lo hi n H. unfold py_set_bins, cpp_set_bins.
  destruct (Rltb lo 0) eqn:E1; [reflexivity|]. apply Rltb_false in E1.
  destruct H as [H|H]; [lra|]. rewrite (proj2 (Z.leb_le n 0) H). reflexivity.
Qed.

(** The upper end is not compared with the lower end: a reversed range is accepted
    and its edges decrease. *)
Theorem set_bins_reversed_range_refuted :
  exists s, py_set_bins (py_new Fourier Lin) 2 1 2 = (s, None) /\
    nth 0 (p_edges s) 0 > nth 1 (p_edges s) 0 /\ nth 1 (p_edges s) 0 > nth 2 (p_edges s) 0.
Proof.
  unfold py_set_bins, cpp_set_bins. simpl.
  destruct (Rltb 2 0) eqn:E1; [apply Rltb_spec in E1; lra|].
  eexists. split; [reflexivity|]. simpl. lra.
Qed.

(** ** C11: padded schemes *)
Lemma pad_app (f : Z -> R) (l : list R) i :
  nth i (map f (arange 0 5) ++ l) 0 = if (i <? 5)%nat then f (Z.of_nat i) else nth (i - 5) l 0.
Proof.
  destruct (i <? 5)%nat eqn:E.
  - apply Nat.ltb_lt in E. rewrite app_nth1 by (rewrite map_length, arange_length; lia).
    rewrite nth_map_arange by lia. f_equal.
  - apply Nat.ltb_ge in E. rewrite app_nth2 by (rewrite map_length, arange_length; lia).
    now rewrite map_length, arange_length.
Qed.

(** Width of the bins after the padding. *)
Theorem linpad_bins_correct :
  forall p hi n, 0 < p -> 5 * p < hi -> (5 < n)%nat ->
  let b := linpad_bins p hi (Z.of_nat n) in
  describes n 0 hi b /\ partitions n 0 hi (fst (fst b)) /\
  (forall i, (i < 5)%nat -> nth i (snd b) 0 = p) /\
  (forall i, (5 <= i < n)%nat -> nth i (snd b) 0 = (hi - 5 * p) / INR (n - 5)).
Proof.
  intros p hi n Hp Hhi Hn b.
  assert (P : 0 < INR (n - 5)) by (apply lt_0_INR; lia).
  assert (IZ : IZR (Z.of_nat n - nbin_pad) = INR (n - 5)).
  { rewrite INR_IZR_INZ. f_equal. unfold nbin_pad. lia. }
  set (d := (hi - 5 * p) / INR (n - 5)).
  assert (Pd : 0 < d) by (apply Rdiv_lt_0_compat; lra).
  assert (Dd : (hi - p * IZR nbin_pad) / IZR (Z.of_nat n - nbin_pad) = d).
  { rewrite IZ. unfold d, nbin_pad. f_equal. ring. }
  assert (L : length (fst (fst b)) = S n /\ length (snd (fst b)) = n /\ length (snd b) = n).
  { unfold b, linpad_bins, pad_bins, irange, nbin_pad. cbn [fst snd].
    rewrite !app_length, !map_length, !arange_length. simpl length. lia. }
  assert (Ee : forall i, (i <= n)%nat -> nth i (fst (fst b)) 0 =
     if (i <? 5)%nat then p * INR i else 5 * p + d * INR (i - 5)).
  { intros i Hi. unfold b, linpad_bins, pad_bins, irange. cbn [fst snd]. rewrite Dd.
    unfold nbin_pad. rewrite pad_app. destruct (i <? 5)%nat eqn:E.
    - now rewrite INR_IZR_INZ.
    - apply Nat.ltb_ge in E. rewrite nth_map_arange_app.
      destruct (i - 5 <? Z.to_nat (Z.of_nat n - 5))%nat eqn:E2.
      + replace (5 + Z.of_nat (i - 5) - 5)%Z with (Z.of_nat (i - 5)) by lia.
        rewrite <- INR_IZR_INZ. ring.
      + apply Nat.ltb_ge in E2. assert (i = n) by lia. subst i.
        replace (n - 5 =? Z.to_nat (Z.of_nat n - 5))%nat with true by (symmetry; apply Nat.eqb_eq; lia).
        unfold d. field. lra. }
  assert (Ec : forall i, (i < n)%nat -> nth i (snd (fst b)) 0 =
     if (i <? 5)%nat then p * INR i + p / 2 else 5 * p + d * INR (i - 5) + d / 2).
  { intros i Hi. unfold b, linpad_bins, pad_bins, irange. cbn [fst snd]. rewrite Dd.
    unfold nbin_pad. rewrite pad_app. destruct (i <? 5)%nat eqn:E.
    - now rewrite INR_IZR_INZ.
    - apply Nat.ltb_ge in E. rewrite nth_map_arange by lia.
      replace (5 + Z.of_nat (i - 5) - 5)%Z with (Z.of_nat (i - 5)) by lia.
      rewrite <- INR_IZR_INZ. ring. }
  assert (Ew : forall i, (i < n)%nat -> nth i (snd b) 0 = if (i <? 5)%nat then p else d).
  { intros i Hi. unfold b, linpad_bins, pad_bins, irange. cbn [fst snd]. rewrite Dd.
    unfold nbin_pad. rewrite pad_app. destruct (i <? 5)%nat eqn:E; [reflexivity|].
    apply Nat.ltb_ge in E. rewrite nth_map_arange by lia. reflexivity. }
  assert (D : describes n 0 hi b).
  { unfold describes. destruct b as [[e c] w]. cbn [fst snd] in *. destruct L as (L1 & L2 & L3).
    assert (ST : forall i, (i < n)%nat -> nth (S i) e 0 - nth i e 0 = if (i <? 5)%nat then p else d).
    { intros i Hi. rewrite !Ee by lia. destruct (i <? 5)%nat eqn:E1, (S i <? 5)%nat eqn:E2.
      - rewrite S_INR. ring.
      - apply Nat.ltb_lt in E1. apply Nat.ltb_ge in E2. assert (i = 4)%nat by lia. subst i. simpl. ring.
      - apply Nat.ltb_ge in E1. apply Nat.ltb_lt in E2. lia.
      - apply Nat.ltb_ge in E1. replace (S i - 5)%nat with (S (i - 5)) by lia. rewrite S_INR. ring. }
    repeat split; auto.
    - rewrite Ee by lia. simpl. ring.
    - rewrite Ee by lia. rewrite (proj2 (Nat.ltb_ge n 5)) by lia. unfold d. field. lra.
    - specialize (ST i H). destruct (i <? 5)%nat; lra.
    - specialize (ST i H). rewrite Ec by exact H.
      assert (Q := Ee i ltac:(lia)). destruct (i <? 5)%nat; lra.
    - rewrite Ew by exact H. specialize (ST i H). lra. }
  split; [exact D|]. split; [now apply describes_partitions|]. split.
  - intros i Hi. rewrite Ew by lia. now rewrite (proj2 (Nat.ltb_lt i 5)) by lia.
  - intros i Hi. rewrite Ew by lia. now rewrite (proj2 (Nat.ltb_ge i 5)) by lia.
Qed.

Theorem logpad_bins_correct :
  forall p hi n, 0 < p -> 5 * p < hi -> (5 < n)%nat ->
  exists b, logpad_bins p hi (Z.of_nat n) = Ok b /\
  describes n 0 hi b /\ partitions n 0 hi (fst (fst b)) /\
  (forall i, (i < 5)%nat -> nth i (snd b) 0 = p) /\
  (forall i, (5 <= i)%nat -> (i + 2 <= n)%nat ->
     nth i (fst (fst b)) 0 * nth (i + 2) (fst (fst b)) 0 = nth (i + 1) (fst (fst b)) 0 ^ 2).
Proof.
  intros p hi n Hp Hhi Hn. unfold logpad_bins. unfold pad_bins at 1.
  destruct (Rleb (p * IZR nbin_pad) 0) eqn:E2; [apply Rleb_spec in E2; unfold nbin_pad in E2; lra|].
  destruct (Rleb hi 0) eqn:E3; [apply Rleb_spec in E3; lra|]. cbn [orb].
  eexists. split; [reflexivity|].
  assert (P : 0 < INR (n - 5)) by (apply lt_0_INR; lia).
  assert (IZ : IZR (Z.of_nat n - nbin_pad) = INR (n - 5)).
  { rewrite INR_IZR_INZ. f_equal. unfold nbin_pad. lia. }
  assert (Pl : ln (5 * p) < ln hi) by (apply ln_increasing; lra).
  set (d := (ln hi - ln (5 * p)) / INR (n - 5)).
  assert (Pd : 0 < d) by (apply Rdiv_lt_0_compat; lra).
  assert (Dd : (ln hi - ln (p * IZR nbin_pad)) / IZR (Z.of_nat n - nbin_pad) = d).
  { rewrite IZ. unfold d, nbin_pad. do 3 f_equal. ring. }
  rewrite Dd. unfold irange. set (b := (_, _, _)).
  assert (L : length (fst (fst b)) = S n /\ length (snd (fst b)) = n /\ length (snd b) = n).
  { unfold b, nbin_pad. cbn [fst snd].
    rewrite !app_length, !map_length, !arange_length. simpl length. lia. }
  set (g := fun k : nat => 5 * p * exp (d * INR k)).
  assert (Ee : forall i, (i <= n)%nat -> nth i (fst (fst b)) 0 =
     if (i <? 5)%nat then p * INR i else g (i - 5)%nat).
  { intros i Hi. unfold b, nbin_pad. cbn [fst snd]. rewrite pad_app. destruct (i <? 5)%nat eqn:E.
    - now rewrite INR_IZR_INZ.
    - apply Nat.ltb_ge in E. rewrite nth_map_arange_app.
      destruct (i - 5 <? Z.to_nat (Z.of_nat n - 5))%nat eqn:E4.
      + replace (5 + Z.of_nat (i - 5) - 5)%Z with (Z.of_nat (i - 5)) by lia.
        rewrite <- INR_IZR_INZ. unfold g. ring.
      + apply Nat.ltb_ge in E4. assert (i = n) by lia. subst i.
        replace (n - 5 =? Z.to_nat (Z.of_nat n - 5))%nat with true by (symmetry; apply Nat.eqb_eq; lia).
        unfold g, d. replace ((ln hi - ln (5 * p)) / INR (n - 5) * INR (n - 5)) with (ln hi + - ln (5 * p)) by (field; lra).
        rewrite exp_plus, exp_Ropp, !exp_ln by lra. field. lra. }
  assert (Ec : forall i, (i < n)%nat -> nth i (snd (fst b)) 0 =
     if (i <? 5)%nat then p * INR i + p / 2 else (g (i - 5)%nat + g (S (i - 5))) / 2).
  { intros i Hi. unfold b, nbin_pad. cbn [fst snd]. rewrite pad_app. destruct (i <? 5)%nat eqn:E.
    - now rewrite INR_IZR_INZ.
    - apply Nat.ltb_ge in E. rewrite nth_map_arange by lia.
      replace (5 + Z.of_nat (i - 5) - 5 + 1)%Z with (Z.of_nat (S (i - 5))) by lia.
      replace (5 + Z.of_nat (i - 5) - 5)%Z with (Z.of_nat (i - 5)) by lia.
      rewrite <- !INR_IZR_INZ. unfold g. f_equal. ring. }
  assert (Ew : forall i, (i < n)%nat -> nth i (snd b) 0 =
     if (i <? 5)%nat then p else g (S (i - 5)) - g (i - 5)%nat).
  { intros i Hi. unfold b, nbin_pad. cbn [fst snd]. rewrite pad_app. destruct (i <? 5)%nat eqn:E; [reflexivity|].
    apply Nat.ltb_ge in E. rewrite nth_map_arange by lia.
    replace (5 + Z.of_nat (i - 5) - 5 + 1)%Z with (Z.of_nat (S (i - 5))) by lia.
    replace (5 + Z.of_nat (i - 5) - 5)%Z with (Z.of_nat (i - 5)) by lia.
    rewrite <- !INR_IZR_INZ. unfold g. ring. }
  assert (G0 : g 0%nat = 5 * p) by (unfold g; simpl; rewrite Rmult_0_r, exp_0; ring).
  assert (GS : forall k, g k < g (S k)).
  { intros k. unfold g. apply Rmult_lt_compat_l; [lra|]. apply exp_lt. rewrite S_INR. nra. }
  assert (D : describes n 0 hi b).
  { unfold describes. clearbody b. destruct b as [[e c] w]. cbn [fst snd] in *. destruct L as (L1 & L2 & L3).
    assert (ST : forall i, (i < n)%nat -> nth (S i) e 0 - nth i e 0 = if (i <? 5)%nat then p else g (S (i - 5)) - g (i - 5)%nat).
    { intros i Hi. rewrite !Ee by lia. destruct (i <? 5)%nat eqn:E1, (S i <? 5)%nat eqn:E4.
      - rewrite S_INR. ring.
      - apply Nat.ltb_lt in E1. apply Nat.ltb_ge in E4. assert (i = 4)%nat by lia. subst i.
        cbn [Nat.sub]. rewrite G0. simpl. ring.
      - apply Nat.ltb_ge in E1. apply Nat.ltb_lt in E4. lia.
      - apply Nat.ltb_ge in E1. replace (S i - 5)%nat with (S (i - 5)) by lia. reflexivity. }
    repeat split; auto.
    - rewrite Ee by lia. simpl. ring.
    - rewrite Ee by lia. rewrite (proj2 (Nat.ltb_ge n 5)) by lia.
      unfold g, d. replace ((ln hi - ln (5 * p)) / INR (n - 5) * INR (n - 5)) with (ln hi + - ln (5 * p)) by (field; lra).
      rewrite exp_plus, exp_Ropp, !exp_ln by lra. field. lra.
    - specialize (ST i H). specialize (GS (i - 5)%nat). destruct (i <? 5)%nat; lra.
    - specialize (ST i H). rewrite Ec by exact H.
      assert (Q := Ee i ltac:(lia)). destruct (i <? 5)%nat; lra.
    - rewrite Ew by exact H. specialize (ST i H). lra. }
  split; [exact D|]. split; [now apply describes_partitions|]. split.
  - intros i Hi. rewrite Ew by lia. now rewrite (proj2 (Nat.ltb_lt i 5)) by lia.
  - intros i Hi1 Hi2. rewrite !Ee by lia. rewrite !(proj2 (Nat.ltb_ge _ 5)) by lia.
    replace (i + 2 - 5)%nat with (i - 5 + 2)%nat by lia. replace (i + 1 - 5)%nat with (i - 5 + 1)%nat by lia.
    unfold g. rewrite !plus_INR. simpl. rewrite !Rmult_plus_distr_l, !exp_plus, Rmult_1_r. ring.
Qed.

(** Parameters that pass validation can still give edges that go down: the
    padding may exceed the requested maximum (here a box of 10 and a maximum of
    1, padding 5 x 0.63). *)
Theorem padded_bins_validated_refuted :
  exists bin_min bin_max num_bins boxmax nmin,
    params_accepted LinPad bin_min bin_max num_bins = true /\ 0 < boxmax /\ (0 < nmin)%Z /\
    exists s, cpp_set_bins0 (cpp_ctor_params Fourier LinPad bin_min bin_max num_bins boxmax nmin) = (s, None) /\
      ~ describes (Z.to_nat num_bins) 0 bin_max (c_edges s, c_centres s, c_widths s).
Proof.
  exists 0, 1, 7%Z, 10, 64%Z. split; [|split; [lra|split; [lia|]]].
  - unfold params_accepted. rewrite (proj2 (Rltb_false 0 0)) by lra.
    rewrite (proj2 (Rleb_false 1 0)) by lra. reflexivity.
  - unfold cpp_set_bins0, compute_bins. simpl c_scheme. simpl c_space. cbn [bind].
    set (p := c_pad_fourier _). assert (Hp : p > 1 / 5).
    { unfold p, cpp_ctor_params. simpl. assert (Q := PI2_1). lra. }
    clearbody p. eexists. split; [reflexivity|].
    unfold linpad_bins, pad_bins, describes, c_edges, c_centres, c_widths, c_max, c_num, cpp_ctor_params.
    intros (_ & _ & _ & _ & _ & H). destruct (H 6%nat ltac:(simpl; lia)) as (H6 & _). clear H.
    unfold irange, nbin_pad in H6. rewrite !pad_app in H6. cbn [Nat.ltb Nat.leb Nat.sub] in H6.
    rewrite !nth_map_arange_app in H6. simpl in H6. lra.
Qed.

(** Called directly (no validation), the padded schemes give six edges for any
    number of bins up to five. *)
Theorem padded_bins_count_refuted :
  forall n, (0 < n <= 5)%Z -> forall sp hi, sp <> OtherSpace ->
  exists s, py_set_bins (py_new sp LinPad) 0 hi n = (s, None) /\ length (p_edges s) = 6%nat.
Proof.
  intros n Hn sp hi Hsp. unfold py_set_bins, cpp_set_bins. simpl.
  rewrite (proj2 (Rltb_false 0 0)) by lra. rewrite (proj2 (Z.leb_gt n 0)) by lia.
  unfold cpp_set_bins0, compute_bins, cpp_ctor. cbn [c_scheme c_space c_max c_num].
  destruct sp; [| |contradiction]; cbn [bind]; unfold linpad_bins, pad_bins;
    (eexists; split; [reflexivity|]); cbn [p_edges c_edges];
    rewrite !app_length, !map_length; unfold irange; rewrite !arange_length; unfold nbin_pad; simpl length; lia.
Qed.

(** ** C12: grid-based bins.  What the code produces, for an even grid number. *)
Theorem grid_bins_width :
  forall s L N, (1 <= N)%Z -> 0 < L -> c_space (p_cpp s) = Config \/ c_space (p_cpp s) = Fourier ->
  exists s', py_set_grid_bins s L (2 * N) = (s', None) /\
    p_min s' = Some 0 /\ p_num s' = Some N /\
    let w := match c_space (p_cpp s) with Config => L / IZR (2 * N) | _ => 2 * PI / L end in
    let hi := match c_space (p_cpp s) with Config => L / 2 | _ => PI * IZR (2 * N) / L end in
    p_max s' = Some (hi + w / 2) /\
    describes (Z.to_nat N) 0 (hi + w / 2) (p_edges s', p_centres s', p_widths s') /\
    forall i, (i < Z.to_nat N)%nat -> nth i (p_widths s') 0 = w * (1 + / IZR (2 * N)).
Proof.
  intros s L N HN HL Hsp.
  set (w := match c_space (p_cpp s) with Config => L / IZR (2 * N) | _ => 2 * PI / L end).
  set (hi := match c_space (p_cpp s) with Config => L / 2 | _ => PI * IZR (2 * N) / L end).
  assert (PN : 0 < IZR N) by (apply IZR_lt; lia).
  assert (EN : IZR (2 * N) = 2 * IZR N) by (rewrite mult_IZR; ring).
  assert (PP := PI_RGT_0).
  assert (Hw : 0 < w) by (unfold w; destruct Hsp as [-> | ->]; apply Rdiv_lt_0_compat; lra).
  assert (Hh : hi = IZR N * w).
  { unfold hi, w. destruct Hsp as [-> | ->]; rewrite EN; field; lra. }
  assert (Hpos : 0 < hi) by (rewrite Hh; now apply Rmult_lt_0_compat).
  unfold py_set_grid_bins, cpp_set_grid_bins.
  assert (Eq : Z.quot (2 * N) 2 = N) by (rewrite Z.mul_comm; apply Z.quot_mul; lia).
  rewrite Eq. unfold cpp_set_bins0, compute_bins. cbn [c_scheme c_min c_max c_num c_space].
  match goal with |- context [lin_bins 0 ?x N] => replace x with (hi + w / 2) end.
  2: { unfold hi, w. destruct Hsp as [-> | ->]; reflexivity. }
  destruct (lin_bins_correct 0 (hi + w / 2) (Z.to_nat N) ltac:(lia) ltac:(lra)) as (D & _ & W).
  rewrite Z2Nat.id in D, W by lia.
  destruct (lin_bins 0 (hi + w / 2) N) as [[e c] wd]. cbn [snd] in W.
  eexists. split; [reflexivity|]. cbn [p_min p_max p_num p_edges p_centres p_widths c_min c_max c_num c_edges c_centres c_widths]. split; [reflexivity|]. split; [reflexivity|].
  split; [reflexivity|].
  split; [exact D|].
  intros i Hi. rewrite W by exact Hi. rewrite Hh, INR_IZR_INZ, Z2Nat.id by lia. rewrite EN. field. lra.
Qed.

(** The documentation says the width is [w] and the maximum is [hi]; both fail
    for every even grid number. *)
Theorem grid_bins_documented_refuted :
  forall L N, (1 <= N)%Z -> 0 < L ->
  exists s', py_set_grid_bins (py_new Config Lin) L (2 * N) = (s', None) /\
    p_max s' <> Some (L / 2) /\
    forall i, (i < Z.to_nat N)%nat -> nth i (p_widths s') 0 <> L / IZR (2 * N).
Proof.
  intros L N HN HL.
  destruct (grid_bins_width (py_new Config Lin) L N HN HL (or_introl eq_refl))
    as (s' & E & _ & _ & Hm & _ & W). cbn [py_new p_cpp cpp_ctor c_space] in Hm, W.
  assert (PN : 0 < IZR (2 * N)) by (apply IZR_lt; lia).
  assert (Pw : 0 < L / IZR (2 * N)) by (apply Rdiv_lt_0_compat; lra).
  assert (Pi := Rinv_0_lt_compat _ PN).
  exists s'. split; [exact E|]. split.
  - rewrite Hm. intros C. apply (f_equal (fun o => match o with Some x => x | None => 0 end)) in C. cbv beta iota zeta in C. lra.
  - intros i Hi. rewrite W by exact Hi. assert (Q := Rmult_lt_0_compat _ _ Pw Pi). intros C. lra.
Qed.

(** ** C13: histories of calls *)

(** The attributes a user sees equal the ones the measurement code uses. *)
Definition in_sync (s : py_binning) : Prop :=
  p_min s = Some (c_min (p_cpp s)) /\ p_max s = Some (c_max (p_cpp s)) /\ p_num s = Some (c_num (p_cpp s)) /\
  p_edges s = c_edges (p_cpp s) /\ p_centres s = c_centres (p_cpp s) /\ p_widths s = c_widths (p_cpp s) /\
  p_scheme s = c_scheme (p_cpp s).

Lemma cpp_set_bins0_keeps b : c_scheme (fst (cpp_set_bins0 b)) = c_scheme b /\
  c_min (fst (cpp_set_bins0 b)) = c_min b /\ c_max (fst (cpp_set_bins0 b)) = c_max b /\
  c_num (fst (cpp_set_bins0 b)) = c_num b.
Proof. unfold cpp_set_bins0. destruct (compute_bins b) as [[[e c] w]|x]; simpl; auto. Qed.

(** Invariant of every history: both sides name the same scheme. *)
Definition schemes_agree (s : py_binning) : Prop := p_scheme s = c_scheme (p_cpp s).

Lemma grid_call_ok s L N : snd (py_set_grid_bins s L N) = None.
Proof.
  unfold py_set_grid_bins, cpp_set_grid_bins, cpp_set_bins0, compute_bins. simpl. reflexivity.
Qed.

Lemma do_call_schemes s c : schemes_agree s -> schemes_agree (fst (do_call s c)).
Proof.
  unfold schemes_agree. intros H. destruct c as [a b n|L N|e]; simpl.
  - unfold py_set_bins, cpp_set_bins.
    destruct (Rltb a 0); [exact H|]. destruct (n <=? 0)%Z; [exact H|].
    set (b0 := mkCpp _ _ _ _ _ _ _ _ _ _).
    assert (K := proj1 (cpp_set_bins0_keeps b0)).
    destruct (cpp_set_bins0 b0) as [c [x|]]; simpl in *; rewrite K; exact H.
  - unfold py_set_grid_bins, cpp_set_grid_bins, cpp_set_bins0, compute_bins. reflexivity.
  - destruct e as [|e0 e]; [exact H|reflexivity].
Qed.

Lemma run_schemes cs : forall s, schemes_agree s -> schemes_agree (run s cs).
Proof.
  induction cs as [|c cs IH]; intros s H; [exact H|]. apply IH. now apply do_call_schemes.
Qed.

Lemma do_call_sync s c : schemes_agree s -> snd (do_call s c) = None -> in_sync (fst (do_call s c)).
Proof.
  intros A H. unfold in_sync. destruct c as [a b n|L N|e]; simpl in *.
  - unfold py_set_bins, cpp_set_bins in *.
    destruct (Rltb a 0); [discriminate|]. destruct (n <=? 0)%Z; [discriminate|].
    set (b0 := mkCpp _ _ _ _ _ _ _ _ _ _) in *.
    destruct (cpp_set_bins0_keeps b0) as (K0 & K1 & K2 & K3).
    destruct (cpp_set_bins0 b0) as [c [x|]]; simpl in *; [discriminate|].
    rewrite K0, K1, K2, K3. repeat split. exact A.
  - unfold py_set_grid_bins, cpp_set_grid_bins, cpp_set_bins0, compute_bins in *. repeat split.
  - destruct e as [|e0 e]; [discriminate|]. repeat split.
Qed.

(** After any history, a call that returns normally leaves the Python-visible
    attributes equal to the ones the measurement code uses. *)
Theorem binning_success_in_sync :
  forall sp sc history c, let s := run (py_new sp sc) history in
  snd (do_call s c) = None -> in_sync (fst (do_call s c)).
Proof.
  intros sp sc history c s H. apply do_call_sync; [|exact H].
  apply run_schemes. reflexivity.
Qed.

(** Python-visible edges, centres and widths always are those of the last successful
    call: a failing call never changes them. *)
Theorem binning_failure_keeps_visible_bins :
  forall s c x, snd (do_call s c) = Some x ->
  let s' := fst (do_call s c) in
  p_edges s' = p_edges s /\ p_centres s' = p_centres s /\ p_widths s' = p_widths s /\
  p_scheme s' = p_scheme s.
Proof.
  intros s c x H. destruct c as [a b n|L N|e]; simpl in *.
  - unfold py_set_bins in *. destruct (cpp_set_bins (p_cpp s) a b n) as [c [y|]]; simpl in *; [auto|discriminate].
  - discriminate.
  - destruct e; [auto|discriminate].
Qed.

(** The stated property fails: the range and the bin count seen by the user change
    although the call was refused ... *)
Theorem binning_failure_atomic_refuted :
  exists s lo hi n x, in_sync s /\ snd (py_set_bins s lo hi n) = Some x /\
    p_num (fst (py_set_bins s lo hi n)) <> p_num s /\
    p_num (fst (py_set_bins s lo hi n)) <> Some (c_num (p_cpp (fst (py_set_bins s lo hi n)))).
Proof.
  exists (fst (py_set_bins (py_new Fourier Lin) 0 1 4)), 0, 1, (-3)%Z, InvalidParameter.
  assert (E : snd (py_set_bins (py_new Fourier Lin) 0 1 4) = None).
  { unfold py_set_bins, cpp_set_bins. rewrite (proj2 (Rltb_false 0 0)) by lra. reflexivity. }
  assert (K := do_call_sync (py_new Fourier Lin) (CallSet 0 1 4) eq_refl E). simpl do_call in K.
  set (s := fst (py_set_bins (py_new Fourier Lin) 0 1 4)) in *.
  assert (Ns : p_num s = Some 4%Z).
  { unfold s, py_set_bins, cpp_set_bins. rewrite (proj2 (Rltb_false 0 0)) by lra. reflexivity. }
  assert (Cs : c_num (p_cpp s) = 4%Z) by (destruct K as (_ & _ & K & _); congruence).
  split; [exact K|]. unfold py_set_bins, cpp_set_bins. rewrite (proj2 (Rltb_false 0 0)) by lra.
  simpl. split; [reflexivity|]. rewrite Ns, Cs. split; discriminate.
Qed.

(** ... and a refusal inside the bin computation leaves the measurement code
    with no bins at all, while the user still sees the old ones. *)
Theorem binning_failure_loses_bins_refuted :
  exists s x, in_sync s /\ length (p_edges s) = 5%nat /\ snd (py_set_bins s 0 1 4) = Some x /\
    length (p_edges (fst (py_set_bins s 0 1 4))) = 5%nat /\
    c_edges (p_cpp (fst (py_set_bins s 0 1 4))) = [] /\
    c_num (p_cpp (fst (py_set_bins s 0 1 4))) = 4%Z.
Proof.
  destruct (set_bins_lin_log Fourier Log 1 2 4) as (s & E & _ & _ & Hn & D & _).
  { right; split; [reflexivity|lra]. } { lra. } { lia. }
  change (Z.of_nat 4) with 4%Z in E.
  assert (K := do_call_sync (py_new Fourier Log) (CallSet 1 2 4) eq_refl).
  simpl do_call in K. rewrite E in K. specialize (K eq_refl). simpl fst in K.
  exists s, InvalidParameter. split; [exact K|].
  assert (L : length (p_edges s) = 5%nat) by apply D. split; [exact L|].
  assert (Sc : c_scheme (p_cpp s) = Log).
  { destruct K as (_ & _ & _ & _ & _ & _ & K). rewrite <- K.
    unfold py_set_bins in E. destruct (cpp_set_bins _ _ _ _) as [c [y|]]; [discriminate|]. injection E as <-. reflexivity. }
  unfold py_set_bins, cpp_set_bins. rewrite (proj2 (Rltb_false 0 0)) by lra.
  unfold cpp_set_bins0, compute_bins. simpl. rewrite Sc. unfold log_bins.
  rewrite (proj2 (Reqb_spec 0 0)) by reflexivity. simpl. auto.
Qed.

(** Once custom edges are set, [set_bins] is refused from then on (the scheme
    is 'custom'), until a grid-based call. *)
Theorem custom_blocks_set_bins :
  forall s e0 e lo hi n, snd (py_set_bins (fst (py_set_custom_bins s (e0 :: e))) lo hi n) = Some InvalidParameter.
Proof.
  intros. unfold py_set_bins, cpp_set_bins. simpl.
  destruct (Rltb lo 0); [reflexivity|]. destruct (n <=? 0)%Z; reflexivity.
Qed.

(** Custom edges in ascending order describe their bins. *)
Lemma midpoints_nth e i : (S i < length e)%nat -> nth i (midpoints e) 0 = (nth i e 0 + nth (S i) e 0) / 2.
Proof.
  revert i. induction e as [|x [|y e] IH]; intros i H; simpl in H; try lia.
  destruct i as [|i]; [reflexivity|]. apply (IH i). simpl. lia.
Qed.
Lemma diffs_nth e i : (S i < length e)%nat -> nth i (diffs e) 0 = nth (S i) e 0 - nth i e 0.
Proof.
  revert i. induction e as [|x [|y e] IH]; intros i H; simpl in H; try lia.
  destruct i as [|i]; [reflexivity|]. apply (IH i). simpl. lia.
Qed.
Lemma midpoints_length e : length (midpoints e) = (length e - 1)%nat.
Proof. induction e as [|x [|y e] IH]; [reflexivity|reflexivity|]. simpl in *. lia. Qed.
Lemma diffs_length e : length (diffs e) = (length e - 1)%nat.
Proof. induction e as [|x [|y e] IH]; [reflexivity|reflexivity|]. simpl in *. lia. Qed.

Theorem custom_bins_correct :
  forall s edges n, length edges = S n ->
  (forall i, (i < n)%nat -> nth i edges 0 < nth (S i) edges 0) ->
  exists s', py_set_custom_bins s edges = (s', None) /\ in_sync s' /\ p_edges s' = edges /\
    p_num s' = Some (Z.of_nat n) /\
    describes n (nth 0 edges 0) (nth n edges 0) (p_edges s', p_centres s', p_widths s').
Proof.
  intros s edges n L M. destruct edges as [|e0 e]; [discriminate|].
  unfold py_set_custom_bins. eexists. split; [reflexivity|].
  split; [repeat split|]. cbn [p_edges p_num p_centres p_widths]. split; [reflexivity|].
  split; [f_equal; rewrite L; lia|].
  repeat split; auto.
  - rewrite midpoints_length, L. lia.
  - rewrite diffs_length, L. lia.
  - apply midpoints_nth. rewrite L. lia.
  - apply diffs_nth. rewrite L. lia.
Qed.

(** ** Concrete cases *)
Example set_bins_lin_case :
  exists s, py_set_bins (py_new Fourier Lin) 0 1 4 = (s, None) /\ nth 1 (p_edges s) 0 = 1 / 4.
Proof.
  destruct (set_bins_lin_log Fourier Lin 0 1 4) as (s & E & _); [left; split; [reflexivity|lra]|lra|lia|].
  exists s. split; [exact E|]. change (Z.of_nat 4) with 4%Z in E.
  unfold py_set_bins, cpp_set_bins in E. rewrite (proj2 (Rltb_false 0 0)) in E by lra.
  injection E as <-. simpl. field.
Qed.
Example set_bins_log_case :
  exists s, py_set_bins (py_new Config Log) 1 8 3 = (s, None) /\ nth 3 (p_edges s) 0 = 8.
Proof.
  destruct (set_bins_lin_log Config Log 1 8 3) as (s & E & _ & _ & _ & D & _); [right; split; [reflexivity|lra]|lra|lia|].
  exists s. split; [exact E|]. apply D.
Qed.
Example linpad_case : nth 6 (fst (fst (linpad_bins 10 110 (Z.of_nat 8)))) 0 = 70.
Proof. unfold linpad_bins, pad_bins, irange, nbin_pad. cbn [fst]. rewrite pad_app. simpl. field. Qed.
Example linpad_case_hyps : describes 8 0 110 (linpad_bins 10 110 (Z.of_nat 8)).
Proof. apply linpad_bins_correct; lra || lia. Qed.
Example logpad_case : exists b, logpad_bins 10 400 (Z.of_nat 8) = Ok b /\ describes 8 0 400 b.
Proof. destruct (logpad_bins_correct 10 400 8) as (b & E & D & _); [lra|lra|lia|]. eauto. Qed.
Example grid_bins_case :
  exists s', py_set_grid_bins (py_new Config Lin) 100 10 = (s', None) /\ nth 0 (p_widths s') 0 = 11.
Proof.
  destruct (grid_bins_width (py_new Config Lin) 100 5 ltac:(lia) ltac:(lra) (or_introl eq_refl))
    as (s' & E & _ & _ & _ & _ & W). exists s'. split; [exact E|].
  rewrite W by lia. simpl. field.
Qed.
Example sync_case :
  snd (do_call (run (py_new Fourier Log) [CallSet 0 1 3; CallCustom [1; 2; 4]]) (CallGrid 100 10)) = None.
Proof. apply grid_call_ok. Qed.
Example custom_case : exists s', py_set_custom_bins (py_new Fourier Lin) [1; 2; 4] = (s', None) /\ in_sync s' /\
   describes 2 1 4 (p_edges s', p_centres s', p_widths s').
Proof.
  destruct (custom_bins_correct (py_new Fourier Lin) [1; 2; 4] 2) as (s' & E & I & _ & _ & D); [reflexivity| |].
  - intros i Hi. destruct i as [|[|i]]; simpl; lra || lia.
  - exists s'. auto.
Qed.

Print Assumptions set_bins_lin_log.
Print Assumptions logpad_bins_correct.
Print Assumptions linpad_bins_correct.
Print Assumptions grid_bins_width.
Print Assumptions binning_success_in_sync.
Print Assumptions padded_bins_validated_refuted.
Print Assumptions custom_bins_correct.
