(* Bins made with rounded arithmetic (C126). *)
From Coq Require Import Reals ZArith List Lia Lra Psatz Bool.
From Flocq Require Import Core Relative.
From Verif Require Import Base ArrayModel ArrayProofs BinningModel ResampleModel ResampleProps BinRoundModel.
Import ListNotations.
Local Open Scope R_scope.

(* ------------------------------------------------------------------ *)
(* Vocabulary                                                          *)

#[local] Existing Instance prec53.
#[local] Existing Instance validflx.

Definition edges (b : bins) : list R := fst (fst b).
Definition centres (b : bins) : list R := snd (fst b).
Definition widths (b : bins) : list R := snd b.

(** Bin [i] of the edges [e] holds [c], as measurements test it. *)
Definition holds (e : list R) (c : R) (i : nat) : Prop := (i + 1 < length e)%nat /\ nth i e 0 <= c < nth (i + 1) e 0.

(** Every coordinate from [lo] up to [hi] is in one bin only, and no other
    coordinate is in any. *)
Definition covers_once (e : list R) (lo hi : R) : Prop :=
  (forall c, lo <= c < hi -> exists! i, holds e c i) /\ (forall c i, holds e c i -> lo <= c < hi).

(** As many bins as asked for, from [lo] to [hi]. *)
Definition bins_between (b : bins) (n : Z) (lo hi : R) : Prop :=
  Z.of_nat (length (edges b)) = (n + 1)%Z /\ Z.of_nat (length (centres b)) = n /\ Z.of_nat (length (widths b)) = n /\
  first (edges b) = lo /\ final (edges b) = hi /\ not_falling (edges b).

(* ------------------------------------------------------------------ *)
(* Edges in order                                                      *)

Lemma in_order_covers e : (2 <= length e)%nat -> not_falling e -> covers_once e (first e) (final e).
Proof.
  intros L NF. assert (LE : forall i j, (i <= j < length e)%nat -> nth i e 0 <= nth j e 0).
  { intros i j H. destruct (Nat.eq_dec i j) as [->|]; [lra|apply NF; lia]. }
  split.
  - intros c [C0 C1]. unfold first, final in *.
    assert (K : forall k, (k < length e)%nat -> c < nth k e 0 -> exists i, (i + 1 <= k)%nat /\ nth i e 0 <= c < nth (i + 1) e 0).
    { induction k as [|k IH]; intros Hk Ck; [lra|]. destruct (Rlt_le_dec c (nth k e 0)) as [X|X].
      - destruct IH as (i & Hi & B); [lia|exact X|]. exists i. split; [lia|exact B].
      - exists k. split; [lia|]. rewrite Nat.add_1_r. auto. }
    destruct (K (length e - 1)%nat ltac:(lia) C1) as (i & Hi & B). exists i. split; [split; [lia|exact B]|].
    intros j [Hj Bj]. destruct (Nat.lt_trichotomy i j) as [X|[X|X]]; [|exact X|].
    + pose proof (LE (i + 1)%nat j ltac:(lia)). lra.
    + pose proof (LE (j + 1)%nat i ltac:(lia)). lra.
  - intros c i [Hi B]. unfold first, final. pose proof (LE 0%nat i ltac:(lia)). pose proof (LE (i + 1)%nat (length e - 1)%nat ltac:(lia)). lra.
Qed.

Theorem bins_cover b n lo hi : bins_between b n lo hi -> (1 <= n)%Z -> covers_once (edges b) lo hi.
Proof. intros (L & _ & _ & <- & <- & NF) N. apply in_order_covers; [lia|exact NF]. Qed.

Lemma over_length n {A} (f : Z -> A) : (0 <= n)%Z -> Z.of_nat (length (over n f)) = n.
Proof. intros. unfold over. rewrite map_length, seq_length. lia. Qed.

Lemma over_nth n (f : Z -> R) i : (Z.of_nat i < n)%Z -> nth i (over n f) 0 = f (Z.of_nat i).
Proof.
  intros H. unfold over. set (g := fun i => f (Z.of_nat i)). rewrite (nth_indep _ 0 (g 0%nat)) by (rewrite map_length, seq_length; lia).
  rewrite map_nth, seq_nth by lia. reflexivity.
Qed.

(** Edges made by a function that does not fall, closed by [hi]. *)
Lemma closed_edges n (f : Z -> R) hi : (1 <= n)%Z -> (forall i j, (0 <= i <= j)%Z -> (j < n)%Z -> f i <= f j) -> f (n - 1)%Z <= hi ->
  Z.of_nat (length (over n f ++ [hi])) = (n + 1)%Z /\ first (over n f ++ [hi]) = f 0%Z /\ final (over n f ++ [hi]) = hi /\
  not_falling (over n f ++ [hi]).
Proof.
  intros N M H. assert (L := over_length n f ltac:(lia)).
  assert (LL : Z.of_nat (length (over n f ++ [hi])) = (n + 1)%Z) by (rewrite app_length; cbn [length]; lia).
  split; [exact LL|]. split; [|split].
  - unfold first. rewrite app_nth1 by lia. now rewrite over_nth by lia.
  - unfold final. rewrite app_length. cbn [length]. rewrite app_nth2 by lia. now replace (length (over n f) + 1 - 1 - length (over n f))%nat with 0%nat by lia.
  - intros i j [Hij Hj]. rewrite app_nth1 by lia. rewrite over_nth by lia. destruct (Z.lt_ge_cases (Z.of_nat j) n) as [X|X].
    + rewrite app_nth1 by lia. rewrite over_nth by lia. apply M; lia.
    + rewrite app_nth2 by lia. replace (j - length (over n f))%nat with 0%nat by lia. cbn [nth].
      apply Rle_trans with (f (n - 1)%Z); [apply M; lia|exact H].
Qed.

(* ------------------------------------------------------------------ *)
(* Linear bins                                                         *)

Lemma lin_last lo hi n : float hi -> lo <= hi -> (1 <= n <= 2 ^ 50)%Z -> forall i, (0 <= i < n)%Z ->
  let dbin := fl (fl (hi - lo) / IZR n) in
  0 <= dbin /\ 0 <= fl (dbin * IZR i) <= hi - lo.
Proof.
  intros FH LH N i Hi dbin. assert (P : 1 <= IZR n <= 1125899906842624) by (split; apply IZR_le; lia).
  pose proof (fl_up (hi - lo) ltac:(lra)) as [D0 D1]. set (D := fl (hi - lo)) in *.
  assert (DD : 0 <= D / IZR n) by (apply Rmult_le_pos; [lra|apply Rlt_le, Rinv_0_lt_compat; lra]).
  pose proof (fl_up _ DD) as [S0 S1]. fold dbin in S0, S1. split; [exact S0|].
  assert (I0 : 0 <= IZR i) by (apply IZR_le; lia).
  assert (I1 : IZR i <= IZR n - 1) by (rewrite <- minus_IZR; apply IZR_le; lia).
  assert (IS : 0 <= dbin * IZR i) by (apply Rmult_le_pos; lra). pose proof (fl_up _ IS) as [Q0 Q1]. split; [exact Q0|].
  pose proof (thin _ P) as T. set (d := IZR n) in *. set (c := 1 + uu) in *. assert (C0 : 0 < c) by (unfold c; rewrite uu_val; lra).
  apply Rle_trans with (1 := Q1).
  apply Rle_trans with (dbin * (d - 1) * c); [apply Rmult_le_compat_r; [lra|]; apply Rmult_le_compat_l; lra|].
  apply Rle_trans with ((D / d * c) * (d - 1) * c); [apply Rmult_le_compat_r; [lra|]; apply Rmult_le_compat_r; lra|].
  apply Rle_trans with (((hi - lo) * c / d * c) * (d - 1) * c).
  { apply Rmult_le_compat_r; [lra|]. apply Rmult_le_compat_r; [lra|]. apply Rmult_le_compat_r; [lra|].
    apply Rmult_le_compat_r; [apply Rlt_le, Rinv_0_lt_compat; lra|lra]. }
  replace (((hi - lo) * c / d * c) * (d - 1) * c) with ((hi - lo) * (((d - 1) * (c * c * c)) / d)) by (field; lra).
  rewrite <- (Rmult_1_r (hi - lo)) at 2. apply Rmult_le_compat_l; [lra|].
  apply Rmult_le_reg_r with d; [lra|]. replace ((d - 1) * (c * c * c) / d * d) with ((d - 1) * (c * c * c)) by (field; lra). lra.
Qed.

(** C126 for linear bins. *)
Theorem lin_rounded lo hi n : float lo -> float hi -> lo <= hi -> (1 <= n <= 2 ^ 50)%Z -> bins_between (lin_bins_fl lo hi n) n lo hi.
Proof.
  intros FL FH LH N. unfold bins_between, lin_bins_fl. cbv zeta. cbn [edges centres widths fst snd].
  set (dbin := fl (fl (hi - lo) / IZR n)). set (f := fun i => fl (lo + fl (dbin * IZR i))).
  pose proof (lin_last lo hi n FH LH N) as K. cbv zeta in K. fold dbin in K.
  destruct (closed_edges n f hi) as (L & F0 & F1 & NF); [lia| | |].
  - intros i j H Hj. unfold f. apply fl_le. apply Rplus_le_compat_l, fl_le. apply Rmult_le_compat_l; [now destruct (K 0%Z ltac:(lia))|]. apply IZR_le. lia.
  - unfold f. apply Rle_trans with (fl hi); [|rewrite (fl_id hi FH); lra]. apply fl_le. destruct (K (n - 1)%Z ltac:(lia)). lra.
  - split; [exact L|]. rewrite !over_length by lia. do 2 (split; [reflexivity|]). split; [|split; [exact F1|exact NF]].
    rewrite F0. unfold f. rewrite Rmult_0_r, (fl_id 0 float_0), Rplus_0_r. now apply fl_id.
Qed.

Lemma fl_err x : Rabs (fl x - x) <= uu * Rabs x.
Proof.
  pose proof (relative_error_N_FLX radix2 53 eq_refl (fun z => negb (Z.even z)) x) as E.
  assert (U : / 2 * bpow radix2 (- (53) + 1) = uu).
  { rewrite uu_val. replace (bpow radix2 (- (53) + 1)) with (/ 4503599627370496) by reflexivity. lra. }
  rewrite U in E. exact E.
Qed.

Lemma near_fl x M : 0 <= x <= M -> x - uu * M <= fl x <= x + uu * M.
Proof.
  intros [H0 H1]. pose proof (fl_err x) as E. rewrite (Rabs_pos_eq x H0) in E. apply Rabs_le_inv in E.
  assert (0 < uu) by (rewrite uu_val; lra). assert (uu * x <= uu * M) by (apply Rmult_le_compat_l; lra). lra.
Qed.

(** Where the bins are not narrower than the numbers are apart: edges
    increase, every bin holds its centre, and its width is the difference of
    its edges up to rounding. *)
Theorem lin_rounded_resolved lo hi n : float lo -> float hi -> 0 <= lo -> (1 <= n <= 2 ^ 50)%Z ->
  32 * uu * hi * IZR n <= hi - lo -> lo < hi ->
  let b := lin_bins_fl lo hi n in increasing (edges b) /\
  (forall i, (Z.of_nat i < n)%Z -> holds (edges b) (nth i (centres b) 0) i) /\
  (forall i, (Z.of_nat i < n)%Z -> Rabs (nth i (centres b) 0 - (nth i (edges b) 0 + nth (i + 1) (edges b) 0) / 2) <= 16 * uu * hi) /\
  (forall i, (Z.of_nat i < n)%Z -> Rabs (nth i (widths b) 0 - (nth (i + 1) (edges b) 0 - nth i (edges b) 0)) <= 16 * uu * hi).
Proof.
  intros FL FH L0 N RES LH b. destruct (lin_rounded lo hi n FL FH ltac:(lra) N) as (LE & LC & LW & _).
  fold b in LE, LC, LW. unfold lin_bins_fl in b. cbv zeta in b.
  set (dbin := fl (fl (hi - lo) / IZR n)) in *. set (f := fun i => fl (lo + fl (dbin * IZR i))) in *.
  change (edges b) with (over n f ++ [hi]) in *. change (centres b) with (over n (fun i => fl (f i + fl (dbin / 2)))) in *.
  change (widths b) with (over n (fun _ => dbin)) in *.
  assert (U : 0 < uu < / 1000000) by (rewrite uu_val; split; [apply Rinv_0_lt_compat; lra|apply Rinv_lt_contravar; lra]).
  assert (P : 1 <= IZR n) by (apply IZR_le; lia). set (d := IZR n) in *. set (dl := (hi - lo) / d).
  assert (DL : dl * d = hi - lo) by (unfold dl; field; lra).
  assert (UM : 0 < uu * hi) by (apply Rmult_lt_0_compat; lra).
  assert (RD : 32 * (uu * hi) <= dl). { apply Rmult_le_reg_r with d; [lra|]. rewrite DL. lra. }
  (* the step *)
  pose proof (near_fl (hi - lo) (hi - lo) ltac:(lra)) as E1. set (D := fl (hi - lo)) in *.
  assert (E2 : dl * (1 - uu) <= D / d <= dl * (1 + uu)).
  { unfold dl, Rdiv. assert (0 < / d) by (apply Rinv_0_lt_compat; lra).
    split; [replace ((hi - lo) * / d * (1 - uu)) with ((hi - lo - uu * (hi - lo)) * / d) by ring|
            replace ((hi - lo) * / d * (1 + uu)) with ((hi - lo + uu * (hi - lo)) * / d) by ring]; apply Rmult_le_compat_r; lra. }
  assert (DP : 0 < dl) by lra.
  assert (E3 : dl * (1 - 3 * uu) <= dbin <= dl * (1 + 3 * uu)).
  { assert (0 <= D / d) by nra. pose proof (near_fl (D / d) (D / d) ltac:(lra)) as E. fold dbin in E.
    assert (uu * (D / d) <= uu * (dl * (1 + uu))) by (apply Rmult_le_compat_l; lra).
    assert (uu * (dl * (1 + uu)) <= uu * (2 * dl)) by (apply Rmult_le_compat_l; nra). lra. }
  assert (DM : dl <= hi). { assert (dl * 1 <= dl * d) by (apply Rmult_le_compat_l; lra). lra. }
  (* an edge is where it should be, up to a few roundings *)
  assert (ED : forall i, (0 <= i < n)%Z -> lo + dl * IZR i - 6 * (uu * hi) <= f i <= lo + dl * IZR i + 6 * (uu * hi) /\ 0 <= IZR i /\ dl * IZR i <= hi - lo - dl).
  { intros i Hi. assert (I0 : 0 <= IZR i) by (apply IZR_le; lia).
    assert (I1 : IZR i <= d - 1) by (unfold d; rewrite <- minus_IZR; apply IZR_le; lia).
    assert (T : dl * IZR i <= hi - lo - dl) by nra. set (t := dl * IZR i) in *.
    assert (T0 : 0 <= t) by (apply Rmult_le_pos; lra).
    assert (A : t * (1 - 3 * uu) <= dbin * IZR i <= t * (1 + 3 * uu)).
    { unfold t. split; [replace (dl * IZR i * (1 - 3 * uu)) with (dl * (1 - 3 * uu) * IZR i) by ring|
                        replace (dl * IZR i * (1 + 3 * uu)) with (dl * (1 + 3 * uu) * IZR i) by ring]; apply Rmult_le_compat_r; lra. }
    assert (TM : uu * t <= uu * (hi - lo)) by (apply Rmult_le_compat_l; lra).
    assert (A0 : 0 <= dbin * IZR i) by (apply Rmult_le_pos; nra).
    pose proof (near_fl (dbin * IZR i) (dbin * IZR i) ltac:(lra)) as B. set (q := fl (dbin * IZR i)) in *.
    assert (uu * (dbin * IZR i) <= uu * (2 * t)) by (apply Rmult_le_compat_l; nra).
    assert (Q : t - 5 * (uu * t) <= q <= t + 5 * (uu * t)) by nra.
    assert (UL : 0 <= uu * lo) by (apply Rmult_le_pos; lra).
    pose proof (lin_last lo hi n FH ltac:(lra) N i Hi) as [_ [Q0 Q1]]. fold D d dbin q in Q0, Q1.
    pose proof (near_fl (lo + q) hi ltac:(lra)) as Z. change (fl (lo + q)) with (f i) in Z. split; [|split; assumption].
    assert (uu * (hi - lo) = uu * hi - uu * lo) by ring. lra. }
  assert (STEP : forall i, (0 <= i < n)%Z -> let r := if (i + 1 <? n)%Z then f (i + 1)%Z else hi in
     dl - 12 * (uu * hi) <= r - f i <= dl + 12 * (uu * hi)).
  { intros i Hi r. destruct (ED i Hi) as (E & _ & _). unfold r. destruct (Z.ltb_spec (i + 1) n) as [X|X].
    - destruct (ED (i + 1)%Z ltac:(lia)) as (E' & _ & _). rewrite plus_IZR in E'. lra.
    - assert (I : IZR i = d - 1) by (unfold d; rewrite <- minus_IZR; f_equal; lia). rewrite I in E. lra. }
  assert (NTH : forall i, (Z.of_nat i < n)%Z -> nth i (over n f ++ [hi]) 0 = f (Z.of_nat i) /\
     nth (i + 1) (over n f ++ [hi]) 0 = if (Z.of_nat i + 1 <? n)%Z then f (Z.of_nat i + 1)%Z else hi).
  { intros i Hi. pose proof (over_length n f ltac:(lia)) as L. split; [rewrite app_nth1 by lia; now apply over_nth|].
    destruct (Z.ltb_spec (Z.of_nat i + 1) n).
    - rewrite app_nth1 by lia. rewrite over_nth by lia. f_equal. lia.
    - rewrite app_nth2 by lia. now replace (i + 1 - length (over n f))%nat with 0%nat by lia. }
  assert (UP : forall i, (Z.of_nat i < n)%Z -> nth i (over n f ++ [hi]) 0 < nth (i + 1) (over n f ++ [hi]) 0).
  { intros i Hi. destruct (NTH i Hi) as [-> ->]. pose proof (STEP (Z.of_nat i) ltac:(lia)) as S. cbv zeta in S. lra. }
  assert (CEN : forall i, (Z.of_nat i < n)%Z -> let c := nth i (over n (fun i => fl (f i + fl (dbin / 2)))) 0 in
     nth i (over n f ++ [hi]) 0 <= c < nth (i + 1) (over n f ++ [hi]) 0 /\
     Rabs (c - (nth i (over n f ++ [hi]) 0 + nth (i + 1) (over n f ++ [hi]) 0) / 2) <= 16 * uu * hi).
  { intros i Hi c. unfold c. destruct (NTH i Hi) as [-> ->]. rewrite over_nth by exact Hi.
    pose proof (STEP (Z.of_nat i) ltac:(lia)) as S. cbv zeta in S. set (r := if (_ <? n)%Z then _ else hi) in *.
    destruct (ED (Z.of_nat i) ltac:(lia)) as (E & I0 & T). set (e := f (Z.of_nat i)) in *.
    assert (Fe : float e) by apply fl_float. assert (DB : 0 <= dbin) by nra.
    pose proof (near_fl (dbin / 2) (dbin / 2) ltac:(lra)) as H. set (h := fl (dbin / 2)) in *.
    assert (uu * (dbin / 2) <= uu * dl) by (apply Rmult_le_compat_l; nra). assert (uu * dl <= uu * hi) by (apply Rmult_le_compat_l; lra).
    assert (H' : dl / 2 - 3 * (uu * hi) <= h <= dl / 2 + 3 * (uu * hi)) by nra.
    assert (0 <= e). { unfold e, f. rewrite <- (fl_id 0 float_0). apply fl_le. destruct (lin_last lo hi n FH ltac:(lra) N (Z.of_nat i) ltac:(lia)) as [_ [Q0 _]]. fold D d dbin in Q0. lra. }
    assert (r <= hi). { unfold r. destruct (Z.ltb_spec (Z.of_nat i + 1) n); [|lra]. destruct (ED (Z.of_nat i + 1)%Z ltac:(lia)) as (E' & _ & T'). lra. }
    pose proof (near_fl (e + h) hi ltac:(lra)) as Z. split; [split; [rewrite <- (fl_id e Fe) at 1; apply fl_le; lra|lra]|]. apply Rabs_le. lra. }
  split; [|split; [|split]].
  - intros i j [Hij Hj]. revert i Hij. induction j as [|j IH]; intros i Hij; [lia|].
    assert (S : nth j (over n f ++ [hi]) 0 < nth (S j) (over n f ++ [hi]) 0).
    { replace (S j) with (j + 1)%nat by lia. apply UP. lia. }
    destruct (Nat.eq_dec i j) as [->|]; [exact S|]. apply Rlt_trans with (2 := S). apply IH; lia.
  - intros i Hi. split; [lia|]. now apply CEN.
  - intros i Hi. now apply CEN.
  - intros i Hi. destruct (NTH i Hi) as [-> ->]. rewrite over_nth by exact Hi.
    pose proof (STEP (Z.of_nat i) ltac:(lia)) as S. cbv zeta in S. set (r := if (_ <? n)%Z then _ else hi) in *.
    assert (uu * dl <= uu * hi) by (apply Rmult_le_compat_l; lra). apply Rabs_le. nra.
Qed.

(* ------------------------------------------------------------------ *)
(* Padded linear bins                                                  *)

Lemma app_in_order (a b : list R) : not_falling a -> not_falling b -> (forall x, In x a -> x <= first b) -> (1 <= length b)%nat -> not_falling (a ++ b).
Proof.
  intros A B AB LB i j [Hij Hj]. rewrite app_length in Hj. destruct (Nat.lt_ge_cases j (length a)) as [X|X].
  - rewrite !app_nth1 by lia. apply A. lia.
  - rewrite (app_nth2 a b 0 (n := j)) by exact X. destruct (Nat.lt_ge_cases i (length a)) as [Y|Y].
    + rewrite app_nth1 by exact Y. apply Rle_trans with (first b); [apply AB, nth_In, Y|].
      unfold first. destruct (Nat.eq_dec (j - length a) 0) as [->|]; [lra|]. apply B. lia.
    + rewrite app_nth2 by exact Y. apply B. lia.
Qed.

Lemma pad_between p b m hi : float p -> 0 <= p -> bins_between b m (fl (p * 5)) hi -> (1 <= m)%Z ->
  bins_between (join (pad_bins_fl p) b) (m + 5) 0 hi.
Proof.
  intros FP P0 (LE & LC & LW & F0 & F1 & NF) M. destruct b as [[e c] w]. cbn [edges centres widths fst snd] in *.
  unfold bins_between, join, pad_bins_fl. cbv zeta. cbn [edges centres widths fst snd]. unfold nbin_pad.
  set (f := fun i => fl (p * IZR i)). set (g := fun i => fl (f i + fl (p / 2))).
  pose proof (over_length 5 f ltac:(lia)) as LF.
  assert (FM : forall i j, (0 <= i <= j)%Z -> f i <= f j).
  { intros i j H. unfold f. apply fl_le, Rmult_le_compat_l; [exact P0|]. apply IZR_le. lia. }
  rewrite !app_length. rewrite !Nat2Z.inj_add, !over_length by lia.
  split; [lia|]. split; [lia|]. split; [lia|]. split; [|split].
  - unfold first. rewrite app_nth1 by lia. rewrite over_nth by lia. change (Z.of_nat 0) with 0%Z. unfold f. now rewrite Rmult_0_r, (fl_id 0 float_0).
  - rewrite <- F1. unfold final. rewrite app_length, app_nth2 by lia. f_equal; lia.
  - apply app_in_order; [|exact NF| |lia].
    + intros i j H. rewrite !over_nth by lia. apply FM. lia.
    + intros x Hx. rewrite F0. unfold over in Hx. apply in_map_iff in Hx as (i & <- & Hi). apply in_seq in Hi.
      change (fl (p * 5)) with (f 5%Z). apply FM. lia.
Qed.

(** The padding: edges at multiples of the padding width, every bin but the
    last ending where the next begins, centres half-way. *)
Theorem pad_rounded p b i : float p -> 0 <= p -> (i < 5)%nat -> let a := join (pad_bins_fl p) b in
  Rabs (nth i (edges a) 0 - p * INR i) <= 4 * uu * p /\ Rabs (nth i (centres a) 0 - p * (INR i + / 2)) <= 16 * uu * p /\ nth i (widths a) 0 = p.
Proof.
  intros FP P0 Hi a. destruct b as [[e c] w]. unfold join, pad_bins_fl in a. cbv zeta in a. unfold nbin_pad in a. subst a. cbn [edges centres widths fst snd].
  set (f := fun i => fl (p * IZR i)). set (g := fun i => fl (f i + fl (p / 2))).
  pose proof (over_length 5 f ltac:(lia)) as LF. pose proof (over_length 5 g ltac:(lia)) as LG. pose proof (over_length 5 (fun _ : Z => p) ltac:(lia)) as LW.
  change (over 5 (fun i => fl (fl (p * IZR i) + fl (p / 2)))) with (over 5 g).
  rewrite !app_nth1 by lia. rewrite !over_nth by lia. rewrite INR_IZR_INZ. set (z := Z.of_nat i).
  assert (I : 0 <= IZR z <= 4) by (split; apply IZR_le; lia).
  assert (U : 0 < uu < / 1000000) by (rewrite uu_val; split; [apply Rinv_0_lt_compat; lra|apply Rinv_lt_contravar; lra]).
  assert (PI : 0 <= p * IZR z <= 4 * p) by (split; [apply Rmult_le_pos; lra|rewrite (Rmult_comm 4); apply Rmult_le_compat_l; lra]).
  pose proof (near_fl _ _ PI) as A. fold (f z) in A. pose proof (near_fl (p / 2) p ltac:(lra)) as B.
  assert (UP : 0 <= uu * p <= / 1000000 * p) by (split; [apply Rmult_le_pos; lra|apply Rmult_le_compat_r; lra]).
  assert (F0 : 0 <= f z) by (apply fl_up; lra).
  assert (H0 : 0 <= fl (p / 2)) by (apply fl_up; lra).
  pose proof (near_fl (f z + fl (p / 2)) (8 * p) ltac:(lra)) as C. fold (g z) in C.
  split; [apply Rabs_le; lra|]. split; [apply Rabs_le; lra|reflexivity].
Qed.

Theorem linpad_rounded p hi n : float p -> 0 <= p -> float hi -> fl (p * 5) <= hi -> (6 <= n <= 2 ^ 50)%Z ->
  bins_between (linpad_bins_fl p hi n) n 0 hi.
Proof.
  intros FP P0 FH LH N. replace n with (n - 5 + 5)%Z at 2 by lia. apply pad_between; [exact FP|exact P0| |lia].
  unfold nbin_pad. apply lin_rounded; [apply fl_float|exact FH|exact LH|lia].
Qed.

(* ------------------------------------------------------------------ *)
(* Logarithmic bins                                                    *)

(** What is asked of [std::exp]: it does not fall, and is one at nought. *)
Definition exp_like (ex : R -> R) : Prop := ex 0 = 1 /\ forall x y, 0 <= x <= y -> ex x <= ex y.

(** The last edge computed. *)
Definition last_computed (lg ex : R -> R) (lo hi : R) (n : Z) : R :=
  fl (lo * ex (fl (fl (fl (lg hi - lg lo) / IZR n) * IZR (n - 1)))).

(** Logarithmic bins are in order exactly when the last computed edge is not
    above the upper limit. *)
Theorem log_rounded lg ex lo hi n : exp_like ex -> lg lo <= lg hi -> float lo -> 0 <= lo -> (1 <= n)%Z ->
  bins_between (log_bins_fl lg ex lo hi n) n lo hi <-> last_computed lg ex lo hi n <= hi.
Proof.
  intros [X0 XM] LG FL L0 N. unfold bins_between, log_bins_fl. cbv zeta. cbn [edges centres widths fst snd].
  set (dln := fl (fl (lg hi - lg lo) / IZR n)). set (f := fun i => fl (lo * ex (fl (dln * IZR i)))).
  assert (D0 : 0 <= dln).
  { destruct (fl_up (lg hi - lg lo) ltac:(lra)) as [A _]. apply fl_up. apply Rmult_le_pos; [exact A|].
    apply Rlt_le, Rinv_0_lt_compat, IZR_lt. lia. }
  assert (FM : forall i j, (0 <= i <= j)%Z -> f i <= f j).
  { intros i j H. unfold f. apply fl_le, Rmult_le_compat_l; [exact L0|]. apply XM.
    assert (0 <= IZR i) by (apply IZR_le; lia). split; [apply fl_up, Rmult_le_pos; assumption|].
    apply fl_le, Rmult_le_compat_l; [exact D0|]. apply IZR_le. lia. }
  change (last_computed lg ex lo hi n) with (f (n - 1)%Z). split.
  - intros (L & _ & _ & _ & F1 & NF). specialize (NF (Z.to_nat (n - 1)) (Z.to_nat n)).
    pose proof (over_length n f ltac:(lia)) as LF. rewrite app_length in NF. cbn [length] in NF.
    assert (E : nth (Z.to_nat n) (over n f ++ [hi]) 0 = hi).
    { rewrite app_nth2 by lia. now replace (Z.to_nat n - length (over n f))%nat with 0%nat by lia. }
    rewrite E, app_nth1 in NF by lia. rewrite over_nth in NF by lia. rewrite Z2Nat.id in NF by lia. apply NF. lia.
  - intros H. destruct (closed_edges n f hi N ltac:(intros; apply FM; lia) H) as (L & F0 & F1 & NF).
    split; [exact L|]. rewrite !over_length by lia. do 2 (split; [reflexivity|]). split; [|split; [exact F1|exact NF]].
    rewrite F0. unfold f. rewrite Rmult_0_r, (fl_id 0 float_0), X0, Rmult_1_r. now apply fl_id.
Qed.

Theorem logpad_rounded lg ex p hi n : exp_like ex -> float p -> 0 <= p -> (6 <= n)%Z -> lg (fl (p * 5)) <= lg hi ->
  last_computed lg ex (fl (p * 5)) hi (n - 5) <= hi -> bins_between (logpad_bins_fl lg ex p hi n) n 0 hi.
Proof.
  intros EX FP P0 N LG H. replace n with (n - 5 + 5)%Z at 2 by lia. apply pad_between; [exact FP|exact P0| |lia].
  unfold nbin_pad. apply log_rounded; [exact EX|exact LG|apply fl_float|apply fl_up; lra|lia|exact H].
Qed.

Lemma thin_half d : 1 <= d <= 1125899906842624 -> (d - 1) * ((1 + uu) * (1 + uu) * (1 + uu)) <= d - / 2.
Proof. rewrite uu_val. intros [A B]. nra. Qed.

(** The logarithm is right to within [eps] at both limits, and the exponential
    to one part in [/ eta]: the bins are in order once they are a few such
    errors wide. *)
Theorem log_accurate lg ex lo hi n eps eta : float hi -> 0 < lo < hi -> (1 <= n <= 2 ^ 50)%Z ->
  Rabs (lg lo - ln lo) <= eps -> Rabs (lg hi - ln hi) <= eps ->
  (forall x, 0 <= x -> Rabs (ex x - exp x) <= eta * exp x) -> lg lo <= lg hi ->
  2 * IZR n * (2 * eps + eta) <= ln (hi / lo) -> last_computed lg ex lo hi n <= hi.
Proof.
  intros FH [L0 LH] N EL EH EX LG W. unfold last_computed. set (D := fl (lg hi - lg lo)). set (dln := fl (D / IZR n)).
  set (t := fl (dln * IZR (n - 1))). assert (P : 1 <= IZR n <= 1125899906842624) by (split; apply IZR_le; lia).
  assert (EN : IZR (n - 1) = IZR n - 1) by (rewrite minus_IZR; reflexivity).
  pose proof (fl_up (lg hi - lg lo) ltac:(lra)) as [D0 D1]. fold D in D0, D1.
  assert (DD : 0 <= D / IZR n) by (apply Rmult_le_pos; [lra|apply Rlt_le, Rinv_0_lt_compat; lra]).
  pose proof (fl_up _ DD) as [S0 S1]. fold dln in S0, S1.
  assert (IS : 0 <= dln * IZR (n - 1)) by (apply Rmult_le_pos; lra). pose proof (fl_up _ IS) as [Q0 Q1]. fold t in Q0, Q1.
  pose proof (thin_half _ P) as T. rewrite EN in Q1. set (d := IZR n) in *. set (c := 1 + uu) in *. assert (C0 : 0 < c) by (unfold c; rewrite uu_val; lra).
  set (X := ln (hi / lo)) in *. assert (EXX : X = ln hi - ln lo) by (unfold X; unfold Rdiv; rewrite ln_mult, ln_Rinv by (try apply Rinv_0_lt_compat; lra); lra).
  apply Rabs_le_inv in EL. apply Rabs_le_inv in EH.
  assert (XP : lg hi - lg lo <= X + 2 * eps) by lra. assert (E0 : 0 <= eps) by lra.
  assert (ET : 0 <= eta). { specialize (EX 0 ltac:(lra)). rewrite exp_0 in EX. pose proof (Rabs_pos (ex 0 - 1)). lra. }
  assert (TB : t <= (lg hi - lg lo) * (1 - / (2 * d))).
  { apply Rle_trans with (1 := Q1).
    apply Rle_trans with ((D / d * c) * (d - 1) * c); [apply Rmult_le_compat_r; [lra|]; apply Rmult_le_compat_r; lra|].
    apply Rle_trans with (((lg hi - lg lo) * c / d * c) * (d - 1) * c).
    { apply Rmult_le_compat_r; [lra|]. apply Rmult_le_compat_r; [lra|]. apply Rmult_le_compat_r; [lra|].
      apply Rmult_le_compat_r; [apply Rlt_le, Rinv_0_lt_compat; lra|lra]. }
    replace (((lg hi - lg lo) * c / d * c) * (d - 1) * c) with ((lg hi - lg lo) * (((d - 1) * (c * c * c)) / d)) by (field; lra).
    apply Rmult_le_compat_l; [lra|]. apply Rmult_le_reg_r with d; [lra|].
    replace ((d - 1) * (c * c * c) / d * d) with ((d - 1) * (c * c * c)) by (field; lra).
    replace ((1 - / (2 * d)) * d) with (d - / 2) by (field; lra). exact T. }
  assert (TX : t + eta <= X).
  { assert (H : / (2 * d) <= / 2) by (apply Rinv_le_contravar; lra). assert (H0 : 0 < / (2 * d)) by (apply Rinv_0_lt_compat; lra).
    assert (A : t <= (X + 2 * eps) * (1 - / (2 * d))) by (apply Rle_trans with (1 := TB); apply Rmult_le_compat_r; lra).
    assert (B : 2 * eps + eta <= X * / (2 * d)).
    { apply Rmult_le_reg_r with (2 * d); [lra|]. replace (X * / (2 * d) * (2 * d)) with X by (field; lra). lra. }
    assert (0 <= 2 * eps * / (2 * d)) by (apply Rmult_le_pos; lra). nra. }
  apply Rle_trans with (fl hi); [|rewrite (fl_id hi FH); lra]. apply fl_le.
  apply Rle_trans with (lo * exp (t + eta)).
  - apply Rmult_le_compat_l; [lra|]. specialize (EX t Q0). apply Rabs_le_inv in EX. pose proof (exp_pos t) as EP.
    rewrite exp_plus. pose proof (exp_ineq1_le eta) as H. assert (exp t * (1 + eta) <= exp t * exp eta) by (apply Rmult_le_compat_l; lra). lra.
  - apply Rle_trans with (lo * exp X).
    + apply Rmult_le_compat_l; [lra|]. destruct TX as [H|H]; [left; now apply exp_increasing|rewrite H; lra].
    + unfold X. rewrite exp_ln by (apply Rdiv_lt_0_compat; lra). right. field. lra.
Qed.

(** Every bin but the last: its centre half-way between its edges and its
    width their difference, up to rounding. *)
Theorem log_inside lg ex lo hi n i : exp_like ex -> lg lo <= lg hi -> 0 <= lo -> (Z.of_nat i + 1 < n)%Z ->
  let b := log_bins_fl lg ex lo hi n in let l := nth i (edges b) 0 in let r := nth (i + 1) (edges b) 0 in
  l <= nth i (centres b) 0 <= r /\ Rabs (nth i (centres b) 0 - (l + r) / 2) <= 3 * uu * r /\ Rabs (nth i (widths b) 0 - (r - l)) <= uu * (r - l).
Proof.
  intros [X0 XM] LG L0 Hi b. unfold log_bins_fl in b. cbv zeta in b. subst b. cbn [edges centres widths fst snd].
  set (dln := fl (fl (lg hi - lg lo) / IZR n)). set (f := fun i => fl (lo * ex (fl (dln * IZR i)))). cbv zeta.
  assert (D0 : 0 <= dln).
  { destruct (fl_up (lg hi - lg lo) ltac:(lra)) as [A _]. apply fl_up. apply Rmult_le_pos; [exact A|].
    apply Rlt_le, Rinv_0_lt_compat, IZR_lt. lia. }
  assert (FM : forall i j, (0 <= i <= j)%Z -> f i <= f j).
  { intros k j H. unfold f. apply fl_le, Rmult_le_compat_l; [exact L0|]. apply XM.
    assert (0 <= IZR k) by (apply IZR_le; lia). split; [apply fl_up, Rmult_le_pos; assumption|].
    apply fl_le, Rmult_le_compat_l; [exact D0|]. apply IZR_le. lia. }
  assert (F0 : 0 <= f 0%Z). { unfold f. rewrite Rmult_0_r, (fl_id 0 float_0), X0, Rmult_1_r. apply fl_up. exact L0. }
  pose proof (over_length n f ltac:(lia)) as L. rewrite !app_nth1 by lia. rewrite !over_nth by lia.
  replace (Z.of_nat (i + 1)) with (Z.of_nat i + 1)%Z by lia. set (z := Z.of_nat i). fold (f z) (f (z + 1)%Z).
  change (fl (lo * ex (fl (dln * IZR z)))) with (f z). change (fl (lo * ex (fl (dln * IZR (z + 1))))) with (f (z + 1)%Z).
  pose proof (FM 0%Z z ltac:(lia)) as A. pose proof (FM z (z + 1)%Z ltac:(lia)) as B.
  assert (Fl : float (f z)) by apply fl_float. assert (Fr : float (f (z + 1)%Z)) by apply fl_float.
  set (l := f z) in *. set (r := f (z + 1)%Z) in *.
  assert (U : 0 < uu < / 1000000) by (rewrite uu_val; split; [apply Rinv_0_lt_compat; lra|apply Rinv_lt_contravar; lra]).
  assert (DBL : forall x, float x -> float (x + x)).
  { intros x Fx. replace (x + x) with (x * bpow radix2 1); [now apply float_scale|]. replace (bpow radix2 1) with 2 by reflexivity. lra. }
  assert (S : l + l <= fl (l + r) <= r + r).
  { split; [rewrite <- (fl_id _ (DBL l Fl))|rewrite <- (fl_id _ (DBL r Fr))]; apply fl_le; lra. }
  split; [|split].
  - split; [rewrite <- (fl_id l Fl) at 1|rewrite <- (fl_id r Fr) at 2]; apply fl_le; lra.
  - pose proof (near_fl (l + r) (2 * r) ltac:(lra)) as E. pose proof (near_fl (fl (l + r) / 2) r ltac:(lra)) as E'.
    assert (0 <= uu * r) by (apply Rmult_le_pos; lra). apply Rabs_le. lra.
  - pose proof (near_fl (r - l) (r - l) ltac:(lra)) as E. apply Rabs_le. lra.
Qed.

(** Where the edges are: in geometric progression, up to the errors of the
    logarithm, the exponential and a few roundings. *)
Theorem log_edges lg ex lo hi n eps eta i : 0 < lo < hi -> (1 <= n <= 2 ^ 50)%Z ->
  Rabs (lg lo - ln lo) <= eps -> Rabs (lg hi - ln hi) <= eps ->
  (forall x, 0 <= x -> Rabs (ex x - exp x) <= eta * exp x) -> eta <= 1 -> lg lo <= lg hi -> (Z.of_nat i < n)%Z ->
  let e := nth i (edges (log_bins_fl lg ex lo hi n)) 0 in let g := lo * exp (ln (hi / lo) * (INR i / IZR n)) in
  let d := 2 * eps + 4 * uu * (ln (hi / lo) + 2 * eps) in
  g * exp (- d) * (1 - eta) * (1 - uu) <= e <= g * exp d * (1 + eta) * (1 + uu).
Proof.
  intros [L0 LH] N EL EH EX ET1 LG Hi. rewrite (INR_IZR_INZ i). intros e g d. subst e. unfold log_bins_fl. cbv zeta. cbn [edges fst].
  set (D := fl (lg hi - lg lo)) in *. set (dln := fl (D / IZR n)). set (f := fun i => fl (lo * ex (fl (dln * IZR i)))).
  pose proof (over_length n f ltac:(lia)) as L. rewrite app_nth1 by lia. rewrite over_nth by lia. set (z := Z.of_nat i) in *. unfold f.
  set (t := fl (dln * IZR z)). set (X := ln (hi / lo)) in *.
  assert (EXX : X = ln hi - ln lo) by (unfold X, Rdiv; rewrite ln_mult, ln_Rinv by (try apply Rinv_0_lt_compat; lra); lra).
  assert (U : 0 < uu < / 1000000) by (rewrite uu_val; split; [apply Rinv_0_lt_compat; lra|apply Rinv_lt_contravar; lra]).
  apply Rabs_le_inv in EL. apply Rabs_le_inv in EH. set (Y := lg hi - lg lo) in *.
  assert (ET : 0 <= eta). { specialize (EX 0 ltac:(lra)). rewrite exp_0 in EX. pose proof (Rabs_pos (ex 0 - 1)). lra. }
  set (q := IZR z / IZR n) in *. assert (P : 1 <= IZR n) by (apply IZR_le; lia).
  assert (I0 : 0 <= IZR z <= IZR n) by (split; apply IZR_le; lia).
  assert (Q : 0 <= q <= 1).
  { unfold q. split; [apply Rmult_le_pos; [lra|apply Rlt_le, Rinv_0_lt_compat; lra]|]. apply Rmult_le_reg_r with (IZR n); [lra|].
    replace (IZR z / IZR n * IZR n) with (IZR z) by (field; lra). lra. }
  assert (Y0 : 0 <= Y) by (unfold Y; lra). pose proof (near_fl Y Y ltac:(lra)) as E1. fold D in E1.
  assert (Iv : 0 < / IZR n) by (apply Rinv_0_lt_compat; lra).
  set (y := Y * / IZR n). assert (y0 : 0 <= y) by (apply Rmult_le_pos; lra).
  assert (E2 : y - uu * y <= D / IZR n <= y + uu * y).
  { unfold y, Rdiv. split; [replace (Y * / IZR n - uu * (Y * / IZR n)) with ((Y - uu * Y) * / IZR n) by ring|
      replace (Y * / IZR n + uu * (Y * / IZR n)) with ((Y + uu * Y) * / IZR n) by ring]; apply Rmult_le_compat_r; lra. }
  assert (uy : 0 <= uu * y <= / 1000000 * y) by (split; [apply Rmult_le_pos; lra|apply Rmult_le_compat_r; lra]).
  assert (E3 : y - 2.1 * (uu * y) <= dln <= y + 2.1 * (uu * y)).
  { pose proof (near_fl (D / IZR n) (1.1 * y) ltac:(lra)) as E. fold dln in E. lra. }
  set (yz := Y * q). assert (yzE : yz = y * IZR z) by (unfold yz, y, q, Rdiv; ring).
  assert (yz0 : 0 <= yz) by (apply Rmult_le_pos; lra). assert (yz1 : yz <= Y) by (unfold yz; rewrite <- (Rmult_1_r Y) at 2; apply Rmult_le_compat_l; lra).
  assert (E4 : yz - 2.1 * (uu * yz) <= dln * IZR z <= yz + 2.1 * (uu * yz)).
  { rewrite yzE. split; [replace (y * IZR z - 2.1 * (uu * (y * IZR z))) with ((y - 2.1 * (uu * y)) * IZR z) by ring|
      replace (y * IZR z + 2.1 * (uu * (y * IZR z))) with ((y + 2.1 * (uu * y)) * IZR z) by ring]; apply Rmult_le_compat_r; lra. }
  assert (uyz : 0 <= uu * yz <= / 1000000 * yz) by (split; [apply Rmult_le_pos; lra|apply Rmult_le_compat_r; lra]).
  pose proof (near_fl (dln * IZR z) (1.1 * yz) ltac:(lra)) as E5. fold t in E5.
  assert (uYY : uu * yz <= uu * (X + 2 * eps)) by (apply Rmult_le_compat_l; unfold Y in *; lra).
  assert (DX : - (2 * eps) <= Y - X <= 2 * eps) by (unfold Y; lra).
  assert (DXq : - (2 * eps) <= (Y - X) * q <= 2 * eps).
  { split; [|]; nra. }
  assert (TB : X * q - d <= t <= X * q + d).
  { assert (yz = X * q + (Y - X) * q) by (unfold yz; ring). unfold d. lra. }
  assert (T0 : 0 <= t) by (apply fl_up; lra).
  specialize (EX t T0). apply Rabs_le_inv in EX. pose proof (exp_pos t) as EP.
  assert (M : forall a b, a <= b -> exp a <= exp b) by (intros a b [H| ->]; [left; now apply exp_increasing|lra]).
  assert (H1 : exp t <= exp (X * q) * exp d) by (rewrite <- exp_plus; apply M; lra).
  assert (H2 : exp (X * q) * exp (- d) <= exp t) by (rewrite <- exp_plus; apply M; lra).
  assert (V1 : ex t <= exp (X * q) * exp d * (1 + eta)).
  { assert (exp t * (1 + eta) <= exp (X * q) * exp d * (1 + eta)) by (apply Rmult_le_compat_r; lra). lra. }
  assert (V2 : exp (X * q) * exp (- d) * (1 - eta) <= ex t).
  { assert (exp (X * q) * exp (- d) * (1 - eta) <= exp t * (1 - eta)) by (apply Rmult_le_compat_r; lra). lra. }
  assert (V0 : 0 <= ex t). { apply Rle_trans with (2 := V2). apply Rmult_le_pos; [|lra]. apply Rmult_le_pos; apply Rlt_le, exp_pos. }
  assert (W0 : 0 <= lo * ex t) by (apply Rmult_le_pos; lra). pose proof (near_fl (lo * ex t) (lo * ex t) ltac:(lra)) as F.
  assert (F1 : lo * ex t * (1 - uu) <= fl (lo * ex t) <= lo * ex t * (1 + uu)) by lra. clear F. unfold g. split.
  - apply Rle_trans with (2 := proj1 F1). apply Rmult_le_compat_r; [lra|].
    replace (lo * exp (X * q) * exp (- d) * (1 - eta)) with (lo * (exp (X * q) * exp (- d) * (1 - eta))) by ring. apply Rmult_le_compat_l; lra.
  - apply Rle_trans with (1 := proj2 F1). apply Rmult_le_compat_r; [lra|].
    replace (lo * exp (X * q) * exp d * (1 + eta)) with (lo * (exp (X * q) * exp d * (1 + eta))) by ring. apply Rmult_le_compat_l; lra.
Qed.

(* ------------------------------------------------------------------ *)
(* Bins narrower than the numbers are apart                            *)

Definition w52 : R := / 4503599627370496.

Lemma fl_half_ulp x : 1 <= x < 2 -> Rabs (fl x - x) <= w52 / 2.
Proof.
  intros H. unfold fl. pose proof (error_le_half_ulp radix2 (FLX_exp 53) (fun z => negb (Z.even z)) x) as E.
  rewrite ulp_neq_0 in E by lra. unfold cexp in E. rewrite (mag_unique_pos radix2 x 1) in E.
  - replace (bpow radix2 (FLX_exp 53 1)) with w52 in E by reflexivity. unfold Rdiv. rewrite Rmult_comm. exact E.
  - replace (bpow radix2 (1 - 1)) with 1 by reflexivity. replace (bpow radix2 1) with 2 by reflexivity. exact H.
Qed.

(** Within a unit of rounding there is no number to put an edge at. *)
Lemma fl_grid x (m : Z) : 1 <= x < 2 -> 1 <= IZR m * w52 < 2 -> Rabs (x - IZR m * w52) < w52 / 2 -> fl x < 2 -> fl x = IZR m * w52.
Proof.
  intros X M C F. pose proof (fl_half_ulp x X) as E.
  assert (F1 : 1 <= fl x).
  { assert (float 1). { replace 1 with (IZR 1 * bpow radix2 0) by (cbn [bpow]; lra). apply float_int. lia. }
    rewrite <- (fl_id 1 H). apply fl_le. lra. }
  destruct (float_unit (fl x) (fl_float x) ltac:(lra)) as [k K]. fold w52 in K. rewrite K in *.
  assert (W : 0 < w52) by (unfold w52; lra). assert (k = m); [|now subst].
  assert (Rabs (IZR k - IZR m) < 1).
  { apply Rmult_lt_reg_r with w52; [exact W|]. apply Rabs_def2 in C. apply Rabs_le_inv in E. rewrite <- (Rabs_pos_eq w52) at 1 by lra.
    rewrite <- Rabs_mult. apply Rabs_def1; lra. }
  rewrite <- minus_IZR, <- abs_IZR in H. apply lt_IZR in H. lia.
Qed.

Lemma float_grid (m : Z) : (Z.abs m < 2 ^ 53)%Z -> float (IZR m * w52).
Proof. intros H. replace w52 with (bpow radix2 (-52)) by reflexivity. now apply float_int. Qed.

Lemma float_grid1 (k : Z) : (0 <= k < 2 ^ 52)%Z -> float (1 + IZR k * w52).
Proof.
  intros H. replace (1 + IZR k * w52) with (IZR (2 ^ 52 + k) * w52); [apply float_grid; lia|].
  rewrite plus_IZR. replace (IZR (2 ^ 52)) with 4503599627370496 by reflexivity. unfold w52. lra.
Qed.

(** Two bins asked for between a number and the next: one of them has no
    width, and holds nothing. *)
Theorem lin_rounded_refuted : exists lo hi n, float lo /\ float hi /\ 0 < lo < hi /\ (1 <= n <= 2 ^ 50)%Z /\
  ~ increasing (edges (lin_bins_fl lo hi n)) /\ exists i, (Z.of_nat i < n)%Z /\ forall c, ~ holds (edges (lin_bins_fl lo hi n)) c i.
Proof.
  assert (W : 0 < w52 < / 1000) by (unfold w52; split; [apply Rinv_0_lt_compat; lra|apply Rinv_lt_contravar; lra]).
  assert (F1 : float 1). { replace 1 with (1 + IZR 0 * w52) by lra. apply float_grid1. lia. }
  assert (F2 : float (1 + w52)). { replace (1 + w52) with (1 + IZR 1 * w52) by lra. apply float_grid1. lia. }
  exists 1, (1 + w52), 2%Z. split; [exact F1|]. split; [exact F2|]. split; [lra|]. split; [lia|].
  destruct (lin_rounded 1 (1 + w52) 2 F1 F2 ltac:(lra) ltac:(lia)) as (L & _ & _ & A & B & NF).
  set (e := edges _) in *. assert (L3 : length e = 3%nat) by lia. unfold first, final in A, B. rewrite L3 in B. cbn [Nat.sub] in B.
  pose proof (NF 0%nat 1%nat ltac:(lia)) as N1. pose proof (NF 1%nat 2%nat ltac:(lia)) as N2. rewrite A in N1. rewrite B in N2.
  assert (FE : float (nth 1 e 0)) by (apply fl_float).
  destruct (float_unit _ FE ltac:(lra)) as [k K]. fold w52 in K.
  assert (O : nth 1 e 0 = 1 \/ nth 1 e 0 = 1 + w52).
  { rewrite K in *. assert (O : 1 = 4503599627370496 * w52) by (unfold w52; lra). rewrite O in N1, N2.
    assert (4503599627370496 <= IZR k) by (apply Rmult_le_reg_r with w52; lra).
    assert (IZR k <= 4503599627370497) by (apply Rmult_le_reg_r with w52; lra).
    assert (k = 4503599627370496 \/ k = 4503599627370497)%Z as [-> | ->].
    { apply le_IZR in H. apply le_IZR in H0. lia. }
    - left. lra.
    - right. lra. }
  destruct O as [O|O].
  - split; [intros I; specialize (I 0%nat 1%nat ltac:(lia)); lra|]. exists 0%nat. split; [lia|]. intros c [_ H]. cbn [Nat.add] in H. lra.
  - split; [intros I; specialize (I 1%nat 2%nat ltac:(lia)); lra|]. exists 1%nat. split; [lia|]. intros c [_ H]. cbn [Nat.add] in H. lra.
Qed.

Lemma ln_up x y : 0 < x -> x <= y -> ln x <= ln y.
Proof. intros H [L| ->]; [left; now apply ln_increasing|right; reflexivity]. Qed.

(** With the logarithm exact and the exponential rounded once, sixteen bins
    between a number and the next overshoot the upper limit: the edges fall. *)
Theorem log_rounded_refuted : exists lo hi n, float lo /\ float hi /\ 0 < lo < hi /\ (1 <= n <= 2 ^ 50)%Z /\
  ~ not_falling (edges (log_bins_fl ln (fun x => fl (exp x)) lo hi n)).
Proof.
  assert (W : 0 < w52 < / 1000000) by (unfold w52; split; [apply Rinv_0_lt_compat; lra|apply Rinv_lt_contravar; lra]).
  set (w := w52) in *. set (lo := 1 + 3377699720527872 * w). set (hi := 1 + 3377699720527873 * w).
  assert (LO : lo = 7 / 4) by (unfold lo, w, w52; lra). assert (HI : hi = 7 / 4 + w) by (unfold hi, w, w52; lra).
  exists lo, hi, 16%Z. split; [apply (float_grid1 3377699720527872); lia|]. split; [apply (float_grid1 3377699720527873); lia|].
  split; [lra|]. split; [lia|].
  (* the range in the logarithm *)
  set (r := w / (7 / 4)). assert (R0 : 0 < r < / 1000000) by (unfold r; lra).
  assert (LN : r - r * r <= ln hi - ln lo <= r).
  { replace hi with (lo * (1 + r)) by (unfold r; rewrite LO, HI; field). rewrite ln_mult by lra.
    replace (ln lo + ln (1 + r) - ln lo) with (ln (1 + r)) by ring. split.
    - rewrite <- (ln_exp (r - r * r)). apply ln_up; [apply exp_pos|].
      pose proof (exp_ineq1_le (- (r - r * r))) as H. rewrite exp_Ropp in H. pose proof (exp_pos (r - r * r)) as EP.
      assert (E : exp (r - r * r) * / exp (r - r * r) = 1) by (apply Rinv_r; lra).
      assert (exp (r - r * r) * (1 + - (r - r * r)) <= 1) by (rewrite <- E; apply Rmult_le_compat_l; lra).
      assert (1 <= (1 + r) * (1 - (r - r * r))) by nra.
      apply Rmult_le_reg_r with (1 - (r - r * r)); [nra|]. lra.
    - rewrite <- (ln_exp r) at 2. apply ln_up; [lra|]. apply exp_ineq1_le. }
  assert (RR : r * r <= r * / 1000000) by (apply Rmult_le_compat_l; lra).
  set (D := fl (ln hi - ln lo)). assert (U : 0 < uu < / 1000000) by (rewrite uu_val; split; [apply Rinv_0_lt_compat; lra|apply Rinv_lt_contravar; lra]).
  pose proof (near_fl (ln hi - ln lo) r ltac:(lra)) as E1. fold D in E1. assert (UR : uu * r <= / 1000000 * r) by (apply Rmult_le_compat_r; lra).
  pose proof (near_fl (D / 16) r ltac:(lra)) as E2. set (dln := fl (D / 16)) in *.
  pose proof (near_fl (dln * 15) r ltac:(lra)) as E3. set (t := fl (dln * 15)) in *.
  assert (TB : 0.53 * w <= t <= 0.54 * w) by (unfold r in *; lra).
  assert (XB : 1 + 0.53 * w <= exp t <= 1 + 0.55 * w).
  { split; [pose proof (exp_ineq1_le t); lra|]. pose proof (exp_ineq1_le (- t)) as H. rewrite exp_Ropp in H. pose proof (exp_pos t) as EP.
    assert (E : exp t * / exp t = 1) by (apply Rinv_r; lra).
    assert (exp t * (1 + - t) <= 1) by (rewrite <- E; apply Rmult_le_compat_l; lra).
    assert (WW : w * w <= w * / 1000000) by (apply Rmult_le_compat_l; lra).
    assert (1 <= (1 + 0.55 * w) * (1 - t)) by nra.
    apply Rmult_le_reg_r with (1 - t); [lra|]. lra. }
  assert (ONE : 4503599627370496 * w = 1) by (unfold w, w52; lra).
  assert (X1 : fl (exp t) = 1 + w).
  { rewrite (fl_grid (exp t) 4503599627370497); fold w; try lra.
    - apply Rabs_def1; lra.
    - pose proof (near_fl (exp t) (exp t) ltac:(lra)). assert (uu * exp t <= / 1000000 * 2) by (apply Rmult_le_compat; lra). lra. }
  assert (P : fl (lo * (1 + w)) = 7 / 4 + 2 * w).
  { rewrite (fl_grid (lo * (1 + w)) 7881299347898370); fold w; rewrite ?LO; try lra.
    - apply Rabs_def1; lra.
    - pose proof (near_fl (7 / 4 * (1 + w)) 2 ltac:(lra)). lra. }
  intros NF. specialize (NF 15%nat 16%nat). unfold log_bins_fl in NF. cbv zeta in NF. cbn [edges fst] in NF.
  set (f := fun i => fl (lo * fl (exp (fl (fl (fl (ln hi - ln lo) / 16) * IZR i))))) in NF.
  assert (A : nth 15 (over 16 f ++ [hi]) 0 = f 15%Z) by reflexivity. assert (B : nth 16 (over 16 f ++ [hi]) 0 = hi) by reflexivity.
  rewrite A, B in NF. assert (FV : f 15%Z = 7 / 4 + 2 * w) by (unfold f; fold D dln t; rewrite X1; exact P).
  rewrite FV in NF. assert (L : length (over 16 f ++ [hi]) = 17%nat) by reflexivity. rewrite L in NF. specialize (NF ltac:(lia)). lra.
Qed.

(* ------------------------------------------------------------------ *)
(* Cases                                                               *)

Lemma float_Z (m : Z) : (Z.abs m < 2 ^ 53)%Z -> float (IZR m).
Proof. intros H. replace (IZR m) with (IZR m * bpow radix2 0) by (cbn [bpow]; lra). now apply float_int. Qed.

(** Ten bins from 50 to 150. *)
Example lin_rounded_case : bins_between (lin_bins_fl 50 150 10) 10 50 150 /\ covers_once (edges (lin_bins_fl 50 150 10)) 50 150 /\
  increasing (edges (lin_bins_fl 50 150 10)).
Proof.
  assert (H : bins_between (lin_bins_fl 50 150 10) 10 50 150) by (apply lin_rounded; [apply float_Z; lia|apply float_Z; lia|lra|lia]).
  split; [exact H|]. split; [apply (bins_cover _ 10); [exact H|lia]|].
  apply (lin_rounded_resolved 50 150 10); [apply float_Z; lia|apply float_Z; lia|lra|lia| |lra]. rewrite uu_val. lra.
Qed.

(** Padding of ten, then five bins up to 150. *)
Example linpad_rounded_case : bins_between (linpad_bins_fl 10 150 10) 10 0 150.
Proof.
  apply linpad_rounded; [apply float_Z; lia|lra|apply float_Z; lia| |lia].
  replace (10 * 5) with (IZR 50) by lra. rewrite fl_id by (apply float_Z; lia). lra.
Qed.

Lemma exp_rounded_like : exp_like (fun x => fl (exp x)).
Proof.
  split; [rewrite exp_0; apply fl_id, (float_Z 1); lia|]. intros x y [_ [H| ->]]; [|lra]. apply fl_le. left. now apply exp_increasing.
Qed.

(** A hundred logarithmic bins from 1 to 3, the exponential rounded once. *)
Example log_rounded_case : let b := log_bins_fl ln (fun x => fl (exp x)) 1 3 100 in bins_between b 100 1 3 /\ covers_once (edges b) 1 3.
Proof.
  intros b. assert (LL : ln 1 <= ln 3) by (apply ln_up; lra).
  assert (H : bins_between b 100 1 3).
  { apply log_rounded; [apply exp_rounded_like|exact LL|apply (float_Z 1); lia|lra|lia|].
    apply (log_accurate ln _ 1 3 100 0 uu); [apply float_Z; lia|lra|lia| | | |exact LL|].
    - rewrite Rminus_diag_eq, Rabs_R0 by reflexivity. lra.
    - rewrite Rminus_diag_eq, Rabs_R0 by reflexivity. lra.
    - intros x _. pose proof (fl_err (exp x)) as E. rewrite (Rabs_pos_eq (exp x)) in E by (apply Rlt_le, exp_pos). exact E.
    - apply Rle_trans with (ln (exp 1)).
      + rewrite ln_exp, uu_val. lra.
      + apply ln_up; [apply exp_pos|]. pose proof exp_le_3. lra. }
  split; [exact H|]. apply (bins_cover _ 100); [exact H|lia].
Qed.

Print Assumptions bins_cover.
Print Assumptions lin_rounded.
Print Assumptions lin_rounded_resolved.
Print Assumptions pad_rounded.
Print Assumptions linpad_rounded.
Print Assumptions log_rounded.
Print Assumptions logpad_rounded.
Print Assumptions log_accurate.
Print Assumptions log_inside.
Print Assumptions log_edges.
Print Assumptions lin_rounded_refuted.
Print Assumptions log_rounded_refuted.
