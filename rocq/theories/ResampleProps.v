(* Resampling at linearly and logarithmically spaced points (C125). *)
From Coq Require Import Reals ZArith List Lia Lra Psatz Bool.
From Flocq Require Import Core Relative.
From Verif Require Import Base ArrayModel ArrayProofs Array2dModel WindowModel ResampleModel.
Import ListNotations.
Local Open Scope R_scope.

(* ------------------------------------------------------------------ *)
(* Vocabulary                                                          *)

Definition increasing (x : list R) : Prop := forall i j, (i < j < length x)%nat -> nth i x 0 < nth j x 0.
Definition not_falling (x : list R) : Prop := forall i j, (i < j < length x)%nat -> nth i x 0 <= nth j x 0.
Definition all_floats (x : list R) : Prop := forall v, In v x -> float v.
Definition first (x : list R) : R := nth 0 x 0.
Definition final (x : list R) : R := nth (length x - 1) x 0.
Definition inside (x p : list R) : Prop := forall v, In v p -> first x <= v <= final x.

(** The number of points asked for: the size, or as many as there were. *)
Definition asked (size : option Z) (x : list R) (n : Z) : Prop :=
  match size with
  | Some z => z <> 0%Z /\ n = z \/ z = 0%Z /\ n = Z.of_nat (length x)
  | None => n = Z.of_nat (length x)
  end.

(* ------------------------------------------------------------------ *)
(* Rounding                                                            *)

#[local] Instance prec53 : Prec_gt_0 53. Proof. reflexivity. Qed.
#[local] Instance validflx : Valid_exp (FLX_exp 53). Proof. apply FLX_exp_valid, prec53. Qed.

Definition uu : R := bpow radix2 (-53).

Lemma uu_val : uu = / 9007199254740992.
Proof. unfold uu. cbn. reflexivity. Qed.

Lemma fl_float x : float (fl x).
Proof. apply generic_format_round; typeclasses eauto. Qed.

Lemma fl_id x : float x -> fl x = x.
Proof. intros. apply round_generic; [typeclasses eauto|assumption]. Qed.

Lemma fl_le x y : x <= y -> fl x <= fl y.
Proof. intros. apply round_le; [typeclasses eauto..|assumption]. Qed.

Lemma float_0 : float 0. Proof. apply generic_format_0. Qed.

Lemma fl_up x : 0 <= x -> 0 <= fl x <= x * (1 + uu).
Proof.
  intros H. split.
  - rewrite <- (fl_id 0 float_0). now apply fl_le.
  - pose proof (relative_error_N_FLX radix2 53 eq_refl (fun z => negb (Z.even z)) x) as E.
    fold ZnearestE in E. change (round radix2 (FLX_exp 53) ZnearestE x) with (fl x) in E.
    rewrite (Rabs_pos_eq x H) in E. apply Rabs_le_inv in E.
    assert (U : / 2 * bpow radix2 (- (53) + 1) = uu).
    { rewrite uu_val. replace (bpow radix2 (- (53) + 1)) with (/ 4503599627370496) by reflexivity. lra. }
    rewrite U in E. lra.
Qed.

Lemma fl_zero x : fl x = 0 -> x = 0.
Proof. intros H. apply (eq_0_round_0_FLX radix2 53 ZnearestE x). exact H. Qed.

(* ------------------------------------------------------------------ *)
(* Points                                                              *)

Lemma asked_size size x n : asked size x n -> size_or size (length x) = n.
Proof. unfold asked, size_or. destruct size as [[|z|z]|]; intuition (subst; try congruence). Qed.

Lemma linspace_shape a b n p : np_linspace a b n = Ok p -> (1 <= n)%Z ->
  Z.of_nat (length p) = n /\ (float a -> nth 0 p 0 = a) /\ ((2 <= n)%Z -> final p = b).
Proof.
  unfold np_linspace. intros H N. destruct (Z.ltb_spec n 0); [lia|]. injection H as <-.
  set (F := fun i => _). split; [rewrite map_length, seq_length; lia|]. split.
  - intros FA. rewrite (nth_indep _ 0 (F 0%nat)) by (rewrite map_length, seq_length; lia).
    rewrite map_nth, seq_nth by lia. cbn [Nat.add]. unfold F. change (Z.of_nat 0) with 0%Z.
    destruct (Z.ltb_spec 1 n), (Z.eqb_spec 0 (n - 1)); try lia; cbn [andb].
    + destruct (Z.ltb_spec 0 (n - 1)); [|lia]. destruct (Reqb _ 0).
      * unfold Rdiv. rewrite !Rmult_0_l, (fl_id 0 float_0), Rmult_0_l, (fl_id 0 float_0), Rplus_0_l. now apply fl_id.
      * rewrite Rmult_0_l, (fl_id 0 float_0), Rplus_0_l. now apply fl_id.
    + destruct (Z.ltb_spec 0 (n - 1)); [lia|]. rewrite Rmult_0_l, (fl_id 0 float_0), Rplus_0_l. now apply fl_id.
  - intros N2. unfold final. rewrite map_length, seq_length. rewrite (nth_indep _ 0 (F 0%nat)) by (rewrite map_length, seq_length; lia).
    rewrite map_nth, seq_nth by lia. cbn [Nat.add]. unfold F.
    destruct (Z.ltb_spec 1 n); [|lia]. destruct (Z.eqb_spec (Z.of_nat (Z.to_nat n - 1)) (n - 1)); [reflexivity|lia].
Qed.

Lemma thin d : 1 <= d <= 1125899906842624 -> (d - 1) * ((1 + uu) * (1 + uu) * (1 + uu)) <= d.
Proof.
  rewrite uu_val. intros [H1 H2]. set (u := / 9007199254740992). assert (U : 9007199254740992 * u = 1) by (unfold u; lra).
  assert (0 < u) by (unfold u; lra). 
  assert ((1 + u) * (1 + u) * (1 + u) <= 1 + 4 * u) by (assert (u <= 1 / 100) by (unfold u; lra); nra).
  apply Rle_trans with ((d - 1) * (1 + 4 * u)); [apply Rmult_le_compat_l; lra|].
  assert ((d - 1) * u <= 1125899906842624 * u) by (apply Rmult_le_compat_r; lra). lra.
Qed.

(** The points of `np.linspace` stay between its ends, in order. *)
Lemma linspace_inside a b n p : np_linspace a b n = Ok p -> (1 <= n <= 2 ^ 50)%Z -> float a -> float b -> a <= b ->
  (forall v, In v p -> float v /\ a <= v <= b) /\ not_falling p.
Proof.
  unfold np_linspace. intros H N FA FB AB. destruct (Z.ltb_spec n 0); [lia|]. injection H as <-.
  set (D := fl (b - a)). set (st := fl (D / IZR (n - 1))).
  pose proof (fl_up (b - a) ltac:(lra)) as [D0 D1]. fold D in D0, D1.
  set (y := fun i : nat => if (0 <? n - 1)%Z then if Reqb st 0 then fl (fl (IZR (Z.of_nat i) / IZR (n - 1)) * D) else fl (IZR (Z.of_nat i) * st)
     else fl (IZR (Z.of_nat i) * D)).
  assert (Y : forall i, (Z.of_nat i <= n - 2 \/ i = 0%nat)%Z -> 0 <= y i /\ y i <= b - a /\ forall j, (j <= i)%nat -> y j <= y i).
  { intros i Hi. unfold y. destruct (Z.ltb_spec 0 (n - 1)) as [P|P].
    - assert (P' : 1 <= IZR (n - 1) <= 1125899906842624) by (split; apply IZR_le; lia).
      assert (DD : 0 <= D / IZR (n - 1)) by (apply Rmult_le_pos; [lra|apply Rlt_le, Rinv_0_lt_compat; lra]).
      pose proof (fl_up _ DD) as [S0 S1]. fold st in S0, S1.
      destruct (Reqb st 0) eqn:E.
      + apply Reqb_spec in E. apply fl_zero in E.
        assert (D = 0) as ZD. { replace D with (D / IZR (n - 1) * IZR (n - 1)) by (field; lra). rewrite E. ring. }
        rewrite ZD. split; [|split]; [| |intros j _]; rewrite ?Rmult_0_r, ?(fl_id 0 float_0); lra.
      + assert (I0 : 0 <= IZR (Z.of_nat i)) by (apply IZR_le; lia).
        assert (IS : 0 <= IZR (Z.of_nat i) * st) by (apply Rmult_le_pos; lra).
        pose proof (fl_up _ IS) as [Q0 Q1]. split; [exact Q0|]. split.
        * assert (I1 : IZR (Z.of_nat i) <= IZR (n - 1) - 1) by (rewrite <- minus_IZR; apply IZR_le; lia).
          pose proof (thin _ P') as T. set (d := IZR (n - 1)) in *. set (c := 1 + uu) in *.
          assert (C0 : 0 < c) by (unfold c; rewrite uu_val; lra).
          apply Rle_trans with (1 := Q1).
          apply Rle_trans with ((d - 1) * st * c); [apply Rmult_le_compat_r; [lra|]; apply Rmult_le_compat_r; lra|].
          apply Rle_trans with ((d - 1) * (D / d * c) * c); [apply Rmult_le_compat_r; [lra|]; apply Rmult_le_compat_l; lra|].
          apply Rle_trans with ((d - 1) * ((b - a) * c / d * c) * c).
          { apply Rmult_le_compat_r; [lra|]. apply Rmult_le_compat_l; [lra|]. apply Rmult_le_compat_r; [lra|].
            apply Rmult_le_compat_r; [apply Rlt_le, Rinv_0_lt_compat; lra|lra]. }
          replace ((d - 1) * ((b - a) * c / d * c) * c) with ((b - a) * (((d - 1) * (c * c * c)) / d)) by (field; lra).
          rewrite <- (Rmult_1_r (b - a)) at 2. apply Rmult_le_compat_l; [lra|].
          apply Rmult_le_reg_r with d; [lra|]. replace ((d - 1) * (c * c * c) / d * d) with ((d - 1) * (c * c * c)) by (field; lra). lra.
        * intros j Hj. apply fl_le. apply Rmult_le_compat_r; [lra|]. apply IZR_le. lia.
    - assert (i = 0%nat) as -> by lia. rewrite Rmult_0_l, (fl_id 0 float_0). split; [lra|]. split; [lra|].
      intros j Hj. assert (j = 0%nat) as -> by lia. cbn. rewrite Rmult_0_l, (fl_id 0 float_0). lra. }
  set (F := fun i : nat => if (1 <? n)%Z && (Z.of_nat i =? n - 1)%Z then b else fl (y i + a)).
  assert (V : forall i, (Z.of_nat i < n)%Z -> float (F i) /\ a <= F i <= b).
  { intros i Hi. unfold F. destruct (Z.ltb_spec 1 n), (Z.eqb_spec (Z.of_nat i) (n - 1)); cbn [andb];
      try (split; [assumption|lra]); (split; [apply fl_float|]);
      destruct (Y i ltac:(lia)) as (Y0 & Y1 & _); (split; [rewrite <- (fl_id a FA) at 1|rewrite <- (fl_id b FB)]; apply fl_le; lra). }
  change (map _ (seq 0 (Z.to_nat n))) with (map F (seq 0 (Z.to_nat n))). split.
  - intros v Hv. apply in_map_iff in Hv as (i & <- & Hi). apply in_seq in Hi. apply V. lia.
  - intros i j. rewrite map_length, seq_length. intros [L Hj].
    rewrite !(nth_indep _ 0 (F 0%nat)) by (rewrite map_length, seq_length; lia). rewrite !map_nth, !seq_nth by lia. cbn [Nat.add].
    unfold F at 2. destruct (Z.ltb_spec 1 n), (Z.eqb_spec (Z.of_nat j) (n - 1)); cbn [andb]; try (apply V; lia); try lia.
    unfold F. destruct (Z.eqb_spec (Z.of_nat i) (n - 1)); [lia|]. rewrite andb_false_r.
    apply fl_le. destruct (Y j ltac:(lia)) as (_ & _ & Y2). specialize (Y2 i ltac:(lia)). lra.
Qed.

(* ------------------------------------------------------------------ *)
(* Floating-point numbers between 16 and 32, and between 1 and 2       *)

Lemma float_int (m e : Z) : (Z.abs m < 2 ^ 53)%Z -> float (IZR m * bpow radix2 e).
Proof. intros H. apply generic_format_FLX. now exists (Float radix2 m e). Qed.

Lemma float_scale x e : float x -> float (x * bpow radix2 e).
Proof.
  intros H. destruct (FLX_format_generic radix2 53 x H) as [[m f] E L]. cbn [Fnum] in L. rewrite E. unfold F2R. cbn [Fnum Fexp].
  rewrite Rmult_assoc, <- bpow_plus. now apply float_int.
Qed.

Lemma float_unit x : float x -> 1 <= x < 2 -> exists m, x = IZR m * / 4503599627370496.
Proof.
  intros H B. rewrite H. unfold F2R. cbn [Fnum Fexp]. unfold cexp, FLX_exp.
  assert (M : mag radix2 x = 1%Z :> Z). { apply mag_unique_pos. change (bpow radix2 (1 - 1)) with 1. change (bpow radix2 1) with 2. lra. }
  rewrite M. eexists. cbn [Z.sub Z.add Z.opp Z.pos_sub Pos.pred_double bpow]. reflexivity.
Qed.

(** What is asked of `np.log10` between 16 and 32: results that are numbers
    between 19/16 and 25/16. *)
Definition log10_there (log10 : R -> R) : Prop :=
  forall b, float b -> 16 <= b < 32 -> float (log10 b) /\ 19 / 16 <= log10 b <= 25 / 16.

(** `10 ** log10(b)` is b again. *)
Definition comes_back (log10 pow10 : R -> R) (b : R) : Prop := pow10 (log10 b) = b.

Lemma nodup_map {A B} (f : A -> B) l : NoDup l -> (forall x y, In x l -> In y l -> f x = f y -> x = y) -> NoDup (map f l).
Proof.
  induction l as [|x l IH]; intros N I; cbn [map]; [constructor|]. inversion N; subst. constructor.
  - intros H. apply in_map_iff in H as (y & E & Hy). assert (y = x) by (apply I; [now right|now left|exact E]). now subst y.
  - apply IH; [assumption|]. intros u v Hu Hv. apply I; now right.
Qed.

Lemma few_ints (lo n : Z) l : (0 <= n)%Z -> NoDup l -> (forall z, In z l -> (lo <= z < lo + n)%Z) -> (Z.of_nat (length l) <= n)%Z.
Proof.
  intros N ND H.
  assert (I : incl l (map (fun i => (lo + Z.of_nat i)%Z) (seq 0 (Z.to_nat n)))).
  { intros z Hz. apply in_map_iff. exists (Z.to_nat (z - lo)). specialize (H z Hz). split; [lia|]. apply in_seq. lia. }
  apply NoDup_incl_length in I; [|exact ND]. rewrite map_length, seq_length in I. lia.
Qed.

(** Whatever `np.log10` and `np.power` do, fewer than half of the numbers
    between 16 and 32 come back. *)
Theorem few_come_back log10 pow10 l : log10_there log10 -> NoDup l ->
  (forall b, In b l -> float b /\ 16 <= b < 32 /\ comes_back log10 pow10 b) ->
  (Z.of_nat (length l) <= 3 * 2 ^ 49 + 1)%Z.
Proof.
  intros HL ND H. set (f := fun b => Ztrunc (log10 b * 4503599627370496)).
  assert (F : forall b, In b l -> log10 b = IZR (f b) * / 4503599627370496).
  { intros b Hb. destruct (H b Hb) as (FB & B & _). destruct (HL b FB B) as (FL & L).
    destruct (float_unit _ FL ltac:(lra)) as [m E]. unfold f. rewrite E.
    replace (IZR m * / 4503599627370496 * 4503599627370496) with (IZR m) by (field; lra). now rewrite Ztrunc_IZR. }
  rewrite <- (map_length f). apply (few_ints (19 * 2 ^ 48) (3 * 2 ^ 49 + 1)); [lia| |].
  - apply nodup_map; [exact ND|]. intros x y Hx Hy E. destruct (H x Hx) as (_ & _ & CX). destruct (H y Hy) as (_ & _ & CY).
    rewrite <- CX, <- CY. now rewrite (F x Hx), (F y Hy), E.
  - intros z Hz. apply in_map_iff in Hz as (b & <- & Hb). destruct (H b Hb) as (FB & B & _). destruct (HL b FB B) as (_ & L).
    rewrite (F b Hb) in L. set (z := f b) in *.
    assert (19 * 281474976710656 <= IZR z <= 25 * 281474976710656) as [L1 L2] by lra.
    rewrite <- mult_IZR in L1, L2. apply le_IZR in L1, L2. lia.
Qed.

(** There are 2^52 of them. *)
Theorem numbers_there : exists l, NoDup l /\ Z.of_nat (length l) = (2 ^ 52)%Z /\ forall b, In b l -> float b /\ 16 <= b < 32.
Proof.
  set (N := (2 ^ 52)%Z). assert (HN : N = 4503599627370496%Z) by reflexivity. clearbody N.
  exists (map (fun i => IZR (N + Z.of_nat i) * bpow radix2 (-48)) (seq 0 (Z.to_nat N))).
  assert (BP : bpow radix2 (-48) = / 281474976710656) by reflexivity. split; [|split].
  - apply nodup_map; [apply seq_NoDup|]. intros i j _ _ E. rewrite BP in E.
    assert (IZR (N + Z.of_nat i) = IZR (N + Z.of_nat j)) as E' by lra. apply eq_IZR in E'. lia.
  - rewrite map_length, seq_length. lia.
  - intros b Hb. apply in_map_iff in Hb as (i & <- & Hi). apply in_seq in Hi. split.
    + apply float_int. change (2 ^ 53)%Z with 9007199254740992%Z. lia.
    + rewrite BP. assert (4503599627370496 <= IZR (N + Z.of_nat i) <= 9007199254740991) by (split; apply IZR_le; lia). lra.
Qed.

Lemma one_lost log10 pow10 : log10_there log10 -> exists b, float b /\ 16 <= b < 32 /\ ~ comes_back log10 pow10 b.
Proof.
  intros HL. destruct numbers_there as (l & ND & LL & H).
  destruct (Exists_dec (fun b => ~ comes_back log10 pow10 b) l) as [E|E].
  - intros b. unfold comes_back. destruct (Req_EM_T (pow10 (log10 b)) b) as [e|e]; [right; now intros X|now left].
  - apply Exists_exists in E as (b & Hb & NB). exists b. destruct (H b Hb). auto.
  - exfalso. assert (X : (Z.of_nat (length l) <= 3 * 2 ^ 49 + 1)%Z).
    { apply (few_come_back log10 pow10 l HL ND). intros b Hb. destruct (H b Hb) as [F B]. split; [exact F|]. split; [exact B|].
      destruct (Req_EM_T (pow10 (log10 b)) b) as [e|e]; [exact e|]. exfalso. apply E, Exists_exists. exists b. auto. }
    rewrite LL in X. lia.
Qed.

(* ------------------------------------------------------------------ *)
(* 1-d                                                                 *)

Lemma outside_dec x p : existsb (fun v => Rltb v (at0 x) || Rltb (atm1 x) v) p = false <-> inside x p.
Proof.
  unfold inside, first, final. split.
  - intros H v Hv. assert (E : Rltb v (at0 x) || Rltb (atm1 x) v = false).
    { apply not_true_is_false. intros E. apply not_true_iff_false in H. apply H, existsb_exists. eauto. }
    apply orb_false_iff in E as [E1 E2]. apply Rltb_false in E1, E2. unfold at0, atm1 in *. lra.
  - intros H. apply not_true_is_false. intros E. apply existsb_exists in E as (v & Hv & E). specialize (H v Hv).
    apply orb_true_iff in E as [E|E]; apply Rltb_spec in E; unfold at0, atm1 in E; lra.
Qed.

Section Functions.
Variable log10 pow10 : R -> R.
Variable spl1 : nat -> list R -> list R -> res (R -> R).
Variable spl2 : nat -> list R -> list R -> matrix -> res (R -> R -> R).

Let resample := resample_points log10 pow10 spl1 spl2.

Lemma points_lin x size n : (1 <= length x)%nat -> asked size x n ->
  new_points log10 pow10 false x size = np_linspace (first x) (final x) n.
Proof.
  intros L A. pose proof (asked_size _ _ _ A) as S. destruct x as [|a x]; [cbn in L; lia|]. unfold new_points. cbv zeta. rewrite S. reflexivity.
Qed.

Lemma points_lg x size n : (1 <= length x)%nat -> asked size x n -> (0 <= n)%Z -> 0 < first x -> 0 < final x ->
  new_points log10 pow10 true x size = np_logspace log10 pow10 (first x) (final x) n.
Proof.
  intros L A N P0 P1. pose proof (asked_size _ _ _ A) as S. destruct x as [|a x]; [cbn in L; lia|]. unfold new_points. cbv zeta. rewrite S.
  destruct (Z.ltb_spec n 0); [lia|]. change (atm1 (a :: x)) with (final (a :: x)). unfold first in P0 |- *. cbn [nth] in P0 |- *.
  destruct (Rleb a 0) eqn:E1; [apply Rleb_spec in E1; lra|].
  destruct (Rleb (final (a :: x)) 0) eqn:E2; [apply Rleb_spec in E2; lra|]. reflexivity.
Qed.

Lemma linspace_some a b n : (0 <= n)%Z -> exists l, np_linspace a b n = Ok l /\ Z.of_nat (length l) = n.
Proof.
  intros N. unfold np_linspace. destruct (Z.ltb_spec n 0); [lia|]. eexists. split; [reflexivity|]. rewrite map_length, seq_length. lia.
Qed.

Lemma ends_in x : (1 <= length x)%nat -> In (first x) x /\ In (final x) x.
Proof. intros L. unfold first, final. split; apply nth_In; lia. Qed.

(** C125 for linear spacing: any points that increase are resampled, without
    an error of range, at as many points as asked for, from the first to the
    last of the original ones. *)
Theorem resample_lin_1d x y size n k f : increasing x -> all_floats x -> (2 <= length x)%nat -> (2 <= length y)%nat ->
  spl1 k x y = Ok f -> asked size x n -> (1 <= n <= 2 ^ 50)%Z ->
  exists p, resample false (OneArr x) (Samp1 y) (SOne size) k = Ok (Res1 p (map f p)) /\
    Z.of_nat (length p) = n /\ first p = first x /\ ((2 <= n)%Z -> final p = final x) /\
    inside x p /\ not_falling p /\ all_floats p.
Proof.
  intros IN FX LX LY HF A N. unfold resample, resample_points, squeezed. cbn [bind].
  replace (length y =? 1)%nat with false by (symmetry; apply Nat.eqb_neq; lia). unfold resample_1d.
  replace (length x =? 1)%nat with false by (symmetry; apply Nat.eqb_neq; lia).
  rewrite (points_lin x size n) by (lia || assumption). set (a := first x). set (b := final x).
  destruct (ends_in x ltac:(lia)) as [Ia Ib]. pose proof (FX _ Ia) as Fa. pose proof (FX _ Ib) as Fb.
  assert (AB : a <= b). { apply Rlt_le. apply (IN 0%nat (length x - 1)%nat). lia. }
  destruct (linspace_some a b n) as (p & E & _); [lia|]. rewrite E.
  cbn [bind]. rewrite HF. cbn [bind].
  destruct (linspace_shape _ _ _ _ E ltac:(lia)) as (L & P0 & P1). destruct (linspace_inside _ _ _ _ E N Fa Fb AB) as (I & NF).
  assert (INS : inside x p) by (intros v Hv; apply I in Hv as [_ Hv]; exact Hv).
  unfold eval_raise. rewrite (proj2 (outside_dec x p) INS). cbn [bind]. exists p. split; [reflexivity|]. split; [exact L|].
  split; [exact (P0 Fa)|]. split; [exact P1|]. split; [exact INS|].
  split; [exact NF|]. intros v Hv. now apply I in Hv.
Qed.

(** For logarithmic spacing: the same call fails exactly if one of its own
    points leaves the range; the first and last of them are what `np.log10`
    and `np.power` make of the original ones. *)
Theorem resample_lglin_1d x y size n k f : (forall v, In v x -> 0 < v /\ float (log10 v)) -> (2 <= length x)%nat -> (2 <= length y)%nat ->
  spl1 k x y = Ok f -> asked size x n -> (1 <= n)%Z ->
  exists p, Z.of_nat (length p) = n /\ first p = pow10 (log10 (first x)) /\ ((2 <= n)%Z -> final p = pow10 (log10 (final x))) /\
    (inside x p -> resample true (OneArr x) (Samp1 y) (SOne size) k = Ok (Res1 p (map f p))) /\
    (~ inside x p -> resample true (OneArr x) (Samp1 y) (SOne size) k = Err ValueError).
Proof.
  intros PX LX LY HF A N. unfold resample, resample_points, squeezed. cbn [bind].
  replace (length y =? 1)%nat with false by (symmetry; apply Nat.eqb_neq; lia). unfold resample_1d.
  replace (length x =? 1)%nat with false by (symmetry; apply Nat.eqb_neq; lia).
  destruct (ends_in x ltac:(lia)) as [Ia Ib]. destruct (PX _ Ia) as [Pa Fa]. destruct (PX _ Ib) as [Pb Fb].
  rewrite (points_lg x size n) by (lia || assumption). set (a := first x) in *. set (b := final x) in *.
  unfold np_logspace. destruct (linspace_some (log10 a) (log10 b) n) as (l & E & _); [lia|]. rewrite E.
  cbn [bind]. rewrite HF. cbn [bind]. destruct (linspace_shape _ _ _ _ E ltac:(lia)) as (L & P0 & P1).
  exists (map pow10 l). split; [now rewrite map_length|].
  assert (NTH : forall i, (i < length l)%nat -> nth i (map pow10 l) 0 = pow10 (nth i l 0)).
  { intros i Hi. rewrite (nth_indep _ 0 (pow10 0)) by (now rewrite map_length). apply map_nth. }
  split; [unfold first; rewrite NTH by lia; now rewrite (P0 Fa)|].
  split; [intros N2; unfold final; rewrite map_length, NTH by lia; specialize (P1 N2); unfold final in P1; rewrite P1; reflexivity|].
  unfold eval_raise. split.
  - intros I. rewrite (proj2 (outside_dec x _) I). reflexivity.
  - intros I. destruct (existsb _ _) eqn:EX; [reflexivity|]. exfalso. apply I, (proj1 (outside_dec x _) EX).
Qed.

(** C125 refuted for logarithmic spacing: a number that does not come back
    ends, or begins, points of any number that are refused. *)
Definition doubling (b : R) (n : nat) : list R := map (fun i => b * bpow radix2 (Z.of_nat i)) (seq 0 n).

Lemma doubling_ok b n : float b -> 0 < b -> all_floats (doubling b n) /\ increasing (doubling b n) /\ (forall v, In v (doubling b n) -> 0 < v) /\
  length (doubling b n) = n /\ ((0 < n)%nat -> first (doubling b n) = b /\ final (doubling b n) = b * bpow radix2 (Z.of_nat n - 1)).
Proof.
  intros F P. unfold doubling. assert (NTH : forall i, (i < n)%nat -> nth i (doubling b n) 0 = b * bpow radix2 (Z.of_nat i)).
  { intros i Hi. unfold doubling. set (g := fun i => _). rewrite (nth_indep _ 0 (g 0%nat)) by (now rewrite map_length, seq_length).
    now rewrite map_nth, seq_nth by lia. }
  fold (doubling b n). assert (LN : length (doubling b n) = n) by (unfold doubling; now rewrite map_length, seq_length).
  repeat split.
  - intros v Hv. apply in_map_iff in Hv as (i & <- & _). now apply float_scale.
  - intros i j Hij. rewrite LN in Hij. rewrite !NTH by lia. apply Rmult_lt_compat_l; [exact P|]. apply bpow_lt. lia.
  - intros v Hv. apply in_map_iff in Hv as (i & <- & _). apply Rmult_lt_0_compat; [exact P|apply bpow_gt_0].
  - exact LN.
  - unfold first. rewrite NTH by lia. change (bpow radix2 (Z.of_nat 0)) with 1. ring.
  - unfold final. rewrite LN, NTH by lia. do 2 f_equal. lia.
Qed.

Theorem lost_end_refused b N : float b -> 0 < b -> (2 <= N)%nat -> ~ comes_back log10 pow10 b -> (forall v, float v -> 0 < v -> float (log10 v)) ->
  exists x, length x = N /\ increasing x /\ all_floats x /\ (forall v, In v x -> 0 < v) /\ (first x = b \/ final x = b) /\
    forall y size n k f, (2 <= length y)%nat -> spl1 k x y = Ok f -> asked size x n -> (2 <= n)%Z ->
      resample true (OneArr x) (Samp1 y) (SOne size) k = Err ValueError.
Proof.
  intros F P HN NB FL. unfold comes_back in NB. destruct (Rlt_le_dec b (pow10 (log10 b))) as [GT|LE].
  - set (x := doubling (b * bpow radix2 (1 - Z.of_nat N)) N).
    destruct (doubling_ok (b * bpow radix2 (1 - Z.of_nat N)) N) as (AF & IN & PX & LN & FE);
      [now apply float_scale|apply Rmult_lt_0_compat; [exact P|apply bpow_gt_0]|]. fold x in AF, IN, PX, LN, FE.
    assert (FB : final x = b).
    { destruct (FE ltac:(lia)) as [_ ->]. rewrite Rmult_assoc, <- bpow_plus. replace (1 - Z.of_nat N + (Z.of_nat N - 1))%Z with 0%Z by lia. cbn. ring. }
    exists x. do 4 (split; [assumption|]). split; [now right|]. intros y size n k f LY HF A N2.
    destruct (resample_lglin_1d x y size n k f) as (p & LP & _ & PF & _ & RES); try assumption; try lia.
    { intros v Hv. split; [now apply PX|]. apply FL; [now apply AF|now apply PX]. }
    apply RES. intros I. specialize (PF N2). rewrite FB in PF.
    assert (J : In (final p) p) by (unfold final; apply nth_In; lia). specialize (I _ J). rewrite PF, FB in I. lra.
  - set (x := doubling b N). destruct (doubling_ok b N F P) as (AF & IN & PX & LN & FE). fold x in AF, IN, PX, LN, FE.
    destruct (FE ltac:(lia)) as [FB _].
    exists x. do 4 (split; [assumption|]). split; [now left|]. intros y size n k f LY HF A N2.
    destruct (resample_lglin_1d x y size n k f) as (p & LP & PF & _ & _ & RES); try assumption; try lia.
    { intros v Hv. split; [now apply PX|]. apply FL; [now apply AF|now apply PX]. }
    apply RES. intros I. rewrite FB in PF.
    assert (J : In (first p) p) by (unfold first; apply nth_In; lia). specialize (I _ J). rewrite PF, FB in I. lra.
Qed.

Theorem resample_lglin_refuted N : log10_there log10 -> (forall v, float v -> 0 < v -> float (log10 v)) -> (2 <= N)%nat ->
  exists x, length x = N /\ increasing x /\ all_floats x /\ (forall v, In v x -> 0 < v) /\
    forall y size n k f, (2 <= length y)%nat -> spl1 k x y = Ok f -> asked size x n -> (2 <= n)%Z ->
      resample true (OneArr x) (Samp1 y) (SOne size) k = Err ValueError.
Proof.
  intros HL FL HN. destruct (one_lost log10 pow10 HL) as (b & F & B & NB).
  destruct (lost_end_refused b N F ltac:(lra) HN NB FL) as (x & L & IN & AF & P & _ & H). exists x. auto.
Qed.

(* ------------------------------------------------------------------ *)
(* 2-d                                                                 *)

(** Two arrays of points of one length, each with its own size. *)
Theorem resample_2d_values lg x0 x1 m size0 size1 n0 n1 k f : length x0 = length x1 -> (2 <= length x0)%nat -> (2 <= nrows m)%nat -> (2 <= ncols m)%nat ->
  (lg = true -> forall v, In v x0 \/ In v x1 -> 0 < v) ->
  spl2 k x0 x1 m = Ok f -> asked size0 x0 n0 -> asked size1 x1 n1 -> (0 <= n0)%Z -> (0 <= n1)%Z ->
  exists p0 p1, resample lg (TwoArr x0 x1) (Samp2 m) (STwo size0 size1) k = Ok (Res2 p0 p1 (map (fun u => map (f u) p1) p0)) /\
    Z.of_nat (length p0) = n0 /\ Z.of_nat (length p1) = n1 /\
    (lg = false -> (forall v, In v x0 \/ In v x1 -> float v) -> increasing x0 -> increasing x1 -> (1 <= n0 <= 2 ^ 50)%Z -> (1 <= n1 <= 2 ^ 50)%Z ->
       inside x0 p0 /\ inside x1 p1).
Proof.
  intros LL L0 NR NC PO HF A0 A1 N0 N1. unfold resample, resample_points, squeezed.
  rewrite LL, Nat.eqb_refl. cbn [negb]. replace (length x1 =? 1)%nat with false by (symmetry; apply Nat.eqb_neq; lia). cbn [bind].
  replace (nrows m =? 1)%nat with false by (symmetry; apply Nat.eqb_neq; lia).
  replace (ncols m =? 1)%nat with false by (symmetry; apply Nat.eqb_neq; lia). unfold resample_2d.
  assert (NP : forall x size n, (2 <= length x)%nat -> (lg = true -> forall v, In v x -> 0 < v) -> asked size x n -> (0 <= n)%Z ->
    exists p, new_points log10 pow10 lg x size = Ok p /\ Z.of_nat (length p) = n /\
      (lg = false -> (forall v, In v x -> float v) -> increasing x -> (1 <= n <= 2 ^ 50)%Z -> inside x p)).
  { clear - log10. intros x size n L PO A N. destruct (ends_in x ltac:(lia)) as [Ia Ib]. destruct lg.
    - rewrite (points_lg x size n) by (lia || assumption || now apply PO).
      unfold np_logspace. destruct (linspace_some (log10 (first x)) (log10 (final x)) n N) as (l & E & LE). rewrite E.
      cbn [bind]. exists (map pow10 l). split; [reflexivity|]. split; [now rewrite map_length|discriminate].
    - rewrite (points_lin x size n) by (lia || assumption).
      destruct (linspace_some (first x) (final x) n N) as (l & E & LE). rewrite E. exists l. split; [reflexivity|]. split; [exact LE|]. intros _ FX IN NN v Hv.
      destruct (linspace_inside _ _ _ _ E NN) as [I _].
      + now apply FX.
      + now apply FX.
      + apply Rlt_le. apply (IN 0%nat (length x - 1)%nat). lia.
      + apply I in Hv as [_ Hv]. exact Hv. }
  destruct (NP x0 size0 n0 L0) as (p0 & E0 & LP0 & I0); [intros T v Hv; apply (PO T); now left|assumption|assumption|].
  destruct (NP x1 size1 n1 ltac:(lia)) as (p1 & E1 & LP1 & I1); [intros T v Hv; apply (PO T); now right|assumption|assumption|].
  rewrite E0, E1, HF. cbn [bind]. exists p0, p1. split; [reflexivity|]. split; [exact LP0|]. split; [exact LP1|].
  intros LG FX IN0 IN1 NN0 NN1. split; [apply I0|apply I1]; try assumption; intros v Hv; apply FX; auto.
Qed.

(** Arrays of points of different lengths are refused, whatever the samples. *)
Theorem resample_lengths_refused lg x0 x1 s size k : length x0 <> length x1 ->
  resample lg (TwoArr x0 x1) s size k = Err ValueError.
Proof.
  intros H. unfold resample, resample_points, squeezed. replace (length x0 =? length x1)%nat with false by (symmetry; now apply Nat.eqb_neq). reflexivity.
Qed.

(** With logarithmic spacing the points returned for 2-d samples may leave the
    range, and no error says so. *)
Theorem lglin_2d_outside N : log10_there log10 -> (forall v, float v -> 0 < v -> float (log10 v)) -> (2 <= N)%nat ->
  exists x, length x = N /\ increasing x /\ all_floats x /\ (forall v, In v x -> 0 < v) /\
    forall m k f, (2 <= nrows m)%nat -> (2 <= ncols m)%nat -> spl2 k x x m = Ok f ->
      exists p, resample true (OneArr x) (Samp2 m) (SOne None) k = Ok (Res2 p p (map (fun u => map (f u) p) p)) /\ ~ inside x p.
Proof.
  intros HL FL HN. destruct (one_lost log10 pow10 HL) as (b & F & B & NB).
  assert (X : exists x, length x = N /\ increasing x /\ all_floats x /\ (forall v, In v x -> 0 < v) /\
    (pow10 (log10 (first x)) < first x \/ final x < pow10 (log10 (final x)))).
  { unfold comes_back in NB. destruct (Rlt_le_dec b (pow10 (log10 b))) as [GT|LE].
    - destruct (doubling_ok (b * bpow radix2 (1 - Z.of_nat N)) N) as (AF & IN & PX & LN & FE);
        [now apply float_scale|apply Rmult_lt_0_compat; [lra|apply bpow_gt_0]|].
      exists (doubling (b * bpow radix2 (1 - Z.of_nat N)) N). do 4 (split; [assumption|]). right. destruct (FE ltac:(lia)) as [_ ->].
      rewrite Rmult_assoc, <- bpow_plus. replace (1 - Z.of_nat N + (Z.of_nat N - 1))%Z with 0%Z by lia.
      change (bpow radix2 0) with 1. now rewrite Rmult_1_r.
    - destruct (doubling_ok b N F ltac:(lra)) as (AF & IN & PX & LN & FE). exists (doubling b N). do 4 (split; [assumption|]).
      left. destruct (FE ltac:(lia)) as [-> _]. lra. }
  destruct X as (x & LN & IN & AF & PX & OUT). exists x. do 4 (split; [assumption|]). intros m k f NR NC HF.
  unfold resample, resample_points, squeezed. cbn [bind].
  replace (nrows m =? 1)%nat with false by (symmetry; apply Nat.eqb_neq; lia).
  replace (ncols m =? 1)%nat with false by (symmetry; apply Nat.eqb_neq; lia).
  assert (NS : forall X (r : res X), match x with [_] => Err TypeError | _ => r end = r).
  { intros X r. destruct x as [|a [|c x']]; [reflexivity|cbn in LN; lia|reflexivity]. }
  rewrite NS. unfold resample_2d. destruct (ends_in x ltac:(lia)) as [Ia Ib].
  rewrite (points_lg x None (Z.of_nat (length x))) by (lia || reflexivity || now apply PX).
  unfold np_logspace. destruct (linspace_some (log10 (first x)) (log10 (final x)) (Z.of_nat (length x)) ltac:(lia)) as (l & E & _). rewrite E.
  cbn [bind]. rewrite HF. cbn [bind]. exists (map pow10 l). split; [reflexivity|].
  destruct (linspace_shape _ _ _ _ E ltac:(lia)) as (L & P0 & P1). specialize (P1 ltac:(lia)).
  assert (Fa : float (log10 (first x))) by (apply FL; [now apply AF|now apply PX]).
  intros I. destruct OUT as [O|O].
  - assert (J : In (pow10 (log10 (first x))) (map pow10 l)).
    { apply in_map. rewrite <- (P0 Fa); apply nth_In; lia. }
    specialize (I _ J). lra.
  - assert (J : In (pow10 (log10 (final x))) (map pow10 l)). { apply in_map. rewrite <- P1. unfold final. apply nth_In. lia. }
    specialize (I _ J). lra.
Qed.

End Functions.

(* ------------------------------------------------------------------ *)
(* Cases                                                               *)

(** Logarithms and powers that are the nearest numbers, and splines that
    always exist. *)
Definition near_log10 (x : R) : R := fl (ln x / ln 10).
Definition near_pow10 (x : R) : R := fl (Rpower 10 x).
Definition flat1 (k : nat) (x y : list R) : res (R -> R) := Ok (fun _ => first y).
Definition flat2 (k : nat) (x0 x1 : list R) (m : matrix) : res (R -> R -> R) := Ok (fun u v => u + v).

Lemma ln_pow_le x y (p q : nat) : 0 < x -> 0 < y -> x ^ p <= y ^ q -> INR p * ln x <= INR q * ln y.
Proof.
  intros X Y H. rewrite <- !ln_pow by assumption. destruct H as [H|H]; [left; apply ln_increasing; [now apply pow_lt|exact H]|right; now rewrite H].
Qed.

Example near_log10_case : log10_there near_log10 /\ (forall v, float v -> 0 < v -> float (near_log10 v)).
Proof.
  split; [|intros; apply fl_float]. intros b _ B. split; [apply fl_float|]. unfold near_log10.
  assert (T : 0 < ln 10) by (rewrite <- ln_1; apply ln_increasing; lra).
  assert (L : 19 / 16 <= ln b / ln 10 <= 25 / 16).
  { pose proof (ln_pow_le 10 16 19 16 ltac:(lra) ltac:(lra)) as A. pose proof (ln_pow_le 32 10 16 25 ltac:(lra) ltac:(lra)) as C.
    assert (ln 16 <= ln b) by (destruct (Req_dec b 16) as [->|NE]; [lra|left; apply ln_increasing; lra]).
    assert (ln b <= ln 32) by (left; apply ln_increasing; lra).
    assert (A' : INR 19 * ln 10 <= INR 16 * ln 16) by (apply A; lra).
    assert (C' : INR 16 * ln 32 <= INR 25 * ln 10) by (apply C; lra).
    replace (INR 19) with 19 in * by (cbn; lra). replace (INR 16) with 16 in * by (cbn; lra). replace (INR 25) with 25 in * by (cbn; lra).
    split; apply Rmult_le_reg_r with (ln 10); try lra; unfold Rdiv; rewrite (Rmult_assoc (ln b)), Rinv_l, Rmult_1_r by lra; lra. }
  assert (E19 : fl (19 / 16) = 19 / 16).
  { apply fl_id. replace (19 / 16) with (IZR 19 * bpow radix2 (-4)) by (replace (bpow radix2 (-4)) with (/ 16) by reflexivity; lra).
    apply float_int. reflexivity. }
  assert (E25 : fl (25 / 16) = 25 / 16).
  { apply fl_id. replace (25 / 16) with (IZR 25 * bpow radix2 (-4)) by (replace (bpow radix2 (-4)) with (/ 16) by reflexivity; lra).
    apply float_int. reflexivity. }
  split; [rewrite <- E19|rewrite <- E25]; apply fl_le; lra.
Qed.

(** Four points that logarithmic resampling refuses. *)
Example lglin_case : exists a b c d, 0 < a < b /\ b < c < d /\
  resample_points near_log10 near_pow10 flat1 flat2 true (OneArr [a; b; c; d]) (Samp1 [1; 2; 3; 4]) (SOne None) 3 = Err ValueError.
Proof.
  destruct near_log10_case as [HL FL].
  destruct (resample_lglin_refuted near_log10 near_pow10 flat1 flat2 4 HL FL ltac:(lia)) as (x & L & IN & _ & P & H).
  destruct x as [|a [|b [|c [|d [|]]]]]; try discriminate L. exists a, b, c, d.
  pose proof (IN 0 1 ltac:(cbn; lia))%nat. pose proof (IN 1 2 ltac:(cbn; lia))%nat. pose proof (IN 2 3 ltac:(cbn; lia))%nat. cbn [nth] in *.
  pose proof (P a (or_introl eq_refl)). split; [lra|]. split; [lra|].
  apply (H _ _ 4%Z _ (fun _ => 1)); [cbn; lia|reflexivity|reflexivity|lia].
Qed.

(** Linear resampling of points that double, at three points. *)
Example lin_case : exists v, 1 <= v <= 8 /\
  resample_points near_log10 near_pow10 flat1 flat2 false (OneArr [1; 2; 4; 8]) (Samp1 [5; 2; 3; 4]) (SOne (Some 3%Z)) 3
  = Ok (Res1 [1; v; 8] [5; 5; 5]).
Proof.
  assert (F1 : float 1) by (replace 1 with (IZR 1 * bpow radix2 0) by (cbn; lra); now apply float_int).
  destruct (doubling_ok 1 4 F1 ltac:(lra)) as (AF & IN & _).
  assert (E : doubling 1 4 = [1; 2; 4; 8]).
  { unfold doubling. cbn [seq map]. change (Z.of_nat 0) with 0%Z. change (Z.of_nat 1) with 1%Z. change (Z.of_nat 2) with 2%Z. change (Z.of_nat 3) with 3%Z.
    rewrite !Rmult_1_l. reflexivity. }
  rewrite E in AF, IN.
  destruct (resample_lin_1d near_log10 near_pow10 flat1 flat2 [1; 2; 4; 8] [5; 2; 3; 4] (Some 3%Z) 3 3 (fun _ => 5) IN AF)
    as (p & R & L & P0 & P1 & I & _); try (cbn; lia); [reflexivity|].
  destruct p as [|u [|v [|w [|]]]]; try (cbn [length] in L; lia). specialize (P1 ltac:(lia)). unfold first, final in P0, P1. cbn in P0, P1. subst u w.
  exists v. split; [apply (I v); now right; left|]. exact R.
Qed.

Print Assumptions resample_lin_1d.
Print Assumptions resample_lglin_1d.
Print Assumptions few_come_back.
Print Assumptions numbers_there.
Print Assumptions lost_end_refused.
Print Assumptions resample_lglin_refuted.
Print Assumptions resample_2d_values.
Print Assumptions resample_lengths_refused.
Print Assumptions lglin_2d_outside.
Print Assumptions lglin_case.
Print Assumptions lin_case.
