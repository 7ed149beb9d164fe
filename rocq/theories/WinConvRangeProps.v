(* Window convolution: convolution ranges (C64), keyword arguments and
   respacing (C65), cases. *)
From Coq Require Import String.
From Coq Require Import Reals ZArith List Lia Lra Bool Permutation.
From Coquelicot Require Import Complex.
From Verif Require Import Base ArrayModel ArrayProofs Array2dModel RSum MultipoleModel
  WindowModel WindowProps WinFormulaModel WinConvModel WinConvProps WinConvSumProps.
Import ListNotations.
Local Open Scope R_scope.

(* ------------------------------------------------------------------ *)
(* Vocabulary                                                          *)

Definition least (a : list R) (m : R) : Prop := In m a /\ forall x, In x a -> m <= x.
Definition greatest (a : list R) (m : R) : Prop := In m a /\ forall x, In x a -> x <= m.

(** The end points and the number of points of the range in common. *)
Definition common_range (coords : list (list R)) (lo hi : R) (n : nat) : Prop :=
  (exists a, In a coords /\ least a lo)
  /\ (forall a m, In a coords -> least a m -> m <= lo)
  /\ (exists a, In a coords /\ greatest a hi)
  /\ (forall a m, In a coords -> greatest a m -> hi <= m)
  /\ (exists a, In a coords /\ length a = n)
  /\ (forall a, In a coords -> (n <= length a)%nat).

Definition lin_spaced (a b : R) (num : nat) (l : list R) : Prop :=
  length l = num /\
  forall i, (i < num)%nat -> nth i l 0 = a + INR i * ((b - a) / INR (num - 1)).

(* ------------------------------------------------------------------ *)
(* The range in common                                                 *)

Lemma least_unique a x y : least a x -> least a y -> x = y.
Proof. intros [A B] [C D]. apply Rle_antisym; auto. Qed.
Lemma greatest_unique a x y : greatest a x -> greatest a y -> x = y.
Proof. intros [A B] [C D]. apply Rle_antisym; auto. Qed.

Lemma amin_least a m : amin a = Ok m <-> least a m.
Proof.
  split.
  - intros H. destruct a as [|x r]; [discriminate|].
    destruct (amin_spec (x :: r)) as (m' & E & I & L); [discriminate|].
    rewrite E in H. injection H as <-. now split.
  - intros [I L]. destruct a as [|x r]; [contradiction|].
    destruct (amin_spec (x :: r)) as (m' & E & I' & L'); [discriminate|]. rewrite E. f_equal.
    apply (least_unique (x :: r)); now split.
Qed.

Lemma amax_greatest a m : amax a = Ok m <-> greatest a m.
Proof.
  split.
  - intros H. destruct a as [|x r]; [discriminate|].
    destruct (amax_spec (x :: r)) as (m' & E & I & L); [discriminate|].
    rewrite E in H. injection H as <-. now split.
  - intros [I L]. destruct a as [|x r]; [contradiction|].
    destruct (amax_spec (x :: r)) as (m' & E & I' & L'); [discriminate|]. rewrite E. f_equal.
    apply (greatest_unique (x :: r)); now split.
Qed.

Lemma fold_natmin l x : In (fold_left Nat.min l x) (x :: l)
  /\ forall y, In y (x :: l) -> (fold_left Nat.min l x <= y)%nat.
Proof.
  revert x; induction l as [|z l IH]; intros x; cbn [fold_left].
  - split; [now left|]. intros y [->|[]]. lia.
  - destruct (IH (Nat.min x z)) as [I L]. split.
    + destruct I as [E|I]; [|now right; right].
      rewrite <- E. destruct (Nat.min_dec x z) as [->| ->]; [now left|right; now left].
    + intros y [->|[->|J]].
      * specialize (L (Nat.min y z) (or_introl eq_refl)). lia.
      * specialize (L (Nat.min x y) (or_introl eq_refl)). lia.
      * now apply L; right.
Qed.

Lemma Forall2_in_l {A B} (P : A -> B -> Prop) l r x : Forall2 P l r -> In x l ->
  exists y, In y r /\ P x y.
Proof.
  induction 1 as [|a b l r H _ IH]; intros I; [contradiction|].
  destruct I as [->|I]; [exists b; split; [now left|exact H]|].
  destruct (IH I) as (y & J & Q). exists y. split; [now right|exact Q].
Qed.

Lemma Forall2_in_r {A B} (P : A -> B -> Prop) l r y : Forall2 P l r -> In y r ->
  exists x, In x l /\ P x y.
Proof.
  induction 1 as [|a b l r H _ IH]; intros I; [contradiction|].
  destruct I as [->|I]; [exists a; split; [now left|exact H]|].
  destruct (IH I) as (x & J & Q). exists x. split; [now right|exact Q].
Qed.

Lemma linspace_spec a b num l : linspace a b num = Ok l -> (2 <= num)%Z ->
  lin_spaced a b (Z.to_nat num) l.
Proof.
  unfold linspace. intros H Hn. replace (num <? 0)%Z with false in H by (symmetry; apply Z.ltb_ge; lia).
  replace (num =? 1)%Z with false in H by (symmetry; apply Z.eqb_neq; lia).
  injection H as <-. split; [now rewrite map_length, seq_length|]. intros i Hi.
  set (f := fun i : nat => a + IZR (Z.of_nat i) * ((b - a) / IZR (num - 1))).
  rewrite (nth_indep _ 0 (f 0%nat)) by (rewrite map_length, seq_length; lia).
  rewrite (map_nth f), seq_nth by lia. unfold f. rewrite <- INR_IZR_INZ. cbn [Nat.add].
  rewrite INR_IZR_INZ with (n := (Z.to_nat num - 1)%nat).
  do 3 f_equal. f_equal. lia.
Qed.

(** The points are spaced between the largest of the least points and the
    smallest of the greatest, as many as the shortest array has; a single
    point is the lower end. *)
Theorem conv_range coords s x : find_conv_range coords s = Ok x ->
  exists lo hi n, common_range coords lo hi n /\ (n > 0)%nat /\ s <> OtherSpacing
    /\ length x = n /\ nth 0 x 0 = lo
    /\ (s = Lin -> (2 <= n)%nat -> lin_spaced lo hi n x)
    /\ (s = LgLin -> 0 < lo /\ 0 < hi /\ ((2 <= n)%nat -> log_spaced lo hi n x)).
Proof.
  unfold find_conv_range. intros H.
  apply bind_ok in H as (los & E1 & H). apply bind_ok in H as (lo & E2 & H).
  apply bind_ok in H as (his & E3 & H). apply bind_ok in H as (hi & E4 & H).
  apply sequence_forall2 in E1. apply sequence_forall2 in E3.
  apply amax_greatest in E2 as [I2 L2]. apply amin_least in E4 as [I4 L4].
  set (n := fold_left Nat.min (map (@length R) coords) (length (nth 0 coords []))) in *.
  assert (Nc : coords <> []). { intros ->. inversion E1; subst. contradiction. }
  assert (Cr : common_range coords lo hi n).
  { split; [|split; [|split; [|split; [|split]]]].
    - destruct (Forall2_in_r _ _ _ _ E1 I2) as (a & I & E). exists a. split; [exact I|].
      now apply amin_least.
    - intros a m I Lm. destruct (Forall2_in_l _ _ _ _ E1 I) as (m' & J & E).
      apply amin_least in E. rewrite (least_unique a m m' Lm E). now apply L2.
    - destruct (Forall2_in_r _ _ _ _ E3 I4) as (a & I & E). exists a. split; [exact I|].
      now apply amax_greatest.
    - intros a m I Gm. destruct (Forall2_in_l _ _ _ _ E3 I) as (m' & J & E).
      apply amax_greatest in E. rewrite (greatest_unique a m m' Gm E). now apply L4.
    - destruct (proj1 (fold_natmin (map (@length R) coords) (length (nth 0 coords [])))) as [E|I].
      + exists (nth 0 coords []). split; [|exact E]. apply nth_In. destruct coords; [congruence|cbn; lia].
      + apply in_map_iff in I as (a & E & I). now exists a.
    - intros a I. apply (proj2 (fold_natmin (map (@length R) coords) (length (nth 0 coords [])))).
      right. now apply in_map. }
  assert (Hn : (n > 0)%nat).
  { destruct Cr as (_ & _ & _ & _ & (a & I & <-) & _).
    destruct (Forall2_in_l _ _ _ _ E1 I) as (m & _ & E). destruct a; [discriminate|cbn; lia]. }
  exists lo, hi, n. split; [exact Cr|]. split; [exact Hn|].
  assert (D : Z.of_nat n = 1%Z \/ (2 <= Z.of_nat n)%Z) by lia. clearbody n.
  destruct s.
  - split; [discriminate|]. 
    assert (P : 0 < lo /\ 0 < hi).
    { unfold logspace in H. destruct (Z.of_nat n <? 0)%Z; [discriminate|].
      destruct (Rleb lo 0) eqn:A1; [discriminate|]. destruct (Rleb hi 0) eqn:A2; [discriminate|].
      unfold Rleb in A1, A2. destruct (Rle_dec lo 0); [discriminate|].
      destruct (Rle_dec hi 0); [discriminate|]. lra. }
    destruct D as [D|D].
    + rewrite D in H. apply logspace_one in H. subst x. cbn [length nth].
      split; [lia|]. split; [reflexivity|]. split; [discriminate|]. intros _.
      split; [tauto|]. split; [tauto|]. lia.
    + pose proof (logspace_spec _ _ _ _ H D) as S. rewrite Nat2Z.id in S.
      split; [apply S|]. split.
      * destruct S as [_ S]. rewrite (S 0%nat) by lia.
        replace (INR 0 / INR (n - 1)) with 0 by (cbn [INR]; unfold Rdiv; ring).
        rewrite Rpower_O; [ring|]. apply Rdiv_lt_0_compat; tauto.
      * split; [discriminate|]. intros _. tauto.
  - split; [discriminate|]. destruct D as [D|D].
    + rewrite D in H. injection H as <-. cbn [length nth].
      split; [lia|]. split; [reflexivity|]. split; [intros _; lia|discriminate].
    + pose proof (linspace_spec _ _ _ _ H D) as S. rewrite Nat2Z.id in S.
      split; [apply S|]. split.
      * destruct S as [_ S]. rewrite (S 0%nat) by lia. cbn [INR]. ring.
      * split; [tauto|discriminate].
  - discriminate.
Qed.

Lemma fraction i n : (2 <= n)%nat -> (i < n)%nat -> 0 <= INR i / INR (n - 1) <= 1.
Proof.
  intros Hn Hi. assert (0 < INR (n - 1)) by (apply lt_0_INR; lia).
  assert (0 <= INR i) by apply pos_INR. assert (INR i <= INR (n - 1)) by (apply le_INR; lia).
  split; [apply Rmult_le_pos; [lra|left; now apply Rinv_0_lt_compat]|].
  apply (Rmult_le_reg_r (INR (n - 1))); [lra|]. unfold Rdiv. rewrite Rmult_assoc, Rinv_l; lra.
Qed.

Lemma power_between q t : 1 <= q -> 0 <= t <= 1 -> 1 <= Rpower q t <= q.
Proof.
  intros Hq Ht. assert (Q : 0 <= ln q).
  { destruct (Rle_lt_or_eq_dec 1 q Hq) as [L|<-]; [|rewrite ln_1; lra].
    rewrite <- ln_1. left. apply ln_increasing; lra. }
  unfold Rpower. split.
  - rewrite <- exp_0 at 1. destruct (Rle_lt_or_eq_dec 0 (t * ln q)) as [L|<-]; [nra| |lra].
    left. now apply exp_increasing.
  - rewrite <- (exp_ln q) at 2 by lra.
    destruct (Rle_lt_or_eq_dec (t * ln q) (ln q)) as [L| ->]; [nra| |lra].
    left. now apply exp_increasing.
Qed.

(** Where the ranges overlap, every point lies between the ends in common. *)
Lemma spaced_between coords s x lo hi n : find_conv_range coords s = Ok x ->
  common_range coords lo hi n -> lo <= hi -> forall p, In p x -> lo <= p <= hi.
Proof.
  intros H Cr Hle p Hp.
  destruct (conv_range coords s x H) as (lo' & hi' & n' & Cr' & Hn & Hs & Lx & X0 & SL & SG).
  assert (El : lo' = lo).
  { destruct Cr as ((a & I & L) & B & _), Cr' as ((a' & I' & L') & B' & _).
    apply Rle_antisym; eauto. }
  assert (Eh : hi' = hi).
  { destruct Cr as (_ & _ & (a & I & L) & B & _), Cr' as (_ & _ & (a' & I' & L') & B' & _).
    apply Rle_antisym; eauto. }
  rewrite El in X0, SL, SG. rewrite Eh in SL, SG. clear Cr'.
  apply (In_nth x p 0) in Hp as (i & Hi & <-). rewrite Lx in Hi.
  assert (D : n' = 1%nat \/ (2 <= n')%nat) by lia. destruct D as [->|D].
  - replace i with 0%nat by lia. rewrite X0. lra.
  - pose proof (fraction i n' D Hi) as F. destruct s.
    + destruct (SG eq_refl) as (P1 & P2 & S). destruct (S D) as [_ S']. rewrite (S' i Hi).
      assert (Q : 1 <= hi / lo).
      { apply (Rmult_le_reg_r lo); [lra|]. unfold Rdiv. rewrite Rmult_assoc, Rinv_l; lra. }
      destruct (power_between _ _ Q F) as [A B].
      assert (E : lo * (hi / lo) = hi) by (field; lra). split; [nra|]. rewrite <- E at 2.
      apply Rmult_le_compat_l; lra.
    + destruct (SL eq_refl D) as [_ S']. rewrite (S' i Hi).
      replace (INR i * ((hi - lo) / INR (n' - 1))) with (INR i / INR (n' - 1) * (hi - lo))
        by (unfold Rdiv; ring). nra.
    + congruence.
Qed.

(** If every two arrays overlap, the points lie within each of them. *)
Definition inside (a : list R) (p : R) : Prop :=
  (exists x, In x a /\ x <= p) /\ (exists y, In y a /\ p <= y).
Definition overlapping (coords : list (list R)) : Prop :=
  forall a b m m', In a coords -> In b coords -> least a m -> greatest b m' -> m <= m'.

Theorem conv_range_within coords s x : find_conv_range coords s = Ok x ->
  overlapping coords -> forall p a, In p x -> In a coords -> inside a p.
Proof.
  intros H O p a Hp Ha.
  destruct (conv_range coords s x H) as (lo & hi & n & Cr & _).
  destruct (Cr) as ((b & Ib & Lb) & B & (c & Ic & Gc) & C & _ & Ln).
  pose proof (spaced_between _ _ _ _ _ _ H Cr (O b c lo hi Ib Ic Lb Gc) p Hp) as [P1 P2].
  assert (Na : a <> []).
  { intros ->. unfold find_conv_range in H. apply bind_ok in H as (los & E1 & _).
    apply sequence_forall2 in E1. destruct (Forall2_in_l _ _ _ _ E1 Ha) as (m & _ & E). discriminate. }
  split.
  - destruct (amin_spec a Na) as (m & _ & I & L). exists m. split; [exact I|].
    apply Rle_trans with lo; [|exact P1]. apply (B a m Ha). now split.
  - destruct (amax_spec a Na) as (m & _ & I & L). exists m. split; [exact I|].
    apply Rle_trans with hi; [exact P2|]. apply (C a m Ha). now split.
Qed.

(** If two arrays do not overlap, the first point lies above one of them; no
    error is raised. *)
Theorem conv_range_disjoint coords s x : find_conv_range coords s = Ok x ->
  ~ overlapping coords -> exists a, In a coords /\ forall y, In y a -> y < nth 0 x 0.
Proof.
  intros H O. destruct (conv_range coords s x H) as (lo & hi & n & Cr & _ & _ & _ & -> & _).
  destruct Cr as (_ & B & (c & Ic & [Ic' Gc]) & C & _).
  exists c. split; [exact Ic|]. intros y Iy.
  destruct (Rlt_le_dec hi lo) as [L|L]; [specialize (Gc y Iy); lra|].
  exfalso. apply O. intros a b m m' Ia Ib La Gb.
  apply Rle_trans with lo; [now apply (B a)|]. apply Rle_trans with hi; [exact L|]. now apply (C b).
Qed.

Theorem conv_range_refuted : exists coords x, find_conv_range coords Lin = Ok x
  /\ exists a p, In a coords /\ In p x /\ ~ inside a p.
Proof.
  exists [[1; 2]; [3; 4]]. 
  assert (G : exists x, find_conv_range [[1; 2]; [3; 4]] Lin = Ok x).
  { eexists. unfold find_conv_range. cbn [map amin amax sequence bind fold_left nth length Nat.min Z.of_nat
      Pos.of_succ_nat Pos.succ]. reflexivity. }
  destruct G as [x H]. exists x. split; [exact H|].
  destruct (conv_range_disjoint _ _ _ H) as (a & I & L).
  { intros O. assert (3 <= 2); [|lra]. apply (O [3; 4] [1; 2]); cbn; auto.
    - split; [now left|]. intros y [<-|[<-|[]]]; lra.
    - split; [right; now left|]. intros y [<-|[<-|[]]]; lra. }
  exists a, (nth 0 x 0). split; [exact I|]. split.
  - apply nth_In. destruct (conv_range _ _ _ H) as (_ & _ & n & _ & Hn & _ & -> & _). lia.
  - intros [_ (y & Iy & Ly)]. specialize (L y Iy). lra.
Qed.

(** Points derived with `enforce_coverage` raise no warning of coverage when
    the points of the terms of each multipole overlap. *)
Definition arrays_of (rQ : mdict (list R)) (ri : zdict (list R)) (t : cterm) (a : list R) : Prop :=
  lookup rQ (t_Q t) = Ok a \/ (exists k, t_Z t = ZPole k /\ zlookup ri (ZPole k) = Ok a).

Lemma covered_inside rc rs : rc <> [] -> rs <> [] -> (forall p, In p rc -> 0 < p) ->
  (forall p, In p rc -> inside rs p) -> covered rc rs = Ok true.
Proof.
  intros N1 N2 P I. unfold covered.
  destruct (amin_spec rs N2) as (a & -> & Ia & La). destruct (amin_spec rc N1) as (b & -> & Ib & Lb).
  destruct (amax_spec rs N2) as (d & -> & Id & Ld). destruct (amax_spec rc N1) as (c & -> & Ic & Lc).
  cbn [bind].
  destruct (I b Ib) as [(x & Ix & Lx) _]. pose proof (La x Ix). pose proof (P b Ib).
  destruct (I c Ic) as [_ (y & Iy & Ly)]. pose proof (Ld y Iy). pose proof (P c Ic).
  assert (T : 0 < RTOL < 1) by (unfold RTOL; lra).
  unfold Rleb. destruct (Rle_dec ((1 - RTOL) * a) b) as [_|n].
  - cbn [bind]. f_equal. destruct (Rle_dec c ((1 + RTOL) * d)); [reflexivity|]. exfalso. nra.
  - exfalso. apply n. destruct (Rle_dec 0 a); nra.
Qed.

Theorem enforced_covered raw f rQ r_in ri ro w : build_formulae raw = Ok f ->
  initialise_sampts f rQ r_in None true = Ok (ri, ro, w) ->
  (forall m ts coords, lookup (f_dict f) m = Ok ts ->
     (forall a, In a coords -> exists t, In t ts /\ arrays_of rQ ri t a) -> overlapping coords) ->
  w = [] /\ forall m ts x t a, lookup (f_dict f) m = Ok ts -> lookup ro m = Ok x ->
    In t ts -> arrays_of rQ ri t a -> forall p, In p x -> inside a p.
Proof.
  intros B H O. destruct (formulae_requirements raw _ B) as (Np & _ & _ & _ & Rp & _).
  unfold initialise_sampts in H. apply bind_ok in H as (ri' & E1 & H).
  apply bind_ok in H as (ro' & E2 & H). apply bind_ok in H as (w' & E3 & H).
  injection H as -> -> ->.
  unfold output_points in E2. destruct (on_keys_inv _ _ _ Np E2) as [_ D].
  assert (K : forall m ts, In m (f_poles f) -> lookup (f_dict f) m = Ok ts ->
     exists x, lookup ro m = Ok x /\ x <> [] /\ (forall p, In p x -> 0 < p) /\
       forall t a, In t ts -> arrays_of rQ ri t a -> a <> [] /\ forall p, In p x -> inside a p).
  { intros m ts Hm Ets. destruct (D m Hm) as (x & Ex & Lx). exists x. split; [exact Lx|].
    rewrite Ets in Ex. cbn [bind] in Ex. apply bind_ok in Ex as (cs & Ecs & Ex).
    apply sequence_forall2 in Ecs.
    assert (A : forall a, In a (concat cs) -> exists t, In t ts /\ arrays_of rQ ri t a).
    { intros a I. apply in_concat in I as (l & Il & I).
      destruct (Forall2_in_r _ _ _ _ Ecs Il) as (t & It & E). exists t. split; [exact It|].
      apply bind_ok in E as (q & Eq & E). destruct (t_Z t) as [k|] eqn:Ez.
      - apply bind_ok in E as (z & Ez' & E). injection E as <-.
        destruct I as [<-|[<-|[]]]; [now left|right; now exists k].
      - injection E as <-. destruct I as [<-|[]]. now left. }
    assert (A' : forall t a, In t ts -> arrays_of rQ ri t a -> In a (concat cs)).
    { intros t a It Ha. destruct (Forall2_in_l _ _ _ _ Ecs It) as (l & Il & E).
      apply in_concat. exists l. split; [exact Il|].
      apply bind_ok in E as (q & Eq & E). destruct Ha as [Ha|(k & Ek & Ha)].
      - destruct (t_Z t) as [k|]; [apply bind_ok in E as (z & _ & E)|]; injection E as <-;
          left; congruence.
      - rewrite Ek in E. apply bind_ok in E as (z & Ez' & E). injection E as <-.
        right; left. congruence. }
    pose proof (O m ts (concat cs) Ets A) as Ov.
    destruct (conv_range _ _ _ Ex) as (lo & hi & n & Cr & Hn & _ & Lx' & X0 & _ & SG).
    destruct (SG eq_refl) as (Pl & Ph & _).
    split; [intros ->; cbn in Lx'; lia|]. split.
    - intros p Hp. destruct (Cr) as ((b & Ib & Lb) & _ & (c & Ic & Gc) & _).
      pose proof (spaced_between _ _ _ _ _ _ Ex Cr (Ov b c lo hi Ib Ic Lb Gc) p Hp). lra.
    - intros t a It Ha. pose proof (A' t a It Ha) as Ia. split.
      + intros ->. destruct Cr as (_ & _ & _ & _ & _ & Ln). specialize (Ln [] Ia). cbn in Ln. lia.
      + intros p Hp. exact (conv_range_within _ _ _ Ex Ov p a Hp Ia). }
  split.
  - unfold coverage in E3. apply bind_ok in E3 as (l & El & E3). injection E3 as <-.
    apply sequence_forall2 in El.
    assert (Z : forall u, In u l -> u = []).
    { intros u Iu. destruct (Forall2_in_r _ _ _ _ El Iu) as (m & Hm & E).
      apply bind_ok in E as (ts & Ets & E). apply bind_ok in E as (us & Eus & E). injection E as <-.
      apply sequence_forall2 in Eus. destruct (K m ts Hm Ets) as (x & Lx & Nx & Px & In').
      assert (Zu : forall v, In v us -> v = []).
      { intros v Iv. destruct (Forall2_in_r _ _ _ _ Eus Iv) as (t & It & E).
        unfold term_coverage in E. rewrite Lx in E. cbn [bind] in E.
        apply bind_ok in E as (q & Eq & E).
        destruct (In' t q It (or_introl Eq)) as [Nq Iq].
        rewrite (covered_inside x q Nx Nq Px Iq) in E. cbn [bind] in E.
        destruct (t_Z t) as [k|] eqn:Ez; [|now injection E as <-].
        apply bind_ok in E as (r & Er & E).
        destruct (In' t r It) as [Nr Ir]. { right. exists k. now split. }
        rewrite (covered_inside x r Nx Nr Px Ir) in E. cbn [bind app] in E. now injection E as <-. }
      clear - Zu. induction us as [|v us IH]; [reflexivity|]. cbn.
      rewrite (Zu v) by now left. apply IH. intros v' I. apply Zu. now right. }
    clear - Z. induction l as [|v us IH]; [reflexivity|]. cbn.
    rewrite (Z v) by now left. apply IH. intros v' I. apply Z. now right.
  - intros m ts x t a Ets Ex It Ha p Hp.
    assert (Hm : In m (f_poles f)) by (apply Rp; eauto).
    destruct (K m ts Hm Ets) as (x' & Lx & _ & _ & In'). rewrite Lx in Ex. injection Ex as <-.
    now apply (In' t a It Ha).
Qed.

(* ------------------------------------------------------------------ *)
(* Keyword arguments                                                   *)

Definition kw_value {V} (k : kwargs V) (n : string) : option V :=
  option_map snd (find (fun kv => String.eqb (fst kv) n) k).

Lemma has_kw_value {V} (k : kwargs V) n :
  has_kw k n = match kw_value k n with Some _ => true | None => false end.
Proof.
  unfold has_kw, kw_value. induction k as [|[m v] k IH]; [reflexivity|]. cbn.
  destruct (String.eqb m n); [reflexivity|exact IH].
Qed.

Lemma kw_value_app {V} (k l : kwargs V) n :
  kw_value (k ++ l)%list n = match kw_value k n with Some v => Some v | None => kw_value l n end.
Proof.
  unfold kw_value. induction k as [|[m v] k IH]; [reflexivity|]. cbn.
  destruct (String.eqb m n); [reflexivity|exact IH].
Qed.

Definition given_value {V} (given : option (kwargs V)) (n : string) : option V :=
  match given with Some k => kw_value k n | None => None end.

(** Every argument given is used as given; the two defaults apply only where
    absent, and nothing else is added. *)
Theorem kwargs_used {V} (e t : V) given n :
  kw_value (fst (transform_kwargs e t given)) n
  = match given_value given n with
    | Some v => Some v
    | None => if String.eqb n "extrap" then Some e
              else if String.eqb n "threaded" then Some t else None
    end.
Proof.
  unfold transform_kwargs, given_value. cbn [fst].
  set (start := match given with None => [] | Some k => k end).
  assert (Es : match given with Some k => kw_value k n | None => None end = kw_value start n)
    by (unfold start; destruct given; reflexivity).
  rewrite Es. clear Es. clearbody start.
  set (k1 := if has_kw start "extrap" then start else (start ++ [("extrap"%string, e)])%list).
  assert (E1 : forall n, kw_value k1 n = match kw_value start n with
            | Some v => Some v
            | None => if String.eqb n "extrap" then Some e else None end).
  { intros n'. unfold k1. rewrite has_kw_value. destruct (kw_value start "extrap") eqn:E.
    - destruct (kw_value start n') eqn:E'; [reflexivity|].
      destruct (String.eqb_spec n' "extrap"); [congruence|reflexivity].
    - rewrite kw_value_app. destruct (kw_value start n'); [reflexivity|].
      unfold kw_value. cbn [find fst snd]. rewrite (String.eqb_sym n').
      destruct (String.eqb "extrap" n'); reflexivity. }
  clearbody k1. rewrite has_kw_value. destruct (kw_value k1 "threaded") eqn:E.
  - rewrite E1. destruct (kw_value start n) eqn:E'; [reflexivity|].
    destruct (String.eqb n "extrap"); [reflexivity|].
    destruct (String.eqb_spec n "threaded"); [|reflexivity]. subst n.
    rewrite E1, E' in E. discriminate.
  - rewrite kw_value_app, E1. destruct (kw_value start n); [reflexivity|].
    destruct (String.eqb n "extrap"); [reflexivity|].
    unfold kw_value. cbn [find fst snd]. rewrite (String.eqb_sym n).
    destruct (String.eqb "threaded" n); reflexivity.
Qed.

(** A dictionary the caller passes keeps its contents only if it is empty or
    already has both arguments; otherwise it gains the defaults. *)
Theorem kwargs_caller {V} (e t : V) (k : kwargs V) :
  snd (transform_kwargs e t (Some k))
    = Some (match k with [] => [] | _ => fst (transform_kwargs e t (Some k)) end)
  /\ (snd (transform_kwargs e t (Some k)) = Some k
      <-> k = [] \/ (kw_value k "extrap" <> None /\ kw_value k "threaded" <> None)).
Proof.
  assert (F : snd (transform_kwargs e t (Some k))
    = Some (match k with [] => [] | _ => fst (transform_kwargs e t (Some k)) end))
    by (destruct k; reflexivity).
  split; [exact F|]. rewrite F. split.
  - destruct k as [|kv k]; [now left|]. intros H. right.
    assert (H' : fst (transform_kwargs e t (Some (kv :: k))) = kv :: k) by congruence.
    pose proof (kwargs_used e t (Some (kv :: k)) "extrap") as U1.
    pose proof (kwargs_used e t (Some (kv :: k)) "threaded") as U2.
    rewrite H' in U1, U2. unfold given_value in U1, U2.
    split; intros N; [rewrite N in U1|rewrite N in U2]; discriminate.
  - intros [->|[H1 H2]]; [reflexivity|]. destruct k as [|kv k]; [now elim H1|].
    unfold transform_kwargs. cbn [fst].
    assert (A1 : has_kw (kv :: k) "extrap" = true)
      by (rewrite has_kw_value; destruct (kw_value (kv :: k) "extrap"); congruence).
    assert (A2 : has_kw (kv :: k) "threaded" = true)
      by (rewrite has_kw_value; destruct (kw_value (kv :: k) "threaded"); congruence).
    rewrite A1, A2. reflexivity.
Qed.

(** Hence one dictionary used for a power spectrum and then for a bispectrum
    carries the first default (4) over the second (5). *)
Theorem kwargs_shared {V} (e1 e2 t : V) (k : kwargs V) : k <> [] -> kw_value k "extrap" = None ->
  kw_value (fst (transform_kwargs e2 t (snd (transform_kwargs e1 t (Some k))))) "extrap" = Some e1
  /\ kw_value (fst (transform_kwargs e2 t (Some k))) "extrap" = Some e2.
Proof.
  intros Nk E. split.
  - rewrite (proj1 (kwargs_caller e1 t k)). destruct k as [|kv k]; [congruence|].
    rewrite kwargs_used. unfold given_value at 1. rewrite kwargs_used. unfold given_value.
    now rewrite E.
  - rewrite kwargs_used. unfold given_value. now rewrite E.
Qed.

Example kwargs_case :
  transform_kwargs 5 0 (Some [("pivot"%string, 1)])
  = ([("pivot"%string, 1); ("extrap"%string, 5); ("threaded"%string, 0)],
     Some [("pivot"%string, 1); ("extrap"%string, 5); ("threaded"%string, 0)])
  /\ transform_kwargs 5 0 None = ([("extrap"%string, 5); ("threaded"%string, 0)], None).
Proof. split; reflexivity. Qed.

(* ------------------------------------------------------------------ *)
(* Respacing of the input points                                       *)

Definition spaced_ok (k : list R) : Prop := check_1d_array false false false true k = Ok k.

Lemma check_ok_id k k' : check_1d_array false false false true k = Ok k' -> k' = k.
Proof.
  unfold check_1d_array. intros H.
  repeat match type of H with (if ?b then _ else _) = _ => destruct b; [discriminate|] end.
  congruence.
Qed.

Lemma first_unspaced_spec d r : first_unspaced d = Ok r ->
  match r with
  | None => forall z k, In (z, k) d -> spaced_ok k
  | Some k => (exists z, In (z, k) d)
      /\ check_1d_array false false false true k = Err SpacingError
  end.
Proof.
  revert r; induction d as [|[z k] d IH]; intros r H; cbn [first_unspaced] in H.
  - injection H as <-. intros z k [].
  - destruct (check_1d_array false false false true k) as [k'|e] eqn:E.
    + specialize (IH r H). destruct r as [k0|].
      * destruct IH as [[z0 I] E0]. split; [exists z0; now right|exact E0].
      * intros z0 k0 [J|J]; [|now apply (IH z0)]. injection J as <- <-.
        unfold spaced_ok. rewrite E. f_equal. now apply check_ok_id.
    + destruct e; try discriminate. injection H as <-. split; [exists z; now left|exact E].
Qed.

Lemma exists_last_or {A} (l : list A) : l = [] \/ exists r x, l = (r ++ [x])%list.
Proof.
  destruct l as [|a l]; [now left|right].
  destruct (@exists_last A (a :: l)) as (r & x & E); [discriminate|]. now exists r, x.
Qed.

Lemma atm1_last l : atm1 l = last l 0.
Proof.
  unfold atm1. destruct (exists_last_or l) as [->|(r & x & ->)]; [reflexivity|].
  rewrite last_last, app_length. cbn [length].
  replace (length r + 1 - 1)%nat with (length r) by lia. apply nth_middle.
Qed.

(** Points that are all logarithmically spaced are kept; otherwise every array
    is replaced, by as many points as the first array that failed has, between
    its own first and last points. *)
Theorem respaced_exact d d' : respaced d = Ok d' ->
  (d' = d /\ forall z k, In (z, k) d -> spaced_ok k)
  \/ exists k z, In (z, k) d /\ check_1d_array false false false true k = Err SpacingError
     /\ (2 <= length k)%nat
     /\ Forall2 (fun old new => fst new = fst old
          /\ log_spaced (nth 0 (snd old) 0) (last (snd old) 0) (length k) (snd new)) d d'.
Proof.
  unfold respaced. intros H. apply bind_ok in H as (bad & E & H).
  apply first_unspaced_spec in E. destruct bad as [k|].
  - right. destruct E as [[z I] E]. exists k, z. split; [exact I|]. split; [exact E|].
    assert (L : (2 <= length k)%nat).
    { unfold check_1d_array in E. destruct (length k <? 2)%nat eqn:Lk; [discriminate|].
      apply Nat.ltb_ge in Lk. exact Lk. }
    split; [exact L|]. apply sequence_forall2 in H. clear I E. induction H as [|[z0 a] b l r H _ IH]; [constructor|].
    constructor; [|exact IH]. cbn [fst snd] in *. destruct a as [|a0 a]; [discriminate|].
    apply bind_ok in H as (x & Ex & H). injection H as <-. cbn [fst snd]. split; [reflexivity|].
    apply logspace_spec in Ex; [|lia]. rewrite Nat2Z.id in Ex.
    rewrite atm1_last in Ex. exact Ex.
  - left. injection H as <-. split; [reflexivity|exact E].
Qed.

(** The warning promises the same number of points; two arrays of different
    lengths show that it is not kept. *)
Theorem respaced_refuted : exists d d' z a b, respaced d = Ok d'
  /\ In (z, a) d /\ In (z, b) d' /\ length b <> length a.
Proof.
  pose (k := [1; 1; exp 2]). pose (a := [1; 2]).
  assert (E : check_1d_array false false false true k = Err SpacingError).
  { unfold check_1d_array, k. cbn [length Nat.ltb Nat.leb andb].
    assert (P : 0 < exp 2) by apply exp_pos.
    assert (S : epsign_ok true [1; 1; exp 2] = true).
    { unfold epsign_ok, at0, at1, atm1, atm2. cbn. unfold Rltb.
      destruct (Rlt_dec 0 (1 * 1)); [|lra]. destruct (Rlt_dec 0 (exp 2 * 1)); [reflexivity|lra]. }
    rewrite S. cbn [negb].
    assert (A : allclose (map ln (ratios [1; 1; exp 2])) (rmean (map ln (ratios [1; 1; exp 2]))) = false).
    { cbn [ratios map]. replace (exp 2 / 1) with (exp 2) by field. replace (1 / 1) with 1 by field.
      rewrite ln_exp, ln_1. unfold rmean, rsum. cbn [fold_right length INR].
      replace ((0 + (2 + 0)) / (1 + 1)) with 1 by field. cbn [allclose forallb].
      unfold Rleb. destruct (Rle_dec (Rabs (0 - 1)) _) as [L|L]; [|reflexivity].
      exfalso. rewrite Rabs_left, Rabs_R1 in L by lra. lra. }
    rewrite A. cbn [negb]. rewrite orb_true_r. reflexivity. }
  assert (L1 : forall x y, 0 < x -> 0 < y -> exists l, logspace x y 3 = Ok l /\ length l = 3%nat).
  { intros x y Hx Hy. unfold logspace. cbn [Z.ltb Z.compare]. unfold Rleb.
    destruct (Rle_dec x 0); [lra|]. destruct (Rle_dec y 0); [lra|]. cbn [orb].
    eexists. split; [reflexivity|]. reflexivity. }
  destruct (L1 1 (exp 2)) as (l1 & E1 & N1); [lra|apply exp_pos|].
  destruct (L1 1 2) as (l2 & E2 & N2); [lra|lra|].
  exists [(ZPole [0%Z], k); (ZPole [2%Z], a)], [(ZPole [0%Z], l1); (ZPole [2%Z], l2)],
    (ZPole [2%Z]), a, l2.
  split; [|split; [cbn; auto|split; [cbn; auto|rewrite N2; discriminate]]].
  unfold respaced. cbn [first_unspaced]. rewrite E. cbn [bind map snd fst sequence].
  unfold k, a. cbn [length Z.of_nat Pos.of_succ_nat Pos.succ].
  change (at0 [1; 1; exp 2]) with 1. change (atm1 [1; 1; exp 2]) with (exp 2).
  change (at0 [1; 2]) with 1. change (atm1 [1; 2]) with 2.
  rewrite E1, E2. reflexivity.
Qed.

Print Assumptions conv_range.
Print Assumptions conv_range_within.
Print Assumptions conv_range_disjoint.
Print Assumptions conv_range_refuted.
Print Assumptions enforced_covered.
Print Assumptions kwargs_used.
Print Assumptions kwargs_caller.
Print Assumptions kwargs_shared.
Print Assumptions respaced_exact.
Print Assumptions respaced_refuted.
