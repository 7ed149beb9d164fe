(* Claims C37-C39, C41 and C58: sample sizes and points of the FFTLog
   transforms, the low-ringing pivot, reality, the sum of squares and
   inverses. *)
From Coq Require Import Reals ZArith List Lia Lra Bool.
From Flocq Require Import Core.Raux.
From Coquelicot Require Import Complex.
From Verif Require Import Base ArrayModel ArrayProofs RSum CSum Dft FftlogModel FftlogProofs.
Import ListNotations.
Local Open Scope R_scope.

(* ------------------------------------------------------------------ *)
(* What a constructed transform holds                                  *)

Lemma kernel_coeff_inv g mu q N dL kr u : kernel_coeff g mu q N dL kr = Ok u ->
  (0 < N)%nat /\ 0 < dL /\ 0 < kr /\ u = map (kernel_at g mu q N dL kr) (seq 0 N).
Proof.
  unfold kernel_coeff. destruct (Nat.leb_spec N 0) as [|HN]; cbn [orb]; [discriminate|].
  destruct (Rleb dL 0) eqn:ED; cbn [orb]; [discriminate|].
  destruct (Rleb kr 0) eqn:EK; [discriminate|]. intros [= <-].
  apply Rleb_false in ED, EK. auto.
Qed.

Record holds (g : gsl) (mu q : R) (x : list R) (kr_c : R) (lowring : bool) (ext : Z) (ee : R)
    (h : hankel) : Prop := {
  h_n : (2 <= length x)%nat;
  h_check : cpp_check_loglin x = 0%Z;
  h_order : order h = mu;
  h_bias : bias h = q;
  h_nsamp : nsamp h = length x;
  h_pre : pre_sampts h = x;
  h_extrap : extrap h = ext;
  h_logres : logres h = ln (nth (length x - 1) x 0 / nth 0 x 0) / INR (length x - 1);
  h_logpos : 0 < logres h;
  h_pivpos : 0 < pivot h;
  h_pivot : pivot h = if lowring then lowring_pivot g mu q (logres h) kr_c else kr_c;
  h_trans : (0 < nsamp_trans h)%nat;
  h_plain : ext = 0%Z -> nsamp_trans h = length x /\ n_ext h = 0%nat;
  h_size : ext <> 0%Z -> Nat.even (length x) = true /\ (length x <= nsamp_trans h)%nat /\
           cpp_size (ee * INR (length x)) = Ok (Z.of_nat (nsamp_trans h)) /\
           n_ext h = ((nsamp_trans h - length x) / 2)%nat;
  h_kernel : kernel h = map (kernel_at g mu q (nsamp_trans h) (logres h) (pivot h)) (seq 0 (nsamp_trans h));
  h_post : post_sampts h
           = map (fun j => pivot h * exp (- logres h) / nth (length x - j - 1) x 0) (seq 0 (length x))
}.

Lemma initialise_inv g mu q x kr low ext ee h :
  initialise g mu q x kr low ext ee = Ok h -> holds g mu q x kr low ext ee h.
Proof.
  unfold initialise. destruct (Nat.ltb_spec (length x) 2) as [|Hn]; [discriminate|].
  destruct (Z.eqb_spec (cpp_check_loglin x) 0) as [HC|]; cbn [negb]; [|discriminate].
  intros H. apply bind_ok in H as (((nt & e) & p) & HS & H).
  apply bind_ok in H as (kr' & HK & H). apply bind_ok in H as (u & HU & H).
  apply kernel_coeff_inv in HU as (H0 & HD & HP & HU). injection H as <-.
  assert (KR : kr' = if low then lowring_pivot g mu q (ln (nth (length x - 1) x 0 / nth 0 x 0) / INR (length x - 1)) kr else kr).
  { destruct low; [now injection HK|]. destruct (Rleb kr 0); [discriminate|]. now injection HK. }
  constructor; cbn [order bias nsamp nsamp_trans n_ext logres pivot extrap kernel pre_sampts post_sampts]; auto.
  - intros ->. cbn [Z.eqb] in HS. injection HS as <- <- _. auto.
  - intros NE. destruct (Z.eqb_spec ext 0) as [|_]; [contradiction|].
    destruct (Nat.odd (length x)) eqn:O; [discriminate|].
    apply bind_ok in HS as (z & HZ & HS). destruct (Z.ltb_spec z (Z.of_nat (length x))) as [|HL]; [discriminate|].
    apply bind_ok in HS as (p' & _ & HS). injection HS as <- <- _.
    rewrite <- Nat.negb_odd, O. split; [reflexivity|]. split; [lia|]. split; [|reflexivity].
    rewrite HZ. f_equal. lia.
Qed.

Lemma hankel_new_inv g mu q x kr low ext ee h :
  hankel_new g mu q x kr low ext ee = Ok h -> holds g mu q x kr low ext ee h.
Proof. unfold hankel_new. intros H. apply bind_ok in H as (_ & _ & H). now apply initialise_inv. Qed.

(** All neighbouring ratios of accepted points are positive. *)
Lemma ratios_nth x j : (S j < length x)%nat -> nth j (ratios x) 0 = nth (S j) x 0 / nth j x 0.
Proof.
  revert j; induction x as [|a [|b t] IH]; intros j Hj; cbn [length] in Hj; try lia.
  destruct j as [|j]; [reflexivity|]. cbn [ratios nth]. apply IH. cbn [length]. lia.
Qed.

Lemma ratios_length x : length (ratios x) = (length x - 1)%nat.
Proof. induction x as [|a [|b t] IH]; [reflexivity..|]. cbn [ratios length] in *. lia. Qed.

Lemma removelast_nth {A} (x : list A) j d : (S j < length x)%nat -> nth j (removelast x) d = nth j x d.
Proof.
  revert j; induction x as [|a [|b t] IH]; intros j Hj; cbn [length] in Hj; try lia.
  change (removelast (a :: b :: t)) with (a :: removelast (b :: t)).
  destruct j as [|j]; [reflexivity|]. cbn [nth]. apply IH. cbn [length]. lia.
Qed.

Lemma removelast_len {A} (x : list A) : length (removelast x) = (length x - 1)%nat.
Proof.
  induction x as [|a [|b t] IH]; [reflexivity..|].
  change (removelast (a :: b :: t)) with (a :: removelast (b :: t)). cbn [length] in *. lia.
Qed.

Lemma checked_ratios x : cpp_check_loglin x = 0%Z -> forall j, (S j < length x)%nat ->
  nth j x 0 <> 0 /\ 0 < nth (S j) x 0 / nth j x 0.
Proof.
  unfold cpp_check_loglin. destruct (existsb _ (removelast x) || existsb _ (ratios x)) eqn:E; [discriminate|].
  intros _ j Hj. apply orb_false_iff in E as [E1 E2]. split.
  - intros X. assert (existsb (fun x => Reqb x 0) (removelast x) = true); [|congruence].
    apply existsb_exists. exists (nth j (removelast x) 0). split.
    + apply nth_In. rewrite removelast_len. lia.
    + rewrite removelast_nth by exact Hj. now apply Reqb_spec.
  - rewrite <- ratios_nth by exact Hj. apply Rnot_le_lt. intros X.
    assert (existsb (fun x => Rleb x 0) (ratios x) = true); [|congruence].
    apply existsb_exists. exists (nth j (ratios x) 0). split.
    + apply nth_In. rewrite ratios_length. lia.
    + now apply Rleb_spec.
Qed.

(** So they are all positive or all negative. *)
Lemma checked_sign x : (2 <= length x)%nat -> cpp_check_loglin x = 0%Z ->
  forall j, (j < length x)%nat -> 0 < nth j x 0 / nth 0 x 0.
Proof.
  intros Hn HC. pose proof (checked_ratios x HC) as HR. induction j as [|j IH]; intros Hj.
  - destruct (HR 0%nat) as [N _]; [lia|]. unfold Rdiv. rewrite Rinv_r by exact N. lra.
  - destruct (HR j Hj) as [N P]. destruct (HR 0%nat) as [N0 _]; [lia|]. specialize (IH ltac:(lia)).
    replace (nth (S j) x 0 / nth 0 x 0) with (nth (S j) x 0 / nth j x 0 * (nth j x 0 / nth 0 x 0)) by (field; auto).
    now apply Rmult_lt_0_compat.
Qed.

Lemma checked_nonzero x : (2 <= length x)%nat -> cpp_check_loglin x = 0%Z ->
  forall j, (j < length x)%nat -> nth j x 0 <> 0.
Proof.
  intros Hn HC j Hj X. pose proof (checked_sign x Hn HC j Hj) as P. rewrite X in P. unfold Rdiv in P. lra.
Qed.

Lemma post_nth g mu q x kr low ext ee h j : holds g mu q x kr low ext ee h -> (j < length x)%nat ->
  nth j (post_sampts h) 0 = pivot h * exp (- logres h) / nth (length x - 1 - j) x 0.
Proof.
  intros H Hj. rewrite (h_post _ _ _ _ _ _ _ _ _ H), nth_tab by exact Hj. do 2 f_equal. lia.
Qed.

Lemma post_length g mu q x kr low ext ee h : holds g mu q x kr low ext ee h ->
  length (post_sampts h) = length x.
Proof. intros H. now rewrite (h_post _ _ _ _ _ _ _ _ _ H), map_length, seq_length. Qed.

(* ------------------------------------------------------------------ *)
(* C37: sizes                                                          *)

Lemma ln2_pos : 0 < ln 2.
Proof. rewrite <- ln_1. apply ln_increasing; lra. Qed.

Lemma ln_pow2 k : ln (2 ^ k) = INR k * ln 2.
Proof. induction k as [|k IH]; [cbn [pow INR]; rewrite ln_1; ring|]. rewrite S_INR. cbn [pow]. rewrite ln_mult, IH by (try apply pow_lt; lra). ring. Qed.

Lemma log2_le x k : 0 < x -> (ln x / ln 2 <= INR k <-> x <= 2 ^ k).
Proof.
  intros Hx. pose proof ln2_pos as L2. pose proof (ln_pow2 k) as LP.
  assert (P : 0 < 2 ^ k) by (apply pow_lt; lra).
  split; intros H.
  - apply Rnot_lt_le. intros X. apply ln_increasing in X; [|exact P]. rewrite LP in X.
    apply (Rmult_le_compat_r (ln 2)) in H; [|lra]. unfold Rdiv in H. rewrite Rmult_assoc, Rinv_l in H by lra. lra.
  - apply (Rmult_le_reg_r (ln 2)); [exact L2|]. unfold Rdiv. rewrite Rmult_assoc, Rinv_l, Rmult_1_r by lra.
    rewrite <- LP. destruct H as [H| ->]; [left; now apply ln_increasing|lra].
Qed.

(** The size of a transform: the least power of two that is large enough. *)
Definition least_pow2 (z : Z) (x : R) : Prop :=
  (exists k : nat, z = 2 ^ Z.of_nat k)%Z /\ x <= IZR z /\
  (forall k : nat, x <= IZR (2 ^ Z.of_nat k) -> (z <= 2 ^ Z.of_nat k)%Z).

Lemma IZR_pow2 k : IZR (2 ^ Z.of_nat k) = 2 ^ k.
Proof.
  induction k as [|k IH]; [reflexivity|]. rewrite Nat2Z.inj_succ, Z.pow_succ_r, mult_IZR, IH by lia. reflexivity.
Qed.

Lemma cpp_size_spec x z : cpp_size x = Ok z -> (0 < z)%Z -> least_pow2 z x.
Proof.
  unfold cpp_size. destruct (Rltb x 0) eqn:E1; [discriminate|]. apply Rltb_false in E1.
  destruct (Reqb x 0) eqn:E2; [intros [= <-]; lia|]. apply Reqb_false in E2.
  assert (Hx : 0 < x) by lra. set (e := Zceil (ln x / ln 2)).
  destruct (Z.ltb_spec e 0) as [|He]; intros [= <-] Hz; [lia|].
  assert (EK : forall k : nat, (e <= Z.of_nat k)%Z <-> x <= 2 ^ k).
  { intros k. rewrite <- log2_le by exact Hx. split; intros H.
    - apply Rle_trans with (IZR e); [apply Zceil_ub|]. rewrite INR_IZR_INZ. now apply IZR_le.
    - apply Zceil_glb. now rewrite <- INR_IZR_INZ. }
  split; [|split].
  - exists (Z.to_nat e). now rewrite Z2Nat.id.
  - rewrite <- (Z2Nat.id e He), IZR_pow2. apply EK. lia.
  - intros k Hk. rewrite IZR_pow2 in Hk. apply EK in Hk. now apply Z.pow_le_mono_r.
Qed.

(** Native extrapolation: the size of the transform, an even split, and the
    trimmed length. *)
Theorem fft_size g mu q x kr low ext ee h :
  hankel_new g mu q x kr low ext ee = Ok h -> ext <> 0%Z ->
  least_pow2 (Z.of_nat (nsamp_trans h)) (ee * INR (length x)) /\
  (nsamp_trans h = n_ext h + length x + n_ext h)%nat.
Proof.
  intros H NE. apply hankel_new_inv in H. destruct (h_size _ _ _ _ _ _ _ _ _ H NE) as (EV & LE & SZ & EX).
  pose proof (h_n _ _ _ _ _ _ _ _ _ H) as Hn.
  pose proof (cpp_size_spec _ _ SZ ltac:(lia)) as L. split; [exact L|].
  destruct L as ((k & Hk) & _ & _). rewrite EX.
  apply Nat.even_spec in EV as [m Hm]. destruct k as [|k].
  - cbn in Hk. lia.
  - rewrite Nat2Z.inj_succ, Z.pow_succ_r in Hk by lia.
    assert (E : exists r, (nsamp_trans h - length x = 2 * r)%nat).
    { exists (Z.to_nat (2 ^ Z.of_nat k) - m)%nat. lia. }
    destruct E as [r Er]. rewrite Er, Nat.mul_comm, Nat.div_mul by lia. lia.
Qed.

(** A transform that shrinks is refused. *)
Theorem fft_shrink_refused g mu q x kr low ext ee :
  ext <> 0%Z -> 0 <= ee -> ee * INR (length x) <= INR (length x) / 2 ->
  forall h, hankel_new g mu q x kr low ext ee <> Ok h.
Proof.
  intros NE H0 HE h H. pose proof (fft_size _ _ _ _ _ _ _ _ _ H NE) as (((k & Hk) & _ & HM) & HS).
  apply hankel_new_inv in H. destruct (h_size _ _ _ _ _ _ _ _ _ H NE) as (_ & LE & _ & _).
  pose proof (h_n _ _ _ _ _ _ _ _ _ H) as Hn. destruct k as [|k]; [cbn in Hk; lia|].
  specialize (HM k). rewrite Hk in HM. rewrite Nat2Z.inj_succ, Z.pow_succ_r in HM, Hk by lia.
  assert (P : (0 < 2 ^ Z.of_nat k)%Z) by (apply Z.pow_pos_nonneg; lia).
  assert (X : ee * INR (length x) <= IZR (2 ^ Z.of_nat k)).
  { apply Rle_trans with (INR (length x) / 2); [exact HE|]. rewrite INR_IZR_INZ.
    apply (Rmult_le_reg_r 2); [lra|]. unfold Rdiv. rewrite Rmult_assoc, Rinv_l, Rmult_1_r by lra.
    rewrite <- mult_IZR. apply IZR_le. lia. }
  specialize (HM X). lia.
Qed.

(** The entries of the padded post-transform points that are read from outside
    the array of points: as many as the transform is larger than the sample. *)
Theorem fft_reads_outside g mu q x kr low ext ee h :
  hankel_new g mu q x kr low ext ee = Ok h -> ext <> 0%Z ->
  forall j, (j < nsamp_trans h)%nat ->
  (nth j (post_sampts_extrap h) None = None <-> j < nsamp_trans h - length x)%nat.
Proof.
  intros H NE j Hj.
  assert (E : exists c, post_sampts_extrap h = map (fun j => if (nsamp_trans h - j - 1 <? length x)%nat
       then Some (c / nth (nsamp_trans h - j - 1) x 0) else None) (seq 0 (nsamp_trans h))).
  { unfold hankel_new in H. apply bind_ok in H as (_ & _ & H). unfold initialise in H.
    destruct (length x <? 2)%nat; [discriminate|].
    destruct (negb (cpp_check_loglin x =? 0)%Z); [discriminate|].
    apply bind_ok in H as (((nt & e) & p) & HS & H). apply bind_ok in H as (kr' & HK & H).
    apply bind_ok in H as (u & HU & H). injection H as <-. cbn [nsamp_trans post_sampts_extrap].
    destruct (Z.eqb_spec ext 0); [contradiction|]. eexists. reflexivity. }
  destruct E as [c ->].
  set (f := fun j => if (nsamp_trans h - j - 1 <? length x)%nat then _ else _).
  rewrite nth_indep with (d' := f 0%nat) by (rewrite map_length, seq_length; exact Hj).
  rewrite (map_nth f), seq_nth by exact Hj. cbn [Nat.add]. unfold f.
  destruct (Nat.ltb_spec (nsamp_trans h - j - 1) (length x)).
  - split; [discriminate|lia].
  - split; [lia|reflexivity].
Qed.

(* ------------------------------------------------------------------ *)
(* C37: points                                                         *)

(** Products of paired points are all the pivot, one spacing down. *)
Theorem fft_pairs g mu q x kr low ext ee h : hankel_new g mu q x kr low ext ee = Ok h ->
  length (post_sampts h) = length x /\
  forall j, (j < length x)%nat ->
    nth j (post_sampts h) 0 * nth (length x - 1 - j) x 0 = pivot h * exp (- logres h).
Proof.
  intros H. apply hankel_new_inv in H. split; [now apply (post_length _ _ _ _ _ _ _ _ _ H)|].
  intros j Hj. rewrite (post_nth _ _ _ _ _ _ _ _ _ _ H Hj). field.
  apply checked_nonzero; [apply (h_n _ _ _ _ _ _ _ _ _ H)|apply (h_check _ _ _ _ _ _ _ _ _ H)|lia].
Qed.

(** The logarithmic spacings are those of the input, in reverse, so that the
    overall resolution is the same. *)
Theorem fft_spacing g mu q x kr low ext ee h : hankel_new g mu q x kr low ext ee = Ok h ->
  (forall j, (S j < length x)%nat ->
     nth (S j) (post_sampts h) 0 / nth j (post_sampts h) 0
     = nth (length x - 1 - j) x 0 / nth (length x - 2 - j) x 0) /\
  ln (nth (length x - 1) (post_sampts h) 0 / nth 0 (post_sampts h) 0) / INR (length x - 1) = logres h.
Proof.
  intros H. apply hankel_new_inv in H. pose proof (h_n _ _ _ _ _ _ _ _ _ H) as Hn.
  pose proof (checked_nonzero x Hn (h_check _ _ _ _ _ _ _ _ _ H)) as NZ.
  pose proof (h_pivpos _ _ _ _ _ _ _ _ _ H) as HP. pose proof (exp_pos (- logres h)) as HE.
  split.
  - intros j Hj. rewrite !(post_nth _ _ _ _ _ _ _ _ _ _ H) by lia.
    replace (length x - 1 - S j)%nat with (length x - 2 - j)%nat by lia.
    field. repeat split; try (apply NZ; lia); lra.
  - rewrite !(post_nth _ _ _ _ _ _ _ _ _ _ H) by lia. rewrite (h_logres _ _ _ _ _ _ _ _ _ H) at 3.
    do 2 f_equal. replace (length x - 1 - (length x - 1))%nat with 0%nat by lia.
    replace (length x - 1 - 0)%nat with (length x - 1)%nat by lia.
    field. repeat split; try (apply NZ; lia); lra.
Qed.

(** Positive points: one array ascends where the other does. *)
Theorem fft_ascending g mu q x kr low ext ee h : hankel_new g mu q x kr low ext ee = Ok h ->
  0 < nth 0 x 0 ->
  forall j, (S j < length x)%nat ->
  (nth j (post_sampts h) 0 < nth (S j) (post_sampts h) 0
   <-> nth (length x - 2 - j) x 0 < nth (length x - 1 - j) x 0).
Proof.
  intros H H0 j Hj. apply hankel_new_inv in H. pose proof (h_n _ _ _ _ _ _ _ _ _ H) as Hn.
  pose proof (checked_sign x Hn (h_check _ _ _ _ _ _ _ _ _ H)) as SG.
  assert (POS : forall i, (i < length x)%nat -> 0 < nth i x 0).
  { intros i Hi. specialize (SG i Hi). replace (nth i x 0) with (nth i x 0 / nth 0 x 0 * nth 0 x 0) by (field; lra).
    now apply Rmult_lt_0_compat. }
  rewrite !(post_nth _ _ _ _ _ _ _ _ _ _ H) by lia.
  replace (length x - 1 - S j)%nat with (length x - 2 - j)%nat by lia.
  pose proof (POS (length x - 1 - j)%nat ltac:(lia)) as P1. pose proof (POS (length x - 2 - j)%nat ltac:(lia)) as P2.
  assert (K : 0 < pivot h * exp (- logres h)).
  { apply Rmult_lt_0_compat; [apply (h_pivpos _ _ _ _ _ _ _ _ _ H)|apply exp_pos]. }
  set (K' := pivot h * exp (- logres h)) in *. set (a := nth (length x - 1 - j) x 0) in *.
  set (b := nth (length x - 2 - j) x 0) in *. unfold Rdiv. split; intros L.
  - apply Rmult_lt_reg_l in L; [|exact K]. apply Rnot_le_lt. intros X.
    pose proof (Rinv_le_contravar a b P1 X). lra.
  - apply Rmult_lt_compat_l; [exact K|]. apply Rinv_lt_contravar; [now apply Rmult_lt_0_compat|exact L].
Qed.

(** Exactly spaced points go to exactly spaced points. *)
Definition log_spaced (r0 d : R) (x : list R) : Prop :=
  forall j, (j < length x)%nat -> nth j x 0 = r0 * exp (INR j * d).

Theorem fft_log_spaced g mu q x kr low ext ee h r0 d : hankel_new g mu q x kr low ext ee = Ok h ->
  0 < r0 -> log_spaced r0 d x ->
  logres h = d /\ log_spaced (pivot h / r0 * exp (- (INR (length x) * d))) d (post_sampts h).
Proof.
  intros H H0 LS. apply hankel_new_inv in H. pose proof (h_n _ _ _ _ _ _ _ _ _ H) as Hn.
  assert (D : logres h = d).
  { rewrite (h_logres _ _ _ _ _ _ _ _ _ H), !LS by lia. cbn [INR]. rewrite Rmult_0_l, exp_0.
    replace (r0 * exp (INR (length x - 1) * d) / (r0 * 1)) with (exp (INR (length x - 1) * d)) by (field; lra).
    rewrite ln_exp. field. apply not_0_INR. lia. }
  split; [exact D|]. intros j Hj. rewrite (post_length _ _ _ _ _ _ _ _ _ H) in Hj.
  rewrite (post_nth _ _ _ _ _ _ _ _ _ _ H Hj), LS, D by lia.
  unfold Rdiv. rewrite Rinv_mult.
  rewrite <- exp_Ropp.
  transitivity (pivot h * / r0 * (exp (- d) * exp (- (INR (length x - 1 - j) * d)))); [ring|].
  rewrite !Rmult_assoc, <- !exp_plus. do 3 f_equal.
  rewrite !minus_INR by lia. cbn [INR]. ring.
Qed.

(** Negative points are accepted as well, and come out descending. *)
Theorem fft_points_refuted : forall g, exists x h,
  hankel_new g (1/2) 0 x 1 true 0 1 = Ok h /\
  nth 1 (post_sampts h) 0 < nth 0 (post_sampts h) 0.
Proof.
  intros g. set (x := [-1; -2; -4]).
  assert (L2 := ln2_pos).
  assert (D : ln (nth (length x - 1) x 0 / nth 0 x 0) / INR (length x - 1) = ln 2).
  { cbn [x length Nat.sub nth INR]. replace (-4 / -1) with (2 * 2) by lra. rewrite ln_mult by lra. lra. }
  assert (HC : cpp_check_loglin x = 0%Z).
  { unfold cpp_check_loglin, x. cbn [ratios removelast existsb map nth].
    replace (-2 / -1) with 2 by lra. replace (-4 / -2) with 2 by lra.
    destruct (Reqb (-1) 0) eqn:E1; [apply Reqb_spec in E1; lra|].
    destruct (Reqb (-2) 0) eqn:E2; [apply Reqb_spec in E2; lra|].
    destruct (Rleb 2 0) eqn:E3; [apply Rleb_spec in E3; lra|]. cbn [orb].
    unfold allclose. cbn [forallb]. replace (ln 2 - ln 2) with 0 by lra. rewrite Rabs_R0.
    destruct (Rleb 0 _) eqn:E4; [reflexivity|]. apply Rleb_false in E4. pose proof (Rabs_pos (ln 2)). lra. }
  assert (EX : exists h, hankel_new g (1/2) 0 x 1 true 0 1 = Ok h).
  { unfold hankel_new, construct, is_pole.
    destruct (Rleb (1/2 + 1 + 0) 0) eqn:E; [apply Rleb_spec in E; lra|].
    destruct (Rleb (1/2 + 1 - 0) 0) eqn:E'; [apply Rleb_spec in E'; lra|]. cbn [andb orb bind].
    unfold initialise. cbn [x length Nat.ltb Nat.leb]. fold x. rewrite HC. cbn [Z.eqb negb bind].
    change 3%nat with (length x). rewrite D. unfold kernel_coeff.
    pose proof (lowring_pos g (1/2) 0 (ln 2) 1) as LP.
    destruct (Rleb (ln 2) 0) eqn:E1; [apply Rleb_spec in E1; lra|].
    destruct (Rleb (lowring_pivot _ _ _ _ _) 0) eqn:E2; [apply Rleb_spec in E2; lra|].
    cbn [x length Nat.leb orb bind]. eexists. reflexivity. }
  destruct EX as [h H]. exists x, h. split; [exact H|]. apply hankel_new_inv in H.
  rewrite !(post_nth _ _ _ _ _ _ _ _ _ _ H) by (cbn; lia).
  pose proof (h_pivpos _ _ _ _ _ _ _ _ _ H). pose proof (exp_pos (- logres h)).
  assert (0 < pivot h * exp (- logres h)) by now apply Rmult_lt_0_compat.
  cbn [x length Nat.sub nth]. lra.
Qed.

(* ------------------------------------------------------------------ *)
(* C38: the low-ringing pivot                                          *)

(** The adjusted pivot is within half a logarithmic spacing of the one asked
    for. *)
Theorem lowring_near g mu q x kr ext ee h : hankel_new g mu q x kr true ext ee = Ok h ->
  0 < kr -> Rabs (ln (pivot h / kr)) <= logres h / 2.
Proof.
  intros H HK. apply hankel_new_inv in H. pose proof (h_logpos _ _ _ _ _ _ _ _ _ H) as HD.
  rewrite (h_pivot _ _ _ _ _ _ _ _ _ H). unfold lowring_pivot.
  destruct (Rltb 0 kr) eqn:E; [clear E|apply Rltb_false in E; lra].
  set (a := _ + _ / PI). replace (kr * _ / kr) with (exp (logres h * (a - IZR (cround a)))) by (field; lra).
  rewrite ln_exp, Rabs_mult, (Rabs_pos_eq (logres h)) by lra.
  pose proof (cround_near a). unfold Rdiv. apply Rmult_le_compat_l; lra.
Qed.

(** It makes the mid-point coefficient real before the code keeps its real
    part only, so that nothing is lost there. *)
Theorem lowring_real g mu q x kr ext ee h : hankel_new g mu q x kr true ext ee = Ok h ->
  0 < kr -> Nat.even (nsamp_trans h) = true ->
  nth (nsamp_trans h / 2) (kernel h) (RtoC 0)
  = coeff g mu q (nsamp_trans h) (logres h) (pivot h) (nsamp_trans h / 2).
Proof.
  intros H HK EV. apply hankel_new_inv in H. pose proof (h_logpos _ _ _ _ _ _ _ _ _ H) as HD.
  pose proof (h_trans _ _ _ _ _ _ _ _ _ H) as HN. set (N := nsamp_trans h) in *.
  rewrite (h_kernel _ _ _ _ _ _ _ _ _ H). fold N.
  assert (HM : (N / 2 < N)%nat) by (apply Nat.div_lt; lia).
  rewrite nth_indep with (d' := kernel_at g mu q N (logres h) (pivot h) 0)
    by (rewrite map_length, seq_length; exact HM).
  rewrite map_nth, seq_nth by exact HM. cbn [Nat.add]. rewrite kernel_mid by exact EV.
  rewrite coeff_polar. unfold polar, RtoC. cbn [fst]. f_equal.
  rewrite (h_pivot _ _ _ _ _ _ _ _ _ H).
  destruct (lowring_phase g mu q N (logres h) kr HN EV HD HK) as [z ->]. rewrite sin_PI_Z. ring.
Qed.

(** No pivot asked for: it is chosen between one and one spacing above, and
    the mid-point phase departs from a whole number of half turns by the error
    of the gamma ratio used: none where GSL's phases are used and change sign
    with the imaginary part (up to whole turns). *)
Theorem lowring_free g mu q x kr ext ee h : hankel_new g mu q x kr true ext ee = Ok h ->
  kr <= 0 -> 1 <= pivot h < exp (logres h).
Proof.
  intros H HK. apply hankel_new_inv in H. pose proof (h_logpos _ _ _ _ _ _ _ _ _ H) as HD.
  rewrite (h_pivot _ _ _ _ _ _ _ _ _ H). unfold lowring_pivot.
  destruct (Rltb 0 kr) eqn:E; [apply Rltb_spec in E; lra|]. set (l := ln 2 + _).
  pose proof (Zfloor_lb (l / logres h)) as F1. pose proof (Zfloor_ub (l / logres h)) as F2.
  set (z := IZR (Zfloor (l / logres h))) in *.
  assert (E1 : z * logres h <= l).
  { apply (Rmult_le_compat_r (logres h)) in F1; [|lra]. unfold Rdiv in F1.
    rewrite Rmult_assoc, Rinv_l in F1 by lra. lra. }
  assert (E2 : l < (z + 1) * logres h).
  { apply (Rmult_lt_compat_r (logres h)) in F2; [|lra]. unfold Rdiv in F2.
    rewrite Rmult_assoc, Rinv_l in F2 by lra. lra. }
  split.
  - rewrite <- exp_0. destruct (Rle_lt_or_eq_dec 0 (l - z * logres h)) as [X|X]; [lra| |].
    + left. now apply exp_increasing.
    + right. now rewrite <- X.
  - apply exp_increasing. lra.
Qed.

Theorem lowring_free_phase g mu q x kr ext ee h : hankel_new g mu q x kr true ext ee = Ok h ->
  kr <= 0 -> Nat.even (nsamp_trans h) = true ->
  exists z, phase g mu q (nsamp_trans h) (logres h) (pivot h) (nsamp_trans h / 2)
    = PI * IZR z + (theta g ((mu + 1 + q) / 2) (PI / (2 * logres h)) + theta g ((mu + 1 - q) / 2) (PI / (2 * logres h))
                    - snd (gamma_lnratio g mu q (PI / logres h))).
Proof.
  intros H HK EV. apply hankel_new_inv in H. pose proof (h_logpos _ _ _ _ _ _ _ _ _ H) as HD.
  pose proof (h_trans _ _ _ _ _ _ _ _ _ H) as HN. pose proof PI_RGT_0 as HP.
  rewrite phase_mid by (try assumption; lra). rewrite (h_pivot _ _ _ _ _ _ _ _ _ H). unfold lowring_pivot.
  destruct (Rltb 0 kr) eqn:E; [apply Rltb_spec in E; lra|].
  replace (2 * (PI / (2 * logres h))) with (PI / logres h) by (field; lra).
  set (G := snd _). set (l := ln 2 + G / (PI / logres h)). exists (Zfloor (l / logres h)).
  set (z := IZR (Zfloor (l / logres h))).
  replace (exp (l - z * logres h) / 2) with (exp (l - z * logres h) * / 2) by reflexivity.
  rewrite ln_mult, ln_exp, ln_Rinv by (try apply exp_pos; lra). unfold l. field. split; lra.
Qed.

Corollary lowring_free_real g mu q x kr ext ee h : hankel_new g mu q x kr true ext ee = Ok h ->
  kr <= 0 -> Nat.even (nsamp_trans h) = true -> PI / logres h < 100 ->
  (forall x y, exists k, theta g x (- y) = - theta g x y + 2 * PI * IZR k) ->
  nth (nsamp_trans h / 2) (kernel h) (RtoC 0)
  = coeff g mu q (nsamp_trans h) (logres h) (pivot h) (nsamp_trans h / 2).
Proof.
  intros H HK EV HA HT. destruct (lowring_free_phase _ _ _ _ _ _ _ _ H HK EV) as [z HZ].
  apply hankel_new_inv in H. pose proof (h_logpos _ _ _ _ _ _ _ _ _ H) as HD.
  pose proof (h_trans _ _ _ _ _ _ _ _ _ H) as HN. set (N := nsamp_trans h) in *.
  rewrite (h_kernel _ _ _ _ _ _ _ _ _ H). fold N.
  assert (HM : (N / 2 < N)%nat) by (apply Nat.div_lt; lia).
  rewrite nth_indep with (d' := kernel_at g mu q N (logres h) (pivot h) 0)
    by (rewrite map_length, seq_length; exact HM).
  rewrite map_nth, seq_nth by exact HM. cbn [Nat.add]. rewrite kernel_mid by exact EV.
  rewrite coeff_polar. unfold polar, RtoC. cbn [fst]. f_equal. rewrite HZ.
  unfold gamma_lnratio. destruct (Rltb (PI / logres h) 100) eqn:E; [|apply Rltb_false in E; lra].
  cbn [fst snd]. replace (PI / logres h / 2) with (PI / (2 * logres h)) by (field; lra).
  replace (- (PI / logres h) / 2) with (- (PI / (2 * logres h))) by (field; lra).
  destruct (HT ((mu + 1 - q) / 2) (PI / (2 * logres h))) as [k ->].
  replace (PI * IZR z + _) with (PI * IZR (z + 2 * k)).
  - rewrite sin_PI_Z. ring.
  - rewrite plus_IZR, mult_IZR. ring.
Qed.

(* ------------------------------------------------------------------ *)
(* C39: reality, the sum of squares, and inverses                      *)

Lemma nth_tabC (f : nat -> C) n i d : (i < n)%nat -> nth i (map f (seq 0 n)) d = f i.
Proof.
  intros H. rewrite nth_indep with (d' := f 0%nat) by (rewrite map_length, seq_length; exact H).
  now rewrite map_nth, seq_nth.
Qed.

Lemma dft_length l : length (dft l) = length l.
Proof. unfold dft. now rewrite map_length, seq_length. Qed.

Lemma dft_nth l j : (j < length l)%nat ->
  nth j (dft l) (RtoC 0) = dftf (length l) (fun i => nth i l (RtoC 0)) j.
Proof. intros H. unfold dft. now rewrite nth_tabC. Qed.

Lemma convolve_length u a : length (convolve u a) = length u.
Proof. unfold convolve. now rewrite map_length, seq_length. Qed.

(** Two forward transforms about a product, on lists. *)
Lemma conv_nth (u : nat -> C) l j : (j < length l)%nat ->
  nth j (dft (convolve (map u (seq 0 (length l))) (dft l))) (RtoC 0)
  = tr (length l) u (fun i => nth i l (RtoC 0)) j.
Proof.
  intros Hj. set (n := length l) in *.
  assert (LC : length (convolve (map u (seq 0 n)) (dft l)) = n)
    by (rewrite convolve_length, map_length, seq_length; reflexivity).
  rewrite dft_nth by now rewrite LC. rewrite LC. unfold tr. apply dftf_ext. intros m Hm.
  unfold convolve. rewrite map_length, seq_length. rewrite nth_tabC by exact Hm.
  rewrite nth_tabC by exact Hm. rewrite dft_nth by exact Hm. reflexivity.
Qed.

Lemma prepare_plain h a buf : extrap h = 0%Z -> nsamp_trans h = nsamp h -> prepare h a = Ok buf ->
  (nsamp h <= length a)%nat /\ buf = firstn (nsamp h) a.
Proof.
  intros E N. unfold prepare. rewrite E, N. destruct (Nat.ltb_spec (length a) (nsamp h)); [discriminate|].
  cbn [Z.eqb]. now intros [= <-].
Qed.

Lemma firstn_nth {A} (l : list A) k i d : (i < k)%nat -> nth i (firstn k l) d = nth i l d.
Proof.
  revert k i; induction l as [|a l IH]; intros [|k] [|i] H; try lia; try reflexivity.
  cbn [firstn nth]. apply IH. lia.
Qed.

Lemma biased_plain g mu q x kr low ee h a b : holds g mu q x kr low 0 ee h ->
  biased_transform h a = Ok b ->
  (3 <= length x)%nat /\ (length x <= length a)%nat /\
  b = map (tr (length x) (kernel_at g mu q (length x) (logres h) (pivot h)) (fun i => nth i a (RtoC 0)))
          (seq 0 (length x)).
Proof.
  intros H. destruct (h_plain _ _ _ _ _ _ _ _ _ H eq_refl) as [NT NX].
  pose proof (h_nsamp _ _ _ _ _ _ _ _ _ H) as NS. pose proof (h_kernel _ _ _ _ _ _ _ _ _ H) as HK.
  unfold biased_transform. destruct (_ || _) eqn:E; [discriminate|].
  apply orb_false_iff in E as [E E3]. apply orb_false_iff in E as [E1 E2].
  apply Nat.leb_gt in E2. rewrite NS in E2. intros HB. apply bind_ok in HB as (buf & HB & HR).
  apply prepare_plain in HB as [HL ->]; [|apply (h_extrap _ _ _ _ _ _ _ _ _ H)|congruence].
  rewrite NS in *. split; [lia|]. split; [exact HL|].
  injection HR as <-. apply map_ext_in. intros j Hj. apply in_seq in Hj.
  assert (LB : length (firstn (length x) a) = length x) by (apply firstn_length_le; exact HL).
  rewrite HK, NX, NT, Nat.add_0_r. rewrite <- LB at 2. rewrite conv_nth by lia.
  rewrite LB. apply tr_ext; [reflexivity|]. intros m Hm. now apply firstn_nth.
Qed.

(** Real samples. *)
Definition reals (l : list C) : Prop := forall z, In z l -> snd z = 0.

Lemma real_conj z : snd z = 0 <-> Cconj z = z.
Proof.
  destruct z as [a b]. unfold Cconj. cbn [fst snd]. split.
  - intros ->. f_equal. lra.
  - intros [= H]. lra.
Qed.

Lemma reals_nth l i : reals l -> snd (nth i l (RtoC 0)) = 0.
Proof.
  intros H. destruct (Nat.lt_ge_cases i (length l)) as [L|L].
  - now apply H, nth_In.
  - now rewrite nth_overflow.
Qed.

Lemma prepare_reals g mu q x kr low ext ee h a buf : holds g mu q x kr low ext ee h ->
  prepare h a = Ok buf -> (ext = 0%Z -> reals a) -> reals buf.
Proof.
  intros H. pose proof (h_extrap _ _ _ _ _ _ _ _ _ H) as HE. unfold prepare. rewrite HE.
  destruct (length a <? nsamp h)%nat; [discriminate|]. destruct (Z.eqb_spec ext 0) as [->|NE].
  - intros [= <-] R z Hz. apply R; [reflexivity|].
    rewrite <- (firstn_skipn (nsamp_trans h) a). apply in_or_app. now left.
  - intros HB _. apply bind_ok in HB as (v & _ & HB). injection HB as <-.
    intros z Hz. apply in_map_iff in Hz as (r & <- & _). reflexivity.
Qed.

Lemma cpp_pad_length a n c c' : length (cpp_extrap_pad a n c c') = (n + length a + n)%nat.
Proof. unfold cpp_extrap_pad. now rewrite map_length, seq_length. Qed.

Lemma prepare_length g mu q x kr low ext ee h a buf : hankel_new g mu q x kr low ext ee = Ok h ->
  prepare h a = Ok buf -> length buf = nsamp_trans h.
Proof.
  intros H0. pose proof H0 as H. apply hankel_new_inv in H.
  pose proof (h_extrap _ _ _ _ _ _ _ _ _ H) as HE. pose proof (h_nsamp _ _ _ _ _ _ _ _ _ H) as NS.
  unfold prepare. rewrite HE, NS. destruct (Nat.ltb_spec (length a) (length x)) as [|HL]; [discriminate|].
  destruct (Z.eqb_spec ext 0) as [E|NE].
  - intros [= <-]. destruct (h_plain _ _ _ _ _ _ _ _ _ H E) as [-> _]. now apply firstn_length_le.
  - destruct (fft_size _ _ _ _ _ _ _ _ _ H0 NE) as [_ NT].
    assert (LV : length (map fst (firstn (length x) a)) = length x)
      by (rewrite map_length; now apply firstn_length_le).
    set (v := map fst (firstn (length x) a)) in *.
    intros HB. apply bind_ok in HB as (w & HW & HB). injection HB as <-. rewrite map_length, NT.
    destruct (ext =? 1)%Z; [injection HW as <-; rewrite cpp_pad_length; lia|].
    destruct (ext =? 2)%Z; [injection HW as <-; rewrite cpp_pad_length; lia|].
    destruct (ext =? 3)%Z.
    + unfold cpp_extrap_lin in HW. destruct (length v <? 2)%nat; [discriminate|]. injection HW as <-.
      rewrite map_length, seq_length. lia.
    + destruct (ext =? 4)%Z; [|discriminate]. unfold cpp_extrap_loglin in HW.
      destruct (length v =? 0)%nat; [discriminate|]. destruct (negb (cpp_check_sign v)); [discriminate|].
      destruct (length v <? 2)%nat; [discriminate|]. injection HW as <-.
      rewrite map_length, seq_length. lia.
Qed.

(** Real samples go to real samples, with or without native extrapolation (which
    drops imaginary parts beforehand), and as many of them. *)
Theorem fft_real g mu q x kr low ext ee h a b : hankel_new g mu q x kr low ext ee = Ok h ->
  real_gamma g -> biased_transform h a = Ok b -> (ext = 0%Z -> reals a) ->
  reals b /\ length b = length x.
Proof.
  intros H0 G HB HR. pose proof H0 as H. apply hankel_new_inv in H.
  pose proof (h_nsamp _ _ _ _ _ _ _ _ _ H) as NS. pose proof (h_trans _ _ _ _ _ _ _ _ _ H) as HT.
  unfold biased_transform in HB. destruct (_ || _) in HB; [discriminate|].
  apply bind_ok in HB as (buf & HP & HB). injection HB as <-.
  pose proof (prepare_length _ _ _ _ _ _ _ _ _ _ _ H0 HP) as LB.
  pose proof (prepare_reals _ _ _ _ _ _ _ _ _ _ _ H HP HR) as RB.
  split; [|now rewrite map_length, seq_length, NS].
  intros z Hz. apply in_map_iff in Hz as (j & <- & _). rewrite (h_kernel _ _ _ _ _ _ _ _ _ H).
  set (k := (j + n_ext h)%nat). destruct (Nat.lt_ge_cases k (nsamp_trans h)) as [L|L].
  - rewrite <- LB at 2. rewrite conv_nth by lia. apply real_conj. rewrite LB. apply tr_real; try assumption.
    + intros m Hm. now apply kernel_hermitian.
    + intros m _. now apply real_conj, reals_nth.
  - rewrite nth_overflow; [reflexivity|]. rewrite dft_length, convolve_length, map_length, seq_length. exact L.
Qed.

(** The sum of squared moduli. *)
Definition sumsq (l : list C) : R := rsum (map (fun z => fst z ^ 2 + snd z ^ 2) l).

Lemma norm_sq z : (z * Cconj z)%C = RtoC (fst z ^ 2 + snd z ^ 2).
Proof. destruct z. unfold Cmult, Cconj, RtoC. cbn [fst snd]. f_equal; ring. Qed.

Lemma total_RtoC n f : total n (fun i => RtoC (f i)) = RtoC (rsum (map f (seq 0 n))).
Proof.
  unfold total. generalize (seq 0 n). induction l as [|a l IH]; [reflexivity|].
  cbn [map]. rewrite csum_cons, IH, rsum_cons, RtoC_plus. reflexivity.
Qed.

Lemma sumsq_total n f : RtoC (sumsq (map f (seq 0 n))) = total n (fun i => f i * Cconj (f i))%C.
Proof.
  unfold sumsq. rewrite map_map, <- total_RtoC. apply total_ext. intros. symmetry. apply norm_sq.
Qed.

Lemma list_tab (l : list C) n : length l = n -> l = map (fun i => nth i l (RtoC 0)) (seq 0 n).
Proof.
  intros <-. apply nth_ext with (RtoC 0) (RtoC 0); [now rewrite map_length, seq_length|].
  intros i Hi. now rewrite nth_tabC.
Qed.

(** Unbiased transform: what the sum of squares loses is the mid-point mode of
    an even-sized transform, by how far its phase is from being real. *)
Lemma energy_exact g mu x kr low ee h a b : holds g mu 0 x kr low 0 ee h ->
  length a = length x -> biased_transform h a = Ok b ->
  sumsq b = sumsq a - (if Nat.even (length x)
     then sin (phase g mu 0 (length x) (logres h) (pivot h) (length x / 2)) ^ 2
          * (fst (dftf (length x) (fun i => nth i a (RtoC 0)) (length x / 2)) ^ 2
             + snd (dftf (length x) (fun i => nth i a (RtoC 0)) (length x / 2)) ^ 2) / INR (length x)
     else 0).
Proof.
  intros H LA HB. destruct (biased_plain _ _ _ _ _ _ _ _ _ _ H HB) as (N3 & _ & ->).
  set (n := length x) in *. set (u := kernel_at g mu 0 n (logres h) (pivot h)).
  set (f := fun i => nth i a (RtoC 0)). assert (Hn : (0 < n)%nat) by lia.
  pose proof (INR_n n Hn) as N0. pose proof (Cn_n0 n Hn) as NC.
  apply RtoC_inj. rewrite sumsq_total, tr_energy by exact Hn.
  assert (EA : RtoC (sumsq a) = total n (fun i => f i * Cconj (f i))%C)
    by (rewrite (list_tab a n LA); apply sumsq_total).
  rewrite RtoC_minus, EA.
  assert (EP : total n (fun i => f i * Cconj (f i))%C
     = (total n (fun m => dftf n f m * Cconj (dftf n f m)) / RtoC (INR n))%C).
  { rewrite dft_parseval by exact Hn. field. exact NC. }
  rewrite EP. destruct (Nat.even n) eqn:EV.
  - assert (HM : (n / 2 < n)%nat) by (apply Nat.div_lt; lia).
    rewrite (total_ext _ (fun m => _ * (u m * Cconj (u m)))%C
      (fun m => dftf n f m * Cconj (dftf n f m)
        + (if (m =? n / 2)%nat then - RtoC (sin (phase g mu 0 n (logres h) (pivot h) (n / 2)) ^ 2)
              * (dftf n f (n / 2) * Cconj (dftf n f (n / 2))) else RtoC 0))%C).
    + rewrite total_plus.
      rewrite (total_pick n (n / 2) (fun m => if (m =? n / 2)%nat then _ else RtoC 0)); [|exact HM|].
      * rewrite Nat.eqb_refl, norm_sq. rewrite RtoC_div by exact N0. rewrite RtoC_mult. field. exact NC.
      * intros i _ Hi. apply Nat.eqb_neq in Hi. now rewrite Hi.
    + intros m Hm. unfold u. destruct (Nat.eqb_spec m (n / 2)) as [->|D].
      * rewrite kernel_mid_norm by exact EV.
        replace (cos _ ^ 2) with (1 - sin (phase g mu 0 n (logres h) (pivot h) (n / 2)) ^ 2).
        -- rewrite RtoC_minus. ring.
        -- pose proof (sin2_cos2 (phase g mu 0 n (logres h) (pivot h) (n / 2))) as SC. unfold Rsqr in SC. nra.
      * rewrite kernel_norm; [ring|exact Hm|]. intros [_ X]. contradiction.
  - rewrite (total_ext _ (fun m => _ * (u m * Cconj (u m)))%C (fun m => dftf n f m * Cconj (dftf n f m))%C).
    + change (RtoC 0) with (RtoC 0). ring.
    + intros m Hm. unfold u. rewrite kernel_norm; [ring|exact Hm|]. intros [X _]. congruence.
Qed.

(** Where the mid-point mode is not lost: an odd size, or the low-ringing
    pivot for a pivot that was asked for. *)
Definition mid_kept (x : list R) (kr : R) (low : bool) : Prop :=
  Nat.odd (length x) = true \/ (low = true /\ 0 < kr).

Lemma mid_sin g mu q x kr low ee h : holds g mu q x kr low 0 ee h -> mid_kept x kr low ->
  Nat.even (length x) = true ->
  sin (phase g mu q (length x) (logres h) (pivot h) (length x / 2)) = 0.
Proof.
  intros H [O|[-> HK]] EV; [rewrite <- Nat.negb_odd, O in EV; discriminate|].
  pose proof (h_n _ _ _ _ _ _ _ _ _ H). rewrite (h_pivot _ _ _ _ _ _ _ _ _ H).
  destruct (lowring_phase g mu q (length x) (logres h) kr) as [z ->]; try assumption; [lia| |apply sin_PI_Z].
  apply (h_logpos _ _ _ _ _ _ _ _ _ H).
Qed.

(** C39: the sum of squares. *)
Theorem fft_energy g mu x kr low ee h a b : hankel_new g mu 0 x kr low 0 ee = Ok h ->
  mid_kept x kr low -> length a = length x -> biased_transform h a = Ok b ->
  sumsq b = sumsq a.
Proof.
  intros H MK LA HB. apply hankel_new_inv in H. rewrite (energy_exact _ _ _ _ _ _ _ _ _ H LA HB).
  destruct (Nat.even (length x)) eqn:EV; [|lra]. rewrite (mid_sin _ _ _ _ _ _ _ _ H MK EV). unfold Rdiv. ring.
Qed.

(** C39, C58: the transform with bias q, then the one with bias -q, for the same
    order, spacing and pivot, gives the samples back. *)
Theorem fft_inverse g mu q x y kr low kr' low' ee ee' h h' a b : real_gamma g ->
  hankel_new g mu q x kr low 0 ee = Ok h -> hankel_new g mu (- q) y kr' low' 0 ee' = Ok h' ->
  length y = length x -> logres h' = logres h -> pivot h' = pivot h ->
  mid_kept x kr low -> length a = length x ->
  biased_transform h a = Ok b -> biased_transform h' b = Ok a.
Proof.
  intros G H H' LY DL PV MK LA HB. apply hankel_new_inv in H, H'.
  destruct (biased_plain _ _ _ _ _ _ _ _ _ _ H HB) as (N3 & _ & Eb).
  assert (LB : length b = length x) by (rewrite Eb, map_length; apply seq_length).
  assert (EX : exists c, biased_transform h' b = Ok c).
  { unfold biased_transform, prepare. rewrite (h_nsamp _ _ _ _ _ _ _ _ _ H'), (h_extrap _ _ _ _ _ _ _ _ _ H').
    destruct (h_plain _ _ _ _ _ _ _ _ _ H' eq_refl) as [NT _].
    rewrite (h_kernel _ _ _ _ _ _ _ _ _ H'), map_length, seq_length, NT, LY, LB, Nat.ltb_irrefl.
    destruct (Nat.eqb_spec (length x) 0); [lia|]. destruct (Nat.leb_spec (length x) 2); [lia|].
    cbn [orb Z.eqb bind]. eexists. reflexivity. }
  destruct EX as [c HC]. rewrite HC. f_equal.
  destruct (biased_plain _ _ _ _ _ _ _ _ _ _ H' HC) as (_ & _ & ->). rewrite LY, DL, PV.
  rewrite (list_tab a (length x) LA) at 1. apply map_ext_in. intros j Hj. apply in_seq in Hj.
  set (n := length x) in *. assert (Hn : (0 < n)%nat) by lia.
  set (u := kernel_at g mu q n (logres h) (pivot h)). set (u' := kernel_at g mu (- q) n (logres h) (pivot h)).
  set (f := fun i => nth i a (RtoC 0)).
  rewrite (tr_ext n u' u' _ (tr n u f)); [|reflexivity|intros m Hm; rewrite Eb, nth_tabC by exact Hm; reflexivity].
  change (nth j a (RtoC 0)) with (f j).
  destruct (Nat.even n) eqn:EV.
  - assert (HM : (n / 2 < n)%nat) by (apply Nat.div_lt; lia).
    rewrite (tr_tr n Hn u u' f (n / 2) j HM); [|lia|now apply neg_mid|].
    2:{ intros m Hm D. apply kernel_opp; [exact G|exact Hm|]. now intros [_ X]. }
    unfold u, u'. rewrite kernel_mid_opp by exact EV.
    pose proof (mid_sin _ _ _ _ _ _ _ _ H MK EV) as MS. fold n in MS.
    replace (cos _ ^ 2) with 1.
    + replace (RtoC 1 - RtoC 1)%C with (RtoC 0) by ring. unfold Cdiv. ring.
    + pose proof (sin2_cos2 (phase g mu q n (logres h) (pivot h) (n / 2))) as SC. unfold Rsqr in SC.
      rewrite MS in SC. nra.
  - rewrite (tr_tr n Hn u u' f 0 j); [|lia|lia|reflexivity|].
    2:{ intros m Hm D. apply kernel_opp; [exact G|exact Hm|]. intros [X _]; congruence. }
    assert (E0 : (u 0%nat * u' 0%nat)%C = RtoC 1).
    { apply (kernel_opp g mu q n (logres h) (pivot h) 0 G); [lia|]. intros [X _]; congruence. }
    rewrite E0. replace (RtoC 1 - RtoC 1)%C with (RtoC 0) by ring. unfold Cdiv. ring.
Qed.

(** C39: the unbiased transform applied twice. *)
Theorem fft_twice g mu x kr low ee h a b : real_gamma g ->
  hankel_new g mu 0 x kr low 0 ee = Ok h -> mid_kept x kr low -> length a = length x ->
  biased_transform h a = Ok b -> biased_transform h b = Ok a.
Proof.
  intros G H MK LA HB.
  assert (H' : hankel_new g mu (- 0) x kr low 0 ee = Ok h) by (now rewrite Ropp_0).
  now apply (fft_inverse g mu 0 x x kr low kr low ee ee h h a b).
Qed.

(** Exactly spaced points are accepted. *)
Definition pts (r0 d : R) (n : nat) : list R := map (fun j => r0 * exp (INR j * d)) (seq 0 n).

Lemma pts_length r0 d n : length (pts r0 d n) = n.
Proof. unfold pts. now rewrite map_length, seq_length. Qed.

Lemma pts_nth r0 d n j : (j < n)%nat -> nth j (pts r0 d n) 0 = r0 * exp (INR j * d).
Proof. intros H. unfold pts. now rewrite nth_tab. Qed.

Lemma spaced_check r0 d x : 0 < r0 -> log_spaced r0 d x -> cpp_check_loglin x = 0%Z.
Proof.
  intros H0 LS. unfold cpp_check_loglin.
  assert (RT : forall j, (S j < length x)%nat -> nth j (ratios x) 0 = exp d).
  { intros j Hj. rewrite ratios_nth by exact Hj. rewrite !LS by lia.
    rewrite S_INR, Rmult_plus_distr_r, exp_plus, Rmult_1_l. pose proof (exp_pos (INR j * d)). field. lra. }
  assert (E1 : existsb (fun x => Reqb x 0) (removelast x) = false).
  { apply not_true_is_false. intros E. apply existsb_exists in E as (z & Hz & E). apply Reqb_spec in E.
    apply (In_nth _ _ 0) in Hz as (j & Hj & <-). rewrite removelast_len in Hj.
    rewrite removelast_nth, LS in E by lia. pose proof (exp_pos (INR j * d)). nra. }
  assert (RA : forall z, In z (ratios x) -> z = exp d).
  { intros z Hz. apply (In_nth _ _ 0) in Hz as (j & Hj & <-). rewrite ratios_length in Hj. apply RT. lia. }
  assert (E2 : existsb (fun x => Rleb x 0) (ratios x) = false).
  { apply not_true_is_false. intros E. apply existsb_exists in E as (z & Hz & E). apply Rleb_spec in E.
    rewrite (RA z Hz) in E. pose proof (exp_pos d). lra. }
  rewrite E1, E2. cbn [orb].
  assert (LA : forall z, In z (map ln (ratios x)) -> z = d).
  { intros z Hz. apply in_map_iff in Hz as (w & <- & Hw). rewrite (RA w Hw). apply ln_exp. }
  destruct (map ln (ratios x)) as [|z l] eqn:EL; [reflexivity|].
  cbn [nth]. replace z with d in * by (symmetry; apply LA; now left).
  replace (allclose (d :: l) d) with true; [reflexivity|].
  symmetry. apply forallb_forall. intros w Hw. rewrite (LA w Hw). apply Rleb_spec.
  replace (d - d) with 0 by lra. rewrite Rabs_R0. pose proof (Rabs_pos d). lra.
Qed.

Lemma spaced_accepted g mu q r0 d x kr low ee : 0 < mu + 1 + q -> 0 < mu + 1 - q ->
  0 < r0 -> 0 < d -> (2 <= length x)%nat -> log_spaced r0 d x -> 0 < kr ->
  exists h, hankel_new g mu q x kr low 0 ee = Ok h.
Proof.
  intros Q1 Q2 H0 HD Hn LS HK. unfold hankel_new, construct, is_pole.
  destruct (Rleb (mu + 1 + q) 0) eqn:E1; [apply Rleb_spec in E1; lra|].
  destruct (Rleb (mu + 1 - q) 0) eqn:E2; [apply Rleb_spec in E2; lra|]. cbn [andb orb bind].
  unfold initialise. destruct (Nat.ltb_spec (length x) 2); [lia|].
  rewrite (spaced_check r0 d x H0 LS). cbn [Z.eqb negb bind].
  assert (D : ln (nth (length x - 1) x 0 / nth 0 x 0) / INR (length x - 1) = d).
  { rewrite !LS by lia. cbn [INR]. rewrite Rmult_0_l, exp_0.
    replace (r0 * exp (INR (length x - 1) * d) / (r0 * 1)) with (exp (INR (length x - 1) * d)) by (field; lra).
    rewrite ln_exp. field. apply not_0_INR. lia. }
  rewrite D. unfold kernel_coeff. destruct (Nat.leb_spec (length x) 0); [lia|].
  destruct (Rleb d 0) eqn:E3; [apply Rleb_spec in E3; lra|]. cbn [orb].
  destruct low; cbn [bind].
  - pose proof (lowring_pos g mu q d kr). destruct (Rleb (lowring_pivot g mu q d kr) 0) eqn:E4;
      [apply Rleb_spec in E4; lra|]. cbn [bind]. eexists. reflexivity.
  - destruct (Rleb kr 0) eqn:E4; [apply Rleb_spec in E4; lra|]. cbn [bind].
    rewrite E4. cbn [bind]. eexists. reflexivity.
Qed.

Lemma biased_accepted g mu q x kr low ee h a : hankel_new g mu q x kr low 0 ee = Ok h ->
  (3 <= length x)%nat -> length a = length x -> exists b, biased_transform h a = Ok b.
Proof.
  intros H N3 LA. apply hankel_new_inv in H. unfold biased_transform, prepare.
  rewrite (h_nsamp _ _ _ _ _ _ _ _ _ H), (h_extrap _ _ _ _ _ _ _ _ _ H).
  destruct (h_plain _ _ _ _ _ _ _ _ _ H eq_refl) as [NT _].
  rewrite (h_kernel _ _ _ _ _ _ _ _ _ H), map_length, seq_length, NT, LA, Nat.ltb_irrefl.
  destruct (Nat.eqb_spec (length x) 0); [lia|]. destruct (Nat.leb_spec (length x) 2); [lia|].
  cbn [orb Z.eqb bind]. eexists. reflexivity.
Qed.

(** C39 refuted: for whatever gamma function, order and even size there is a
    pivot at which the unbiased transform, without the low-ringing condition,
    sends samples of alternating sign to nothing. *)
Definition alternating (n : nat) : list C := map (fun i => RtoC ((-1) ^ i)) (seq 0 n).

Lemma ex_half k i : (0 < k)%nat -> ex (2 * k) (Z.of_nat k * Z.of_nat i) = RtoC ((-1) ^ i).
Proof.
  intros Hk. assert (K0 : INR k <> 0) by (apply not_0_INR; lia).
  unfold ex. replace (2 * PI * IZR (Z.of_nat k * Z.of_nat i) / INR (2 * k)) with (INR i * PI).
  2:{ rewrite mult_IZR, <- !INR_IZR_INZ, mult_INR. cbn [INR]. field. exact K0. }
  induction i as [|i IH].
  - cbn [INR pow]. rewrite Rmult_0_l, Ropp_0. apply cis_0.
  - rewrite S_INR. replace (- ((INR i + 1) * PI)) with (- (INR i * PI) + - PI) by ring.
    rewrite cis_plus, IH. unfold cis. rewrite cos_neg, sin_neg, cos_PI, sin_PI.
    unfold Cmult, RtoC. cbn [fst snd pow]. f_equal; ring.
Qed.

Theorem fft_energy_refuted g mu k ee : -1 < mu -> (2 <= k)%nat -> exists kr h b,
  hankel_new g mu 0 (pts 1 1 (2 * k)) kr false 0 ee = Ok h /\
  biased_transform h (alternating (2 * k)) = Ok b /\
  sumsq (alternating (2 * k)) = INR (2 * k) /\ sumsq b = 0.
Proof.
  intros HM Hk. set (n := (2 * k)%nat). set (x := pts 1 1 n). pose proof PI_RGT_0 as HP.
  assert (LX : length x = n) by apply pts_length.
  assert (LS : log_spaced 1 1 x) by (intros j Hj; apply pts_nth; now rewrite LX in Hj).
  set (T := theta g ((mu + 1 + 0) / 2) (PI / (2 * 1)) + theta g ((mu + 1 - 0) / 2) (PI / (2 * 1))).
  set (kr := 2 * exp (T / PI - / 2)).
  assert (HK : 0 < kr) by (unfold kr; pose proof (exp_pos (T / PI - / 2)); lra).
  destruct (spaced_accepted g mu 0 1 1 x kr false ee) as [h H]; try lra; try assumption; [lia|].
  assert (LA : length (alternating n) = length x) by (unfold alternating; rewrite map_length, seq_length; auto).
  destruct (biased_accepted _ _ _ _ _ _ _ _ (alternating n) H) as [b HB]; [lia|exact LA|].
  exists kr, h, b. repeat (split; [assumption|]).
  destruct (fft_log_spaced _ _ _ _ _ _ _ _ _ 1 1 H ltac:(lra) LS) as [DL _].
  apply hankel_new_inv in H.
  assert (SA : sumsq (alternating n) = INR n).
  { unfold sumsq, alternating. rewrite map_map.
    rewrite (rsum_map_ext _ (fun _ => 1)), rsum_const, seq_length; [ring|].
    intros i _. unfold RtoC. cbn [fst snd]. pose proof (pow_m1_sqr i). nra. }
  split; [exact SA|]. rewrite (energy_exact _ _ _ _ _ _ _ _ _ H LA HB), SA, LX.
  assert (EV : Nat.even n = true) by (apply Nat.even_spec; now exists k).
  assert (N2 : (n / 2)%nat = k) by (unfold n; rewrite Nat.mul_comm, Nat.div_mul; lia).
  rewrite EV. rewrite phase_mid by (try assumption; try lia; rewrite DL; lra). rewrite DL.
  rewrite (h_pivot _ _ _ _ _ _ _ _ _ H). unfold kr.
  replace (2 * exp (T / PI - / 2) / 2) with (exp (T / PI - / 2)) by field. rewrite ln_exp, Rplus_assoc. fold T.
  replace (- (PI / 1) * (T / PI - / 2) + T) with (PI / 2) by (field; lra). rewrite sin_PI2, N2.
  assert (DF : dftf n (fun i => nth i (alternating n) (RtoC 0)) k = RtoC (INR n)).
  { unfold dftf. rewrite (total_ext _ _ (fun _ => RtoC 1)).
    - rewrite total_const. apply Cmult_1_r.
    - intros i Hi. unfold alternating. rewrite nth_tabC by exact Hi. unfold n. rewrite ex_half by lia.
      rewrite <- RtoC_mult, pow_m1_sqr. reflexivity. }
  rewrite DF. unfold RtoC. cbn [fst snd]. assert (INR n <> 0) by (apply not_0_INR; lia). field. assumption.
Qed.

(* ------------------------------------------------------------------ *)
(* C41: prefactors                                                     *)

Lemma Ci_sq : (Ci * Ci)%C = RtoC (-1).
Proof. unfold Ci, Cmult, RtoC. cbn [fst snd]. f_equal; ring. Qed.

Lemma Ci_n0 : Ci <> RtoC 0.
Proof. unfold Ci, RtoC. intros [= H]. lra. Qed.

Lemma Cpown_n0 z n : z <> RtoC 0 -> Cpown z n <> RtoC 0.
Proof.
  intros Z. induction n as [|n IH]; cbn [Cpown].
  - intros E. apply RtoC_inj in E. lra.
  - now apply Cmult_neq_0.
Qed.

Lemma Cpowz_opp z k : z <> RtoC 0 -> (Cpowz z k * Cpowz z (- k))%C = RtoC 1.
Proof.
  intros Z. unfold Cpowz. destruct (Z.leb_spec 0 k) as [H|H], (Z.leb_spec 0 (- k)) as [H'|H'].
  - replace k with 0%Z by lia. cbn. apply Cmult_1_l.
  - rewrite Z.opp_involutive. apply Cinv_r. now apply Cpown_n0.
  - rewrite Cmult_comm. apply Cinv_r. now apply Cpown_n0.
  - lia.
Qed.

Lemma RtoC_n0 r : r <> 0 -> RtoC r <> RtoC 0.
Proof. intros H E. now apply RtoC_inj in E. Qed.

Lemma twopi3 : (2 * PI) ^ 3 <> 0.
Proof. apply pow_nonzero. pose proof PI_RGT_0. lra. Qed.

(** C++: forward and backward prefactors multiply to (2 pi)^-3; they differ
    by a power of i from 1 and (2 pi)^-3. *)
Theorem cpp_prefactors ell :
  (cpp_prefactor ell 1 * cpp_prefactor ell (-1))%C = RtoC (/ (2 * PI) ^ 3) /\
  Cmod (cpp_prefactor ell 1) = 1 /\
  Cpowz Ci (- ell) = cpp_prefactor ell 1 /\
  (RtoC (/ (2 * PI) ^ 3) * Cpowz Ci ell)%C = cpp_prefactor ell (-1).
Proof.
  unfold cpp_prefactor. cbn [Z.eqb Pos.eqb Z.opp].
  replace (-1 * ell)%Z with (- ell)%Z by lia. replace (1 * ell)%Z with ell by lia.
  pose proof (Cpowz_opp Ci ell Ci_n0) as E. split; [|split; [|split]].
  - transitivity (RtoC (/ (2 * PI) ^ 3) * (Cpowz Ci ell * Cpowz Ci (- ell)))%C; [ring|]. rewrite E. apply Cmult_1_r.
  - rewrite Cmult_1_l. assert (M : forall n, Cmod (Cpown Ci n) = 1).
    { induction n as [|n IH]; cbn [Cpown]; [rewrite Cmod_R; apply Rabs_R1|]. rewrite Cmod_mult, IH.
      unfold Ci, Cmod. cbn [fst snd]. replace (0 ^ 2 + 1 ^ 2) with 1 by ring. rewrite sqrt_1. ring. }
    unfold Cpowz. destruct (0 <=? - ell)%Z; [apply M|]. rewrite Cmod_inv by (apply Cpown_n0, Ci_n0).
    rewrite M. apply Rinv_1.
  - symmetry. apply Cmult_1_l.
  - reflexivity.
Qed.

(* ------------------------------------------------------------------ *)
(* C58: forward then backward is the identity                          *)

Lemma post_pre g mu q x kr low ee h : holds g mu q x kr low 0 ee h ->
  forall g' mu' q' kr' low' ee' h', holds g' mu' q' (post_sampts h) kr' low' 0 ee' h' ->
  logres h' = logres h.
Proof.
  intros H g' mu' q' kr' low' ee' h' H'. pose proof (h_n _ _ _ _ _ _ _ _ _ H) as Hn.
  pose proof (checked_nonzero x Hn (h_check _ _ _ _ _ _ _ _ _ H)) as NZ.
  pose proof (h_pivpos _ _ _ _ _ _ _ _ _ H) as HP. pose proof (exp_pos (- logres h)) as HE.
  rewrite (h_logres _ _ _ _ _ _ _ _ _ H'), (post_length _ _ _ _ _ _ _ _ _ H).
  rewrite !(post_nth _ _ _ _ _ _ _ _ _ _ H) by lia. rewrite (h_logres _ _ _ _ _ _ _ _ _ H) at 3.
  do 2 f_equal. replace (length x - 1 - (length x - 1))%nat with 0%nat by lia.
  replace (length x - 1 - 0)%nat with (length x - 1)%nat by lia.
  field. repeat split; try (apply NZ; lia); lra.
Qed.

Lemma pos_points h : existsb (fun x => Rleb x 0) (pre_sampts h) = false ->
  forall j, (j < length (pre_sampts h))%nat -> 0 < nth j (pre_sampts h) 0.
Proof.
  intros E j Hj. apply Rnot_le_lt. intros X.
  assert (existsb (fun x => Rleb x 0) (pre_sampts h) = true); [|congruence].
  apply existsb_exists. exists (nth j (pre_sampts h) 0). split; [now apply nth_In|now apply Rleb_spec].
Qed.

Lemma Rpower_one x : Rpower 1 x = 1.
Proof. unfold Rpower. rewrite ln_1, Rmult_0_r. apply exp_0. Qed.

Lemma Rpower_prod a b p : 0 < a -> 0 < b -> Rpower (a * b) p = Rpower a p * Rpower b p.
Proof. intros. symmetry. now apply Rpower_mult_distr. Qed.

Lemma two_pi_power : Rpower (2 * PI) (3 / 2) * Rpower (2 * PI) (3 / 2) = (2 * PI) ^ 3.
Proof.
  pose proof PI_RGT_0. rewrite <- Rpower_plus. replace (3 / 2 + 3 / 2) with (INR 3) by (cbn [INR]; lra).
  apply Rpower_pow. lra.
Qed.

(** Multipoles transformed forward with bias q and backward with bias -q at the
    points the first transform returns, for the same degree and the same
    pivot asked for: the points and the samples come back. *)
Theorem multipole_round_trip g ell n x kr low ee ee' h h' a b0 b c0 c : real_gamma g ->
  sbt_new g ell n x kr low 0 ee = Ok h ->
  sbt_new g ell (- n) (post_sampts h) kr low 0 ee' = Ok h' ->
  0 < kr -> mid_kept x kr low -> length b0 = length x -> length c0 = length x ->
  sbt_multipole h ell 1 a b0 = Ok b -> sbt_multipole h' ell (-1) b c0 = Ok c ->
  post_sampts h' = x /\ c = a.
Proof.
  intros G H H' HK MK LB0 LC0 HB HC. unfold sbt_new in H, H'. set (mu := IZR ell + 1 / 2) in *.
  rewrite opp_IZR in H'. set (q := IZR n) in *.
  pose proof (hankel_new_inv _ _ _ _ _ _ _ _ _ H) as I. pose proof (hankel_new_inv _ _ _ _ _ _ _ _ _ H') as I'.
  pose proof (h_n _ _ _ _ _ _ _ _ _ I) as Hn. pose proof (h_nsamp _ _ _ _ _ _ _ _ _ I) as NS.
  pose proof (post_length _ _ _ _ _ _ _ _ _ I) as PL.
  pose proof (h_nsamp _ _ _ _ _ _ _ _ _ I') as NS'. rewrite PL in NS'.
  pose proof (post_pre _ _ _ _ _ _ _ _ I _ _ _ _ _ _ _ I') as DL.
  pose proof (h_logpos _ _ _ _ _ _ _ _ _ I) as HD. pose proof (h_pivpos _ _ _ _ _ _ _ _ _ I) as HP.
  assert (PV : pivot h' = pivot h).
  { rewrite (h_pivot _ _ _ _ _ _ _ _ _ I'), (h_pivot _ _ _ _ _ _ _ _ _ I), DL.
    destruct low; [now apply lowring_opp_pos|reflexivity]. }
  pose proof (checked_nonzero x Hn (h_check _ _ _ _ _ _ _ _ _ I)) as NZ.
  pose proof (exp_pos (- logres h)) as HE.
  assert (PP : post_sampts h' = x).
  { apply nth_ext with 0 0; [rewrite (post_length _ _ _ _ _ _ _ _ _ I'); exact PL|].
    rewrite (post_length _ _ _ _ _ _ _ _ _ I'), PL. intros j Hj.
    rewrite (post_nth _ _ _ _ _ _ _ _ _ _ I') by (rewrite PL; exact Hj). rewrite PL.
    rewrite (post_nth _ _ _ _ _ _ _ _ _ _ I) by lia. rewrite DL, PV.
    replace (length x - 1 - (length x - 1 - j))%nat with j by lia. field. repeat split; try lra. now apply NZ. }
  split; [exact PP|].
  (* the forward transform *)
  unfold sbt_multipole in HB. cbn [Z.abs Z.eqb Pos.eqb negb] in HB. apply bind_ok in HB as (b1 & HB1 & HB).
  unfold sbt_transform in HB1. rewrite NS in HB1.
  destruct (Nat.eqb_spec (length a) (length x)) as [LA|]; [|discriminate]. cbn [negb] in HB1.
  destruct (existsb _ (pre_sampts h)) eqn:EP; [discriminate|].
  apply bind_ok in HB1 as (B & HB1 & HB2). rewrite LB0, Nat.ltb_irrefl in HB2.
  rewrite skipn_all2, app_nil_r in HB2 by lia. injection HB2 as <-.
  rewrite map_length, seq_length, NS in HB. injection HB as <-.
  (* the backward transform *)
  unfold sbt_multipole in HC. cbn [Z.abs Z.eqb Pos.eqb negb] in HC. apply bind_ok in HC as (c1 & HC1 & HC).
  unfold sbt_transform in HC1. rewrite NS', map_length, seq_length, Nat.eqb_refl in HC1. cbn [negb] in HC1.
  destruct (existsb _ (pre_sampts h')) eqn:EP'; [discriminate|].
  apply bind_ok in HC1 as (B' & HC1 & HC2). rewrite LC0, Nat.ltb_irrefl in HC2.
  rewrite skipn_all2, app_nil_r in HC2 by lia. injection HC2 as <-.
  rewrite map_length, seq_length, NS' in HC. injection HC as <-.
  (* signs of the points *)
  pose proof (pos_points h EP) as P1. rewrite (h_pre _ _ _ _ _ _ _ _ _ I) in P1.
  pose proof (pos_points h' EP') as P2. rewrite (h_pre _ _ _ _ _ _ _ _ _ I'), PL in P2.
  rewrite (h_pre _ _ _ _ _ _ _ _ _ I') in HC1. rewrite (h_pre _ _ _ _ _ _ _ _ _ I) in HB1.
  rewrite PP. clear EP EP'. set (m := length x) in *. pose proof PI_RGT_0 as PI0.
  set (A := map (fun j => RtoC (Rpower (nth j x 0) (3 / 2)) * nth j a (RtoC 0))%C (seq 0 m)) in *.
  assert (LAA : length A = m) by (unfold A; now rewrite map_length, seq_length).
  (* scaled samples transform to scaled samples *)
  set (w := (RtoC (Rpower (2 * PI) (3 / 2)) * cpp_prefactor ell 1)%C).
  set (A' := map _ (seq 0 m)) in HC1.
  assert (EA' : A' = map (fun j => w * nth j B (RtoC 0))%C (seq 0 m)).
  { unfold A'. apply map_ext_in. intros j Hj. apply in_seq in Hj.
    rewrite nth_tabC by lia. rewrite (proj2 (Nat.ltb_lt j m)) by lia. rewrite nth_tabC by lia.
    pose proof (P2 j ltac:(lia)) as Pj. unfold w. set (kj := nth j (post_sampts h) 0) in *.
    transitivity (RtoC (Rpower kj (3 / 2) * Rpower (2 * PI / kj) (3 / 2)) * nth j B (RtoC 0) * cpp_prefactor ell 1)%C.
    - rewrite RtoC_mult. ring.
    - rewrite <- Rpower_prod by (try assumption; apply Rdiv_lt_0_compat; lra).
      replace (kj * (2 * PI / kj)) with (2 * PI) by (field; lra). ring. }
  pose proof (fft_inverse g mu q x (post_sampts h) kr low kr low ee ee' h h' A B G H H' PL DL PV MK LAA HB1) as INV.
  destruct (biased_plain _ _ _ _ _ _ _ _ _ _ I' HC1) as (N3 & _ & EB').
  destruct (biased_plain _ _ _ _ _ _ _ _ _ _ I' INV) as (_ & _ & EA). rewrite PL in *. fold m in EB', EA.
  apply nth_ext with (RtoC 0) (RtoC 0); [rewrite map_length, seq_length; congruence|].
  rewrite map_length, seq_length. intros j Hj. rewrite nth_tabC by exact Hj.
  rewrite (proj2 (Nat.ltb_lt j m)) by exact Hj. rewrite nth_tabC by exact Hj.
  assert (EJ : nth j B' (RtoC 0) = (w * nth j A (RtoC 0))%C).
  { rewrite EB', nth_tabC by exact Hj. rewrite EA, nth_tabC by exact Hj. rewrite <- tr_scal.
    apply tr_ext; [reflexivity|]. intros i Hi. rewrite EA', nth_tabC by exact Hi. reflexivity. }
  rewrite EJ. unfold A. rewrite nth_tabC by exact Hj. pose proof (P1 j Hj) as Pj. set (rj := nth j x 0) in *.
  unfold w.
  transitivity (RtoC (Rpower (2 * PI) (3 / 2) * (Rpower (2 * PI / rj) (3 / 2) * Rpower rj (3 / 2)))
     * (cpp_prefactor ell 1 * cpp_prefactor ell (-1)) * nth j a (RtoC 0))%C.
  - rewrite !RtoC_mult. ring.
  - destruct (cpp_prefactors ell) as (-> & _).
    rewrite <- Rpower_prod by (try assumption; apply Rdiv_lt_0_compat; lra).
    replace (2 * PI / rj * rj) with (2 * PI) by (field; lra). rewrite two_pi_power, <- RtoC_mult, Rinv_r by apply twopi3.
    apply Cmult_1_l.
Qed.

Lemma sbt_multipole_ok g ell n x kr low ee h dir a b0 : sbt_new g ell n x kr low 0 ee = Ok h ->
  Z.abs dir = 1%Z -> (3 <= length x)%nat -> (forall j, (j < length x)%nat -> 0 < nth j x 0) ->
  length a = length x -> length b0 = length x ->
  exists b, sbt_multipole h ell dir a b0 = Ok b /\ length b = length x.
Proof.
  intros H D N3 P LA LB. unfold sbt_new in H. pose proof (hankel_new_inv _ _ _ _ _ _ _ _ _ H) as I.
  unfold sbt_multipole, sbt_transform. rewrite D, (h_nsamp _ _ _ _ _ _ _ _ _ I), LA, LB, Nat.eqb_refl.
  cbn [Z.eqb Pos.eqb negb]. rewrite (h_pre _ _ _ _ _ _ _ _ _ I).
  replace (existsb (fun r => Rleb r 0) x) with false.
  2:{ symmetry. apply not_true_is_false. intros E. apply existsb_exists in E as (z & Hz & E).
      apply Rleb_spec in E. apply (In_nth _ _ 0) in Hz as (j & Hj & <-). specialize (P j Hj). lra. }
  edestruct (biased_accepted _ _ _ _ _ _ _ _
     (map (fun j => RtoC (Rpower (nth j x 0) (3 / 2)) * nth j a (RtoC 0))%C (seq 0 (length x))) H N3) as [B HB];
    [now rewrite map_length, seq_length|].
  rewrite HB. cbn [bind]. rewrite Nat.ltb_irrefl. cbn [bind]. eexists. split; [reflexivity|].
  rewrite !map_length, !seq_length, app_length, map_length, seq_length, skipn_length. lia.
Qed.

(** For exactly spaced points the round trip always exists. *)
Theorem multipole_round_trip_exists g ell n r0 d N kr low ee a b0 c0 : real_gamma g ->
  0 < IZR ell + 3 / 2 + IZR n -> 0 < IZR ell + 3 / 2 - IZR n ->
  0 < r0 -> 0 < d -> (3 <= N)%nat -> 0 < kr -> (Nat.odd N = true \/ low = true) ->
  length a = N -> length b0 = N -> length c0 = N ->
  exists h h' b,
    sbt_new g ell n (pts r0 d N) kr low 0 ee = Ok h /\
    sbt_new g ell (- n) (post_sampts h) kr low 0 ee = Ok h' /\
    sbt_multipole h ell 1 a b0 = Ok b /\
    sbt_multipole h' ell (-1) b c0 = Ok a /\ post_sampts h' = pts r0 d N.
Proof.
  intros G Q1 Q2 H0 HD N3 HK MK LA LB LC. set (x := pts r0 d N).
  assert (LX : length x = N) by apply pts_length.
  assert (LS : log_spaced r0 d x) by (intros j Hj; apply pts_nth; now rewrite LX in Hj).
  destruct (spaced_accepted g (IZR ell + 1 / 2) (IZR n) r0 d x kr low ee) as [h H]; try assumption; try lra; [lia|].
  destruct (fft_log_spaced _ _ _ _ _ _ _ _ _ _ _ H H0 LS) as [DL LS'].
  pose proof (hankel_new_inv _ _ _ _ _ _ _ _ _ H) as I. pose proof (post_length _ _ _ _ _ _ _ _ _ I) as PL.
  set (k0 := pivot h / r0 * exp (- (INR (length x) * d))) in *.
  assert (HK0 : 0 < k0).
  { unfold k0. apply Rmult_lt_0_compat; [|apply exp_pos]. apply Rdiv_lt_0_compat; [|exact H0].
    apply (h_pivpos _ _ _ _ _ _ _ _ _ I). }
  destruct (spaced_accepted g (IZR ell + 1 / 2) (IZR (- n)) k0 d (post_sampts h) kr low ee) as [h' H'];
    try assumption; try (rewrite opp_IZR; lra); [rewrite PL; lia|].
  destruct (sbt_multipole_ok g ell n x kr low ee h 1 a b0 H) as (b & HB & LBB); try lia; try reflexivity.
  { intros j Hj. rewrite LS by exact Hj. apply Rmult_lt_0_compat; [exact H0|apply exp_pos]. }
  destruct (sbt_multipole_ok g ell (- n) (post_sampts h) kr low ee h' (-1) b c0 H') as (c & HC & _);
    try (rewrite PL); try lia; try reflexivity.
  { intros j Hj. rewrite LS' by (rewrite PL; exact Hj). apply Rmult_lt_0_compat; [exact HK0|apply exp_pos]. }
  exists h, h', b. repeat (split; [assumption|]).
  destruct (multipole_round_trip g ell n x kr low ee ee h h' a b0 b c0 c) as [PP ->]; try assumption; try lia.
  - unfold mid_kept. rewrite LX. destruct MK; auto.
  - auto.
Qed.

(* ------------------------------------------------------------------ *)
(* Cases                                                               *)

Definition some_gsl : gsl := mk_gsl (fun x y => x + y) (fun x y => x * y).

Example some_gsl_case : real_gamma some_gsl.
Proof. intros x. cbn [some_gsl theta]. rewrite Rmult_0_r. apply sin_0. Qed.

(** Quadrupole with bias one at five points. *)
Example round_trip_case : exists h h' b,
  sbt_new some_gsl 2 1 (pts 3 (1/4) 5) 1 true 0 2 = Ok h /\
  sbt_new some_gsl 2 (-1) (post_sampts h) 1 true 0 2 = Ok h' /\
  sbt_multipole h 2 1 [RtoC 1; RtoC 2; RtoC 0; Ci; RtoC 7] (repeat (RtoC 0) 5) = Ok b /\
  sbt_multipole h' 2 (-1) b (repeat (RtoC 0) 5) = Ok [RtoC 1; RtoC 2; RtoC 0; Ci; RtoC 7] /\
  post_sampts h' = pts 3 (1/4) 5.
Proof.
  apply (multipole_round_trip_exists some_gsl 2 1 3 (1/4) 5 1 true 2); try lra; try lia; try reflexivity.
  - exact some_gsl_case.
Qed.

(** 100 points and a factor of 2: size 256; a factor of 1.28: size 128. *)
Example size_case : cpp_size (2 * INR 100) = Ok 256%Z.
Proof.
  assert (I100 : INR 100 = 100) by (rewrite INR_IZR_INZ; reflexivity). rewrite I100.
  unfold cpp_size. destruct (Rltb (2 * 100) 0) eqn:E1; [apply Rltb_spec in E1; lra|].
  destruct (Reqb (2 * 100) 0) eqn:E2; [apply Reqb_spec in E2; lra|].
  replace (Zceil _) with 8%Z; [reflexivity|]. symmetry. apply Zceil_imp. split.
  - apply Rnot_le_lt. intros X. replace (IZR (8 - 1)) with (INR 7) in X by (cbn; lra).
    apply log2_le in X; lra.
  - replace 8 with (INR 8) by (cbn; lra). apply log2_le; lra.
Qed.

Print Assumptions fft_size.
Print Assumptions fft_shrink_refused.
Print Assumptions fft_reads_outside.
Print Assumptions fft_pairs.
Print Assumptions fft_spacing.
Print Assumptions fft_ascending.
Print Assumptions fft_log_spaced.
Print Assumptions fft_points_refuted.
Print Assumptions lowring_near.
Print Assumptions lowring_real.
Print Assumptions lowring_free.
Print Assumptions lowring_free_phase.
Print Assumptions lowring_free_real.
Print Assumptions fft_real.
Print Assumptions fft_energy.
Print Assumptions fft_inverse.
Print Assumptions fft_twice.
Print Assumptions fft_energy_refuted.
Print Assumptions cpp_prefactors.
Print Assumptions multipole_round_trip.
Print Assumptions multipole_round_trip_exists.
