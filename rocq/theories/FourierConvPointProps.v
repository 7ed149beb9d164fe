(* Where convolved power spectra and bispectra are sampled (C117). *)
From Coq Require Import String.
From Coq Require Import Reals ZArith List Lia Lra Bool.
From Coquelicot Require Import Complex.
From Verif Require Import Base ArrayModel ArrayProofs ArrayProps Array2dModel RSum MultipoleModel
  WindowModel WindowProps WinConvModel WinConvProps WinConvSumProps WinConvRangeProps
  OscilModel Dft FftlogModel FftlogProofs FftlogProps TransformModel TransformProps
  FourierConvModel FourierConvProps FourierConv3Props FourierConvCases.
Import ListNotations.
Local Open Scope R_scope.

(* ------------------------------------------------------------------ *)
(* Points of a transform                                               *)

Lemma exp_INR d n : exp (INR n * d) = exp d ^ n.
Proof.
  induction n as [|n IH]; [cbn [INR pow]; rewrite Rmult_0_l; apply exp_0|].
  rewrite S_INR, Rmult_plus_distr_r, exp_plus, IH, Rmult_1_l. cbn [pow]. ring.
Qed.

Lemma extend_spaced r0 d x n p : 0 < r0 -> FftlogProps.log_spaced r0 d x -> (2 <= length x)%nat ->
  extrap_loglin x (Z.of_nat n) = Ok p -> FftlogProps.log_spaced (r0 * exp (- (INR n * d))) d p.
Proof.
  intros H0 LS L2 H. pose proof (exp_pos d) as EP. set (e := exp d) in *.
  assert (V : forall j, (j < length x)%nat -> nth j x 0 = r0 * e ^ j) by (intros j Hj; rewrite LS, exp_INR by exact Hj; reflexivity).
  assert (PV : forall j, (j < length x)%nat -> 0 < nth j x 0) by (intros j Hj; rewrite V by exact Hj; apply Rmult_lt_0_compat; [exact H0|now apply pow_lt]).
  assert (A0 : at0 x = r0) by (unfold at0; rewrite V by lia; cbn [pow]; ring).
  assert (A1 : at1 x = r0 * e) by (unfold at1; rewrite V by lia; cbn [pow]; ring).
  set (k := (length x - 2)%nat).
  assert (M2 : atm2 x = r0 * e ^ k) by (unfold atm2; rewrite V by lia; reflexivity).
  assert (M1 : atm1 x = r0 * e ^ k * e).
  { unfold atm1. rewrite V by lia. replace (length x - 1)%nat with (S k) by lia. cbn [pow]. ring. }
  assert (PK : 0 < e ^ k) by now apply pow_lt.
  assert (P0 : 0 < r0 * e) by now apply Rmult_lt_0_compat.
  assert (P1 : 0 < r0 * e ^ k) by now apply Rmult_lt_0_compat.
  assert (ES : epsign_ok false x = true).
  { unfold epsign_ok. rewrite A0, A1, M1, M2. apply andb_true_iff. split; apply orb_true_iff; left; apply Rltb_spec; [nra|].
    apply Rmult_lt_0_compat; [now apply Rmult_lt_0_compat|exact P1]. }
  rewrite extrap_loglin_eq in H; [injection H as <-|exact L2|exact ES|right; rewrite A1, M2; split; lra].
  intros j Hj. rewrite loglin_out_length in Hj. rewrite exp_INR, exp_Ropp, exp_INR. fold e.
  assert (NE : forall m, e ^ m <> 0) by (intros m; apply pow_nonzero; lra).
  destruct (Nat.lt_ge_cases j n) as [C|C].
  - rewrite loglin_out_left by lia. rewrite A0, A1. replace (r0 / (r0 * e)) with (/ e) by (field; lra).
    rewrite pow_inv. replace n with ((n - j) + j)%nat at 2 by lia. rewrite pow_add.
    field. split; [apply NE|apply NE].
  - destruct (Nat.lt_ge_cases j (n + length x)) as [C'|C'].
    + replace j with (n + (j - n))%nat at 1 by lia. rewrite loglin_out_mid by lia. rewrite V by lia.
      replace j with ((j - n) + n)%nat at 2 by lia. rewrite pow_add. field. apply NE.
    + rewrite loglin_out_right by lia. rewrite M1, M2. replace (r0 * e ^ k * e / (r0 * e ^ k)) with e by (field; split; lra).
      replace j with ((j - (n + length x - 1)) + (S k + n))%nat at 2 by lia. rewrite !pow_add. cbn [pow]. field. apply NE.
Qed.

(** The pivot of a degree for points a given distance apart. *)
Definition pivot_of (g : gsl) (l : Z) (d kr : R) (low : bool) : R :=
  if low then lowring_pivot g (IZR l + 1 / 2) 0 d kr else kr.

Definition reflected (c : R) (x y : list R) : Prop :=
  length y = length x /\ forall j, (j < length x)%nat -> nth j y 0 = c / nth (length x - 1 - j) x 0.

Lemma spaced_positive_at r0 d x j : 0 < r0 -> FftlogProps.log_spaced r0 d x -> (j < length x)%nat -> 0 < nth j x 0.
Proof. intros H0 LS Hj. rewrite LS by exact Hj. apply Rmult_lt_0_compat; [exact H0|apply exp_pos]. Qed.

Lemma spaced_post g l x kr low ext ee lay t r0 d : sbt_init g l 0 x kr low ext ee lay = Ok t ->
  ext = 0%Z \/ lay = Native \/ 1 <= ee -> 0 < r0 -> FftlogProps.log_spaced r0 d x -> (2 <= length x)%nat ->
  0 < d /\ 0 < pivot_of g l d kr low /\ reflected (pivot_of g l d kr low * exp (- d)) x (s_post t) /\
  (low = true -> 0 < kr -> Rabs (ln (pivot_of g l d kr low / kr)) <= d / 2).
Proof.
  intros H HC H0 LS L2.
  assert (PIV : forall y r0' e' ext', 0 < r0' -> FftlogProps.log_spaced r0' d y ->
            hankel_new g (IZR l + 1 / 2) (IZR 0) y kr low ext' e' = Ok (s_fbht t) ->
            0 < d /\ 0 < pivot_of g l d kr low /\ logres (s_fbht t) = d /\ pivot (s_fbht t) = pivot_of g l d kr low /\
            (low = true -> 0 < kr -> Rabs (ln (pivot_of g l d kr low / kr)) <= d / 2)).
  { intros y r0' e' ext' Hr LSy HH. destruct (fft_log_spaced _ _ _ _ _ _ _ _ _ _ _ HH Hr LSy) as [D _].
    pose proof (hankel_new_inv _ _ _ _ _ _ _ _ _ HH) as I.
    assert (PE : pivot (s_fbht t) = pivot_of g l d kr low).
    { rewrite (h_pivot _ _ _ _ _ _ _ _ _ I), D. reflexivity. }
    pose proof (h_logpos _ _ _ _ _ _ _ _ _ I) as P1. rewrite D in P1.
    pose proof (h_pivpos _ _ _ _ _ _ _ _ _ I) as P2. rewrite PE in P2.
    do 4 (split; [assumption|]). intros -> HK. rewrite <- PE, <- D. exact (lowring_near _ _ _ _ _ _ _ _ HH HK). }
  destruct (Z.eq_dec ext 0) as [->|NE].
  { destruct (sbt_init_plain _ _ _ _ _ _ _ _ _ H) as (_ & _ & _ & _ & _ & PO & HH).
    destruct (PIV x r0 _ _ H0 LS HH) as (P1 & P2 & D & PE & LN). pose proof (hankel_new_inv _ _ _ _ _ _ _ _ _ HH) as I.
    split; [exact P1|]. split; [exact P2|]. split; [|exact LN]. rewrite PO. split; [exact (post_length _ _ _ _ _ _ _ _ _ I)|].
    intros j Hj. rewrite (post_nth _ _ _ _ _ _ _ _ _ _ I) by exact Hj. now rewrite D, PE. }
  destruct lay.
  - unfold sbt_init in H. destruct (negb _); [discriminate|].
    assert (EZ : (ext =? 0)%Z = false) by now apply Z.eqb_neq. rewrite EZ in H.
    destruct (Nat.odd (length x)); [discriminate|]. cbn [bind] in H. apply bind_ok in H as (h & HH & H). injection H as <-.
    cbn [s_post s_fbht] in *. apply py_hankel_inv in HH.
    destruct (PIV x r0 _ _ H0 LS HH) as (P1 & P2 & D & PE & LN). pose proof (hankel_new_inv _ _ _ _ _ _ _ _ _ HH) as I.
    split; [exact P1|]. split; [exact P2|]. split; [|exact LN]. unfold post_slice. cbn [Z.eqb].
    split; [exact (post_length _ _ _ _ _ _ _ _ _ I)|].
    intros j Hj. rewrite (post_nth _ _ _ _ _ _ _ _ _ _ I) by exact Hj. now rewrite D, PE.
  - destruct HC as [HC|[HC|HC]]; [contradiction|discriminate|].
    destruct (outer_points _ _ _ _ _ _ _ _ _ H NE HC L2) as (_ & _ & E0 & LP & V).
    destruct (sbt_init_outer _ _ _ _ _ _ _ _ _ H NE) as (_ & _ & _ & _ & _ & nt & p & _ & _ & EX & HH & _).
    rewrite <- (Z2Nat.id _ E0) in EX. pose proof (extend_spaced _ _ _ _ _ H0 LS L2 EX) as LSp.
    destruct (PIV p _ _ _ (Rmult_lt_0_compat _ _ H0 (exp_pos _)) LSp HH) as (P1 & P2 & D & PE & LN).
    split; [exact P1|]. split; [exact P2|]. split; [|exact LN]. split; [exact LP|]. intros j Hj.
    rewrite <- D at 2. rewrite <- PE, <- (V j Hj).
    pose proof (spaced_positive_at r0 d x (length x - 1 - j) H0 LS ltac:(lia)). field. lra.
  - unfold sbt_init in H. destruct (negb _); [discriminate|].
    assert (EZ : (ext =? 0)%Z = false) by now apply Z.eqb_neq. rewrite EZ in H.
    destruct (Nat.odd (length x)); discriminate.
Qed.

Lemma reflected_spaced c x y r0 d : 0 < c -> 0 < r0 -> FftlogProps.log_spaced r0 d x -> reflected c x y ->
  FftlogProps.log_spaced (c / (r0 * exp (INR (length x - 1) * d))) d y.
Proof.
  intros HC H0 LS [L V] j Hj. rewrite L in Hj. rewrite V by exact Hj. rewrite LS by lia.
  pose proof (exp_pos (INR (length x - 1 - j) * d)). pose proof (exp_pos (INR j * d)).
  replace (length x - 1)%nat with (j + (length x - 1 - j))%nat at 2 by lia.
  rewrite plus_INR, Rmult_plus_distr_r, exp_plus. field. repeat split; lra.
Qed.

Lemma reflected_twice c x y z r0 d : 0 < c -> 0 < r0 -> FftlogProps.log_spaced r0 d x -> reflected c x y -> reflected c y z -> z = x.
Proof.
  intros HC H0 LS [L V] [L' V']. apply nth_ext with 0 0; [congruence|]. intros j Hj. rewrite L', L in Hj.
  rewrite V', L, V by lia. replace (length x - 1 - (length x - 1 - j))%nat with j by lia.
  pose proof (spaced_positive_at r0 d x j H0 LS Hj). field. lra.
Qed.

(** The points of a double transform are those of its first degree. *)
Lemma double_like g l0 l1 x kr low ext ee e2d d :
  dsbt_init g [l0; l1] [0; 0]%Z x kr low (EInt ext) ee e2d = Ok d ->
  exists t, sbt_init g l0 0 x kr low ext ee Outer = Ok t /\ s_post t = d_post d.
Proof.
  unfold dsbt_init. destruct (negb ((0 <=? ext) && (ext <=? 5))%Z) eqn:EB; [discriminate|].
  destruct (ext =? 0)%Z eqn:EZ.
  { apply Z.eqb_eq in EZ as ->. cbn [bind combine map sequence fst snd]. intros H.
    apply bind_ok in H as (ts & HT & H). apply bind_ok in HT as (t0 & H0 & HT). apply bind_ok in HT as (tt & _ & HT).
    injection HT as <-. injection H as <-. exists t0. split; [exact H0|]. cbn [d_post]. reflexivity. }
  destruct (Nat.odd (length x)) eqn:EO; [discriminate|]. destruct e2d; cbn [negb].
  - intros H. apply bind_ok in H as (prep & HP & H). apply bind_ok in HP as (nt & HN & HP).
    apply bind_ok in HP as (p & HX & HP). injection HP as <-. cbn [combine map sequence fst snd] in H.
    apply bind_ok in H as (ts & HT & H). apply bind_ok in HT as (t0 & H0 & HT). apply bind_ok in HT as (tt & _ & HT).
    injection HT as <-. injection H as <-. cbn [d_post]. unfold sbt_init in H0. cbn [Z.leb Z.compare andb negb Z.eqb bind] in H0.
    apply bind_ok in H0 as (h & HH & H0). injection H0 as <-. unfold sbt_init. rewrite EB, EZ, EO, HN. cbn [bind].
    rewrite HX. cbn [bind]. rewrite HH. cbn [bind]. eexists. split; [reflexivity|]. cbn [s_post]. reflexivity.
  - cbn [bind combine map sequence fst snd]. intros H.
    apply bind_ok in H as (ts & HT & H). apply bind_ok in HT as (t0 & H0 & HT). apply bind_ok in HT as (tt & _ & HT).
    injection HT as <-. injection H as <-. exists t0. split; [exact H0|]. cbn [d_post]. reflexivity.
Qed.

Lemma nodup_lookup {A} (d : mdict A) k a : NoDup (map fst d) -> In (k, a) d -> lookup d k = Ok a.
Proof.
  induction d as [|[k' a'] d IH]; intros N I; [contradiction|]. cbn [map fst] in N. inversion N as [|? ? N1 N2]; subst.
  cbn [lookup]. destruct I as [E|I]; [injection E as -> ->; now rewrite meq_refl|].
  destruct (meq k' k) eqn:E; [|now apply IH]. apply meq_spec in E as ->. exfalso. apply N1. apply (in_map fst) in I. exact I.
Qed.

(* ------------------------------------------------------------------ *)
(* Output wavenumbers                                                  *)

Lemma fourier_out {T A} (new : list Z -> list R -> res T) post raw f rQ (Q : mdict A) kin orig ko rc s w :
  build_formulae raw = Ok f -> fourier_init new post f rQ Q kin orig ko rc s = Ok w ->
  map fst (w_forth w) = f_poles f /\
  (forall m t, In (m, t) (w_forth w) -> lookup (w_forth w) m = Ok t) /\
  (ko = None -> find_conv_range (map (fun kt => post (snd kt)) (w_forth w)) LgLin = Ok (w_kout w)) /\
  (forall r, rc = Some r -> check_1d_array false false false true r = Ok r /\
     forall m t, In (m, t) (w_forth w) -> new m r = Ok t).
Proof.
  intros B H. destruct (formulae_requirements raw f B) as (Np & _).
  unfold fourier_init in H. apply bind_ok in H as (back & HB & H).
  apply bind_ok in H as (rcp & HRC & H). apply bind_ok in H as (((ri, ro), w1) & HI & H).
  apply bind_ok in H as (forth & HF & H). apply bind_ok in H as (k & HK & H).
  apply bind_ok in H as (c & HC & H). injection H as <-. cbn [w_forth w_kout].
  destruct (on_keys_inv _ _ _ Np HF) as [KF VF].
  assert (LU : forall m t, In (m, t) forth -> lookup forth m = Ok t).
  { intros m t I. apply nodup_lookup; [now rewrite KF|exact I]. }
  split; [exact KF|]. split; [exact LU|]. split; [intros ->; exact HK|].
  intros r ->. cbn [common_points] in HRC. apply bind_ok in HRC as (r' & CK & E). injection E as <-.
  split; [pose proof (check_ok_id _ _ CK) as <-; exact CK|].
  intros m t I. pose proof (LU m t I) as L. apply (in_map fst) in I. rewrite KF in I. cbn [fst] in I.
  destruct (VF m I) as (t' & E & L'). rewrite L in L'. injection L' as <-. apply bind_ok in E as (x & Ex & E).
  unfold initialise_sampts in HI. apply bind_ok in HI as (a & _ & HI). apply bind_ok in HI as (b & HO & HI).
  apply bind_ok in HI as (u & _ & HI). injection HI as -> -> ->. cbn [output_points] in HO. injection HO as <-.
  assert (EX : lookup (map (fun m => (m, r)) (f_poles f)) m = Ok r).
  { apply nodup_lookup; [rewrite map_map; cbn [fst]; now rewrite map_id|]. apply in_map_iff. now exists m. }
  rewrite EX in Ex. now injection Ex as <-.
Qed.

(** Ranges of points that are all the same. *)
Lemma spaced_mono r0 d x i j : 0 < r0 -> 0 < d -> FftlogProps.log_spaced r0 d x -> (i <= j)%nat -> (j < length x)%nat ->
  nth i x 0 <= nth j x 0.
Proof.
  intros H0 HD LS IJ Hj. rewrite !LS by lia. apply Rmult_le_compat_l; [lra|].
  destruct (Rle_lt_or_eq_dec (INR i * d) (INR j * d)) as [C|C]; [apply Rmult_le_compat_r; [lra|now apply le_INR]| |].
  - left. now apply exp_increasing.
  - rewrite C. lra.
Qed.

Lemma spaced_ends r0 d x : 0 < r0 -> 0 < d -> FftlogProps.log_spaced r0 d x -> (1 <= length x)%nat ->
  least x r0 /\ greatest x (r0 * exp (INR (length x - 1) * d)).
Proof.
  intros H0 HD LS L1.
  assert (E0 : nth 0 x 0 = r0) by (rewrite LS by lia; cbn [INR]; rewrite Rmult_0_l, exp_0; ring).
  assert (E1 : nth (length x - 1) x 0 = r0 * exp (INR (length x - 1) * d)) by (apply LS; lia).
  split; (split; [rewrite <- ?E1, <- ?E0; apply nth_In; lia|]); intros y Hy; apply (In_nth _ _ 0) in Hy as (j & Hj & <-).
  - rewrite <- E0. apply (spaced_mono r0 d); assumption || lia.
  - rewrite <- E1. apply (spaced_mono r0 d); assumption || lia.
Qed.

Lemma same_range r0 d k coords x : 0 < r0 -> 0 < d -> FftlogProps.log_spaced r0 d k -> (2 <= length k)%nat ->
  (forall a, In a coords -> a = k) -> find_conv_range coords LgLin = Ok x -> x = k.
Proof.
  intros H0 HD LS L2 AL H. destruct (spaced_ends r0 d k H0 HD LS ltac:(lia)) as [LE GR].
  destruct (conv_range _ _ _ H) as (lo & hi & n & ((a & Ia & La) & _ & (b & Ib & Gb) & _ & (c & Ic & Lc) & _) & Hn & _ & Lx & _ & _ & S).
  rewrite (AL a Ia) in La. rewrite (AL b Ib) in Gb. rewrite (AL c Ic) in Lc.
  rewrite (least_unique k _ _ La LE) in S. rewrite (greatest_unique k _ _ Gb GR) in S.
  destruct (S eq_refl) as (_ & _ & S'). destruct (S' ltac:(lia)) as [_ V].
  apply nth_ext with 0 0; [congruence|]. intros j Hj. rewrite Lx in Hj. rewrite V by exact Hj. rewrite LS by lia.
  rewrite <- Lc. pose proof (exp_pos (INR (length k - 1) * d)).
  replace (r0 * exp (INR (length k - 1) * d) / r0) with (exp (INR (length k - 1) * d)) by (field; lra).
  unfold Rpower. rewrite ln_exp. do 2 f_equal. field. apply not_0_INR. lia.
Qed.

Section Points.
Context {T A : Type}.
Variable new : list Z -> list R -> res T.
Variable post : T -> list R.
Variable g : gsl.
Variable p : tpar.
Variable lay : layer.
Hypothesis like : forall m x t, new m x = Ok t -> exists l t', index0 m = Ok l /\
  sbt_init g l 0 x (p_pivot p) (p_low p) (p_extrap p) (p_exp p) lay = Ok t' /\ s_post t' = post t.
Hypothesis sizes : p_extrap p = 0%Z \/ lay = Native \/ 1 <= p_exp p.

Lemma back_and_forth m x t t' r0 d : new m x = Ok t -> new m (post t) = Ok t' ->
  0 < r0 -> FftlogProps.log_spaced r0 d x -> (2 <= length x)%nat -> 0 < d /\ post t' = x.
Proof.
  intros H H' H0 LS L2. destruct (like _ _ _ H) as (l & u & El & Hu & Eu). destruct (like _ _ _ H') as (l' & u' & El' & Hu' & Eu').
  rewrite <- Eu in Hu'. rewrite <- Eu'.
  rewrite El in El'. injection El' as <-.
  destruct (spaced_post _ _ _ _ _ _ _ _ _ _ _ Hu sizes H0 LS L2) as (HD & PP & RF & _).
  assert (C : 0 < pivot_of g l d (p_pivot p) (p_low p) * exp (- d)) by (apply Rmult_lt_0_compat; [exact PP|apply exp_pos]).
  pose proof (reflected_spaced _ _ _ _ _ C H0 LS RF) as LS'. destruct RF as [L V].
  destruct (spaced_post _ _ _ _ _ _ _ _ _ _ _ Hu' sizes
    (Rdiv_lt_0_compat _ _ C (Rmult_lt_0_compat _ _ H0 (exp_pos _))) LS' ltac:(lia)) as (_ & _ & RF' & _).
  split; [exact HD|]. exact (reflected_twice _ _ _ _ _ _ C H0 LS (conj L V) RF').
Qed.

Lemma default_points raw f ws wm rQ (Q : mdict A) kin orig s w k r0 d : build_formulae raw = Ok f -> base_init f ws wm = Ok (rQ, Q) ->
  fourier_init new post f rQ Q kin orig None None s = Ok w ->
  (forall z, In z (f_Z f) -> zlookup kin (ZPole z) = Ok k) ->
  0 < r0 -> FftlogProps.log_spaced r0 d k -> (2 <= length k)%nat -> w_kout w = k.
Proof.
  intros B BI W KI H0 LS L2.
  destruct (fourier_init_inv _ _ _ _ _ _ _ _ _ _ _ _ _ _ B BI W) as (_ & _ & _ & _ & _ & _ & _ & _ & BK & FO).
  destruct (fourier_out _ _ _ _ _ _ _ _ _ _ _ _ B W) as (KF & LU & FR & _). specialize (FR eq_refl).
  assert (AL : forall m t, In (m, t) (w_forth w) -> 0 < d /\ post t = k).
  { intros m t I. pose proof (LU m t I) as L. apply (in_map fst) in I. rewrite KF in I. cbn [fst] in I.
    destruct (FO m I) as (r & t1 & _ & N1 & L1 & X). rewrite L in L1. injection L1 as <-.
    destruct (X eq_refl) as (t' & IZ & LB & ->). destruct (BK m IZ) as (k' & t2 & Ek & N2 & LB' & _).
    rewrite LB in LB'. injection LB' as <-. rewrite (KI m IZ) in Ek. injection Ek as <-.
    exact (back_and_forth _ _ _ _ _ _ N2 N1 H0 LS L2). }
  assert (HD : 0 < d).
  { destruct (w_forth w) as [|[m t] rest]; [discriminate|]. exact (proj1 (AL m t (or_introl eq_refl))). }
  refine (same_range r0 d k _ _ H0 HD LS L2 _ FR). intros a Ha. apply in_map_iff in Ha as ((m, t) & <- & I).
  exact (proj2 (AL m t I)).
Qed.

Lemma pivots_near l l' d x t t' r0 : 0 < p_pivot p -> 0 < r0 -> FftlogProps.log_spaced r0 d x -> (2 <= length x)%nat ->
  sbt_init g l 0 x (p_pivot p) (p_low p) (p_extrap p) (p_exp p) lay = Ok t ->
  sbt_init g l' 0 x (p_pivot p) (p_low p) (p_extrap p) (p_exp p) lay = Ok t' ->
  pivot_of g l d (p_pivot p) (p_low p) <= pivot_of g l' d (p_pivot p) (p_low p) * exp d.
Proof.
  intros HK H0 LS L2 H H'.
  destruct (spaced_post _ _ _ _ _ _ _ _ _ _ _ H sizes H0 LS L2) as (HD & P1 & _ & N1).
  destruct (spaced_post _ _ _ _ _ _ _ _ _ _ _ H' sizes H0 LS L2) as (_ & P2 & _ & N2).
  assert (X1 : 1 < exp d) by (rewrite <- exp_0; apply exp_increasing; exact HD).
  destruct (p_low p) eqn:EL.
  - specialize (N1 eq_refl HK). specialize (N2 eq_refl HK). set (a := pivot_of g l d _ true) in *. set (b := pivot_of g l' d _ true) in *.
    unfold Rdiv in N1, N2. rewrite ln_mult, ln_Rinv in N1, N2 by (try apply Rinv_0_lt_compat; assumption).
    assert (Q1 : ln a - ln (p_pivot p) <= d * / 2) by (eapply Rle_trans; [apply Rle_abs|exact N1]).
    assert (Q2 : - (ln b - ln (p_pivot p)) <= d * / 2) by (eapply Rle_trans; [apply Rle_abs|rewrite Rabs_Ropp; exact N2]).
    assert (Q : ln a <= ln b + d) by lra.
    rewrite <- (exp_ln a P1), <- (exp_ln b P2), <- exp_plus. destruct Q as [Q|Q]; [left; now apply exp_increasing|rewrite Q; lra].
  - unfold pivot_of. nra.
Qed.

Lemma common_within raw f rQ (Q : mdict A) kin orig s w r r0 d : build_formulae raw = Ok f ->
  fourier_init new post f rQ Q kin orig None (Some r) s = Ok w -> 0 < p_pivot p ->
  0 < r0 -> FftlogProps.log_spaced r0 d r -> (2 <= length r)%nat ->
  forall m t q, lookup (w_forth w) m = Ok t -> In q (w_kout w) -> inside (post t) q.
Proof.
  intros B W HK H0 LS L2 m t q Hm Hq.
  destruct (fourier_out _ _ _ _ _ _ _ _ _ _ _ _ B W) as (KF & LU & FR & RC). specialize (FR eq_refl).
  destruct (RC r eq_refl) as [_ NW].
  apply (conv_range_within _ _ _ FR); [|exact Hq|apply lookup_some_in in Hm; apply in_map_iff; now exists (m, t)].
  intros a b lo hi Ia Ib La Gb. apply in_map_iff in Ia as ((ma, ta) & <- & Ia). apply in_map_iff in Ib as ((mb, tb) & <- & Ib).
  cbn [snd] in La, Gb. destruct (like _ _ _ (NW _ _ Ia)) as (l & u & _ & Hu & Eu). destruct (like _ _ _ (NW _ _ Ib)) as (l' & u' & _ & Hu' & Eu').
  rewrite <- Eu in La. rewrite <- Eu' in Gb. pose proof (pivots_near _ _ _ _ _ _ _ HK H0 LS L2 Hu Hu') as PN.
  destruct (spaced_post _ _ _ _ _ _ _ _ _ _ _ Hu sizes H0 LS L2) as (HD & P1 & [S1 V1] & _).
  destruct (spaced_post _ _ _ _ _ _ _ _ _ _ _ Hu' sizes H0 LS L2) as (_ & P2 & [S2 V2] & _).
  set (c := pivot_of g l _ _ _) in *. set (c' := pivot_of g l' _ _ _) in *.
  apply Rle_trans with (nth 0 (s_post u) 0); [apply La, nth_In; lia|].
  apply Rle_trans with (nth (length r - 1) (s_post u') 0); [|apply Gb, nth_In; lia].
  rewrite V1, V2 by lia. rewrite Nat.sub_0_r, Nat.sub_diag. rewrite !LS by lia. cbn [INR]. rewrite Rmult_0_l, exp_0, Rmult_1_r.
  pose proof (exp_pos (- d)) as E1. set (E := exp (INR (length r - 1) * d)).
  assert (EE : exp d <= E).
  { unfold E. destruct (Nat.eq_dec (length r) 2) as [->|NE]; [cbn [Nat.sub INR]; rewrite Rmult_1_l; lra|].
    left. apply exp_increasing. assert (1 < INR (length r - 1)) by (apply (lt_INR 1); lia). nra. }
  assert (PE : 0 < E) by apply exp_pos.
  apply (Rmult_le_reg_r (r0 * E)); [now apply Rmult_lt_0_compat|].
  replace (c * exp (- d) / (r0 * E) * (r0 * E)) with (exp (- d) * c) by (field; lra).
  replace (c' * exp (- d) / r0 * (r0 * E)) with (exp (- d) * (c' * E)) by (field; lra).
  apply Rmult_le_compat_l; [lra|]. apply Rle_trans with (c' * exp d); [exact PN|]. apply Rmult_le_compat_l; lra.
Qed.

End Points.

(* ------------------------------------------------------------------ *)
(* Power spectra and bispectra                                         *)

Lemma like_single g p m x t : new_single g p m x = Ok t -> exists l t', index0 m = Ok l /\
  sbt_init g l 0 x (p_pivot p) (p_low p) (p_extrap p) (p_exp p) (p_layer p) = Ok t' /\ s_post t' = s_post t.
Proof. intros H. apply bind_ok in H as (l & El & H). now exists l, t. Qed.

Lemma like_double g p m x t : new_double g p m x = Ok t -> exists l t', index0 m = Ok l /\
  sbt_init g l 0 x (p_pivot p) (p_low p) (p_extrap p) (p_exp p) Outer = Ok t' /\ s_post t' = d_post t.
Proof.
  intros H. apply bind_ok in H as (l & El & H). apply bind_ok in H as (l1 & El1 & H).
  destruct (double_like _ _ _ _ _ _ _ _ _ _ H) as (t' & Ht & E). now exists l, t'.
Qed.

Lemma one_array f (k : list R) z : In z (f_Z f) -> zlookup (map (fun z => (z, k)) (f_zkeys f)) (ZPole z) = Ok k.
Proof.
  intros I. unfold f_zkeys.
  assert (G : forall ks, In (ZPole z) ks -> zlookup (map (fun z => (z, k)) ks) (ZPole z) = Ok k).
  { induction ks as [|z' ks IH]; intros Iz; [contradiction|]. cbn [map zlookup fst snd].
    destruct (zeq z' (ZPole z)) eqn:E; [reflexivity|]. destruct Iz as [->|Iz]; [|now apply IH].
    cbn [zeq] in E. now rewrite meq_refl in E. }
  apply G. apply in_or_app. left. now apply in_map.
Qed.

Theorem powspec_default_out g raw f ws wm k p s w r0 d : build_formulae raw = Ok f ->
  powspec_init g f ws wm (One k) None None p s = Ok w ->
  p_extrap p = 0%Z \/ p_layer p = Native \/ 1 <= p_exp p ->
  0 < r0 -> FftlogProps.log_spaced r0 d k -> (2 <= length k)%nat -> w_kout w = k.
Proof.
  intros B W SZ H0 LS L2. unfold powspec_init in W. apply bind_ok in W as ((rQ, Q) & BI & W).
  apply bind_ok in W as (ki & EK & W). injection EK as <-. apply bind_ok in W as (u & _ & W). cbn [fst snd] in W.
  refine (default_points (new_single g p) s_post g p (p_layer p) (like_single g p) SZ raw f ws wm rQ Q _ _ s w k r0 d B BI W _ H0 LS L2).
  intros z Hz. now apply one_array.
Qed.

Theorem powspec_common_out g raw f ws wm k_in r p s w r0 d : build_formulae raw = Ok f ->
  powspec_init g f ws wm k_in None (Some r) p s = Ok w ->
  p_extrap p = 0%Z \/ p_layer p = Native \/ 1 <= p_exp p -> 0 < p_pivot p ->
  0 < r0 -> FftlogProps.log_spaced r0 d r -> (2 <= length r)%nat ->
  forall m t q, lookup (w_forth w) m = Ok t -> In q (w_kout w) -> inside (s_post t) q.
Proof.
  intros B W SZ HK H0 LS L2. unfold powspec_init in W. apply bind_ok in W as ((rQ, Q) & BI & W).
  apply bind_ok in W as (ki & EK & W). apply bind_ok in W as (u & _ & W). cbn [fst snd] in W.
  exact (common_within (new_single g p) s_post g p (p_layer p) (like_single g p) SZ raw f rQ Q _ _ s w r r0 d B W HK H0 LS L2).
Qed.

(** Wavenumbers that are not spaced logarithmically are refused for power
    spectra, whatever else is given. *)
Theorem powspec_spacing g f ws wm k_in k_out rc p s ki z k b : base_init f ws wm = Ok b -> input_points f k_in = Ok ki ->
  In (z, k) ki -> (forall z' k', In (z', k') ki -> check_1d_array false false false true k' = Ok k' \/
                     check_1d_array false false false true k' = Err SpacingError) ->
  check_1d_array false false false true k = Err SpacingError ->
  powspec_init g f ws wm k_in k_out rc p s = Err SpacingError.
Proof.
  intros BI IP I AL CK. unfold powspec_init. rewrite BI, IP. cbn [bind].
  assert (G : check_points ki = Err SpacingError).
  { clear IP. induction ki as [|[z' k'] ki IH]; [contradiction|]. cbn [check_points].
    destruct (AL z' k' (or_introl eq_refl)) as [E|E]; rewrite E; cbn [bind]; [|reflexivity].
    destruct I as [J|J]; [injection J as <- <-; congruence|]. apply IH; [exact J|]. intros. apply (AL z'0). now right. }
  now rewrite G.
Qed.

(** For bispectra they are replaced: the default output wavenumbers are as
    many points, logarithmically spaced over the same range. *)
Theorem bispec_default_out g raw f ws wm k p s w : build_formulae raw = Ok f ->
  bispec_init g f ws wm (One k) None None p s = Ok w ->
  p_extrap p = 0%Z \/ 1 <= p_exp p -> 0 < nth 0 k 0 -> nth 0 k 0 < last k 0 ->
  (forall r0 d, 0 < r0 -> FftlogProps.log_spaced r0 d k -> w_kout w = k) /\
  (check_1d_array false false false true k = Err SpacingError ->
     WindowProps.log_spaced (nth 0 k 0) (last k 0) (length k) (w_kout w)).
Proof.
  intros B W SZ P0 PL. assert (L2 : (2 <= length k)%nat) by (destruct k as [|a [|b k]]; cbn in P0, PL |- *; lra || lia).
  assert (SZ' : p_extrap p = 0%Z \/ Outer = Native \/ 1 <= p_exp p) by tauto.
  unfold bispec_init in W. apply bind_ok in W as ((rQ, Q) & BI & W).
  apply bind_ok in W as (ki & EK & W). injection EK as <-. apply bind_ok in W as (bad & EB & W).
  apply bind_ok in W as (ki' & ER & W). cbn [fst snd] in W.
  assert (NZ : forall z, In z (f_Z f) -> zlookup (map (fun z => (z, k)) (f_zkeys f)) (ZPole z) = Ok k) by (intros; now apply one_array).
  destruct (respaced_exact _ _ ER) as [[-> SP]|(k1 & z1 & I1 & CK & _ & F2)].
  - split.
    + intros r0 d H0 LS. exact (default_points (new_double g p) d_post g p Outer (like_double g p) SZ' raw f ws wm rQ Q _ _ s w k r0 d B BI W NZ H0 LS L2).
    + intros CK. exfalso. destruct (f_zkeys f) as [|z zs] eqn:EZ.
      * unfold base_init in BI. destruct (f_Z f) as [|z zs] eqn:E; [discriminate|]. unfold f_zkeys in EZ. rewrite E in EZ. discriminate.
      * specialize (SP z k (or_introl eq_refl)). unfold spaced_ok in SP. congruence.
  - apply in_map_iff in I1 as (zz & E & _). injection E as _ <-.
    assert (EX : exists x, WindowProps.log_spaced (nth 0 k 0) (last k 0) (length k) x /\
                   forall z, In z (f_Z f) -> zlookup ki' (ZPole z) = Ok x).
    { assert (UN : forall x y, WindowProps.log_spaced (nth 0 k 0) (last k 0) (length k) x ->
                    WindowProps.log_spaced (nth 0 k 0) (last k 0) (length k) y -> x = y).
      { intros x y [Lx Vx] [Ly Vy]. apply nth_ext with 0 0; [congruence|]. intros j Hj. rewrite Vx, Vy by lia. reflexivity. }
      assert (G : forall ks l, Forall2 (fun old new => fst new = fst old /\
                     WindowProps.log_spaced (nth 0 (snd old) 0) (last (snd old) 0) (length k) (snd new)) (map (fun z => (z, k)) ks) l ->
                   forall z, In (ZPole z) ks -> exists x, WindowProps.log_spaced (nth 0 k 0) (last k 0) (length k) x /\ zlookup l (ZPole z) = Ok x).
      { induction ks as [|z' ks IH]; intros l F z Iz; [contradiction|]. inversion F as [|? [zb b] ? l' [E1 E2] F']; subst. cbn [fst snd] in E1, E2. subst zb.
        cbn [zlookup fst snd]. destruct (zeq z' (ZPole z)) eqn:E; [now exists b|]. destruct Iz as [->|Iz]; [cbn [zeq] in E; now rewrite meq_refl in E|].
        now apply IH. }
      assert (IN : forall z, In z (f_Z f) -> In (ZPole z) (f_zkeys f)) by (intros z Hz; unfold f_zkeys; apply in_or_app; left; now apply in_map).
      destruct (f_Z f) as [|z0 zs] eqn:EZ; [unfold base_init in BI; rewrite EZ in BI; discriminate|].
      destruct (G _ _ F2 z0 (IN z0 (or_introl eq_refl))) as (x & Sx & _). exists x. split; [exact Sx|].
      intros z Hz. destruct (G _ _ F2 z (IN z Hz)) as (y & Sy & Ly). now rewrite (UN x y Sx Sy). }
    destruct EX as (x & Sx & LX). destruct (Sx) as [Lx Vx].
    assert (LS : FftlogProps.log_spaced (nth 0 k 0) (ln (last k 0 / nth 0 k 0) / INR (length k - 1)) x).
    { intros j Hj. rewrite Lx in Hj. rewrite Vx by exact Hj. unfold Rpower. do 2 f_equal. unfold Rdiv. ring. }
    pose proof (default_points (new_double g p) d_post g p Outer (like_double g p) SZ' raw f ws wm rQ Q _ _ s w x _ _ B BI W LX P0 LS ltac:(lia)) as ->.
    split; [|intros _; exact Sx].
    intros r0 d H0 LK. apply nth_ext with 0 0; [exact Lx|]. intros j Hj. rewrite LS by exact Hj. rewrite Lx in Hj.
    assert (E0 : nth 0 k 0 = r0) by (rewrite LK by lia; cbn [INR]; rewrite Rmult_0_l, exp_0; ring).
    assert (E1 : last k 0 = r0 * exp (INR (length k - 1) * d)) by (rewrite <- atm1_last; unfold atm1; apply LK; lia).
    rewrite (LK j Hj), E0, E1. pose proof (exp_pos (INR (length k - 1) * d)).
    replace (r0 * exp (INR (length k - 1) * d) / r0) with (exp (INR (length k - 1) * d)) by (field; lra). rewrite ln_exp.
    do 2 f_equal. field. apply not_0_INR. lia.
Qed.

Theorem bispec_common_out g raw f ws wm k_in r p s w r0 d : build_formulae raw = Ok f ->
  bispec_init g f ws wm k_in None (Some r) p s = Ok w ->
  p_extrap p = 0%Z \/ 1 <= p_exp p -> 0 < p_pivot p ->
  0 < r0 -> FftlogProps.log_spaced r0 d r -> (2 <= length r)%nat ->
  forall m t q, lookup (w_forth w) m = Ok t -> In q (w_kout w) -> inside (d_post t) q.
Proof.
  intros B W SZ HK H0 LS L2. unfold bispec_init in W. apply bind_ok in W as ((rQ, Q) & BI & W).
  apply bind_ok in W as (ki & EK & W). apply bind_ok in W as (bad & _ & W). apply bind_ok in W as (ki' & _ & W). cbn [fst snd] in W.
  refine (common_within (new_double g p) d_post g p Outer (like_double g p) _ raw f rQ Q _ _ s w r r0 d B W HK H0 LS L2). tauto.
Qed.

(** Common separations must be spaced logarithmically. *)
Theorem common_spacing {T A} (new : list Z -> list R -> res T) post f rQ (Q : mdict A) kin orig ko r s w :
  fourier_init new post f rQ Q kin orig ko (Some r) s = Ok w -> spaced_ok r.
Proof.
  unfold fourier_init. intros H. apply bind_ok in H as (back & _ & H). apply bind_ok in H as (rcp & HRC & _).
  cbn [common_points] in HRC. apply bind_ok in HRC as (r' & CK & _). pose proof (check_ok_id _ _ CK) as ->. exact CK.
Qed.

(** Output wavenumbers that are given are used as they are, inside the range
    of the transforms or not. *)
Definition at_points {T A} (w : fconv T A) (k : list R) : fconv T A :=
  mk_fconv (w_kin w) (w_orig w) (w_back w) (w_conv w) (w_forth w) k (w_orders w) (w_warned w).

Lemma fourier_any_out {T A} (new : list Z -> list R -> res T) post f rQ (Q : mdict A) kin orig ko rc s w k :
  fourier_init new post f rQ Q kin orig ko rc s = Ok w ->
  fourier_init new post f rQ Q kin orig (Some k) rc s = Ok (at_points w k).
Proof.
  unfold fourier_init. intros H. apply bind_ok in H as (back & -> & H).
  apply bind_ok in H as (rcp & -> & H). apply bind_ok in H as (((ri, ro), w1) & HI & H).
  apply bind_ok in H as (forth & HF & H). apply bind_ok in H as (k' & _ & H).
  apply bind_ok in H as (c & HC & H). injection H as <-. cbn [bind]. rewrite HI. cbn [bind]. rewrite HF. cbn [bind].
  rewrite HC. reflexivity.
Qed.

Theorem powspec_any_out g f ws wm k_in k_out rc p s w k :
  powspec_init g f ws wm k_in k_out rc p s = Ok w ->
  powspec_init g f ws wm k_in (Some k) rc p s = Ok (at_points w k).
Proof.
  unfold powspec_init. intros H. apply bind_ok in H as (b & -> & H). apply bind_ok in H as (ki & -> & H).
  apply bind_ok in H as (u & HU & H). cbn [bind]. rewrite HU. cbn [bind]. exact (fourier_any_out _ _ _ _ _ _ _ _ _ _ _ k H).
Qed.
Theorem bispec_any_out g f ws wm k_in k_out rc p s w k :
  bispec_init g f ws wm k_in k_out rc p s = Ok w ->
  bispec_init g f ws wm k_in (Some k) rc p s = Ok (at_points w k).
Proof.
  unfold bispec_init. intros H. apply bind_ok in H as (b & -> & H). apply bind_ok in H as (ki & -> & H).
  apply bind_ok in H as (bad & HU & H). apply bind_ok in H as (ki' & HR & H). cbn [bind]. rewrite HU. cbn [bind]. rewrite HR. cbn [bind].
  exact (fourier_any_out _ _ _ _ _ _ _ _ _ _ _ k H).
Qed.

(* ------------------------------------------------------------------ *)
(* Cases                                                               *)

Lemma all_ok (h : list R -> res R) coords : (forall a, In a coords -> exists m, h a = Ok m /\ 0 < m) ->
  exists l, sequence (map h coords) = Ok l /\ length l = length coords /\ forall m, In m l -> 0 < m.
Proof.
  induction coords as [|a coords IH]; intros H; [exists []; split; [reflexivity|]; split; [reflexivity|]; intros m []|].
  destruct (H a (or_introl eq_refl)) as (m & Em & Pm). destruct IH as (l & El & Ll & Pl); [intros; apply H; now right|].
  exists (m :: l). cbn [map sequence]. rewrite Em. cbn [bind]. rewrite El. split; [reflexivity|]. split; [cbn; congruence|].
  intros x [<-|I]; auto.
Qed.

Lemma range_accepts coords : coords <> [] -> (forall a, In a coords -> a <> [] /\ forall y, In y a -> 0 < y) ->
  exists x, find_conv_range coords LgLin = Ok x.
Proof.
  intros NC H.
  destruct (all_ok amin coords) as (los & E1 & L1 & P1).
  { intros a I. destruct (H a I) as [NA PA]. destruct (amin_spec a NA) as (m & E & Im & _). exists m. auto. }
  destruct (all_ok amax coords) as (his & E2 & L2 & P2).
  { intros a I. destruct (H a I) as [NA PA]. destruct (amax_spec a NA) as (m & E & Im & _). exists m. auto. }
  assert (N1 : los <> []) by (intros ->; destruct coords; [congruence|discriminate]).
  assert (N2 : his <> []) by (intros ->; destruct coords; [congruence|discriminate]).
  destruct (amax_spec los N1) as (lo & E3 & I3 & _). destruct (amin_spec his N2) as (hi & E4 & I4 & _).
  unfold find_conv_range. rewrite E1. cbn [bind]. rewrite E3. cbn [bind]. rewrite E2. cbn [bind]. rewrite E4. cbn [bind].
  unfold logspace. destruct (Z.ltb_spec (Z.of_nat (fold_left Nat.min (map (@length R) coords) (length (nth 0 coords [])))) 0) as [C|C]; [lia|].
  pose proof (P1 _ I3) as Q1. pose proof (P2 _ I4) as Q2.
  destruct (Rleb lo 0) eqn:F1; [apply Rleb_spec in F1; lra|]. destruct (Rleb hi 0) eqn:F2; [apply Rleb_spec in F2; lra|]. cbn [orb].
  unfold linspace. set (n := Z.of_nat _) in *. clearbody n. destruct (Z.ltb_spec n 0); [lia|].
  destruct (Z.eq_dec n 1) as [->|NE]; cbn [bind]; repeat match goal with |- context [if ?b then _ else _] => destruct b end; cbn [bind]; eexists; reflexivity.
Qed.

Lemma powspec_default_accepts g l r0 d N p s : real_gamma g -> (0 <= l)%Z -> p_extrap p = 0%Z -> 0 < p_pivot p ->
  0 < r0 -> 0 < d -> (3 <= N)%nat -> (Nat.odd N = true \/ p_low p = true) ->
  let x := pts r0 d N in
  exists w, powspec_init g (one_formula [0%Z] [l]) (One x) [(MCopy [0%Z], repeat 1 N)] (One x) None None p s = Ok w /\
    exists m t, lookup (w_forth w) m = Ok t /\ (forall q, In q (s_post t) -> 0 < q).
Proof.
  intros G Hl EX HK H0 HD N3 MK x.
  destruct (powspec_accepts g l r0 d N p s FloatArr (repeat (RtoC 0) N) G Hl EX HK H0 HD N3 MK) as (w & out & PC & _);
    [now left|intros z Hz; apply repeat_spec in Hz as ->; reflexivity|apply repeat_length|].
  destruct PC as (B & BI & W & _ & _ & _ & _ & Im & _). fold x in W, BI.
  pose proof W as W'. unfold powspec_init in W. apply bind_ok in W as (b & EB & W). apply bind_ok in W as (ki & EK & W). apply bind_ok in W as (u & EU & W).
  pose proof EB as EB'. rewrite BI in EB'. injection EB' as <-.
  destruct (fourier_init_inv _ _ _ _ _ _ _ _ _ _ _ _ _ _ B BI W) as (_ & _ & _ & _ & _ & _ & _ & _ & BK & FO).
  destruct (fourier_out _ _ _ _ _ _ _ _ _ _ _ _ B W) as (KF & LU & _).
  assert (LX : length x = N) by apply pts_length.
  assert (LS : FftlogProps.log_spaced r0 d x) by (intros j Hj; apply pts_nth; now rewrite LX in Hj).
  assert (PO : forall m t, In (m, t) (w_forth w) -> s_post t = x).
  { intros m t I. pose proof (LU m t I) as L. apply (in_map fst) in I. rewrite KF in I. cbn [fst] in I.
    destruct (FO m I) as (r & t1 & _ & N1 & L1 & X). rewrite L in L1. injection L1 as <-.
    destruct (X eq_refl) as (t' & IZ & LB & ->). destruct (BK m IZ) as (k' & t2 & Ek & N2 & LB' & _).
    rewrite LB in LB'. injection LB' as <-. 
    assert (KI : ki = map (fun z => (z, x)) (f_zkeys (one_formula [0%Z] [l]))).
    { assert (KO : Ok ki = Ok (map (fun z => (z, x)) (f_zkeys (one_formula [0%Z] [l])))) by (symmetry; exact EK). congruence. }
    rewrite KI in Ek. rewrite (one_array (one_formula [0%Z] [l]) x m IZ) in Ek. injection Ek as <-.
    refine (proj2 (back_and_forth (new_single g p) s_post g p (p_layer p) (like_single g p) (or_introl EX) _ _ _ _ _ _ N2 N1 H0 LS _)). lia. }
  assert (NF : w_forth w <> []) by (intros E; rewrite E in KF; discriminate).
  assert (PX : forall q, In q x -> 0 < q) by (intros q Hq; apply (In_nth _ _ 0) in Hq as (j & Hj & <-); exact (spaced_positive_at r0 d x j H0 LS Hj)).
  destruct (range_accepts (map (fun kt => s_post (snd kt)) (w_forth w))) as [ko HO].
  { intros E. apply map_eq_nil in E. contradiction. }
  { intros a Ia. apply in_map_iff in Ia as ((m, t) & <- & I). cbn [snd]. rewrite (PO m t I).
    split; [intros E; rewrite E in LX; cbn in LX; lia|exact PX]. }
  exists (at_points w ko). split.
  - unfold powspec_init. rewrite EB, EK. cbn [bind]. rewrite EU. cbn [bind]. revert W. unfold fourier_init. intros H.
    apply bind_ok in H as (back & HB & H). apply bind_ok in H as (rcp & HR & H). apply bind_ok in H as (((ri, ro), w1) & HI & H).
    apply bind_ok in H as (forth & HF & H). apply bind_ok in H as (k' & _ & H). apply bind_ok in H as (c & HC & H). injection H as <-.
    cbn [w_forth] in HO. rewrite HB. cbn [bind]. rewrite HR. cbn [bind]. rewrite HI. cbn [bind]. rewrite HF. cbn [bind].
    rewrite HO. cbn [bind]. rewrite HC. reflexivity.
  - cbn [at_points w_forth]. destruct (w_forth w) as [|[m t] rest] eqn:EF; [congruence|]. exists m, t.
    split; [cbn [lookup]; now rewrite meq_refl|]. rewrite (PO m t (or_introl eq_refl)). exact PX.
Qed.

Example powspec_default_case : exists w,
  powspec_init step_gsl (one_formula [0%Z] [2%Z]) (One (pts 1 1 5)) [(MCopy [0%Z], repeat 1 5)] (One (pts 1 1 5)) None None
    (plain_par true) (1, 1)%nat = Ok w /\ w_kout w = pts 1 1 5.
Proof.
  destruct step_gsl_case as [_ G].
  destruct (powspec_default_accepts step_gsl 2 1 1 5 (plain_par true) (1, 1)%nat) as (w & W & _);
    try lra; try lia; try assumption; try reflexivity; try (now left); try (cbn; lra).
  exists w. split; [exact W|]. refine (powspec_default_out _ _ _ _ _ _ _ _ _ 1 1 (one_builds _ _) W _ _ _ _); try lra; [now left| |].
  - intros j Hj. apply pts_nth. now rewrite pts_length in Hj.
  - rewrite pts_length. lia.
Qed.

(** Wavenumbers far outside the range are accepted without a warning. *)
Theorem powspec_outside_refuted g : real_gamma g -> exists f ws wm k_in p s w w' q m t,
  powspec_init g f ws wm k_in None None p s = Ok w /\ powspec_init g f ws wm k_in (Some [q]) None p s = Ok w' /\
  w_warned w' = w_warned w /\ w_kout w' = [q] /\ lookup (w_forth w') m = Ok t /\ ~ inside (s_post t) q.
Proof.
  intros G. destruct (powspec_default_accepts g 0 1 1 3 (plain_par true) (1, 1)%nat) as (w & W & m & t & L & P);
    try lra; try lia; try assumption; try reflexivity; try (now left); try (cbn; lra).
  do 6 eexists. exists w, (at_points w [-1]), (-1), m, t. split; [exact W|]. split; [exact (powspec_any_out _ _ _ _ _ _ _ _ _ _ [-1] W)|].
  do 3 (split; [try reflexivity; assumption|]). intros [(x & Hx & Le) _]. specialize (P x Hx). lra.
Qed.

Print Assumptions powspec_default_out.
Print Assumptions powspec_common_out.
Print Assumptions powspec_spacing.
Print Assumptions bispec_default_out.
Print Assumptions bispec_common_out.
Print Assumptions common_spacing.
Print Assumptions powspec_any_out.
Print Assumptions bispec_any_out.
Print Assumptions powspec_outside_refuted.
