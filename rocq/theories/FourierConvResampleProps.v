(* Convolved bispectra: samples at points that are not logarithmically spaced,
   and the correlation functions returned beside them (C115, C117). *)
From Coq Require Import String.
From Coq Require Import Reals ZArith List Lia Lra Bool.
From Coquelicot Require Import Complex.
From Verif Require Import Base ArrayModel ArrayProofs ArrayProps Array2dModel RSum MultipoleModel
  WindowModel WindowProps WinConvModel WinConvProps WinConvSumProps WinConvRangeProps
  OscilModel Dft FftlogModel FftlogProofs FftlogProps TransformModel TransformProps WinConvCases
  FourierConvModel FourierConvProps FourierConv3Props FourierConvCases FourierConvPointProps.
Import ListNotations.
Local Open Scope R_scope.

Lemma zkeys_in f z : In z (f_Z f) -> In (ZPole z) (f_zkeys f).
Proof. intros H. unfold f_zkeys. apply in_or_app. left. now apply in_map. Qed.

Lemma fourier_orig {T A} (new : list Z -> list R -> res T) post f rQ (Q : mdict A) kin o o' ko rc s w :
  fourier_init new post f rQ Q kin o ko rc s = Ok w ->
  w_kin w = kin /\ w_orig w = o /\ w_orders w = s /\ c_f (w_conv w) = f /\
  fourier_init new post f rQ Q kin o' ko rc s
  = Ok (mk_fconv kin o' (w_back w) (w_conv w) (w_forth w) (w_kout w) s (w_warned w)).
Proof.
  unfold fourier_init. intros H. apply bind_ok in H as (back & E1 & H). apply bind_ok in H as (r & E2 & H).
  apply bind_ok in H as (((ri & ro) & w1) & E3 & H). apply bind_ok in H as (forth & E4 & H).
  apply bind_ok in H as (ko' & E5 & H). apply bind_ok in H as (c & E6 & H). injection H as <-.
  cbn [w_kin w_orig w_orders w_back w_conv w_forth w_kout w_warned]. repeat (split; [reflexivity|]).
  split.
  - unfold new_conv in E6. apply bind_ok in E6 as (b & _ & E6). apply bind_ok in E6 as (st & _ & E6).
    destruct st as [[x y] z]. injection E6 as <-. reflexivity.
  - rewrite E1. cbn [bind]. rewrite E2. cbn [bind]. rewrite E3. cbn [bind]. rewrite E4. cbn [bind]. rewrite E5. cbn [bind]. rewrite E6. reflexivity.
Qed.

Section Resample.
Variable spl2 : nat -> list R -> matrix -> res (R -> R -> R).
Variable simpson : list R -> list R -> R.
Variable wigner : Z -> Z -> Z -> R.

(** The samples [b] at the points [k], read at the points [k'] off the surface
    of the given order through their real parts. *)
Definition read_at (order : nat) (k k' : list R) (b b' : samples (list (list C))) : Prop :=
  exists surface, spl2 order k (map (map fst) (snd b)) = Ok surface /\
    b' = (FloatArr, map (fun x => map (fun y => RtoC (surface x y)) k') k').

(** Wavenumbers that are not logarithmically spaced: the convolution is the
    one made for as many logarithmically spaced points over the same range, of
    the samples read there off a surface through the given ones. *)
Theorem bispec_resampled g f ws wm k k_out rc p s w : bispec_init g f ws wm (One k) k_out rc p s = Ok w ->
  check_1d_array false false false true k = Err SpacingError ->
  exists k' w', WindowProps.log_spaced (nth 0 k 0) (last k 0) (length k) k' /\
    bispec_init g f ws wm (One k') k_out rc p s = Ok w' /\ w_kout w' = w_kout w /\
    forall B B' ic,
      Forall2 (fun a a' => fst a' = fst a /\ (exists z, fst a = MCopy z /\ In z (f_Z f)) /\ read_at (snd s) k k' (snd a) (snd a')) B B' ->
      bispec_convolve spl2 simpson wigner w B ic = bispec_convolve spl2 simpson wigner w' B' ic /\
      bispec_zeta spl2 simpson wigner w B ic = bispec_zeta spl2 simpson wigner w' B' ic.
Proof.
  intros W CK. assert (W0 := W). unfold bispec_init in W. apply bind_ok in W as ((rQ, Q) & BI & W).
  apply bind_ok in W as (ki & EK & W). injection EK as <-. apply bind_ok in W as (bad & EB & W).
  apply bind_ok in W as (ki' & ER & W). cbn [fst snd] in W.
  assert (NE : f_zkeys f <> []).
  { unfold base_init in BI. destruct (f_Z f) as [|z zs] eqn:E; [discriminate|]. unfold f_zkeys. rewrite E. discriminate. }
  assert (bad = Some k) as ->.
  { destruct (f_zkeys f) as [|z zs]; [contradiction|]. cbn [map first_unspaced] in EB. rewrite CK in EB. now injection EB as <-. }
  unfold respaced in ER. rewrite EB in ER. cbn [bind] in ER.
  destruct k as [|k0 kr] eqn:Ek; [discriminate CK|]. rewrite <- Ek in *.
  assert (LG : exists k', logspace (at0 k) (atm1 k) (Z.of_nat (length k)) = Ok k' /\ ki' = map (fun z => (z, k')) (f_zkeys f)).
  { destruct (logspace (at0 k) (atm1 k) (Z.of_nat (length k))) as [k'|e] eqn:EL.
    - exists k'. split; [reflexivity|].
      assert (G : forall ks l, sequence (map (fun zk : zkey * list R => match snd zk with [] => Err IndexError
          | _ => a <- logspace (at0 (snd zk)) (atm1 (snd zk)) (Z.of_nat (length k)) ;; Ok (fst zk, a) end) (map (fun z => (z, k)) ks)) = Ok l ->
          l = map (fun z => (z, k')) ks).
      { induction ks as [|z ks IH]; intros l H; cbn [map sequence fst snd] in H; [now injection H as <-|].
        rewrite Ek in H at 1. rewrite EL in H. cbn [bind] in H. apply bind_ok in H as (l' & Hl & H). injection H as <-. cbn [map]. f_equal. now apply IH. }
      now apply G.
    - exfalso. destruct (f_zkeys f) as [|z zs]; [contradiction|]. cbn [map sequence fst snd] in ER. rewrite Ek in ER at 1.
      rewrite EL in ER. discriminate. }
  destruct LG as (k' & EL & ->).
  assert (L2 : (2 <= length k)%nat).
  { unfold check_1d_array in CK. destruct (length k <? 2)%nat eqn:Lk; [discriminate|]. apply Nat.ltb_ge in Lk. exact Lk. }
  assert (P0 : 0 < nth 0 k 0).
  { unfold logspace in EL. destruct (_ <? 0)%Z; [discriminate|]. unfold at0 in EL. destruct (Rleb (nth 0 k 0) 0) eqn:E; [discriminate|].
    apply Rleb_false in E. lra. }
  apply logspace_spec in EL; [|lia]. rewrite Nat2Z.id, atm1_last in EL. unfold at0 in EL.
  assert (SP : check_1d_array false false false true k' = Ok k').
  { destruct EL as [Lx Vx]. apply (py_check_spaced (nth 0 k 0) (ln (last k 0 / nth 0 k 0) / INR (length k - 1))); [exact P0|lia|].
    intros j Hj. rewrite Lx in Hj. rewrite Vx by exact Hj. unfold Rpower. do 2 f_equal. unfold Rdiv. ring. }
  destruct (fourier_orig _ _ _ _ _ _ _ None _ _ _ _ W) as (K1 & K2 & K3 & K4 & W').
  exists k'. eexists. split; [exact EL|]. split.
  { unfold bispec_init. rewrite BI. cbn [bind fst snd input_points].
    assert (FU : first_unspaced (map (fun z => (z, k')) (f_zkeys f)) = Ok None).
    { clear - SP. induction (f_zkeys f) as [|z zs IH]; [reflexivity|]. cbn [map first_unspaced]. now rewrite SP. }
    unfold respaced. rewrite FU. cbn [bind]. exact W'. }
  split; [reflexivity|]. intros B B' ic F.
  assert (RI : reinterpolate spl2 w B = Ok B').
  { unfold reinterpolate. rewrite K2, K1, K3. induction F as [|[ka [ak am]] [kb b] B B' (E1 & (z & E2 & Hz) & (sf & E3 & E4)) F IH]; [reflexivity|].
    cbn [fst snd] in E1, E2, E3, E4. subst kb ka b. cbn [map sequence fst snd as_zkey bind].
    rewrite (one_array f k z Hz). cbn [bind]. 
    assert (E3' : spl2 (snd s) k (real_part am) = Ok sf) by exact E3. rewrite E3'. cbn [bind]. rewrite (one_array f k' z Hz). cbn [bind].
    rewrite IH. cbn [bind]. 
    assert (EG : map (map RtoC) (grid sf k') = map (fun x => map (fun y => RtoC (sf x y)) k') k').
    { unfold grid. rewrite map_map. apply map_ext. intros x. now rewrite map_map. }
    rewrite EG. reflexivity. }
  assert (ZC : zeta_conv spl2 simpson wigner w B ic
    = zeta_conv spl2 simpson wigner (mk_fconv (map (fun z => (z, k')) (f_zkeys f)) None (w_back w) (w_conv w) (w_forth w) (w_kout w) s (w_warned w)) B' ic).
  { unfold zeta_conv at 1. rewrite RI. reflexivity. }
  split.
  - unfold bispec_convolve. rewrite ZC. cbn [w_forth w_orders w_kout w_conv]. now rewrite K3.
  - unfold bispec_zeta. rewrite ZC. reflexivity.
Qed.

(** The correlation functions returned beside a bispectrum: with extrapolation
    the convolved ones, without it those multiplied, along the second index,
    by the separations to the power 3/2. *)
Lemma zeta_out raw c zeta ic out : build_formulae raw = Ok (c_f c) -> convolve3 spl2 simpson wigner c zeta ic = Ok out ->
  forall m, In m (f_poles (c_f c)) -> exists x, lookup out m = Ok x.
Proof.
  intros BF H m Hm. unfold convolve3 in H. apply bind_ok in H as (i & _ & H).
  destruct (formulae_requirements raw _ BF) as (Np & _). destruct (on_keys_inv _ _ _ Np H) as [_ V].
  destruct (V m Hm) as (x & _ & L). eauto.
Qed.

Theorem bispec_zeta_keeps g raw f ws wm k_in k_out rc p s w (B : list (mlike * samples (list (list C)))) ic zeta :
  build_formulae raw = Ok f -> bispec_init g f ws wm k_in k_out rc p s = Ok w -> p_extrap p <> 0%Z ->
  zeta_conv spl2 simpson wigner w B ic = Ok zeta ->
  exists ys, bispec_zeta spl2 simpson wigner w B ic = Ok ys /\
    forall m, In m (f_poles f) -> exists x, lookup zeta m = Ok x /\ lookup ys m = Ok (map (map RtoC) x).
Proof.
  intros BF W EX Hz. unfold bispec_init in W. apply bind_ok in W as ((rQ & Q) & BI & W).
  apply bind_ok in W as (ki & _ & W). apply bind_ok in W as (bad & _ & W). apply bind_ok in W as (ki' & _ & W). cbn [fst snd] in W.
  destruct (fourier_init_inv _ _ _ _ _ _ _ _ _ _ _ _ _ _ BF BI W) as (Ef & _ & _ & _ & _ & _ & _ & _ & _ & FO).
  destruct (formulae_requirements raw f BF) as (Np & _).
  assert (VX : forall m, In m (f_poles f) -> exists x, lookup zeta m = Ok x).
  { unfold zeta_conv in Hz. apply bind_ok in Hz as (b0 & _ & Hz). apply bind_ok in Hz as (z0 & _ & Hc). rewrite <- Ef in BF |- *. eapply zeta_out; eassumption. }
  unfold bispec_zeta. rewrite Hz, Ef. cbn [bind].
  destruct (on_keys_all (fun m => t <- lookup (w_forth w) m ;; x <- lookup zeta m ;; fst (d_multipoles t (DNum 1) FloatArr (map (map RtoC) x)))
     (fun m b => exists x, lookup zeta m = Ok x /\ b = map (map RtoC) x) (f_poles f) Np) as (d & E & _ & V).
  - intros m Hm. destruct (VX m Hm) as [x Ex]. destruct (FO m Hm) as (r & t & _ & Ht & Lt & _).
    exists (map (map RtoC) x). split; [|eauto]. rewrite Lt, Ex. cbn [bind].
    rewrite d_multipoles_after by (apply has_factors; now left).
    unfold new_double in Ht. apply bind_ok in Ht as (l0 & _ & Ht). apply bind_ok in Ht as (l1 & _ & Ht).
    destruct (dsbt_fields _ _ _ _ _ _ _ _ _ _ Ht) as (_ & EX' & E2 & t0 & t1 & ET & EL).
    unfold d_transform. rewrite E2, EX', ET. destruct (p_2d p).
    + replace (p_extrap p =? 0)%Z with false by (symmetry; now apply Z.eqb_neq). reflexivity.
    + destruct (EL eq_refl) as [X1 X2].
      assert (K : forall row, fst (transform t1 FloatArr row) = Ok row).
      { intros row. apply transform_keeps. intros [[K|K] _]; congruence. }
      pose proof (rows_keep t1 FloatArr (map (map RtoC) x) K) as RK. destruct (rows t1 FloatArr (map (map RtoC) x)) as [af it]. exact RK.
  - exists d. split; [exact E|]. intros m Hm. destruct (V m Hm) as (b & L & x & Ex & ->). eauto.
Qed.

Theorem bispec_zeta_scales g raw f ws wm k_in k_out rc p s w (B : list (mlike * samples (list (list C)))) ic zeta ys m r x :
  build_formulae raw = Ok f -> bispec_init g f ws wm k_in k_out rc p s = Ok w -> p_extrap p = 0%Z ->
  zeta_conv spl2 simpson wigner w B ic = Ok zeta -> bispec_zeta spl2 simpson wigner w B ic = Ok ys ->
  In m (f_poles f) -> lookup (c_rout (w_conv w)) m = Ok r -> (3 <= length r)%nat -> (forall q, In q r -> 0 < q) ->
  lookup zeta m = Ok x -> square (length r) (map (map RtoC) x) ->
  exists y, lookup ys m = Ok y /\ square (length r) y /\
    forall i j, (i < length r)%nat -> (j < length r)%nat ->
      entry y i j = (entry (map (map RtoC) x) i j * RtoC (Rpower (nth j r 0) (3 / 2)))%C.
Proof.
  intros BF W EX Hz Hy Hm Lr N3 PR Lx SX. unfold bispec_init in W. apply bind_ok in W as ((rQ & Q) & BI & W).
  apply bind_ok in W as (ki & _ & W). apply bind_ok in W as (bad & _ & W). apply bind_ok in W as (ki' & _ & W). cbn [fst snd] in W.
  destruct (fourier_init_inv _ _ _ _ _ _ _ _ _ _ _ _ _ _ BF BI W) as (Ef & _ & _ & _ & _ & _ & _ & _ & _ & FO).
  destruct (formulae_requirements raw f BF) as (Np & _).
  unfold bispec_zeta in Hy. rewrite Hz, Ef in Hy. cbn [bind] in Hy. destruct (on_keys_inv _ _ _ Np Hy) as [_ V].
  destruct (V m Hm) as (y & Ey & Ly). destruct (FO m Hm) as (r' & t & Lr' & Ht & Lt & _). rewrite Lr in Lr'. injection Lr' as <-.
  rewrite Lt, Lx in Ey. cbn [bind] in Ey. rewrite d_multipoles_after in Ey by (apply has_factors; now left).
  unfold new_double in Ht. apply bind_ok in Ht as (l0 & _ & Ht). apply bind_ok in Ht as (l1 & _ & Ht). rewrite EX in Ht.
  destruct (double_transform _ _ _ _ _ _ _ _ _ _ _ Ht N3 PR) as (t0 & t1 & K0 & K1 & H0 & H1 & T & D).
  destruct (D FloatArr (map (map RtoC) x) (or_introl eq_refl) SX) as (c & EC & _ & _). rewrite EC in Ey. cbn [fst] in Ey.
  assert (EY : y = map (weighed r) (map (map RtoC) x)) by congruence.
  exists y. split; [exact Ly|]. rewrite EY.
  split; [apply square_map; [exact SX|intros q _; unfold weighed; now rewrite map_length, seq_length]|].
  intros i j Hi Hj. rewrite (entry_map (length r)) by assumption. unfold weighed. now rewrite nth_tabC by exact Hj.
Qed.

End Resample.

(** Concrete: a constant bispectrum at three points of which the middle one is
    off comes back as the constant. *)
Lemma off_points : check_1d_array false false false true [1; exp (/ 2); exp 2] = Err SpacingError.
Proof.
  pose proof (exp_pos (/ 2)) as P1. pose proof (exp_pos 2) as P2.
  unfold check_1d_array. cbn [length Nat.ltb Nat.leb andb]. unfold epsign_ok, at0, at1, atm1, atm2. cbn [length Nat.sub nth].
  replace (Rltb 0 (1 * exp (/ 2))) with true by (symmetry; apply Rltb_spec; lra).
  replace (Rltb 0 (exp 2 * exp (/ 2))) with true by (symmetry; apply Rltb_spec; now apply Rmult_lt_0_compat).
  cbn [andb negb]. replace (ratios [1; exp (/ 2); exp 2]) with [exp (/ 2); exp (3 / 2)].
  2:{ cbn [ratios]. f_equal; [field|]. f_equal. apply Rmult_eq_reg_r with (exp (/ 2)); [|lra]. rewrite <- exp_plus.
      replace (3 / 2 + / 2) with 2 by lra. field. lra. }
  cbn [map]. rewrite !ln_exp. unfold rmean, rsum. cbn [fold_right length INR]. replace ((/ 2 + (3 / 2 + 0)) / (1 + 1)) with 1 by lra.
  unfold allclose. cbn [forallb]. replace (Rleb (Rabs (/ 2 - 1)) (/ 100000000 + / 100000 * Rabs 1)) with false.
  2:{ symmetry. apply Rleb_false. rewrite Rabs_R1, Rabs_left by lra. lra. }
  cbn [andb negb]. rewrite orb_true_r. reflexivity.
Qed.

Example bispec_resampled_case : let b := repeat (repeat (RtoC 5) 3) 3 in let x := [1; exp (/ 2); exp 2] in let m := [1; 1; 0]%Z in
  exists w out, bispec_init step_gsl (one_formula [0; 0; 0]%Z m) (One (pts 1 1 3)) [(MCopy [0; 0; 0]%Z, const_matrix 1 3)]
      (One x) (Some (pts 1 1 3)) None (plain_par true) (1, 1)%nat = Ok w /\
    bispec_convolve pick2 (fun _ y => rsum y) (fun _ _ _ => 1) w [(MCopy m, (FloatArr, b))] None = Ok out /\ lookup out m = Ok b.
Proof.
  intros b x m. destruct step_gsl_case as [_ G].
  assert (RB : real_matrix b).
  { intros r Hr z Hz. apply repeat_spec in Hr. subst r. apply repeat_spec in Hz. now subst z. }
  assert (SB : square 3 b) by (split; [reflexivity|]; intros r Hr; apply repeat_spec in Hr; now subst r).
  destruct (bispec_accepts step_gsl 1 1 0 1 1 3 (plain_par true) (1, 1)%nat FloatArr b) as (w & out & PC & HO);
    try lra; try lia; try assumption; try reflexivity; try (now left); try (now right); try (cbn; lra).
  destruct assumptions_hold as (_ & _ & _ & X2 & C2 & _ & AC).
  pose proof (bispec_unit_exact pick2 _ _ _ _ _ _ _ _ _ _ _ _ _ _ _ _ _ _ _ _ _ _ _ C2 X2 PC eq_refl (or_introl eq_refl) HO) as EO.
  destruct PC as (_ & BI & W & _).
  pose proof (exp_pos (/ 2)) as P1. pose proof (exp_pos 2) as P2.
  assert (LG : logspace 1 (exp 2) 3 = Ok (pts 1 1 3)).
  { assert (EX : exists l, logspace 1 (exp 2) 3 = Ok l).
    { unfold logspace. cbn [Z.ltb Z.compare]. replace (Rleb 1 0) with false by (symmetry; apply Rleb_false; lra).
      replace (Rleb (exp 2) 0) with false by (symmetry; apply Rleb_false; lra). cbn [orb]. unfold linspace. cbn. eexists. reflexivity. }
    destruct EX as [l E]. rewrite E. f_equal. apply logspace_spec in E; [|lia]. destruct E as [L V]. change (Z.to_nat 3) with 3%nat in *.
    apply nth_ext with 0 0; [now rewrite pts_length|]. intros j Hj. rewrite L in Hj. rewrite V by exact Hj. rewrite pts_nth by exact Hj.
    unfold Rpower. replace (exp 2 / 1) with (exp 2) by field. rewrite ln_exp. do 2 f_equal. cbn [Nat.sub INR]. field. }
  assert (W' : exists w', bispec_init step_gsl (one_formula [0; 0; 0]%Z m) (One (pts 1 1 3)) [(MCopy [0; 0; 0]%Z, const_matrix 1 3)]
      (One x) (Some (pts 1 1 3)) None (plain_par true) (1, 1)%nat = Ok w').
  { change m with [1; 1; 0]%Z. unfold bispec_init in W |- *. rewrite BI in W |- *. cbn [bind fst snd] in W |- *.
    change (input_points (one_formula [0; 0; 0]%Z [1; 1; 0]%Z) (One (pts 1 1 3))) with (Ok [(ZPole [1; 1; 0]%Z, pts 1 1 3)]) in W.
    change (input_points (one_formula [0; 0; 0]%Z [1; 1; 0]%Z) (One x)) with (Ok [(ZPole [1; 1; 0]%Z, x)]). cbn [bind] in W |- *.
    unfold respaced. cbn [first_unspaced]. unfold x. rewrite off_points. cbn [bind map sequence snd fst length]. unfold at0, atm1. cbn [length Nat.sub nth].
    change (Z.of_nat 3) with 3%Z. rewrite LG. cbn [bind].
    apply bind_ok in W as (bad & _ & W). apply bind_ok in W as (kk & ER & W). 
    assert (kk = [(ZPole [1; 1; 0]%Z, pts 1 1 3)]) as ->.
    { unfold respaced in ER. apply bind_ok in ER as (bd & EF & ER). cbn [first_unspaced] in EF.
      rewrite (py_check_spaced 1 1 (pts 1 1 3)) in EF; [injection EF as <-; now injection ER as <-|lra|rewrite pts_length; lia|].
      intros j Hj. apply pts_nth. now rewrite pts_length in Hj. }
    destruct (fourier_orig _ _ _ _ _ _ _ (Some [(ZPole [1; 1; 0]%Z, [1; exp (/ 2); exp 2])]) _ _ _ _ W) as (_ & _ & _ & _ & W'). eexists. exact W'. }
  destruct W' as [w' W']. exists w', out. split; [exact W'|].
  destruct (bispec_resampled pick2 (fun _ y => rsum y) (fun _ _ _ => 1) _ _ _ _ _ _ _ _ _ _ W' off_points) as (k' & w2 & LS & W2 & _ & E).
  assert (k' = pts 1 1 3) as ->.
  { destruct LS as [L V]. apply nth_ext with 0 0; [now rewrite pts_length|]. intros j Hj. rewrite L in Hj. rewrite V by exact Hj.
    cbn [length x] in Hj. rewrite pts_nth by exact Hj. unfold Rpower. cbn [nth last x length Nat.sub]. replace (exp 2 / 1) with (exp 2) by field. rewrite ln_exp.
    do 2 f_equal. cbn [INR]. field. }
  assert (EW : Ok w = Ok w2) by (rewrite <- W, <- W2; reflexivity). injection EW as <-.
  destruct (E [(MCopy m, (FloatArr, b))] [(MCopy m, (FloatArr, b))] None) as [E1 _].
  { constructor; [|constructor]. cbn [fst snd]. split; [reflexivity|]. split; [exists m; split; [reflexivity|now left]|].
    assert (NX : NoDup x).
    { unfold x. pose proof (exp_increasing 0 (/ 2) ltac:(lra)) as I1. rewrite exp_0 in I1. pose proof (exp_increasing (/ 2) 2 ltac:(lra)) as I2.
      repeat constructor; cbn [In]; intros H; repeat (destruct H as [H|H]; [lra|]); contradiction. }
    destruct (AC 1%nat false x ltac:(discriminate) NX) as [_ AS]. destruct (AS (map (map fst) b)) as [sf ES]. exists sf. split; [exact ES|].
    f_equal. assert (CS : forall u v, sf u v = 5) by (intros u v; exact (C2 1%nat x 5 sf ES u v)).
    unfold pts. cbn [seq map]. rewrite !CS. reflexivity. }
  split; [rewrite E1; exact HO|exact EO].
Qed.

Print Assumptions bispec_resampled.
Print Assumptions bispec_zeta_keeps.
Print Assumptions bispec_zeta_scales.
