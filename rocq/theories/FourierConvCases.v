(* Cases for C113 to C116: convolutions that are accepted, and the pivots of
   unequal degrees. *)
From Coq Require Import String.
From Coq Require Import Reals ZArith List Lia Lra Bool.
From Coquelicot Require Import Complex.
From Verif Require Import Base ArrayModel ArrayProofs Array2dModel RSum MultipoleModel
  WindowModel WindowProps WinConvModel WinConvProps WinConvSumProps WinConvCases
  OscilModel Dft FftlogModel FftlogProofs FftlogProps TransformModel TransformProps FourierConvModel
  FourierConvProps FourierConv3Props.
Import ListNotations.
Local Open Scope R_scope.

(** A formula with one multipole, which is the window's monopole times itself. *)
Definition one_raw (mono m : list Z) : list (mlike * list raw_term) :=
  [(MCopy m, [(MCopy mono, MCopy m, 1)])].
Definition one_formula (mono m : list Z) : formulae :=
  mk_formulae [(m, [mk_cterm mono (ZPole m) 1])] [m] [mono] [m] false.

Lemma one_builds mono m : build_formulae (one_raw mono m) = Ok (one_formula mono m).
Proof. reflexivity. Qed.

Lemma one_unit mono m : unit_formula mono (one_formula mono m) m /\ unit_formula3 mono (one_formula mono m) m.
Proof.
  unfold unit_formula, unit_formula3. cbn [one_formula f_dict lookup]. rewrite meq_refl.
  split; intros ts E; injection E as <-; cbn [filter t_Q t_Z zeq negb]; now rewrite meq_refl.
Qed.

Lemma covered_some x y : x <> [] -> y <> [] -> exists b, covered x y = Ok b.
Proof.
  intros Hx Hy. unfold covered. destruct x as [|a x]; [congruence|]. destruct y as [|b y]; [congruence|].
  cbn [amin amax bind]. destruct (Rleb _ _); eauto.
Qed.

Lemma post_spaced g ell x kr low ee l t r0 d : sbt_init g ell 0 x kr low 0 ee l = Ok t ->
  0 < r0 -> log_spaced r0 d x -> length (s_post t) = length x /\ exists k0, 0 < k0 /\ log_spaced k0 d (s_post t).
Proof.
  intros H H0 LS. destruct (sbt_init_plain _ _ _ _ _ _ _ _ _ H) as (_ & _ & _ & _ & _ & PO & HH).
  pose proof (hankel_new_inv _ _ _ _ _ _ _ _ _ HH) as I. pose proof (post_length _ _ _ _ _ _ _ _ _ I) as PL.
  rewrite PO. split; [exact PL|].
  destruct (fft_log_spaced _ _ _ _ _ _ _ _ _ _ _ HH H0 LS) as [_ LS']. eexists. split; [|exact LS'].
  apply Rmult_lt_0_compat; [|apply exp_pos]. apply Rdiv_lt_0_compat; [apply (h_pivpos _ _ _ _ _ _ _ _ _ I)|exact H0].
Qed.

Lemma spaced_nodup r0 d x : 0 < r0 -> 0 < d -> log_spaced r0 d x -> NoDup x.
Proof.
  intros H0 HD LS. apply (NoDup_nth x 0). intros i j Hi Hj E. rewrite !LS in E by assumption.
  apply Rmult_eq_reg_l in E; [|lra]. apply exp_inv in E. apply Rmult_eq_reg_r in E; [|lra]. now apply INR_eq.
Qed.

(* ------------------------------------------------------------------ *)
(* Power spectra                                                       *)

Lemma spaced_positive r0 d x : 0 < r0 -> log_spaced r0 d x -> forall r, In r x -> 0 < r.
Proof.
  intros H0 LS r Hr. apply (In_nth _ _ 0) in Hr as (j & Hj & <-). rewrite LS by exact Hj.
  apply Rmult_lt_0_compat; [exact H0|apply exp_pos].
Qed.

Theorem powspec_accepts g l r0 d N p s k a : real_gamma g -> (0 <= l)%Z -> p_extrap p = 0%Z -> 0 < p_pivot p ->
  0 < r0 -> 0 < d -> (3 <= N)%nat -> (Nat.odd N = true \/ p_low p = true) ->
  an_array k -> reals a -> length a = N ->
  let x := pts r0 d N in
  exists w out,
    plain_case g (one_raw [0%Z] [l]) (one_formula [0%Z] [l]) (One x) [(MCopy [0%Z], repeat 1 N)]
      [([0%Z], x)] [([0%Z], repeat 1 N)] (One x) (Some x) p s w [(MCopy [l], (k, a))] [0%Z] [l] l x k a /\
    powspec_convolve pick1 w [(MCopy [l], (k, a))] = Ok out.
Proof.
  intros G Hl EX HK H0 HD N3 MK AK RA LA x.
  assert (LX : length x = N) by apply pts_length.
  assert (LS : log_spaced r0 d x) by (intros j Hj; apply pts_nth; now rewrite LX in Hj).
  assert (IL : 0 <= IZR l) by (apply IZR_le; exact Hl).
  pose proof (spaced_positive _ _ _ H0 LS) as PX.
  assert (NX : x <> []) by (intros E; rewrite E in LX; cbn in LX; lia).
  destruct (sbt_init_ok g l 0 r0 d x (p_pivot p) (p_low p) (p_exp p) (p_layer p)) as [t Ht]; try lra; try lia; try assumption.
  destruct (post_spaced _ _ _ _ _ _ _ _ _ _ Ht H0 LS) as (LY & k0 & K0 & LSY). set (y := s_post t) in *.
  assert (NY : y <> []) by (intros E; rewrite E in LY; cbn in LY; lia).
  destruct (sbt_init_ok g l 0 k0 d y (p_pivot p) (p_low p) (p_exp p) (p_layer p)) as [t' Ht']; try lra; try lia; try assumption.
  assert (BI : base_init (one_formula [0%Z] [l]) (One x) [(MCopy [0%Z], repeat 1 N)] = Ok ([([0%Z], x)], [([0%Z], repeat 1 N)])) by reflexivity.
  assert (IP : input_points (one_formula [0%Z] [l]) (One x) = Ok [(ZPole [l], x)]) by reflexivity.
  assert (CP : check_points [(ZPole [l], x)] = Ok tt).
  { cbn [check_points]. rewrite (py_check_spaced r0 d x) by (assumption || lia). reflexivity. }
  destruct (covered_some y x NY NX) as [b1 C1]. destruct (covered_some y y NY NY) as [b2 C2].
  assert (W : exists u, powspec_init g (one_formula [0%Z] [l]) (One x) [(MCopy [0%Z], repeat 1 N)] (One x) (Some x) None p s
      = Ok (mk_fconv [(ZPole [l], x)] None [([l], t)]
              (mk_conv (one_formula [0%Z] [l]) [([0%Z], x)] [([0%Z], repeat 1 N)] [(ZPole [l], y)] [([l], y)] (fst s))
              [([l], t')] x s u)).
  { unfold powspec_init. rewrite BI, IP. cbn [bind fst snd]. rewrite CP. cbn [bind].
    unfold fourier_init, new_single, new_conv, initialise_sampts, coverage, term_coverage, on_keys.
    repeat first [rewrite meq_refl|rewrite Z.eqb_refl|rewrite EX|rewrite Ht|rewrite Ht'|rewrite C1|rewrite C2
                 |progress fold y|progress unfold on_keys|progress cbn -[covered sbt_init]].
    eexists. reflexivity. }
  destruct W as [u W].
  assert (MKX : mid_kept x (p_pivot p) (p_low p)).
  { destruct MK as [MK|MK]; [left; now rewrite LX|right; auto]. }
  destruct (pole_back _ _ _ _ _ _ _ _ _ k a G Ht Ht' ltac:(lia) PX HK MKX AK (eq_trans LA (eq_sym LX))) as (b & Hb & Lb & _).
  destruct assumptions_hold as (_ & _ & _ & _ & _ & _ & PK).
  assert (SX : forall v e q, length q = length x -> exists h, pick1 v e x q = Ok h).
  { intros v e q Lq. destruct (PK v e x NX (spaced_nodup _ _ _ H0 HD LS)) as [P1 _]. now apply P1. }
  assert (SY : forall v e q, length q = length y -> exists h, pick1 v e y q = Ok h).
  { intros v e q Lq. destruct (PK v e y NY (spaced_nodup _ _ _ K0 HD LSY)) as [P1 _]. now apply P1. }
  destruct (SX (fst s) true (repeat 1 N)) as [fq Fq]; [now rewrite repeat_length|].
  destruct (SY (fst s) false (map fst b)) as [fz Fz]; [rewrite map_length; exact (eq_trans Lb (eq_sym LY))|].
  pose proof (spaced_positive _ _ _ K0 LSY) as PY.
  set (P := [(MCopy [l], (k, a))]).
  assert (XC : exists xi, xi_conv pick1 (mk_fconv [(ZPole [l], x)] None [([l], t)]
              (mk_conv (one_formula [0%Z] [l]) [([0%Z], x)] [([0%Z], repeat 1 N)] [(ZPole [l], y)] [([l], y)] (fst s))
              [([l], t')] x s u) P = Ok [([l], xi)] /\ length xi = length y).
  { unfold xi_conv, to_xi, convolve2, summand2, on_keys, P.
    repeat first [rewrite meq_refl|rewrite Z.eqb_refl|rewrite Hb|rewrite Fq|rewrite Fz
                 |progress unfold on_keys|progress cbn -[pick1 multipoles vsum]]. eexists. split; [reflexivity|].
    unfold vsum. rewrite map_length, seq_length. apply map_length. }
  destruct XC as (xi & XC & LXI).
  destruct (transform_matrix _ _ _ _ _ _ _ _ _ Ht' ltac:(lia) PY) as [K' HKt'].
  destruct (sbt_init_plain _ _ _ _ _ _ _ _ _ Ht') as (DG' & _).
  destruct (py_prefactors l 1) as (ff & fb & _ & F1 & _).
  destruct (post_spaced _ _ _ _ _ _ _ _ _ _ Ht' K0 LSY) as (LZ & k1 & K1 & LSZ).
  assert (NZ : s_post t' <> []) by (intros E; rewrite E in LZ; cbn in LZ; lia).
  assert (SZ : forall v e q, length q = length (s_post t') -> exists h, pick1 v e (s_post t') q = Ok h).
  { intros v e q Lq. destruct (PK v e (s_post t') NZ (spaced_nodup _ _ _ K1 HD LSZ)) as [P1 _]. now apply P1. }
  assert (FW : exists kp, snd (multipoles t' (DNum 1) FloatArr (map RtoC xi)) = Ok (s_post t', kp) /\ length kp = length (s_post t')).
  { unfold multipoles. rewrite DG', F1, (HKt' FloatArr) by (try (now left); now rewrite map_length). cbn [bind fst snd].
    eexists. split; [reflexivity|]. rewrite map_length, acts_length. congruence. }
  destruct FW as (kp & FW & LKP).
  destruct (SZ (snd s) false (map fst kp)) as [fr Fr]; [rewrite map_length; exact LKP|].
  destruct (SZ (snd s) false (map snd kp)) as [fi Fi]; [rewrite map_length; exact LKP|].
  do 2 eexists. split.
  - unfold plain_case. split; [apply one_builds|]. split; [exact BI|]. split; [exact W|]. do 3 (split; [assumption|]).
    split.
    { intros q rq E _. cbn [lookup] in E |- *. destruct (meq [0%Z] q) eqn:Eq; [|discriminate]. injection E as <-.
      apply meq_spec in Eq. subst q. now rewrite meq_refl, LX. }
    split; [now left|]. split; [apply one_unit|]. split; [reflexivity|].
    split; [exists [(ZPole [l], x)]; split; [exact IP|]; cbn [zlookup zeq]; now rewrite meq_refl|].
    split; [lia|]. split; [exact PX|]. split; [exact MKX|]. split; [unfold P; cbn [raw_lookup samekey]; now rewrite ?meq_refl|].
    split; [exact AK|]. split; [exact RA|congruence].
  - unfold powspec_convolve, read_out. rewrite XC. cbn [bind]. unfold on_keys.
    repeat first [rewrite meq_refl|rewrite Z.eqb_refl|rewrite FW|rewrite Fr|rewrite Fi|progress cbn -[pick1 multipoles]].
    reflexivity.
Qed.


(* ------------------------------------------------------------------ *)
(* Bispectra                                                           *)

Theorem bispec_accepts g l0 l1 l2 r0 d N p s k b : real_gamma g -> (0 <= l0)%Z -> (0 <= l1)%Z -> p_extrap p = 0%Z -> 0 < p_pivot p ->
  0 < r0 -> 0 < d -> (3 <= N)%nat -> (Nat.odd N = true \/ p_low p = true) ->
  an_array k -> square N b -> real_matrix b ->
  let x := pts r0 d N in let m := [l0; l1; l2] in
  exists w out,
    plain_case3 g (one_raw [0; 0; 0]%Z m) (one_formula [0; 0; 0]%Z m) (One x) [(MCopy [0; 0; 0]%Z, const_matrix 1 N)]
      [([0; 0; 0]%Z, x)] [([0; 0; 0]%Z, const_matrix 1 N)] (One x) (Some x) p s w [(MCopy m, (k, b))] None [0; 0; 0]%Z m l0 l1 x k b /\
    bispec_convolve pick2 (fun _ y => rsum y) (fun _ _ _ => 1) w [(MCopy m, (k, b))] None = Ok out.
Proof.
  intros G Hl0 Hl1 EX HK H0 HD N3 MK AK SB RB x m.
  assert (LX : length x = N) by apply pts_length.
  assert (LS : log_spaced r0 d x) by (intros j Hj; apply pts_nth; now rewrite LX in Hj).
  assert (IL0 : 0 <= IZR l0) by (apply IZR_le; exact Hl0). assert (IL1 : 0 <= IZR l1) by (apply IZR_le; exact Hl1).
  pose proof (spaced_positive _ _ _ H0 LS) as PX.
  assert (NX : x <> []) by (intros E; rewrite E in LX; cbn in LX; lia).
  destruct (sbt_init_ok g l0 0 r0 d x (p_pivot p) (p_low p) (p_exp p) Outer) as [u0 U0]; try lra; try lia; try assumption.
  destruct (sbt_init_ok g l1 0 r0 d x (p_pivot p) (p_low p) (p_exp p) Outer) as [u1 U1]; try lra; try lia; try assumption.
  pose proof (dsbt_two_conv _ _ _ _ _ _ _ _ _ (p_2d p) _ _ U0 U1) as Ht.
  destruct (post_spaced _ _ _ _ _ _ _ _ _ _ U0 H0 LS) as (LY & k0 & K0 & LSY). set (y := s_post u0) in *.
  assert (NY : y <> []) by (intros E; rewrite E in LY; cbn in LY; lia).
  destruct (sbt_init_ok g l0 0 k0 d y (p_pivot p) (p_low p) (p_exp p) Outer) as [v0 V0]; try lra; try lia; try assumption.
  destruct (sbt_init_ok g l1 0 k0 d y (p_pivot p) (p_low p) (p_exp p) Outer) as [v1 V1]; try lra; try lia; try assumption.
  pose proof (dsbt_two_conv _ _ _ _ _ _ _ _ _ (p_2d p) _ _ V0 V1) as Ht'.
  destruct (post_spaced _ _ _ _ _ _ _ _ _ _ V0 K0 LSY) as (LZ & k1 & K1 & LSZ).
  set (t := mk_dsbt [l0; l1] 0 (p_2d p) 0 [u0; u1] y) in *.
  set (t' := mk_dsbt [l0; l1] 0 (p_2d p) 0 [v0; v1] (s_post v0)) in *.
  assert (DP : d_post t = y) by reflexivity. assert (DP' : d_post t' = s_post v0) by reflexivity.
  set (mono := [0; 0; 0]%Z). set (Q := [(mono, const_matrix 1 N)]). set (f := one_formula mono m).
  assert (BI : base_init f (One x) [(MCopy mono, const_matrix 1 N)] = Ok ([(mono, x)], Q)) by reflexivity.
  assert (IP : input_points f (One x) = Ok [(ZPole m, x)]) by reflexivity.
  assert (CP : first_unspaced [(ZPole m, x)] = Ok None).
  { cbn [first_unspaced]. rewrite (py_check_spaced r0 d x) by (assumption || lia). reflexivity. }
  destruct (covered_some y x NY NX) as [b1 C1]. destruct (covered_some y y NY NY) as [b2 C2].
  assert (NEW : new_double g p m x = Ok t) by (unfold new_double, m; cbn [index0 index1 bind]; rewrite EX; exact Ht).
  assert (NEW' : new_double g p m y = Ok t') by (unfold new_double, m; cbn [index0 index1 bind]; rewrite EX; exact Ht').
  assert (MI : index0 m = Ok l0 /\ index1 m = Ok l1) by (split; reflexivity).
  clearbody t t' m.
  assert (W : exists u, bispec_init g f (One x) [(MCopy mono, const_matrix 1 N)] (One x) (Some x) None p s
      = Ok (mk_fconv [(ZPole m, x)] None [(m, t)] (mk_conv f [(mono, x)] Q [(ZPole m, y)] [(m, y)] (fst s)) [(m, t')] x s u)).
  { unfold bispec_init. rewrite BI, IP. cbn [bind fst snd]. unfold respaced. rewrite CP. cbn [bind].
    unfold fourier_init, new_conv, initialise_sampts, coverage, term_coverage, on_keys, Q.
    repeat first [rewrite meq_refl|rewrite Z.eqb_refl|rewrite NEW|rewrite NEW'|rewrite DP|rewrite C1|rewrite C2
                 |progress unfold on_keys|progress cbn -[covered new_double const_matrix meq d_post]].
    eexists. reflexivity. }
  destruct W as [u W].
  assert (MKX : mid_kept x (p_pivot p) (p_low p)).
  { destruct MK as [MK|MK]; [left; now rewrite LX|right; auto]. }
  destruct assumptions_hold as (_ & _ & _ & _ & _ & _ & PK).
  assert (SX : forall v q, exists h, pick2 v x q = Ok h).
  { intros v q. destruct (PK v true x NX (spaced_nodup _ _ _ H0 HD LS)) as [_ P1]. now apply P1. }
  assert (SY : forall v q, exists h, pick2 v y q = Ok h).
  { intros v q. destruct (PK v true y NY (spaced_nodup _ _ _ K0 HD LSY)) as [_ P1]. now apply P1. }
  assert (NZ : s_post v0 <> []) by (intros E; rewrite E in LZ; cbn in LZ; lia).
  assert (SZ : forall v q, exists h, pick2 v (s_post v0) q = Ok h).
  { intros v q. destruct (PK v true (s_post v0) NZ (spaced_nodup _ _ _ K1 HD LSZ)) as [_ P1]. now apply P1. }
  assert (DM : forall x d k m dir, dsbt_init g [l0; l1] [0; 0]%Z x (p_pivot p) (p_low p) (EInt 0) (p_exp p) (p_2d p) = Ok d ->
     (3 <= length x)%nat -> (forall r, In r x -> 0 < r) -> an_array k -> square (length x) m -> dir = DNum 1 \/ dir = DNum (-1) ->
     exists yb, snd (d_multipoles d dir k m) = Ok yb).
  { clear. intros x d k m dir H N3 P AK SM HD.
    destruct (double_transform _ _ _ _ _ _ _ _ _ _ _ H N3 P) as (t0 & t1 & K0 & K1 & H0 & H1 & T & D).
    destruct (D k m AK SM) as (bb & EB & _). destruct (has_factors (zsum (d_degrees d)) (length (d_degrees d)) dir HD) as [fc F].
    unfold d_multipoles. rewrite F, EB. cbn [bind fst snd]. eauto. }
  rewrite <- LX in SB.
  destruct (DM x t k b (DNum (-1)) Ht ltac:(lia) PX AK SB (or_intror eq_refl)) as ((yy & c) & Hb).
  destruct (SX (fst s) (const_matrix 1 N)) as [fq Fq]. destruct (SY (fst s) (real_part c)) as [fz Fz].
  pose proof (spaced_positive _ _ _ K0 LSY) as PY. set (B := [(MCopy m, (k, b))]).
  set (w := mk_fconv [(ZPole m, x)] None [(m, t)] (mk_conv f [(mono, x)] Q [(ZPole m, y)] [(m, y)] (fst s)) [(m, t')] x s u) in *.
  assert (XC : exists zt, zeta_conv pick2 (fun _ y => rsum y) (fun _ _ _ => 1) w B None = Ok [(m, grid zt y)]).
  { unfold zeta_conv, to_zeta, convolve3, summand3, the_ic, on_keys, B, w, Q.
    repeat first [rewrite meq_refl|rewrite Z.eqb_refl|rewrite Hb|rewrite Fq|rewrite Fz
                 |progress unfold on_keys|progress cbn -[pick2 d_multipoles msum meq const_matrix real_part grid]].
    change [grid (fun a b => 1 * fq a b * fz a b) y] with (map (fun h => grid h y) [fun a b => 1 * fq a b * fz a b]).
    rewrite msum_grid by discriminate. eexists. reflexivity. }
  destruct XC as [zt XC].
  assert (SG : square (length y) (map (map RtoC) (grid zt y))).
  { unfold grid. rewrite map_map. split; [apply map_length|]. intros r Hr. apply in_map_iff in Hr as (q & <- & _).
    rewrite map_map. apply map_length. }
  destruct (DM y t' FloatArr _ (DNum 1) Ht' ltac:(lia) PY (or_introl eq_refl) SG (or_introl eq_refl)) as (kp & FW).
  destruct (SZ (snd s) (map (map fst) (snd kp))) as [fr Fr]. destruct (SZ (snd s) (map (map snd) (snd kp))) as [fi Fi].
  exists w. eexists. split.
  - unfold plain_case3. split; [apply one_builds|]. split; [exact BI|]. split; [exact W|]. do 3 (split; [assumption|]).
    split.
    { intros q rq E _. unfold Q. cbn [lookup] in E |- *. destruct (meq mono q) eqn:Eq; [|discriminate]. injection E as <-.
      apply meq_spec in Eq. subst q. now rewrite meq_refl, LX. }
    split; [now left|]. split; [apply one_unit|]. split; [discriminate|]. destruct MI as [M0 M1].
    split; [exact M0|]. split; [exact M1|].
    split; [exists [(ZPole m, x)]; split; [exact IP|]; split; [exact CP|]; cbn [zlookup zeq]; now rewrite meq_refl|].
    split; [lia|]. split; [exact PX|]. split; [exact MKX|]. split; [unfold B; cbn [raw_lookup samekey]; now rewrite ?meq_refl|].
    auto.
  - unfold bispec_convolve, read_out2. rewrite XC. cbn [bind]. unfold on_keys, w.
    repeat first [rewrite meq_refl|rewrite Z.eqb_refl|rewrite FW|rewrite DP'|rewrite Fr|rewrite Fi|progress cbn -[pick2 d_multipoles d_post meq grid]].
    reflexivity.
Qed.

(* ------------------------------------------------------------------ *)
(* Cases                                                               *)

Definition plain_par (low : bool) : tpar := mk_tpar 1 low 0 2 Outer true.

(** A window of ones: the quadrupole comes back, the dipole comes back zero. *)
Example powspec_unit_case : let a := [RtoC 5; RtoC 6; RtoC 7; RtoC 8] in
  exists w out out', powspec_convolve pick1 w [(MCopy [2%Z], (FloatArr, a))] = Ok out /\ lookup out [2%Z] = Ok a /\
    powspec_after w [(MCopy [2%Z], (FloatArr, a))] [2%Z] = Ok out' /\ out' <> a.
Proof.
  intros a. destruct step_gsl_case as [_ G].
  assert (RA : reals a) by (intros z Hz; repeat (destruct Hz as [<-|Hz]; [reflexivity|]); contradiction).
  destruct (powspec_accepts step_gsl 2 1 1 4 (plain_par true) (1, 1)%nat FloatArr a) as (w & out & PC & HO);
    try lra; try lia; try assumption; try reflexivity; try (now left); try (now right); try (cbn; lra).
  destruct assumptions_hold as (_ & X1 & C1 & _).
  destruct (powspec_unit pick1 _ _ _ _ _ _ _ _ _ _ _ _ _ _ _ _ _ _ _ _ C1 X1 PC eq_refl HO) as (h & _ & _ & E).
  pose proof PC as (B & BI & W & EX & _ & HK & U & Hm & UF & Il & (ki & IP & Lk) & N3 & PK & MK & LP & AK & _ & LA).
  destruct (powspec_scales pick1 _ _ _ _ _ _ _ _ _ _ _ [(MCopy [2%Z], (FloatArr, a))] ki B W EX IP) as [S _].
  destruct (S [2%Z] _ FloatArr a (or_introl eq_refl) Lk PK LP AK LA) as (a' & EA & _ & V).
  exists w, out, a'. split; [exact HO|]. split; [now apply E|]. split; [exact EA|]. intros ->.
  specialize (V 1%nat ltac:(cbn; lia)). cbn [nth a] in V. rewrite pts_nth in V by lia. cbn [INR] in V.
  rewrite !Rmult_1_l in V. apply (f_equal fst) in V. unfold Cmult, RtoC in V. cbn [fst snd] in V.
  unfold Rpower in V. rewrite ln_exp, Rmult_1_r in V.
  assert (L1 : 1 < exp (3 / 2)) by (pose proof (exp_increasing 0 (3 / 2) ltac:(lra)) as L0; rewrite exp_0 in L0; exact L0). lra.
Qed.

Theorem powspec_unit_refuted : exists w out a,
  powspec_convolve pick1 w [(MCopy [1%Z], (FloatArr, a))] = Ok out /\ lookup out [1%Z] <> Ok a /\
  exists g f ws wm rQ Q x p s, plain_case g (one_raw [0%Z] [1%Z]) f ws wm rQ Q (One x) (Some x) p s w [(MCopy [1%Z], (FloatArr, a))] [0%Z] [1%Z] 1 x FloatArr a.
Proof.
  set (a := [RtoC 5; RtoC 6; RtoC 7; RtoC 8]). destruct step_gsl_case as [_ G].
  assert (RA : reals a) by (intros z Hz; repeat (destruct Hz as [<-|Hz]; [reflexivity|]); contradiction).
  destruct (powspec_accepts step_gsl 1 1 1 4 (plain_par true) (1, 1)%nat FloatArr a) as (w & out & PC & HO);
    try lra; try lia; try assumption; try reflexivity; try (now left); try (now right); try (cbn; lra).
  destruct assumptions_hold as (_ & X1 & C1 & _).
  pose proof (powspec_odd pick1 _ _ _ _ _ _ _ _ _ _ _ _ _ _ _ _ _ _ _ _ C1 X1 PC eq_refl HO) as E.
  exists w, out, a. split; [exact HO|]. split; [|do 9 eexists; exact PC]. rewrite E. unfold a.
  destruct (w_kout w) as [|r l]; cbn [map]; intros X; [discriminate|]. injection X as X _. lra.
Qed.

(** Bispectra: equal degrees come back, degrees 0 and 2 do not. *)
Example bispec_unit_case : let b := [[RtoC 5; RtoC 6; RtoC 7]; [RtoC 1; RtoC 2; RtoC 3]; [RtoC 0; RtoC 4; RtoC 8]] in
  exists w out, bispec_convolve pick2 (fun _ y => rsum y) (fun _ _ _ => 1) w [(MCopy [1; 1; 0]%Z, (FloatArr, b))] None = Ok out /\
    lookup out [1; 1; 0]%Z = Ok b.
Proof.
  intros b. destruct step_gsl_case as [_ G].
  assert (RB : real_matrix b).
  { intros r Hr z Hz. repeat (destruct Hr as [<-|Hr]; [repeat (destruct Hz as [<-|Hz]; [reflexivity|]); contradiction|]). contradiction. }
  assert (SB : square 3 b).
  { split; [reflexivity|]. intros r Hr. repeat (destruct Hr as [<-|Hr]; [reflexivity|]). contradiction. }
  destruct (bispec_accepts step_gsl 1 1 0 1 1 3 (plain_par true) (1, 1)%nat FloatArr b) as (w & out & PC & HO);
    try lra; try lia; try assumption; try reflexivity; try (now left); try (now right); try (cbn; lra).
  destruct assumptions_hold as (_ & _ & _ & X2 & C2 & _).
  exists w, out. split; [exact HO|].
  exact (bispec_unit_exact pick2 _ _ _ _ _ _ _ _ _ _ _ _ _ _ _ _ _ _ _ _ _ _ _ C2 X2 PC eq_refl (or_introl eq_refl) HO).
Qed.

Theorem bispec_unit_refuted g : gamma_step g -> real_gamma g -> exists w out b,
  bispec_convolve pick2 (fun _ y => rsum y) (fun _ _ _ => 1) w [(MCopy [0; 2; 2]%Z, (FloatArr, b))] None = Ok out /\
  lookup out [0; 2; 2]%Z <> Ok b /\
  exists f ws wm rQ Q x p s, plain_case3 g (one_raw [0; 0; 0]%Z [0; 2; 2]%Z) f ws wm rQ Q (One x) (Some x) p s w
    [(MCopy [0; 2; 2]%Z, (FloatArr, b))] None [0; 0; 0]%Z [0; 2; 2]%Z 0 2 x FloatArr b.
Proof.
  intros S G. set (b := [[RtoC 1; RtoC 1; RtoC 1]; [RtoC 1; RtoC 1; RtoC 1]; [RtoC 1; RtoC 1; RtoC 1]]).
  assert (RB : real_matrix b).
  { intros r Hr z Hz. repeat (destruct Hr as [<-|Hr]; [repeat (destruct Hz as [<-|Hz]; [reflexivity|]); contradiction|]). contradiction. }
  assert (SB : square 3 b).
  { split; [reflexivity|]. intros r Hr. repeat (destruct Hr as [<-|Hr]; [reflexivity|]). contradiction. }
  pose proof PI_RGT_0 as HP.
  destruct (bispec_accepts g 0 2 2 1 (2 * PI / 3) 3 (plain_par true) (1, 1)%nat FloatArr b) as (w & out & PC & HO);
    try lra; try lia; try assumption; try reflexivity; try (now left); try (now right); try (cbn; lra).
  destruct assumptions_hold as (_ & _ & _ & X2 & C2 & _).
  destruct (bispec_unit pick2 _ _ _ _ _ _ _ _ _ _ _ _ _ _ _ _ _ _ _ _ _ _ _ _ C2 X2 PC eq_refl HO) as (t0 & t1 & h & H0 & H1 & _ & _ & E).
  destruct (double_points_refuted g S) as (d & t0' & t1' & _ & H0' & H1' & _ & NE).
  cbn [plain_par p_pivot p_low p_exp] in H0, H1. rewrite H0' in H0. rewrite H1' in H1. injection H0 as <-. injection H1 as <-.
  exists w, out, b. split; [exact HO|]. split; [|do 8 eexists; exact PC]. rewrite (E eq_refl). intros X. apply NE.
  set (r := (pivot (s_fbht t0') / pivot (s_fbht t1')) ^ 3) in *. unfold b in X. cbn [scaled map] in X.
  injection X as X _. lra.
Qed.

(** The default extrapolation with two points made into four. *)
Lemma outer_two g ell r0 d kr low : (0 <= ell)%Z -> 0 < r0 -> 0 < d -> 0 < kr ->
  exists t k0, sbt_init g ell 0 (pts r0 d 2) kr low 4 2 Outer = Ok t /\ 0 < k0 /\ s_post t = pts k0 d 2.
Proof.
  intros Hl H0 HD HK. set (x := pts r0 d 2). assert (LX : length x = 2%nat) by apply pts_length.
  assert (IL : 0 <= IZR ell) by (apply IZR_le; exact Hl).
  assert (SZ : py_size (2 * INR (length x)) = Ok 4%Z).
  { rewrite LX. replace (2 * INR 2) with 4 by (cbn [INR]; lra). unfold py_size.
    destruct (Rltb 4 0) eqn:E1; [apply Rltb_spec in E1; lra|].
    destruct (Reqb 4 0) eqn:E2; [apply Reqb_spec in E2; lra|].
    replace (ln 4) with (2 * ln 2) by (replace 4 with (2 * 2) by lra; rewrite ln_mult by lra; ring).
    pose proof ln2_pos. replace (2 * ln 2 / ln 2) with (IZR 2) by (field; lra). now rewrite Raux.Zceil_IZR. }
  pose proof (exp_pos d) as EP. set (e := exp d) in *.
  assert (X0 : nth 0 x 0 = r0) by (unfold x; rewrite pts_nth by lia; cbn [INR]; rewrite Rmult_0_l, exp_0; lra).
  assert (X1 : nth 1 x 0 = r0 * e) by (unfold x; rewrite pts_nth by lia; cbn [INR]; rewrite !Rmult_1_l; reflexivity).
  assert (XE : x = [r0; r0 * e]).
  { apply nth_ext with 0 0; [now rewrite LX|]. intros [|[|j]] Hj; rewrite LX in Hj; [now rewrite X0|now rewrite X1|lia]. }
  assert (RE : 0 < r0 * e) by now apply Rmult_lt_0_compat.
  assert (EL : extrap_loglin x 1 = Ok [r0 / e; r0; r0 * e; r0 * e * e]).
  { unfold extrap_loglin. rewrite check_epsign_ok; [|lia|].
    - cbn [bind]. unfold atm2, at0, at1, atm1. rewrite LX. cbn [Nat.sub]. rewrite X0, X1.
      assert (N1 : Reqb r0 0 = false) by (apply not_true_is_false; intros E; apply Reqb_spec in E; lra).
      assert (N2 : Reqb (r0 * e) 0 = false) by (apply not_true_is_false; intros E; apply Reqb_spec in E; lra).
      rewrite N1, N2. cbn [orb andb Z.ltb Z.compare]. change (arange_down 1) with [1%Z]. change (arange 1 (1 + 1)) with [1%Z].
      rewrite XE. cbn [map app]. unfold rpow. change (Z.to_nat 1) with 1%nat. rewrite !pow_1.
      replace (r0 * (r0 / (r0 * e))) with (r0 / e) by (field; lra).
      replace (r0 * e * (r0 * e / r0)) with (r0 * e * e) by (field; lra). reflexivity.
    - unfold epsign_ok, at0, at1, atm1, atm2. rewrite LX. cbn [Nat.sub]. rewrite X0, X1.
      apply andb_true_iff. split; apply orb_true_iff; left; apply Rltb_spec; nra. }
  set (q := [r0 / e; r0; r0 * e; r0 * e * e]) in *.
  assert (Q0 : 0 < r0 / e) by now apply Rdiv_lt_0_compat.
  assert (LS : log_spaced (r0 / e) d q).
  { intros j Hj. cbn [length q] in Hj. assert (P : forall n, exp (INR n * d) = e ^ n).
    { induction n as [|n IH]; [cbn [INR pow]; rewrite Rmult_0_l; apply exp_0|].
      rewrite S_INR, Rmult_plus_distr_r, exp_plus, IH, Rmult_1_l. cbn [pow]. fold e. ring. }
    rewrite P. destruct j as [|[|[|[|j]]]]; [| | | |lia]; cbn [nth pow q]; field; lra. }
  destruct (py_hankel_ok g (IZR ell + 1 / 2) (IZR 0) (r0 / e) d q kr low 2) as (h & HP & HH); try lra; try assumption; [cbn; lia|].
  assert (HT : exists t, sbt_init g ell 0 x kr low 4 2 Outer = Ok t).
  { unfold sbt_init. cbn [Z.leb Z.compare andb negb Z.eqb].
    rewrite SZ. cbn [bind]. rewrite LX. cbn [Nat.odd Nat.even negb Nat.eqb]. change ((4 - Z.of_nat 2) / 2)%Z with 1%Z. rewrite EL. cbn [bind].
    rewrite HP. cbn [bind]. eexists. reflexivity. }
  destruct HT as [t Ht]. destruct (outer_points _ _ _ _ _ _ _ _ _ Ht ltac:(discriminate) ltac:(lra) ltac:(lia)) as (_ & _ & _ & LP & V).
  destruct (sbt_init_outer _ _ _ _ _ _ _ _ _ Ht ltac:(discriminate)) as (_ & _ & _ & _ & _ & nt & p & _ & _ & _ & HH' & _).
  pose proof (hankel_new_inv _ _ _ _ _ _ _ _ _ HH') as I. pose proof (h_pivpos _ _ _ _ _ _ _ _ _ I) as PP.
  set (c := pivot (s_fbht t) * exp (- logres (s_fbht t))) in *.
  assert (HC : 0 < c) by (apply Rmult_lt_0_compat; [exact PP|apply exp_pos]).
  rewrite LX in V, LP. pose proof (V 0%nat ltac:(lia)) as V0. pose proof (V 1%nat ltac:(lia)) as V1. cbn [Nat.sub] in V0, V1.
  rewrite X1 in V0. rewrite X0 in V1. exists t, (c / (r0 * e)). split; [exact Ht|].
  split; [now apply Rdiv_lt_0_compat|]. apply nth_ext with 0 0; [now rewrite pts_length|]. intros j Hj. rewrite LP in Hj.
  rewrite pts_nth by exact Hj. destruct j as [|[|j]]; [| |lia]; cbn [INR].
  - rewrite Rmult_0_l, exp_0, <- V0. field. lra.
  - rewrite Rmult_1_l. fold e. rewrite <- V1. field. lra.
Qed.

(** Samples that are zero, with the default extrapolation. *)
Theorem powspec_zero_refuted g : exists w,
  powspec_init g (one_formula [0%Z] [0%Z]) (One (pts 1 1 2)) [(MCopy [0%Z], [1; 1])] (One (pts 1 1 2)) (Some (pts 1 1 2)) None
    (mk_tpar 1 true 4 2 Outer true) (1, 1)%nat = Ok w /\
  forall spl1 k out, powspec_convolve spl1 w [(MCopy [0%Z], (k, [RtoC 0; RtoC 0]))] <> Ok out.
Proof.
  destruct (outer_two g 0 1 1 1 true) as (t & k0 & Ht & K0 & EY); try lra; try lia.
  destruct (outer_two g 0 k0 1 1 true) as (t' & k1 & Ht' & K1 & EZ); try lra; try lia.
  set (x := pts 1 1 2) in *. rewrite <- EY in Ht'. set (y := s_post t) in *.
  assert (LX : length x = 2%nat) by apply pts_length. assert (LY : length y = 2%nat) by (rewrite EY; apply pts_length).
  assert (NX : x <> []) by (intros E; rewrite E in LX; discriminate).
  assert (NY : y <> []) by (intros E; rewrite E in LY; discriminate).
  assert (LS : log_spaced 1 1 x) by (intros j Hj; apply pts_nth; now rewrite LX in Hj).
  assert (BI : base_init (one_formula [0%Z] [0%Z]) (One x) [(MCopy [0%Z], [1; 1])] = Ok ([([0%Z], x)], [([0%Z], [1; 1])])) by reflexivity.
  assert (IP : input_points (one_formula [0%Z] [0%Z]) (One x) = Ok [(ZPole [0%Z], x)]) by reflexivity.
  assert (CP : check_points [(ZPole [0%Z], x)] = Ok tt).
  { cbn [check_points]. rewrite (py_check_spaced 1 1 x) by (assumption || lra || lia). reflexivity. }
  destruct (covered_some y x NY NX) as [b1 C1]. destruct (covered_some y y NY NY) as [b2 C2].
  set (p := mk_tpar 1 true 4 2 Outer true).
  assert (W : exists w, powspec_init g (one_formula [0%Z] [0%Z]) (One x) [(MCopy [0%Z], [1; 1])] (One x) (Some x) None p (1, 1)%nat = Ok w).
  { unfold powspec_init. rewrite BI, IP. cbn [bind fst snd]. rewrite CP. cbn [bind].
    unfold fourier_init, new_single, new_conv, initialise_sampts, coverage, term_coverage, on_keys.
    repeat first [rewrite meq_refl|rewrite Z.eqb_refl|rewrite Ht|rewrite Ht'|rewrite C1|rewrite C2
                 |progress fold y|progress unfold on_keys|progress cbn -[covered sbt_init x]].
    eexists. reflexivity. }
  destruct W as [w W]. exists w. split; [exact W|]. intros spl1 k out.
  apply (powspec_zero spl1 g (one_raw [0%Z] [0%Z]) (one_formula [0%Z] [0%Z]) (One x) [(MCopy [0%Z], [1; 1])] (One x) (Some x) None p
    (1, 1)%nat w _ [(ZPole [0%Z], x)] [0%Z] x k 2%nat); try reflexivity; try assumption; try (now left); try lia.
Qed.

Print Assumptions powspec_unit.
Print Assumptions powspec_odd.
Print Assumptions powspec_keeps.
Print Assumptions powspec_scales.
Print Assumptions powspec_again.
Print Assumptions powspec_zero.
Print Assumptions powspec_accepts.
Print Assumptions powspec_unit_refuted.
Print Assumptions powspec_zero_refuted.
Print Assumptions convolve3_unit.
Print Assumptions bispec_unit.
Print Assumptions bispec_unit_exact.
Print Assumptions bispec_odd.
Print Assumptions bispec_keeps.
Print Assumptions bispec_scales.
Print Assumptions bispec_again.
Print Assumptions bispec_accepts.
Print Assumptions bispec_unit_refuted.
