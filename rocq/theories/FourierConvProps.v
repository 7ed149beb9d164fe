(* Convolved power spectra: a window of ones, odd degrees, and the caller's
   arrays (C113, C114). *)
From Coq Require Import String.
From Coq Require Import Reals ZArith List Lia Lra Bool.
From Coquelicot Require Import Complex.
From Verif Require Import Base ArrayModel ArrayProofs Array2dModel RSum MultipoleModel
  WindowModel WindowProps WinConvModel WinConvProps WinConvSumProps
  OscilModel Dft FftlogModel FftlogProofs FftlogProps TransformModel TransformProps FourierConvModel.
Import ListNotations.
Local Open Scope R_scope.

(* ------------------------------------------------------------------ *)
(* Construction                                                        *)

Definition map_vals {A B} (f : A -> B) (d : mdict A) : mdict B :=
  map (fun kv => (fst kv, f (snd kv))) d.

Lemma map_vals_keys {A B} (f : A -> B) d : map fst (map_vals f d) = map fst d.
Proof. unfold map_vals. rewrite map_map. reflexivity. Qed.

Lemma map_vals_lookup {A B} (f : A -> B) d k : lookup (map_vals f d) k = (a <- lookup d k ;; Ok (f a)).
Proof.
  induction d as [|[k' a] d IH]; [reflexivity|]. cbn [map_vals map lookup fst snd] in *.
  destruct (meq k' k); [reflexivity|exact IH].
Qed.

Lemma posts_keys {T} (post : T -> list R) d : posts post d = as_keys (map_vals post d).
Proof. unfold posts, as_keys, map_vals. now rewrite map_map. Qed.

Lemma coerce_nodup {A} (l : list (mlike * A)) d : coerce l = Ok d -> NoDup (map fst d).
Proof.
  unfold coerce. intros H. apply bind_ok in H as (ks & _ & H). injection H as <-.
  apply fold_store. constructor.
Qed.

Lemma base_init_nodup {A} f ws (wm : list (mlike * A)) rQ Q : base_init f ws wm = Ok (rQ, Q) ->
  NoDup (map fst rQ) /\ NoDup (map fst Q) /\ base_init f (Each (as_keys rQ)) (as_keys Q) = Ok (rQ, Q).
Proof.
  unfold base_init. destruct (f_Z f) as [|z zs]; [discriminate|]. intros H.
  apply bind_ok in H as (r & Hr & H). apply bind_ok in H as (q & Hq & H).
  assert (NR : NoDup (map fst r)) by (destruct ws; eapply coerce_nodup; exact Hr).
  pose proof (coerce_nodup _ _ Hq) as NQ.
  destruct (negb (subset_keys (f_Q f) r)) eqn:E1; [discriminate|].
  destruct (negb (subset_keys (f_Q f) q)) eqn:E2; [discriminate|]. injection H as <- <-.
  split; [exact NR|]. split; [exact NQ|]. rewrite !coerce_as_keys by assumption. cbn [bind].
  now rewrite E1, E2.
Qed.

Definition poles_of {A} (d : mdict A) : zdict A := map (fun kv => (ZPole (fst kv), snd kv)) d.

Lemma zas_poles {A} (d : mdict A) : zas_keys (poles_of d) = as_keys d.
Proof. unfold zas_keys, poles_of, as_keys. rewrite map_map. reflexivity. Qed.

Lemma input_points_keys f (d : mdict (list R)) ri : NoDup (map fst d) ->
  input_points f (Each (as_keys d)) = Ok ri -> ri = poles_of d.
Proof.
  intros N H. cbn [input_points] in H. rewrite coerce_as_keys in H by exact N. cbn [bind] in H.
  destruct (forallb _ d); [|discriminate]. now injection H as <-.
Qed.

Lemma key_to_value_ok {A} (x : res A) v : key_to_value x = Ok v -> x = Ok v.
Proof. destruct x as [a|[]]; cbn; congruence. Qed.

(** What a Fourier-space convolution is made of. *)
Lemma fourier_init_inv {T A} (new : list Z -> list R -> res T) post raw f rQ (Q : mdict A) ws wm kin orig ko rc s w :
  build_formulae raw = Ok f -> base_init f ws wm = Ok (rQ, Q) ->
  fourier_init new post f rQ Q kin orig ko rc s = Ok w ->
  c_f (w_conv w) = f /\ c_rQ (w_conv w) = rQ /\ c_Q (w_conv w) = Q /\ c_spline (w_conv w) = fst s
  /\ w_orders w = s /\ w_kin w = kin /\ w_orig w = orig
  /\ (forall k, ko = Some k -> w_kout w = k)
  /\ (forall z, In z (f_Z f) -> exists k t, zlookup kin (ZPole z) = Ok k /\ new z k = Ok t
        /\ lookup (w_back w) z = Ok t /\ zlookup (c_rin (w_conv w)) (ZPole z) = Ok (post t))
  /\ (forall m, In m (f_poles f) -> exists r t, lookup (c_rout (w_conv w)) m = Ok r /\ new m r = Ok t
        /\ lookup (w_forth w) m = Ok t
        /\ (rc = None -> exists t', In m (f_Z f) /\ lookup (w_back w) m = Ok t' /\ r = post t')).
Proof.
  intros B BI H. destruct (formulae_requirements raw f B) as (Np & _ & NZ & _).
  destruct (base_init_nodup f ws wm rQ Q BI) as (NR & NQ & BI').
  unfold fourier_init in H. apply bind_ok in H as (back & HB & H).
  apply bind_ok in H as (rcp & HRC & H). apply bind_ok in H as (((ri, ro), w1) & HI & H).
  apply bind_ok in H as (forth & HF & H). apply bind_ok in H as (k & HK & H).
  apply bind_ok in H as (c & HC & H). injection H as <-. cbn [w_conv w_orders w_kin w_orig w_back w_forth w_kout].
  destruct (on_keys_inv _ _ _ NZ HB) as [KB VB]. destruct (on_keys_inv _ _ _ Np HF) as [KF VF].
  unfold new_conv in HC. rewrite BI' in HC. cbn [bind fst snd] in HC.
  apply bind_ok in HC as (((ri', ro'), w2) & HI' & HC). injection HC as <-.
  cbn [c_f c_rQ c_Q c_spline c_rin c_rout fst snd].
  assert (NB : NoDup (map fst (map_vals post back))) by (rewrite map_vals_keys, KB; exact NZ).
  unfold initialise_sampts in HI. rewrite posts_keys in HI. apply bind_ok in HI as (a & HA & HI).
  apply bind_ok in HI as (b & HO & HI). apply bind_ok in HI as (c & _ & HI). injection HI as -> -> ->.
  pose proof (input_points_keys _ _ _ NB HA) as ->.
  unfold initialise_sampts in HI'. rewrite zas_poles in HI'. apply bind_ok in HI' as (a & HA' & HI').
  apply bind_ok in HI' as (b & HO' & HI'). apply bind_ok in HI' as (c & _ & HI'). injection HI' as -> -> ->.
  pose proof (input_points_keys _ _ _ NB HA') as ->.
  assert (NO : NoDup (map fst ro)).
  { destruct rc as [r|]; cbn [common_points] in HRC.
    - apply bind_ok in HRC as (u & _ & E). injection E as <-. cbn [output_points] in HO. injection HO as <-.
      rewrite map_map. cbn [fst]. now rewrite map_id.
    - injection HRC as <-. cbn [output_points] in HO. apply key_to_value_ok in HO.
      destruct (on_keys_inv _ _ _ Np HO) as [-> _]. exact Np. }
  cbn [output_points] in HO'. rewrite coerce_as_keys in HO' by exact NO. injection HO' as <-.
  do 7 (split; [reflexivity|]). split; [|split].
  - intros k' ->. now injection HK as <-.
  - intros z Hz. destruct (VB z Hz) as (t & E & L). apply bind_ok in E as (x & Ex & E).
    exists x, t. split; [exact Ex|]. split; [exact E|]. split; [exact L|].
    unfold poles_of. rewrite zlookup_poles, map_vals_lookup, L. reflexivity.
  - intros m Hm. destruct (VF m Hm) as (t & E & L). apply bind_ok in E as (r & Er & E).
    exists r, t. split; [exact Er|]. split; [exact E|]. split; [exact L|]. intros ->.
    injection HRC as <-. cbn [output_points] in HO. apply key_to_value_ok in HO.
    destruct (on_keys_inv _ _ _ Np HO) as [_ V]. destruct (V m Hm) as (r' & Er' & Lr').
    rewrite Er in Lr'. injection Lr' as <-. unfold poles_of in Er'.
    rewrite zlookup_poles, map_vals_lookup in Er'. apply bind_ok in Er' as (t' & Lt & E'). injection E' as <-.
    exists t'. split; [|auto]. rewrite <- KB. apply lookup_some_in in Lt. apply (in_map fst) in Lt. exact Lt.
Qed.

(* ------------------------------------------------------------------ *)
(* Transforms back and forth                                           *)

Lemma acts_scal n K a z : length a = n -> acts n K (map (fun v => v * z)%C a) = map (fun v => v * z)%C (acts n K a).
Proof.
  intros L. unfold acts. rewrite map_map. apply map_ext. intros i. rewrite <- total_scal_r. apply total_ext.
  intros j Hj. rewrite (nth_indep _ (RtoC 0) (RtoC 0 * z)%C) by (rewrite map_length; lia).
  rewrite (map_nth (fun v => v * z)%C). ring.
Qed.

Lemma post_positive g ell n x kr low ee l t : sbt_init g ell n x kr low 0 ee l = Ok t ->
  (forall r, In r x -> 0 < r) -> length (s_post t) = length x /\ forall r, In r (s_post t) -> 0 < r.
Proof.
  intros H P. destruct (sbt_init_plain _ _ _ _ _ _ _ _ _ H) as (_ & _ & _ & _ & _ & PO & HH).
  pose proof (hankel_new_inv _ _ _ _ _ _ _ _ _ HH) as I. pose proof (post_length _ _ _ _ _ _ _ _ _ I) as PL.
  rewrite PO. split; [exact PL|]. intros r Hr. apply (In_nth _ _ 0) in Hr as (j & Hj & <-). rewrite PL in Hj.
  rewrite (post_nth _ _ _ _ _ _ _ _ _ _ I) by exact Hj.
  apply Rdiv_lt_0_compat; [apply Rmult_lt_0_compat; [apply (h_pivpos _ _ _ _ _ _ _ _ _ I)|apply exp_pos]|].
  apply P, nth_In. lia.
Qed.

(** Backward on the given points and forward on the points returned. *)
Lemma pole_back g ell x kr low ee l t t' k a : real_gamma g ->
  sbt_init g ell 0 x kr low 0 ee l = Ok t -> sbt_init g ell 0 (s_post t) kr low 0 ee l = Ok t' ->
  (3 <= length x)%nat -> (forall r, In r x -> 0 < r) -> 0 < kr -> mid_kept x kr low ->
  an_array k -> length a = length x ->
  exists b, snd (multipoles t (DNum (-1)) k a) = Ok (s_post t, b) /\ length b = length x
    /\ forall k', an_array k' -> snd (multipoles t' (DNum 1) k' b) = Ok (x, a).
Proof.
  intros G H H' N3 P HK MK AK LA.
  destruct (post_positive _ _ _ _ _ _ _ _ _ H P) as [LY PY].
  destruct (transform_matrix _ _ _ _ _ _ _ _ _ H N3 P) as [K HKt].
  destruct (transform_matrix _ _ _ _ _ _ _ _ _ H' ltac:(lia) PY) as [K' HKt'].
  destruct (sbt_init_plain _ _ _ _ _ _ _ _ _ H) as (DG & _).
  destruct (sbt_init_plain _ _ _ _ _ _ _ _ _ H') as (DG' & _).
  assert (E1 : s_post t = map (Rmult 1) (s_post t)).
  { rewrite (map_ext (Rmult 1) (fun v => v)) by (intros; apply Rmult_1_l). now rewrite map_id. }
  destruct (transform_back _ _ _ _ _ _ _ _ _ _ _ _ _ _ G H H' N3 P HK MK Rlt_0_1 E1) as [Q BK].
  destruct (py_prefactors ell 1) as (f & b & _ & F1 & _ & F2 & FF & _).
  exists (map (fun v => v * b)%C (acts (length x) K a)).
  assert (LAC : length (acts (length x) K a) = length x) by apply acts_length.
  split; [|split; [now rewrite map_length|]].
  - unfold multipoles. rewrite DG, F2, (HKt k a AK LA). reflexivity.
  - intros k' AK'. unfold multipoles. rewrite DG', F1.
    rewrite (HKt' k' _ AK') by (rewrite map_length; congruence). cbn [fst snd bind].
    rewrite acts_scal by congruence.
    assert (E2 : acts (length (s_post t)) K' (acts (length x) K a) = map (fun v => RtoC ((2 * PI) ^ 3 * 1 ^ 3) * v)%C a).
    { specialize (BK k a (acts (length x) K a) AK LA ltac:(now rewrite (HKt k a AK LA))).
      rewrite (HKt' ComplexArr _ (or_intror eq_refl)) in BK by congruence. cbn [snd] in BK. now injection BK as BK. }
    rewrite E2, Q. do 2 f_equal.
    + rewrite (map_ext (fun r => r / 1) (fun v => v)) by (intros; field). now rewrite map_id.
    + rewrite !map_map. rewrite <- (map_id a) at 2. apply map_ext. intros v.
      transitivity (v * (f * b) * RtoC ((2 * PI) ^ 3 * 1 ^ 3))%C; [ring|]. rewrite FF.
      transitivity (v * RtoC (/ (2 * PI) ^ (3 * 1) * ((2 * PI) ^ 3 * 1 ^ 3)))%C; [rewrite (RtoC_mult (/ (2 * PI) ^ (3 * 1))); ring|].
      pose proof PI_RGT_0. replace (/ (2 * PI) ^ (3 * 1) * ((2 * PI) ^ 3 * 1 ^ 3)) with 1; [apply Cmult_1_r|].
      cbn [Nat.mul Nat.add pow]. field. lra.
Qed.

(** Powers of the imaginary unit. *)
Lemma Cpown_Ci n : (Nat.even n = true -> snd (Cpown Ci n) = 0) /\ (Nat.even n = false -> fst (Cpown Ci n) = 0).
Proof.
  induction n as [|n [I1 I2]]; [cbn; split; [reflexivity|discriminate]|].
  cbn [Cpown]. rewrite Nat.even_succ, <- Nat.negb_even. set (c := Cpown Ci n) in *. unfold Cmult, Ci; cbn [fst snd].
  split; intros E; destruct (Nat.even n) eqn:En; cbn [negb] in E; try discriminate;
    [rewrite I2 by reflexivity|rewrite I1 by reflexivity]; ring.
Qed.

Lemma Cinv_parts z : (snd z = 0 -> snd (/ z)%C = 0) /\ (fst z = 0 -> fst (/ z)%C = 0).
Proof. unfold Cinv. cbn [fst snd]. split; intros ->; unfold Rdiv; ring. Qed.

Lemma even_abs z : Nat.even (Z.to_nat (Z.abs z)) = Z.even z.
Proof.
  destruct (Z.even z) eqn:E.
  - apply Z.even_spec in E as [k ->]. apply Nat.even_spec. exists (Z.to_nat (Z.abs k)). lia.
  - apply not_true_is_false. intros X. apply Nat.even_spec in X as [k X].
    assert (Z.even z = true); [|congruence]. apply Z.even_spec.
    destruct (Z.abs_eq_or_opp z); [exists (Z.of_nat k)|exists (- Z.of_nat k)%Z]; lia.
Qed.

Lemma Cpowz_Ci l : (Z.even l = true -> snd (Cpowz Ci l) = 0) /\ (Z.even l = false -> fst (Cpowz Ci l) = 0).
Proof.
  unfold Cpowz. destruct (Z.leb_spec 0 l) as [H|H].
  - rewrite <- even_abs. replace (Z.abs l) with l by lia. apply Cpown_Ci.
  - rewrite <- even_abs. replace (Z.abs l) with (- l)%Z by lia.
    destruct (Cinv_parts (Cpown Ci (Z.to_nat (- l)))) as [C1 C2].
    destruct (Cpown_Ci (Z.to_nat (- l))) as [P1 P2]. split; intros E; auto.
Qed.

(** Samples of a real multipole are real for even degrees and imaginary for
    odd ones. *)
Lemma pole_parity g ell x kr low ee l t k a y b : real_gamma g ->
  sbt_init g ell 0 x kr low 0 ee l = Ok t -> (3 <= length x)%nat -> (forall r, In r x -> 0 < r) ->
  an_array k -> length a = length x -> reals a ->
  snd (multipoles t (DNum (-1)) k a) = Ok (y, b) ->
  (Z.even ell = true -> reals b) /\ (Z.even ell = false -> forall z, In z b -> fst z = 0).
Proof.
  intros G H N3 P AK LA RA HB.
  destruct (sbt_init_plain _ _ _ _ _ _ _ _ _ H) as (DG & HX & _ & _ & PRE & _ & HH).
  unfold multipoles in HB. rewrite DG in HB.
  change (py_prefactor ell 1 (DNum (-1))) with (Ok (RtoC (/ (2 * PI) ^ (3 * 1)) * Cpowz Ci ell)%C) in HB.
  rewrite in_place_plain in HB by (try assumption; now rewrite PRE). rewrite PRE, weigh_pos in HB by exact P.
  cbn [bind snd] in HB. change (map _ (seq 0 (length x))) with (weighed x a) in HB.
  assert (LW : length (weighed x a) = length x) by (unfold weighed; now rewrite map_length, seq_length).
  destruct (finish_plain _ _ _ _ _ _ _ _ _ (weighed x a) H N3 LW) as (B & HBB & LB & F).
  rewrite F in HB. cbn [bind fst snd] in HB. injection HB as <- <-.
  assert (RW : reals (weighed x a)).
  { intros z Hz. apply in_map_iff in Hz as (j & <- & Hj). apply in_seq in Hj.
    assert (snd (nth j a (RtoC 0)) = 0) by (apply RA, nth_In; lia).
    unfold Cmult, RtoC in *. cbn [fst snd]. rewrite H0. ring. }
  destruct (fft_real _ _ _ _ _ _ _ _ _ _ _ HH G HBB (fun _ => RW)) as [RB _].
  assert (S : forall z, In z (map (fun j => nth j B (RtoC 0) * RtoC (Rpower (2 * PI / nth j (s_post t) 0) (3 / 2)))%C
      (seq 0 (length x))) -> snd z = 0).
  { intros z Hz. apply in_map_iff in Hz as (j & <- & Hj). apply in_seq in Hj.
    assert (snd (nth j B (RtoC 0)) = 0) by (apply RB, nth_In; lia).
    unfold Cmult, RtoC in *. cbn [fst snd]. rewrite H0. ring. }
  destruct (Cpowz_Ci ell) as [C1 C2].
  split; intros E z Hz; apply in_map_iff in Hz as (v & <- & Hv); apply S in Hv;
    unfold Cmult, RtoC; cbn [fst snd]; rewrite Hv, ?C1, ?C2 by exact E; ring.
Qed.

(* ------------------------------------------------------------------ *)
(* C113: a window of ones                                              *)

Definition unit_window {A} (mono : list Z) (f : formulae) (value : R -> nat -> A) (rQ : mdict (list R)) (Q : mdict A) : Prop :=
  forall q rq, lookup rQ q = Ok rq -> In q (f_Q f) ->
    lookup Q q = Ok (value (if meq q mono then 1 else 0) (length rq)).

Lemma reals_back b : reals b -> map RtoC (map fst b) = b.
Proof.
  intros H. rewrite map_map. rewrite <- (map_id b) at 2. apply map_ext_in. intros z Hz.
  specialize (H z Hz). destruct z as [u v]. cbn in *. now subst.
Qed.

Lemma reals_snd a : reals a -> map snd a = repeat 0 (length a).
Proof.
  intros H. induction a as [|z a IH]; [reflexivity|]. cbn [map length repeat]. f_equal.
  - apply H. now left.
  - apply IH. intros v Hv. apply H. now right.
Qed.

Lemma nth_fst (a : list C) j : nth j (map fst a) 0 = fst (nth j a (RtoC 0)).
Proof. exact (map_nth fst a (RtoC 0) j). Qed.

Section Power.
Variable spl1 : nat -> bool -> list R -> list R -> res (R -> R).

(** What the statements of this part share: a convolution made for a window of
    ones without extrapolation or common separations, and its samples of one
    multipole, whose formula is that of the window's monopole. *)
Definition plain_case g raw f ws wm rQ Q k_in k_out p s w (P : list (mlike * samples (list C))) mono m l km k a : Prop :=
  build_formulae raw = Ok f /\ base_init f ws wm = Ok (rQ, Q) /\
  powspec_init g f ws wm k_in k_out None p s = Ok w /\ p_extrap p = 0%Z /\ real_gamma g /\ 0 < p_pivot p /\
  unit_window mono f (@repeat R) rQ Q /\ In m (f_poles f) /\ unit_formula mono f m /\ index0 m = Ok l /\
  (exists ki, input_points f k_in = Ok ki /\ zlookup ki (ZPole m) = Ok km) /\
  (3 <= length km)%nat /\ (forall r, In r km -> 0 < r) /\ mid_kept km (p_pivot p) (p_low p) /\
  raw_lookup P (ZPole m) = Ok (k, a) /\ an_array k /\ reals a /\ length a = length km.

Lemma plain_parts g raw f ws wm rQ Q k_in k_out p s w P mono m l km k a out : const1 spl1 -> exact1 spl1 ->
  plain_case g raw f ws wm rQ Q k_in k_out p s w P mono m l km k a ->
  powspec_convolve spl1 w P = Ok out ->
  w_orders w = s /\ (forall k', k_out = Some k' -> w_kout w = k') /\
  exists t t' b xi,
    sbt_init g l 0 km (p_pivot p) (p_low p) 0 (p_exp p) (p_layer p) = Ok t /\
    sbt_init g l 0 (s_post t) (p_pivot p) (p_low p) 0 (p_exp p) (p_layer p) = Ok t' /\
    snd (multipoles t (DNum (-1)) k a) = Ok (s_post t, b) /\
    xi_conv spl1 w P = Ok xi /\ lookup xi m = Ok (map fst b) /\
    lookup (w_forth w) m = Ok t' /\ lookup (w_back w) m = Ok t /\
    (v <- (kp <- snd (multipoles t' (DNum 1) FloatArr (map RtoC (map fst b))) ;;
           read_out spl1 (snd s) (fst kp) (snd kp) (w_kout w)) ;; Ok v) = lookup out m /\
    exists v, lookup out m = Ok v.
Proof.
  intros C1 X1 (B & BI & W & EX & G & HK & U & Hm & UF & Il & (ki & IP & Lk) & N3 & PK & MK & LP & AK & RA & LA) HO.
  unfold powspec_init in W. rewrite BI in W. cbn [bind fst snd] in W. rewrite IP in W. cbn [bind] in W.
  apply bind_ok in W as (u & _ & W).
  destruct (fourier_init_inv _ _ _ _ _ _ _ _ _ _ _ _ _ _ B BI W)
    as (Ef & ErQ & EQ & Es & Eo & Ek & Eor & KO & BK & FO).
  destruct (formulae_requirements raw f B) as (Np & _ & NZ & _).
  split; [exact Eo|]. split; [exact KO|].
  destruct (FO m Hm) as (r & t' & Lr & Ht' & Lt' & FB). destruct (FB eq_refl) as (t & HmZ & Lt & ->).
  destruct (BK m HmZ) as (km' & t0 & Ekm & Ht & Lt0 & Lin). rewrite Lk in Ekm. injection Ekm as <-.
  rewrite Lt in Lt0. injection Lt0 as <-.
  unfold new_single in Ht, Ht'. rewrite Il in Ht, Ht'. cbn [bind] in Ht, Ht'. rewrite EX in Ht, Ht'.
  destruct (pole_back _ _ _ _ _ _ _ _ _ k a G Ht Ht' N3 PK HK MK AK LA) as (b & Hb & Lb & _).
  unfold powspec_convolve in HO. apply bind_ok in HO as (xi & Hxi & HO).
  exists t, t', b, xi. split; [exact Ht|]. split; [exact Ht'|]. split; [exact Hb|]. split; [exact Hxi|].
  assert (EXI : lookup xi m = Ok (map fst b)).
  { unfold xi_conv in Hxi. apply bind_ok in Hxi as (x0 & Hx & Hc).
    unfold to_xi in Hx. rewrite Ef in Hx. destruct (on_keys_inv _ _ _ NZ Hx) as [_ V].
    destruct (V m HmZ) as (b' & Eb & Lb'). rewrite Lt, LP in Eb. cbn [bind fst snd] in Eb.
    rewrite Hb in Eb. cbn [bind snd] in Eb. injection Eb as <-.
    rewrite <- Ef in B, Hm, UF, U.
    assert (LX : lookup (reals_of x0) m = Ok (map fst b)).
    { transitivity (a <- lookup x0 m ;; Ok (map fst a)); [exact (map_vals_lookup (map fst) x0 m)|]. now rewrite Lb'. }
    destruct (convolve2_unit spl1 raw (w_conv w) (reals_of x0) xi mono m (s_post t) (map fst b) B C1 Hm UF) as (ro & fz & Lro & _ & _ & HX); try assumption.
    - rewrite ErQ, EQ. exact U.
    - apply (HX X1). rewrite Lr in Lro. now injection Lro. }
  split; [exact EXI|]. split; [exact Lt'|]. split; [exact Lt|].
  rewrite Ef in HO. destruct (on_keys_inv _ _ _ Np HO) as [_ V]. destruct (V m Hm) as (v & Ev & Lv).
  rewrite Lt', EXI in Ev. cbn [bind] in Ev. rewrite Eo in Ev. rewrite Ev, Lv. split; [reflexivity|eauto].
Qed.

(** For even degrees the samples come back, read at the output points by the
    spline through them; at the input points themselves they are unchanged. *)
Theorem powspec_unit g raw f ws wm rQ Q k_in k_out p s w P mono m l km k a out : const1 spl1 -> exact1 spl1 ->
  plain_case g raw f ws wm rQ Q k_in k_out p s w P mono m l km k a -> Z.even l = true ->
  powspec_convolve spl1 w P = Ok out ->
  exists h, spl1 (snd s) false km (map fst a) = Ok h /\
    lookup out m = Ok (map (fun r => RtoC (h r)) (w_kout w)) /\
    (k_out = Some km -> lookup out m = Ok a).
Proof.
  intros C1 X1 PC EV HO. destruct (plain_parts _ _ _ _ _ _ _ _ _ _ _ _ _ _ _ _ _ _ _ _ C1 X1 PC HO)
    as (Eo & KO & t & t' & b & xi & Ht & Ht' & Hb & _ & _ & _ & _ & E & (v & Lv)).
  destruct PC as (B & BI & W & EX & G & HK & U & Hm & UF & Il & IK & N3 & PK & MK & LP & AK & RA & LA).
  destruct (pole_parity _ _ _ _ _ _ _ _ _ _ _ _ G Ht N3 PK AK LA RA Hb) as [PE _].
  destruct (pole_back _ _ _ _ _ _ _ _ _ k a G Ht Ht' N3 PK HK MK AK LA) as (b' & Hb' & _ & RT).
  rewrite Hb in Hb'. injection Hb' as <-. rewrite (reals_back b (PE EV)) in E.
  rewrite (RT FloatArr (or_introl eq_refl)) in E. cbn [bind fst snd] in E. unfold read_out in E.
  rewrite Lv in E. rewrite Lv.
  apply bind_ok in E as (v' & E & Ev). injection Ev as ->.
  apply bind_ok in E as (fr & Efr & E). apply bind_ok in E as (fi & Efi & E). injection E as <-.
  exists fr. split; [exact Efr|]. rewrite (reals_snd a RA), LA in Efi. pose proof (C1 _ _ _ _ _ Efi) as Z0.
  assert (EM : map (fun r => (fr r, fi r)) (w_kout w) = map (fun r => RtoC (fr r)) (w_kout w)).
  { apply map_ext. intros r. now rewrite Z0. }
  rewrite EM. split; [reflexivity|]. intros Ek. rewrite (KO _ Ek). destruct (X1 _ _ _ _ _ Efr) as [_ XN].
  f_equal. apply nth_ext with (RtoC (fr 0)) (RtoC 0); [now rewrite map_length|]. rewrite map_length. intros j Hj.
  rewrite (map_nth (fun r => RtoC (fr r))), XN by exact Hj.
  rewrite nth_fst. assert (Hj' : (j < length a)%nat) by (rewrite LA; exact Hj).
  pose proof (RA (nth j a (RtoC 0)) (nth_In a _ Hj')) as S0. destruct (nth j a (RtoC 0)) as [u' v'].
  cbn in *. now subst.
Qed.

(** For odd degrees the correlation function is imaginary, and its real part,
    all that the configuration-space convolution keeps, is zero. *)
Theorem powspec_odd g raw f ws wm rQ Q k_in k_out p s w P mono m l km k a out : const1 spl1 -> exact1 spl1 ->
  plain_case g raw f ws wm rQ Q k_in k_out p s w P mono m l km k a -> Z.even l = false ->
  powspec_convolve spl1 w P = Ok out -> lookup out m = Ok (map (fun _ => RtoC 0) (w_kout w)).
Proof.
  intros C1 X1 PC EV HO. destruct (plain_parts _ _ _ _ _ _ _ _ _ _ _ _ _ _ _ _ _ _ _ _ C1 X1 PC HO)
    as (Eo & KO & t & t' & b & xi & Ht & Ht' & Hb & _ & _ & _ & _ & E & (v & Lv)).
  destruct PC as (B & BI & W & EX & G & HK & U & Hm & UF & Il & IK & N3 & PK & MK & LP & AK & RA & LA).
  destruct (pole_parity _ _ _ _ _ _ _ _ _ _ _ _ G Ht N3 PK AK LA RA Hb) as [_ PE]. specialize (PE EV).
  destruct (pole_back _ _ _ _ _ _ _ _ _ k a G Ht Ht' N3 PK HK MK AK LA) as (b' & Hb' & Lb & _).
  rewrite Hb in Hb'. injection Hb' as <-.
  assert (EB : map RtoC (map fst b) = map (fun v => v * RtoC 0)%C b).
  { rewrite map_map. apply map_ext_in. intros z Hz. rewrite (PE z Hz). unfold Cmult, RtoC. cbn [fst snd].
    f_equal; ring. }
  destruct (post_positive _ _ _ _ _ _ _ _ _ Ht PK) as [LY PY].
  destruct (transform_matrix _ _ _ _ _ _ _ _ _ Ht' ltac:(lia) PY) as [K' HKt'].
  destruct (sbt_init_plain _ _ _ _ _ _ _ _ _ Ht') as (DG' & _).
  destruct (py_prefactors l 1) as (fc & bc & _ & F1 & _).
  rewrite EB in E. unfold multipoles in E. rewrite DG', F1 in E.
  rewrite (HKt' FloatArr _ (or_introl eq_refl)) in E by (rewrite map_length; congruence).
  cbn [fst snd bind] in E. rewrite acts_scal in E by congruence. set (u := acts (length (s_post t)) K' b) in E.
  assert (LU : length (s_post t') = length u).
  { unfold u. rewrite acts_length. apply (post_positive _ _ _ _ _ _ _ _ _ Ht' PY). }
  assert (EU : map (fun z => z * fc)%C (map (fun v => v * RtoC 0)%C u) = repeat (RtoC 0) (length u)).
  { rewrite map_map. clear. induction u as [|z u IH]; [reflexivity|]. cbn [map length repeat]. f_equal; [ring|exact IH]. }
  rewrite EU in E. rewrite Lv in E. rewrite Lv. apply bind_ok in E as (v' & E & Ev). injection Ev as ->.
  unfold read_out in E. apply bind_ok in E as (fr & Efr & E). apply bind_ok in E as (fi & Efi & E). injection E as <-.
  assert (ER : map fst (repeat (RtoC 0) (length u)) = repeat 0 (length (s_post t'))).
  { rewrite LU. clear. induction (length u) as [|n IH]; [reflexivity|]. cbn [repeat map]. now f_equal. }
  assert (EI : map snd (repeat (RtoC 0) (length u)) = repeat 0 (length (s_post t'))).
  { rewrite LU. clear. induction (length u) as [|n IH]; [reflexivity|]. cbn [repeat map]. now f_equal. }
  rewrite ER in Efr. rewrite EI in Efi. f_equal. apply map_ext. intros r.
  now rewrite (C1 _ _ _ _ _ Efr), (C1 _ _ _ _ _ Efi).
Qed.

(* ------------------------------------------------------------------ *)
(* C114: the caller's samples and the returned correlation functions   *)

Lemma sbt_init_fields g ell n x kr low ext ee l t : sbt_init g ell n x kr low ext ee l = Ok t ->
  s_degree t = ell /\ s_extrap t = ext /\ s_layer t = l.
Proof.
  unfold sbt_init. destruct (negb _); [discriminate|]. intros H. apply bind_ok in H as (((nat & e) & q) & _ & H).
  apply bind_ok in H as (h & _ & H). injection H as <-. auto.
Qed.

Lemma multipoles_after t d k a : (exists f, py_prefactor (s_degree t) 1 d = Ok f) ->
  fst (multipoles t d k a) = fst (transform t k a).
Proof. intros [f E]. unfold multipoles. rewrite E. now destruct (transform t k a). Qed.

Lemma has_factor ell d : d = DNum 1 \/ d = DNum (-1) -> exists f, py_prefactor ell 1 d = Ok f.
Proof.
  destruct (py_prefactors ell 1) as (f & b & _ & F1 & _ & F2 & _). intros [->| ->]; eauto.
Qed.

Lemma on_keys_all {B} (g : list Z -> res B) (v : list Z -> B -> Prop) ks : NoDup ks ->
  (forall k, In k ks -> exists b, g k = Ok b /\ v k b) ->
  exists d, on_keys g ks = Ok d /\ map fst d = ks /\ forall k, In k ks -> exists b, lookup d k = Ok b /\ v k b.
Proof.
  intros N H. assert (E : exists l, sequence (map (fun k => b <- g k ;; Ok (k, b)) ks) = Ok l).
  { clear N. induction ks as [|k ks IH]; [eexists; reflexivity|]. destruct (H k (or_introl eq_refl)) as (b & E & _).
    destruct IH as [l El]; [intros; apply H; now right|]. cbn [map sequence]. rewrite E. cbn [bind]. rewrite El.
    cbn [bind]. eauto. }
  destruct E as [l E]. assert (D : exists d, on_keys g ks = Ok d) by (unfold on_keys; rewrite E; cbn [bind]; eauto).
  destruct D as [d D]. exists d. split; [exact D|]. destruct (on_keys_inv g ks d N D) as [K V]. split; [exact K|].
  intros k Hk. destruct (V k Hk) as (b & E1 & L). destruct (H k Hk) as (b' & E2 & Vb). rewrite E1 in E2.
  injection E2 as <-. eauto.
Qed.

Lemma convolve2_out raw c xi out : build_formulae raw = Ok (c_f c) -> convolve2 spl1 c xi = Ok out ->
  forall m, In m (f_poles (c_f c)) -> exists x, lookup out m = Ok x.
Proof.
  intros B H m Hm. destruct (formulae_requirements raw _ B) as (Np & _). unfold convolve2 in H.
  destruct (on_keys_inv _ _ _ Np H) as [_ V]. destruct (V m Hm) as (b & _ & L). eauto.
Qed.

(** With extrapolation at the default layer nothing is changed. *)
Theorem powspec_keeps g raw f ws wm k_in k_out rc p s w (P : list (mlike * samples (list C))) :
  build_formulae raw = Ok f -> powspec_init g f ws wm k_in k_out rc p s = Ok w ->
  p_extrap p <> 0%Z -> p_layer p = Outer ->
  (forall z k a, In z (f_Z f) -> raw_lookup P (ZPole z) = Ok (k, a) -> powspec_after w P z = Ok a)
  /\ (forall xi, xi_conv spl1 w P = Ok xi -> exists ys, powspec_xi spl1 w P = Ok ys
       /\ forall m, In m (f_poles f) -> exists x, lookup xi m = Ok x /\ lookup ys m = Ok (map RtoC x)).
Proof.
  intros B W EX LY. unfold powspec_init in W. apply bind_ok in W as ((rQ & Q) & BI & W).
  apply bind_ok in W as (ki & _ & W). apply bind_ok in W as (u & _ & W). cbn [fst snd] in W.
  destruct (fourier_init_inv _ _ _ _ _ _ _ _ _ _ _ _ _ _ B BI W) as (Ef & _ & _ & _ & _ & _ & _ & _ & BK & FO).
  destruct (formulae_requirements raw f B) as (Np & _).
  assert (KE : forall m x t k a, new_single g p m x = Ok t -> fst (transform t k a) = Ok a).
  { intros m x t k a H. unfold new_single in H. apply bind_ok in H as (l & _ & H). apply sbt_init_fields in H as (_ & E1 & E2).
    apply transform_keeps. intros [[H|H] _]; congruence. }
  split.
  - intros z k a Hz LP. destruct (BK z Hz) as (x & t & _ & Ht & Lt & _). unfold powspec_after.
    rewrite Lt, LP. cbn [bind fst snd]. rewrite multipoles_after by (apply has_factor; now right). eapply KE, Ht.
  - intros xi Hxi. assert (VX : forall m, In m (f_poles f) -> exists x, lookup xi m = Ok x).
    { unfold xi_conv in Hxi. apply bind_ok in Hxi as (x0 & _ & Hc). rewrite <- Ef in B |- *. eapply convolve2_out; eassumption. }
    unfold powspec_xi. rewrite Hxi, Ef. cbn [bind].
    destruct (on_keys_all (fun m => t <- lookup (w_forth w) m ;; x <- lookup xi m ;; fst (multipoles t (DNum 1) FloatArr (map RtoC x)))
       (fun m b => exists x, lookup xi m = Ok x /\ b = map RtoC x) (f_poles f) Np) as (d & E & _ & V).
    + intros m Hm. destruct (VX m Hm) as [x Ex]. destruct (FO m Hm) as (r & t & _ & Ht & Lt & _).
      exists (map RtoC x). split; [|eauto]. rewrite Lt, Ex. cbn [bind].
      rewrite multipoles_after by (apply has_factor; now left). eapply KE, Ht.
    + exists d. split; [exact E|]. intros m Hm. destruct (V m Hm) as (b & L & x & Ex & ->). eauto.
Qed.

Definition times_power (x : list R) (a a' : list C) : Prop :=
  length a' = length a /\ forall j, (j < length a)%nat ->
    nth j a' (RtoC 0) = (nth j a (RtoC 0) * RtoC (Rpower (nth j x 0) (3 / 2)))%C.

(** Without extrapolation the caller's arrays come back multiplied by the
    wavenumbers to the power 3/2, and the returned correlation functions are
    multiplied by the separations to the power 3/2. *)
Theorem powspec_scales g raw f ws wm k_in k_out rc p s w (P : list (mlike * samples (list C))) ki :
  build_formulae raw = Ok f -> powspec_init g f ws wm k_in k_out rc p s = Ok w ->
  p_extrap p = 0%Z -> input_points f k_in = Ok ki ->
  (forall z kz k a, In z (f_Z f) -> zlookup ki (ZPole z) = Ok kz -> (forall r, In r kz -> 0 < r) ->
     raw_lookup P (ZPole z) = Ok (k, a) -> an_array k -> length a = length kz ->
     exists a', powspec_after w P z = Ok a' /\ times_power kz a a')
  /\ (forall xi ys m r x, xi_conv spl1 w P = Ok xi -> powspec_xi spl1 w P = Ok ys -> In m (f_poles f) ->
       lookup (c_rout (w_conv w)) m = Ok r -> (forall q, In q r -> 0 < q) ->
       lookup xi m = Ok x -> length x = length r ->
       exists y, lookup ys m = Ok y /\ times_power r (map RtoC x) y).
Proof.
  intros B W EX IP. unfold powspec_init in W. apply bind_ok in W as ((rQ & Q) & BI & W).
  rewrite IP in W. cbn [bind fst snd] in W. apply bind_ok in W as (u & _ & W).
  destruct (fourier_init_inv _ _ _ _ _ _ _ _ _ _ _ _ _ _ B BI W) as (Ef & _ & _ & _ & _ & _ & _ & _ & BK & FO).
  destruct (formulae_requirements raw f B) as (Np & _).
  assert (KE : forall m x t k a, new_single g p m x = Ok t -> an_array k -> length a = length x -> (forall r, In r x -> 0 < r) ->
     exists a', fst (transform t k a) = Ok a' /\ times_power x a a').
  { intros m x t k a H AK LA PX. unfold new_single in H. apply bind_ok in H as (l & _ & H). rewrite EX in H.
    destruct (sbt_init_plain _ _ _ _ _ _ _ _ _ H) as (_ & E0 & _ & _ & PRE & _).
    destruct (transform_scales t k a) as (a' & E & L & V).
    - split; [now right|exact AK].
    - now rewrite PRE.
    - now rewrite PRE.
    - exists a'. split; [exact E|]. split; [exact L|]. now rewrite PRE in V. }
  split.
  - intros z kz k a Hz Lz PZ LP AK LA. destruct (BK z Hz) as (x & t & Lx & Ht & Lt & _). rewrite Lz in Lx. injection Lx as <-.
    unfold powspec_after. rewrite Lt, LP. cbn [bind fst snd]. rewrite multipoles_after by (apply has_factor; now right).
    eapply KE; eassumption.
  - intros xi ys m r x Hxi Hys Hm Lr PR Lx LX. unfold powspec_xi in Hys. rewrite Hxi, Ef in Hys. cbn [bind] in Hys.
    destruct (on_keys_inv _ _ _ Np Hys) as [_ V]. destruct (V m Hm) as (y & Ey & Ly).
    destruct (FO m Hm) as (r' & t & Lr' & Ht & Lt & _). rewrite Lr in Lr'. injection Lr' as <-.
    rewrite Lt, Lx in Ey. cbn [bind] in Ey. rewrite multipoles_after in Ey by (apply has_factor; now left).
    destruct (KE m r t FloatArr (map RtoC x) Ht (or_introl eq_refl) ltac:(now rewrite map_length) PR) as (a' & E & T).
    rewrite E in Ey. injection Ey as <-. eauto.
Qed.

(** So the same samples convolved again with a window of ones give another
    power spectrum. *)
Theorem powspec_again g raw f ws wm rQ Q k_in p s w (P P' : list (mlike * samples (list C))) mono m l km k a a' out out' : const1 spl1 -> exact1 spl1 ->
  plain_case g raw f ws wm rQ Q k_in (Some km) p s w P mono m l km k a -> Z.even l = true ->
  powspec_after w P m = Ok a' -> raw_lookup P' (ZPole m) = Ok (k, a') ->
  powspec_convolve spl1 w P = Ok out -> powspec_convolve spl1 w P' = Ok out' ->
  lookup out m = Ok a /\ lookup out' m = Ok a' /\ times_power km a a'.
Proof.
  intros C1 X1 PC EV AF LP' HO HO'.
  destruct (powspec_unit _ _ _ _ _ _ _ _ _ _ _ _ _ _ _ _ _ _ _ _ C1 X1 PC EV HO) as (h & _ & _ & E).
  split; [now apply E|].
  pose proof PC as (B & BI & W & EX & G & HK & U & Hm & UF & Il & (ki & IP & Lk) & N3 & PK & MK & LP & AK & RA & LA).
  destruct (powspec_scales _ _ _ _ _ _ _ _ _ _ _ P _ B W EX IP) as [S _].
  destruct (plain_parts _ _ _ _ _ _ _ _ _ _ _ _ _ _ _ _ _ _ _ _ C1 X1 PC HO) as (_ & _ & t & _ & _ & _ & _ & _ & _ & _ & _ & _ & Lt & _).
  assert (HmZ : In m (f_Z f)).
  { unfold powspec_init in W. rewrite BI, IP in W. cbn [bind fst snd] in W. apply bind_ok in W as (u & _ & W).
    destruct (fourier_init_inv _ _ _ _ _ _ _ _ _ _ _ _ _ _ B BI W) as (_ & _ & _ & _ & _ & _ & _ & _ & _ & FO).
    destruct (FO m Hm) as (r & t' & _ & _ & _ & FB). now destruct (FB eq_refl) as (t0 & HmZ & _). }
  destruct (S m km k a HmZ Lk PK LP AK LA) as (a0 & EA & T). rewrite AF in EA. injection EA as <-.
  split; [|exact T]. destruct T as [L V].
  assert (RA' : reals a').
  { intros z Hz. apply (In_nth _ _ (RtoC 0)) in Hz as (j & Hj & <-). rewrite L in Hj. rewrite V by exact Hj.
    pose proof (RA _ (nth_In a (RtoC 0) Hj)) as S0. unfold Cmult, RtoC in *. cbn [fst snd]. rewrite S0. ring. }
  assert (PC' : plain_case g raw f ws wm rQ Q k_in (Some km) p s w P' mono m l km k a').
  { unfold plain_case. do 10 (split; [assumption|]). split; [exists ki; auto|]. do 5 (split; [assumption|]).
    split; [assumption|congruence]. }
  destruct (powspec_unit _ _ _ _ _ _ _ _ _ _ _ _ _ _ _ _ _ _ _ _ C1 X1 PC' EV HO') as (h' & _ & _ & E').
  now apply E'.
Qed.

(** With the default extrapolation (log-linear, to twice the size) samples that
    are zero do not convolve: the extrapolated ends are not numbers. *)
Theorem powspec_zero g raw f ws wm k_in k_out rc p s w (P : list (mlike * samples (list C))) ki z kz k n :
  build_formulae raw = Ok f -> powspec_init g f ws wm k_in k_out rc p s = Ok w ->
  p_extrap p = 4%Z -> p_layer p = Outer -> p_exp p = 2 -> input_points f k_in = Ok ki ->
  In z (f_Z f) -> zlookup ki (ZPole z) = Ok kz -> (2 <= length kz)%nat ->
  raw_lookup P (ZPole z) = Ok (k, repeat (RtoC 0) n) ->
  forall out, powspec_convolve spl1 w P <> Ok out.
Proof.
  intros B W EX LY EE IP Hz Lz NZ LP out HO. unfold powspec_init in W. apply bind_ok in W as ((rQ & Q) & BI & W).
  rewrite IP in W. cbn [bind fst snd] in W. apply bind_ok in W as (u & _ & W).
  destruct (fourier_init_inv _ _ _ _ _ _ _ _ _ _ _ _ _ _ B BI W) as (Ef & _ & _ & _ & _ & _ & _ & _ & BK & _).
  destruct (formulae_requirements raw f B) as (_ & _ & NZZ & _).
  destruct (BK z Hz) as (x & t & Lx & Ht & Lt & _). rewrite Lz in Lx. injection Lx as <-.
  unfold new_single in Ht. apply bind_ok in Ht as (l & _ & Ht). rewrite EX, LY, EE in Ht.
  destruct (outer_points _ _ _ _ _ _ _ _ _ Ht ltac:(discriminate) ltac:(lra) NZ) as ((_ & SZ & _) & SE & _).
  assert (NX : (0 < s_next t)%Z).
  { apply le_IZR in SZ || idtac. assert (Z.of_nat (length kz) < Z.of_nat (nsamp_trans (s_fbht t)))%Z; [|lia].
    apply lt_IZR. rewrite <- (INR_IZR_INZ (length kz)).
    assert (0 < INR (length kz)) by (apply lt_0_INR; lia). lra. }
  unfold powspec_convolve in HO. apply bind_ok in HO as (xi & Hxi & _). unfold xi_conv in Hxi.
  apply bind_ok in Hxi as (x0 & Hx & _). unfold to_xi in Hx. rewrite Ef in Hx.
  destruct (on_keys_inv _ _ _ NZZ Hx) as [_ V]. destruct (V z Hz) as (b & Eb & _). rewrite Lt, LP in Eb. cbn [bind fst snd] in Eb.
  apply bind_ok in Eb as (yb & Em & _). unfold multipoles in Em.
  destruct (has_factor (s_degree t) (DNum (-1)) (or_intror eq_refl)) as [fc F]. rewrite F in Em.
  unfold transform in Em. apply sbt_init_fields in Ht as (_ & E1 & E2). rewrite E1, E2 in Em. cbn [Z.eqb bind fst snd] in Em.
  apply bind_ok in Em as (r & Em & _). apply bind_ok in Em as (v & Ev & _).
  unfold perform_extrap in Ev. rewrite E1 in Ev. cbn [Z.eqb Pos.eqb] in Ev. unfold extrap_loglin in Ev.
  apply bind_ok in Ev as (v' & Ec & Ev). assert (v' = map fst (repeat (RtoC 0) n)) as ->.
  { unfold check_1d_array in Ec. destruct (_ <? 2)%nat; [discriminate|]. cbn [andb] in Ec.
    destruct (negb _); [discriminate|]. now injection Ec as <-. }
  assert (EZ : map fst (repeat (RtoC 0) n) = repeat 0 n) by (clear; induction n as [|n IH]; [reflexivity|cbn; now f_equal]).
  rewrite EZ in Ev. replace (0 <? s_next t)%Z with true in Ev by (symmetry; now apply Z.ltb_lt).
  assert (A1 : at1 (repeat 0 n) = 0) by (unfold at1; apply nth_repeat).
  rewrite A1 in Ev. destruct (Reqb 0 0) eqn:E0; [discriminate|]. apply Reqb_false in E0. congruence.
Qed.

End Power.
