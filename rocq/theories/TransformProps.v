(* Claims C37, C40, C41, C58-C60 for the Python transforms: sizes and points with
   extrapolation, what a call does to the caller's array, prefactors, the
   round trip, and double transforms. *)
From Coq Require Import String Reals ZArith List Lia Lra Bool.
From Flocq Require Import Core.Raux.
From Coquelicot Require Import Complex.
From Verif Require Import Base ArrayModel ArrayProofs Array2dModel OscilModel RSum CSum Dft
  FftlogModel FftlogProofs FftlogProps TransformModel.
Import ListNotations.
Local Open Scope R_scope.

Lemma translate_ok {A} (r : res A) a : translate r = Ok a -> r = Ok a.
Proof. destruct r as [x|[]]; cbn; congruence. Qed.

Lemma untranslated_ok {A} (r : res A) a : untranslated r = Ok a -> r = Ok a.
Proof. destruct r as [x|e]; cbn; congruence. Qed.

Lemma check_same cs ce cl cg a b : check_1d_array cs ce cl cg a = Ok b -> b = a.
Proof.
  unfold check_1d_array. destruct (_ <? _)%nat; [discriminate|].
  destruct (cs && _); [discriminate|]. destruct (ce && _); [discriminate|]. destruct (cl && _); [discriminate|].
  destruct (cg && _); [discriminate|]. destruct (cg && _); [discriminate|]. now intros [= ->].
Qed.

Lemma py_hankel_inv g mu q x kr low ext ee h : py_hankel g mu q x kr low ext ee = Ok h ->
  hankel_new g mu q x kr low ext ee = Ok h.
Proof.
  unfold py_hankel, hankel_new. intros H. apply bind_ok in H as (x' & HX & H). apply check_same in HX. subst x'.
  apply bind_ok in H as (u & HU & H). apply untranslated_ok in HU. apply translate_ok in H.
  rewrite HU. exact H.
Qed.

(** Poles of the gamma function end the process instead of raising. *)
Theorem poles_terminate g mu q x kr low ext ee :
  check_1d_array false false false true x = Ok x ->
  construct mu q = Err InvalidParameter -> py_hankel g mu q x kr low ext ee = Err Terminated.
Proof. intros HX HC. unfold py_hankel. rewrite HX. cbn [bind]. rewrite HC. reflexivity. Qed.

(* ------------------------------------------------------------------ *)
(* C37: sizes and points with extrapolation in the outer layer         *)

Lemma sbt_init_outer g ell n x kr low ext ee t :
  sbt_init g ell n x kr low ext ee Outer = Ok t -> ext <> 0%Z ->
  Nat.even (length x) = true /\ (1 <= ext <= 5)%Z /\ s_degree t = ell /\ s_extrap t = ext /\ s_layer t = Outer /\
  exists nt p, py_size (ee * INR (length x)) = Ok nt /\
    s_next t = ((nt - Z.of_nat (length x)) / 2)%Z /\ extrap_loglin x (s_next t) = Ok p /\
    hankel_new g (IZR ell + 1 / 2) (IZR n) p kr low 0 ee = Ok (s_fbht t) /\
    s_pre t = p /\ s_post t = post_slice (s_next t) (post_sampts (s_fbht t)).
Proof.
  unfold sbt_init. intros H NE. destruct (negb _) eqn:E; [discriminate|].
  apply negb_false_iff, andb_true_iff in E as [E1 E2]. apply Z.leb_le in E1, E2.
  apply bind_ok in H as (((nat & e) & p) & HP & H).
  destruct (Z.eqb_spec ext 0) as [|_]; [contradiction|].
  destruct (Nat.odd (length x)) eqn:O; [discriminate|].
  apply bind_ok in HP as (nt & HN & HP). apply bind_ok in HP as (p' & HL & HP). injection HP as <- <- <-.
  apply bind_ok in H as (h & HH & H). injection H as <-. cbn [s_degree s_extrap s_layer s_next s_fbht s_pre s_post].
  apply py_hankel_inv in HH. pose proof (hankel_new_inv _ _ _ _ _ _ _ _ _ HH) as I.
  split; [now rewrite <- Nat.negb_odd, O|]. split; [lia|]. repeat (split; [reflexivity|]).
  exists nt, p'. rewrite (h_pre _ _ _ _ _ _ _ _ _ I). auto 10.
Qed.

Lemma extrap_loglin_length x e p : extrap_loglin x (Z.of_nat e) = Ok p ->
  length p = (e + length x + e)%nat /\ (forall j, (j < length x)%nat -> nth (e + j) p 0 = nth j x 0).
Proof.
  unfold extrap_loglin. intros H. apply bind_ok in H as (x' & HX & H). apply check_same in HX. subst x'.
  destruct (_ && _); [discriminate|]. injection H as <-. split.
  - rewrite !app_length, !map_length, arange_down_length, arange_length. lia.
  - intros j Hj. rewrite nth_lar. rewrite map_length, arange_down_length, Nat2Z.id.
    destruct (Nat.ltb_spec (e + j) e); [lia|].
    replace (e + j - e)%nat with j by lia. destruct (Nat.ltb_spec (e + j) (e + length x)); [reflexivity|lia].
Qed.

Lemma py_size_eq x z : py_size x = Ok z -> cpp_size x = Ok z.
Proof. unfold py_size, cpp_size. destruct (Rltb x 0); [discriminate|]. auto. Qed.

Lemma pow2_even (N : nat) k : Z.of_nat N = (2 ^ Z.of_nat (S k))%Z -> exists m, N = (2 * m)%nat.
Proof.
  rewrite Nat2Z.inj_succ, Z.pow_succ_r by lia. intros H. exists (Z.to_nat (2 ^ Z.of_nat k)).
  assert (0 < 2 ^ Z.of_nat k)%Z by (apply Z.pow_pos_nonneg; lia). lia.
Qed.

Lemma bound_pos n z : (0 <= z)%Z -> bound n z = Nat.min (Z.to_nat z) n.
Proof. intros H. unfold bound. destruct (Z.ltb_spec z 0); [lia|]. lia. Qed.

Lemma bound_neg n z : (z < 0)%Z -> bound n z = (n - Z.to_nat (- z))%nat.
Proof. intros H. unfold bound. destruct (Z.ltb_spec z 0); [|lia]. lia. Qed.

Lemma skipn_nth_add {A} (l : list A) k i d : nth i (skipn k l) d = nth (k + i) l d.
Proof.
  revert k; induction l as [|a l IH]; intros [|k]; try reflexivity.
  - now destruct i.
  - cbn [skipn Nat.add nth]. apply IH.
Qed.

(** Trimming takes the middle part. *)
Lemma post_slice_mid {A} (l : list A) e m d : length l = (e + m + e)%nat ->
  length (post_slice (Z.of_nat e) l) = m /\
  forall j, (j < m)%nat -> nth j (post_slice (Z.of_nat e) l) d = nth (e + j) l d.
Proof.
  intros L. unfold post_slice. destruct (Z.eqb_spec (Z.of_nat e) 0) as [E|E].
  - assert (e = 0)%nat by lia. subst e. cbn [Nat.add] in *. split; [lia|]. reflexivity.
  - unfold cut. rewrite (bound_pos _ (Z.of_nat e)), bound_neg by lia. rewrite Z.opp_involutive, Nat2Z.id, L.
    replace (Nat.min e (e + m + e)) with e by lia. replace (e + m + e - e - e)%nat with m by lia. split.
    + apply firstn_length_le. rewrite skipn_length. lia.
    + intros j Hj. rewrite firstn_nth by exact Hj. apply skipn_nth_add.
Qed.

(** With an expansion factor of at least one: the size, and after trimming as
    many points as were given, paired with them as without extrapolation. *)
Theorem outer_points g ell n x kr low ext ee t :
  sbt_init g ell n x kr low ext ee Outer = Ok t -> ext <> 0%Z -> 1 <= ee -> (2 <= length x)%nat ->
  let h := s_fbht t in
  least_pow2 (Z.of_nat (nsamp_trans h)) (ee * INR (length x)) /\
  Z.of_nat (nsamp_trans h) = (s_next t + Z.of_nat (length x) + s_next t)%Z /\ (0 <= s_next t)%Z /\
  length (s_post t) = length x /\
  forall j, (j < length x)%nat ->
    nth j (s_post t) 0 * nth (length x - 1 - j) x 0 = pivot h * exp (- logres h).
Proof.
  intros H NE HE Hn h. destruct (sbt_init_outer _ _ _ _ _ _ _ _ _ H NE) as (EV & _ & _ & _ & _ & nt & p & HS & HX & HP & HH & _ & HPO).
  fold h in HH, HPO. assert (P0 : 0 < INR (length x)) by (apply lt_0_INR; lia).
  assert (Z0 : (Z.of_nat (length x) <= nt)%Z).
  { unfold py_size in HS. destruct (Rltb _ 0) eqn:E1; [discriminate|]. destruct (Reqb _ 0) eqn:E2.
    - apply Reqb_spec in E2. nra.
    - injection HS as <-. set (y := ee * INR (length x)) in *. assert (Hy : 1 < y).
      { assert (2 <= INR (length x)) by (replace 2 with (INR 2) by reflexivity; now apply le_INR). unfold y; nra. }
      pose proof ln2_pos. assert (L : 0 < ln y) by (rewrite <- ln_1; apply ln_increasing; lra).
      assert (E0 : (0 <= Zceil (ln y / ln 2))%Z).
      { apply le_IZR. apply Rle_trans with (ln y / ln 2); [|apply Zceil_ub].
        apply Rmult_le_pos; [lra|]. left. now apply Rinv_0_lt_compat. }
      destruct (Z.ltb_spec (Zceil (ln y / ln 2)) 0); [lia|]. apply le_IZR.
      rewrite <- (Z2Nat.id _ E0), IZR_pow2, <- INR_IZR_INZ. apply Rle_trans with y; [unfold y; nra|].
      apply log2_le; [lra|]. rewrite INR_IZR_INZ, Z2Nat.id by exact E0. apply Zceil_ub. }
  pose proof (cpp_size_spec _ _ (py_size_eq _ _ HS) ltac:(lia)) as LP.
  assert (EVN : (nt = s_next t + Z.of_nat (length x) + s_next t)%Z /\ (0 <= s_next t)%Z).
  { destruct LP as ((k & Hk) & _ & _). apply Nat.even_spec in EV as [m Hm]. destruct k as [|k]; [cbn in Hk; lia|].
    destruct (pow2_even (Z.to_nat nt) k) as [r Hr]; [rewrite Z2Nat.id by lia; exact Hk|].
    rewrite HX. replace (nt - Z.of_nat (length x))%Z with ((Z.of_nat r - Z.of_nat m) * 2)%Z by lia.
    rewrite Z.div_mul by lia. lia. }
  destruct EVN as [EVN EP]. set (e := Z.to_nat (s_next t)). assert (HEe : s_next t = Z.of_nat e) by lia.
  rewrite HEe in HP. destruct (extrap_loglin_length _ _ _ HP) as [LPP MID].
  pose proof (hankel_new_inv _ _ _ _ _ _ _ _ _ HH) as I. destruct (h_plain _ _ _ _ _ _ _ _ _ I eq_refl) as [NT _].
  assert (SZ : Z.of_nat (nsamp_trans h) = nt) by lia.
  split; [rewrite SZ; exact LP|]. split; [lia|]. split; [exact EP|].
  destruct (fft_pairs _ _ _ _ _ _ _ _ _ HH) as [PL PR]. rewrite LPP in PL.
  destruct (post_slice_mid (post_sampts h) e (length x) 0 PL) as [SL SN].
  rewrite HPO, HEe. split; [exact SL|]. intros j Hj. rewrite SN by exact Hj.
  rewrite <- (PR (e + j)%nat) by lia. f_equal. rewrite LPP.
  replace (e + length x + e - 1 - (e + j))%nat with (e + (length x - 1 - j))%nat by lia.
  symmetry. apply MID. lia.
Qed.

Lemma const_list {A} (l : list A) (d : A) : (forall z, In z l -> z = d) -> l = repeat d (length l).
Proof.
  induction l as [|a l IH]; intros H; [reflexivity|]. cbn [length repeat].
  rewrite (H a) by now left. f_equal. apply IH. intros z Hz. apply H. now right.
Qed.

Lemma map_repeat' {A B} (f : A -> B) a k : map f (repeat a k) = repeat (f a) k.
Proof. induction k as [|k IH]; [reflexivity|]. cbn. now rewrite IH. Qed.

(** Exactly spaced positive points pass Python's check. *)
Lemma py_check_spaced r0 d x : 0 < r0 -> (2 <= length x)%nat -> log_spaced r0 d x ->
  check_1d_array false false false true x = Ok x.
Proof.
  intros H0 Hn LS. unfold check_1d_array. destruct (Nat.ltb_spec (length x) 2); [lia|]. cbn [andb].
  assert (P : forall j, (j < length x)%nat -> 0 < nth j x 0).
  { intros j Hj. rewrite LS by exact Hj. apply Rmult_lt_0_compat; [exact H0|apply exp_pos]. }
  assert (EP : epsign_ok true x = true).
  { unfold epsign_ok, at0, at1, atm1, atm2. apply andb_true_iff. split; apply Rltb_spec;
      apply Rmult_lt_0_compat; apply P; lia. }
  rewrite EP. cbn [negb].
  assert (RA : forall z, In z (ratios x) -> z = exp d).
  { intros z Hz. apply (In_nth _ _ 0) in Hz as (j & Hj & <-). rewrite ratios_length in Hj.
    rewrite ratios_nth by lia. rewrite !LS by lia.
    rewrite S_INR, Rmult_plus_distr_r, exp_plus, Rmult_1_l. pose proof (exp_pos (INR j * d)). field. lra. }
  replace (existsb (fun r => Rleb r 0) (ratios x)) with false.
  2:{ symmetry. apply not_true_is_false. intros E. apply existsb_exists in E as (z & Hz & E). apply Rleb_spec in E.
      rewrite (RA z Hz) in E. pose proof (exp_pos d). lra. }
  replace (existsb (fun r => Reqb r 0) x) with false.
  2:{ symmetry. apply not_true_is_false. intros E. apply existsb_exists in E as (z & Hz & E). apply Reqb_spec in E.
      apply (In_nth _ _ 0) in Hz as (j & Hj & <-). specialize (P j Hj). lra. }
  cbn [orb]. rewrite (const_list (ratios x) (exp d) RA), map_repeat', ln_exp, ratios_length.
  set (k := (length x - 1)%nat). assert (K : INR k <> 0) by (apply not_0_INR; unfold k; lia).
  assert (M : rmean (repeat d k) = d).
  { unfold rmean. rewrite repeat_length.
    assert (S : rsum (repeat d k) = INR k * d).
    { clear. induction k as [|k IH]; [cbn; ring|]. cbn [repeat]. rewrite rsum_cons, IH, S_INR. ring. }
    rewrite S. field. exact K. }
  rewrite M. replace (allclose (repeat d k) d) with true; [reflexivity|].
  symmetry. apply forallb_forall. intros w Hw. apply repeat_spec in Hw. subst w. apply Rleb_spec.
  replace (d - d) with 0 by lra. rewrite Rabs_R0. pose proof (Rabs_pos d). lra.
Qed.

Lemma py_hankel_ok g mu q r0 d x kr low ee : 0 < mu + 1 + q -> 0 < mu + 1 - q ->
  0 < r0 -> 0 < d -> (2 <= length x)%nat -> log_spaced r0 d x -> 0 < kr ->
  exists h, py_hankel g mu q x kr low 0 ee = Ok h /\ hankel_new g mu q x kr low 0 ee = Ok h.
Proof.
  intros Q1 Q2 H0 HD Hn LS HK.
  destruct (spaced_accepted g mu q r0 d x kr low ee Q1 Q2 H0 HD Hn LS HK) as [h H]. exists h. split; [|exact H].
  unfold py_hankel. rewrite (py_check_spaced r0 d x H0 Hn LS). cbn [bind].
  unfold hankel_new in H. apply bind_ok in H as ([] & HC & H). rewrite HC. cbn [untranslated bind]. now rewrite H.
Qed.

(** A factor below one half passes silently, and nothing is left of the points:
    here a quarter of four points. *)
Theorem outer_shrink_refuted g : exists t,
  sbt_init g 0 0 (pts 1 1 4) 1 true 4 (1 / 4) Outer = Ok t /\ s_post t = [] /\ s_next t = (-2)%Z.
Proof.
  set (x := pts 1 1 4). assert (LX : length x = 4%nat) by apply pts_length.
  assert (LS : log_spaced 1 1 x) by (intros j Hj; apply pts_nth; now rewrite LX in Hj).
  assert (SZ : py_size (1 / 4 * INR (length x)) = Ok 1%Z).
  { rewrite LX. replace (1 / 4 * INR 4) with 1 by (cbn [INR]; lra). unfold py_size.
    destruct (Rltb 1 0) eqn:E1; [apply Rltb_spec in E1; lra|].
    destruct (Reqb 1 0) eqn:E2; [apply Reqb_spec in E2; lra|]. rewrite ln_1.
    replace (0 / ln 2) with (IZR 0) by (unfold Rdiv; ring). now rewrite Zceil_IZR. }
  assert (EL : extrap_loglin x (-2) = Ok x).
  { unfold extrap_loglin. rewrite check_epsign_ok; [|lia|].
    - cbn [bind]. destruct (Z.ltb_spec 0 (-2)); [lia|]. cbn [andb].
      change (arange_down (-2)) with (@nil Z). change (arange 1 (-2 + 1)) with (@nil Z). cbn [map app].
      now rewrite app_nil_r.
    - unfold epsign_ok, at0, at1, atm1, atm2. rewrite LX. unfold x. rewrite !pts_nth by (cbn; lia).
      assert (forall a b, Rltb 0 (1 * exp a * (1 * exp b)) = true).
      { intros a b. apply Rltb_spec. pose proof (exp_pos a). pose proof (exp_pos b). nra. }
      now rewrite !H. }
  destruct (py_hankel_ok g (IZR 0 + 1 / 2) (IZR 0) 1 1 x 1 true (1 / 4)) as (h & HP & HN); try lra; try lia; try assumption.
  exists (mk_sbt 0 4 Outer (-2) h (pre_sampts h) (post_slice (-2) (post_sampts h))).
  split; [|split; [|reflexivity]].
  - unfold sbt_init. cbn [Z.leb Z.compare Pos.compare Pos.compare_cont andb negb Z.eqb Pos.eqb]. rewrite SZ, LX.
    cbn [Nat.odd Nat.even negb bind]. change ((1 - Z.of_nat 4) / 2)%Z with (-2)%Z. rewrite EL. cbn [bind].
    now rewrite HP.
  - cbn [s_post]. pose proof (hankel_new_inv _ _ _ _ _ _ _ _ _ HN) as I.
    pose proof (post_length _ _ _ _ _ _ _ _ _ I) as PL. rewrite LX in PL.
    unfold post_slice, cut. cbn [Z.eqb]. rewrite PL. reflexivity.
Qed.

(* ------------------------------------------------------------------ *)
(* C40: the caller's array                                             *)

(** The transforms that work on the caller's own array. *)
Definition works_in_place (t : sbt) (k : kind) : Prop :=
  (s_layer t <> Outer \/ s_extrap t = 0%Z) /\ (k = FloatArr \/ k = ComplexArr).

Theorem transform_keeps t k a : ~ works_in_place t k -> fst (transform t k a) = Ok a.
Proof.
  intros H. unfold transform, works_in_place in *.
  destruct (s_layer t), (Z.eqb_spec (s_extrap t) 0); try reflexivity; destruct k; try reflexivity;
    exfalso; apply H; (split; [auto; left; discriminate|auto]).
Qed.

(** Otherwise the caller's samples are multiplied by the points to the power
    3/2, once for each call. *)
Theorem transform_scales t k a : works_in_place t k -> length a = length (s_pre t) ->
  (forall r, In r (s_pre t) -> 0 < r) ->
  exists a', fst (transform t k a) = Ok a' /\ length a' = length a /\
  forall j, (j < length a)%nat ->
    nth j a' (RtoC 0) = (nth j a (RtoC 0) * RtoC (Rpower (nth j (s_pre t) 0) (3 / 2)))%C.
Proof.
  intros [HL HK] LA HP.
  assert (E : fst (transform t k a) = weigh (s_pre t) a).
  { unfold transform. assert (I : imul k (s_pre t) a = (weigh (s_pre t) a, weigh (s_pre t) a)).
    { unfold imul. rewrite LA, Nat.eqb_refl. destruct HK as [-> | ->]; reflexivity. }
    rewrite I. destruct (s_layer t), (Z.eqb_spec (s_extrap t) 0); try reflexivity.
    exfalso. destruct HL as [X|X]; congruence. }
  rewrite E. unfold weigh. replace (existsb (fun x => Rleb x 0) (s_pre t)) with false.
  2:{ symmetry. apply not_true_is_false. intros X. apply existsb_exists in X as (z & Hz & X).
      apply Rleb_spec in X. specialize (HP z Hz). lra. }
  eexists. split; [reflexivity|]. split; [now rewrite map_length, seq_length|].
  intros j Hj. now rewrite nth_tabC by lia.
Qed.

(** So a second call on the same array transforms the weighted samples. *)
Definition twice (t : sbt) (k : kind) (a : list C) : res (list R * list C) * res (list R * list C) :=
  let (after, r) := transform t k a in
  match after with
  | Ok a' => (r, snd (transform t k a'))
  | Err e => (r, Err e)
  end.

Lemma sbt_init_plain g ell n x kr low ee l t : sbt_init g ell n x kr low 0 ee l = Ok t ->
  s_degree t = ell /\ s_extrap t = 0%Z /\ s_layer t = l /\ s_next t = 0%Z /\ s_pre t = x /\
  s_post t = post_sampts (s_fbht t) /\
  hankel_new g (IZR ell + 1 / 2) (IZR n) x kr low 0 ee = Ok (s_fbht t).
Proof.
  unfold sbt_init. cbn [Z.leb Z.compare andb negb Z.eqb bind]. intros H.
  apply bind_ok in H as (h & HH & H). injection H as <-. cbn [s_degree s_extrap s_layer s_next s_fbht s_pre s_post].
  apply py_hankel_inv in HH. pose proof (hankel_new_inv _ _ _ _ _ _ _ _ _ HH) as I.
  rewrite (h_pre _ _ _ _ _ _ _ _ _ I). unfold post_slice. cbn [Z.eqb]. auto 10.
Qed.

Lemma sbt_init_ok g ell n r0 d x kr low ee l :
  0 < IZR ell + 3 / 2 + IZR n -> 0 < IZR ell + 3 / 2 - IZR n ->
  0 < r0 -> 0 < d -> (2 <= length x)%nat -> log_spaced r0 d x -> 0 < kr ->
  exists t, sbt_init g ell n x kr low 0 ee l = Ok t.
Proof.
  intros Q1 Q2 H0 HD Hn LS HK.
  destruct (py_hankel_ok g (IZR ell + 1 / 2) (IZR n) r0 d x kr low ee) as (h & HP & _); try lra; try assumption.
  unfold sbt_init. cbn [Z.leb Z.compare andb negb Z.eqb bind]. rewrite HP. cbn [bind]. eexists. reflexivity.
Qed.

(** The value of a transform without extrapolation. *)
Lemma finish_plain g ell n x kr low ee l t p : sbt_init g ell n x kr low 0 ee l = Ok t ->
  (3 <= length x)%nat -> length p = length x ->
  exists B, biased_transform (s_fbht t) p = Ok B /\ length B = length x /\
  finish t p = Ok (s_post t, map (fun j => nth j B (RtoC 0)
     * RtoC (Rpower (2 * PI / nth j (s_post t) 0) (3 / 2)))%C (seq 0 (length x))).
Proof.
  intros H N3 LP. destruct (sbt_init_plain _ _ _ _ _ _ _ _ _ H) as (_ & _ & _ & NX & _ & PO & HH).
  destruct (biased_accepted _ _ _ _ _ _ _ _ p HH N3 LP) as [B HB].
  pose proof (hankel_new_inv _ _ _ _ _ _ _ _ _ HH) as I.
  destruct (biased_plain _ _ _ _ _ _ _ _ _ _ I HB) as (_ & _ & EB).
  assert (LB : length B = length x) by (rewrite EB, map_length, seq_length; reflexivity).
  exists B. split; [exact HB|]. split; [exact LB|].
  unfold finish, py_hankel_transform. rewrite HB. cbn [translate bind].
  rewrite (h_nsamp _ _ _ _ _ _ _ _ _ I), LP, Nat.sub_diag. cbn [repeat]. rewrite app_nil_r. cbn [fst snd].
  unfold post_slice. rewrite NX. cbn [Z.eqb]. rewrite LB, <- PO. reflexivity.
Qed.

Lemma in_place_plain t k a : s_extrap t = 0%Z -> (k = FloatArr \/ k = ComplexArr) ->
  length a = length (s_pre t) ->
  transform t k a = (weigh (s_pre t) a, p <- weigh (s_pre t) a ;; finish t p).
Proof.
  intros E K L. unfold transform. rewrite E. cbn [Z.eqb].
  assert (I : imul k (s_pre t) a = (weigh (s_pre t) a, weigh (s_pre t) a)).
  { unfold imul. rewrite L, Nat.eqb_refl. destruct K as [-> | ->]; reflexivity. }
  rewrite I. now destruct (s_layer t).
Qed.

(** Three points 1, 4, 16 and a unit sample at the second: the second call
    returns eight times what the first did. *)
Theorem transform_refuted g : exists t y b b',
  sbt_init g 0 0 (pts 1 (ln 4) 3) 1 true 0 2 Outer = Ok t /\
  twice t FloatArr [RtoC 0; RtoC 1; RtoC 0] = (Ok (y, b), Ok (y, b')) /\
  b' = map (fun z => RtoC 8 * z)%C b /\ b <> b'.
Proof.
  set (x := pts 1 (ln 4) 3). assert (LX : length x = 3%nat) by apply pts_length.
  assert (LS : log_spaced 1 (ln 4) x) by (intros j Hj; apply pts_nth; now rewrite LX in Hj).
  assert (L4 : 0 < ln 4) by (rewrite <- ln_1; apply ln_increasing; lra).
  destruct (sbt_init_ok g 0 0 1 (ln 4) x 1 true 2 Outer) as [t H]; try lra; try lia; try assumption.
  destruct (sbt_init_plain _ _ _ _ _ _ _ _ _ H) as (_ & HX & HL & NX & PRE & PO & HH).
  set (a := [RtoC 0; RtoC 1; RtoC 0]).
  assert (X1 : nth 1 x 0 = 4) by (unfold x; rewrite pts_nth by lia; cbn [INR]; rewrite !Rmult_1_l, exp_ln; lra).
  assert (R8 : Rpower (nth 1 x 0) (3 / 2) = 8).
  { rewrite X1. replace 4 with (2 * 2) by lra. rewrite Rpower_prod, <- Rpower_plus by lra.
    replace (3 / 2 + 3 / 2) with (INR 3) by (cbn [INR]; lra). rewrite Rpower_pow by lra. cbn. lra. }
  set (c8 := fun (c : C) => [RtoC 0; c; RtoC 0]).
  assert (W : forall c, weigh x (c8 c) = Ok (c8 (RtoC 8 * c)%C)).
  { intros c. unfold weigh. replace (existsb (fun r => Rleb r 0) x) with false.
    2:{ symmetry. apply not_true_is_false. intros E. apply existsb_exists in E as (z & Hz & E). apply Rleb_spec in E.
        apply (In_nth _ _ 0) in Hz as (j & Hj & <-). rewrite LS in E by exact Hj.
        pose proof (exp_pos (INR j * ln 4)). lra. }
    f_equal. rewrite LX. cbn [seq map]. unfold c8. cbn [nth]. rewrite R8, !Cmult_0_l.
    now rewrite (Cmult_comm c). }
  destruct (finish_plain _ _ _ _ _ _ _ _ _ (c8 (RtoC 8 * RtoC 1)%C) H ltac:(lia) ltac:(rewrite LX; reflexivity)) as (B & HB & LB & F1).
  destruct (finish_plain _ _ _ _ _ _ _ _ _ (c8 (RtoC 8 * (RtoC 8 * RtoC 1))%C) H ltac:(lia) ltac:(rewrite LX; reflexivity)) as (B' & HB' & LB' & F2).
  pose proof (hankel_new_inv _ _ _ _ _ _ _ _ _ HH) as I.
  assert (SC : forall j, nth j B' (RtoC 0) = (RtoC 8 * nth j B (RtoC 0))%C).
  { intros j. destruct (Nat.lt_ge_cases j (length x)) as [Hj|Hj].
    - destruct (biased_plain _ _ _ _ _ _ _ _ _ _ I HB) as (_ & _ & ->).
      destruct (biased_plain _ _ _ _ _ _ _ _ _ _ I HB') as (_ & _ & ->).
      rewrite !nth_tabC by exact Hj. rewrite <- tr_scal. apply tr_ext; [reflexivity|].
      intros m _. unfold c8. destruct m as [|[|[|[|m]]]]; cbn [nth]; rewrite ?Cmult_0_r; reflexivity.
    - rewrite !nth_overflow by lia. now rewrite Cmult_0_r. }
  exists t, (s_post t). eexists. eexists. split; [exact H|]. split; [|split].
  - unfold twice. change a with (c8 (RtoC 1)).
    rewrite (in_place_plain t FloatArr _ HX (or_introl eq_refl)) by (rewrite PRE, LX; reflexivity).
    rewrite PRE, W. cbn [bind]. rewrite F1.
    rewrite (in_place_plain t FloatArr _ HX (or_introl eq_refl)) by (rewrite PRE, LX; reflexivity).
    rewrite PRE, W. cbn [bind snd]. rewrite F2. reflexivity.
  - rewrite map_map. apply map_ext. intros j. rewrite SC. ring.
  - intros E.
    assert (Z0 : forall j, (j < length x)%nat -> nth j B (RtoC 0) = RtoC 0).
    { intros j Hj. apply (f_equal (fun l => nth j l (RtoC 0))) in E. rewrite !nth_tabC in E by exact Hj.
      rewrite SC in E. set (w := RtoC (Rpower _ _)) in E.
      assert (WN : w <> RtoC 0) by (apply RtoC_n0, Rgt_not_eq; apply exp_pos).
      assert (E7 : (RtoC 7 * (nth j B (RtoC 0) * w))%C = RtoC 0).
      { replace (RtoC 7) with (RtoC 8 - RtoC 1)%C by (rewrite <- RtoC_minus; f_equal; lra).
        replace ((RtoC 8 - RtoC 1) * (nth j B (RtoC 0) * w))%C with (RtoC 8 * nth j B (RtoC 0) * w - nth j B (RtoC 0) * w)%C by ring.
        rewrite <- E. ring. }
      destruct (Ceq_dec (nth j B (RtoC 0)) (RtoC 0)) as [|N]; [assumption|]. exfalso.
      apply (Cmult_neq_0 (RtoC 7) (nth j B (RtoC 0) * w)%C); [apply RtoC_n0; lra|now apply Cmult_neq_0|exact E7]. }
    assert (SQ : sumsq B = sumsq (c8 (RtoC 8 * RtoC 1)%C)).
    { apply (fft_energy g (IZR 0 + 1 / 2) x 1 true 2 (s_fbht t)); try assumption.
      left. now rewrite LX. }
    assert (SB : sumsq B = 0).
    { unfold sumsq. apply rsum_map_zero. intros z Hz. apply (In_nth _ _ (RtoC 0)) in Hz as (j & Hj & <-).
      rewrite Z0 by lia. unfold RtoC. cbn [fst snd]. ring. }
    rewrite SB in SQ. unfold sumsq, c8, RtoC, Cmult in SQ. cbn [map fst snd] in SQ.
    rewrite !rsum_cons, rsum_nil in SQ. nra.
Qed.

(* ------------------------------------------------------------------ *)
(* C41: prefactors                                                     *)

Lemma Cpown_opp_Ci n : (Cpown (- Ci) n * Cpown Ci n)%C = RtoC 1.
Proof.
  induction n as [|n IH]; cbn [Cpown]; [apply Cmult_1_l|].
  transitivity (- (Ci * Ci) * (Cpown (- Ci) n * Cpown Ci n))%C; [ring|].
  rewrite IH, Ci_sq, Cmult_1_r. unfold RtoC, Copp. cbn [fst snd]. f_equal; lra.
Qed.

Lemma mCi_n0 : (- Ci)%C <> RtoC 0.
Proof. unfold Ci, Copp, RtoC. cbn [fst snd]. intros [= _ H]. lra. Qed.

Lemma inv_unique (a b : C) : (a * b)%C = RtoC 1 -> b <> RtoC 0 -> a = (/ b)%C.
Proof.
  intros H N. rewrite <- (Cmult_1_r a), <- (Cinv_r b N), Cmult_assoc, H. apply Cmult_1_l.
Qed.

Lemma Cpowz_mCi k : Cpowz (- Ci)%C k = Cpowz Ci (- k).
Proof.
  unfold Cpowz. destruct (Z.leb_spec 0 k) as [H|H], (Z.leb_spec 0 (- k)) as [H'|H'].
  - replace k with 0%Z by lia. reflexivity.
  - rewrite Z.opp_involutive. apply inv_unique; [apply Cpown_opp_Ci|apply Cpown_n0, Ci_n0].
  - symmetry. apply inv_unique; [|apply Cpown_n0, mCi_n0]. rewrite Cmult_comm. apply Cpown_opp_Ci.
  - lia.
Qed.

(** Forward times backward, in any number of dimensions; the forms of the
    direction; everything else is refused. *)
Theorem py_prefactors ell dims : exists f b,
  py_prefactor ell dims (DStr "forward") = Ok f /\ py_prefactor ell dims (DNum 1) = Ok f /\
  py_prefactor ell dims (DStr "backward") = Ok b /\ py_prefactor ell dims (DNum (-1)) = Ok b /\
  (f * b)%C = RtoC (/ (2 * PI) ^ (3 * dims)) /\
  f = cpp_prefactor ell 1 /\ (dims = 1%nat -> b = cpp_prefactor ell (-1)).
Proof.
  exists (RtoC 1 * Cpowz (- Ci) ell)%C, (RtoC (/ (2 * PI) ^ (3 * dims)) * Cpowz Ci ell)%C.
  repeat (split; [reflexivity|]). rewrite Cpowz_mCi. split; [|split].
  - transitivity (RtoC (/ (2 * PI) ^ (3 * dims)) * (Cpowz Ci ell * Cpowz Ci (- ell)))%C; [ring|].
    rewrite Cpowz_opp by apply Ci_n0. apply Cmult_1_r.
  - destruct (cpp_prefactors ell) as (_ & _ & <- & _). apply Cmult_1_l.
  - intros ->. destruct (cpp_prefactors ell) as (_ & _ & _ & <-). reflexivity.
Qed.

Theorem direction_refused ell dims s z :
  (s <> "forward"%string -> s <> "backward"%string -> py_prefactor ell dims (DStr s) = Err ValueError) /\
  (z <> 1%Z -> z <> (-1)%Z -> py_prefactor ell dims (DNum z) = Err ValueError).
Proof.
  split; intros H1 H2; unfold py_prefactor, is_dir.
  - destruct (String.eqb_spec "forward" s); [congruence|]. destruct (String.eqb_spec "backward" s); [congruence|]. reflexivity.
  - destruct (Z.eqb_spec 1 z); [congruence|]. destruct (Z.eqb_spec (-1) z); [congruence|]. reflexivity.
Qed.

(* ------------------------------------------------------------------ *)
(* C41, C58: the Python and C++ multipole transforms, and the round trip *)

Definition an_array (k : kind) : Prop := k = FloatArr \/ k = ComplexArr.

Lemma weigh_pos x a : (forall r, In r x -> 0 < r) ->
  weigh x a = Ok (map (fun j => nth j a (RtoC 0) * RtoC (Rpower (nth j x 0) (3 / 2)))%C (seq 0 (length x))).
Proof.
  intros P. unfold weigh. replace (existsb (fun r => Rleb r 0) x) with false; [reflexivity|].
  symmetry. apply not_true_is_false. intros E. apply existsb_exists in E as (z & Hz & E). apply Rleb_spec in E.
  specialize (P z Hz). lra.
Qed.

Theorem py_cpp_agree g ell n x kr low ee l t (dir : Z) k a b0 :
  sbt_init g ell n x kr low 0 ee l = Ok t -> (3 <= length x)%nat -> (forall r, In r x -> 0 < r) ->
  an_array k -> length a = length x -> length b0 = length x -> Z.abs dir = 1%Z ->
  exists h b, sbt_new g ell n x kr low 0 ee = Ok h /\ sbt_multipole h ell dir a b0 = Ok b /\
    snd (multipoles t (DNum dir) k a) = Ok (post_sampts h, b).
Proof.
  intros H N3 P K LA LB HD. destruct (sbt_init_plain _ _ _ _ _ _ _ _ _ H) as (DG & HX & HL & NX & PRE & PO & HH).
  set (w := map (fun j => nth j a (RtoC 0) * RtoC (Rpower (nth j x 0) (3 / 2)))%C (seq 0 (length x))).
  assert (LW : length w = length x) by (unfold w; now rewrite map_length, seq_length).
  destruct (finish_plain _ _ _ _ _ _ _ _ _ w H N3 LW) as (B & HB & LBB & F).
  pose proof (hankel_new_inv _ _ _ _ _ _ _ _ _ HH) as I.
  exists (s_fbht t). eexists. split; [exact HH|].
  assert (PF : exists f, py_prefactor ell 1 (DNum dir) = Ok f /\ f = cpp_prefactor ell dir).
  { destruct (py_prefactors ell 1) as (f & b & _ & F1 & _ & F2 & _ & E1 & E2).
    assert (D : dir = 1%Z \/ dir = (-1)%Z) by lia. destruct D as [-> | ->]; [exists f|exists b]; auto. }
  destruct PF as (f & PF & EF). split.
  - unfold sbt_multipole, sbt_transform. rewrite HD. cbn [Z.eqb Pos.eqb negb].
    rewrite (h_nsamp _ _ _ _ _ _ _ _ _ I), LA, LB, Nat.eqb_refl. cbn [negb]. rewrite (h_pre _ _ _ _ _ _ _ _ _ I).
    replace (existsb (fun r => Rleb r 0) x) with false.
    2:{ symmetry. apply not_true_is_false. intros E. apply existsb_exists in E as (z & Hz & E). apply Rleb_spec in E.
        specialize (P z Hz). lra. }
    assert (EW : map (fun j => RtoC (Rpower (nth j x 0) (3 / 2)) * nth j a (RtoC 0))%C (seq 0 (length x)) = w)
      by (unfold w; apply map_ext; intros j; apply Cmult_comm).
    rewrite EW, HB. cbn [bind]. rewrite Nat.ltb_irrefl, skipn_all2, app_nil_r by lia. cbn [bind]. reflexivity.
  - unfold multipoles. rewrite DG, PF, in_place_plain by (try assumption; now rewrite PRE).
    rewrite PRE, weigh_pos by exact P. fold w. cbn [bind]. rewrite F. cbn [snd fst bind]. rewrite PO. do 2 f_equal.
    rewrite !map_length, seq_length. rewrite map_map. apply map_ext_in. intros j Hj. apply in_seq in Hj.
    destruct (Nat.ltb_spec j (length x)); [|lia]. rewrite nth_tabC by lia. rewrite EF, (Cmult_comm (nth j B _)). reflexivity.
Qed.

(** Forward and back on the returned points is the identity. *)
Theorem py_round_trip g ell n x kr low ee ee' l l' t t' k a y b z c : real_gamma g ->
  sbt_init g ell n x kr low 0 ee l = Ok t -> sbt_init g ell (- n) y kr low 0 ee' l' = Ok t' ->
  (3 <= length x)%nat -> (forall r, In r x -> 0 < r) -> 0 < kr -> mid_kept x kr low ->
  an_array k -> length a = length x ->
  snd (multipoles t (DStr "forward") k a) = Ok (y, b) ->
  snd (multipoles t' (DStr "backward") ComplexArr b) = Ok (z, c) -> z = x /\ c = a.
Proof.
  intros G H H' N3 P HK MK K LA HB HC.
  assert (D1 : forall t k a, multipoles t (DStr "forward") k a = multipoles t (DNum 1) k a) by reflexivity.
  assert (D2 : forall t k a, multipoles t (DStr "backward") k a = multipoles t (DNum (-1)) k a) by reflexivity.
  rewrite D1 in HB. rewrite D2 in HC.
  set (b0 := repeat (RtoC 0) (length x)). assert (LB0 : length b0 = length x) by apply repeat_length.
  destruct (py_cpp_agree _ _ _ _ _ _ _ _ _ 1%Z k a b0 H N3 P K LA LB0 eq_refl) as (h & b' & HN & HM & E).
  rewrite HB in E. injection E as -> <-.
  pose proof (hankel_new_inv _ _ _ _ _ _ _ _ _ HN) as I. pose proof (post_length _ _ _ _ _ _ _ _ _ I) as PL.
  assert (LBB : length b = length x).
  { destruct (sbt_multipole_ok g ell n x kr low ee h 1 a b0 HN eq_refl N3) as (b'' & E & L); try assumption.
    - intros j Hj. apply P, nth_In, Hj. - congruence. }
  assert (PP : forall r, In r (post_sampts h) -> 0 < r).
  { intros r Hr. apply (In_nth _ _ 0) in Hr as (j & Hj & <-). destruct (fft_pairs _ _ _ _ _ _ _ _ _ HN) as [_ PR].
    rewrite PL in Hj. specialize (PR j Hj). assert (0 < nth (length x - 1 - j) x 0) by (apply P, nth_In; lia).
    pose proof (h_pivpos _ _ _ _ _ _ _ _ _ I). pose proof (exp_pos (- logres h)).
    assert (0 < pivot h * exp (- logres h)) by (apply Rmult_lt_0_compat; assumption). nra. }
  destruct (py_cpp_agree _ _ _ _ _ _ _ _ _ (-1)%Z ComplexArr b b0 H') as (h' & c' & HN' & HM' & E); try assumption; try congruence; try lia; try (now right).
  rewrite HC in E. injection E as -> <-.
  destruct (multipole_round_trip _ _ _ _ _ _ _ _ _ _ _ _ _ _ _ G HN HN' HK MK LB0 LB0 HM HM') as [E1 E2]. auto.
Qed.

(** Such pairs of transforms exist for all logarithmically spaced points. *)
Theorem py_round_trip_exists g ell n r0 d N kr low ee l k a : real_gamma g ->
  0 < IZR ell + 3 / 2 + IZR n -> 0 < IZR ell + 3 / 2 - IZR n ->
  0 < r0 -> 0 < d -> (3 <= N)%nat -> 0 < kr -> (Nat.odd N = true \/ low = true) ->
  an_array k -> length a = N ->
  exists t t' y b, sbt_init g ell n (pts r0 d N) kr low 0 ee l = Ok t /\
    sbt_init g ell (- n) y kr low 0 ee l = Ok t' /\
    snd (multipoles t (DStr "forward") k a) = Ok (y, b) /\
    snd (multipoles t' (DStr "backward") ComplexArr b) = Ok (pts r0 d N, a).
Proof.
  intros G Q1 Q2 H0 HD N3 HK MK K LA. set (x := pts r0 d N).
  assert (LX : length x = N) by apply pts_length.
  assert (LS : log_spaced r0 d x) by (intros j Hj; apply pts_nth; now rewrite LX in Hj).
  destruct (sbt_init_ok g ell n r0 d x kr low ee l) as [t H]; try assumption; try lia.
  assert (P : forall r, In r x -> 0 < r).
  { intros r Hr. apply (In_nth _ _ 0) in Hr as (j & Hj & <-). rewrite LS by exact Hj. apply Rmult_lt_0_compat; [exact H0|apply exp_pos]. }
  set (b0 := repeat (RtoC 0) (length x)). assert (LB0 : length b0 = length x) by apply repeat_length.
  destruct (py_cpp_agree _ _ _ _ _ _ _ _ _ 1%Z k a b0 H ltac:(lia) P K ltac:(congruence) LB0 eq_refl) as (h & b & HN & HM & E).
  destruct (fft_log_spaced _ _ _ _ _ _ _ _ _ _ _ HN H0 LS) as [DL LS'].
  pose proof (hankel_new_inv _ _ _ _ _ _ _ _ _ HN) as I. pose proof (post_length _ _ _ _ _ _ _ _ _ I) as PL.
  set (k0 := pivot h / r0 * exp (- (INR (length x) * d))) in *.
  assert (K0 : 0 < k0).
  { unfold k0. apply Rmult_lt_0_compat; [|apply exp_pos]. apply Rmult_lt_0_compat; [apply (h_pivpos _ _ _ _ _ _ _ _ _ I)|].
    now apply Rinv_0_lt_compat. }
  destruct (sbt_init_ok g ell (- n) k0 d (post_sampts h) kr low ee l) as [t' H']; try assumption; try (rewrite opp_IZR; lra); [lia|].
  destruct (sbt_multipole_ok g ell n x kr low ee h 1 a b0 HN eq_refl ltac:(lia)) as (b'' & E' & L); try congruence.
  { intros j Hj. apply P, nth_In, Hj. }
  assert (LB : length b = length x) by congruence.
  assert (PP : forall r, In r (post_sampts h) -> 0 < r).
  { intros r Hr. apply (In_nth _ _ 0) in Hr as (j & Hj & <-). rewrite LS' by exact Hj. apply Rmult_lt_0_compat; [exact K0|apply exp_pos]. }
  destruct (py_cpp_agree _ _ _ _ _ _ _ _ _ (-1)%Z ComplexArr b b0 H') as (h' & c & HN' & HM' & E2); try assumption; try congruence; try lia; try (now right).
  exists t, t', (post_sampts h), b. split; [exact H|]. split; [exact H'|]. split; [exact E|].
  change (multipoles t' (DStr "backward")) with (multipoles t' (DNum (-1))).
  rewrite E2.
  assert (MKX : mid_kept x kr low).
  { destruct MK as [MK| ->]; [left; now rewrite LX|right; split; [reflexivity|exact HK]]. }
  destruct (multipole_round_trip _ _ _ _ _ _ _ _ _ _ _ _ _ _ _ G HN HN' HK MKX LB0 LB0 HM HM') as [-> ->]. reflexivity.
Qed.

(* ------------------------------------------------------------------ *)
(* C59, C60: double transforms                                         *)

Lemma tr_matrix n u : exists K, forall f j, tr n u f j = total n (fun i => K j i * f i)%C.
Proof.
  exists (fun j i => total n (fun m => ex n (Z.of_nat m * Z.of_nat i) * u m / RtoC (INR n) * ex n (Z.of_nat j * Z.of_nat m)))%C.
  intros f j. unfold tr, dftf.
  transitivity (total n (fun m => total n (fun i =>
     f i * (ex n (Z.of_nat m * Z.of_nat i) * u m / RtoC (INR n) * ex n (Z.of_nat j * Z.of_nat m))))%C).
  - apply total_ext. intros m _. unfold Cdiv. rewrite <- !total_scal_r. apply total_ext. intros i _. ring.
  - rewrite total_swap. apply total_ext. intros i _. rewrite total_scal. ring.
Qed.

(** A transform without extrapolation is a matrix. *)
Definition acts (n : nat) (K : nat -> nat -> C) (a : list C) : list C :=
  map (fun i => total n (fun j => K i j * nth j a (RtoC 0)))%C (seq 0 n).

Definition weighed (x : list R) (a : list C) : list C :=
  map (fun j => nth j a (RtoC 0) * RtoC (Rpower (nth j x 0) (3 / 2)))%C (seq 0 (length x)).

Lemma transform_matrix g ell n x kr low ee l t : sbt_init g ell n x kr low 0 ee l = Ok t ->
  (3 <= length x)%nat -> (forall r, In r x -> 0 < r) ->
  exists K, forall k a, an_array k -> length a = length x ->
    transform t k a = (Ok (weighed x a), Ok (s_post t, acts (length x) K a)).
Proof.
  intros H N3 P. destruct (sbt_init_plain _ _ _ _ _ _ _ _ _ H) as (DG & HX & HL & NX & PRE & PO & HH).
  pose proof (hankel_new_inv _ _ _ _ _ _ _ _ _ HH) as I.
  destruct (tr_matrix (length x) (kernel_at g (IZR ell + 1 / 2) (IZR n) (length x) (logres (s_fbht t)) (pivot (s_fbht t)))) as [K HK].
  exists (fun i j => K i j * RtoC (Rpower (nth j x 0) (3 / 2)) * RtoC (Rpower (2 * PI / nth i (s_post t) 0) (3 / 2)))%C.
  intros k a AK LA. rewrite in_place_plain by (try assumption; now rewrite PRE). rewrite PRE, weigh_pos by exact P.
  change (map _ (seq 0 (length x))) with (weighed x a). cbn [bind]. f_equal.
  assert (LW : length (weighed x a) = length x) by (unfold weighed; now rewrite map_length, seq_length).
  destruct (finish_plain _ _ _ _ _ _ _ _ _ (weighed x a) H N3 LW) as (B & HB & LB & F). rewrite F. do 2 f_equal.
  destruct (biased_plain _ _ _ _ _ _ _ _ _ _ I HB) as (_ & _ & EB). apply map_ext_in. intros i Hi. apply in_seq in Hi.
  rewrite EB, nth_tabC, HK by lia. rewrite <- total_scal_r. apply total_ext. intros j Hj.
  unfold weighed. rewrite nth_tabC by exact Hj. ring.
Qed.

Lemma dsbt_two g l0 l1 n0 n1 x kr low ee e2d d :
  dsbt_init g [l0; l1] [n0; n1] x kr low (EInt 0) ee e2d = Ok d ->
  exists t0 t1, sbt_init g l0 n0 x kr low 0 ee Outer = Ok t0 /\ sbt_init g l1 n1 x kr low 0 ee Outer = Ok t1 /\
    d = mk_dsbt [l0; l1] 0 e2d 0 [t0; t1] (s_post t0).
Proof.
  unfold dsbt_init. cbn [Z.leb Z.compare andb negb Z.eqb bind combine map sequence fst snd]. intros H.
  apply bind_ok in H as (ts & HS & H). apply bind_ok in HS as (t0 & H0 & HS).
  apply bind_ok in HS as (ts1 & HS1 & HS). apply bind_ok in HS1 as (t1 & H1 & HS1). cbn [bind] in HS1.
  injection HS1 as <-. injection HS as <-. injection H as <-. exists t0, t1. auto.
Qed.

Lemma dsbt_two_conv g l0 l1 n0 n1 x kr low ee e2d t0 t1 :
  sbt_init g l0 n0 x kr low 0 ee Outer = Ok t0 -> sbt_init g l1 n1 x kr low 0 ee Outer = Ok t1 ->
  dsbt_init g [l0; l1] [n0; n1] x kr low (EInt 0) ee e2d = Ok (mk_dsbt [l0; l1] 0 e2d 0 [t0; t1] (s_post t0)).
Proof.
  intros H0 H1. unfold dsbt_init. cbn [Z.leb Z.compare andb negb Z.eqb bind combine map sequence fst snd].
  rewrite H0. cbn [bind]. rewrite H1. reflexivity.
Qed.

Lemma rows_ok t k W V y m : (forall row, In row m -> transform t k row = (Ok (W row), Ok (y, V row))) ->
  rows t k m = (Ok (map W m), Ok (map V m)).
Proof.
  induction m as [|row m IH]; intros H; [reflexivity|]. cbn [rows map]. rewrite H by now left.
  rewrite IH by (intros r Hr; apply H; now right). reflexivity.
Qed.

Definition square (n : nat) (m : cmatrix) : Prop := length m = n /\ forall row, In row m -> length row = n.
Definition entry (m : cmatrix) (i j : nat) : C := nth j (nth i m []) (RtoC 0).

Lemma square_nth n m i : square n m -> (i < n)%nat -> length (nth i m []) = n.
Proof. intros [L H] Hi. apply H, nth_In. lia. Qed.

Lemma ctranspose_square n m : (0 < n)%nat -> square n m -> square n (ctranspose m) /\
  forall i j, (i < n)%nat -> (j < n)%nat -> entry (ctranspose m) i j = entry m j i.
Proof.
  intros Hn [L H]. assert (L0 : length (nth 0 m []) = n) by (apply H, nth_In; lia). unfold ctranspose. rewrite L0. split.
  - split; [now rewrite map_length, seq_length|]. intros row Hr. apply in_map_iff in Hr as (j & <- & _). now rewrite map_length.
  - intros i j Hi Hj. unfold entry.
    rewrite (nth_indep _ [] ((fun j => map (fun row => nth j row (RtoC 0)) m) 0%nat)) by (rewrite map_length, seq_length; lia).
    rewrite (map_nth (fun j => map (fun row => nth j row (RtoC 0)) m)), seq_nth by lia. cbn [Nat.add].
    rewrite (nth_indep _ (RtoC 0) ((fun row => nth i row (RtoC 0)) [])) by (rewrite map_length; lia).
    now rewrite (map_nth (fun row => nth i row (RtoC 0))).
Qed.

Lemma square_map n m f : square n m -> (forall r, length r = n -> length (f r) = n) -> square n (map f m).
Proof.
  intros [L H] F. split; [now rewrite map_length|]. intros r Hr. apply in_map_iff in Hr as (r' & <- & Hr'). apply F, H, Hr'.
Qed.

Lemma entry_map n m f i j : square n m -> (i < n)%nat -> entry (map f m) i j = nth j (f (nth i m [])) (RtoC 0).
Proof.
  intros [L H] Hi. unfold entry. rewrite (nth_indep _ [] (f [])) by (rewrite map_length; lia). now rewrite map_nth.
Qed.

Lemma acts_length n K a : length (acts n K a) = n.
Proof. unfold acts. now rewrite map_length, seq_length. Qed.

(** The double transform is the two single ones, one on each index; every
    row of the caller's array has been weighed. *)
Theorem double_transform g l0 l1 n0 n1 x kr low ee e2d d :
  dsbt_init g [l0; l1] [n0; n1] x kr low (EInt 0) ee e2d = Ok d ->
  (3 <= length x)%nat -> (forall r, In r x -> 0 < r) ->
  exists t0 t1 K0 K1, sbt_init g l0 n0 x kr low 0 ee Outer = Ok t0 /\ sbt_init g l1 n1 x kr low 0 ee Outer = Ok t1 /\
    (forall k a, an_array k -> length a = length x ->
       snd (transform t0 k a) = Ok (s_post t0, acts (length x) K0 a) /\
       snd (transform t1 k a) = Ok (s_post t1, acts (length x) K1 a)) /\
    forall k m, an_array k -> square (length x) m -> exists b,
      d_transform d k m = (Ok (map (weighed x) m), Ok ((s_post t0, s_post t0), b)) /\ square (length x) b /\
      forall i j, (i < length x)%nat -> (j < length x)%nat ->
        entry b i j = total (length x) (fun i' => total (length x) (fun j' => K0 i i' * K1 j j' * entry m i' j'))%C.
Proof.
  intros H N3 P. destruct (dsbt_two _ _ _ _ _ _ _ _ _ _ _ H) as (t0 & t1 & H0 & H1 & ->).
  destruct (transform_matrix _ _ _ _ _ _ _ _ _ H0 N3 P) as [K0 T0].
  destruct (transform_matrix _ _ _ _ _ _ _ _ _ H1 N3 P) as [K1 T1].
  exists t0, t1, K0, K1. split; [exact H0|]. split; [exact H1|]. split.
  { intros k a AK LA. rewrite T0, T1 by assumption. auto. }
  intros k m AK SM. set (n := length x) in *.
  set (I1 := map (acts n K1) m). assert (SI : square n I1) by (apply square_map; [exact SM|intros; apply acts_length]).
  destruct (ctranspose_square n I1 ltac:(lia) SI) as [ST ET].
  set (P1 := map (acts n K0) (ctranspose I1)).
  assert (SP : square n P1) by (apply square_map; [exact ST|intros; apply acts_length]).
  destruct (ctranspose_square n P1 ltac:(lia) SP) as [SR ER].
  exists (ctranspose P1). split; [|split; [exact SR|]].
  - unfold d_transform. cbn [d_extrap2d d_extrap Z.eqb d_t d_next d_post].
    rewrite (rows_ok t1 k (weighed x) (acts n K1) (s_post t1) m).
    2:{ intros row Hr. apply T1; [exact AK|]. now apply SM. }
    fold I1. cbn [bind].
    assert (RI : snd (rows t0 ComplexArr (ctranspose I1)) = Ok P1).
    { rewrite (rows_ok t0 ComplexArr (weighed x) (acts n K0) (s_post t0)); [reflexivity|].
      intros row Hr. apply T0; [now right|]. now apply ST. }
    assert (NE : exists r R, I1 = r :: R).
    { destruct I1 as [|r R]; [destruct SI as [SI _]; cbn in SI; lia|eauto]. }
    destruct NE as (r & R & NE). rewrite NE in *. rewrite RI. cbn [bind].
    assert (PS : forall {A} (l : list A), post_slice 0 l = l) by reflexivity.
    rewrite PS. rewrite (map_ext (post_slice 0) (fun l => l)) by apply PS. rewrite map_id.
    destruct AK as [-> | ->]; destruct e2d; reflexivity.
  - intros i j Hi Hj. rewrite ER by assumption. unfold P1. rewrite (entry_map n) by assumption.
    unfold acts at 1. rewrite nth_tabC by exact Hi. apply total_ext. intros i' Hi'.
    change (nth i' (nth j (ctranspose I1) []) (RtoC 0)) with (entry (ctranspose I1) j i').
    rewrite ET by assumption. unfold I1. rewrite (entry_map n) by assumption. unfold acts.
    rewrite nth_tabC by exact Hj. rewrite <- total_scal. apply total_ext. intros j' _. unfold entry. ring.
Qed.

(** On a product, the product of the single transforms. *)
Theorem double_product g l0 l1 n0 n1 x kr low ee e2d d k a b m :
  dsbt_init g [l0; l1] [n0; n1] x kr low (EInt 0) ee e2d = Ok d ->
  (3 <= length x)%nat -> (forall r, In r x -> 0 < r) -> an_array k ->
  length a = length x -> length b = length x -> square (length x) m ->
  (forall i j, (i < length x)%nat -> (j < length x)%nat -> entry m i j = nth i a (RtoC 0) * nth j b (RtoC 0))%C ->
  exists t0 t1 y0 y1 a' b' y c, sbt_init g l0 n0 x kr low 0 ee Outer = Ok t0 /\ sbt_init g l1 n1 x kr low 0 ee Outer = Ok t1 /\
    snd (transform t0 k a) = Ok (y0, a') /\ snd (transform t1 k b) = Ok (y1, b') /\
    snd (d_transform d k m) = Ok (y, c) /\
    forall i j, (i < length x)%nat -> (j < length x)%nat -> entry c i j = (nth i a' (RtoC 0) * nth j b' (RtoC 0))%C.
Proof.
  intros H N3 P AK LA LB SM EM.
  destruct (double_transform _ _ _ _ _ _ _ _ _ _ _ H N3 P) as (t0 & t1 & K0 & K1 & H0 & H1 & T & D).
  destruct (D k m AK SM) as (c & EC & SC & V). destruct (T k a AK LA) as [T0 _]. destruct (T k b AK LB) as [_ T1].
  exists t0, t1. do 6 eexists. split; [exact H0|]. split; [exact H1|]. split; [exact T0|]. split; [exact T1|].
  split; [rewrite EC; reflexivity|]. intros i j Hi Hj. rewrite V by assumption. unfold acts. rewrite !nth_tabC by assumption.
  rewrite <- total_scal_r. apply total_ext. intros i' Hi'. rewrite <- total_scal. apply total_ext. intros j' Hj'.
  rewrite EM by assumption. ring.
Qed.

(** Exchanging the degrees and transposing the samples transposes the result. *)
Theorem double_swap g l0 l1 n0 n1 x kr low ee e2d e2d' d d' k k' m m' y y' b b' :
  dsbt_init g [l0; l1] [n0; n1] x kr low (EInt 0) ee e2d = Ok d ->
  dsbt_init g [l1; l0] [n1; n0] x kr low (EInt 0) ee e2d' = Ok d' ->
  (3 <= length x)%nat -> (forall r, In r x -> 0 < r) -> an_array k -> an_array k' ->
  square (length x) m -> square (length x) m' ->
  (forall i j, (i < length x)%nat -> (j < length x)%nat -> entry m' i j = entry m j i) ->
  snd (d_transform d k m) = Ok (y, b) -> snd (d_transform d' k' m') = Ok (y', b') ->
  forall i j, (i < length x)%nat -> (j < length x)%nat -> entry b' i j = entry b j i.
Proof.
  intros H H' N3 P AK AK' SM SM' EM HB HB' i j Hi Hj.
  destruct (double_transform _ _ _ _ _ _ _ _ _ _ _ H N3 P) as (t0 & t1 & K0 & K1 & H0 & H1 & T & D).
  destruct (double_transform _ _ _ _ _ _ _ _ _ _ _ H' N3 P) as (u0 & u1 & L0 & L1 & G0 & G1 & T' & D').
  rewrite H1 in G0. injection G0 as <-. rewrite H0 in G1. injection G1 as <-.
  destruct (D k m AK SM) as (c & EC & SC & V). destruct (D' k' m' AK' SM') as (c' & EC' & SC' & V').
  rewrite EC in HB. injection HB as _ <-. rewrite EC' in HB'. injection HB' as _ <-.
  assert (KE : forall K L : nat -> nat -> C, (forall a, length a = length x -> acts (length x) K a = acts (length x) L a) ->
     forall p q, (p < length x)%nat -> (q < length x)%nat -> K p q = L p q).
  { intros K L E p q Hp Hq. set (e := map (fun r => if (r =? q)%nat then RtoC 1 else RtoC 0) (seq 0 (length x))).
    assert (LE : length e = length x) by (unfold e; now rewrite map_length, seq_length).
    specialize (E e LE). apply (f_equal (fun l => nth p l (RtoC 0))) in E. unfold acts in E. rewrite !nth_tabC in E by exact Hp.
    rewrite !(total_pick _ q) in E; try exact Hq.
    - unfold e in E. rewrite !nth_tabC, Nat.eqb_refl, !Cmult_1_r in E by exact Hq. exact E.
    - intros r Hr NE. unfold e. rewrite nth_tabC by exact Hr. destruct (Nat.eqb_spec r q); [contradiction|]. apply Cmult_0_r.
    - intros r Hr NE. unfold e. rewrite nth_tabC by exact Hr. destruct (Nat.eqb_spec r q); [contradiction|]. apply Cmult_0_r. }
  assert (E01 : forall p q, (p < length x)%nat -> (q < length x)%nat -> L1 p q = K0 p q).
  { apply KE. intros a LA. destruct (T k a AK LA) as [X _]. destruct (T' k a AK LA) as [_ Y]. congruence. }
  assert (E10 : forall p q, (p < length x)%nat -> (q < length x)%nat -> L0 p q = K1 p q).
  { apply KE. intros a LA. destruct (T k a AK LA) as [_ X]. destruct (T' k a AK LA) as [Y _]. congruence. }
  rewrite V, V' by assumption. rewrite total_swap. apply total_ext. intros p Hp. apply total_ext. intros q Hq.
  rewrite EM, E10, E01 by assumption. ring.
Qed.

(** The points returned for the second index are those of the first: they are
    the second transform's own only when the two pivots are equal. *)
Theorem double_points g l0 l1 n0 n1 x kr low ee e2d d k m y0 y1 b :
  dsbt_init g [l0; l1] [n0; n1] x kr low (EInt 0) ee e2d = Ok d ->
  snd (d_transform d k m) = Ok ((y0, y1), b) ->
  exists t0 t1, sbt_init g l0 n0 x kr low 0 ee Outer = Ok t0 /\ sbt_init g l1 n1 x kr low 0 ee Outer = Ok t1 /\
    y0 = s_post t0 /\ y1 = s_post t0 /\
    (y1 = s_post t1 <-> pivot (s_fbht t0) = pivot (s_fbht t1)) /\
    (low = false -> y1 = s_post t1).
Proof.
  intros H HB. destruct (dsbt_two _ _ _ _ _ _ _ _ _ _ _ H) as (t0 & t1 & H0 & H1 & ->).
  exists t0, t1. split; [exact H0|]. split; [exact H1|].
  assert (E : y0 = s_post t0 /\ y1 = s_post t0).
  { unfold d_transform in HB. cbn [d_extrap2d d_extrap Z.eqb d_t d_next d_post] in HB.
    assert (X : forall k m, snd (let (after, inter) := rows t1 k m in
       (after, inter <- inter ;;
        match inter with
        | [] => Err IndexError
        | _ => post_T <- snd (rows t0 ComplexArr (ctranspose inter)) ;;
               Ok ((s_post t0, s_post t0), map (post_slice 0) (post_slice 0 (ctranspose post_T)))
        end)) = Ok ((y0, y1), b) -> y0 = s_post t0 /\ y1 = s_post t0).
    { intros k' m' HX. destruct (rows t1 k' m') as [after inter]. cbn [snd] in HX.
      apply bind_ok in HX as (it & _ & HX). destruct it as [|r it]; [discriminate|].
      apply bind_ok in HX as (p & _ & HX). injection HX as <- <- _. auto. }
    destruct e2d; [destruct k; exact (X _ _ HB)|exact (X _ _ HB)]. }
  destruct E as [-> ->]. split; [reflexivity|]. split; [reflexivity|].
  destruct (sbt_init_plain _ _ _ _ _ _ _ _ _ H0) as (_ & _ & _ & _ & _ & PO0 & HH0).
  destruct (sbt_init_plain _ _ _ _ _ _ _ _ _ H1) as (_ & _ & _ & _ & _ & PO1 & HH1).
  pose proof (hankel_new_inv _ _ _ _ _ _ _ _ _ HH0) as I0. pose proof (hankel_new_inv _ _ _ _ _ _ _ _ _ HH1) as I1.
  destruct (fft_pairs _ _ _ _ _ _ _ _ _ HH0) as [L0 R0]. destruct (fft_pairs _ _ _ _ _ _ _ _ _ HH1) as [L1 R1].
  assert (DL : logres (s_fbht t0) = logres (s_fbht t1)).
  { now rewrite (h_logres _ _ _ _ _ _ _ _ _ I0), (h_logres _ _ _ _ _ _ _ _ _ I1). }
  pose proof (h_n _ _ _ _ _ _ _ _ _ I0) as Hn.
  assert (NZ : forall j, (j < length x)%nat -> nth (length x - 1 - j) x 0 <> 0).
  { intros j Hj E. specialize (R0 j Hj). rewrite E, Rmult_0_r in R0. pose proof (h_pivpos _ _ _ _ _ _ _ _ _ I0).
    pose proof (exp_pos (- logres (s_fbht t0))). nra. }
  assert (IFF : s_post t0 = s_post t1 <-> pivot (s_fbht t0) = pivot (s_fbht t1)).
  { rewrite PO0, PO1. split; intros E.
    - specialize (R0 0%nat ltac:(lia)). specialize (R1 0%nat ltac:(lia)). rewrite E, R1, DL in R0.
      apply Rmult_eq_reg_r in R0; [now symmetry|]. apply Rgt_not_eq, exp_pos.
    - apply (nth_ext _ _ 0 0); [congruence|]. intros j Hj. rewrite L0 in Hj.
      specialize (R0 j Hj). specialize (R1 j Hj). rewrite E, DL, <- R1 in R0. eapply Rmult_eq_reg_r; [exact R0|now apply NZ]. }
  split; [exact IFF|]. intros ->. apply IFF.
  rewrite (h_pivot _ _ _ _ _ _ _ _ _ I0), (h_pivot _ _ _ _ _ _ _ _ _ I1). reflexivity.
Qed.

(** A transform back on points that are off by a factor [lam]. *)
Lemma transform_back g ell n x kr low ee ee' l l' t t' lam y : real_gamma g ->
  sbt_init g ell n x kr low 0 ee l = Ok t -> sbt_init g ell (- n) y kr low 0 ee' l' = Ok t' ->
  (3 <= length x)%nat -> (forall r, In r x -> 0 < r) -> 0 < kr -> mid_kept x kr low ->
  0 < lam -> y = map (Rmult lam) (s_post t) ->
  s_post t' = map (fun r => r / lam) x /\
  forall k a b, an_array k -> length a = length x -> snd (transform t k a) = Ok (s_post t, b) ->
    snd (transform t' ComplexArr b) = Ok (s_post t', map (fun v => RtoC ((2 * PI) ^ 3 * lam ^ 3) * v)%C a).
Proof.
  intros G H H' N3 P HK MK HL EY.
  destruct (sbt_init_plain _ _ _ _ _ _ _ _ _ H) as (_ & HX & _ & _ & PRE & PO & HH).
  destruct (sbt_init_plain _ _ _ _ _ _ _ _ _ H') as (_ & HX' & _ & _ & PRE' & PO' & HH').
  rewrite opp_IZR in HH'. pose proof (hankel_new_inv _ _ _ _ _ _ _ _ _ HH) as I.
  pose proof (hankel_new_inv _ _ _ _ _ _ _ _ _ HH') as I'.
  set (h := s_fbht t) in *. set (h' := s_fbht t') in *.
  pose proof (post_length _ _ _ _ _ _ _ _ _ I) as PL. pose proof (h_pivpos _ _ _ _ _ _ _ _ _ I) as HP.
  pose proof (exp_pos (- logres h)) as HE.
  assert (LY : length y = length x) by (rewrite EY, map_length, PO; exact PL).
  assert (XP : forall j, (j < length x)%nat -> 0 < nth j x 0) by (intros j Hj; apply P, nth_In, Hj).
  assert (YN : forall j, (j < length x)%nat -> nth j y 0 = lam * (pivot h * exp (- logres h) / nth (length x - 1 - j) x 0)).
  { intros j Hj. rewrite EY, (nth_indep _ 0 (lam * 0)) by (rewrite map_length, PO; lia).
    rewrite (map_nth (Rmult lam)), PO, (post_nth _ _ _ _ _ _ _ _ _ _ I) by exact Hj. reflexivity. }
  assert (DL : logres h' = logres h).
  { rewrite (h_logres _ _ _ _ _ _ _ _ _ I'), LY. rewrite !YN by lia. rewrite (h_logres _ _ _ _ _ _ _ _ _ I) at 3.
    do 2 f_equal. replace (length x - 1 - (length x - 1))%nat with 0%nat by lia.
    replace (length x - 1 - 0)%nat with (length x - 1)%nat by lia.
    pose proof (XP 0%nat ltac:(lia)). pose proof (XP (length x - 1)%nat ltac:(lia)). field. repeat split; lra. }
  assert (PV : pivot h' = pivot h).
  { rewrite (h_pivot _ _ _ _ _ _ _ _ _ I'), (h_pivot _ _ _ _ _ _ _ _ _ I), DL.
    destruct low; [now apply lowring_opp_pos|reflexivity]. }
  assert (PP : s_post t' = map (fun r => r / lam) x).
  { rewrite PO'. apply nth_ext with 0 (0 / lam); [rewrite (post_length _ _ _ _ _ _ _ _ _ I'), map_length; exact LY|].
    rewrite (post_length _ _ _ _ _ _ _ _ _ I'), LY. intros j Hj.
    rewrite (map_nth (fun r => r / lam)), (post_nth _ _ _ _ _ _ _ _ _ _ I') by (rewrite LY; exact Hj).
    rewrite LY, YN, DL, PV by lia. replace (length x - 1 - (length x - 1 - j))%nat with j by lia.
    pose proof (XP j Hj). field. repeat split; lra. }
  split; [exact PP|]. intros k a b AK LA HB.
  rewrite in_place_plain in HB by (try assumption; now rewrite PRE). rewrite PRE, weigh_pos in HB by exact P.
  cbn [bind snd] in HB. change (map _ (seq 0 (length x))) with (weighed x a) in HB.
  assert (LW : length (weighed x a) = length x) by (unfold weighed; now rewrite map_length, seq_length).
  destruct (finish_plain _ _ _ _ _ _ _ _ _ (weighed x a) H N3 LW) as (B & HBB & LB & F). rewrite F in HB. injection HB as <-.
  set (b := map _ (seq 0 (length x))).
  assert (LBB : length b = length y) by (unfold b; rewrite map_length, seq_length; lia).
  assert (YP : forall r, In r y -> 0 < r).
  { intros r Hr. apply (In_nth _ _ 0) in Hr as (j & Hj & <-). rewrite LY in Hj. rewrite YN by exact Hj.
    apply Rmult_lt_0_compat; [exact HL|]. apply Rdiv_lt_0_compat; [now apply Rmult_lt_0_compat|apply XP; lia]. }
  rewrite in_place_plain; [|assumption|now right|now rewrite PRE'].
  rewrite PRE', weigh_pos by exact YP. cbn [bind snd]. change (map _ (seq 0 (length y))) with (weighed y b).
  assert (LWB : length (weighed y b) = length y) by (unfold weighed; now rewrite map_length, seq_length).
  destruct (finish_plain _ _ _ _ _ _ _ _ _ (weighed y b) H' ltac:(lia) LWB) as (B' & HB' & LB' & F'). rewrite F'. do 2 f_equal.
  pose proof PI_RGT_0 as PI0.
  set (w := RtoC (Rpower lam (3 / 2) * Rpower (2 * PI) (3 / 2))).
  assert (EW : forall j, (j < length x)%nat -> nth j (weighed y b) (RtoC 0) = (w * nth j B (RtoC 0))%C).
  { intros j Hj. unfold weighed. rewrite nth_tabC by lia. unfold b. rewrite nth_tabC by lia. rewrite PO, (post_nth _ _ _ _ _ _ _ _ _ _ I), YN by exact Hj.
    set (kj := pivot h * exp (- logres h) / nth (length x - 1 - j) x 0).
    assert (0 < kj) by (apply Rdiv_lt_0_compat; [now apply Rmult_lt_0_compat|apply XP; lia]).
    unfold w. rewrite Rpower_prod by lra.
    transitivity (RtoC (Rpower lam (3 / 2) * (Rpower kj (3 / 2) * Rpower (2 * PI / kj) (3 / 2))) * nth j B (RtoC 0))%C;
      [rewrite !RtoC_mult; ring|].
    rewrite <- Rpower_prod by (try assumption; apply Rdiv_lt_0_compat; lra).
    replace (kj * (2 * PI / kj)) with (2 * PI) by (field; lra). reflexivity. }
  pose proof (fft_inverse g _ _ x y kr low kr low ee ee' h h' (weighed x a) B G HH HH' LY DL PV MK LW HBB) as INV.
  destruct (biased_plain _ _ _ _ _ _ _ _ _ _ I' HB') as (_ & _ & EB').
  destruct (biased_plain _ _ _ _ _ _ _ _ _ _ I' INV) as (_ & _ & EA). rewrite LY in *.
  apply nth_ext with (RtoC 0) (RtoC ((2 * PI) ^ 3 * lam ^ 3) * RtoC 0)%C; [rewrite !map_length, seq_length; lia|].
  rewrite map_length, seq_length. intros j Hj. rewrite nth_tabC by exact Hj.
  rewrite (map_nth (fun v => RtoC ((2 * PI) ^ 3 * lam ^ 3) * v)%C).
  assert (EJ : nth j B' (RtoC 0) = (w * nth j (weighed x a) (RtoC 0))%C).
  { rewrite EB', nth_tabC by exact Hj. rewrite EA, nth_tabC by exact Hj. rewrite <- tr_scal.
    apply tr_ext; [reflexivity|]. intros i Hi. now apply EW. }
  rewrite EJ. unfold weighed. rewrite nth_tabC by exact Hj. rewrite PP.
  rewrite (nth_indep (map (fun r => r / lam) x) 0 (0 / lam)) by (rewrite map_length; exact Hj). rewrite (map_nth (fun r => r / lam)).
  pose proof (XP j Hj) as Pj. set (rj := nth j x 0) in *. unfold w.
  transitivity (RtoC (Rpower lam (3 / 2) * Rpower (2 * PI) (3 / 2) * (Rpower rj (3 / 2) * Rpower (2 * PI / (rj / lam)) (3 / 2)))
     * nth j a (RtoC 0))%C; [rewrite !RtoC_mult; ring|]. do 2 f_equal.
  assert (0 < rj / lam) by (apply Rdiv_lt_0_compat; lra).
  rewrite <- (Rpower_prod rj) by (try assumption; apply Rdiv_lt_0_compat; lra).
  replace (rj * (2 * PI / (rj / lam))) with (lam * (2 * PI)) by (field; lra).
  rewrite (Rpower_prod lam) by lra.
  assert (C3 : forall u, 0 < u -> Rpower u (3 / 2) * Rpower u (3 / 2) = u ^ 3).
  { intros u Hu. rewrite <- Rpower_plus. replace (3 / 2 + 3 / 2) with (INR 3) by (cbn [INR]; lra). now apply Rpower_pow. }
  rewrite <- !C3 by lra. ring.
Qed.

Lemma acts_fun n K (f : nat -> C) i : (i < n)%nat ->
  nth i (acts n K (map f (seq 0 n))) (RtoC 0) = total n (fun j => K i j * f j)%C.
Proof.
  intros Hi. unfold acts. rewrite nth_tabC by exact Hi. apply total_ext. intros j Hj. now rewrite nth_tabC by exact Hj.
Qed.

Lemma double_there_and_back g l0 l1 n0 n1 x kr low ee ee' e2d e2d' d d' dir dir' f f' k k' m y0 y1 b z c : real_gamma g ->
  py_prefactor (zsum [l0; l1]) 2 dir = Ok f -> py_prefactor (zsum [l0; l1]) 2 dir' = Ok f' ->
  (f * f' = RtoC (/ (2 * PI) ^ (3 * 2)))%C -> an_array k' ->
  dsbt_init g [l0; l1] [n0; n1] x kr low (EInt 0) ee e2d = Ok d ->
  dsbt_init g [l0; l1] [- n0; - n1]%Z y0 kr low (EInt 0) ee' e2d' = Ok d' ->
  (3 <= length x)%nat -> (forall r, In r x -> 0 < r) -> 0 < kr -> mid_kept x kr low ->
  an_array k -> square (length x) m ->
  snd (d_multipoles d dir k m) = Ok ((y0, y1), b) ->
  snd (d_multipoles d' dir' k' b) = Ok (z, c) ->
  exists t0 t1, sbt_init g l0 n0 x kr low 0 ee Outer = Ok t0 /\ sbt_init g l1 n1 x kr low 0 ee Outer = Ok t1 /\
  z = (x, x) /\ square (length x) c /\
  forall i j, (i < length x)%nat -> (j < length x)%nat ->
    entry c i j = (RtoC ((pivot (s_fbht t0) / pivot (s_fbht t1)) ^ 3) * entry m i j)%C.
Proof.
  intros G F1 F2 FF AK' H H' N3 P HK MK AK SM HB HC.
  destruct (dsbt_two _ _ _ _ _ _ _ _ _ _ _ H) as (u0 & u1 & U0 & U1 & ED).
  destruct (dsbt_two _ _ _ _ _ _ _ _ _ _ _ H') as (u0' & u1' & U0' & U1' & ED').
  destruct (double_transform _ _ _ _ _ _ _ _ _ _ _ H N3 P) as (t0 & t1 & K0 & K1 & H0 & H1 & T & D).
  rewrite H0 in U0. rewrite H1 in U1. injection U0 as <-. injection U1 as <-.
  exists t0, t1. split; [exact H0|]. split; [exact H1|].
  destruct (D k m AK SM) as (bb & EB & SB & VB).
  unfold d_multipoles in HB. rewrite ED in HB. cbn [d_degrees length] in HB. rewrite <- ED, F1, EB in HB.
  cbn [bind fst snd] in HB. injection HB as <- <- <-.
  destruct (sbt_init_plain _ _ _ _ _ _ _ _ _ H0) as (_ & _ & _ & _ & _ & PO0 & HH0).
  destruct (sbt_init_plain _ _ _ _ _ _ _ _ _ H1) as (_ & _ & _ & _ & _ & PO1 & HH1).
  pose proof (hankel_new_inv _ _ _ _ _ _ _ _ _ HH0) as I0. pose proof (hankel_new_inv _ _ _ _ _ _ _ _ _ HH1) as I1.
  pose proof (post_length _ _ _ _ _ _ _ _ _ I0) as L0. pose proof (post_length _ _ _ _ _ _ _ _ _ I1) as L1.
  pose proof (h_pivpos _ _ _ _ _ _ _ _ _ I0) as P0. pose proof (h_pivpos _ _ _ _ _ _ _ _ _ I1) as P1.
  set (p0 := pivot (s_fbht t0)) in *. set (p1 := pivot (s_fbht t1)) in *.
  assert (E0 : s_post t0 = map (Rmult 1) (s_post t0)).
  { rewrite (map_ext (Rmult 1) (fun v => v)) by (intros; apply Rmult_1_l). now rewrite map_id. }
  assert (E1 : s_post t0 = map (Rmult (p0 / p1)) (s_post t1)).
  { rewrite PO0, PO1. apply nth_ext with 0 (p0 / p1 * 0); [rewrite map_length; congruence|].
    intros j Hj. rewrite L0 in Hj. rewrite (map_nth (Rmult (p0 / p1))), (post_nth _ _ _ _ _ _ _ _ _ _ I0), (post_nth _ _ _ _ _ _ _ _ _ _ I1) by exact Hj.
    assert (logres (s_fbht t0) = logres (s_fbht t1)) as ->
      by now rewrite (h_logres _ _ _ _ _ _ _ _ _ I0), (h_logres _ _ _ _ _ _ _ _ _ I1).
    fold p0 p1. assert (0 < nth (length x - 1 - j) x 0) by (apply P, nth_In; lia). field. lra. }
  assert (LAM : 0 < p0 / p1) by now apply Rdiv_lt_0_compat.
  destruct (transform_back _ _ _ _ _ _ _ _ _ _ _ _ _ _ G H0 U0' N3 P HK MK Rlt_0_1 E0) as [Q0 B0].
  destruct (transform_back _ _ _ _ _ _ _ _ _ _ _ _ _ _ G H1 U1' N3 P HK MK LAM E1) as [Q1 B1].
  assert (LY : length (s_post t0) = length x) by (rewrite PO0; exact L0).
  assert (YP : forall r, In r (s_post t0) -> 0 < r).
  { intros r Hr. apply (In_nth _ _ 0) in Hr as (j & Hj & <-). rewrite LY in Hj. rewrite PO0, (post_nth _ _ _ _ _ _ _ _ _ _ I0) by exact Hj.
    apply Rdiv_lt_0_compat; [apply Rmult_lt_0_compat; [exact P0|apply exp_pos]|apply P, nth_In; lia]. }
  destruct (double_transform _ _ _ _ _ _ _ _ _ _ _ H' ltac:(lia) YP) as (v0 & v1 & K0' & K1' & V0 & V1 & T' & D').
  rewrite V0 in U0'. rewrite V1 in U1'. injection U0' as <-. injection U1' as <-.
  set (fb := map (map (fun z => z * f)%C) bb) in *.
  assert (SF : square (length x) fb) by (apply square_map; [exact SB|intros r; rewrite map_length; auto]).
  rewrite LY in D', T'. destruct (D' k' fb AK' SF) as (cc & EC & SC & VC).
  unfold d_multipoles in HC. rewrite ED' in HC. cbn [d_degrees length] in HC. rewrite <- ED', F2, EC in HC.
  cbn [bind fst snd] in HC. injection HC as <- <-. set (n := length x) in *.
  split.
  { rewrite Q0, (map_ext (fun r => r / 1) (fun v => v)) by (intros; field). now rewrite map_id. }
  split; [apply square_map; [exact SC|intros r; now rewrite map_length]|].
  (* the one-dimensional matrices are inverse *)
  assert (INV0 : forall (a : nat -> C) i, (i < n)%nat ->
     total n (fun p => K0' i p * total n (fun r => K0 p r * a r))%C = (RtoC ((2 * PI) ^ 3) * a i)%C).
  { intros a i Hi. set (v := map a (seq 0 n)). assert (LV : length v = n) by (unfold v; now rewrite map_length, seq_length).
    destruct (T ComplexArr v (or_intror eq_refl) LV) as [X _]. specialize (B0 ComplexArr v _ (or_intror eq_refl) LV X).
    destruct (T' ComplexArr (acts n K0 v) (or_intror eq_refl) ltac:(apply acts_length)) as [Y _]. rewrite Y in B0. injection B0 as B0.
    apply (f_equal (fun l => nth i l (RtoC 0))) in B0.
    rewrite (nth_indep (map _ v) _ (RtoC ((2 * PI) ^ 3 * 1 ^ 3) * RtoC 0)%C) in B0 by (rewrite map_length; lia).
    rewrite (map_nth (fun w => RtoC ((2 * PI) ^ 3 * 1 ^ 3) * w)%C) in B0. unfold v in B0 at 2. rewrite nth_tabC in B0 by exact Hi.
    rewrite pow1, Rmult_1_r in B0. rewrite <- B0. unfold acts at 1. rewrite nth_tabC by exact Hi. apply total_ext. intros p Hp.
    f_equal. unfold v. now rewrite acts_fun by exact Hp. }
  assert (INV1 : forall (a : nat -> C) i, (i < n)%nat ->
     total n (fun p => K1' i p * total n (fun r => K1 p r * a r))%C = (RtoC ((2 * PI) ^ 3 * (p0 / p1) ^ 3) * a i)%C).
  { intros a i Hi. set (v := map a (seq 0 n)). assert (LV : length v = n) by (unfold v; now rewrite map_length, seq_length).
    destruct (T ComplexArr v (or_intror eq_refl) LV) as [_ X]. specialize (B1 ComplexArr v _ (or_intror eq_refl) LV X).
    destruct (T' ComplexArr (acts n K1 v) (or_intror eq_refl) ltac:(apply acts_length)) as [_ Y]. rewrite Y in B1. injection B1 as B1.
    apply (f_equal (fun l => nth i l (RtoC 0))) in B1.
    rewrite (nth_indep (map _ v) _ (RtoC ((2 * PI) ^ 3 * (p0 / p1) ^ 3) * RtoC 0)%C) in B1 by (rewrite map_length; lia).
    rewrite (map_nth (fun w => RtoC ((2 * PI) ^ 3 * (p0 / p1) ^ 3) * w)%C) in B1. unfold v in B1 at 2. rewrite nth_tabC in B1 by exact Hi.
    rewrite <- B1. unfold acts at 1. rewrite nth_tabC by exact Hi. apply total_ext. intros p Hp.
    f_equal. unfold v. now rewrite acts_fun by exact Hp. }
  intros i j Hi Hj. rewrite (entry_map n cc) by assumption.
  pose proof (square_nth n cc i SC Hi) as LCC.
  rewrite (nth_indep _ (RtoC 0) (RtoC 0 * f')%C) by (rewrite map_length; lia). rewrite (map_nth (fun z => z * f')%C).
  change (nth j (nth i cc []) (RtoC 0)) with (entry cc i j). rewrite VC by assumption.
  transitivity (total n (fun p => K0' i p * total n (fun r => K0 p r *
      total n (fun q => K1' j q * total n (fun s => K1 q s * entry m r s)))) * (f * f'))%C.
  - rewrite Cmult_assoc. f_equal. rewrite <- total_scal_r. apply total_ext. intros p Hp.
    transitivity (K0' i p * f * total n (fun q => K1' j q * entry bb p q))%C.
    { rewrite <- total_scal. apply total_ext. intros q Hq. unfold fb. rewrite (entry_map n bb) by assumption.
      rewrite (nth_indep _ (RtoC 0) (RtoC 0 * f)%C) by (rewrite map_length, (square_nth n bb p SB Hp); exact Hq).
      rewrite (map_nth (fun z => z * f)%C). unfold entry. ring. }
    replace (K0' i p * f)%C with (f * K0' i p)%C by ring. rewrite <- Cmult_assoc, (Cmult_comm f). f_equal. f_equal.
    transitivity (total n (fun q => total n (fun r => K1' j q * (K0 p r * total n (fun s => K1 q s * entry m r s)))))%C.
    { apply total_ext. intros q Hq. rewrite VB by assumption. rewrite total_scal. f_equal. apply total_ext. intros r Hr.
      rewrite <- total_scal. apply total_ext. intros s _. ring. }
    rewrite total_swap. apply total_ext. intros r Hr. rewrite <- total_scal. apply total_ext. intros q Hq. ring.
  - rewrite FF. set (c1 := RtoC ((2 * PI) ^ 3 * (p0 / p1) ^ 3)).
    transitivity (total n (fun p => K0' i p * total n (fun r => K0 p r * (c1 * entry m r j))) * RtoC (/ (2 * PI) ^ (3 * 2)))%C.
    { f_equal. apply total_ext. intros p Hp. f_equal. apply total_ext. intros r Hr. f_equal. unfold c1. rewrite INV1 by exact Hj. reflexivity. }
    rewrite (INV0 (fun r => c1 * entry m r j)%C i Hi). unfold c1.
    transitivity (RtoC ((2 * PI) ^ 3 * ((2 * PI) ^ 3 * (p0 / p1) ^ 3) * / (2 * PI) ^ (3 * 2)) * entry m i j)%C;
      [rewrite !RtoC_mult; ring|]. do 2 f_equal. pose proof PI_RGT_0. cbn [Nat.mul Nat.add pow]. field. split; lra.
Qed.

(** Forward, then back on the points the forward transform returned: the
    points of the second index are off by the ratio of the pivots, and the
    samples come back multiplied by its cube. *)
Theorem double_round_trip g l0 l1 n0 n1 x kr low ee ee' e2d e2d' d d' k m y0 y1 b z c : real_gamma g ->
  dsbt_init g [l0; l1] [n0; n1] x kr low (EInt 0) ee e2d = Ok d ->
  dsbt_init g [l0; l1] [- n0; - n1]%Z y0 kr low (EInt 0) ee' e2d' = Ok d' ->
  (3 <= length x)%nat -> (forall r, In r x -> 0 < r) -> 0 < kr -> mid_kept x kr low ->
  an_array k -> square (length x) m ->
  snd (d_multipoles d (DStr "forward") k m) = Ok ((y0, y1), b) ->
  snd (d_multipoles d' (DStr "backward") ComplexArr b) = Ok (z, c) ->
  exists t0 t1, sbt_init g l0 n0 x kr low 0 ee Outer = Ok t0 /\ sbt_init g l1 n1 x kr low 0 ee Outer = Ok t1 /\
  z = (x, x) /\
  forall i j, (i < length x)%nat -> (j < length x)%nat ->
    entry c i j = (RtoC ((pivot (s_fbht t0) / pivot (s_fbht t1)) ^ 3) * entry m i j)%C.
Proof.
  intros G H H' N3 P HK MK AK SM HB HC.
  destruct (py_prefactors (zsum [l0; l1]) 2) as (f & f' & F1 & _ & F2 & _ & FF & _).
  destruct (double_there_and_back _ _ _ _ _ _ _ _ _ _ _ _ _ _ _ _ _ _ _ _ _ _ _ _ _ _ G F1 F2 FF (or_intror eq_refl) H H' N3 P HK MK AK SM HB HC)
    as (t0 & t1 & A1 & A2 & A3 & _ & A4). exists t0, t1. auto.
Qed.

(** Gamma (z + 1) = z Gamma (z), for the phases. *)
Definition gamma_step (g : gsl) : Prop := forall x y, 0 < x ->
  exists k, theta g (x + 1) y = theta g x y + atan (y / x) + 2 * PI * IZR k.

Lemma pivots_differ g dL kr : gamma_step g -> 0 < kr -> dL = 2 * PI / 3 ->
  lowring_pivot g (IZR 0 + 1 / 2) (IZR 0) dL kr <> lowring_pivot g (IZR 2 + 1 / 2) (IZR 0) dL kr.
Proof.
  intros S HK ED. pose proof PI_RGT_0 as HP. unfold lowring_pivot.
  destruct (Rltb 0 kr) eqn:E; [clear E|apply Rltb_false in E; lra].
  replace ((IZR 0 + 1 / 2 + 1 + IZR 0) / 2) with (3 / 4) by lra. replace ((IZR 0 + 1 / 2 + 1 - IZR 0) / 2) with (3 / 4) by lra.
  replace ((IZR 2 + 1 / 2 + 1 + IZR 0) / 2) with (3 / 4 + 1) by lra. replace ((IZR 2 + 1 / 2 + 1 - IZR 0) / 2) with (3 / 4 + 1) by lra.
  replace (PI / (2 * dL)) with (3 / 4) by (rewrite ED; field; lra).
  destruct (S (3 / 4) (3 / 4) ltac:(lra)) as [k SK]. replace (3 / 4 / (3 / 4)) with 1 in SK by field. rewrite atan_1 in SK. rewrite SK.
  set (t := theta g (3 / 4) (3 / 4)). set (a := ln (2 / kr) / dL + (t + t) / PI). set (b := ln (2 / kr) / dL + _).
  assert (AB : b = a + 1 / 2 + 4 * IZR k) by (unfold a, b; field; rewrite ED; split; lra).
  intros EQ. apply Rmult_eq_reg_l in EQ; [|lra]. apply exp_inv in EQ. apply Rmult_eq_reg_l in EQ; [|rewrite ED; lra].
  rewrite AB in EQ at 1. set (u := cround a) in EQ. set (v := cround b) in EQ.
  assert (Z2 : IZR (2 * (v - u - 4 * k)) = IZR 1) by (rewrite mult_IZR, !minus_IZR, mult_IZR; lra).
  apply eq_IZR in Z2. lia.
Qed.

(** So with the default ringing condition the second index comes with wrong
    points: degrees 0 and 2 on any three points with spacing 2 pi / 3. *)
Theorem double_points_refuted g : gamma_step g -> exists d t0 t1,
  dsbt_init g [0; 2]%Z [0; 0]%Z (pts 1 (2 * PI / 3) 3) 1 true (EInt 0) 2 true = Ok d /\
  sbt_init g 0 0 (pts 1 (2 * PI / 3) 3) 1 true 0 2 Outer = Ok t0 /\
  sbt_init g 2 0 (pts 1 (2 * PI / 3) 3) 1 true 0 2 Outer = Ok t1 /\
  (forall k m y0 y1 b, snd (d_transform d k m) = Ok ((y0, y1), b) -> y1 <> s_post t1) /\
  (pivot (s_fbht t0) / pivot (s_fbht t1)) ^ 3 <> 1.
Proof.
  intros S. pose proof PI_RGT_0 as HP. set (x := pts 1 (2 * PI / 3) 3).
  assert (LX : length x = 3%nat) by apply pts_length.
  assert (LS : log_spaced 1 (2 * PI / 3) x) by (intros j Hj; apply pts_nth; now rewrite LX in Hj).
  destruct (sbt_init_ok g 0 0 1 (2 * PI / 3) x 1 true 2 Outer) as [t0 H0]; try lra; try lia; try assumption.
  destruct (sbt_init_ok g 2 0 1 (2 * PI / 3) x 1 true 2 Outer) as [t1 H1]; try lra; try lia; try assumption.
  pose proof (dsbt_two_conv _ _ _ _ _ _ _ _ _ true _ _ H0 H1) as HD.
  destruct (sbt_init_plain _ _ _ _ _ _ _ _ _ H0) as (_ & _ & _ & _ & _ & PO0 & HH0).
  destruct (sbt_init_plain _ _ _ _ _ _ _ _ _ H1) as (_ & _ & _ & _ & _ & PO1 & HH1).
  destruct (fft_log_spaced _ _ _ _ _ _ _ _ _ _ _ HH0 Rlt_0_1 LS) as [D0 _].
  destruct (fft_log_spaced _ _ _ _ _ _ _ _ _ _ _ HH1 Rlt_0_1 LS) as [D1 _].
  pose proof (hankel_new_inv _ _ _ _ _ _ _ _ _ HH0) as I0. pose proof (hankel_new_inv _ _ _ _ _ _ _ _ _ HH1) as I1.
  assert (NE : pivot (s_fbht t0) <> pivot (s_fbht t1)).
  { rewrite (h_pivot _ _ _ _ _ _ _ _ _ I0), (h_pivot _ _ _ _ _ _ _ _ _ I1), D0, D1. apply pivots_differ; [exact S|lra|reflexivity]. }
  eexists. exists t0, t1. split; [exact HD|]. split; [exact H0|]. split; [exact H1|]. split.
  - intros k m y0 y1 b HB. destruct (double_points _ _ _ _ _ _ _ _ _ _ _ _ _ _ _ _ HD HB) as (u0 & u1 & G0 & G1 & _ & _ & IFF & _).
    rewrite H0 in G0. rewrite H1 in G1. injection G0 as <-. injection G1 as <-. intros E. now apply NE, IFF.
  - pose proof (h_pivpos _ _ _ _ _ _ _ _ _ I0) as P0. pose proof (h_pivpos _ _ _ _ _ _ _ _ _ I1) as P1.
    set (p0 := pivot (s_fbht t0)) in *. set (p1 := pivot (s_fbht t1)) in *. intros E. apply NE.
    assert (R : 0 < p0 / p1) by now apply Rdiv_lt_0_compat. set (r := p0 / p1) in *.
    assert (R1 : r = 1) by nra. unfold r in R1. apply (Rmult_eq_compat_r p1) in R1. rewrite Rmult_1_l in R1.
    rewrite <- R1. field. lra.
Qed.

(** `pivot` never has a value, and a pair of extrapolation options is refused
    (both against the documentation). *)
Theorem double_pivot_error d : exists e, d_pivot d = Err e.
Proof. unfold d_pivot. destruct (d_t d); eauto. Qed.

Theorem double_tuple_error g degrees biases x kr low z0 z1 ee e2d :
  dsbt_init g degrees biases x kr low (ETuple z0 z1) ee e2d = Err ValueError.
Proof. reflexivity. Qed.

(* ------------------------------------------------------------------ *)
(* Non-trivial cases                                                   *)

(** A phase with the recurrence, real on the real axis. *)
Definition step_gsl : gsl := mk_gsl (fun _ _ => 0)
  (fun x y => rsum (map (fun i => atan (y / (x - IZR (Zfloor x) + INR i))) (seq 0 (Z.to_nat (Zfloor x))))).

Example step_gsl_case : gamma_step step_gsl /\ real_gamma step_gsl.
Proof.
  split.
  - intros x y Hx. exists 0%Z. rewrite Rmult_0_r, Rplus_0_r. cbn [theta step_gsl].
    assert (F0 : (0 <= Zfloor x)%Z) by (apply Zfloor_lub; cbn; lra).
    assert (F1 : Zfloor (x + 1) = (Zfloor x + 1)%Z).
    { apply Zfloor_imp. rewrite !plus_IZR. pose proof (Zfloor_lb x). pose proof (Zfloor_ub x). cbn. lra. }
    rewrite F1, Z2Nat.inj_add, Nat.add_1_r, seq_S, map_app, rsum_app by lia. cbn [map Nat.add].
    rewrite rsum_cons, rsum_nil, Rplus_0_r, plus_IZR. f_equal.
    + apply rsum_map_ext. intros i _. do 3 f_equal. cbn. lra.
    + do 2 f_equal. rewrite INR_IZR_INZ, Z2Nat.id by exact F0. cbn. lra.
  - intros x. cbn [theta step_gsl]. rewrite rsum_map_zero; [apply sin_0|]. intros i _. unfold Rdiv. rewrite Rmult_0_l. apply atan_0.
Qed.

(** Four samples on 1, e, e^2, e^3 come back through Python. *)
Example py_round_trip_case : exists t t' y b,
  sbt_init step_gsl 2 0 (pts 1 1 4) 1 true 0 2 Outer = Ok t /\ sbt_init step_gsl 2 0 y 1 true 0 2 Outer = Ok t' /\
  snd (multipoles t (DStr "forward") FloatArr (map RtoC [1; 2; 3; 5])) = Ok (y, b) /\
  snd (multipoles t' (DStr "backward") ComplexArr b) = Ok (pts 1 1 4, map RtoC [1; 2; 3; 5]).
Proof.
  apply (py_round_trip_exists step_gsl 2 0 1 1 4 1 true 2 Outer FloatArr); try lra; try lia; try reflexivity; try (now right); try (now left).
  apply step_gsl_case.
Qed.

(** Two points made into four. *)
Example outer_case : exists t, sbt_init step_gsl 0 0 (pts 1 1 2) 1 true 4 2 Outer = Ok t /\ s_next t = 1%Z /\ length (s_post t) = 2%nat.
Proof.
  set (x := pts 1 1 2). assert (LX : length x = 2%nat) by apply pts_length.
  assert (SZ : py_size (2 * INR (length x)) = Ok 4%Z).
  { rewrite LX. replace (2 * INR 2) with 4 by (cbn [INR]; lra). unfold py_size.
    destruct (Rltb 4 0) eqn:E1; [apply Rltb_spec in E1; lra|].
    destruct (Reqb 4 0) eqn:E2; [apply Reqb_spec in E2; lra|].
    replace (ln 4) with (2 * ln 2) by (replace 4 with (2 * 2) by lra; rewrite ln_mult by lra; ring).
    pose proof ln2_pos. replace (2 * ln 2 / ln 2) with (IZR 2) by (field; lra). now rewrite Zceil_IZR. }
  assert (X0 : nth 0 x 0 = 1) by (unfold x; rewrite pts_nth by lia; cbn [INR]; rewrite Rmult_0_l, exp_0; lra).
  assert (X1 : nth 1 x 0 = exp 1) by (unfold x; rewrite pts_nth by lia; cbn [INR]; rewrite !Rmult_1_l; reflexivity).
  pose proof (exp_pos 1) as EP.
  assert (EL : extrap_loglin x 1 = Ok [exp (-1); 1; exp 1; exp 2]).
  { unfold extrap_loglin. rewrite check_epsign_ok; [|lia|].
    - cbn [bind]. assert (NB : Reqb (atm2 x) 0 = false /\ Reqb (at0 x) 0 = false /\ Reqb (at1 x) 0 = false /\ Reqb (atm1 x) 0 = false).
      { unfold atm2, at0, at1, atm1. rewrite LX. cbn [Nat.sub]. rewrite X0, X1.
        assert (Reqb 1 0 = false) by (apply not_true_is_false; intros E; apply Reqb_spec in E; lra).
        assert (Reqb (exp 1) 0 = false) by (apply not_true_is_false; intros E; apply Reqb_spec in E; lra). auto. }
      destruct NB as (N1 & N2 & N3 & N4). rewrite ?N1, ?N2, ?N3, ?N4. cbn [orb andb negb]. rewrite ?andb_false_r.
      change (arange_down 1) with [1%Z]. change (arange 1 (1 + 1)) with [1%Z]. cbn [map app].
      replace x with [1; exp 1].
      2:{ apply nth_ext with 0 0; [now rewrite LX|]. intros [|[|j]] Hj; cbn in Hj; [now rewrite X0|now rewrite X1|lia]. }
      unfold atm2, at0, at1, atm1. cbn [length Nat.sub nth]. unfold rpow. change (Z.to_nat 1) with 1%nat. rewrite !pow_1.
      assert (E2 : exp 2 = exp 1 * exp 1) by (rewrite <- exp_plus; f_equal; lra).
      assert (E3 : exp (-1) = / exp 1) by (rewrite <- exp_Ropp; f_equal; lra). rewrite E2, E3.
      replace (1 * (1 / exp 1)) with (/ exp 1) by (field; lra).
      replace (exp 1 * (exp 1 / 1)) with (exp 1 * exp 1) by (field; lra). reflexivity.
    - unfold epsign_ok, at0, at1, atm1, atm2. rewrite LX. cbn [Nat.sub]. rewrite X0, X1.
      apply andb_true_iff. split; apply orb_true_iff; left; apply Rltb_spec; nra. }
  assert (LS : log_spaced (exp (-1)) 1 [exp (-1); 1; exp 1; exp 2]).
  { intros j Hj. cbn [length] in Hj. rewrite <- exp_plus.
    destruct j as [|[|[|[|j]]]]; [| | | |lia]; cbn [nth INR].
    - f_equal; lra. - rewrite <- exp_0 at 1. f_equal; lra. - f_equal; lra. - f_equal; lra. }
  destruct (py_hankel_ok step_gsl (IZR 0 + 1 / 2) (IZR 0) (exp (-1)) 1 [exp (-1); 1; exp 1; exp 2] 1 true 2) as (h & HP & HN);
    try lra; try (cbn [length]; lia); try assumption; try apply exp_pos.
  assert (HS : exists t, sbt_init step_gsl 0 0 x 1 true 4 2 Outer = Ok t).
  { unfold sbt_init. cbn [Z.leb Z.compare Pos.compare Pos.compare_cont andb negb Z.eqb Pos.eqb]. rewrite SZ, LX.
    cbn [Nat.odd Nat.even negb bind]. change ((4 - Z.of_nat 2) / 2)%Z with 1%Z. rewrite EL. cbn [bind]. rewrite HP. cbn [bind].
    eexists. reflexivity. }
  destruct HS as [t HS]. exists t. split; [exact HS|].
  destruct (outer_points _ _ _ _ _ _ _ _ _ HS ltac:(lia) ltac:(lra) ltac:(lia)) as (_ & E & _ & L & _).
  split; [|now rewrite L].
  destruct (sbt_init_outer _ _ _ _ _ _ _ _ _ HS ltac:(lia)) as (_ & _ & _ & _ & _ & nt & p & S & N & _).
  rewrite SZ in S. injection S as <-. rewrite N, LX. reflexivity.
Qed.

Print Assumptions poles_terminate.
Print Assumptions outer_points.
Print Assumptions outer_shrink_refuted.
Print Assumptions transform_keeps.
Print Assumptions transform_scales.
Print Assumptions transform_refuted.
Print Assumptions py_prefactors.
Print Assumptions direction_refused.
Print Assumptions py_cpp_agree.
Print Assumptions py_round_trip.
Print Assumptions py_round_trip_exists.
Print Assumptions double_transform.
Print Assumptions double_product.
Print Assumptions double_swap.
Print Assumptions double_points.
Print Assumptions double_round_trip.
Print Assumptions double_points_refuted.
Print Assumptions double_pivot_error.
Print Assumptions double_tuple_error.
