(* Claim C08: log-linear extrapolation of oscillatory arrays. *)
From Coq Require Import Reals ZArith List Lia Lra Bool.
From Verif Require Import Base ArrayModel ArrayProofs ArrayProps Array2dModel Array2dProps OscilModel.
Import ListNotations.
Open Scope R_scope.

(** ** Specification vocabulary *)

(** [x] has the sign of [e] and is at most as large; it is zero only if [e] is. *)
Definition tamer (x e : R) : Prop :=
  0 <= x * e /\ Rabs x <= Rabs e /\ (x = 0 -> e = 0).

(** Both added ends of [out] decay away from the data: each added entry is
    tamer than its neighbour on the data side. *)
Definition ends_decay (len n : nat) (out : list R) : Prop :=
  (forall i, (i < n)%nat -> tamer (nth i out 0) (nth (i + 1) out 0)) /\
  (forall i, (i < n)%nat -> tamer (nth (n + len + i) out 0) (nth (n + len + i - 1) out 0)).

(** A finite geometric sequence. *)
Definition geometric (c r : R) (n : nat) : list R := map (fun i => c * r ^ i) (seq 0 n).

(** ** Proof support *)
Lemma powlaw_left_nonpos a i q p w : powlaw_left a i q = Ok (p, w) -> p <= 0 /\ (w = true -> p = 0).
Proof.
  unfold powlaw_left. intros H. apply bind_ok in H as (g & Hg & H).
  destruct (sign_changes g).
  - destruct (Rle_dec 0 _) as [L|L] in H.
    + injection H as <- <-. split; [lra|discriminate].
    + apply bind_ok in H as (h & Hh & H).
      destruct (Rle_dec 0 _) as [L'|L'] in H; injection H as <- <-; split; try lra; try discriminate; auto.
  - destruct (Rle_dec 0 _) as [L|L] in H; injection H as <- <-; split; try lra; try discriminate; auto.
Qed.

Lemma powlaw_right_nonpos a i q p w : powlaw_right a i q = Ok (p, w) -> p <= 0 /\ (w = true -> p = 0).
Proof.
  unfold powlaw_right. intros H. apply bind_ok in H as (g & Hg & H).
  destruct (sign_changes g).
  - destruct (Rle_dec _ 0) as [L|L] in H.
    + injection H as <- <-. split; [lra|discriminate].
    + apply bind_ok in H as (h & Hh & H).
      destruct (Rle_dec _ 0) as [L'|L'] in H; injection H as <- <-; split; try lra; try discriminate; auto.
  - destruct (Rle_dec _ 0) as [L|L] in H; injection H as <- <-; split; try lra; try discriminate; auto.
Qed.

Definition oscil_out (a : list R) (n : nat) (pl pr : R) : list R :=
  map (fun k => at0 a * exp (pl * IZR k)) (arange_down (Z.of_nat n)) ++ a ++
  map (fun k => atm1 a * exp (pr * IZR k)) (arange 1 (Z.of_nat n + 1)).

Lemma oscil_out_left a n pl pr i : (0 < length a)%nat -> (i <= n)%nat ->
  nth i (oscil_out a n pl pr) 0 = at0 a * exp (pl * INR (n - i)).
Proof.
  intros Ha Hi. unfold oscil_out. rewrite nth_lar, map_length, arange_down_length, Nat2Z.id.
  destruct (i <? n)%nat eqn:E.
  - apply Nat.ltb_lt in E. rewrite nth_map_arange_down by lia.
    rewrite INR_IZR_INZ. do 4 f_equal. lia.
  - apply Nat.ltb_ge in E. assert (i = n) by lia. subst i.
    destruct (n <? n + length a)%nat eqn:E2; [|apply Nat.ltb_ge in E2; lia].
    rewrite Nat.sub_diag. unfold at0. simpl. rewrite Rmult_0_r, exp_0. ring.
Qed.

Lemma oscil_out_right a n pl pr i : (0 < length a)%nat -> (i <= n)%nat ->
  nth (n + length a - 1 + i) (oscil_out a n pl pr) 0 = atm1 a * exp (pr * INR i).
Proof.
  intros Ha Hi. unfold oscil_out. rewrite nth_lar, map_length, arange_down_length, Nat2Z.id.
  destruct (n + length a - 1 + i <? n)%nat eqn:E; [apply Nat.ltb_lt in E; lia|].
  destruct (n + length a - 1 + i <? n + length a)%nat eqn:E2.
  - apply Nat.ltb_lt in E2. assert (i = 0)%nat by lia. subst i.
    unfold atm1. simpl. rewrite Rmult_0_r, exp_0, Rmult_1_r. f_equal. lia.
  - apply Nat.ltb_ge in E2. rewrite nth_map_arange by lia.
    rewrite INR_IZR_INZ. do 4 f_equal. lia.
Qed.

Lemma oscil_out_shape a n pl pr : extends a (oscil_out a n pl pr) n.
Proof.
  unfold oscil_out. apply extends_lar; rewrite map_length;
    [rewrite arange_down_length|rewrite arange_length]; lia.
Qed.

Lemma oscil_inv a n out w : extrap_loglin_oscil a (Z.of_nat n) = Ok (out, w) ->
  (2 <= length a)%nat /\ exists pl pr, out = oscil_out a n pl pr /\ pl <= 0 /\ pr <= 0 /\
    (fst w = true -> pl = 0) /\ (snd w = true -> pr = 0).
Proof.
  unfold extrap_loglin_oscil. intros H. apply bind_ok in H as (a' & Ha & H).
  assert (L : (2 <= length a)%nat).
  { destruct (le_lt_dec 2 (length a)) as [L|L]; [exact L|]. now rewrite check_small in Ha. }
  rewrite check_plain in Ha by exact L. injection Ha as <-.
  split; [exact L|].
  apply bind_ok in H as ((((lt & rt) & lq) & rq) & Hi & H).
  apply bind_ok in H as ((pl & wl) & Hl & H).
  apply bind_ok in H as ((pr & wr) & Hr & H).
  injection H as <- <-. exists pl, pr.
  apply powlaw_left_nonpos in Hl as [? ?]. apply powlaw_right_nonpos in Hr as [? ?].
  repeat split; auto.
Qed.

Lemma tamer_exp e p (k m : nat) : p <= 0 -> (k <= m)%nat ->
  tamer (e * exp (p * INR m)) (e * exp (p * INR k)).
Proof.
  intros Hp Hk. unfold tamer.
  assert (P1 := exp_pos (p * INR m)). assert (P2 := exp_pos (p * INR k)).
  repeat split.
  - replace (e * exp (p * INR m) * (e * exp (p * INR k)))
      with (e * e * (exp (p * INR m) * exp (p * INR k))) by ring.
    apply Rmult_le_pos; [apply Rle_0_sqr|]. left. now apply Rmult_lt_0_compat.
  - rewrite !Rabs_mult. apply Rmult_le_compat_l; [apply Rabs_pos|].
    rewrite !Rabs_pos_eq by lra.
    assert (INR k <= INR m) by now apply le_INR.
    assert (p * INR m <= p * INR k) by nra.
    destruct (Req_dec (p * INR m) (p * INR k)) as [->|N]; [lra|].
    left. apply exp_increasing. lra.
  - intros H0. apply Rmult_integral in H0 as [->|H0]; [ring|lra].
Qed.

Lemma oscil_out_decay a n pl pr : (0 < length a)%nat -> pl <= 0 -> pr <= 0 ->
  ends_decay (length a) n (oscil_out a n pl pr).
Proof.
  intros Ha Hl Hr. split; intros i Hi.
  - rewrite !oscil_out_left by lia. apply tamer_exp; [exact Hl|lia].
  - replace (n + length a + i)%nat with (n + length a - 1 + (i + 1))%nat by lia.
    replace (n + length a - 1 + (i + 1) - 1)%nat with (n + length a - 1 + i)%nat by lia.
    rewrite !oscil_out_right by lia. apply tamer_exp; [exact Hr|lia].
Qed.

(** ** C08: whenever the routine returns, the input sits in the middle and both
    ends decay geometrically and keep the sign of the end point; a divergence
    warning means that this end is constant. *)
Theorem extrap_oscil_decays :
  forall a n out wl wr, extrap_loglin_oscil a (Z.of_nat n) = Ok (out, (wl, wr)) ->
  extends a out n /\ ends_decay (length a) n out /\
  (forall i, (i + 1 < n)%nat -> equal_ratio out i /\ equal_ratio out (n + length a - 1 + i)) /\
  (wl = true -> forall i, (i < n)%nat -> nth i out 0 = nth n out 0) /\
  (wr = true -> forall i, (i < n)%nat -> nth (n + length a + i) out 0 = nth (n + length a - 1) out 0).
Proof.
  intros a n out wl wr H. apply oscil_inv in H as (L & pl & pr & -> & Hl & Hr & Wl & Wr).
  simpl in Wl, Wr.
  split; [apply oscil_out_shape|]. split; [apply oscil_out_decay; lia || assumption|].
  split; [|split].
  - intros i Hi. unfold equal_ratio. split.
    + rewrite !oscil_out_left by lia.
      replace (n - i)%nat with (n - (i + 2) + 2)%nat by lia.
      replace (n - (i + 1))%nat with (n - (i + 2) + 1)%nat by lia.
      set (k := (n - (i + 2))%nat). rewrite !plus_INR. simpl.
      rewrite !Rmult_plus_distr_l, !exp_plus, Rmult_1_r. ring.
    + replace (n + length a - 1 + i + 1)%nat with (n + length a - 1 + (i + 1))%nat by lia.
      replace (n + length a - 1 + i + 2)%nat with (n + length a - 1 + (i + 2))%nat by lia.
      rewrite !oscil_out_right by lia. rewrite !plus_INR. simpl.
      rewrite !Rmult_plus_distr_l, !exp_plus, Rmult_1_r. ring.
  - intros Hw i Hi. rewrite (Wl Hw), !oscil_out_left by lia. now rewrite !Rmult_0_l.
  - intros Hw i Hi. rewrite (Wr Hw).
    replace (n + length a + i)%nat with (n + length a - 1 + (i + 1))%nat by lia.
    replace (n + length a - 1)%nat with (n + length a - 1 + 0)%nat at 2 by lia.
    rewrite !oscil_out_right by lia. now rewrite !Rmult_0_l.
Qed.

(** ** When the routine returns *)
Lemma gradient_ok f : (2 <= length f)%nat -> exists g, gradient f = Ok g /\ length g = length f.
Proof.
  intros H. unfold gradient. destruct (length f <? 2)%nat eqn:E; [apply Nat.ltb_lt in E; lia|].
  eexists. split; [reflexivity|]. now rewrite map_length, seq_length.
Qed.

Lemma gradient_small f : (length f < 2)%nat -> gradient f = Err ValueError.
Proof. intros H. unfold gradient. apply Nat.ltb_lt in H. now rewrite H. Qed.

Lemma lngrad_ok s : (2 <= length s)%nat -> exists g, lngrad s = Ok g /\ length g = length s.
Proof.
  intros H. unfold lngrad. destruct (gradient_ok (map xlogabs s)) as (g & Hg & Lg).
  { now rewrite map_length. }
  rewrite Hg. cbn [bind]. eexists. split; [reflexivity|]. now rewrite map_length, Lg, map_length.
Qed.

Lemma lngrad_small s : (length s < 2)%nat -> lngrad s = Err ValueError.
Proof. intros H. unfold lngrad. rewrite gradient_small; [reflexivity|now rewrite map_length]. Qed.

Lemma slice_to_length a k : (0 <= k)%Z -> length (slice_to a k) = Nat.min (Z.to_nat k) (length a).
Proof.
  intros H. unfold slice_to, clip. rewrite (proj2 (Z.ltb_ge _ _)) by exact H. apply firstn_length.
Qed.
Lemma slice_from_length a k : (0 <= k)%Z -> length (slice_from a k) = (length a - Z.to_nat k)%nat.
Proof.
  intros H. unfold slice_from, clip. rewrite (proj2 (Z.ltb_ge _ _)) by exact H. apply skipn_length.
Qed.

Lemma argmax_from_lt l : forall i b v, (b < i)%nat -> (argmax_from l i b v < i + length l)%nat.
Proof.
  induction l as [|x l IH]; intros i b v H; simpl; [lia|].
  destruct (Rlt_dec v x); [specialize (IH (S i) i x)|specialize (IH (S i) b v)]; lia.
Qed.
Lemma argmax_lt l : (0 < length l)%nat -> (argmax l < length l)%nat.
Proof.
  destruct l as [|x l]; simpl; [lia|]. intros _. assert (H := argmax_from_lt l 1 0 x). lia.
Qed.

Definition good_indices (n : Z) (t : Z * Z * Z * Z) : Prop :=
  let '(lt, rt, lq, rq) := t in
  (3 <= lt /\ 3 <= lq /\ 0 <= rt <= n - 4 /\ 0 <= rq <= n - 4)%Z.

Lemma tail_indices_ok a : (4 <= length a)%nat ->
  exists t, tail_indices a = Ok t /\ good_indices (Z.of_nat (length a)) t.
Proof.
  intros H. unfold tail_indices. set (n := Z.of_nat (length a)).
  set (banks := match sign_changes a with
    | [] => ((n - 1)%Z, 0%Z)
    | _ => (Z.max (Z.of_nat (first_of (sign_changes a)) + 1) 3,
            Z.min (Z.of_nat (last_of (sign_changes a)) + 1) (n - 4))
    end).
  assert (B : (3 <= fst banks /\ 0 <= snd banks <= n - 4)%Z).
  { unfold banks. destruct (sign_changes a); simpl; lia. }
  destruct banks as [lb rb]. simpl in B.
  destruct (lngrad_ok (slice_to a lb)) as (gl & -> & _).
  { rewrite slice_to_length by lia. lia. }
  cbn [bind].
  destruct (lngrad_ok (slice_from a rb)) as (gr & -> & _).
  { rewrite slice_from_length by lia. lia. }
  cbn [bind].
  set (ld := match sign_changes gl with [] => (n - 1)%Z | _ => Z.max (Z.of_nat (last_of (sign_changes gl)) + 1) 3 end).
  set (rd := match sign_changes gr with [] => 0%Z | _ => Z.min (rb + Z.of_nat (first_of (sign_changes gr))) (n - 4) end).
  assert (D : (3 <= ld /\ 0 <= rd <= n - 4)%Z).
  { unfold ld, rd. destruct (sign_changes gl), (sign_changes gr); simpl; lia. }
  set (p0 := Z.of_nat (argmax (map Rabs a))).
  set (p := if ((p0 =? 0) || (p0 =? n - 1))%Z then (n / 2)%Z else p0).
  assert (P : (0 <= p < n)%Z).
  { assert (A := argmax_lt (map Rabs a)). rewrite map_length in A.
    unfold p. destruct ((p0 =? 0) || (p0 =? n - 1))%Z; [|unfold p0, n; lia].
    assert (n / 2 < n)%Z by (apply Z.div_lt; lia).
    assert (0 <= n / 2)%Z by (apply Z.div_pos; lia). lia. }
  assert (Q : (0 <= (n - 1 - p) / 2)%Z) by (apply Z.div_pos; lia).
  eexists. split; [reflexivity|]. unfold good_indices.
  clearbody ld rd p n. clear - B D P Q H. lia.
Qed.

Lemma powlaw_left_ok a lt lq : (2 <= Z.min lt (Z.of_nat (length a)))%Z ->
  (2 <= Z.min lq (Z.of_nat (length a)))%Z -> exists o, powlaw_left a lt lq = Ok o.
Proof.
  intros H1 H2. unfold powlaw_left.
  destruct (lngrad_ok (slice_to a lt)) as (g & -> & _).
  { rewrite slice_to_length by lia. lia. }
  cbn [bind]. destruct (sign_changes g).
  - destruct (Rle_dec 0 _); [eauto|].
    destruct (gradient_ok (map xlogabs (slice_to a lq))) as (h & -> & _).
    { rewrite map_length, slice_to_length by lia. lia. }
    cbn [bind]. destruct (Rle_dec 0 _); eauto.
  - destruct (Rle_dec 0 _); eauto.
Qed.

Lemma powlaw_right_ok a rt rq : (0 <= rt <= Z.of_nat (length a) - 2)%Z ->
  (0 <= rq <= Z.of_nat (length a) - 2)%Z -> exists o, powlaw_right a rt rq = Ok o.
Proof.
  intros H1 H2. unfold powlaw_right.
  destruct (lngrad_ok (slice_from a rt)) as (g & -> & _).
  { rewrite slice_from_length by lia. lia. }
  cbn [bind]. destruct (sign_changes g).
  - destruct (Rle_dec _ 0); [eauto|].
    destruct (gradient_ok (map xlogabs (slice_from a rq))) as (h & -> & _).
    { rewrite map_length, slice_from_length by lia. lia. }
    cbn [bind]. destruct (Rle_dec _ 0); eauto.
  - destruct (Rle_dec _ 0); eauto.
Qed.

(** Four or more samples, of any values (zeros and sign changes included),
    are always extrapolated. *)
Theorem extrap_oscil_total :
  forall a n, (4 <= length a)%nat ->
  exists out w, extrap_loglin_oscil a (Z.of_nat n) = Ok (out, w) /\ extends a out n.
Proof.
  intros a n H. unfold extrap_loglin_oscil. rewrite check_plain by lia. cbn [bind].
  destruct (tail_indices_ok a H) as ([[[lt rt] lq] rq] & -> & G). cbn [bind].
  unfold good_indices in G.
  destruct (powlaw_left_ok a lt lq) as (ol & ->); [lia|lia|]. cbn [bind].
  destruct (powlaw_right_ok a rt rq) as (orr & ->); [lia|lia|]. cbn [bind].
  eexists; eexists. split; [reflexivity|]. apply oscil_out_shape.
Qed.

(** Two samples pass the size check, yet are always refused later on. *)
Theorem extrap_oscil_two_samples :
  forall x y n, extrap_loglin_oscil [x; y] n = Err ValueError.
Proof.
  intros x y n. unfold extrap_loglin_oscil. rewrite check_plain by (simpl; lia). cbn [bind].
  assert (E : tail_indices [x; y] = Err ValueError \/
              exists rt lq rq, tail_indices [x; y] = Ok (1%Z, rt, lq, rq)).
  { assert (SC : forall u v, sign_changes [u; v] = [] \/ sign_changes [u; v] = [0%nat]).
    { intros u v. unfold sign_changes. cbn [length Nat.sub seq filter].
      destruct (negb _); auto. }
    unfold tail_indices. change (Z.of_nat (length [x; y])) with 2%Z.
    destruct (SC x y) as [-> | ->].
    - left. change (slice_to [x; y] (2 - 1)) with [x].
      rewrite lngrad_small by (simpl; lia). reflexivity.
    - right. cbn [first_of last_of hd last].
      change (Z.max (Z.of_nat 0 + 1) 3) with 3%Z. change (Z.min (Z.of_nat 0 + 1) (2 - 4)) with (-2)%Z.
      change (slice_to [x; y] 3) with [x; y]. change (slice_from [x; y] (-2)) with [x; y].
      set (u := nan_to_num (xsub (xlogabs y) (xlogabs x))).
      change (lngrad [x; y]) with (Ok [u; u]). cbn [bind].
      assert (S0 : sign_changes [u; u] = []).
      { unfold sign_changes. cbn [length Nat.sub seq filter nth]. now rewrite Z.eqb_refl. }
      rewrite S0. do 3 eexists. f_equal. f_equal. f_equal. f_equal.
      change (2 - 1)%Z with 1%Z. lia. }
  destruct E as [->|(rt & lq & rq & ->)]; [reflexivity|]. cbn [bind].
  unfold powlaw_left. change (slice_to [x; y] 1) with [x].
  rewrite lngrad_small by (simpl; lia). reflexivity.
Qed.

(** ** What the tails are when magnitudes are strictly monotone *)

(** All entries of [g] are finite and have the sign of [s] (s = 1 or -1). *)
Definition all_signed (s : R) (g : list xR) : Prop :=
  Forall (fun x => exists v, x = Fin v /\ 0 < s * v) g.

(** Magnitudes strictly increasing (s = 1) or decreasing (s = -1), no zeros. *)
Definition monotone_mag (s : R) (a : list R) : Prop :=
  (forall i, (i < length a)%nat -> nth i a 0 <> 0) /\
  (forall i j, (i < j)%nat -> (j < length a)%nat ->
     0 < s * (ln (Rabs (nth j a 0)) - ln (Rabs (nth i a 0)))).

Lemma monotone_firstn s a k : monotone_mag s a -> monotone_mag s (firstn k a).
Proof.
  intros [Z0 M]. split.
  - intros i Hi. rewrite firstn_length in Hi.
    rewrite <- (firstn_skipn k a) in Z0. specialize (Z0 i). rewrite app_nth1 in Z0 by (rewrite firstn_length; lia).
    apply Z0. rewrite app_length, firstn_length, skipn_length. lia.
  - intros i j Hij Hj. rewrite firstn_length in Hj.
    rewrite <- (firstn_skipn k a) in M. specialize (M i j Hij).
    rewrite !app_nth1 in M by (rewrite firstn_length; lia).
    apply M. rewrite app_length, firstn_length, skipn_length. lia.
Qed.

Lemma nth_skipn_R (a : list R) k i : nth i (skipn k a) 0 = nth (k + i) a 0.
Proof.
  revert a. induction k as [|k IH]; intros a; [reflexivity|].
  destruct a as [|x a]; [now destruct i|]. simpl. apply IH.
Qed.

Lemma monotone_skipn s a k : monotone_mag s a -> monotone_mag s (skipn k a).
Proof.
  intros [Z0 M]. split.
  - intros i Hi. rewrite skipn_length in Hi. rewrite nth_skipn_R. apply Z0. lia.
  - intros i j Hij Hj. rewrite skipn_length in Hj. rewrite !nth_skipn_R. apply M; lia.
Qed.

Lemma xlog_nth a i : (i < length a)%nat -> nth i a 0 <> 0 ->
  nth i (map xlogabs a) NaN = Fin (ln (Rabs (nth i a 0))).
Proof.
  intros Hi Hn. rewrite (nth_indep _ NaN (xlogabs 0)) by (now rewrite map_length).
  rewrite map_nth. unfold xlogabs. destruct (Req_EM_T _ 0); [contradiction|reflexivity].
Qed.

Lemma gradient_signed s a : monotone_mag s a -> (2 <= length a)%nat ->
  exists g, gradient (map xlogabs a) = Ok g /\ all_signed s g /\ length g = length a.
Proof.
  intros [Z0 M] L. unfold gradient. rewrite map_length.
  destruct (length a <? 2)%nat eqn:E; [apply Nat.ltb_lt in E; lia|].
  eexists. split; [reflexivity|]. split; [|now rewrite map_length, seq_length].
  apply Forall_forall. intros x Hx. apply in_map_iff in Hx as (i & <- & Hi).
  apply in_seq in Hi.
  destruct (i =? 0)%nat eqn:E1; [|destruct (i =? length a - 1)%nat eqn:E2].
  - rewrite !xlog_nth by (try apply Z0; lia). eexists. split; [reflexivity|]. apply M; lia.
  - rewrite !xlog_nth by (try apply Z0; lia). eexists. split; [reflexivity|]. apply M; lia.
  - apply Nat.eqb_neq in E1, E2.
    rewrite !xlog_nth by (try apply Z0; lia). eexists. split; [reflexivity|].
    assert (P := M (i - 1)%nat (i + 1)%nat ltac:(lia) ltac:(lia)). lra.
Qed.

Lemma rsign_s s v : (s = 1 \/ s = -1) -> 0 < s * v -> rsign v = if Rlt_dec 0 s then 1%Z else (-1)%Z.
Proof.
  intros Hs Hv. unfold rsign.
  destruct (Rlt_dec 0 v), (Rlt_dec 0 s); try reflexivity;
  destruct (Rlt_dec v 0); try reflexivity; destruct Hs; subst; lra.
Qed.

Lemma sign_changes_const l z : (forall i, (i < length l)%nat -> rsign (nth i l 0) = z) -> sign_changes l = [].
Proof.
  intros H. unfold sign_changes.
  assert (F : forall m k, (k + m <= length l - 1)%nat ->
    filter (fun i => negb (rsign (nth (S i) l 0%R) =? rsign (nth i l 0%R))%Z) (seq k m) = []).
  { induction m as [|m IH]; intros k Hk; [reflexivity|]. simpl.
    rewrite (H (S k)), (H k), Z.eqb_refl by lia. simpl. apply IH. lia. }
  apply F. lia.
Qed.

Lemma signed_no_change s g : (s = 1 \/ s = -1) -> all_signed s g -> sign_changes (map nan_to_num g) = [].
Proof.
  intros Hs Hg. apply (sign_changes_const _ (if Rlt_dec 0 s then 1%Z else (-1)%Z)).
  intros i Hi. rewrite map_length in Hi.
  rewrite (nth_indep _ 0 (nan_to_num NaN)) by (now rewrite map_length). rewrite map_nth.
  unfold all_signed in Hg. rewrite Forall_forall in Hg.
  destruct (Hg (nth i g NaN)) as (v & -> & Hv); [now apply nth_In|]. simpl. now apply rsign_s.
Qed.

Lemma signed_mean s g : all_signed s g -> (0 < length g)%nat -> exists m, xmean g = Fin m /\ 0 < s * m.
Proof.
  intros Hg Lg. assert (Sm : exists t, fold_right xadd (Fin 0) g = Fin t /\ 0 <= s * t /\ (g <> [] -> 0 < s * t)).
  { clear Lg. induction Hg as [|x g (v & -> & Hv) _ (t & Et & Ht & _)]; simpl.
    - exists 0. split; [reflexivity|]. split; [lra|congruence].
    - rewrite Et. exists (v + t). split; [reflexivity|]. split; [lra|]. intros _. lra. }
  destruct Sm as (t & Et & _ & Ht). unfold xmean. rewrite Et.
  exists (t / INR (length g)). split; [reflexivity|].
  unfold Rdiv. rewrite <- Rmult_assoc. apply Rmult_lt_0_compat.
  - apply Ht. destruct g; simpl in Lg; [lia|discriminate].
  - apply Rinv_0_lt_compat. now apply lt_0_INR.
Qed.

Lemma lngrad_signed s a : (s = 1 \/ s = -1) -> monotone_mag s a -> (2 <= length a)%nat ->
  exists g, lngrad a = Ok g /\ sign_changes g = [].
Proof.
  intros Hs Hm L. destruct (gradient_signed s a Hm L) as (g & Hg & Sg & _).
  unfold lngrad. rewrite Hg. cbn [bind]. eexists. split; [reflexivity|]. now apply (signed_no_change s).
Qed.

Lemma slice_to_firstn a k : exists m, slice_to a k = firstn m a.
Proof. unfold slice_to. eauto. Qed.
Lemma slice_from_skipn a k : exists m, slice_from a k = skipn m a.
Proof. unfold slice_from. eauto. Qed.

Lemma powlaw_left_monotone s a lt lq : (s = 1 \/ s = -1) -> monotone_mag s a ->
  (4 <= length a)%nat -> (3 <= lt)%Z -> (3 <= lq)%Z ->
  powlaw_left a lt lq =
    if Rlt_dec 0 s then Ok (- (ln (Rabs (at1 a)) - ln (Rabs (at0 a))), false) else Ok (0, true).
Proof.
  intros Hs Hm L Hl Hq. unfold powlaw_left.
  assert (L1 := slice_to_length a lt ltac:(lia)). assert (L2 := slice_to_length a lq ltac:(lia)).
  destruct (slice_to_firstn a lt) as (m1 & E1). destruct (slice_to_firstn a lq) as (m2 & E2).
  rewrite E1 in L1 |- *. rewrite E2 in L2 |- *.
  destruct (lngrad_signed s (firstn m1 a) Hs) as (g & -> & Eg); [now apply monotone_firstn|lia|].
  cbn [bind]. rewrite Eg.
  destruct (gradient_signed s (firstn m2 a)) as (h & -> & Sh & Lh); [now apply monotone_firstn|lia|].
  destruct (signed_mean s h Sh ltac:(lia)) as (m & Em & Hmm).
  cbn [bind]. rewrite Em.
  unfold at0, at1 in *. unfold xlogabs. destruct Hm as [Z0 M].
  destruct (Req_EM_T (nth 1 a 0) 0) as [C|_]; [exfalso; apply (Z0 1%nat); [lia|exact C]|].
  destruct (Req_EM_T (nth 0 a 0) 0) as [C|_]; [exfalso; apply (Z0 0%nat); [lia|exact C]|].
  specialize (M 0%nat 1%nat ltac:(lia) ltac:(lia)).
  unfold xsub, xopp, xadd, nan_to_num.
  destruct (Rlt_dec 0 s) as [P|P].
  - assert (s = 1) by (destruct Hs; lra). subst s.
    destruct (Rle_dec 0 _) as [Q|Q]; [|lra]. reflexivity.
  - assert (s = -1) by (destruct Hs; lra). subst s.
    destruct (Rle_dec 0 _) as [Q|Q]; [lra|].
    destruct (Rle_dec 0 m); [lra|reflexivity].
Qed.

Lemma powlaw_right_monotone s a rt rq : (s = 1 \/ s = -1) -> monotone_mag s a ->
  (4 <= length a)%nat -> (0 <= rt <= Z.of_nat (length a) - 4)%Z -> (0 <= rq <= Z.of_nat (length a) - 4)%Z ->
  powlaw_right a rt rq =
    if Rlt_dec 0 s then Ok (0, true) else Ok (ln (Rabs (atm1 a)) - ln (Rabs (atm2 a)), false).
Proof.
  intros Hs Hm L Hl Hq. unfold powlaw_right.
  assert (L1 := slice_from_length a rt ltac:(lia)). assert (L2 := slice_from_length a rq ltac:(lia)).
  destruct (slice_from_skipn a rt) as (m1 & E1). destruct (slice_from_skipn a rq) as (m2 & E2).
  rewrite E1 in L1 |- *. rewrite E2 in L2 |- *.
  destruct (lngrad_signed s (skipn m1 a) Hs) as (g & -> & Eg); [now apply monotone_skipn|lia|].
  cbn [bind]. rewrite Eg.
  destruct (gradient_signed s (skipn m2 a)) as (h & -> & Sh & Lh); [now apply monotone_skipn|lia|].
  destruct (signed_mean s h Sh ltac:(lia)) as (m & Em & Hmm).
  cbn [bind]. rewrite Em.
  unfold atm1, atm2 in *. unfold xlogabs. destruct Hm as [Z0 M].
  destruct (Req_EM_T (nth (length a - 1) a 0) 0) as [C|_]; [exfalso; apply (Z0 (length a - 1)%nat); [lia|exact C]|].
  destruct (Req_EM_T (nth (length a - 2) a 0) 0) as [C|_]; [exfalso; apply (Z0 (length a - 2)%nat); [lia|exact C]|].
  specialize (M (length a - 2)%nat (length a - 1)%nat ltac:(lia) ltac:(lia)).
  unfold xsub, xopp, xadd, nan_to_num.
  destruct (Rlt_dec 0 s) as [P|P].
  - assert (s = 1) by (destruct Hs; lra). subst s.
    destruct (Rle_dec _ 0) as [Q|Q]; [lra|].
    destruct (Rle_dec m 0); [lra|reflexivity].
  - assert (s = -1) by (destruct Hs; lra). subst s.
    destruct (Rle_dec _ 0) as [Q|Q]; [|lra]. reflexivity.
Qed.

(** A sequence with adjacent strict inequalities. *)
Lemma adjacent_monotone s a : (s = 1 \/ s = -1) ->
  (forall i, (i < length a)%nat -> nth i a 0 <> 0) ->
  (forall i, (i + 1 < length a)%nat -> 0 < s * (Rabs (nth (i + 1) a 0) - Rabs (nth i a 0))) ->
  monotone_mag s a.
Proof.
  intros Hs Z0 A. split; [exact Z0|].
  assert (B : forall d i, (i + S d < length a)%nat ->
    0 < s * (ln (Rabs (nth (i + S d) a 0)) - ln (Rabs (nth i a 0)))).
  { induction d as [|d IH]; intros i Hi.
    - specialize (A i Hi). assert (P0 := Rabs_pos_lt _ (Z0 i ltac:(lia))).
      assert (P1 := Rabs_pos_lt _ (Z0 (i + 1)%nat Hi)).
      destruct Hs; subst s.
      + assert (ln (Rabs (nth i a 0)) < ln (Rabs (nth (i + 1) a 0))) by (apply ln_increasing; lra). lra.
      + assert (ln (Rabs (nth (i + 1) a 0)) < ln (Rabs (nth i a 0))) by (apply ln_increasing; lra). lra.
    - specialize (IH i ltac:(lia)). assert (Hi' : (i + S d + 1 < length a)%nat) by lia.
      specialize (A (i + S d)%nat Hi').
      assert (P0 := Rabs_pos_lt _ (Z0 (i + S d)%nat ltac:(lia))).
      assert (P1 := Rabs_pos_lt _ (Z0 (i + S d + 1)%nat Hi')).
      replace (i + S (S d))%nat with (i + S d + 1)%nat by lia.
      destruct Hs; subst s.
      + assert (ln (Rabs (nth (i + S d) a 0)) < ln (Rabs (nth (i + S d + 1) a 0))) by (apply ln_increasing; lra). lra.
      + assert (ln (Rabs (nth (i + S d + 1) a 0)) < ln (Rabs (nth (i + S d) a 0))) by (apply ln_increasing; lra). lra. }
  intros i j Hij Hj. replace j with (i + S (j - i - 1))%nat by lia. apply B. lia.
Qed.

Lemma exp_ln_pow x y k : 0 < x -> 0 < y -> exp (- (ln y - ln x) * INR k) = (x / y) ^ k.
Proof.
  intros Hx Hy. replace (- (ln y - ln x) * INR k) with (INR k * (ln x - ln y)) by ring.
  replace (ln x - ln y) with (ln (x / y))
    by (unfold Rdiv; rewrite ln_mult, ln_Rinv by (auto; now apply Rinv_0_lt_compat); ring).
  rewrite <- (exp_ln (x / y)) at 2 by (apply Rdiv_lt_0_compat; assumption).
  induction k as [|k IH]; [simpl; now rewrite Rmult_0_l, exp_0|].
  rewrite S_INR, Rmult_plus_distr_r, exp_plus, IH, Rmult_1_l. simpl. ring.
Qed.

(** Growing magnitudes: the left end continues the ratio of the first two
    samples and no warning is given for it; the right end is held constant,
    with a warning. *)
Theorem extrap_oscil_growing :
  forall a n, (4 <= length a)%nat ->
  nth 0 a 0 <> 0 ->
  (forall i, (i + 1 < length a)%nat -> Rabs (nth i a 0) < Rabs (nth (i + 1) a 0)) ->
  exists out, extrap_loglin_oscil a (Z.of_nat n) = Ok (out, (false, true)) /\ extends a out n /\
    (forall i, (i < n)%nat -> nth i out 0 = nth 0 a 0 * (Rabs (nth 0 a 0) / Rabs (nth 1 a 0)) ^ (n - i)) /\
    (forall i, (i < n)%nat -> nth (n + length a + i) out 0 = nth (length a - 1) a 0).
Proof.
  intros a n L N0 Hg.
  assert (Z0 : forall i, (i < length a)%nat -> nth i a 0 <> 0).
  { intros [|i] Hi; [exact N0|]. intros C. specialize (Hg i ltac:(lia)).
    replace (i + 1)%nat with (S i) in Hg by lia.
    rewrite C, Rabs_R0 in Hg. assert (P := Rabs_pos (nth i a 0)). lra. }
  assert (Hm : monotone_mag 1 a).
  { apply adjacent_monotone; [now left|exact Z0|]. intros i Hi. specialize (Hg i Hi). lra. }
  destruct (tail_indices_ok a L) as ([[[lt rt] lq] rq] & Et & G). unfold good_indices in G.
  exists (oscil_out a n (- (ln (Rabs (at1 a)) - ln (Rabs (at0 a)))) 0).
  split; [|split; [apply oscil_out_shape|split]].
  - unfold extrap_loglin_oscil. rewrite check_plain by lia. cbn [bind]. rewrite Et. cbn [bind].
    rewrite (powlaw_left_monotone 1) by (auto; lia). rewrite (powlaw_right_monotone 1) by (auto; lia).
    destruct (Rlt_dec 0 1); [|lra]. reflexivity.
  - intros i Hi. rewrite oscil_out_left by lia. unfold at0, at1. f_equal.
    apply exp_ln_pow; apply Rabs_pos_lt; apply Z0; lia.
  - intros i Hi. replace (n + length a + i)%nat with (n + length a - 1 + (i + 1))%nat by lia.
    rewrite oscil_out_right by lia. now rewrite Rmult_0_l, exp_0, Rmult_1_r.
Qed.

(** Falling magnitudes: the mirror image. *)
Theorem extrap_oscil_falling :
  forall a n, (4 <= length a)%nat ->
  nth (length a - 1) a 0 <> 0 ->
  (forall i, (i + 1 < length a)%nat -> Rabs (nth (i + 1) a 0) < Rabs (nth i a 0)) ->
  exists out, extrap_loglin_oscil a (Z.of_nat n) = Ok (out, (true, false)) /\ extends a out n /\
    (forall i, (i < n)%nat -> nth i out 0 = nth 0 a 0) /\
    (forall i, (i < n)%nat -> nth (n + length a + i) out 0 =
       nth (length a - 1) a 0 * (Rabs (nth (length a - 1) a 0) / Rabs (nth (length a - 2) a 0)) ^ (i + 1)).
Proof.
  intros a n L N0 Hg.
  assert (Z0 : forall i, (i < length a)%nat -> nth i a 0 <> 0).
  { intros i Hi. destruct (Nat.eq_dec i (length a - 1)) as [->|E]; [exact N0|].
    intros C. specialize (Hg i ltac:(lia)).
    rewrite C, Rabs_R0 in Hg. assert (P := Rabs_pos (nth (i + 1) a 0)). lra. }
  assert (Hm : monotone_mag (-1) a).
  { apply adjacent_monotone; [now right|exact Z0|]. intros i Hi. specialize (Hg i Hi). lra. }
  destruct (tail_indices_ok a L) as ([[[lt rt] lq] rq] & Et & G). unfold good_indices in G.
  exists (oscil_out a n 0 (ln (Rabs (atm1 a)) - ln (Rabs (atm2 a)))).
  split; [|split; [apply oscil_out_shape|split]].
  - unfold extrap_loglin_oscil. rewrite check_plain by lia. cbn [bind]. rewrite Et. cbn [bind].
    rewrite (powlaw_left_monotone (-1)) by (auto; lia). rewrite (powlaw_right_monotone (-1)) by (auto; lia).
    destruct (Rlt_dec 0 (-1)); [lra|]. reflexivity.
  - intros i Hi. rewrite oscil_out_left by lia. now rewrite Rmult_0_l, exp_0, Rmult_1_r.
  - intros i Hi. replace (n + length a + i)%nat with (n + length a - 1 + (i + 1))%nat by lia.
    rewrite oscil_out_right by lia. unfold atm1, atm2. f_equal.
    replace (ln (Rabs (nth (length a - 1) a 0)) - ln (Rabs (nth (length a - 2) a 0)))
      with (- (ln (Rabs (nth (length a - 2) a 0)) - ln (Rabs (nth (length a - 1) a 0)))) by ring.
    apply exp_ln_pow; apply Rabs_pos_lt; apply Z0; lia.
Qed.

(** ** Two dimensions *)
Lemma sequence_ok {A B} (f : A -> res B) (l : list A) out : sequence (map f l) = Ok out ->
  length out = length l /\ forall i d e, (i < length l)%nat -> f (nth i l d) = Ok (nth i out e).
Proof.
  revert out. induction l as [|x l IH]; simpl; intros out H.
  - injection H as <-. split; [reflexivity|]. intros; simpl in *; lia.
  - apply bind_ok in H as (y & Hy & H). apply bind_ok in H as (t & Ht & H). injection H as <-.
    destruct (IH t Ht) as [L N]. split; [simpl; lia|].
    intros [|i] d e Hi; simpl; [exact Hy|]. apply N. lia.
Qed.

Lemma sequence_total {A B} (f : A -> res B) (l : list A) :
  (forall x, In x l -> exists y, f x = Ok y) -> exists out, sequence (map f l) = Ok out.
Proof.
  induction l as [|x l IH]; simpl; intros H; [eauto|].
  destruct (H x (or_introl eq_refl)) as (y & ->). cbn [bind].
  destruct IH as (t & ->); [intros; apply H; now right|]. cbn [bind]. eauto.
Qed.

Lemma extends_length a out n : extends a out n -> length out = (n + length a + n)%nat.
Proof. intros (l & r & -> & Hl & Hr). rewrite !app_length. lia. Qed.
Lemma extends_mid a out n i : extends a out n -> (i < length a)%nat -> nth (n + i) out 0 = nth i a 0.
Proof.
  intros (l & r & -> & Hl & Hr) Hi. rewrite nth_lar.
  destruct (n + i <? length l)%nat eqn:E; [apply Nat.ltb_lt in E; lia|].
  destruct (n + i <? length l + length a)%nat eqn:E2; [|apply Nat.ltb_ge in E2; lia].
  f_equal. lia.
Qed.

Lemma row_oscil_spec m r c n out : shape m r c -> extrap2d_row_oscil m (Z.of_nat n) = Ok out ->
  shape out r (n + c + n) /\
  forall i, (i < r)%nat -> extends (nth i m []) (nth i out []) n /\ ends_decay c n (nth i out []).
Proof.
  intros S H. unfold extrap2d_row_oscil in H. apply sequence_ok in H as [L N].
  assert (P : forall i, (i < r)%nat -> extends (nth i m []) (nth i out []) n /\ ends_decay c n (nth i out [])).
  { intros i Hi. assert (Hi' : (i < length m)%nat) by (destruct S; lia).
    specialize (N i [] [] Hi'). apply bind_ok in N as ([o [wl wr]] & No & E). injection E as E.
    simpl in E. rewrite <- E. apply extrap_oscil_decays in No as (X & D & _).
    rewrite (shape_row _ _ _ _ S Hi) in D. auto. }
  split; [|exact P]. split; [destruct S; lia|].
  apply Forall_forall. intros row Hr. apply (In_nth _ _ []) in Hr as (i & Hi & <-).
  assert (Hr : (i < r)%nat) by (destruct S; lia).
  rewrite (extends_length _ _ _ (proj1 (P i Hr))), (shape_row _ _ _ _ S Hr). reflexivity.
Qed.

Lemma row_oscil_total m r c n : shape m r c -> (4 <= c)%nat ->
  exists out, extrap2d_row_oscil m (Z.of_nat n) = Ok out.
Proof.
  intros [S1 S2] Hc. apply sequence_total. intros row Hr. rewrite Forall_forall in S2.
  destruct (extrap_oscil_total row n) as (out & w & -> & _); [rewrite S2; assumption|].
  cbn [bind]. eauto.
Qed.

(** A table of at least 4 x 4 entries is always extrapolated: the result has
    the asked-for shape, keeps the input in the centre, decays away from it along
    every column, and along every row that meets the input. *)
Theorem extrap2d_oscil_correct :
  forall m r c nr nc, shape m r c -> (4 <= r)%nat -> (4 <= c)%nat ->
  exists out, extrap2d_loglin_oscil m (ExtPair (Z.of_nat nr) (Z.of_nat nc)) = Ok out /\
    shape out (nr + r + nr) (nc + c + nc) /\ centred m out r c nr nc /\
    (forall j, (j < nc + c + nc)%nat -> ends_decay r nr (column out j)) /\
    (forall i, (i < r)%nat -> ends_decay c nc (nth (nr + i) out [])).
Proof.
  intros m r c nr nc S Hr Hc. unfold extrap2d_loglin_oscil.
  assert (Hck : check_2d_array false false m = Ok m).
  { unfold check_2d_array. rewrite (ncols_shape m r c S) by lia. unfold nrows.
    destruct S as [S1 S2]. rewrite S1.
    destruct (r <? 2)%nat eqn:E1; [apply Nat.ltb_lt in E1; lia|].
    destruct (c <? 2)%nat eqn:E2; [apply Nat.ltb_lt in E2; lia|]. reflexivity. }
  rewrite Hck. cbn [bind unpack_ext].
  destruct (row_oscil_total m r c nc S Hc) as (m1 & E1). rewrite E1. cbn [bind].
  destruct (row_oscil_spec m r c nc m1 S E1) as [S1 P1].
  assert (ST := transpose_shape m1 r _ S1 ltac:(lia)).
  destruct (row_oscil_total (transpose m1) _ r nr ST Hr) as (m2 & E2). rewrite E2. cbn [bind].
  destruct (row_oscil_spec _ _ r nr m2 ST E2) as [S2 P2].
  assert (SO := transpose_shape m2 _ _ S2 ltac:(lia)).
  exists (transpose m2). split; [reflexivity|]. split; [exact SO|].
  assert (EN : forall i j, (i < nr + r + nr)%nat -> (j < nc + c + nc)%nat ->
    entry (transpose m2) i j = entry m2 j i).
  { intros i j Hi Hj. apply (transpose_entry m2 _ _ j i S2); lia. }
  assert (MID : forall i j, (i < r)%nat -> (j < nc + c + nc)%nat ->
    entry (transpose m2) (nr + i) j = entry m1 i j).
  { intros i j Hi Hj. rewrite EN by lia. unfold entry at 1.
    rewrite (extends_mid _ _ _ i (proj1 (P2 j Hj)))
      by (rewrite (shape_row _ _ _ _ ST Hj); exact Hi).
    apply (transpose_entry m1 _ _ i j S1); lia. }
  split; [|split].
  - intros i j Hi Hj. rewrite MID by lia. unfold entry.
    apply extends_mid; [apply P1; exact Hi|]. now rewrite (shape_row _ _ _ _ S Hi).
  - intros j Hj. replace (column (transpose m2) j) with (nth j m2 []); [now apply P2|].
    apply (nth_ext _ _ 0 0).
    + rewrite (shape_row _ _ _ _ S2 Hj). unfold column. rewrite map_length. destruct SO; lia.
    + intros i Hi. rewrite (shape_row _ _ _ _ S2 Hj) in Hi.
      rewrite (column_nth _ _ _ i j SO Hi). symmetry. apply EN; lia.
  - intros i Hi. replace (nth (nr + i) (transpose m2) []) with (nth i m1 []); [now apply P1|].
    apply (nth_ext _ _ 0 0).
    + rewrite (shape_row _ _ _ _ S1 Hi). symmetry. apply (shape_row _ _ _ _ SO). lia.
    + intros j Hj. rewrite (shape_row _ _ _ _ S1 Hi) in Hj. symmetry. now apply MID.
Qed.

(** ** Concrete cases *)
Example extrap_oscil_growing_case :
  exists out, extrap_loglin_oscil [1; -2; 4; 8] 2 = Ok (out, (false, true)) /\
    nth 0 out 0 = 1 / 4 /\ nth 7 out 0 = 8.
Proof.
  destruct (extrap_oscil_growing [1; -2; 4; 8] 2) as (out & E & _ & Hl & Hr).
  - simpl; lia.
  - simpl; lra.
  - intros i Hi. simpl in Hi.
    do 3 (destruct i as [|i]; [simpl; rewrite ?(Rabs_left (-2)), ?Rabs_pos_eq by lra; lra|]). lia.
  - exists out. split; [exact E|]. split.
    + rewrite Hl by lia. simpl. rewrite (Rabs_left (-2)), Rabs_pos_eq by lra. field.
    + exact (Hr 1%nat ltac:(lia)).
Qed.

Example extrap_oscil_falling_case :
  exists out, extrap_loglin_oscil [8; 4; 2; 1] 1 = Ok (out, (true, false)) /\
    nth 0 out 0 = 8 /\ nth 5 out 0 = 1 / 2.
Proof.
  destruct (extrap_oscil_falling [8; 4; 2; 1] 1) as (out & E & _ & Hl & Hr).
  - simpl; lia.
  - simpl; lra.
  - intros i Hi. simpl in Hi.
    do 3 (destruct i as [|i]; [simpl; rewrite ?Rabs_pos_eq by lra; lra|]). lia.
  - exists out. split; [exact E|]. split.
    + exact (Hl 0%nat ltac:(lia)).
    + assert (Q := Hr 0%nat ltac:(lia)). simpl in Q. rewrite Q, !Rabs_pos_eq by lra. field.
Qed.

(** Zeros and sign changes. *)
Example extrap_oscil_total_case :
  exists out w, extrap_loglin_oscil [0; 1; -3; 0; 2] 3 = Ok (out, w) /\ length out = 11%nat /\ nth 0 out 1 = 0.
Proof.
  destruct (extrap_oscil_total [0; 1; -3; 0; 2] 3) as (out & w & E & X); [simpl; lia|].
  exists out, w. split; [exact E|]. assert (L := extends_length _ _ _ X). split; [exact L|].
  destruct w as [wl wr]. change 3%Z with (Z.of_nat 3) in E. apply extrap_oscil_decays in E as (_ & [D _] & _).
  rewrite (nth_indep _ 1 0) by (rewrite L; simpl; lia).
  assert (M := extends_mid _ _ _ 0 X ltac:(simpl; lia)). simpl in M.
  destruct (D 2%nat ltac:(lia)) as (_ & A2 & _). simpl in A2. rewrite M, Rabs_R0 in A2.
  destruct (D 1%nat ltac:(lia)) as (_ & A1 & _). simpl in A1.
  destruct (D 0%nat ltac:(lia)) as (_ & A0 & _). simpl in A0.
  assert (Rabs (nth 0 out 0) <= 0) by lra. assert (P := Rabs_pos (nth 0 out 0)).
  destruct (Req_dec (nth 0 out 0) 0) as [Z|Z]; [exact Z|]. apply Rabs_pos_lt in Z. lra.
Qed.

Example extrap2d_oscil_case :
  exists out, extrap2d_loglin_oscil [[1;2;3;4];[2;0;-2;5];[1;1;1;1];[0;0;0;7]] (ExtPair 1 2) = Ok out /\
    shape out 6 8 /\ entry out 2 5 = 5.
Proof.
  destruct (extrap2d_oscil_correct [[1;2;3;4];[2;0;-2;5];[1;1;1;1];[0;0;0;7]] 4 4 1 2)
    as (out & E & S & C & _); try lia.
  - split; [reflexivity|]. repeat constructor.
  - exists out. split; [exact E|]. split; [exact S|]. exact (C 1%nat 3%nat ltac:(lia) ltac:(lia)).
Qed.

Print Assumptions extrap_oscil_decays.
Print Assumptions extrap_oscil_total.
Print Assumptions extrap_oscil_two_samples.
Print Assumptions extrap_oscil_growing.
Print Assumptions extrap_oscil_falling.
Print Assumptions extrap2d_oscil_correct.
