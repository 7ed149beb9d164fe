(* Claims C20 and C21: aliasing functions and assignment window in Fourier space. *)
From Coq Require Import Reals ZArith List Lia Lra Bool.
From Flocq Require Import Core.Raux.
From Coquelicot Require Import Coquelicot.
From Verif Require Import Base ArrayModel ArrayProofs RSum MeshModel MeshIndexProps MeshProofs MeshProps.
Import ListNotations.
Open Scope R_scope.

(** ** C21: window *)

Lemma sinc_nonzero n s : (0 < n)%Z -> s <> 0%Z -> (- n < s < n)%Z ->
  sin (PI * IZR s / IZR n) / (PI * IZR s / IZR n) <> 0.
Proof.
  intros Hn Hs Hr. assert (0 < IZR n) by (now apply IZR_lt). assert (Hp := PI_RGT_0).
  assert (A : forall t, (0 < t < n)%Z -> 0 < sin (PI * IZR t / IZR n)).
  { intros t [T1 T2]. apply IZR_lt in T1, T2. apply sin_gt_0.
    - apply Rmult_lt_0_compat; [apply Rmult_lt_0_compat; assumption|]. now apply Rinv_0_lt_compat.
    - apply (Rmult_lt_reg_r (IZR n)); [assumption|]. unfold Rdiv. rewrite Rmult_assoc, Rinv_l by lra. nra. }
  assert (B : sin (PI * IZR s / IZR n) <> 0).
  { destruct (Z_lt_le_dec 0 s) as [P|P].
    - assert (Q := A s ltac:(lia)). lra.
    - assert (Q := A (- s)%Z ltac:(lia)).
      replace (PI * IZR (- s) / IZR n) with (- (PI * IZR s / IZR n)) in Q by (rewrite opp_IZR; field; lra).
      rewrite sin_neg in Q. lra. }
  unfold Rdiv at 1. apply Rmult_integral_contrapositive_currified; [exact B|].
  apply Rinv_neq_0_compat. unfold Rdiv. apply Rmult_integral_contrapositive_currified.
  - apply Rmult_integral_contrapositive_currified; [lra|]. intros E. apply eq_IZR_R0 in E. contradiction.
  - apply Rinv_neq_0_compat. lra.
Qed.

(** The window used as a divisor is non-zero at every mode of every grid with two or
    more cells per axis. *)
Theorem window_nonzero :
  forall ng i j k order, (2 <= ax0 ng)%Z -> (2 <= ax1 ng)%Z -> (2 <= ax2 ng)%Z ->
  is_cell (ax0 ng) (ax1 ng) (ax2 ng) i j k -> window_direct ng i j k order <> 0.
Proof.
  intros ng i j k order Nx Ny Nz (Ci & Cj & Ck). unfold window_direct. apply pow_nonzero.
  assert (G : forall n t, (2 <= n)%Z -> (0 <= t < n)%Z ->
    (if (shift_index n t =? 0)%Z then 1 else sin (PI * IZR (shift_index n t) / IZR n) / (PI * IZR (shift_index n t) / IZR n)) <> 0).
  { intros n t Hn Ht. destruct (Z.eqb_spec (shift_index n t) 0) as [E|E]; [lra|].
    apply sinc_nonzero; [lia|exact E|]. unfold shift_index in *.
    assert (D := Z.div_mod n 2 ltac:(lia)). assert (M := Z.mod_pos_bound n 2 ltac:(lia)).
    destruct (Z.ltb_spec t (n / 2)); lia. }
  cbv zeta. apply Rmult_integral_contrapositive_currified; [apply Rmult_integral_contrapositive_currified|]; apply G; assumption.
Qed.

(** With a single cell along an axis the only mode is taken as -1 and the window is
    zero (not one): compensation divides by zero there. *)
Theorem window_single_cell_refuted :
  forall ny nz order, (0 < ny)%Z -> (0 < nz)%Z -> (0 < order)%nat ->
  window_direct (T3 1 ny nz)%Z 0 0 0 order = 0.
Proof.
  intros ny nz order Hy Hz Ho. unfold window_direct. cbn [ax0 ax1 ax2].
  change (shift_index 1 0) with (-1)%Z. cbn [Z.eqb].
  replace (PI * IZR (-1) / IZR 1) with (- PI) by field. rewrite sin_neg, sin_PI.
  rewrite Ropp_0. unfold Rdiv at 1. rewrite !Rmult_0_l. apply pow_i. exact Ho.
Qed.

(** A history of requests: each one either fails (state kept) or fills the cache. *)
Fixpoint request_all (ng : triple Z) (c : wcache) (orders : list Z) : wcache :=
  match orders with
  | [] => c
  | o :: rest =>
      match compute_window ng c o with
      | Ok c' => request_all ng c' rest
      | Err _ => request_all ng c rest
      end
  end.

Lemma fill_lookup (ny nz : Z) (f : Z -> Z -> Z -> R) (l : list (Z * Z * Z)) (tab : Z -> R) i j k :
  In (i, j, k) l ->
  (forall i' j' k', In (i', j', k') l -> grid_index ny nz i' j' k' = grid_index ny nz i j k -> (i', j', k') = (i, j, k)) ->
  fold_left (fun t '(a, b, c) => set_entry t (grid_index ny nz a b c) (f a b c)) l tab (grid_index ny nz i j k) = f i j k.
Proof.
  intros HI U. revert tab. induction l as [|[[a b] c] l IH] using rev_ind; intros tab; [contradiction|].
  rewrite fold_left_app. cbn [fold_left]. unfold set_entry at 1.
  destruct (Z.eqb_spec (grid_index ny nz i j k) (grid_index ny nz a b c)) as [E|E].
  - assert (Q := U a b c ltac:(apply in_app_iff; right; now left) (eq_sym E)). now injection Q as -> -> ->.
  - apply in_app_iff in HI. destruct HI as [HI|[HI|[]]].
    + apply IH; [exact HI|]. intros. apply U; [apply in_app_iff; now left|assumption].
    + injection HI as -> -> ->. contradiction.
Qed.

Lemma fill_window_correct ng c order i j k : (0 <= order)%Z -> wc_order c <> order ->
  (0 < ax0 ng)%Z -> (0 < ax1 ng)%Z -> (0 < ax2 ng)%Z -> is_cell (ax0 ng) (ax1 ng) (ax2 ng) i j k ->
  fill_window ng c order (grid_index (ax1 ng) (ax2 ng) i j k) = window_direct ng i j k (Z.to_nat order).
Proof.
  intros Ho Hc Hx Hy Hz C. unfold fill_window.
  set (L := flat_map _ _).
  assert (InL : forall i j k, In (i, j, k) L <-> is_cell (ax0 ng) (ax1 ng) (ax2 ng) i j k).
  { intros a b d. unfold L, is_cell. rewrite in_flat_map. split.
    - intros (a' & Ha & H). apply in_flat_map in H. destruct H as (b' & Hb & H). apply in_map_iff in H.
      destruct H as (d' & E & Hd). injection E as -> -> ->. rewrite In_arange in *. auto.
    - intros (Ha & Hb & Hd). exists a. split; [now apply In_arange|]. apply in_flat_map. exists b.
      split; [now apply In_arange|]. apply in_map_iff. exists d. split; [reflexivity|now apply In_arange]. }
  rewrite <- (fill_lookup (ax1 ng) (ax2 ng) (fun i j k => window_direct ng i j k (Z.to_nat order)) L (wc_table c) i j k).
  - clear InL. generalize (wc_table c). induction L as [|[[a b] d] L IH]; intros tab; [reflexivity|].
    cbn [fold_left]. rewrite <- IH.
    assert (E : calc_window ng c a b d order = Ok (window_direct ng a b d (Z.to_nat order))).
    { unfold calc_window. destruct (Z.ltb_spec order 0); [lia|]. destruct (Z.eqb_spec order (wc_order c)); [congruence|]. reflexivity. }
    now rewrite E.
  - now apply InL.
  - intros i' j' k' H E. apply InL in H.
    destruct (flat_index_injective _ _ _ _ _ _ _ _ _ Hx Hy Hz H C E) as (-> & -> & ->). reflexivity.
Qed.

(** Whatever window orders were requested before, in whatever order, the value
    returned for a requested order is that of the direct formula; negative orders are
    refused. *)
Theorem window_cache_correct :
  forall ng history i j k order, (0 < ax0 ng)%Z -> (0 < ax1 ng)%Z -> (0 < ax2 ng)%Z ->
  is_cell (ax0 ng) (ax1 ng) (ax2 ng) i j k ->
  calc_window ng (request_all ng wcache_init history) i j k order =
  if (order <? 0)%Z then Err InvalidParameter else Ok (window_direct ng i j k (Z.to_nat order)).
Proof.
  intros ng history i j k order Hx Hy Hz C.
  set (good := fun c => (wc_order c = -1)%Z \/ ((0 <= wc_order c)%Z /\ forall i j k, is_cell (ax0 ng) (ax1 ng) (ax2 ng) i j k ->
     wc_table c (grid_index (ax1 ng) (ax2 ng) i j k) = window_direct ng i j k (Z.to_nat (wc_order c)))).
  assert (G : forall h c, good c -> good (request_all ng c h)).
  { induction h as [|o h IH]; intros c Gc; [exact Gc|]. cbn [request_all]. unfold compute_window.
    destruct (Z.ltb_spec o 0); [now apply IH|]. destruct (Z.eqb_spec (wc_order c) o); [now apply IH|].
    apply IH. right. cbn [wc_order wc_table]. split; [lia|]. intros. apply fill_window_correct; assumption. }
  assert (Q : good (request_all ng wcache_init history)) by (apply G; now left).
  unfold calc_window. destruct (Z.ltb_spec order 0); [reflexivity|].
  destruct (Z.eqb_spec order (wc_order (request_all ng wcache_init history))) as [E|E]; [|reflexivity].
  destruct Q as [Q|[Q1 Q2]]; [lia|]. rewrite Q2 by exact C. now rewrite E.
Qed.

(** The filled cache holds the requested order. *)
Theorem window_request_fills :
  forall ng history order, (0 <= order)%Z ->
  exists c, compute_window ng (request_all ng wcache_init history) order = Ok c /\ wc_order c = order.
Proof.
  intros ng history order Ho. unfold compute_window. destruct (Z.ltb_spec order 0); [lia|].
  destruct (Z.eqb_spec (wc_order (request_all ng wcache_init history)) order) as [E|E]; eexists; split; eauto.
Qed.

Example window_case : window_direct (T3 4 4 4)%Z 2 0 0 1 = 2 / PI.
Proof.
  unfold window_direct. cbn [ax0 ax1 ax2]. change (shift_index 4 2) with (-2)%Z. change (shift_index 4 0) with 0%Z.
  cbn [Z.eqb]. replace (PI * IZR (-2) / IZR 4) with (- (PI / 2)) by field.
  rewrite sin_neg, sin_PI2. assert (H := PI_RGT_0). simpl. field. lra.
Qed.

(** ** C20: aliasing functions *)

(** Real and imaginary part of the discrete transform, at angle [theta] per cell, of
    the weights a unit particle at sub-cell position [x] gives to the cells from [lo]
    below [hi]. *)
Definition mode_re (sch : scheme) (theta : R) (lo hi : Z) (x : R) : R :=
  rsum (map (fun u => cos (theta * IZR u) * spline sch (IZR u - x)) (arange lo hi)).
Definition mode_im (sch : scheme) (theta : R) (lo hi : Z) (x : R) : R :=
  rsum (map (fun u => sin (theta * IZR u) * spline sch (IZR u - x)) (arange lo hi)).

(** [v] is the squared modulus averaged over the sub-cell position. *)
Definition is_mean_power (sch : scheme) (theta : R) (v : R) : Prop :=
  forall lo hi, (lo <= -2)%Z -> (4 <= hi)%Z ->
  is_RInt (fun x => mode_re sch theta lo hi x ^ 2 + mode_im sch theta lo hi x ^ 2) 0 1 v.

(** Integral of a polynomial given by its coefficients. *)
Fixpoint peval (a : list R) (x : R) : R :=
  match a with [] => 0 | c :: t => c + x * peval t x end.
Fixpoint pint_from (a : list R) (n : nat) (x : R) : R :=
  match a with [] => 0 | c :: t => c / INR (S n) * x ^ S n + pint_from t (S n) x end.

Lemma pint_from_derive a n x : is_derive (pint_from a n) x (x ^ n * peval a x).
Proof.
  revert n. induction a as [|c t IH]; intros n; cbn [pint_from peval].
  - rewrite Rmult_0_r. apply @is_derive_const.
  - replace (x ^ n * (c + x * peval t x)) with (c / INR (S n) * (INR (S n) * 1 * x ^ n) + x ^ S n * peval t x).
    + apply @is_derive_plus; [|apply IH]. apply @is_derive_scal.
      assert (D := is_derive_pow (fun y => y) (S n) x 1 (is_derive_id x)). exact D.
    + rewrite <- tech_pow_Rmult. field. apply not_0_INR. lia.
Qed.

Lemma peval_continuous a x : continuous (peval a) x.
Proof.
  induction a as [|c t IH]; cbn [peval]; [apply continuous_const|].
  apply @continuous_plus; [apply continuous_const|]. apply @continuous_mult; [apply continuous_id|exact IH].
Qed.

Lemma peval_int a lo hi : is_RInt (peval a) lo hi (pint_from a 0 hi - pint_from a 0 lo).
Proof.
  apply (is_RInt_derive (pint_from a 0) (peval a)).
  - intros x _. assert (D := pint_from_derive a 0 x). rewrite Rmult_1_l in D. exact D.
  - intros x _. apply peval_continuous.
Qed.

Lemma peval_RInt f a lo hi v : lo <= hi -> (forall x, lo < x < hi -> f x = peval a x) ->
  pint_from a 0 hi - pint_from a 0 lo = v -> is_RInt f lo hi v.
Proof.
  intros Hle E <-. apply (is_RInt_ext (peval a)); [|apply peval_int].
  intros x. rewrite Rmin_left, Rmax_right by exact Hle. intros Hx. symmetry. now apply E.
Qed.

Lemma trunc0 x : 0 <= x < 1 -> Ztrunc x = 0%Z.
Proof. intros H. apply Ztrunc_unique; [simpl; lra|lia]. Qed.

Ltac norm_z h := repeat match goal with |- context [h ?z] => let v := eval compute in z in progress change (h z) with (h v) end.

Lemma mode_cells sch (h : Z -> R) lo hi x : 0 <= x < 1 -> (lo <= -2)%Z -> (4 <= hi)%Z ->
  rsum (map (fun u => h u * spline sch (IZR u - x)) (arange lo hi)) =
  match sch with
  | NGP => if Rle_dec (1 / 2) x then h 1%Z else h 0%Z
  | CIC => h 0%Z * (1 - x) + h 1%Z * x
  | TSC => if Rlt_dec x (1 / 2)
           then h (-1)%Z * (1 / 2 * (1 / 2 - x) * (1 / 2 - x)) + h 0%Z * (3 / 4 - x * x) + h 1%Z * (1 / 2 * (1 / 2 + x) * (1 / 2 + x))
           else h 0%Z * (1 / 2 * (1 / 2 + (1 - x)) * (1 / 2 + (1 - x))) + h 1%Z * (3 / 4 - (1 - x) * (1 - x))
                + h 2%Z * (1 / 2 * (1 / 2 - (1 - x)) * (1 / 2 - (1 - x)))
  | PCS => h (-1)%Z * (1 / 6 * (1 - x) * (1 - x) * (1 - x)) + h 0%Z * (1 / 6 * (4 - 6 * x * x + 3 * x * x * x))
           + h 1%Z * (1 / 6 * (4 - 6 * (1 - x) * (1 - x) + 3 * (1 - x) * (1 - x) * (1 - x))) + h 2%Z * (1 / 6 * x * x * x)
  end.
Proof.
  intros Hx Hlo Hhi. assert (T := trunc0 x Hx). assert (E := spline_values sch x (proj1 Hx)).
  assert (F : (-1 <= first_cell sch x)%Z /\ (first_cell sch x + support sch <= 3)%Z).
  { destruct sch; cbn [first_cell support]; rewrite T; unfold Rleb, Rltb; try destruct (Rle_dec _ _); try destruct (Rlt_dec _ _); lia. }
  rewrite (spline_sum_range sch x lo hi (proj1 Hx)) by lia. clear F.
  destruct sch; cbn [cells support first_cell] in *; unfold cells_ngp, cells_cic, cells_tsc, cells_pcs, win_tsc, win_pcs, Rleb, Rltb in *;
    rewrite T in *; rewrite ?Rminus_0_r in *.
  - destruct (Rle_dec (1 / 2) x); rewrite arange1 in *; cbn [map snd] in *; assert (E0 := f_equal (fun q => nth 0 q 0) E); cbn [nth] in E0;
      rewrite rsum_cons, rsum_nil, E0; simpl; ring.
  - rewrite arange2 in *; cbn [map snd] in *; assert (E0 := f_equal (fun q => nth 0 q 0) E); assert (E1 := f_equal (fun q => nth 1 q 0) E); cbn [nth] in E0, E1;
      rewrite !rsum_cons, rsum_nil, E0, E1; simpl; ring.
  - destruct (Rlt_dec x (1 / 2)); rewrite arange3 in *; cbn [map snd] in *; assert (E0 := f_equal (fun q => nth 0 q 0) E);
      assert (E1 := f_equal (fun q => nth 1 q 0) E); assert (E2 := f_equal (fun q => nth 2 q 0) E); cbn [nth] in E0, E1, E2;
      rewrite !rsum_cons, rsum_nil, E0, E1, E2; norm_z h; ring.
  - rewrite arange4 in *; cbn [map snd] in *; assert (E0 := f_equal (fun q => nth 0 q 0) E);
      assert (E1 := f_equal (fun q => nth 1 q 0) E); assert (E2 := f_equal (fun q => nth 2 q 0) E); assert (E3 := f_equal (fun q => nth 3 q 0) E); cbn [nth] in E0, E1, E2, E3;
      rewrite !rsum_cons, rsum_nil, E0, E1, E2, E3; norm_z h; ring.
Qed.

Lemma cos_cells theta : cos (theta * IZR (-1)) = cos theta /\ cos (theta * IZR 0) = 1 /\ cos (theta * IZR 1) = cos theta /\
  cos (theta * IZR 2) = 2 * cos theta * cos theta - 1.
Proof.
  repeat split.
  - replace (theta * IZR (-1)) with (- theta) by (simpl; ring). apply cos_neg.
  - rewrite Rmult_0_r. apply cos_0.
  - now rewrite Rmult_1_r.
  - rewrite Rmult_comm. apply cos_2a_cos.
Qed.

Lemma sin_cells theta : sin (theta * IZR (-1)) = - sin theta /\ sin (theta * IZR 0) = 0 /\ sin (theta * IZR 1) = sin theta /\
  sin (theta * IZR 2) = 2 * sin theta * cos theta.
Proof.
  repeat split.
  - replace (theta * IZR (-1)) with (- theta) by (simpl; ring). apply sin_neg.
  - rewrite Rmult_0_r. apply sin_0.
  - now rewrite Rmult_1_r.
  - rewrite Rmult_comm. apply sin_2a.
Qed.

Lemma sq_sin s c a : s * s = 1 - c * c -> (s * a) ^ 2 = (1 - c ^ 2) * a ^ 2.
Proof. intros H. replace ((s * a) ^ 2) with ((s * s) * a ^ 2) by ring. rewrite H. ring. Qed.

Lemma alias_power sch theta : is_mean_power sch theta (alias_factor sch (sin (theta / 2) * sin (theta / 2))).
Proof.
  intros lo hi Hlo Hhi. set (c := cos theta).
  assert (H2 : sin (theta / 2) * sin (theta / 2) = (1 - c) / 2).
  { assert (E := cos_2a_sin (theta / 2)). replace (2 * (theta / 2)) with theta in E by field. unfold c. lra. }
  assert (SC : sin theta * sin theta = 1 - c * c).
  { assert (E := sin2_cos2 theta). unfold Rsqr in E. unfold c. lra. }
  rewrite H2. destruct (cos_cells theta) as (C1 & C2 & C3 & C4). destruct (sin_cells theta) as (S1 & S2 & S3 & S4).
  fold c in C1, C3, C4, S4.
  destruct sch; cbn [alias_factor].
  - apply (peval_RInt _ [1]); [lra| |simpl; field].
    intros x Hx. unfold mode_re, mode_im. rewrite !mode_cells by (try assumption; lra).
    destruct (Rle_dec (1 / 2) x); rewrite ?C2, ?C3, ?S2, ?S3; simpl peval; [|ring].
    replace (sin theta ^ 2) with (sin theta * sin theta) by ring. rewrite SC. ring.
  - apply (peval_RInt _ [(1 / 1) * c ^ 0; (-2 / 1) * c ^ 0 + (2 / 1) * c ^ 1; (2 / 1) * c ^ 0 + (-2 / 1) * c ^ 1]); [lra| |simpl; field].
    intros x Hx. unfold mode_re, mode_im. rewrite !mode_cells by (try assumption; lra).
    rewrite C2, C3, S2, S3. cbn [peval].
    replace (0 * (1 - x) + sin theta * x) with (sin theta * x) by ring. rewrite (sq_sin _ c) by exact SC. field.
  - replace ((1 - (1 - c) / 2 + 2 / 15 * ((1 - c) / 2) * ((1 - c) / 2))) with
      ((66 / 120 + 2 * (26 / 120) * c + 2 * (1 / 120) * (2 * c * c - 1)) / 2 + (66 / 120 + 2 * (26 / 120) * c + 2 * (1 / 120) * (2 * c * c - 1)) / 2) by field.
    apply (is_RInt_Chasles (V := R_NormedModule) _ 0 (1 / 2) 1).
    + apply (peval_RInt _ [(9 / 16) * c ^ 0 + (3 / 8) * c ^ 1 + (1 / 16) * c ^ 2; 0; (-1 / 2) * c ^ 0 + (1 / 1) * c ^ 1 + (-1 / 2) * c ^ 2; 0; (1 / 1) * c ^ 0 + (-2 / 1) * c ^ 1 + (1 / 1) * c ^ 2]); [lra| |simpl; field].
      intros x Hx. unfold mode_re, mode_im. rewrite !mode_cells by (try assumption; lra).
      destruct (Rlt_dec x (1 / 2)); [|lra]. rewrite C1, C2, C3, S1, S2, S3. cbn [peval].
      match goal with |- _ + ?b ^ 2 = _ => replace b with (sin theta * (- (1 / 2 * (1 / 2 - x) * (1 / 2 - x)) + 1 / 2 * (1 / 2 + x) * (1 / 2 + x))) by ring end.
      rewrite (sq_sin _ c) by exact SC. field.
    + apply (peval_RInt _ [(17 / 16) * c ^ 0 + (-5 / 8) * c ^ 1 + (9 / 16) * c ^ 2; (-3 / 1) * c ^ 0 + (6 / 1) * c ^ 1 + (-3 / 1) * c ^ 2; (11 / 2) * c ^ 0 + (-11 / 1) * c ^ 1 + (11 / 2) * c ^ 2; (-4 / 1) * c ^ 0 + (8 / 1) * c ^ 1 + (-4 / 1) * c ^ 2; (1 / 1) * c ^ 0 + (-2 / 1) * c ^ 1 + (1 / 1) * c ^ 2]); [lra| |simpl; field].
      intros x Hx. unfold mode_re, mode_im. rewrite !mode_cells by (try assumption; lra).
      destruct (Rlt_dec x (1 / 2)); [lra|]. rewrite C2, C3, C4, S2, S3, S4. cbn [peval].
      match goal with |- _ + ?b ^ 2 = _ => replace b with (sin theta * ((3 / 4 - (1 - x) * (1 - x)) + 2 * c * (1 / 2 * (1 / 2 - (1 - x)) * (1 / 2 - (1 - x))))) by ring end.
      rewrite (sq_sin _ c) by exact SC. field.
  - apply (peval_RInt _ [(4 / 9) * c ^ 0 + (4 / 9) * c ^ 1 + (1 / 9) * c ^ 2; 0; (-1 / 3) * c ^ 0 + (2 / 3) * c ^ 1 + (-1 / 3) * c ^ 2; (4 / 9) * c ^ 0 + (-2 / 3) * c ^ 1 + (2 / 9) * c ^ 3; (1 / 3) * c ^ 0 + (-4 / 3) * c ^ 1 + (5 / 3) * c ^ 2 + (-2 / 3) * c ^ 3; (-2 / 3) * c ^ 0 + (2 / 1) * c ^ 1 + (-2 / 1) * c ^ 2 + (2 / 3) * c ^ 3; (2 / 9) * c ^ 0 + (-2 / 3) * c ^ 1 + (2 / 3) * c ^ 2 + (-2 / 9) * c ^ 3]); [lra| |simpl; field].
    intros x Hx. unfold mode_re, mode_im. rewrite !mode_cells by (try assumption; lra).
    rewrite C1, C2, C3, C4, S1, S2, S3, S4. cbn [peval].
    match goal with |- _ + ?b ^ 2 = _ => replace b with (sin theta * (- (1 / 6 * (1 - x) * (1 - x) * (1 - x))
       + (1 / 6 * (4 - 6 * (1 - x) * (1 - x) + 3 * (1 - x) * (1 - x) * (1 - x))) + 2 * c * (1 / 6 * x * x * x))) by ring end.
    rewrite (sq_sin _ c) by exact SC. field.
Qed.

Lemma alias_sin2_angle n i : (0 < n)%Z ->
  alias_sin2 n i = sin (2 * PI * IZR i / IZR n / 2) * sin (2 * PI * IZR i / IZR n / 2).
Proof.
  intros Hn. assert (P : 0 < IZR n) by (now apply IZR_lt). unfold alias_sin2.
  replace (2 * PI * IZR i / IZR n / 2) with (PI * IZR i / IZR n) by (field; lra).
  assert (E : sin (PI * IZR (shift_index n i) / IZR n) * sin (PI * IZR (shift_index n i) / IZR n) = sin (PI * IZR i / IZR n) * sin (PI * IZR i / IZR n)).
  { unfold shift_index. destruct (i <? n / 2)%Z; [reflexivity|].
    rewrite minus_IZR. replace (PI * (IZR i - IZR n) / IZR n) with (- (PI - PI * IZR i / IZR n)) by (field; lra).
    rewrite sin_neg, sin_PI_x. ring. }
  destruct (Z.eqb_spec (shift_index n i) 0) as [Z0|Z0]; [|exact E].
  rewrite <- E, Z0. replace (PI * 0 / IZR n) with 0 by (field; lra). rewrite sin_0. ring.
Qed.

(** The aliasing function of mode (i, j, k) is the product over the axes of the mean
    power at angle 2 pi i / n per cell. *)
Theorem alias_is_mean_power :
  forall sch ng i j k, (0 < ax0 ng)%Z -> (0 < ax1 ng)%Z -> (0 < ax2 ng)%Z ->
  exists px py pz,
    is_mean_power sch (2 * PI * IZR i / IZR (ax0 ng)) px /\
    is_mean_power sch (2 * PI * IZR j / IZR (ax1 ng)) py /\
    is_mean_power sch (2 * PI * IZR k / IZR (ax2 ng)) pz /\
    calc_alias sch ng i j k = px * py * pz.
Proof.
  intros sch ng i j k Hx Hy Hz. do 3 eexists. split; [apply alias_power|]. split; [apply alias_power|]. split; [apply alias_power|].
  unfold calc_alias. now rewrite !alias_sin2_angle by assumption.
Qed.

(** It lies between the value at the Nyquist mode and one, so it is positive. *)
Lemma alias_factor_bounds sch s : 0 <= s <= 1 ->
  0 < match sch with NGP => 1 | CIC => 1 / 3 | TSC => 2 / 15 | PCS => 17 / 315 end <= alias_factor sch s /\ alias_factor sch s <= 1.
Proof.
  intros Hs. destruct sch; cbn [alias_factor]; try lra.
  - split; nra.
  - assert (0 <= s * s) by nra. assert (s * s <= s) by nra.
    assert (0 <= s * s * s) by (apply Rmult_le_pos; lra). assert (s * s * s <= s * s) by nra.
    split; [split; [lra|]|lra].
    assert (0 <= (1 - s) * (1 - s)) by nra. assert (0 <= (1 - s) * (1 - s) * (1 - s)) by (apply Rmult_le_pos; lra). lra.
Qed.

Theorem alias_positive :
  forall sch ng i j k, (0 < ax0 ng)%Z -> (0 < ax1 ng)%Z -> (0 < ax2 ng)%Z ->
  0 < calc_alias sch ng i j k <= 1 /\ calc_alias sch ng 0 0 0 = 1.
Proof.
  intros sch ng i j k Hx Hy Hz.
  assert (G : forall n i, (0 < n)%Z -> 0 <= alias_sin2 n i <= 1).
  { intros n t Hn. rewrite alias_sin2_angle by exact Hn. set (x := _ / 2).
    assert (E := sin2_cos2 x). unfold Rsqr in E. assert (0 <= sin x * sin x) by nra. assert (0 <= cos x * cos x) by nra. lra. }
  assert (Z0 : forall n, (0 < n)%Z -> alias_factor sch (alias_sin2 n 0) = 1).
  { intros n Hn. rewrite alias_sin2_angle by exact Hn. assert (0 < IZR n) by (now apply IZR_lt).
    replace (2 * PI * 0 / IZR n / 2) with 0 by (field; lra). rewrite sin_0. destruct sch; simpl; ring. }
  unfold calc_alias. split; [|rewrite !Z0 by assumption; ring].
  assert (A := alias_factor_bounds sch _ (G _ i Hx)). assert (B := alias_factor_bounds sch _ (G _ j Hy)).
  assert (C := alias_factor_bounds sch _ (G _ k Hz)).
  set (a := alias_factor sch (alias_sin2 (ax0 ng) i)) in *. set (b := alias_factor sch (alias_sin2 (ax1 ng) j)) in *.
  set (d := alias_factor sch (alias_sin2 (ax2 ng) k)) in *.
  destruct A as [[A0 A1] A2], B as [[B0 B1] B2], C as [[D0 D1] D2].
  assert (0 < a * b) by (apply Rmult_lt_0_compat; lra). assert (a * b <= 1) by nra.
  assert (0 < a * b * d) by (apply Rmult_lt_0_compat; lra). split; nra.
Qed.

(** The isotropic approximation used with interlacing also stays within [0, 1]. *)
Theorem alias_interlaced_bounds :
  forall ng i j k order, 0 <= calc_alias_interlaced ng i j k order <= 1.
Proof.
  intros. unfold calc_alias_interlaced. cbv zeta. set (x := _ / 2).
  assert (E := sin2_cos2 x). unfold Rsqr in E. set (s := sin x * sin x) in *. set (c := cos x * cos x) in *.
  assert (S0 : 0 <= s) by (unfold s; nra). assert (C0 : 0 <= c) by (unfold c; nra).
  assert (P0 : 0 <= c ^ order) by (now apply pow_le).
  assert (P1 : c ^ order <= 1) by (rewrite <- (pow1 order); apply pow_incr; lra).
  set (q := match order with 2%nat => _ | 3%nat => _ | 4%nat => _ | _ => _ end).
  assert (Q : 0 <= q <= 1).
  { assert (A := alias_factor_bounds CIC s ltac:(lra)). assert (B := alias_factor_bounds TSC s ltac:(lra)).
    assert (D := alias_factor_bounds PCS s ltac:(lra)). cbn [alias_factor] in A, B, D.
    unfold q. destruct order as [|[|[|[|[|o]]]]]; lra. }
  split; [now apply Rmult_le_pos|nra].
Qed.

(** CIC at the Nyquist mode of one axis: a third. *)
Example alias_case : calc_alias CIC (T3 4 4 4)%Z 2 0 0 = 1 / 3.
Proof.
  unfold calc_alias. rewrite !alias_sin2_angle by (simpl; lia). cbn [ax0 ax1 ax2 alias_factor].
  replace (2 * PI * 2 / 4 / 2) with (PI / 2) by field. replace (2 * PI * 0 / 4 / 2) with 0 by field.
  rewrite sin_PI2, sin_0. field.
Qed.

Print Assumptions window_nonzero.
Print Assumptions window_single_cell_refuted.
Print Assumptions window_cache_correct.
Print Assumptions window_request_fills.
Print Assumptions alias_is_mean_power.
Print Assumptions alias_positive.
Print Assumptions alias_interlaced_bounds.
