(* The window convolution matrix of a bispectrum convolution (C120). *)
From Coq Require Import String.
From Coq Require Import Reals ZArith List Lia Lra Bool Permutation.
From Coquelicot Require Import Complex.
From Verif Require Import Base MpiModel ArrayModel ArrayProofs Array2dModel RSum CSum MultipoleModel
  WindowModel WindowProps WinConvModel WinConvProps WinConvSumProps WinConvCases
  OscilModel Dft FftlogModel FftlogProofs FftlogProps TransformModel TransformProps FourierConvModel
  FourierConvProps FourierConv3Props FourierConvCases ExtrapLinearProps FourierConvLinearProps WinMatModel WinMatConvModel.
From Verif Require WinMatProps OscilProps.
Import ListNotations.
Local Open Scope R_scope.

(* ------------------------------------------------------------------ *)
(* Models as vectors                                                   *)

Lemma square_of {d} (m : rmat) : WinMatProps.square d m -> square d (map (map RtoC) m).
Proof.
  intros [L F]. split; [now rewrite map_length|]. intros r Hr. apply in_map_iff in Hr as (q & <- & Hq).
  rewrite map_length. exact (proj1 (Forall_forall _ _) F q Hq).
Qed.

Lemma entry_of d (m : rmat) i i' : WinMatProps.square d m -> (i < d)%nat -> (i' < d)%nat ->
  entry (map (map RtoC) m) i i' = RtoC (nth (i * d + i')%nat (concat m) 0).
Proof.
  intros S Hi Hi'. rewrite (WinMatProps.nth_concat_square d) by assumption. unfold entry.
  change (@nil C) with (map RtoC []). rewrite (map_nth (map RtoC)), (map_nth RtoC). reflexivity.
Qed.

(** Three models of which the third, as a vector, is combined from the others. *)
Lemma models_of a b (zs : list (list Z)) dims : forall ms1 ms2 ms3,
  WinMatProps.shaped dims ms1 -> WinMatProps.shaped dims ms2 -> WinMatProps.shaped dims ms3 ->
  (forall i, (i < dim_2d dims)%nat ->
     nth i (WinMatProps.flatten ms3) 0 = a * nth i (WinMatProps.flatten ms1) 0 + b * nth i (WinMatProps.flatten ms2) 0) ->
  models_combined a b (combine (map MCopy zs) (map (fun m => (FloatArr, map (map RtoC) m)) ms1))
    (combine (map MCopy zs) (map (fun m => (FloatArr, map (map RtoC) m)) ms2))
    (combine (map MCopy zs) (map (fun m => (FloatArr, map (map RtoC) m)) ms3)).
Proof.
  revert zs. induction dims as [|d dims IH]; intros zs ms1 ms2 ms3 S1 S2 S3 H;
    inversion S1; inversion S2; inversion S3; subst.
  - cbn [map]. destruct (map MCopy zs); constructor.
  - match goal with A : WinMatProps.square d ?m1, B : Forall2 _ dims ?l1 |- models_combined _ _ (combine _ (map _ (?m1 :: ?l1))) _ _ => idtac | _ => idtac end.
    rename y into m1, l' into l1, y0 into m2, l'0 into l2, y1 into m3, l'1 into l3.
    assert (Q1 : WinMatProps.square d m1) by assumption. assert (Q2 : WinMatProps.square d m2) by assumption. assert (Q3 : WinMatProps.square d m3) by assumption.
    pose proof (WinMatProps.concat_square d m1 Q1) as L1. pose proof (WinMatProps.concat_square d m2 Q2) as L2. pose proof (WinMatProps.concat_square d m3 Q3) as L3.
    unfold WinMatProps.flatten, dim_2d in H. cbn [map concat list_sum fold_right] in H.
    destruct zs as [|z zs]; cbn [map combine]; [constructor|]. constructor.
    + unfold entry_combined. cbn [fst snd]. do 2 (split; [reflexivity|]). do 3 (split; [now left|]). exists d.
      refine (conj (square_of _ Q1) (conj (square_of _ Q2) (conj (square_of _ Q3) _))). intros i i' Hi Hi'.
      rewrite !(entry_of d) by assumption. specialize (H (i * d + i')%nat ltac:(nia)).
      rewrite !app_nth1 in H by (rewrite ?L1, ?L2, ?L3; nia). rewrite H. unfold Cplus, Cmult, RtoC. cbn [fst snd]. f_equal; ring.
    + apply IH; try assumption. intros i Hi. unfold WinMatProps.flatten, dim_2d in *.
      specialize (H (d * d + i)%nat ltac:(unfold list_sum in *; lia)).
      rewrite !app_nth2 in H by (rewrite ?L1, ?L2, ?L3; lia). rewrite L1, L2, L3 in H.
      replace (d * d + i - d * d)%nat with i in H by lia. exact H.
Qed.

Lemma dims_of w dims : mat_dims w = Ok dims ->
  Forall2 (fun z d => exists x, zlookup (w_kin w) (ZPole z) = Ok x /\ d = length x) (f_Z (c_f (w_conv w))) dims.
Proof.
  unfold mat_dims. generalize (f_Z (c_f (w_conv w))). intros zs. revert dims. induction zs as [|z zs IH]; intros dims H; cbn [map sequence] in H.
  - injection H as <-. constructor.
  - apply bind_ok in H as (d & E & H). apply bind_ok in H as (l & El & H). injection H as <-.
    apply bind_ok in E as (x & Ex & E). injection E as <-. constructor; eauto.
Qed.

Lemma outputs_of (ks : list (list Z)) (d : mdict (list (list C))) :
  (forall k, In k ks -> exists x, lookup d k = Ok x) ->
  exists l, sequence (map (lookup d) ks) = Ok l /\ Forall2 (fun k x => lookup d k = Ok x) ks l.
Proof.
  induction ks as [|k ks IH]; intros H; [exists []; split; [reflexivity|constructor]|].
  destruct (H k (or_introl eq_refl)) as [x Ex]. destruct IH as (l & El & F); [intros k' I; apply H; now right|].
  exists (x :: l). cbn [map sequence]. rewrite Ex, El. split; [reflexivity|now constructor].
Qed.

Lemma square_back n m : square n m -> WinMatProps.square n m.
Proof. intros [L F]. split; [exact L|]. apply Forall_forall. exact F. Qed.

Section Matrix.
Variable spl2 : nat -> list R -> matrix -> res (R -> R -> R).
Variable simpson : list R -> list R -> R.
Variable wigner : Z -> Z -> Z -> R.
Hypothesis HS : by_shape spl2.
Hypothesis HL : linear2 spl2.

Let conv := bispec_convolve spl2 simpson wigner.

(** What the statements share: an extrapolation that is none, zeros,
    ends or straight lines (extrap from 0 to 3), an integral constraint that
    is left out or is linear, and one model that convolves. *)
Definition linear_case g raw f ws wm k_in k_out rc p s w (ic : bool) dims ms0 : Prop :=
  build_formulae raw = Ok f /\ bispec_init g f ws wm k_in k_out rc p s = Ok w /\ linear_extrap (p_extrap p) /\
  (ic = true -> linear_integral simpson) /\ mat_dims w = Ok dims /\
  WinMatProps.shaped dims ms0 /\ (exists out, conv w (model_dict w ms0) (passed_ic ic) = Ok out).

Lemma conv_step g raw f ws wm k_in k_out rc p s w ic dims ms0 a b ms1 ms2 ms3 out1 :
  linear_case g raw f ws wm k_in k_out rc p s w ic dims ms0 ->
  WinMatProps.shaped dims ms1 -> WinMatProps.shaped dims ms2 -> WinMatProps.shaped dims ms3 ->
  (forall i, (i < dim_2d dims)%nat ->
     nth i (WinMatProps.flatten ms3) 0 = a * nth i (WinMatProps.flatten ms1) 0 + b * nth i (WinMatProps.flatten ms2) 0) ->
  conv w (model_dict w ms1) (passed_ic ic) = Ok out1 ->
  exists out2 out3, conv w (model_dict w ms2) (passed_ic ic) = Ok out2 /\ conv w (model_dict w ms3) (passed_ic ic) = Ok out3 /\
    c_f (w_conv w) = f /\
    forall m, In m (f_poles f) -> exists x y z, lookup out1 m = Ok x /\ lookup out2 m = Ok y /\ lookup out3 m = Ok z /\
      combined a b (length (w_kout w)) x y z.
Proof.
  intros (BF & W & EX & LI & HD & _ & _) S1 S2 S3 H HC.
  assert (Ef : c_f (w_conv w) = f).
  { assert (W' := W). unfold bispec_init in W'. apply bind_ok in W' as ((rQ & Q) & BI & W').
    apply bind_ok in W' as (ki & _ & W'). apply bind_ok in W' as (bad & _ & W'). apply bind_ok in W' as (ki' & _ & W'). cbn [fst snd] in W'.
    now destruct (fourier_init_inv _ _ _ _ _ _ _ _ _ _ _ _ _ _ BF BI W') as (Ef & _). }
  destruct (bispec_linear spl2 simpson wigner HS HL g raw f ws wm k_in k_out rc p s w a b
     (model_dict w ms1) (model_dict w ms2) (model_dict w ms3) (passed_ic ic) (passed_ic ic) (passed_ic ic) out1)
    as (o2 & o3 & E2 & E3 & _ & _ & _ & V); try assumption.
  - destruct ic; [left; now apply LI|right; discriminate].
  - destruct ic; cbn; [exact I|ring].
  - now apply (models_of a b _ dims).
  - exists o2, o3. auto.
Qed.

Lemma conv_total g raw f ws wm k_in k_out rc p s w ic dims ms0 :
  linear_case g raw f ws wm k_in k_out rc p s w ic dims ms0 ->
  forall ms, WinMatProps.shaped dims ms -> exists out, conv w (model_dict w ms) (passed_ic ic) = Ok out /\ c_f (w_conv w) = f /\
    forall m, In m (f_poles f) -> exists x, lookup out m = Ok x /\ square (length (w_kout w)) x.
Proof.
  intros LC ms S. pose proof LC as (_ & _ & _ & _ & _ & S0 & out0 & E0).
  destruct (conv_step _ _ _ _ _ _ _ _ _ _ _ _ _ _ 0 1 ms0 ms ms out0 LC S0 S S) as (o2 & o3 & E2 & _ & Ef & V); [intros i _; ring|exact E0|].
  exists o2. split; [exact E2|]. split; [exact Ef|]. intros m Hm. destruct (V m Hm) as (x & y & z & _ & Ly & _ & _ & Q & _). eauto.
Qed.

Lemma model_conv_ok g raw f ws wm k_in k_out rc p s w ic dims ms0 :
  linear_case g raw f ws wm k_in k_out rc p s w ic dims ms0 ->
  forall ms, WinMatProps.shaped dims ms -> exists out l, conv w (model_dict w ms) (passed_ic ic) = Ok out /\
    model_conv spl2 simpson wigner w ic ms = Ok l /\ Forall2 (fun m x => lookup out m = Ok x) (f_poles f) l /\
    Forall (WinMatProps.square (length (w_kout w))) l.
Proof.
  intros LC ms S. destruct (conv_total _ _ _ _ _ _ _ _ _ _ _ _ _ _ LC ms S) as (out & E & Ef & V).
  destruct (outputs_of (f_poles f) out) as (l & El & F).
  { intros k Hk. destruct (V k Hk) as (x & Lx & _). eauto. }
  exists out, l. split; [exact E|]. split; [|split; [exact F|]].
  - unfold model_conv. fold conv. rewrite E, Ef. cbn [bind]. exact El.
  - clear El. induction F as [|m x ks l Lx F IH]; constructor.
    + destruct (V m (or_introl eq_refl)) as (x' & Lx' & Q). rewrite Lx in Lx'. injection Lx' as <-. now apply square_back.
    + apply IH. intros k Hk. apply V. now right.
Qed.

Lemma forall2_nth {A B} (P : A -> B -> Prop) l l' i d d' : Forall2 P l l' -> (i < length l)%nat -> P (nth i l d) (nth i l' d').
Proof. intros F. revert i. induction F as [|x y l l' HP F IH]; intros [|i] H; cbn in *; try lia; [exact HP|]. apply IH. lia. Qed.

Lemma forall2_len {A B} (P : A -> B -> Prop) l l' : Forall2 P l l' -> length l = length l'.
Proof. induction 1; cbn; lia. Qed.

(** C120: the matrix is made, on any number of processes that leaves the root
    something to do, and its product with a model as a vector is the
    convolution of the model. *)
Theorem matrix_convolves g raw f ws wm k_in k_out rc p s w ic dims ms0 cat diag np root arrive flag :
  linear_case g raw f ws wm k_in k_out rc p s w ic dims ms0 ->
  WinMatProps.root_busy (dim_2d dims) root np -> (forall k m, Permutation m (arrive k m)) ->
  let nk := length (w_kout w) in let n := dim_2d dims in let npole := length (f_poles f) in
  exists T : nat -> nat -> nat -> C,
    gen_winconv_mat spl2 simpson wigner w (Mpi np root arrive) ic cat diag flag
    = {| result := Ok (let mats := map (fun k => map (fun r => map (fun j => T k r j) (seq 0 n))
                                         (if diag then map (fun i => (i * nk + i)%nat) (seq 0 nk) else seq 0 (nk * nk))) (seq 0 npole) in
                       if cat then Stacked (concat mats) else PerPole mats);
         catch_left := flag |} /\
    forall ms, WinMatProps.shaped dims ms -> exists out, bispec_convolve spl2 simpson wigner w (model_dict w ms) (passed_ic ic) = Ok out /\
      forall k, (k < npole)%nat -> exists x, lookup out (nth k (f_poles f) []) = Ok x /\ square nk x /\
        forall i i', (i < nk)%nat -> (i' < nk)%nat ->
          csum (map (fun j => (T k (i * nk + i')%nat j * RtoC (nth j (WinMatProps.flatten ms) 0))%C) (seq 0 n)) = entry x i i'.
Proof.
  intros LC RB AR nk n npole. pose proof LC as (BF & W & EX & LI & HD & S0 & out0 & E0).
  destruct (conv_total _ _ _ _ _ _ _ _ _ _ _ _ _ _ LC ms0 S0) as (_ & _ & Ef & _).
  assert (TT : WinMatProps.total (model_conv spl2 simpson wigner w ic) dims npole nk).
  { intros ms S. destruct (model_conv_ok _ _ _ _ _ _ _ _ _ _ _ _ _ _ LC ms S) as (out & l & _ & E & F & Q).
    exists l. split; [exact E|]. split; [|exact Q]. symmetry. exact (forall2_len _ _ _ F). }
  assert (LN : WinMatProps.linear (model_conv spl2 simpson wigner w ic) dims npole nk).
  { intros a ms ms1 ms2 o o1 o2 S S1 S2 E E1 E2 HN k i i' Hk Hi Hi'.
    destruct (model_conv_ok _ _ _ _ _ _ _ _ _ _ _ _ _ _ LC ms S) as (u & l & U & EL & F & _). rewrite E in EL. injection EL as <-.
    destruct (model_conv_ok _ _ _ _ _ _ _ _ _ _ _ _ _ _ LC ms1 S1) as (u1 & l1 & U1 & EL1 & F1 & _). rewrite E1 in EL1. injection EL1 as <-.
    destruct (model_conv_ok _ _ _ _ _ _ _ _ _ _ _ _ _ _ LC ms2 S2) as (u2 & l2 & U2 & EL2 & F2 & _). rewrite E2 in EL2. injection EL2 as <-.
    destruct (conv_step _ _ _ _ _ _ _ _ _ _ _ _ _ _ 1 a ms1 ms2 ms u1 LC S1 S2 S) as (v2 & v3 & V2 & V3 & _ & V); [|exact U1|].
    { intros j Hj. rewrite HN by exact Hj. ring. }
    rewrite U2 in V2. injection V2 as <-. rewrite U in V3. injection V3 as <-.
    destruct (V (nth k (f_poles f) []) ltac:(apply nth_In; exact Hk)) as (x & y & z & Lx & Ly & Lz & _ & _ & _ & EN).
    pose proof (forall2_nth _ _ _ k [] [] F Hk) as N. pose proof (forall2_nth _ _ _ k [] [] F1 Hk) as N1. pose proof (forall2_nth _ _ _ k [] [] F2 Hk) as N2. cbv beta in N, N1, N2.
    rewrite Lz in N. rewrite Lx in N1. rewrite Ly in N2. injection N as N. injection N1 as N1. injection N2 as N2.
    change (entry (nth k o []) i i' = (entry (nth k o1 []) i i' + RtoC a * entry (nth k o2 []) i i')%C).
    assert (G : entry z i i' = (entry x i i' + RtoC a * entry y i i')%C) by (rewrite EN by assumption; ring).
    subst x y z. exact G. }
  assert (NP : (0 < n)%nat) by (destruct RB as [RB1 RB2]; unfold n; lia).
  destruct (WinMatProps.mpi_exact _ dims npole nk cat diag np root arrive flag TT NP RB AR) as (T & RS & EM).
  exists T. split.
  - unfold gen_winconv_mat. rewrite HD, Ef. fold npole nk. rewrite EM. unfold WinMatProps.diag_matrix, WinMatProps.full_matrix.
    destruct diag; [|reflexivity]. fold n. cbv zeta.
    assert (EQ : map (fun k => map (fun i => map (fun j => T k (i * nk + i)%nat j) (seq 0 n)) (seq 0 nk)) (seq 0 npole)
      = map (fun k => map (fun r => map (fun j => T k r j) (seq 0 n)) (map (fun i => (i * nk + i)%nat) (seq 0 nk))) (seq 0 npole)).
    { apply map_ext. intros k. now rewrite map_map. }
    destruct cat.
    + exact (f_equal (fun mats => {| result := Ok (Stacked (concat mats)); catch_left := flag |}) EQ).
    + exact (f_equal (fun mats => {| result := Ok (PerPole mats); catch_left := flag |}) EQ).
  - intros ms S. destruct (model_conv_ok _ _ _ _ _ _ _ _ _ _ _ _ _ _ LC ms S) as (out & l & E & EL & F & Q).
    exists out. split; [exact E|]. intros k Hk. exists (nth k l []).
    split; [exact (forall2_nth _ _ _ k [] [] F Hk)|]. split.
    + assert (Lk : (k < length l)%nat) by (exact (eq_ind _ (fun q => (k < q)%nat) Hk _ (forall2_len _ _ _ F))).
      destruct (proj1 (Forall_forall _ _) Q (nth k l []) (nth_In _ _ Lk)) as [A B]. split; [exact A|]. exact (proj1 (Forall_forall _ _) B).
    + intros i i' Hi Hi'. exact (WinMatProps.matrix_product _ dims npole nk T TT LN RS ms l k i i' S EL Hk Hi Hi').
Qed.
End Matrix.

(* ------------------------------------------------------------------ *)
(* Log-linear extrapolation                                            *)

Lemma loglin_stops a e : (0 < e)%Z -> nth 1 a 0 = 0 -> forall v, extrap_loglin a e <> Ok v.
Proof.
  intros HE H v E. unfold extrap_loglin in E. apply bind_ok in E as (a' & EC & E). apply check_same in EC. subst a'.
  replace (0 <? e)%Z with true in E by (symmetry; now apply Z.ltb_lt). unfold at1 in E. rewrite H in E.
  destruct (Reqb 0 0) eqn:E0; [discriminate|]. apply Reqb_false in E0. congruence.
Qed.

Lemma doubled n nt : (2 <= n)%nat -> py_size (2 * INR n) = Ok nt -> (0 < (nt - Z.of_nat n) / 2)%Z.
Proof.
  intros Hn H. assert (P : 2 <= INR n) by (replace 2 with (INR 2) by reflexivity; now apply le_INR).
  assert (0 < nt)%Z as HP.
  { unfold py_size in H. destruct (Rltb _ 0) eqn:E1; [discriminate|]. destruct (Reqb _ 0) eqn:E2; [apply Reqb_spec in E2; lra|].
    injection H as <-. set (y := 2 * INR n) in *. pose proof ln2_pos.
    assert (L : 0 < ln y) by (rewrite <- ln_1; apply ln_increasing; unfold y; lra).
    assert (E0 : (0 <= Raux.Zceil (ln y / ln 2))%Z).
    { apply le_IZR. apply Rle_trans with (ln y / ln 2); [|apply Raux.Zceil_ub].
      apply Rmult_le_pos; [lra|]. left. now apply Rinv_0_lt_compat. }
    destruct (Z.ltb_spec (Raux.Zceil (ln y / ln 2)) 0); [lia|]. apply Z.pow_pos_nonneg; lia. }
  destruct (cpp_size_spec _ _ (py_size_eq _ _ H) HP) as (_ & Q & _). rewrite INR_IZR_INZ, <- mult_IZR in Q. apply le_IZR in Q.
  apply Z.lt_le_trans with (2 / 2)%Z; [reflexivity|]. apply Z.div_le_mono; lia.
Qed.

Lemma rows_stop t k row : (forall v, snd (transform t k row) <> Ok v) -> forall m, In row m -> forall v, snd (rows t k m) <> Ok v.
Proof.
  intros H m. induction m as [|r m IH]; intros [] v E; cbn [rows] in E.
  - subst r. destruct (transform t k row) as [af [yg|e]] eqn:ET; [exact (H yg eq_refl)|discriminate].
  - destruct (transform t k r) as [af [yg|e]]; [|discriminate]. destruct (rows t k m) as [af' r'] eqn:ER. cbn [snd] in *.
    apply bind_ok in E as (q & E & _). exact (IH H0 q E).
Qed.

(** A row whose second sample is zero has no log-linear extrapolation. *)
Lemma double_stops g l0 l1 x kr low e2d d dir k m row :
  dsbt_init g [l0; l1] [0; 0]%Z x kr low (EInt 4) 2 e2d = Ok d -> In row m -> nth 1 (map fst row) 0 = 0 ->
  (2 <= length x)%nat /\ forall v, snd (d_multipoles d dir k m) <> Ok v.
Proof.
  intros HI HR HZ. unfold dsbt_init in HI. cbn [Z.leb Z.compare Pos.compare Pos.compare_cont andb negb Z.eqb] in HI.
  apply bind_ok in HI as (((na & e) & q) & Hp & HI). destruct (Nat.odd (length x)); [discriminate|].
  apply bind_ok in HI as (ts & HS & HI). cbn [combine map sequence fst snd] in HS.
  apply bind_ok in HS as (t0 & H0 & HS). apply bind_ok in HS as (ts' & HS & HT).
  apply bind_ok in HS as (t1 & H1 & HS). apply bind_ok in HS as (ts'' & HS & HT').
  injection HS as <-. injection HT' as <-. injection HT as <-. injection HI as <-.
  assert (two : forall e p, extrap_loglin x e = Ok p -> (2 <= length x)%nat).
  { intros e' p' E. unfold extrap_loglin in E. apply bind_ok in E as (a' & EC & _). unfold check_1d_array in EC.
    destruct (Nat.ltb_spec (length x) 2); [discriminate|assumption]. }
  destruct e2d; cbn [negb] in Hp.
  - apply bind_ok in Hp as (nt & HN & Hp). apply bind_ok in Hp as (p & HL & Hp). injection Hp as <- <- <-.
    pose proof (two _ _ HL) as N2. split; [exact N2|]. pose proof (doubled _ _ N2 HN) as PE.
    intros v E. unfold d_multipoles in E. destruct (py_prefactor _ _ _); [|discriminate].
    destruct (d_transform _ _ _) as [af r] eqn:ED. cbn [snd] in E. apply bind_ok in E as (r' & E & _).
    unfold d_transform in ED. cbn [d_extrap2d d_extrap Z.eqb Pos.eqb] in ED. injection ED as _ ED. rewrite <- ED in E.
    apply bind_ok in E as (v' & E & _). unfold d_perform_extrap in E. cbn [d_extrap d_next Z.eqb Pos.eqb] in E.
    unfold extrap2d_loglin in E. apply bind_ok in E as (m' & EC & E). cbn [unpack_ext] in E.
    assert (m' = map (map fst) m) as ->.
    { unfold check_2d_array in EC. destruct (_ || _); [discriminate|]. cbn [andb] in EC. destruct (negb _); [discriminate|]. now injection EC as <-. }
    apply bind_ok in E as (m'' & E & _). unfold extrap2d_row_loglin in E.
    replace (0 <? (nt - Z.of_nat (length x)) / 2)%Z with true in E by (symmetry; now apply Z.ltb_lt).
    destruct (existsb _ _) eqn:EE; [discriminate|]. apply not_true_iff_false in EE. apply EE. apply existsb_exists.
    exists (map fst row). split; [now apply in_map|]. apply orb_true_iff. left. apply Reqb_spec. exact HZ.
  - injection Hp as <- <- <-. destruct (sbt_init_outer _ _ _ _ _ _ _ _ _ H1 ltac:(discriminate)) as (_ & _ & _ & EX & EL & nt & p & HN & NX & HL & _).
    pose proof (two _ _ HL) as N2. split; [exact N2|]. pose proof (doubled _ _ N2 HN) as PE. rewrite <- NX in PE.
    intros v E. unfold d_multipoles in E. destruct (py_prefactor _ _ _); [|discriminate].
    destruct (d_transform _ _ _) as [af r] eqn:ED. cbn [snd] in E. apply bind_ok in E as (r' & E & _).
    unfold d_transform in ED. cbn [d_extrap2d d_t] in ED. destruct (rows t1 k m) as [af' it] eqn:ER.
    injection ED as _ ED. rewrite <- ED in E. apply bind_ok in E as (it' & E & _).
    refine (rows_stop t1 k row _ m HR it' _); [|rewrite ER; exact E].
    intros v' ET. unfold transform in ET. rewrite EL, EX in ET. cbn [Z.eqb snd] in ET.
    apply bind_ok in ET as (u & EU & _). unfold perform_extrap in EU. rewrite EX in EU. cbn [Z.eqb Pos.eqb] in EU.
    exact (loglin_stops _ _ PE HZ _ EU).
Qed.

Lemma unit_row d m (u : list R) j : (2 <= d)%nat -> WinMatProps.square d m ->
  (forall i, (i < d * d)%nat -> nth i (concat m) 0 = if (i =? j)%nat then 1 else 0) ->
  exists row, In row m /\ nth 1 row 0 = 0.
Proof.
  intros Hd S H. pose proof S as [L _].
  destruct (Nat.eq_dec j 1) as [->|NE].
  - exists (nth 1 m []). split; [apply nth_In; lia|]. rewrite <- (WinMatProps.nth_concat_square d m 1 1 0 S) by lia.
    rewrite H by nia. destruct (Nat.eqb_spec (1 * d + 1) 1); [lia|reflexivity].
  - exists (nth 0 m []). split; [apply nth_In; lia|]. rewrite <- (WinMatProps.nth_concat_square d m 0 1 0 S) by lia.
    rewrite H by nia. destruct (Nat.eqb_spec (0 * d + 1) j); [lia|reflexivity].
Qed.

Section Loglin.
Variable spl2 : nat -> list R -> matrix -> res (R -> R -> R).
Variable simpson : list R -> list R -> R.
Variable wigner : Z -> Z -> Z -> R.

(** With log-linear extrapolation no unit model convolves: the others of its
    samples are zero, and their ratios are not numbers. *)
Lemma unit_stops g raw f ws wm k_in k_out rc p s w dims ic j v :
  build_formulae raw = Ok f -> bispec_init g f ws wm k_in k_out rc p s = Ok w -> p_extrap p = 4%Z -> p_exp p = 2 ->
  w_orig w = None -> f_Z f <> [] -> mat_dims w = Ok dims ->
  win_convolve_vector (model_conv spl2 simpson wigner w ic) dims (basis_vector (dim_2d dims) j) <> Ok v.
Proof.
  intros BF W EX EE WO NZ HD E. 
  assert (W' := W). unfold bispec_init in W'. apply bind_ok in W' as ((rQ & Q) & BI & W').
  apply bind_ok in W' as (ki & _ & W'). apply bind_ok in W' as (bad & _ & W'). apply bind_ok in W' as (ki' & _ & W'). cbn [fst snd] in W'.
  destruct (fourier_init_inv _ _ _ _ _ _ _ _ _ _ _ _ _ _ BF BI W') as (Ef & _ & _ & _ & _ & Ek & _ & _ & BK & _).
  destruct (formulae_requirements raw f BF) as (_ & _ & NDZ & _).
  destruct (WinMatProps.unflatten dims (basis_vector (dim_2d dims) j)) as (ms & S & F); [apply WinMatProps.basis_length|].
  rewrite <- F, (WinMatProps.vectorised _ dims ms S) in E. apply bind_ok in E as (l & E & _).
  unfold model_conv in E. apply bind_ok in E as (out & E & _).
  unfold bispec_convolve in E. apply bind_ok in E as (zc & E & _). unfold zeta_conv, reinterpolate in E. rewrite WO in E. cbn [bind] in E.
  apply bind_ok in E as (zt & E & _). unfold to_zeta in E. rewrite Ef in E.
  apply dims_of in HD. rewrite Ef in HD. destruct (f_Z f) as [|z zs] eqn:EZ; [congruence|].
  inversion HD as [|? d ? ds (x & Lx & Ed) HD' E1 E2]; clear HD; subst d dims. inversion S as [|? m ? ms' Sm S' E4 E3]; clear S; subst ms.
  destruct (on_keys_inv _ _ _ NDZ E) as [_ V]. destruct (V z (or_introl eq_refl)) as (b & Eb & _).
  destruct (BK z (or_introl eq_refl)) as (x' & t & Lx' & Ht & Lt & _). rewrite Lt in Eb. cbn [bind] in Eb.
  unfold model_dict in Eb. rewrite Ef, EZ in Eb. cbn [map combine raw_lookup samekey] in Eb. rewrite meq_refl in Eb. cbn [bind fst snd] in Eb.
  apply bind_ok in Eb as (yb & Eb & _).
  unfold new_double in Ht. apply bind_ok in Ht as (q0 & _ & Ht). apply bind_ok in Ht as (q1 & _ & Ht). rewrite EX, EE in Ht.
  rewrite <- Ek, Lx in Lx'. injection Lx' as <-.
  destruct (unit_row (length x) m [] j) as (row & Hr & Zr); [|exact Sm| |].
  - exact (proj1 (double_stops _ _ _ _ _ _ _ _ (DNum (-1)) FloatArr [[]] [] Ht (or_introl eq_refl) eq_refl)).
  - intros i Hi. destruct (WinMatProps.basis_unit (dim_2d (length x :: ds)) j) as [_ U].
    rewrite <- F in U. unfold WinMatProps.flatten in U. cbn [map concat] in U.
    rewrite <- U; [|unfold dim_2d; cbn [map list_sum fold_right]; lia].
    symmetry. apply app_nth1. rewrite (WinMatProps.concat_square _ m Sm). exact Hi.
  - destruct (double_stops _ _ _ _ _ _ _ _ (DNum (-1)) FloatArr (map (map RtoC) m) (map RtoC row) Ht) as [_ X].
    + now apply in_map.
    + rewrite map_map. cbn [RtoC fst]. rewrite map_id. exact Zr.
    + exact (X _ Eb).
Qed.

(** C120 with log-linear extrapolation: there is no matrix. *)
Theorem matrix_loglin_never g raw f ws wm k_in k_out rc p s w c ic cat diag flag :
  build_formulae raw = Ok f -> bispec_init g f ws wm k_in k_out rc p s = Ok w -> p_extrap p = 4%Z -> p_exp p = 2 ->
  w_orig w = None -> f_Z f <> [] ->
  forall m, result (gen_winconv_mat spl2 simpson wigner w c ic cat diag flag) <> Ok m.
Proof.
  intros BF W EX EE WO NZ m E. unfold gen_winconv_mat in E. destruct (mat_dims w) as [dims|] eqn:HD; [|discriminate].
  destruct c as [|np root arrive].
  - exact (proj1 (WinMatProps.serial_never _ _ _) _ E).
  - unfold gen_mpi in E. cbn [result] in E. apply bind_ok in E as (sizes & _ & E). apply bind_ok in E as (segs & _ & E).
    apply bind_ok in E as (sub & ES & E). apply bind_ok in E as (u & EU & _).
    assert (A : Forall (fun l => l = []) sub).
    { clear - BF W EX EE WO NZ HD ES. revert sub ES. induction segs as [|sg segs IH]; intros sub ES; cbn [map sequence] in ES.
      - injection ES as <-. constructor.
      - apply bind_ok in ES as (l & EL & ES). apply bind_ok in ES as (ls & ELS & ES). injection ES as <-. constructor; [|now apply IH].
        unfold rank_columns in EL. destruct (slice_indices sg) as [|j js]; [now injection EL as <-|].
        cbn [map sequence] in EL. apply bind_ok in EL as (v & EV & _).
        exfalso. exact (unit_stops _ _ _ _ _ _ _ _ _ _ _ _ _ _ _ BF W EX EE WO NZ HD EV). }
    assert (N : nth root sub [] = []).
    { clear - A. revert root. induction A as [|l sub -> _ IH]; intros [|r]; cbn; auto. }
    rewrite N in EU. discriminate.
Qed.

End Loglin.

(* ------------------------------------------------------------------ *)
(* Log-linear extrapolation with oscillations, the default              *)

Lemma rsign_pos x : 0 < x -> rsign x = 1%Z.
Proof. intros H. unfold rsign. destruct (Rlt_dec 0 x); [reflexivity|lra]. Qed.
Lemma rsign_neg x : x < 0 -> rsign x = (-1)%Z.
Proof. intros H. unfold rsign. destruct (Rlt_dec 0 x); [lra|]. destruct (Rlt_dec x 0); [reflexivity|lra]. Qed.
Lemma rsign_zero : rsign 0 = 0%Z.
Proof. unfold rsign. destruct (Rlt_dec 0 0); [lra|]. destruct (Rlt_dec 0 0); [lra|reflexivity]. Qed.
Lemma xlogabs_zero : xlogabs 0 = NInf.
Proof. unfold xlogabs. destruct (Req_EM_T 0 0); [reflexivity|lra]. Qed.
Lemma xlogabs_pos x : 0 < x -> xlogabs x = Fin (ln x).
Proof. intros H. unfold xlogabs. destruct (Req_EM_T x 0); [lra|]. now rewrite Rabs_right by lra. Qed.

Lemma max_double_pos : 0 < max_double.
Proof. unfold max_double. change 1024%nat with (971 + 53)%nat. rewrite pow_add.
  assert (1 <= 2 ^ 971) by (apply pow_R1_Rle; lra). assert (2 <= 2 ^ 53) by (replace 2 with (2 ^ 1) at 1 by ring; apply Rle_pow; [lra|lia]). nra. Qed.

(** The left exponents of a rising row and of a unit row. *)
Lemma rising_left : exists rt lq rq w, tail_indices [1; 2; 4; 8] = Ok (3%Z, rt, lq, rq) /\
  powlaw_left [1; 2; 4; 8] 3 lq = Ok (- ln 2, w).
Proof.
  assert (L4 : ln 4 = 2 * ln 2) by (replace 4 with (2 * 2) by ring; rewrite ln_mult by lra; ring).
  assert (L8 : ln 8 = 3 * ln 2) by (replace 8 with (4 * 2) by ring; rewrite ln_mult, L4 by lra; ring).
  pose proof ln2_pos as P2.
  assert (G3 : lngrad [1; 2; 4] = Ok [ln 2; ln 2; ln 2]).
  { unfold lngrad, gradient. cbn [map length Nat.ltb Nat.leb seq Nat.eqb Nat.sub Nat.add nth].
    rewrite !xlogabs_pos by lra. cbn [xsub xopp xadd xdivp bind map nan_to_num]. rewrite ln_1, L4. do 2 f_equal; [lra|f_equal; [lra|f_equal; lra]]. }
  assert (G4 : lngrad [1; 2; 4; 8] = Ok [ln 2; ln 2; ln 2; ln 2]).
  { unfold lngrad, gradient. cbn [map length Nat.ltb Nat.leb seq Nat.eqb Nat.sub Nat.add nth].
    rewrite !xlogabs_pos by lra. cbn [xsub xopp xadd xdivp bind map nan_to_num]. rewrite ln_1, L4, L8. do 2 f_equal; [lra|f_equal; [lra|f_equal; [lra|f_equal; lra]]]. }
  assert (SC : sign_changes [1; 2; 4; 8] = []).
  { unfold sign_changes. cbn [length Nat.sub seq filter nth]. rewrite !rsign_pos by lra. reflexivity. }
  assert (SG3 : sign_changes [ln 2; ln 2; ln 2] = []).
  { unfold sign_changes. cbn [length Nat.sub seq filter nth]. rewrite !rsign_pos by lra. reflexivity. }
  assert (SG4 : sign_changes [ln 2; ln 2; ln 2; ln 2] = []).
  { unfold sign_changes. cbn [length Nat.sub seq filter nth]. rewrite !rsign_pos by lra. reflexivity. }
  assert (AM : argmax (map Rabs [1; 2; 4; 8]) = 3%nat).
  { cbn [map]. rewrite !Rabs_right by lra. unfold argmax, argmax_from.
    repeat (destruct (Rlt_dec _ _); [|lra]). reflexivity. }
  unfold tail_indices. rewrite SC. change (slice_to [1; 2; 4; 8] (Z.of_nat (length [1; 2; 4; 8]) - 1)) with [1; 2; 4].
  rewrite G3. cbn [bind]. rewrite SG3. change (slice_from [1; 2; 4; 8] 0) with [1; 2; 4; 8]. rewrite G4. cbn [bind]. rewrite SG4, AM.
  exists 0%Z, 3%Z, 0%Z, false. split; [reflexivity|].
  unfold powlaw_left. change (slice_to [1; 2; 4; 8] 3) with [1; 2; 4]. rewrite G3. cbn [bind]. rewrite SG3.
  unfold at1, at0. cbn [nth]. rewrite !xlogabs_pos by lra. cbn [xsub xopp xadd nan_to_num]. rewrite ln_1.
  destruct (Rle_dec 0 (ln 2 + - 0)); [|lra]. do 2 f_equal. lra.
Qed.

Lemma unit_left : exists rt lq rq w, tail_indices [1; 0; 0; 0] = Ok (3%Z, rt, lq, rq) /\
  powlaw_left [1; 0; 0; 0] 3 lq = Ok (0, w).
Proof.
  pose proof max_double_pos as PM.
  assert (G3 : lngrad [1; 0; 0] = Ok [- max_double; - max_double; 0]).
  { unfold lngrad, gradient. cbn [map length Nat.ltb Nat.leb seq Nat.eqb Nat.sub Nat.add nth].
    rewrite (xlogabs_pos 1), !xlogabs_zero by lra. cbn [xsub xopp xadd xdivp bind map nan_to_num]. reflexivity. }
  assert (G4 : lngrad [1; 0; 0; 0] = Ok [- max_double; - max_double; 0; 0]).
  { unfold lngrad, gradient. cbn [map length Nat.ltb Nat.leb seq Nat.eqb Nat.sub Nat.add nth].
    rewrite (xlogabs_pos 1), !xlogabs_zero by lra. cbn [xsub xopp xadd xdivp bind map nan_to_num]. reflexivity. }
  assert (SC : sign_changes [1; 0; 0; 0] = [0%nat]).
  { unfold sign_changes. cbn [length Nat.sub seq filter nth]. rewrite !rsign_zero, (rsign_pos 1) by lra. reflexivity. }
  assert (SG3 : sign_changes [- max_double; - max_double; 0] = [1%nat]).
  { unfold sign_changes. cbn [length Nat.sub seq filter nth]. rewrite !rsign_zero, (rsign_neg (- max_double)) by lra. reflexivity. }
  assert (SG4 : sign_changes [- max_double; - max_double; 0; 0] = [1%nat]).
  { unfold sign_changes. cbn [length Nat.sub seq filter nth]. rewrite !rsign_zero, (rsign_neg (- max_double)) by lra. reflexivity. }
  assert (AM : argmax (map Rabs [1; 0; 0; 0]) = 0%nat).
  { cbn [map]. rewrite !Rabs_right by lra. unfold argmax, argmax_from.
    repeat (destruct (Rlt_dec _ _); [lra|]). reflexivity. }
  unfold tail_indices. rewrite SC. cbn [first_of last_of hd last].
  change (slice_to [1; 0; 0; 0] (Z.max (Z.of_nat 0 + 1) 3)) with [1; 0; 0].
  rewrite G3. cbn [bind]. rewrite SG3. change (slice_from [1; 0; 0; 0] (Z.min (Z.of_nat 0 + 1) (Z.of_nat (length [1; 0; 0; 0]) - 4))) with [1; 0; 0; 0].
  rewrite G4. cbn [bind]. rewrite SG4, AM.
  exists 0%Z, 3%Z, 0%Z, true. split; [reflexivity|].
  unfold powlaw_left. change (slice_to [1; 0; 0; 0] 3) with [1; 0; 0]. rewrite G3. cbn [bind]. rewrite SG3.
  destruct (Rle_dec 0 _) as [L|L]; [|reflexivity]. exfalso. unfold rmean in L. cbn in L. lra.
Qed.

(** A row and the unit rows that sum to it: the entry before the first is not
    the sum of theirs. *)
Theorem oscil_not_additive : exists o o0 o1 o2 o3 : list R,
  let ext a o := exists w, extrap_loglin_oscil a 2 = Ok (o, w) in
  ext [1; 2; 4; 8] o /\ ext [1; 0; 0; 0] o0 /\ ext [0; 1; 0; 0] o1 /\ ext [0; 0; 1; 0] o2 /\ ext [0; 0; 0; 1] o3 /\
  nth 1 o 0 = 1 / 2 /\ 1 * nth 1 o0 0 + 2 * nth 1 o1 0 + 4 * nth 1 o2 0 + 8 * nth 1 o3 0 = 1.
Proof.
  assert (OK : forall a, length a = 4%nat -> exists o w t l r, extrap_loglin_oscil a 2 = Ok (o, w) /\
     tail_indices a = Ok t /\ powlaw_left a (fst (fst (fst t))) (snd (fst t)) = Ok l /\ o = OscilProps.oscil_out a 2 (fst l) r).
  { intros a L. unfold extrap_loglin_oscil. rewrite check_plain by lia. cbn [bind].
    destruct (OscilProps.tail_indices_ok a) as ([[[lt rt] lq] rq] & -> & G); [lia|]. cbn [bind]. unfold OscilProps.good_indices in G.
    destruct (OscilProps.powlaw_left_ok a lt lq) as (ol & EL); [lia|lia|]. rewrite EL. cbn [bind].
    destruct (OscilProps.powlaw_right_ok a rt rq) as (orr & ->); [lia|lia|]. cbn [bind].
    do 2 eexists. exists (lt, rt, lq, rq), ol, (fst orr). split; [reflexivity|]. split; [reflexivity|]. split; [exact EL|reflexivity]. }
  destruct (OK [1; 2; 4; 8] eq_refl) as (o & w & t & l & r & EO & ET & EL & ->).
  destruct (OK [1; 0; 0; 0] eq_refl) as (o0 & w0 & t0 & l0 & r0 & EO0 & ET0 & EL0 & ->).
  destruct (OK [0; 1; 0; 0] eq_refl) as (o1 & w1 & t1 & l1 & r1 & EO1 & _ & _ & ->).
  destruct (OK [0; 0; 1; 0] eq_refl) as (o2 & w2 & t2 & l2 & r2 & EO2 & _ & _ & ->).
  destruct (OK [0; 0; 0; 1] eq_refl) as (o3 & w3 & t3 & l3 & r3 & EO3 & _ & _ & ->).
  do 5 eexists. cbv zeta. split; [exists w; exact EO|]. split; [exists w0; exact EO0|]. split; [exists w1; exact EO1|].
  split; [exists w2; exact EO2|]. split; [exists w3; exact EO3|].
  destruct rising_left as (? & ? & ? & b & T1 & P1). rewrite T1 in ET. injection ET as <-. cbn [fst snd] in EL. rewrite P1 in EL. injection EL as <-.
  destruct unit_left as (? & ? & ? & b' & T2 & P2). rewrite T2 in ET0. injection ET0 as <-. cbn [fst snd] in EL0. rewrite P2 in EL0. injection EL0 as <-.
  rewrite !OscilProps.oscil_out_left by (cbn [length]; lia). unfold at0. cbn [nth fst Nat.sub INR]. rewrite !Rmult_1_r, Rmult_0_l, exp_0, exp_Ropp, exp_ln by lra.
  split; lra.
Qed.

(* ------------------------------------------------------------------ *)
(* When the assumptions hold                                           *)

Lemma nth_mcomb a b y z i j : same_shape y z ->
  nth j (nth i (mcomb a y b z) []) 0 = a * nth j (nth i y []) 0 + b * nth j (nth i z []) 0.
Proof.
  unfold mcomb, same_shape. revert z i. induction y as [|r y IH]; intros [|q z] i H; try discriminate; cbn [combine map].
  - destruct i, j; cbn; ring.
  - cbn [map] in H. injection H as L H. destruct i as [|i]; [|cbn [nth]; now apply IH]. cbn [nth fst snd].
    clear - L. revert q j L. induction r as [|u r IH]; intros [|v q] j L; try discriminate; unfold lincomb in *; cbn [combine map].
    + destruct j; cbn; ring.
    + destruct j as [|j]; cbn [nth fst snd]; [ring|]. apply IH. now injection L.
Qed.

Lemma pick2_shape : by_shape pick2.
Proof. intros k x y z f H _. unfold pick2 in *. destruct (usable x); [eauto|discriminate]. Qed.

Lemma pick2_linear : linear2 pick2.
Proof.
  intros k x y z fy fz a b Hy Hz SH. unfold pick2 in *. destruct (usable x); [|discriminate].
  injection Hy as <-. injection Hz as <-. eexists. split; [reflexivity|]. intros r r'. now apply nth_mcomb.
Qed.

Lemma rsum_linear : linear_integral (fun _ y => rsum y).
Proof.
  intros x y z a b. revert z. induction y as [|u y IH]; intros [|v z] L; try discriminate; unfold lincomb in *; cbn [combine map].
  - rewrite rsum_nil. ring.
  - rewrite !rsum_cons. cbn [fst snd]. rewrite IH by now injection L. ring.
Qed.

(** Three by three samples of one multipole, on two processes. *)
Example matrix_case : exists w T,
  gen_winconv_mat pick2 (fun _ y => rsum y) (fun _ _ _ => 1) w (Mpi 2 0 (fun _ m => m)) true false false true
  = {| result := Ok (PerPole [map (fun r => map (fun j => T r j) (seq 0 9)) (seq 0 9)]); catch_left := true |} /\
  forall m, WinMatProps.square 3 m -> exists out,
    bispec_convolve pick2 (fun _ y => rsum y) (fun _ _ _ => 1) w [(MCopy [1; 1; 0]%Z, (FloatArr, map (map RtoC) m))] None = Ok out /\
    lookup out [1; 1; 0]%Z = Ok (map (map RtoC) m) /\
    forall i i', (i < 3)%nat -> (i' < 3)%nat ->
      csum (map (fun j => (T (i * 3 + i')%nat j * RtoC (nth j (concat m) 0))%C) (seq 0 9)) = RtoC (nth i' (nth i m []) 0).
Proof.
  destruct step_gsl_case as [_ G].
  assert (real_of : forall m, real_matrix (map (map RtoC) m)).
  { intros m row Hr z Hz. apply in_map_iff in Hr as (q & <- & _). apply in_map_iff in Hz as (u & <- & _). reflexivity. }
  set (m0 := repeat (repeat 0 3) 3). assert (S0 : WinMatProps.square 3 m0) by (split; [reflexivity|]; repeat constructor).
  destruct (bispec_accepts step_gsl 1 1 0 1 1 3 (plain_par true) (1, 1)%nat FloatArr (map (map RtoC) m0)) as (w & out & PC & HO);
    try lra; try lia; try assumption; try reflexivity; try (now left); try (now right); try (cbn; lra); [now apply square_of|apply real_of|].
  destruct assumptions_hold as (_ & _ & _ & X2 & C2 & _).
  set (x := pts 1 1 3) in *. set (f := one_formula [0; 0; 0]%Z [1; 1; 0]%Z) in *.
  pose proof PC as (BF & BI & W & EX & RG & PP & UW & Hm & UF & IC & I0 & I1 & (ki & IP & FU & Lk) & N3 & PX & MK & RL & AK & SQ & RB).
  assert (FI : c_f (w_conv w) = f /\ w_kin w = ki /\ w_kout w = x).
  { assert (W' := W). unfold bispec_init in W'. rewrite BI, IP in W'. cbn [bind fst snd] in W'. unfold respaced in W'. rewrite FU in W'. cbn [bind] in W'.
    destruct (fourier_init_inv _ _ _ _ _ _ _ _ _ _ _ _ _ _ BF BI W') as (Ef & _ & _ & _ & _ & Ek & _ & KO & _). auto. }
  destruct FI as (Ef & Ek & Eo).
  assert (MD : forall m, model_dict w [m] = [(MCopy [1; 1; 0]%Z, (FloatArr, map (map RtoC) m))]) by (intros m; unfold model_dict; rewrite Ef; reflexivity).
  assert (LX : length x = 3%nat) by apply pts_length.
  assert (DIM : mat_dims w = Ok [3%nat]).
  { unfold mat_dims. rewrite Ef, Ek. unfold f. cbn [one_formula f_Z map sequence]. rewrite Lk. cbn [bind]. now rewrite LX. }
  assert (LC : linear_case pick2 (fun _ y => rsum y) (fun _ _ _ => 1) step_gsl (one_raw [0; 0; 0]%Z [1; 1; 0]%Z) f (One x)
     [(MCopy [0; 0; 0]%Z, const_matrix 1 3)] (One x) (Some x) None (plain_par true) (1, 1)%nat w true [3%nat] [m0]).
  { refine (conj BF (conj W (conj _ (conj (fun _ => rsum_linear) (conj DIM (conj _ _)))))).
    - rewrite EX. unfold linear_extrap. lia.
    - repeat constructor; apply S0.
    - exists out. rewrite MD. exact HO. }
  destruct (matrix_convolves pick2 _ _ pick2_shape pick2_linear _ _ _ _ _ _ _ _ _ _ _ _ _ _ false false 2 0 (fun _ m => m) true LC) as (T & EM & V).
  { unfold WinMatProps.root_busy. cbn. lia. }
  { intros k m. apply Permutation_refl. }
  exists w, (T 0%nat). rewrite Eo, LX in EM, V. split; [exact EM|]. intros m Sm.
  destruct (V [m]) as (o & EO & VO); [repeat constructor; apply Sm|]. rewrite MD in EO. cbn [passed_ic] in EO.
  destruct (VO 0%nat) as (y & Ly & SY & E); [cbn; lia|].
  assert (PM : plain_case3 step_gsl (one_raw [0; 0; 0]%Z [1; 1; 0]%Z) f (One x) [(MCopy [0; 0; 0]%Z, const_matrix 1 3)]
      [([0; 0; 0]%Z, x)] [([0; 0; 0]%Z, const_matrix 1 3)] (One x) (Some x) (plain_par true) (1, 1)%nat w
      [(MCopy [1; 1; 0]%Z, (FloatArr, map (map RtoC) m))] None [0; 0; 0]%Z [1; 1; 0]%Z 1 1 x FloatArr (map (map RtoC) m)).
  { refine (conj BF (conj BI (conj W (conj EX (conj RG (conj PP (conj UW (conj Hm (conj UF (conj IC (conj I0 (conj I1 (conj (ex_intro _ ki (conj IP (conj FU Lk)))
      (conj N3 (conj PX (conj MK (conj eq_refl (conj (or_introl eq_refl) (conj _ (real_of m)))))))))))))))))))).
    rewrite LX. now apply square_of. }
  pose proof (bispec_unit_exact pick2 _ _ _ _ _ _ _ _ _ _ _ _ _ _ _ _ _ _ _ _ _ _ _ C2 X2 PM eq_refl (or_introl eq_refl) EO) as ML.
  exists o. split; [exact EO|]. split; [exact ML|]. intros i i' Hi Hi'.
  change (nth 0 (f_poles f) []) with [1; 1; 0]%Z in Ly. assert (y = map (map RtoC) m) as -> by congruence.
  specialize (E i i' Hi Hi'). unfold WinMatProps.flatten in E. cbn [map concat] in E. rewrite app_nil_r in E.
  rewrite (entry_of 3 m i i' Sm Hi Hi'), (WinMatProps.nth_concat_square 3 m i i' 0 Sm Hi Hi') in E. exact E.
Qed.

(** Without MPI there is no matrix either: the call ends in a TypeError, and
    warnings stay caught as the call left them. *)
Theorem matrix_serial_never spl2 simpson wigner g raw f ws wm k_in k_out rc p s w ic dims ms0 cat diag flag :
  by_shape spl2 -> linear2 spl2 ->
  linear_case spl2 simpson wigner g raw f ws wm k_in k_out rc p s w ic dims ms0 -> (0 < dim_2d dims)%nat ->
  gen_winconv_mat spl2 simpson wigner w Serial ic cat diag flag = {| result := Err TypeError; catch_left := false |}.
Proof.
  intros HS HL LC NP. pose proof LC as (_ & _ & _ & _ & HD & S0 & _).
  destruct (conv_total spl2 simpson wigner HS HL _ _ _ _ _ _ _ _ _ _ _ _ _ _ LC ms0 S0) as (_ & _ & Ef & _).
  assert (TT : WinMatProps.total (model_conv spl2 simpson wigner w ic) dims (length (f_poles f)) (length (w_kout w))).
  { intros ms S. destruct (model_conv_ok spl2 simpson wigner HS HL _ _ _ _ _ _ _ _ _ _ _ _ _ _ LC ms S) as (out & l & _ & E & F & Q).
    exists l. split; [exact E|]. split; [|exact Q]. symmetry. exact (forall2_len _ _ _ F). }
  unfold gen_winconv_mat. rewrite HD, Ef. pose proof (WinMatProps.serial_refuted _ _ _ _ TT NP) as R.
  unfold gen_serial in *. cbn [result] in R. f_equal. exact R.
Qed.

Print Assumptions matrix_convolves.
Print Assumptions matrix_loglin_never.
Print Assumptions matrix_serial_never.
Print Assumptions oscil_not_additive.
Print Assumptions matrix_case.
