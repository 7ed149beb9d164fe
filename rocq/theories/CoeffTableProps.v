(* Coefficients of window convolution terms are rational numbers that can be
   computed exactly; the published table (C119). *)
From Coq Require Import String.
From Coq Require Import Reals ZArith QArith Qreals List Lia Lra Bool.
From Coquelicot Require Import Complex.
From Verif Require Import Base ArrayModel ArrayProofs RSum CSum BinVecModel BinVecProps ThreePtModel OrderProps WignerProps
  CorrProps MultipoleModel WindowModel WindowProps WinConvModel CoeffModel CoeffProps.
Import ListNotations.
Local Open Scope R_scope.

(* ------------------------------------------------------------------ *)
(* Exact arithmetic                                                    *)

Fixpoint zfact (n : nat) : Z := match n with O => 1 | S m => (Z.of_nat n * zfact m)%Z end.
Definition qfact (n : Z) : Q := inject_Z (zfact (Z.to_nat n)).
Definition qsign (n : Z) : Q := if Z.even n then 1%Q else (-1 # 1)%Q.
Definition qsum (l : list Q) : Q := fold_right Qplus 0%Q l.

Lemma zfact_pos n : (0 < zfact n)%Z.
Proof. induction n as [|n IH]; [reflexivity|]. cbn [zfact]. apply Z.mul_pos_pos; [lia|exact IH]. Qed.
Lemma qfact_R n : Q2R (qfact n) = factZ n.
Proof.
  unfold qfact, factZ, Q2R, inject_Z. cbn [Qnum Qden]. rewrite Rinv_1, Rmult_1_r. generalize (Z.to_nat n) as k. clear n.
  induction k as [|k IH]; [reflexivity|]. rewrite fact_simpl, mult_INR, <- IH, INR_IZR_INZ, <- mult_IZR. reflexivity.
Qed.
Lemma qfact_neq n : ~ (qfact n == 0)%Q.
Proof. intros E. apply Qeq_eqR in E. rewrite qfact_R, RMicromega.Q2R_0 in E. pose proof (fact_pos_Z n). lra. Qed.
Lemma qsign_R n : Q2R (qsign n) = sign n.
Proof.
  unfold qsign. destruct (Z.even n) eqn:E.
  - apply Z.even_spec in E as [k ->]. rewrite sign_even. unfold Q2R. cbn. lra.
  - rewrite <- Z.negb_odd in E. apply negb_false_iff, Z.odd_spec in E as [k ->]. rewrite sign_plus, sign_1, sign_even. unfold Q2R. cbn. lra.
Qed.
Lemma qsum_R {A} (f : A -> Q) (g : A -> R) l : (forall x, In x l -> Q2R (f x) = g x) -> Q2R (qsum (map f l)) = rsum (map g l).
Proof.
  induction l as [|x l IH]; intros H; [apply RMicromega.Q2R_0|]. cbn [map]. unfold qsum. cbn [fold_right]. fold (qsum (map f l)).
  rewrite Q2R_plus, rsum_cons, (H x (or_introl eq_refl)), IH; [reflexivity|]. intros y Hy. apply H. now right.
Qed.
Lemma Q2R_neq q : Q2R q <> 0 -> ~ (q == 0)%Q.
Proof. intros H E. apply H. rewrite <- RMicromega.Q2R_0. now apply Qeq_eqR. Qed.

(** The square of a triangle coefficient. *)
Definition qdelta (a b c : Z) : Q :=
  if ((a + b - c <? 0) || (a + c - b <? 0) || (b + c - a <? 0))%Z then 0%Q
  else (qfact (a + b - c) * qfact (a + c - b) * qfact (b + c - a) / qfact (a + b + c + 1))%Q.

Lemma qdelta_R a b c : Q2R (qdelta a b c) = delta_coeff a b c * delta_coeff a b c.
Proof.
  unfold qdelta. destruct (triangle_dec a b c) as [T|T].
  - assert (T' := T). destruct T' as (T1 & T2 & T3).
    replace ((a + b - c <? 0) || (a + c - b <? 0) || (b + c - a <? 0))%Z with false by (symmetry; rewrite !orb_false_iff, !Z.ltb_ge; lia).
    rewrite delta_true, sqrt_def by (exact T || (left; apply Rdiv_lt_0_compat; [repeat apply Rmult_lt_0_compat|]; apply fact_pos_Z)).
    rewrite Q2R_div by apply qfact_neq. rewrite !Q2R_mult, !qfact_R. reflexivity.
  - rewrite delta_false by exact T.
    replace ((a + b - c <? 0) || (a + c - b <? 0) || (b + c - a <? 0))%Z with true
      by (symmetry; rewrite !orb_true_iff, !Z.ltb_lt; unfold triangle in T; lia).
    rewrite RMicromega.Q2R_0. ring.
Qed.

Lemma delta_turn a b c : delta_coeff a b c = delta_coeff a c b.
Proof.
  destruct (triangle_dec a b c) as [T|T].
  - rewrite !delta_true by (unfold triangle in *; lia). f_equal. replace (a + c + b + 1)%Z with (a + b + c + 1)%Z by lia.
    replace (c + b - a)%Z with (b + c - a)%Z by lia. f_equal. ring.
  - rewrite !delta_false by (unfold triangle in *; lia). reflexivity.
Qed.

(** A Racah coefficient without its triangle coefficients. *)
Definition qsummand (a b c d e f k : Z) : Q :=
  (qsign k * qfact (k + 1)
   / (qfact (k - a - b - e) * qfact (k - c - d - e) * qfact (k - a - c - f) * qfact (k - b - d - f)
      * qfact (a + b + c + d - k) * qfact (a + d + e + f - k) * qfact (b + c + e + f - k)))%Q.
Definition qracah (a b c d e f : Z) : Q :=
  let lo := Z.max (Z.max (a + b + e) (c + d + e)) (Z.max (a + c + f) (b + d + f)) in
  let hi := Z.min (a + b + c + d) (Z.min (a + d + e + f) (b + c + e + f)) in
  (qsum (map (qsummand a b c d e f) (arange lo (hi + 1))) * qsign (a + b + c + d))%Q.

Lemma qracah_R a b c d e f :
  racah a b c d e f = delta_coeff a b e * delta_coeff c d e * delta_coeff a c f * delta_coeff b d f * Q2R (qracah a b c d e f).
Proof.
  unfold racah, qracah. rewrite Q2R_mult, qsign_R. rewrite (qsum_R _ (racah_summand a b c d e f)); [ring|].
  intros k _. unfold qsummand, racah_summand. rewrite Q2R_div.
  - now rewrite !Q2R_mult, !qfact_R, qsign_R.
  - apply Q2R_neq. rewrite !Q2R_mult, !qfact_R. repeat apply Rmult_integral_contrapositive_currified; apply Rgt_not_eq, fact_pos_Z.
Qed.

(** A 9-j symbol without the triangle coefficients of its rows and columns. *)
Definition qnine (j1 j2 j3 j4 j5 j6 j7 j8 j9 : Z) : Q :=
  let hi := Z.min (j1 + j9) (Z.min (j2 + j6) (j4 + j8)) in
  qsum (map (fun k => inject_Z (2 * k + 1) * (qdelta j1 j9 k * qdelta j2 j6 k * qdelta j4 j8 k)
                      * (qracah j1 j2 j9 j6 j3 k * qracah j4 j6 j8 j2 j5 k * qracah j1 j4 j9 j8 j7 k))%Q (arange 0 (hi + 1))).

Lemma inject_R z : Q2R (inject_Z z) = IZR z.
Proof. unfold Q2R, inject_Z. cbn. lra. Qed.

Lemma rsum_const_l (a : R) {A} (f : A -> R) l : rsum (map (fun x => a * f x) l) = a * rsum (map f l).
Proof. induction l as [|x l IH]; [cbn; ring|]. cbn [map]. rewrite !rsum_cons, IH. ring. Qed.

Lemma qnine_R j1 j2 j3 j4 j5 j6 j7 j8 j9 :
  wigner_9j j1 j2 j3 j4 j5 j6 j7 j8 j9
  = delta_coeff j1 j2 j3 * delta_coeff j4 j5 j6 * delta_coeff j7 j8 j9
    * (delta_coeff j7 j4 j1 * delta_coeff j8 j5 j2 * delta_coeff j9 j6 j3) * Q2R (qnine j1 j2 j3 j4 j5 j6 j7 j8 j9).
Proof.
  unfold wigner_9j, qnine.
  set (hi := Z.min (j1 + j9) (Z.min (j2 + j6) (j4 + j8))).
  rewrite (qsum_R _ (fun k => IZR (2 * k + 1) * (delta_coeff j1 j9 k * delta_coeff j1 j9 k * (delta_coeff j2 j6 k * delta_coeff j2 j6 k)
      * (delta_coeff j4 j8 k * delta_coeff j4 j8 k)) * (Q2R (qracah j1 j2 j9 j6 j3 k) * Q2R (qracah j4 j6 j8 j2 j5 k) * Q2R (qracah j1 j4 j9 j8 j7 k)))).
  2:{ intros k _. rewrite !Q2R_mult, !qdelta_R, inject_R. reflexivity. }
  rewrite <- rsum_const_l. f_equal. apply map_ext. intros k. rewrite !qracah_R.
  rewrite (delta_swap j6 j2 k), (delta_turn j4 j6 j5), (delta_swap j1 j4 j7), (delta_turn j4 j1 j7), (delta_swap j4 j7 j1).
  rewrite (delta_turn j8 j2 j5), (delta_swap j9 j8 j7), (delta_turn j8 j9 j7), (delta_swap j8 j7 j9). ring.
Qed.

(** A 3-j symbol of zero orders without its triangle coefficient. *)
Definition qterm (a b c k : Z) : Q :=
  let args := [k; a + b - c - k; a - k; b - k; c - b + k; c - a + k]%Z in
  if forallb (Z.leb 0) args then (qsign k / fold_right Qmult 1 (map qfact args))%Q else 0%Q.
Definition qthree (a b c : Z) : Q :=
  if ((0 <=? a) && (0 <=? b) && (0 <=? c) && (Z.abs (a - b) <=? c) && (c <=? a + b))%Z
  then (qsign (a - b) * (qfact a * qfact b * qfact c) * qsum (map (qterm a b c) (arange 0 (a + b - c + 1))))%Q else 0%Q.

Lemma qthree_R a b c : h_factor a b c = delta_coeff a b c * Q2R (qthree a b c).
Proof.
  unfold h_factor, wigner_3j, qthree. change (0 + 0 + 0 =? 0)%Z with true. cbn [andb]. change (Z.abs 0) with 0%Z.
  destruct ((0 <=? a)%Z && (0 <=? b)%Z && (0 <=? c)%Z && (Z.abs (a - b) <=? c)%Z && (c <=? a + b)%Z) eqn:E;
    [|rewrite RMicromega.Q2R_0; ring].
  rewrite !andb_true_iff, !Z.leb_le in E. destruct E as [[[[E1 E2] E3] E4] E5].
  rewrite !Z.add_0_r, !Z.sub_0_r. rewrite delta_true by (unfold triangle; lia).
  rewrite !Q2R_mult, !qfact_R, qsign_R. rewrite (qsum_R _ (racah_term a b c 0 0)).
  - replace (factZ a * factZ a * factZ b * factZ b * factZ c * factZ c) with (factZ a * factZ b * factZ c * (factZ a * factZ b * factZ c)) by ring.
    rewrite sqrt_square by (left; repeat apply Rmult_lt_0_compat; apply fact_pos_Z).
    replace (a - b + c)%Z with (a + c - b)%Z by lia. replace (- a + b + c)%Z with (b + c - a)%Z by lia. ring.
  - intros k _. unfold qterm, racah_term. rewrite !Z.sub_0_r, !Z.add_0_r.
    destruct (forallb (Z.leb 0) [k; (a + b - c - k)%Z; (a - k)%Z; (b - k)%Z; (c - b + k)%Z; (c - a + k)%Z]); [|apply RMicromega.Q2R_0].
    cbn [map fold_right]. rewrite Q2R_div.
    + rewrite !Q2R_mult, !qfact_R, qsign_R, RMicromega.Q2R_1. reflexivity.
    + apply Q2R_neq. rewrite !Q2R_mult, !qfact_R, RMicromega.Q2R_1.
      repeat apply Rmult_integral_contrapositive_currified; try (apply Rgt_not_eq, fact_pos_Z). lra.
Qed.

Lemma symbol_q a b c : has_symbol (a, b, c) <-> triangle a b c /\ ~ (qthree a b c == 0)%Q.
Proof.
  unfold has_symbol. fold (h_factor a b c). split.
  - intros H. assert (H' := H). apply h_valid in H as (_ & _ & _ & T & _). split; [exact T|]. rewrite qthree_R in H'.
    apply Q2R_neq. intros E. apply H'. rewrite E. ring.
  - intros [T N] E. rewrite qthree_R in E. apply Rmult_integral in E as [E|E].
    + rewrite delta_true in E by exact T. revert E. apply Rgt_not_eq. apply sqrt_lt_R0.
      apply Rdiv_lt_0_compat; [repeat apply Rmult_lt_0_compat|]; apply fact_pos_Z.
    + apply N. apply eqR_Qeq. rewrite E. symmetry. apply RMicromega.Q2R_0.
Qed.

(** The coefficient: every triangle coefficient comes twice, or is divided
    out. *)
Definition qcoeff (m q z : Z * Z * Z) : Q :=
  let '(l1, l2, L) := m in
  let '(z1, z2, zL) := z in
  let '(q1, q2, qL) := q in
  (inject_Z ((2 * l1 + 1) * (2 * l2 + 1) * (2 * L + 1)) * qnine q1 q2 qL z1 z2 zL l1 l2 L
   * (qdelta l1 l2 L * qdelta l1 z1 q1 * qdelta l2 z2 q2 * qdelta L zL qL)
   * (qthree l1 l2 L * qthree l1 z1 q1 * qthree l2 z2 q2 * qthree L zL qL / (qthree z1 z2 zL * qthree q1 q2 qL)))%Q.

Lemma qcoeff_R m q z : has_symbol q -> has_symbol z -> coeff_value m q z = Q2R (qcoeff m q z).
Proof.
  destruct m as [[l1 l2] L], q as [[q1 q2] qL], z as [[z1 z2] zL]. intros HQ HZ.
  assert (HQ' := HQ). assert (HZ' := HZ). apply symbol_q in HQ' as [_ NQ]. apply symbol_q in HZ' as [_ NZ].
  cbn [has_symbol] in HQ, HZ. unfold coeff_value, qcoeff.
  assert (ND : ~ (qthree z1 z2 zL * qthree q1 q2 qL == 0)%Q).
  { intros E. apply Qmult_integral in E as [E|E]; contradiction. }
  assert (NDR : Q2R (qthree z1 z2 zL) <> 0 /\ Q2R (qthree q1 q2 qL) <> 0).
  { split; intros E; [apply NZ|apply NQ]; apply eqR_Qeq; rewrite E; symmetry; apply RMicromega.Q2R_0. }
  fold (h_factor l1 l2 L) (h_factor l1 z1 q1) (h_factor l2 z2 q2) (h_factor L zL qL).
  fold (h_factor q1 q2 qL) (h_factor z1 z2 zL) in HQ, HZ |- *.
  rewrite (qnine_R q1 q2 qL). rewrite !Q2R_mult, Q2R_div by exact ND. rewrite !Q2R_mult, inject_R, !qdelta_R.
  rewrite qthree_R in HQ. rewrite qthree_R in HZ. rewrite !qthree_R.
  assert (DZ : delta_coeff z1 z2 zL <> 0) by (intros E; apply HZ; rewrite E; ring).
  assert (DQ : delta_coeff q1 q2 qL <> 0) by (intros E; apply HQ; rewrite E; ring).
  field. tauto.
Qed.

(* ------------------------------------------------------------------ *)
(* Theorems                                                            *)

(** Every coefficient returned is a rational number. *)
Theorem coeff_rational m q z tm tq tz c : given m tm -> given q tq -> given z tz -> winconv_coeff m q z = Ok c ->
  exists a b : Z, b <> 0%Z /\ c = IZR a / IZR b.
Proof.
  intros Hm Hq Hz E. destruct (is_ic z) eqn:I.
  - unfold winconv_coeff in E. destruct tm as [[? ?] ?], tq as [[? ?] ?]. cbn [given] in Hm, Hq. rewrite Hm in E. cbn [bind] in E.
    rewrite Hq in E. cbn [bind] in E. rewrite I in E.
    destruct (meq _ _); injection E as <-; [exists (-1)%Z, 1%Z|exists 0%Z, 1%Z]; (split; [lia|]); field.
  - assert (SQ : has_symbol tq).
    { destruct tq as [[a b] d]. cbn [has_symbol]. intros Q. destruct (coeff_undefined _ _ _ _ _ _ Hm Hq Hz I) as [X|X]; [left; cbn; tauto|congruence|congruence]. }
    assert (SZ : has_symbol tz).
    { destruct tz as [[a b] d]. cbn [has_symbol]. intros Q. destruct (coeff_undefined _ _ _ _ _ _ Hm Hq Hz I) as [X|X]; [right; cbn; tauto|congruence|congruence]. }
    rewrite (coeff_formula _ _ _ _ _ _ Hm Hq Hz I SQ SZ), (qcoeff_R _ _ _ SQ SZ) in E.
    assert (E' : Q2R (qcoeff tm tq tz) = c) by congruence. exists (Qnum (qcoeff tm tq tz)), (Zpos (Qden (qcoeff tm tq tz))).
    split; [discriminate|]. rewrite <- E'. reflexivity.
Qed.

(** How one coefficient is worked out. *)
Lemma coeff_by_value m q z tm tq tz (v : Q) c : given m tm -> given q tq -> given z tz -> is_ic z = false ->
  (let '(a, b, d) := tq in triangle a b d /\ ~ (qthree a b d == 0)%Q) ->
  (let '(a, b, d) := tz in triangle a b d /\ ~ (qthree a b d == 0)%Q) ->
  (qcoeff tm tq tz == v)%Q -> Q2R v = c -> winconv_coeff m q z = Ok c.
Proof.
  destruct tq as [[q1 q2] qL], tz as [[z1 z2] zL]. intros Hm Hq Hz I SQ SZ E <-. apply symbol_q in SQ, SZ.
  rewrite (coeff_formula _ _ _ _ _ _ Hm Hq Hz I SQ SZ), (qcoeff_R _ _ _ SQ SZ). f_equal. now apply Qeq_eqR.
Qed.

Ltac work_out v :=
  match goal with |- winconv_coeff ?m ?q ?z = _ =>
    let im := eval vm_compute in (multipole m) in let iq := eval vm_compute in (multipole q) in let iz := eval vm_compute in (multipole z) in
    match im with Ok [?a; ?b; ?c] => match iq with Ok [?d; ?e; ?f] => match iz with Ok [?g; ?h; ?i] =>
      apply (coeff_by_value m q z (a, b, c) (d, e, f) (g, h, i) v);
        [reflexivity|reflexivity|reflexivity|reflexivity
        |split; [unfold triangle; lia|intros E; vm_compute in E; discriminate E]
        |split; [unfold triangle; lia|intros E; vm_compute in E; discriminate E]
        |vm_compute; reflexivity|unfold Q2R; cbn; lra] end end end end.

(** Every term of the formulae named 'sugiyama+19' has the coefficient that
    the function returns. *)
Theorem sugiyama_terms m ts q z c : In (m, ts) sugiyama19 -> In (q, z, c) ts -> winconv_coeff m q z = Ok c.
Proof.
  unfold sugiyama19, rt. cbn [In]. intros H I.
  repeat match goal with
         | [ H : _ \/ _ |- _ ] => destruct H as [H|H]
         | [ H : False |- _ ] => contradiction
         end; injection H as <- <-; cbn [In] in I;
  repeat match goal with
         | [ H : _ \/ _ |- _ ] => destruct H as [H|H]
         | [ H : False |- _ ] => contradiction
         end; injection I as <- <- <-;
  first [reflexivity | work_out 1%Q | work_out (1 # 3)%Q | work_out (2 # 5)%Q].
Qed.

(** They are not all: the window multipole (2, 0, 2) and the correlation
    function multipole (1, 1, 2), which both occur in the formulae, couple to
    (1, 1, 0) with coefficient 1/5 in the function and not in the table. *)
Theorem sugiyama_complete_refuted : exists m ts q z c,
  In (m, ts) sugiyama19 /\ (exists m' ts' z' c', In (m', ts') sugiyama19 /\ In (q, z', c') ts') /\
  (exists m' ts' q' c', In (m', ts') sugiyama19 /\ In (q', z, c') ts') /\
  (forall q' z' c', In (q', z', c') ts -> ~ (q' = q /\ z' = z)) /\ winconv_coeff m q z = Ok c /\ c <> 0.
Proof.
  exists (MStr "110"), (nth 1 (map snd sugiyama19) []), (MStr "202"), (MStr "112"), (1 / 5).
  split; [right; left; reflexivity|].
  split; [exists (MStr "112"), (nth 3 (map snd sugiyama19) []), (MStr "110"), (2 / 5);
          split; [do 3 right; left; reflexivity|cbn [nth map snd sugiyama19 rt In]; tauto]|].
  split; [exists (MStr "112"), (nth 3 (map snd sugiyama19) []), (MStr "000"), 1;
          split; [do 3 right; left; reflexivity|cbn [nth map snd sugiyama19 rt In]; tauto]|].
  split; [|split; [|lra]].
  - intros q' z' c' H [-> ->]. cbn [nth map snd sugiyama19 rt In] in H. repeat destruct H as [H|H]; try discriminate H; contradiction.
  - work_out (1 # 5)%Q.
Qed.

(** Concrete: a negative coefficient. *)
Example coeff_negative_case : winconv_coeff (MStr "202") (MStr "222") (MStr "222") = Ok (-3 / 70).
Proof. work_out (-3 # 70)%Q. Qed.

Print Assumptions coeff_rational.
Print Assumptions sugiyama_terms.
Print Assumptions sugiyama_complete_refuted.
