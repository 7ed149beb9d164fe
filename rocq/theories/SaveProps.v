(* C110: the tables measurements are saved as. *)
From Coq Require Import String Ascii List Arith ZArith Reals Bool Lia Lra.
From Flocq Require Import Core.
From Verif Require Import Base StrModel StrProps Dec ArrayModel ArrayProofs MeshModel
  ParamFileModel ParamFileProps ParamFilePrintProps ParamFileUseProps CatModel LoadModel LoadProps
  SaveModel.
From Verif Require ParamModel PyRunModel PyParamModel PyParamProps.
Import ListNotations.
Local Open Scope nat_scope.
Local Open Scope string_scope.

(* ------------------------------------------------------------------ *)
(** * Vocabulary *)

(** Equal to ten significant digits. *)
Definition near (v x : R) : Prop := (Rabs (v - x) <= / 2 * / 10 ^ 9 * Rabs x)%R.

(** What an entry of a table should be read as. *)
Inductive entry := About (x : R) | Exactly (n : Z).
Definition reads (v : R) (e : entry) : Prop :=
  match e with About x => near v x | Exactly n => v = IZR n end.

(** A column: its name and its entries. *)
Definition column : Type := string * (nat -> entry).

(** "# [0] name, [1] name, ..." *)
Fixpoint numbered (i : nat) (names : list string) : string :=
  match names with
  | [] => ""
  | [n] => "[" ++ to_string (Z.of_nat i) ++ "] " ++ n
  | n :: t => "[" ++ to_string (Z.of_nat i) ++ "] " ++ n ++ ", " ++ numbered (S i) t
  end.
Definition label (cols : list column) : string := "# " ++ numbered 0 (map fst cols).

(** After comments, the text says which columns it has and holds a line of
    numbers for each of [n] bins in order. *)
Definition tabulates (text : string) (cols : list column) (n : nat) : Prop :=
  exists head lines rows,
    holds text (head ++ label cols :: lines)%list /\
    Forall (fun l => exists r, l = "#" ++ r) head /\
    rows_of lines rows /\ length lines = n /\ length rows = n /\
    forall i, i < n -> exists row, nth_error rows i = Some row /\
      Forall2 (fun v c => reads v (snd c i)) row cols.

(** The columns of each statistic. *)
Definition real (f : nat -> R * R) : nat -> entry := fun i => About (fst (f i)).
Definition imaginary (f : nat -> R * R) : nat -> entry := fun i => About (snd (f i)).
Definition value (f : nat -> R) : nat -> entry := fun i => About (f i).
Definition count (f : nat -> Z) : nat -> entry := fun i => Exactly (f i).

Definition columns (l : string) (x : results) : list column :=
  match x with
  | Pk m =>
      [("k_cen", value (kbin m)); ("k_eff", value (keff m)); ("nmodes", count (nmodes m));
       ("Re{pk" ++ l ++ "_raw}", real (pk_raw m)); ("Im{pk" ++ l ++ "_raw}", imaginary (pk_raw m));
       ("Re{pk" ++ l ++ "_shot}", real (pk_shot m)); ("Im{pk" ++ l ++ "_shot}", imaginary (pk_shot m))]
  | Xi m =>
      [("r_cen", value (rbin m)); ("r_eff", value (reff m)); ("npairs", count (npairs m));
       ("Re{xi" ++ l ++ "}", real (xi m)); ("Im{xi" ++ l ++ "}", imaginary (xi m))]
  | Bk m =>
      [("k1_cen", value (k1_bin m)); ("k1_eff", value (k1_eff m)); ("nmodes_1", count (nmodes_1 m));
       ("k2_cen", value (k2_bin m)); ("k2_eff", value (k2_eff m)); ("nmodes_2", count (nmodes_2 m));
       ("Re{bk" ++ l ++ "_raw}", real (bk_raw m)); ("Im{bk" ++ l ++ "_raw}", imaginary (bk_raw m));
       ("Re{bk" ++ l ++ "_shot}", real (bk_shot m)); ("Im{bk" ++ l ++ "_shot}", imaginary (bk_shot m))]
  | Zeta m =>
      [("r1_cen", value (r1_bin m)); ("r1_eff", value (r1_eff m)); ("npairs_1", count (npairs_1 m));
       ("r2_cen", value (r2_bin m)); ("r2_eff", value (r2_eff m)); ("npairs_2", count (npairs_2 m));
       ("Re{zeta" ++ l ++ "_raw}", real (zeta_raw m)); ("Im{zeta" ++ l ++ "_raw}", imaginary (zeta_raw m));
       ("Re{zeta" ++ l ++ "_shot}", real (zeta_shot m)); ("Im{zeta" ++ l ++ "_shot}", imaginary (zeta_shot m))]
  end.

Definition bins_in (x : results) : nat :=
  match x with Pk m => pk_dim m | Xi m => xi_dim m | Bk m => bk_dim m | Zeta m => zeta_dim m end.

(** The degrees as they appear in names. *)
Definition degrees_text (x : results) (q : ParamModel.measuring) : string :=
  match x with
  | Pk _ | Xi _ => to_string (ParamModel.ELL q)
  | Bk _ | Zeta _ => to_string (ParamModel.ell1 q) ++ to_string (ParamModel.ell2 q)
                     ++ to_string (ParamModel.ELL q)
  end.

(* ------------------------------------------------------------------ *)
(** * Numbers in scientific notation *)

Lemma bpow10 e : bpow base10 e = powerRZ 10 e.
Proof. apply bpow_powerRZ. Qed.

Lemma powerRZ10_pos e : (0 < powerRZ 10 e)%R.
Proof. apply powerRZ_lt. lra. Qed.

Lemma mag_range x : x <> 0%R ->
  (powerRZ 10 (mag_val base10 x (mag base10 x) - 1) <= Rabs x
   < powerRZ 10 (mag_val base10 x (mag base10 x)))%R.
Proof. intros N. rewrite <- !bpow10. destruct (mag base10 x) as (k & K). exact (K N). Qed.

(** The rounded digits and exponent, before they are printed. *)
Lemma scientific_spec d x :
  let m := fst (scientific d x) in
  let e := snd (scientific d x) in
  (0 <= m < 10 ^ (Z.of_nat d + 1))%Z /\
  (Rabs (IZR m * / 10 ^ d * powerRZ 10 e - Rabs x) <= / 2 * / 10 ^ d * Rabs x)%R /\
  (x <> 0%R -> (10 ^ Z.of_nat d <= m)%Z).
Proof.
  assert (TP : (0 < 10 ^ d)%R) by (apply pow_lt; lra).
  assert (ZP : (0 < 10 ^ Z.of_nat d)%Z) by (apply Z.pow_pos_nonneg; lia).
  assert (ZS : (10 ^ (Z.of_nat d + 1) = 10 * 10 ^ Z.of_nat d)%Z)
    by (rewrite Z.pow_add_r by lia; change (10 ^ 1)%Z with 10%Z; ring).
  assert (UR : IZR (10 ^ Z.of_nat d) = (10 ^ d)%R) by (rewrite <- pow_IZR; reflexivity).
  unfold scientific. destruct (Reqb x 0) eqn:E.
  - apply Reqb_spec in E. subst x. cbn [fst snd]. split; [lia|]. split; [|congruence].
    rewrite Rabs_R0, Rmult_0_l, Rmult_0_l, Rminus_0_r, Rabs_R0, Rmult_0_r. apply Rle_refl.
  - apply Reqb_false in E. assert (K := mag_range x E). revert K.
    generalize (mag_val base10 x (mag base10 x)). intros k K. set (e := (k - 1)%Z) in *.
    replace k with (e + 1)%Z in K by (unfold e; ring).
    rewrite powerRZ_add in K by lra. change (powerRZ 10 1) with (10 * 1)%R in K. rewrite Rmult_1_r in K.
    set (y := (Rabs x * bpow base10 (Z.of_nat d - e))%R).
    pose proof (powerRZ10_pos e) as EP.
    assert (Y : (y = Rabs x * 10 ^ d * / powerRZ 10 e)%R).
    { unfold y. rewrite bpow10. unfold Z.sub. rewrite powerRZ_add by lra. rewrite powerRZ_neg'.
      rewrite <- pow_powerRZ. ring. }
    assert (YL : (10 ^ d <= y)%R).
    { rewrite Y. apply Rmult_le_reg_r with (powerRZ 10 e); [exact EP|].
      replace (Rabs x * 10 ^ d * / powerRZ 10 e * powerRZ 10 e)%R with (10 ^ d * Rabs x)%R by (field; lra).
      apply Rmult_le_compat_l; [lra|]. apply K. }
    assert (YU : (y < 10 * 10 ^ d)%R).
    { rewrite Y. apply Rmult_lt_reg_r with (powerRZ 10 e); [exact EP|].
      replace (Rabs x * 10 ^ d * / powerRZ 10 e * powerRZ 10 e)%R with (10 ^ d * Rabs x)%R by (field; lra).
      replace (10 * 10 ^ d * powerRZ 10 e)%R with (10 ^ d * (powerRZ 10 e * 10))%R by ring.
      apply Rmult_lt_compat_l; [exact TP|]. apply K. }
    set (m := ZnearestE y).
    assert (MY : (Rabs (y - IZR m) <= / 2)%R) by apply Znearest_half.
    assert (ML : (10 ^ Z.of_nat d <= m)%Z).
    { apply Z.le_trans with (Zfloor y); [|apply Znearest_ge_floor]. apply Zfloor_lub. now rewrite UR. }
    assert (MU : (m <= 10 ^ (Z.of_nat d + 1))%Z).
    { apply Z.le_trans with (Zceil y); [apply Znearest_le_ceil|]. apply Zceil_glb.
      rewrite ZS, mult_IZR, UR. apply Rlt_le, YU. }
    assert (MX : (Rabs (IZR m * / 10 ^ d * powerRZ 10 e - Rabs x) <= / 2 * / 10 ^ d * Rabs x)%R).
    { replace (IZR m * / 10 ^ d * powerRZ 10 e - Rabs x)%R
        with ((IZR m - y) * (/ 10 ^ d * powerRZ 10 e))%R by (rewrite Y; field; lra).
      rewrite Rabs_mult, (Rabs_pos_eq (/ 10 ^ d * powerRZ 10 e)).
      2:{ apply Rmult_le_pos; [left; now apply Rinv_0_lt_compat|lra]. }
      rewrite Rabs_minus_sym, Rmult_assoc.
      apply Rmult_le_compat; [apply Rabs_pos| |exact MY|].
      - apply Rmult_le_pos; [left; now apply Rinv_0_lt_compat|lra].
      - apply Rmult_le_compat_l; [left; now apply Rinv_0_lt_compat|apply K]. }
    destruct (m =? 10 ^ (Z.of_nat d + 1))%Z eqn:M; cbn [fst snd].
    + apply Z.eqb_eq in M. split; [lia|]. split; [|lia].
      rewrite M, ZS, mult_IZR in MX. rewrite powerRZ_add by lra. change (powerRZ 10 1) with (10 * 1)%R.
      replace (IZR (10 ^ Z.of_nat d) * / 10 ^ d * (powerRZ 10 e * (10 * 1)))%R
        with (10 * IZR (10 ^ Z.of_nat d) * / 10 ^ d * powerRZ 10 e)%R by ring.
      exact MX.
    + apply Z.eqb_neq in M. split; [lia|]. split; [exact MX|]. intros _. exact ML.
Qed.

Lemma pad_two_digits e : (0 <= e)%Z -> digits_value (pad_left 2 (dec e)) = Some e.
Proof.
  intros E. unfold digits_value. destruct (pad_left 2 (dec e)) eqn:P.
  - unfold pad_left in P. apply sapp_eq_nil in P as (_ & P). now apply dec_nonempty in P.
  - rewrite <- P. unfold pad_left. rewrite digits_from_app, zeros_value. now apply dec_from.
Qed.

(** The number printed and the numeral it is. *)
Definition printed_value (d : nat) (x : R) : R :=
  (IZR (if Rltb x 0 then (-1)%Z else 1%Z) * (IZR (fst (scientific d x)) * / 10 ^ d)
   * powerRZ 10 (snd (scientific d x)))%R.

Lemma fmt_exp_numeral d x : 1 <= d -> numeral (fmt_exp d x) (printed_value d x).
Proof.
  intros D. unfold fmt_exp, printed_value. destruct (scientific_spec d x) as (M & _ & _). cbv zeta in M.
  set (m := fst (scientific d x)) in *. set (e := snd (scientific d x)) in *. cbv zeta.
  set (u := (10 ^ Z.of_nat d)%Z).
  assert (U : (0 < u)%Z) by apply fixed_scale_pos.
  destruct (pad_left_value d (m mod u) D (Z.mod_pos_bound m u U)) as (LF & VF).
  set (fp := pad_left d (dec (m mod u))) in *.
  replace (10 ^ d)%R with (10 ^ String.length fp)%R by now rewrite LF.
  replace (powerRZ 10 e) with (powerRZ 10 ((if (e <? 0)%Z then -1 else 1) * Z.abs e)%Z)
    by (f_equal; destruct (e <? 0)%Z eqn:L; [apply Z.ltb_lt in L|apply Z.ltb_ge in L]; lia).
  replace ("." ++ fp ++ "e" ++ (if (e <? 0)%Z then "-" else "+") ++ pad_left 2 (dec (Z.abs e)))
    with (("." ++ fp) ++ ("e" ++ (if (e <? 0)%Z then "-" else "+") ++ pad_left 2 (dec (Z.abs e))))
    by now rewrite sapp_assoc.
  apply numeral_intro.
  - destruct (Rltb x 0); constructor.
  - apply dec_digits, Z.div_pos; lia.
  - constructor. apply pad_left_digits, Z.mod_pos_bound, U.
  - unfold digits_value. destruct (dec (m / u) ++ fp) eqn:E;
      [apply sapp_eq_nil in E as (E & _); now apply dec_nonempty in E|].
    rewrite <- E, digits_from_app, dec_from by (apply Z.div_pos; lia).
    rewrite (digits_from_shift fp _ (m mod u)) by exact VF. rewrite LF. f_equal. fold u.
    pose proof (Z.div_mod m u ltac:(lia)). lia.
  - apply exponent_some; [now left|destruct (e <? 0)%Z; constructor|]. apply pad_two_digits. lia.
Qed.

Lemma printed_sign x : x = (IZR (if Rltb x 0 then (-1)%Z else 1%Z) * Rabs x)%R.
Proof.
  destruct (Rltb x 0) eqn:L.
  - apply Rltb_spec in L. rewrite Rabs_left by exact L. lra.
  - apply Rltb_false in L. rewrite Rabs_pos_eq by exact L. lra.
Qed.

Lemma printed_near d x : (Rabs (printed_value d x - x) <= / 2 * / 10 ^ d * Rabs x)%R.
Proof.
  destruct (scientific_spec d x) as (_ & B & _). cbv zeta in B. unfold printed_value.
  rewrite (printed_sign x) at 4.
  replace (IZR (if Rltb x 0 then (-1)%Z else 1%Z) * (IZR (fst (scientific d x)) * / 10 ^ d) *
           powerRZ 10 (snd (scientific d x)) - IZR (if Rltb x 0 then (-1)%Z else 1%Z) * Rabs x)%R
    with (IZR (if Rltb x 0 then (-1)%Z else 1%Z) * (IZR (fst (scientific d x)) * / 10 ^ d *
           powerRZ 10 (snd (scientific d x)) - Rabs x))%R by ring.
  rewrite Rabs_mult.
  replace (Rabs (IZR (if Rltb x 0 then (-1)%Z else 1%Z))) with 1%R;
    [now rewrite Rmult_1_l|].
  destruct (Rltb x 0); [rewrite Rabs_left; lra|rewrite Rabs_pos_eq; lra].
Qed.

(** C110: a number printed with [d] digits after the point is a numeral
    within half a unit of its last digit. *)
Theorem scientific_near d x :
  1 <= d -> exists v, numeral (fmt_exp d x) v /\ (Rabs (v - x) <= / 2 * / 10 ^ d * Rabs x)%R.
Proof.
  intros D. exists (printed_value d x). split; [now apply fmt_exp_numeral|apply printed_near].
Qed.

(** A number of at most [d] + 1 significant digits is printed as it is. *)
Theorem scientific_exact d k j :
  1 <= d -> (Z.abs k < 10 ^ (Z.of_nat d + 1))%Z ->
  numeral (fmt_exp d (IZR k * powerRZ 10 j)) (IZR k * powerRZ 10 j).
Proof.
  intros D B. set (x := (IZR k * powerRZ 10 j)%R).
  enough (E : printed_value d x = x) by (rewrite <- E at 2; now apply fmt_exp_numeral).
  unfold printed_value, scientific. destruct (Reqb x 0) eqn:Z0.
  { apply Reqb_spec in Z0. rewrite Z0. cbn [fst snd]. ring. }
  apply Reqb_false in Z0. assert (K := mag_range x Z0). revert K.
  generalize (mag_val base10 x (mag base10 x)). intros p K. set (e := (p - 1)%Z) in *.
  pose proof (powerRZ10_pos j) as JP. pose proof (powerRZ10_pos e) as EP.
  assert (TP : (0 < 10 ^ d)%R) by (apply pow_lt; lra).
  assert (AX : Rabs x = (IZR (Z.abs k) * powerRZ 10 j)%R).
  { unfold x. rewrite Rabs_mult, <- abs_IZR, (Rabs_pos_eq (powerRZ 10 j)) by lra. reflexivity. }
  assert (J : (e < Z.of_nat d + 1 + j)%Z).
  { apply lt_bpow with base10. rewrite !bpow10. apply Rle_lt_trans with (Rabs x); [apply K|].
    rewrite AX, powerRZ_add by lra. apply Rmult_lt_compat_r; [exact JP|].
    apply IZR_lt in B. rewrite <- bpow10. rewrite <- IZR_Zpower by lia. exact B. }
  set (n := (Z.abs k * 10 ^ (j + Z.of_nat d - e))%Z).
  assert (NY : (Rabs x * bpow base10 (Z.of_nat d - e) = IZR n)%R).
  { unfold n. rewrite AX, mult_IZR. change 10%Z with (radix_val base10) at 2.
    rewrite IZR_Zpower by lia. rewrite Rmult_assoc, <- bpow10, <- bpow_plus. f_equal. f_equal. ring. }
  assert (X : (IZR n * / 10 ^ d * powerRZ 10 e = Rabs x)%R).
  { rewrite <- NY, bpow10. unfold Z.sub. rewrite powerRZ_add, powerRZ_neg', <- pow_powerRZ by lra. field. lra. }
  rewrite NY. replace (ZnearestE (IZR n)) with n by (symmetry; apply Zrnd_IZR; apply valid_rnd_N).
  transitivity (IZR (if Rltb x 0 then (-1)%Z else 1%Z) * Rabs x)%R; [|symmetry; apply printed_sign].
  destruct (n =? 10 ^ (Z.of_nat d + 1))%Z eqn:M; cbn [fst snd].
  - apply Z.eqb_eq in M. rewrite Rmult_assoc. f_equal. rewrite <- X, M.
    rewrite Z.pow_add_r, mult_IZR by lia. rewrite powerRZ_add by lra. change (powerRZ 10 1) with (10 * 1)%R.
    change (IZR (10 ^ 1)) with 10%R. ring.
  - rewrite Rmult_assoc. f_equal. exact X.
Qed.

(** C110: its digits: one before the point (not zero unless the number is),
    [d] after it and at least two in the exponent. *)
Definition digit_of (c : ascii) (n : Z) : Prop := (0 <= n <= 9)%Z /\ String c "" = dec n.

Theorem scientific_form d x :
  1 <= d -> exists c n f g,
    fmt_exp d x = (if Rltb x 0 then "-" else "") ++ String c ("." ++ f ++ "e" ++ g) /\
    digit_of c n /\ (x <> 0%R -> n <> 0%Z) /\ String.length f = d /\ all_digits f /\
    exists h t, (h = "+" \/ h = "-") /\ g = h ++ t /\ 2 <= String.length t /\ all_digits t.
Proof.
  intros D. unfold fmt_exp. destruct (scientific_spec d x) as (M & _ & NZ). cbv zeta in M, NZ.
  set (m := fst (scientific d x)) in *. set (e := snd (scientific d x)) in *. cbv zeta.
  set (u := (10 ^ Z.of_nat d)%Z) in *.
  assert (U : (0 < u)%Z) by apply fixed_scale_pos.
  rewrite Z.pow_add_r in M by lia. fold u in M. change (10 ^ 1)%Z with 10%Z in M.
  assert (Q : (0 <= m / u < 10)%Z) by (split; [apply Z.div_pos; lia|apply Z.div_lt_upper_bound; lia]).
  destruct (pad_left_value d (m mod u) D (Z.mod_pos_bound m u U)) as (LF & _).
  exists (digit (m / u)), (m / u)%Z, (pad_left d (dec (m mod u))),
    ((if (e <? 0)%Z then "-" else "+") ++ pad_left 2 (dec (Z.abs e))).
  split; [rewrite (dec_small (m / u) Q); reflexivity|].
  split; [split; [lia|symmetry; now apply dec_small]|].
  split.
  { intros N. specialize (NZ N). assert (1 <= m / u)%Z by (apply Z.div_le_lower_bound; lia). lia. }
  split; [exact LF|]. split; [apply pad_left_digits, Z.mod_pos_bound, U|].
  exists (if (e <? 0)%Z then "-" else "+"), (pad_left 2 (dec (Z.abs e))).
  split; [destruct (e <? 0)%Z; auto|]. split; [reflexivity|]. split.
  - unfold pad_left. rewrite slength_app, zeros_length. lia.
  - apply pad_left_digits. lia.
Qed.

Lemma mag_between x e : (powerRZ 10 e <= Rabs x < powerRZ 10 (e + 1))%R ->
  mag_val base10 x (mag base10 x) = (e + 1)%Z.
Proof.
  intros H. apply mag_unique. rewrite !bpow10. replace (e + 1 - 1)%Z with e by ring. exact H.
Qed.

Lemma scientific_of d x e m :
  (powerRZ 10 e <= Rabs x < powerRZ 10 (e + 1))%R ->
  ZnearestE (Rabs x * powerRZ 10 (Z.of_nat d - e)) = m -> (m <> 10 ^ (Z.of_nat d + 1))%Z ->
  scientific d x = (m, e).
Proof.
  intros B N C. pose proof (powerRZ10_pos e) as EP. unfold scientific.
  destruct (Reqb x 0) eqn:Z0.
  { apply Reqb_spec in Z0. subst x. rewrite Rabs_R0 in B. lra. }
  cbv zeta. rewrite (mag_between x e B). replace (e + 1 - 1)%Z with e by ring.
  rewrite bpow10, N. apply Z.eqb_neq in C. now rewrite C.
Qed.

Example scientific_case :
  fmt_exp 9 (- 1234.5) = "-1.234500000e+03" /\ fmt_exp 9 0 = "0.000000000e+00" /\
  fmt_exp 1 (1.25 / 1000) = "1.2e-03" /\ fmt_exp 1 99.9 = "1.0e+02".
Proof.
  repeat split.
  - unfold fmt_exp. rewrite (scientific_of 9 (-1234.5) 3 1234500000).
    + replace (Rltb (-1234.5) 0) with true by (symmetry; apply Rltb_spec; lra). reflexivity.
    + rewrite Rabs_left by lra. simpl. lra.
    + rewrite Rabs_left by lra. change (Z.of_nat 9 - 3)%Z with 6%Z.
      replace (- - 1234.5 * powerRZ 10 6)%R with (IZR 1234500000) by (simpl; lra).
      apply Zrnd_IZR, valid_rnd_N.
    + discriminate.
  - unfold fmt_exp, scientific. replace (Reqb 0 0) with true by (symmetry; now apply Reqb_spec).
    replace (Rltb 0 0) with false by (symmetry; apply Rltb_false; lra). reflexivity.
  - unfold fmt_exp. rewrite (scientific_of 1 (1.25 / 1000) (-3) 12).
    + replace (Rltb (1.25 / 1000) 0) with false by (symmetry; apply Rltb_false; lra). reflexivity.
    + rewrite Rabs_pos_eq by lra. simpl. lra.
    + rewrite Rabs_pos_eq by lra. change (Z.of_nat 1 - -3)%Z with 4%Z.
      replace (1.25 / 1000 * powerRZ 10 4)%R with (IZR 12 + / 2)%R by (simpl; lra).
      unfold Znearest. replace (Zfloor (IZR 12 + / 2)) with 12%Z.
      2:{ symmetry. apply Zfloor_imp. simpl. lra. }
      rewrite Rcompare_Eq by lra. reflexivity.
    + discriminate.
  - unfold fmt_exp, scientific. destruct (Reqb 99.9 0) eqn:Z0; [apply Reqb_spec in Z0; lra|].
    cbv zeta. rewrite (mag_between 99.9 1) by (rewrite Rabs_pos_eq by lra; simpl; lra).
    rewrite bpow10, Rabs_pos_eq by lra. change (Z.of_nat 1 - (1 + 1 - 1))%Z with 0%Z.
    replace (99.9 * powerRZ 10 0)%R with (99.9)%R by (simpl; lra).
    replace (ZnearestE 99.9) with 100%Z.
    2:{ symmetry. apply Znearest_imp. rewrite Rabs_left; lra. }
    cbn [fst snd Z.eqb]. replace (Rltb 99.9 0) with false by (symmetry; apply Rltb_false; lra). reflexivity.
Qed.

(* ------------------------------------------------------------------ *)
(** * Fields and rows *)

Definition entry_of (f : field) : entry :=
  match f with Sci x | Spaced x => About x | Count n | Index n => Exactly n end.

Lemma numeral_to_string z : numeral (to_string z) (IZR z).
Proof.
  unfold to_string. destruct (z <? 0)%Z eqn:E.
  - apply Z.ltb_lt in E.
    replace (IZR z) with (IZR (-1) * (IZR (- z) * / 10 ^ String.length "") * powerRZ 10 0)%R
      by (rewrite opp_IZR; simpl; field).
    replace ("-" ++ dec (- z)) with ("-" ++ dec (- z) ++ "" ++ "") by now rewrite !sapp_nil_r.
    apply numeral_intro; try constructor.
    + apply dec_digits. lia.
    + rewrite sapp_nil_r. apply dec_value. lia.
  - apply Z.ltb_ge in E. apply numeral_digits, dec_value, E.
Qed.

Lemma spaces_blanks n : blanks (spaces n).
Proof. induction n as [|n IH]; [exact I|]. cbn [spaces blanks]. split; [reflexivity|exact IH]. Qed.

Lemma show_field f : exists b w v,
  show f = b ++ w /\ blanks b /\ numeral w v /\ reads v (entry_of f) /\ avoids newline b = true.
Proof.
  assert (L : 1 <= 9) by lia.
  assert (SP : forall n, avoids newline (spaces n) = true) by (induction n; [reflexivity|assumption]).
  assert (N9 : forall x, numeral (fmt_exp 9 x) (printed_value 9 x)) by (intros x; now apply fmt_exp_numeral).
  assert (NR : forall x, near (printed_value 9 x) x) by (intros x; apply printed_near).
  destruct f as [x|x|n|n]; cbn [show entry_of reads].
  - exists "", (fmt_exp 9 x), (printed_value 9 x). simpl blanks. auto.
  - exists (if Rltb x 0 then "" else " "), (fmt_exp 9 x), (printed_value 9 x).
    assert (blanks (if Rltb x 0 then "" else " ") /\ avoids newline (if Rltb x 0 then "" else " ") = true)
      as (A & B) by (destruct (Rltb x 0); simpl; auto).
    auto.
  - exists (spaces (10 - String.length (to_string n))), (to_string n), (IZR n).
    pose proof (spaces_blanks (10 - String.length (to_string n))). auto using numeral_to_string.
  - exists "", (to_string n), (IZR n). simpl blanks. auto using numeral_to_string.
Qed.

Lemma spells_blank b ws s : blanks b -> spells ws s -> spells ws (b ++ s).
Proof.
  intros B H. destruct H as [c C|c w ws r C W E S].
  - constructor. now apply blanks_app.
  - rewrite <- sapp_assoc. constructor; auto. now apply blanks_app.
Qed.

Lemma blanks_tab : blanks tab.
Proof. split; [reflexivity|exact I]. Qed.

Lemma show_row_numbers r : exists row,
  line_of_numbers (show_row r) row /\ Forall2 (fun v f => reads v (entry_of f)) row r.
Proof.
  unfold show_row. induction r as [|f r (row & (ws & S & N) & F)].
  - exists []. split; [|constructor]. exists []. split; [constructor; exact I|constructor].
  - destruct (show_field f) as (b & w & v & SH & B & NW & RD & _). exists (v :: row).
    split; [|now constructor]. exists (w :: ws). split; [|now constructor].
    pose proof (numeral_word w v NW) as W. destruct r as [|g r].
    + inversion F; subst. inversion N; subst. cbn [map String.concat]. rewrite SH.
      replace (b ++ w) with (b ++ w ++ "") by now rewrite sapp_nil_r.
      apply spells_cons; [exact B|exact W|exact I|]. constructor. exact I.
    + replace (String.concat tab (map show (f :: g :: r)))
        with (b ++ w ++ tab ++ String.concat tab (map show (g :: r)))
        by (cbn [map String.concat]; rewrite SH, !sapp_assoc; reflexivity).
      apply spells_cons; [exact B|exact W|reflexivity|]. apply spells_blank; [exact blanks_tab|exact S].
Qed.

Lemma avoids_app c a b : avoids c (a ++ b) = (avoids c a && avoids c b)%bool.
Proof. induction a as [|x a IH]; [reflexivity|]. cbn [append avoids]. rewrite IH. apply andb_assoc. Qed.

Lemma blank_free_avoids w : blank_free w -> avoids newline w = true.
Proof.
  induction w as [|c w IH]; [reflexivity|]. intros (B & W). cbn [avoids]. rewrite (IH W), andb_true_r.
  destruct (Ascii.eqb c newline) eqn:E; [|reflexivity]. apply Ascii.eqb_eq in E. subst. discriminate B.
Qed.

Lemma show_avoids f : avoids newline (show f) = true.
Proof.
  destruct (show_field f) as (b & w & v & -> & _ & N & _ & A). rewrite avoids_app, A.
  apply blank_free_avoids. apply (numeral_word w v N).
Qed.

Lemma show_row_avoids r : avoids newline (show_row r) = true.
Proof.
  unfold show_row. induction r as [|f r IH]; [reflexivity|]. cbn [map String.concat].
  destruct r as [|g r]; [apply show_avoids|]. cbn [map]. cbn [map] in IH.
  rewrite !avoids_app, show_avoids, IH. reflexivity.
Qed.

(** A row of numbers begins with neither a hash nor nothing. *)
Lemma numbers_not_comment line row : line_of_numbers line row -> row <> [] -> ~ comment_or_empty line.
Proof.
  intros (ws & S & N) NE. destruct S as [b B|b w ws r B W E S]; [inversion N; congruence|].
  inversion N as [|? v ? vs NW _]; subst. intros C.
  assert (H : b ++ w ++ r = "" \/ exists t, b ++ w ++ r = String "#" t) by exact C.
  destruct b as [|c b].
  - cbn [append] in H. destruct NW as [s g ip ft fp n et e SG I F D X].
    destruct H as [H|(t & H)].
    + apply sapp_eq_nil in H as (H & _). apply sapp_eq_nil in H as (_ & H).
      apply sapp_eq_nil in H as (-> & H). apply sapp_eq_nil in H as (H & _).
      destruct F; [discriminate D|discriminate H].
    + destruct SG; cbn [append] in H; try discriminate H.
      destruct ip as [|c ip].
      * destruct F as [|d A]; [discriminate D|discriminate H].
      * cbn [append] in H. injection H as -> _. destruct I as (I & _). apply I. reflexivity.
  - destruct H as [H|(t & H)]; [discriminate H|]. cbn [append] in H. injection H as -> _.
    destruct B as (B & _). discriminate B.
Qed.

Lemma rows_built (fields : nat -> list field) n :
  (forall i, fields i <> []) ->
  exists rows, rows_of (map (fun i => show_row (fields i)) (seq 0 n)) rows /\ length rows = n /\
    forall i, i < n -> exists row, nth_error rows i = Some row /\
      Forall2 (fun v f => reads v (entry_of f)) row (fields i).
Proof.
  intros NE.
  assert (G : forall k, exists rows, rows_of (map (fun i => show_row (fields i)) (seq k n)) rows /\
    length rows = n /\
    forall i, i < n -> exists row, nth_error rows i = Some row /\
      Forall2 (fun v f => reads v (entry_of f)) row (fields (k + i))).
  { induction n as [|n IH]; intros k.
    - exists []. split; [constructor|]. split; [reflexivity|]. intros i H. lia.
    - destruct (IH (S k)) as (rows & R & L & F). destruct (show_row_numbers (fields k)) as (row & N & FR).
      exists (row :: rows). split.
      + cbn [seq map]. apply rows_data; [|exact N|exact R].
        apply (numbers_not_comment _ row N). intros ->. inversion FR as [H|]. now apply (NE k).
      + split; [simpl; lia|]. intros [|i] H.
        * exists row. split; [reflexivity|]. now rewrite Nat.add_0_r.
        * destruct (F i ltac:(lia)) as (row' & E & F'). exists row'. split; [exact E|].
          replace (k + S i) with (S k + i) by lia. exact F'. }
  exact (G 0).
Qed.

Lemma written_ended lines : written lines = ended lines.
Proof. induction lines as [|l ls IH]; [reflexivity|]. cbn [written ended fold_right]. now rewrite <- IH. Qed.

(** A line of a header. *)
Definition plain_comment (l : string) : Prop := (exists r, l = "#" ++ r) /\ newline_free l.

Lemma newline_free_avoids l : avoids newline l = true <-> newline_free l.
Proof.
  split; [exact (avoids_free newline l)|]. induction l as [|c l IH]; [reflexivity|]. intros H. cbn [avoids].
  destruct (Ascii.eqb c newline) eqn:E.
  - apply Ascii.eqb_eq in E. subst. exfalso. exact (H "" l eq_refl).
  - apply IH. intros a b ->. exact (H (String c a) b eq_refl).
Qed.

Lemma tabulated head cols (fields : nat -> list field) n :
  Forall plain_comment head -> newline_free (label cols) ->
  (forall i, fields i <> []) ->
  (forall i, Forall2 (fun f c => snd c i = entry_of f) (fields i) cols) ->
  tabulates (written (head ++ label cols :: map (fun i => show_row (fields i)) (seq 0 n))%list) cols n.
Proof.
  intros H L NE M. destruct (rows_built fields n NE) as (rows & R & LR & F).
  exists head, (map (fun i => show_row (fields i)) (seq 0 n)), rows. rewrite written_ended. repeat split.
  - apply Forall_app. split; [apply Forall_impl with (2 := H); intros l P; apply P|].
    constructor; [exact L|]. apply Forall_forall. intros l I. apply in_map_iff in I as (i & <- & _).
    apply newline_free_avoids, show_row_avoids.
  - now left.
  - apply Forall_impl with (2 := H); intros l P; apply P.
  - exact R.
  - now rewrite map_length, seq_length.
  - exact LR.
  - intros i I. destruct (F i I) as (row & E & F2). exists row. split; [exact E|].
    specialize (M i). clear - F2 M. revert cols M. induction F2 as [|v f row fs RD F2 IH]; intros cols M;
      inversion M as [|? c ? cs EQ M']; subst; constructor; auto. now rewrite EQ.
Qed.

(* ------------------------------------------------------------------ *)
(** * The tables of the program *)

Lemma to_string_avoids z : avoids newline (to_string z) = true.
Proof. apply blank_free_avoids, to_string_blank_free. Qed.

Lemma substring_all n s : String.length s <= n -> substring 0 n s = s.
Proof.
  revert n; induction s as [|c s IH]; intros n L; [now destruct n|]. destruct n as [|n]; [simpl in L; lia|].
  cbn [substring]. f_equal. apply IH. simpl in L. lia.
Qed.

Ltac label_is :=
  match goal with |- tabulates (written (?h ++ _ :: ?r)) ?cols _ =>
    replace (written (h ++ _ :: r)%list) with (written (h ++ label cols :: r)%list)
      by (unfold label; cbn [map fst numbered]; do 3 f_equal; rewrite ?sapp_assoc; reflexivity)
  end.
Ltac label_free :=
  apply newline_free_avoids; unfold label; cbn [map fst numbered]; rewrite !avoids_app, !to_string_avoids;
  reflexivity.

(** C110: a file of the program names its columns, holds one line for each bin
    in order, and every entry is read back: counts as they are, numbers to ten
    significant digits. *)
Theorem program_table :
  forall q x head,
  Forall plain_comment head -> String.length (degrees_text x q) <= 7 ->
  tabulates (written (head ++ cpp_table q x)%list) (columns (degrees_text x q) x) (bins_in x).
Proof.
  intros q x head H D. unfold cpp_table, degrees_text in *.
  destruct x as [m|m|m|m]; cbn [columns bins_in].
  - unfold powspec_lines. label_is.
    apply (tabulated head _ (fun i => [Sci (kbin m i); Sci (keff m i); Count (nmodes m i);
        Spaced (fst (pk_raw m i)); Spaced (snd (pk_raw m i));
        Spaced (fst (pk_shot m i)); Spaced (snd (pk_shot m i))])); [exact H|label_free|discriminate|].
    intros i. repeat constructor.
  - unfold twopcf_lines. label_is.
    apply (tabulated head _ (fun i => [Sci (rbin m i); Sci (reff m i); Count (npairs m i);
        Spaced (fst (xi m i)); Spaced (snd (xi m i))])); [exact H|label_free|discriminate|].
    intros i. repeat constructor.
  - unfold bispec_lines, multipole_str. rewrite substring_all by exact D. label_is.
    apply (tabulated head _ (fun i => [Sci (k1_bin m i); Sci (k1_eff m i); Count (nmodes_1 m i);
        Sci (k2_bin m i); Sci (k2_eff m i); Count (nmodes_2 m i);
        Spaced (fst (bk_raw m i)); Spaced (snd (bk_raw m i));
        Spaced (fst (bk_shot m i)); Spaced (snd (bk_shot m i))])); [exact H|label_free|discriminate|].
    intros i. repeat constructor.
  - unfold threepcf_lines, multipole_str. rewrite substring_all by exact D. label_is.
    apply (tabulated head _ (fun i => [Sci (r1_bin m i); Sci (r1_eff m i); Count (npairs_1 m i);
        Sci (r2_bin m i); Sci (r2_eff m i); Count (npairs_2 m i);
        Spaced (fst (zeta_raw m i)); Spaced (snd (zeta_raw m i));
        Spaced (fst (zeta_shot m i)); Spaced (snd (zeta_shot m i))])); [exact H|label_free|discriminate|].
    intros i. repeat constructor.
Qed.

(** C110: so the numbers of a file are those its rows hold, for whoever passes
    over comments and blanks (as the program does when it reads catalogues). *)
Theorem tabulates_read :
  forall text cols n, tabulates text cols n ->
  length (map row_of (data_lines text)) = n /\
  forall i, i < n -> exists row,
    nth_error (map row_of (data_lines text)) i = Some row /\
    Forall2 (fun v c => reads v (snd c i)) row cols.
Proof.
  intros text cols n (head & lines & rows & H & C & R & L & LR & F).
  assert (E : map row_of (data_lines text) = rows).
  { unfold data_lines. rewrite (holds_lines _ _ H). apply rows_of_lines.
    clear H. induction C as [|l ls (r & ->) C IH]; cbn [app].
    - apply rows_skip; [|exact R]. right. now exists (" " ++ numbered 0 (map fst cols)).
    - apply rows_skip; [|exact IH]. right. now exists r. }
  rewrite E. split; [exact LR|exact F].
Qed.

(** Degrees whose text is longer than seven characters are cut off, so that
    tables of different multipoles are labelled alike. *)
Definition degrees_of (l1 l2 l : Z) : ParamModel.measuring :=
  {| ParamModel.catalogue_type := "sim"; ParamModel.statistic_type := "bispec";
     ParamModel.npoint := "3pt"; ParamModel.space := "fourier";
     ParamModel.ell1 := l1; ParamModel.ell2 := l2; ParamModel.ELL := l;
     ParamModel.form := "diag"; ParamModel.norm_convention := "particle";
     ParamModel.shape := "diag"; ParamModel.binning := "lin"; ParamModel.bin_min := 0;
     ParamModel.bin_max := 1; ParamModel.num_bins := 10; ParamModel.idx_bin := 0 |}.

Theorem program_label_refuted :
  exists q q', forall m,
    degrees_text (Bk m) q <> degrees_text (Bk m) q' /\
    cpp_table q (Bk m) = cpp_table q' (Bk m).
Proof.
  exists (degrees_of 100 100 10), (degrees_of 100 100 12). intros m. split; [discriminate|]. reflexivity.
Qed.

Lemma fmt_fixed_avoids d x : avoids newline (fmt_fixed d x) = true.
Proof. apply blank_free_avoids, fmt_fixed_blank_free. Qed.

(** C110: the vectors of each bin. *)
Theorem vectors_table :
  forall t v,
  tabulates (written (vectors_lines t v))
    [("bin_index", count (vec_index v)); ("bin_lower", value (vec_lower v));
     ("bin_upper", value (vec_upper v)); ("vec_x", value (vec_x v));
     ("vec_y", value (vec_y v)); ("vec_z", value (vec_z v))] (vec_count v).
Proof.
  intros t v. unfold vectors_lines.
  change ([box_line (ParamModel.boxsize t); grid_line (ParamModel.ngrid t);
     comment ("Vector count: " ++ to_string (Z.of_nat (vec_count v)));
     comment ("Bin number: " ++ to_string (vec_bins v));
     "# [0] bin_index, [1] bin_lower, [2] bin_upper, [3] vec_x, [4] vec_y, [5] vec_z" ])
    with ([box_line (ParamModel.boxsize t); grid_line (ParamModel.ngrid t);
     comment ("Vector count: " ++ to_string (Z.of_nat (vec_count v)));
     comment ("Bin number: " ++ to_string (vec_bins v))] ++
     [label [("bin_index", count (vec_index v)); ("bin_lower", value (vec_lower v));
     ("bin_upper", value (vec_upper v)); ("vec_x", value (vec_x v));
     ("vec_y", value (vec_y v)); ("vec_z", value (vec_z v))]])%list.
  rewrite <- app_assoc.
  apply (tabulated _ _ (fun i => [Index (vec_index v i); Sci (vec_lower v i); Sci (vec_upper v i);
         Spaced (vec_x v i); Spaced (vec_y v i); Spaced (vec_z v i)])).
  - repeat constructor; try (eexists; reflexivity); apply newline_free_avoids;
      unfold box_line, grid_line, comment; rewrite ?avoids_app, ?fmt_fixed_avoids, ?to_string_avoids; reflexivity.
  - apply newline_free_avoids. reflexivity.
  - discriminate.
  - intros i. repeat constructor.
Qed.

(* ------------------------------------------------------------------ *)
(** * The tables of Python *)

Lemma enumerated_numbered names : enumerated names = numbered 0 names.
Proof.
  unfold enumerated.
  assert (G : forall k, String.concat ", " (map (fun '(i, n) => "[" ++ to_string (Z.of_nat i) ++ "] " ++ n)
              (combine (seq k (length names)) names)) = numbered k names).
  { induction names as [|n names IH]; intros k; [reflexivity|]. cbn [length seq combine map].
    specialize (IH (S k)). destruct names as [|n' names]; [reflexivity|].
    cbn [length seq combine map] in IH |- *. cbn [String.concat] in IH |- *.
    change (numbered k (n :: n' :: names))
      with ("[" ++ to_string (Z.of_nat k) ++ "] " ++ n ++ ", " ++ numbered (S k) (n' :: names)).
    rewrite <- IH. rewrite !sapp_assoc. reflexivity. }
  apply G.
Qed.

(** C110: Python prints the lines the program prints for the same results. *)
Theorem python_rows_same :
  forall three fourier x t, py_table three fourier x = PyRunModel.Returns t ->
  forall q, t = tl (cpp_table q x).
Proof.
  intros three fourier x t H q. unfold py_table, py_columns in H.
  destruct three, fourier, x as [m|m|m|m]; cbn [PyRunModel.andthen] in H; try discriminate H;
    apply (f_equal (fun e => match e with PyRunModel.Returns a => a | _ => [] end)) in H;
    cbn [fst snd length py_formats Nat.sub repeat app combine map] in H; subst t;
    cbn [cpp_table powspec_lines twopcf_lines bispec_lines threepcf_lines tl];
    apply map_ext; intros i; rewrite ?Ztrunc_IZR; reflexivity.
Qed.

Lemma andthen_returns {A B} (x : PyRunModel.ends A) (f : A -> PyRunModel.ends B) b :
  PyRunModel.andthen x f = PyRunModel.Returns b ->
  exists a, x = PyRunModel.Returns a /\ f a = PyRunModel.Returns b.
Proof. destruct x; intros H; try discriminate H. eauto. Qed.

Tactic Notation "step" hyp(H) ident(a) ident(E) := apply andthen_returns in H as (a & E & H).

(** The degrees of a parameter set as they appear in names. *)
Definition degree_entries (three : bool) (s : PyParamModel.pset) (l : string) : Prop :=
  exists f, PyParamModel.dget "degrees" (PyParamModel.entries s) = Some (PyParamModel.VDict f) /\
    if three then
      exists l1 l2 l3, PyParamModel.dget "ell1" f = Some (PyParamModel.VInt l1) /\
        PyParamModel.dget "ell2" f = Some (PyParamModel.VInt l2) /\
        PyParamModel.dget "ELL" f = Some (PyParamModel.VInt l3) /\
        l = to_string l1 ++ to_string l2 ++ to_string l3
    else exists l3, PyParamModel.dget "ELL" f = Some (PyParamModel.VInt l3) /\ l = to_string l3.

(** Entries printed in headers are printed on one line. *)
Definition plain_entries (e : PyParamModel.pyenv) (s : PyParamModel.pset) : Prop :=
  forall k v, In k ["alignment"; "assignment"; "interlace"; "norm_convention"] ->
    PyParamModel.dget k (PyParamModel.entries s) = Some v -> newline_free (PyParamModel.py_str e v).

Lemma entry_dget s k v : PyRunModel.entry s k = PyRunModel.Returns v ->
  PyParamModel.dget k (PyParamModel.entries s) = Some v.
Proof.
  unfold PyRunModel.entry, PyParamModel.getitem.
  destruct (PyParamModel.dget k (PyParamModel.entries s)); cbn [PyRunModel.python]; [|discriminate].
  intros H. injection H as ->. reflexivity.
Qed.

Lemma nested_dget s k l f v :
  PyParamModel.dget k (PyParamModel.entries s) = Some (PyParamModel.VDict f) ->
  PyParamModel.dget l f = Some v -> nested s k l = PyRunModel.Returns v.
Proof.
  intros K L. unfold nested, PyRunModel.entry, PyParamModel.getitem. rewrite K.
  cbn [PyRunModel.python PyRunModel.andthen]. rewrite L. reflexivity.
Qed.

Lemma py_names_columns e three s names fo x t l :
  py_names e three s = PyRunModel.Returns names -> is_fourier s = PyRunModel.Returns fo ->
  py_table three fo x = PyRunModel.Returns t -> degree_entries three s l ->
  names = map fst (columns l x).
Proof.
  intros N FO T (f & DF & DE). unfold py_names in N. step N np NP.
  destruct (negb _); [discriminate N|]. step N l' NL.
  assert (L : l' = l).
  { destruct three.
    - destruct DE as (l1 & l2 & l3 & D1 & D2 & D3 & ->).
      rewrite (nested_dget s _ _ f _ DF D1), (nested_dget s _ _ f _ DF D2), (nested_dget s _ _ f _ DF D3) in NL.
      cbn [PyRunModel.andthen PyParamModel.py_str] in NL. injection NL as <-. reflexivity.
    - destruct DE as (l3 & D3 & ->). rewrite (nested_dget s _ _ f _ DF D3) in NL.
      cbn [PyRunModel.andthen format_d] in NL. injection NL as <-. reflexivity. }
  subst l'. clear NL DE DF. step N sp SP. unfold is_fourier in FO. rewrite SP in FO. cbn [PyRunModel.andthen] in FO.
  assert (G : names = (if fo then (if three then
             ["k1_cen"; "k1_eff"; "nmodes_1"; "k2_cen"; "k2_eff"; "nmodes_2";
              "Re{bk" ++ l ++ "_raw}"; "Im{bk" ++ l ++ "_raw}";
              "Re{bk" ++ l ++ "_shot}"; "Im{bk" ++ l ++ "_shot}"]
           else
             ["k_cen"; "k_eff"; "nmodes"; "Re{pk" ++ l ++ "_raw}"; "Im{pk" ++ l ++ "_raw}";
              "Re{pk" ++ l ++ "_shot}"; "Im{pk" ++ l ++ "_shot}"])
      else (if three then
             ["r1_cen"; "r1_eff"; "npairs_1"; "r2_cen"; "r2_eff"; "npairs_2";
              "Re{zeta" ++ l ++ "_raw}"; "Im{zeta" ++ l ++ "_raw}";
              "Re{zeta" ++ l ++ "_shot}"; "Im{zeta" ++ l ++ "_shot}"]
           else
             ["r_cen"; "r_eff"; "npairs"; "Re{xi" ++ l ++ "}"; "Im{xi" ++ l ++ "}"]))).
  { destruct (PyRunModel.is_text sp "fourier").
    - injection FO as <-. destruct three; injection N as <-; reflexivity.
    - destruct (PyRunModel.is_text sp "config"); [|discriminate FO].
      injection FO as <-. destruct three; injection N as <-; reflexivity. }
  rewrite G. clear - T. unfold py_table, py_columns in T.
  destruct three, fo, x; cbn [PyRunModel.andthen] in T; try discriminate T; reflexivity.
Qed.

Lemma show_factor_avoids odd x : avoids newline odd = true -> avoids newline (show_factor odd x) = true.
Proof.
  intros O. destruct x as [x|]; [|exact O]. cbn [show_factor]. apply blank_free_avoids.
  exact (proj2 (numeral_word _ _ (fmt_exp_numeral 9 x ltac:(lia)))).
Qed.

Lemma text_entry_avoids e s k t : plain_entries e s ->
  In k ["alignment"; "assignment"; "interlace"; "norm_convention"] ->
  text_entry e s k = PyRunModel.Returns t -> avoids newline t = true.
Proof.
  intros P K H. unfold text_entry in H. step H v E. injection H as <-.
  apply newline_free_avoids. exact (P k v K (entry_dget _ _ _ E)).
Qed.

(** The lines of the header up to the names of the columns. *)
Lemma py_run_lines_form odd e three s n lines :
  newline_free odd -> plain_entries e s -> py_run_lines odd e three s n = PyRunModel.Returns lines ->
  exists front names, lines = (front ++ [enumerated names])%list /\
    py_names e three s = PyRunModel.Returns names /\ Forall newline_free front.
Proof.
  intros O P H. apply newline_free_avoids in O. unfold py_run_lines in H.
  step H names N. step H f F. step H box B. step H al AL. step H grid G. step H asg AS. step H il IL.
  step H c CV.
  apply (f_equal (fun e => match e with PyRunModel.Returns a => a | _ => [] end)) in H. cbv beta iota in H.
  subst lines.
  apply (text_entry_avoids e s _ _ P) in AL; [|simpl; auto].
  apply (text_entry_avoids e s _ _ P) in AS; [|simpl; auto].
  apply (text_entry_avoids e s _ _ P) in IL; [|simpl; auto].
  apply (text_entry_avoids e s _ _ P) in CV; [|simpl; auto 6].
  eexists [_; _; _; _; _; _], names. split; [reflexivity|]. split; [exact N|].
  repeat constructor; apply newline_free_avoids; rewrite ?avoids_app, ?fmt_fixed_avoids, ?to_string_avoids,
    ?(show_factor_avoids odd _ O), ?AL, ?AS, ?IL, ?CV; try reflexivity.
  destruct three; reflexivity.
Qed.

Lemma py_save_text odd e three oe cats save s n x path text :
  py_save odd e three oe cats save s n x = PyRunModel.Returns (Some (path, TextFile text)) ->
  exists t dir header sp table, save = SaveAs t /\ PyParamModel.lower t = ".txt" /\
    directory oe s = PyRunModel.Returns dir /\
    py_header odd e three cats s n = PyRunModel.Returns header /\
    is_fourier s = PyRunModel.Returns sp /\ py_table three sp x = PyRunModel.Returns table /\
    saved_path e three dir FileNameModel.Txt s = PyRunModel.Returns path /\
    text = written (map comment header ++ table)%list.
Proof.
  assert (G : forall t, match directory oe s with
    | PyRunModel.Returns dir => PyRunModel.andthen (py_header odd e three cats s n) (fun header =>
            if PyParamModel.lower t =? ".txt" then
              PyRunModel.andthen (is_fourier s) (fun sp =>
              PyRunModel.andthen (py_table three sp x) (fun table =>
              PyRunModel.andthen (saved_path e three dir FileNameModel.Txt s) (fun path =>
              PyRunModel.Returns
                (Some (path, TextFile (written (map comment header ++ table)%list))))))
            else if ends_with ".npz" (PyParamModel.lower t) then
              PyRunModel.andthen (saved_path e three dir FileNameModel.Npz s) (fun path =>
              PyRunModel.Returns
                (Some (path, Archive (String.concat (String newline "") header))))
            else PyRunModel.Raises ValueError)
    | _ => PyRunModel.Unfollowed end = PyRunModel.Returns (Some (path, TextFile text)) ->
    exists t' dir header sp table, SaveAs t = SaveAs t' /\ PyParamModel.lower t' = ".txt" /\
    directory oe s = PyRunModel.Returns dir /\
    py_header odd e three cats s n = PyRunModel.Returns header /\
    is_fourier s = PyRunModel.Returns sp /\ py_table three sp x = PyRunModel.Returns table /\
    saved_path e three dir FileNameModel.Txt s = PyRunModel.Returns path /\
    text = written (map comment header ++ table)%list).
  { intros t H. destruct (directory oe s) as [dir| | |] eqn:D; try discriminate H.
    step H header HD. destruct (PyParamModel.lower t =? ".txt") eqn:T.
    - apply String.eqb_eq in T. step H sp SP. step H table TB. step H pth PT.
      injection H as -> <-. exists t, dir, header, sp, table. auto 10.
    - destruct (ends_with _ _); [|discriminate H]. step H pth PT. discriminate H. }
  unfold py_save. destruct save as [|[|c t]|]; intros H; try discriminate H.
  - apply G. destruct (directory oe s); try discriminate H; exact H.
  - step H dir D. step H header HD. discriminate H.
Qed.

(** C110: a text file Python saves names its columns, holds one line for each
    bin in order, and every entry is read back as from the program's files;
    there is no limit on the length of degrees. *)
Theorem python_table :
  forall odd e three oe cats save s n x path text l,
  newline_free odd -> Forall newline_free cats -> plain_entries e s -> degree_entries three s l ->
  py_save odd e three oe cats save s n x = PyRunModel.Returns (Some (path, TextFile text)) ->
  tabulates text (columns l x) (bins_in x).
Proof.
  intros odd e three oe cats save s n x path text l O C P DE H.
  destruct (py_save_text _ _ _ _ _ _ _ _ _ _ _ H) as (t & dir & header & sp & table & _ & _ & _ & HD & SP & TB & _ & ->).
  unfold py_header in HD. step HD run RL. injection HD as <-.
  destruct (py_run_lines_form odd e three s n run O P RL) as (front & names & -> & N & F).
  rewrite (py_names_columns e three s names sp x table l N SP TB DE). rewrite enumerated_numbered.
  rewrite !map_app, <- !app_assoc. cbn [map app].
  change (comment (numbered 0 (map fst (columns l x)))) with (label (columns l x)).
  rewrite app_assoc, <- map_app.
  assert (HC : Forall plain_comment (map comment (cats ++ front))).
  { apply Forall_forall. intros y I. apply in_map_iff in I as (z & <- & I).
    split; [now exists (" " ++ z)|]. apply newline_free_avoids. unfold comment. rewrite avoids_app.
    apply andb_true_iff. split; [reflexivity|]. apply newline_free_avoids.
    apply in_app_or in I as [I|I]; [rewrite Forall_forall in C; auto|rewrite Forall_forall in F; auto]. }
  assert (LF : avoids newline l = true).
  { destruct DE as (f & _ & DE). destruct three.
    - destruct DE as (l1 & l2 & l3 & _ & _ & _ & ->). now rewrite !avoids_app, !to_string_avoids.
    - destruct DE as (l3 & _ & ->). apply to_string_avoids. }
  pose proof (python_rows_same three sp x table TB (degrees_of 0 0 0)) as ->.
  destruct x as [m|m|m|m]; cbn [bins_in cpp_table powspec_lines twopcf_lines bispec_lines threepcf_lines tl].
  - apply (tabulated _ _ (fun i => [Sci (kbin m i); Sci (keff m i); Count (nmodes m i);
        Spaced (fst (pk_raw m i)); Spaced (snd (pk_raw m i));
        Spaced (fst (pk_shot m i)); Spaced (snd (pk_shot m i))])); [exact HC| |discriminate|intros i; repeat constructor].
    apply newline_free_avoids. unfold label. cbn [columns map fst numbered]. rewrite !avoids_app, !LF, !to_string_avoids. reflexivity.
  - apply (tabulated _ _ (fun i => [Sci (rbin m i); Sci (reff m i); Count (npairs m i);
        Spaced (fst (xi m i)); Spaced (snd (xi m i))])); [exact HC| |discriminate|intros i; repeat constructor].
    apply newline_free_avoids. unfold label. cbn [columns map fst numbered]. rewrite !avoids_app, !LF, !to_string_avoids. reflexivity.
  - apply (tabulated _ _ (fun i => [Sci (k1_bin m i); Sci (k1_eff m i); Count (nmodes_1 m i);
        Sci (k2_bin m i); Sci (k2_eff m i); Count (nmodes_2 m i);
        Spaced (fst (bk_raw m i)); Spaced (snd (bk_raw m i));
        Spaced (fst (bk_shot m i)); Spaced (snd (bk_shot m i))])); [exact HC| |discriminate|intros i; repeat constructor].
    apply newline_free_avoids. unfold label. cbn [columns map fst numbered]. rewrite !avoids_app, !LF, !to_string_avoids. reflexivity.
  - apply (tabulated _ _ (fun i => [Sci (r1_bin m i); Sci (r1_eff m i); Count (npairs_1 m i);
        Sci (r2_bin m i); Sci (r2_eff m i); Count (npairs_2 m i);
        Spaced (fst (zeta_raw m i)); Spaced (snd (zeta_raw m i));
        Spaced (fst (zeta_shot m i)); Spaced (snd (zeta_shot m i))])); [exact HC| |discriminate|intros i; repeat constructor].
    apply newline_free_avoids. unfold label. cbn [columns map fst numbered]. rewrite !avoids_app, !LF, !to_string_avoids. reflexivity.
Qed.

(** A power spectrum of two bins. *)
Definition demo_powspec : powspec :=
  {| pk_dim := 2; kbin := fun i => if (i =? 0)%nat then 0.1%R else 0.2%R; keff := fun _ => 0.1%R;
     nmodes := fun i => (18 + 8 * Z.of_nat i)%Z;
     pk_raw := fun _ => (1234.5, - 0.5)%R; pk_shot := fun _ => (10, 0)%R |}.

Example program_table_case :
  String.length (degrees_text (Pk demo_powspec) (degrees_of 0 0 2)) <= 7 /\
  tabulates (written (cpp_table (degrees_of 0 0 2) (Pk demo_powspec)))
    (columns "2" (Pk demo_powspec)) 2 /\
  hd "" (cpp_table (degrees_of 0 0 2) (Pk demo_powspec)) =
    "# [0] k_cen, [1] k_eff, [2] nmodes, [3] Re{pk2_raw}, [4] Im{pk2_raw}, [5] Re{pk2_shot}, [6] Im{pk2_shot}" /\
  show (Count (nmodes demo_powspec 1)) = "        26".
Proof.
  split; [simpl; lia|]. split; [|split; reflexivity].
  apply (program_table (degrees_of 0 0 2) (Pk demo_powspec) []); [constructor|simpl; lia].
Qed.

Example scientific_exact_case :
  numeral (fmt_exp 9 (IZR 12345 * powerRZ 10 (-7))) (IZR 12345 * powerRZ 10 (-7)) /\
  (IZR 12345 * powerRZ 10 (-7) = 0.0012345)%R.
Proof. split; [apply scientific_exact; [lia|reflexivity]|simpl; lra]. Qed.

(** A parameter set Python saves with. *)
Definition save_demo : PyParamModel.pset :=
  {| PyParamModel.entries :=
       [("npoint", PyParamModel.VStr "2pt"); ("space", PyParamModel.VStr "fourier");
        ("degrees", PyParamModel.VDict [("ell1", PyParamModel.VInt 0); ("ell2", PyParamModel.VInt 0);
                                        ("ELL", PyParamModel.VInt 2)]);
        ("norm_convention", PyParamModel.VStr "particle");
        ("boxsize", PyParamModel.VDict [("x", PyParamModel.VNum 1000); ("y", PyParamModel.VNum 1000);
                                        ("z", PyParamModel.VNum 1000)]);
        ("ngrid", PyParamModel.VDict [("x", PyParamModel.VInt 64); ("y", PyParamModel.VInt 64);
                                      ("z", PyParamModel.VInt 64)]);
        ("alignment", PyParamModel.VStr "centre"); ("assignment", PyParamModel.VStr "tsc");
        ("interlace", PyParamModel.VStr "off");
        ("directories", PyParamModel.VDict [("measurements", PyParamModel.VStr "out")]);
        ("tags", PyParamModel.VDict [("output", PyParamModel.VStr "_a")]);
        ("statistic_type", PyParamModel.VStr "powspec")];
     PyParamModel.cpp := PyParamModel.cpp_default; PyParamModel.bar := "" |}.

Example python_table_case :
  exists text,
    py_save "nan" PyParamProps.demo_env false true ["Catalogue source: extdata"] (SaveAs ".TXT") save_demo
      {| PyRunModel.n_part := Some 2%R; PyRunModel.n_mesh := None; PyRunModel.n_meshes := None |}
      (Pk demo_powspec) = PyRunModel.Returns (Some (["out"; "pk2_a.txt"], TextFile text)) /\
    tabulates text (columns "2" (Pk demo_powspec)) 2.
Proof.
  assert (H : exists text,
    py_save "nan" PyParamProps.demo_env false true ["Catalogue source: extdata"] (SaveAs ".TXT") save_demo
      {| PyRunModel.n_part := Some 2%R; PyRunModel.n_mesh := None; PyRunModel.n_meshes := None |}
      (Pk demo_powspec) = PyRunModel.Returns (Some (["out"; "pk2_a.txt"], TextFile text)))
    by (eexists; reflexivity).
  destruct H as (text & H). exists text. split; [exact H|].
  assert (F : forall t, avoids newline t = true -> newline_free t) by (intros t; apply newline_free_avoids).
  apply (python_table _ _ _ _ _ _ _ _ _ _ _ "2") in H; [exact H|now apply F|repeat constructor; now apply F| |].
  - intros k v K G. simpl in K. decompose [or] K; try contradiction; subst k; injection G as <-; now apply F.
  - eexists. split; [reflexivity|]. exists 2%Z. split; reflexivity.
Qed.

Print Assumptions scientific_near.
Print Assumptions scientific_exact.
Print Assumptions scientific_form.
Print Assumptions program_table.
Print Assumptions tabulates_read.
Print Assumptions program_label_refuted.
Print Assumptions vectors_table.
Print Assumptions python_rows_same.
Print Assumptions python_table.
