(* C91: used-parameter files. *)
From Coq Require Import String Ascii List Arith ZArith Reals Bool Lia Lra.
From Flocq Require Import Core.
From Verif Require Import Base StrModel StrProps Dec ArrayModel ArrayProofs
  MeshModel ParamModel ParamProps ParamValProps ParamFixProps ParamFileModel ParamFileProps
  ParamFileUseProps.
Import ListNotations.
Local Open Scope nat_scope.
Local Open Scope string_scope.

(* ------------------------------------------------------------------ *)
(** * Printed values *)

Lemma digit_not_blank c v : digit_value c = Some v -> is_blank_char c = false.
Proof.
  unfold digit_value, is_blank_char. cbv zeta. intros H.
  destruct ((48 <=? Z.of_nat (nat_of_ascii c))%Z && (Z.of_nat (nat_of_ascii c) <=? 57)%Z) eqn:E; [|discriminate H].
  apply andb_true_iff in E. destruct E as (A & B). apply Z.leb_le in A, B.
  apply orb_false_iff. split; [apply Nat.eqb_neq; lia|]. apply andb_false_iff. right.
  apply Nat.leb_gt. lia.
Qed.

Lemma digits_blank_free s : all_digits s -> blank_free s.
Proof.
  induction s as [|c s IH]; [constructor|]. intros (H & D). cbn [blank_free]. split; [|auto].
  destruct (digit_value c) eqn:E; [now apply digit_not_blank in E|congruence].
Qed.

Lemma to_string_blank_free z : blank_free (to_string z).
Proof.
  unfold to_string. destruct (z <? 0)%Z eqn:E.
  - apply Z.ltb_lt in E. cbn [append blank_free]. split; [reflexivity|].
    apply digits_blank_free, dec_digits. lia.
  - apply Z.ltb_ge in E. apply digits_blank_free, dec_digits. lia.
Qed.

Lemma zeros_digits n : all_digits (zeros n).
Proof. induction n as [|n IH]; [exact I|]. cbn [zeros all_digits]. split; [discriminate|exact IH]. Qed.

Lemma pad_left_digits n m : (0 <= m)%Z -> all_digits (pad_left n (dec m)).
Proof. intros H. apply all_digits_app. split; [apply zeros_digits|now apply dec_digits]. Qed.

Lemma fixed_scale_pos d : (0 < 10 ^ Z.of_nat d)%Z.
Proof. apply Z.pow_pos_nonneg; lia. Qed.

Lemma nearest_nonneg d x : (0 <= ZnearestE (Rabs x * IZR (10 ^ Z.of_nat d)))%Z.
Proof.
  apply Z.le_trans with (Zfloor (Rabs x * IZR (10 ^ Z.of_nat d))); [|apply Znearest_ge_floor].
  apply Zfloor_lub. apply Rmult_le_pos; [apply Rabs_pos|]. apply IZR_le.
  pose proof (fixed_scale_pos d). lia.
Qed.

Lemma fmt_fixed_blank_free d x : blank_free (fmt_fixed d x).
Proof.
  unfold fmt_fixed. pose proof (fixed_scale_pos d) as U. pose proof (nearest_nonneg d x) as V.
  apply blank_free_app. split; [destruct (Rltb x 0); simpl; auto|].
  apply blank_free_app. split.
  - apply digits_blank_free, dec_digits. apply Z.div_pos; assumption.
  - apply blank_free_app. split; [simpl; auto|]. apply digits_blank_free, pad_left_digits.
    apply Z.mod_pos_bound. exact U.
Qed.

(** Reading back what was printed. *)

Definition no_digit_next (r : string) : Prop :=
  match r with "" => True | String c _ => digit_value c = None end.

Lemma take_digits_exact s r : all_digits s -> no_digit_next r -> take_digits (s ++ r) = (s, r).
Proof.
  induction s as [|c s IH]; intros A N; cbn [append].
  - destruct r as [|c r]; [reflexivity|]. simpl in N. cbn [take_digits]. now rewrite N.
  - destruct A as (A & B). cbn [take_digits]. destruct (digit_value c); [|congruence].
    rewrite IH by auto. reflexivity.
Qed.

Lemma take_sign_digit s r : all_digits s -> s <> "" -> take_sign (s ++ r) = (1%Z, s ++ r).
Proof.
  destruct s as [|c s]; [congruence|]. intros (A & _) _. cbn [append].
  destruct c as [[] [] [] [] [] [] [] []]; try reflexivity; exfalso; apply A; reflexivity.
Qed.

Lemma read_int_digits s r :
  all_digits s -> s <> "" -> no_digit_next r -> read_int (s ++ r) = digits_value s.
Proof.
  intros A N R. unfold read_int. rewrite take_sign_digit by assumption. cbn [fst snd].
  rewrite take_digits_exact by assumption. cbn [fst]. destruct (digits_value s) as [v|]; [|reflexivity].
  f_equal. lia.
Qed.

(** C91: an integer is read back as it was. *)
Theorem read_int_to_string z : read_int (to_string z) = Some z.
Proof.
  unfold to_string. destruct (z <? 0)%Z eqn:E.
  - apply Z.ltb_lt in E. unfold read_int. cbn [append take_sign fst snd].
    rewrite <- (sapp_nil_r (dec (- z))). rewrite take_digits_exact by (try exact I; apply dec_digits; lia).
    cbn [fst]. rewrite dec_value by lia. f_equal. lia.
  - apply Z.ltb_ge in E. rewrite <- (sapp_nil_r (dec z)).
    rewrite read_int_digits; [now apply dec_value|now apply dec_digits|apply dec_nonempty|exact I].
Qed.

Lemma digits_from_shift s : forall acc v,
  digits_from 0 s = Some v ->
  digits_from acc s = Some (acc * 10 ^ Z.of_nat (String.length s) + v)%Z.
Proof.
  assert (G : forall acc a v, digits_from a s = Some v ->
            digits_from (a + acc) s = Some (acc * 10 ^ Z.of_nat (String.length s) + v)%Z).
  { induction s as [|c s IH]; intros acc a v; cbn [digits_from String.length].
    - intros H. injection H as <-. f_equal. simpl Z.of_nat. lia.
    - destruct (digit_value c) as [d|]; [|discriminate]. intros H.
      replace (10 * (a + acc) + d)%Z with ((10 * a + d) + 10 * acc)%Z by ring.
      rewrite (IH (10 * acc)%Z _ v H). f_equal.
      rewrite Nat2Z.inj_succ, Z.pow_succ_r by lia. ring. }
  intros acc v H. now apply (G acc 0%Z v).
Qed.

Lemma dec_loop_length f n :
  (0 <= n)%Z -> 1 < String.length (dec_loop f n) ->
  (10 ^ Z.of_nat (String.length (dec_loop f n) - 1) <= n)%Z.
Proof.
  revert n; induction f as [|f IH]; intros n N; cbn [dec_loop]; [simpl; lia|].
  destruct (n <? 10)%Z eqn:E; [simpl; lia|]. apply Z.ltb_ge in E. intros _.
  rewrite slength_app. cbn [String.length].
  replace (String.length (dec_loop f (n / 10)) + 1 - 1) with (String.length (dec_loop f (n / 10))) by lia.
  destruct (le_lt_dec (String.length (dec_loop f (n / 10))) 1) as [L|L].
  - destruct (String.length (dec_loop f (n / 10))) as [|[|k]]; [change (10 ^ Z.of_nat 0)%Z with 1%Z; lia|change (10 ^ Z.of_nat 1)%Z with 10%Z; lia|lia].
  - specialize (IH (n / 10)%Z (Z.div_pos n 10 N ltac:(lia)) L).
    remember (String.length (dec_loop f (n / 10))) as k. replace k with (S (k - 1)) by lia.
    rewrite Nat2Z.inj_succ, Z.pow_succ_r by lia.
    pose proof (Z.mul_div_le n 10 ltac:(lia)). lia.
Qed.

Lemma dec_length d m : (0 <= m < 10 ^ Z.of_nat d)%Z -> 1 <= d -> String.length (dec m) <= d.
Proof.
  intros (M & B) D. destruct (le_lt_dec (String.length (dec m)) d) as [L|L]; [exact L|].
  exfalso. unfold dec in *. pose proof (dec_loop_length (S (Z.to_nat (Z.log2 m))) m M (Nat.le_lt_trans _ _ _ D L)) as Q.
  assert (10 ^ Z.of_nat d <= 10 ^ Z.of_nat (String.length (dec_loop (S (Z.to_nat (Z.log2 m))) m) - 1))%Z.
  { apply Z.pow_le_mono_r; lia. }
  lia.
Qed.

Lemma zeros_length n : String.length (zeros n) = n.
Proof. induction n as [|n IH]; [reflexivity|]. cbn [zeros String.length]. now rewrite IH. Qed.

Lemma zeros_value n : digits_from 0 (zeros n) = Some 0%Z.
Proof. induction n as [|n IH]; [reflexivity|]. exact IH. Qed.

Lemma dec_from n : (0 <= n)%Z -> digits_from 0 (dec n) = Some n.
Proof.
  intros N. pose proof (dec_value n N) as H. unfold digits_value in H.
  destruct (dec n) eqn:E; [now apply dec_nonempty in E|exact H].
Qed.

Lemma pad_left_value d m :
  1 <= d -> (0 <= m < 10 ^ Z.of_nat d)%Z ->
  String.length (pad_left d (dec m)) = d /\ digits_from 0 (pad_left d (dec m)) = Some m.
Proof.
  intros D M. pose proof (dec_length d m M D) as L. unfold pad_left. split.
  - rewrite slength_app, zeros_length. lia.
  - rewrite digits_from_app, zeros_value. apply dec_from. lia.
Qed.

(** C91: a number printed with [d] decimals is read back as the nearest
    number with [d] decimals. *)
Theorem read_num_fixed d x :
  1 <= d ->
  exists n, read_num (fmt_fixed d x) = Some (IZR n / 10 ^ d)%R /\
    (Rabs (IZR n / 10 ^ d - x) <= / 2 / 10 ^ d)%R.
Proof.
  intros D. unfold fmt_fixed.
  set (u := (10 ^ Z.of_nat d)%Z). set (v := ZnearestE (Rabs x * IZR u)).
  assert (U : (0 < u)%Z) by apply fixed_scale_pos.
  assert (V : (0 <= v)%Z) by apply nearest_nonneg.
  assert (UR : IZR u = (10 ^ d)%R) by (unfold u; rewrite <- pow_IZR; reflexivity).
  assert (TP : (0 < 10 ^ d)%R) by (apply pow_lt; lra).
  set (ip := dec (v / u)). set (fp := pad_left d (dec (v mod u))).
  assert (A : all_digits ip) by (apply dec_digits, Z.div_pos; assumption).
  assert (N : ip <> "") by apply dec_nonempty.
  destruct (pad_left_value d (v mod u) D (Z.mod_pos_bound v u U)) as (LF & VF). fold fp in LF, VF.
  assert (B : all_digits fp) by (apply pad_left_digits, Z.mod_pos_bound, U).
  assert (W : digits_value (ip ++ fp) = Some v).
  { unfold digits_value. destruct (ip ++ fp) eqn:E; [apply sapp_eq_nil in E; now destruct E|].
    rewrite <- E. rewrite digits_from_app. unfold ip at 1. rewrite dec_from by (apply Z.div_pos; assumption).
    rewrite (digits_from_shift fp _ (v mod u)) by exact VF. rewrite LF. f_equal. fold u.
    pose proof (Z.div_mod v u ltac:(lia)). lia. }
  set (sg := if Rltb x 0 then (-1)%Z else 1%Z).
  assert (SG : take_sign ((if Rltb x 0 then "-" else "") ++ ip ++ "." ++ fp) = (sg, ip ++ "." ++ fp)).
  { unfold sg. destruct (Rltb x 0); [reflexivity|]. cbn [append]. now apply take_sign_digit. }
  exists (sg * v)%Z. split.
  - unfold read_num. rewrite SG. cbn [fst snd].
    rewrite take_digits_exact by (auto; reflexivity). cbn [fst snd append].
    assert (TF : take_digits fp = (fp, "")).
    { rewrite <- (sapp_nil_r fp) at 1. apply take_digits_exact; [exact B|exact I]. }
    rewrite TF. cbn [fst snd].
    rewrite W. cbn [read_exponent]. rewrite LF. f_equal. unfold Rdiv. f_equal.
    replace (0 - Z.of_nat d)%Z with (- Z.of_nat d)%Z by lia.
    rewrite powerRZ_neg' . rewrite <- pow_powerRZ. reflexivity.
  - assert (E : (Rabs (IZR v - Rabs x * 10 ^ d) <= / 2)%R).
    { rewrite <- UR. rewrite Rabs_minus_sym. apply Znearest_half. }
    assert (X : x = (IZR sg * Rabs x)%R).
    { unfold sg. destruct (Rltb x 0) eqn:L.
      - apply Rltb_spec in L. rewrite Rabs_left by exact L. lra.
      - apply Rltb_false in L. rewrite Rabs_pos_eq by exact L. lra. }
    assert (SA : Rabs (IZR sg) = 1%R).
    { unfold sg. destruct (Rltb x 0); [rewrite Rabs_left; lra|rewrite Rabs_pos_eq; lra]. }
    replace (IZR (sg * v) / 10 ^ d - x)%R with (IZR sg * (IZR v - Rabs x * 10 ^ d) / 10 ^ d)%R.
    2:{ rewrite mult_IZR. rewrite X at 2. field. lra. }
    unfold Rdiv. rewrite !Rabs_mult, SA, Rmult_1_l, (Rabs_pos_eq (/ 10 ^ d)).
    + apply Rmult_le_compat_r; [|exact E]. left. now apply Rinv_0_lt_compat.
    + left. now apply Rinv_0_lt_compat.
Qed.

(** So a number with at most [d] decimals is read back as it was. *)
Theorem read_num_fixed_exact d k :
  1 <= d -> read_num (fmt_fixed d (IZR k / 10 ^ d)) = Some (IZR k / 10 ^ d)%R.
Proof.
  intros D. destruct (read_num_fixed d (IZR k / 10 ^ d) D) as (n & -> & B).
  assert (TP : (0 < 10 ^ d)%R) by (apply pow_lt; lra).
  replace n with k; [reflexivity|].
  replace (IZR n / 10 ^ d - IZR k / 10 ^ d)%R with ((IZR n - IZR k) * / 10 ^ d)%R in B by (field; lra).
  rewrite Rabs_mult, (Rabs_pos_eq (/ 10 ^ d)) in B by (left; now apply Rinv_0_lt_compat).
  unfold Rdiv in B. apply Rmult_le_reg_r in B; [|now apply Rinv_0_lt_compat].
  rewrite <- minus_IZR, <- abs_IZR in B.
  assert (Z.abs (n - k) < 1)%Z by (apply lt_IZR; lra). lia.
Qed.

(* ------------------------------------------------------------------ *)
(** * The used-parameter file *)

(** The text a parameter set prints as it is. *)
Definition printed_texts (p : fparams) : list string :=
  let m := msr (core p) in
  let c := msc (core p) in
  (map (fun f => snd f p) text_fields ++
   [ npoint m; space m; shape m; wisdom_file_f c; wisdom_file_b c ])%list.

Lemma key_found k t : In (k, t) keys -> find_key k keys = Some t.
Proof.
  pose proof key_names_nodup as ND. revert ND. generalize keys. intros ks.
  induction ks as [|(j, u) ks IH]; intros ND H; [destruct H|]. cbn [find_key]. cbn [map fst] in ND.
  inversion ND as [|? ? NI ND']; subst. destruct H as [H|H].
  - injection H as -> ->. now rewrite String.eqb_refl.
  - destruct (String.eqb_spec j k) as [->|N]; [|now apply IH].
    exfalso. apply NI. change k with (fst (k, t)). now apply in_map.
Qed.

Fixpoint low (s : string) : Prop :=
  match s with "" => True | String c r => nat_of_ascii c < 65 /\ low r end.

Lemma low_app a b : low (a ++ b) <-> low a /\ low b.
Proof. induction a as [|c a IH]; simpl; [tauto|]. rewrite IH. tauto. Qed.

Lemma digits_low s : all_digits s -> low s.
Proof.
  induction s as [|c s IH]; [constructor|]. intros (H & D). cbn [low]. split; [|auto].
  unfold digit_value in H. cbv zeta in H.
  destruct ((48 <=? Z.of_nat (nat_of_ascii c))%Z && (Z.of_nat (nat_of_ascii c) <=? 57)%Z) eqn:E; [|congruence].
  apply andb_true_iff in E. destruct E as (_ & B). apply Z.leb_le in B. lia.
Qed.

Lemma to_string_low z : low (to_string z).
Proof.
  unfold to_string. destruct (z <? 0)%Z eqn:E.
  - apply Z.ltb_lt in E. apply low_app. split; [cbn; lia|]. apply digits_low, dec_digits. lia.
  - apply Z.ltb_ge in E. apply digits_low, dec_digits. lia.
Qed.

Lemma fmt_fixed_low d x : low (fmt_fixed d x).
Proof.
  unfold fmt_fixed. pose proof (fixed_scale_pos d) as U. pose proof (nearest_nonneg d x) as V.
  apply low_app. split; [destruct (Rltb x 0); cbn; lia|].
  apply low_app. split.
  - apply digits_low, dec_digits. apply Z.div_pos; assumption.
  - apply low_app. split; [cbn; lia|]. apply digits_low, pad_left_digits.
    apply Z.mod_pos_bound. exact U.
Qed.

(** Numbers name no parameter. *)
Lemma low_quiet s key : low s -> In key names -> ~ occurs key s.
Proof.
  intros L K (a & b & ->). apply low_app in L. destruct L as (_ & L). apply low_app in L.
  destruct L as (L & _).
  assert (C : forallb (fun k => match k with "" => false | String c _ => (65 <=? nat_of_ascii c)%nat end) names = true)
    by reflexivity.
  pose proof (proj1 (forallb_forall _ _) C key K) as C1. cbv beta in C1.
  destruct key as [|c r]; [discriminate|]. apply Nat.leb_le in C1. cbn [low] in L. lia.
Qed.

Section Used.
  Variable sci : R -> string.
  Variable flag : planner -> Z.
  Hypothesis sci_word : forall x, blank_free (sci x).

  Lemma printed_ok p :
    Forall blank_free (printed_texts p) ->
    Forall (fun kv => (word (fst kv) /\ hash_free (fst kv) /\ String.length (fst kv) < 1024) /\
                      blank_free (snd kv)) (printed sci flag p).
  Proof.
    intros H. apply Forall_forall. intros kv I.
    assert (N : In (fst kv) (map fst (printed sci flag p))) by now apply in_map.
    split.
    - assert (C : forallb (fun k => checks_head k && checks_name k)
                    (map fst (printed sci flag p)) = true) by reflexivity.
      pose proof (proj1 (forallb_forall _ _) C (fst kv) N) as C1. cbv beta in C1.
      apply andb_true_iff in C1. destruct C1 as (C1 & C2). unfold checks_head in C1.
      apply andb_true_iff in C1. destruct C1 as (C1 & C3). apply andb_true_iff in C1.
      destruct C1 as (C1 & C4). apply negb_true_iff in C1, C3. apply Nat.ltb_lt in C4.
      apply String.eqb_neq in C3. split; [split; [exact C3|]|split; assumption].
      unfold checks_name in C2. apply andb_true_iff in C2. destruct C2 as (_ & B). clear - B.
      induction (fst kv) as [|c k IH]; [exact Logic.I|]. apply andb_true_iff in B.
      destruct B as (X & B). apply negb_true_iff in X. simpl. auto.
    - rewrite Forall_forall in H. unfold printed in I. cbn [In] in I.
      repeat (destruct I as [<-|I];
        [cbn [snd]; first [apply fmt_fixed_blank_free | apply to_string_blank_free | apply sci_word
           | apply H; unfold printed_texts, text_fields; cbn [map snd app In]; tauto]|]).
      contradiction.
  Qed.

  Lemma last_given_exists k ls :
    (exists l v, In l ls /\ gives l k v) ->
    exists l1 l l2 v, ls = (l1 ++ l :: l2)%list /\ gives l k v /\ never_given k l2.
  Proof.
    induction ls as [|l ls IH]; intros (l0 & v & I & G); [contradiction|].
    assert (C : (exists l' v', In l' ls /\ gives l' k v') \/ never_given k ls).
    { clear. induction ls as [|l ls IH]; [right; constructor|].
      destruct (gives_dec l k) as [(v & G)|N]; [left; exists l, v; split; [now left|exact G]|].
      destruct IH as [(l' & v' & I & G)|NG]; [left; exists l', v'; split; [now right|exact G]|].
      right. now constructor. }
    destruct C as [C|NG].
    - destruct (IH C) as (l1 & l' & l2 & v' & -> & G' & NG). exists (l :: l1), l', l2, v'. auto.
    - destruct I as [<-|I].
      + exists [], l, ls, v. auto.
      + exfalso. unfold never_given in NG. rewrite Forall_forall in NG. exact (NG _ I v G).
  Qed.

  Lemma stake_length n s : String.length (stake n s) = Nat.min n (String.length s).
  Proof.
    revert s; induction n as [|n IH]; intros [|c s]; cbn [stake String.length Nat.min]; try reflexivity.
    now rewrite IH.
  Qed.

  Lemma to_string_not_scheme z : ~ In (to_string z) ["ngp"; "cic"; "tsc"; "pcs"].
  Proof.
    assert (G : forall s, all_digits s -> ~ In s ["ngp"; "cic"; "tsc"; "pcs"]).
    { intros s A I. cbn [In] in I.
      repeat (destruct I as [<-|I]; [destruct A as (A & _); now apply A|]). contradiction. }
    unfold to_string. destruct (z <? 0)%Z eqn:E.
    - intros I. cbn [In append] in I. repeat (destruct I as [I|I]; [discriminate|]). contradiction.
    - apply Z.ltb_ge in E. now apply G, dec_digits.
  Qed.

  (** C91 as stated fails for every parameter set: the program rejects the
      file of used parameters that it wrote itself. *)
  Theorem used_file_rejected fuel b mem p0 p :
    Forall blank_free (printed_texts p) ->
    forall q, read_from_file fuel b mem p0 (print_to_file sci flag p) <> Ok q.
  Proof.
    intros BF q E. unfold read_from_file in E. apply bind_ok in E. destruct E as (r & E & V).
    unfold validate_all in V. apply bind_ok in V. destruct V as (c & V & _).
    rewrite validate_eq in V. apply bind_ok in V. destruct V as (h & V & _).
    destruct (head_parts _ _ _ _ V) as (_ & (s & MS & _) & _).
    pose proof (proj1 (mesh_strings_ok _) (ex_intro _ s MS)) as (_ & _ & SC & _).
    change (In (assignment (smp (core r))) ["ngp"; "cic"; "tsc"; "pcs"]) in SC. clear V MS s h c.
    pose proof (printed_ok p BF) as PO.
    assert (T : text_lines (print_to_file sci flag p) = map line_of (printed sci flag p)).
    { apply print_lines_text. eapply Forall_impl; [|exact PO]. cbv beta.
      intros kv (((_ & ?) & _) & ?). auto. }
    assert (SN : Forall sane (text_lines (print_to_file sci flag p))).
    { rewrite T. apply Forall_map. eapply Forall_impl; [|exact PO]. cbv beta.
      intros (n, v) ((W & _ & L) & B). now apply line_sane. }
    set (L := printed sci flag p) in *.
    assert (SP : L = (firstn 21 L ++ skipn 21 L)%list) by (symmetry; apply firstn_skipn).
    assert (KA : In "assignment" names) by (apply (find_key_name _ (Word wide 16)); reflexivity).
    assert (PO2 : Forall (fun kv => (word (fst kv) /\ hash_free (fst kv) /\ String.length (fst kv) < 1024) /\
                      blank_free (snd kv)) (skipn 21 L)).
    { rewrite SP in PO. now apply Forall_app in PO. }
    destruct (last_given_exists "assignment" (map line_of (skipn 21 L))) as (l1 & l & l2 & v & LE & G & NG).
    { set (kv := ("assignment_order", to_string (assignment_order (smp (core p))))).
      exists (line_of kv), (snd kv). assert (I : In kv (skipn 21 L)) by (left; reflexivity).
      split; [now apply in_map|]. rewrite Forall_forall in PO2.
      destruct (PO2 _ I) as ((W & H & _) & B). unfold kv in *. cbn [fst snd] in *.
      apply (line_gives _ _ "assignment" _ W H B KA). split; [reflexivity|]. split.
      - unfold to_string. destruct (_ <? 0)%Z; [discriminate|apply dec_nonempty].
      - left. exists "", "_order". reflexivity. }
    assert (LG : last_given "assignment" (text_lines (print_to_file sci flag p)) v).
    { rewrite T, SP, map_app, LE. exists (map line_of (firstn 21 L) ++ l1)%list, l, l2.
      split; [now rewrite <- app_assoc|]. auto. }
    destruct (file_text mem p0 _ r SN E "assignment" true (fun p => assignment (smp (core p)))) as (A & _).
    { unfold text_fields. cbn [In]. tauto. }
    destruct (A v LG) as (w & cap & KI & EQ). cbv beta in EQ. rewrite EQ in SC.
    pose proof (keys_width _ KI) as WD. cbn [snd usual_width] in WD.
    assert (IL : In l (map line_of (skipn 21 L))) by (rewrite LE; apply in_app_iff; right; now left).
    apply in_map_iff in IL. destruct IL as ((n, v') & <- & IL).
    rewrite Forall_forall in PO2. destruct (PO2 _ IL) as ((W & H & _) & B). cbn [fst snd] in *.
    apply (line_gives n v' "assignment" v W H B KA) in G. destruct G as (-> & NE & OC).
    assert (Short : String.length (clip w v') = 3).
    { cbn [In] in SC. repeat (destruct SC as [<-|SC]; [reflexivity|]). contradiction. }
    assert (Long : ~ occurs "assignment" v').
    { intros (x & y & ->). destruct WD as [-> | ->]; cbn [clip wide] in Short;
        rewrite ?stake_length, ?slength_app in Short; cbn [String.length] in Short; lia. }
    destruct OC as [OC|OC]; [|contradiction].
    assert (NO : n = "assignment_order").
    { assert (C : forallb (fun k => (k =? "assignment_order") ||
                    match sfind "assignment" k with None => true | Some _ => false end)
                    (map fst (skipn 21 L)) = true) by reflexivity.
      pose proof (proj1 (forallb_forall _ _) C n (in_map fst _ _ IL)) as C1. cbv beta in C1.
      apply orb_true_iff in C1. destruct C1 as [C1|C1]; [now apply String.eqb_eq|].
      destruct (sfind "assignment" n) eqn:F; [discriminate|]. apply sfind_none in F. contradiction. }
    subst n.
    assert (VO : v' = to_string (assignment_order (smp (core p)))).
    { unfold L in IL. cbn [skipn printed In] in IL.
      repeat (destruct IL as [IL|IL]; [first [discriminate IL | now injection IL]|]). contradiction. }
    subst v'.
    assert (CE : clip w (to_string (assignment_order (smp (core p)))) = to_string (assignment_order (smp (core p)))).
    { destruct WD as [-> | ->]; cbn [clip wide]; [reflexivity|]. cbn [clip wide] in Short.
      rewrite stake_length in Short. apply stake_all. lia. }
    rewrite CE in SC. now apply to_string_not_scheme in SC.
  Qed.

  (** The file without the line that spoils it. *)
  Definition used_lines (p : fparams) : list (string * string) :=
    filter (fun kv => negb (fst kv =? "assignment_order")) (printed sci flag p).

  Lemma used_names p :
    NoDup (map fst (used_lines p)) /\
    forall kv key, In kv (used_lines p) -> In key names -> occurs key (fst kv) -> key = fst kv.
  Proof.
    split.
    - replace (map fst (used_lines p)) with (nodup string_dec (map fst (used_lines p))) by reflexivity.
      apply NoDup_nodup.
    - intros kv key I K O.
      assert (C : forallb (fun n => forallb (fun a => if a =? n then true else
                    match sfind a n with Some _ => false | None => true end) names)
                    (map fst (used_lines p)) = true) by reflexivity.
      pose proof (proj1 (forallb_forall _ _) C (fst kv) (in_map fst _ _ I)) as C1. cbv beta in C1.
      pose proof (proj1 (forallb_forall _ _) C1 key K) as C2. cbv beta in C2.
      destruct (key =? fst kv) eqn:E; [now apply String.eqb_eq|].
      destruct (sfind key (fst kv)) eqn:F; [discriminate|]. apply sfind_none in F. contradiction.
  Qed.

  Lemma used_in p kv : In kv (used_lines p) -> In kv (printed sci flag p).
  Proof.
    assert (F : forall (f : string * string -> bool) l, In kv (filter f l) -> In kv l).
    { intros f l I. apply filter_In in I. exact (proj1 I). }
    exact (F (fun kv => negb (fst kv =? "assignment_order")) (printed sci flag p)).
  Qed.

  Lemma used_has p kv :
    In kv (printed sci flag p) -> (fst kv =? "assignment_order") = false -> In kv (used_lines p).
  Proof.
    assert (F : forall (f : string * string -> bool) l, In kv l -> f kv = true -> In kv (filter f l)).
    { intros f l I H. apply filter_In. split; assumption. }
    intros I H. refine (F (fun kv => negb (fst kv =? "assignment_order")) (printed sci flag p) I _).
    now rewrite H.
  Qed.

  Lemma used_cutoff p : ~ In "cutoff_nyq" (map fst (used_lines p)).
  Proof.
    assert (C : existsb (String.eqb "cutoff_nyq") (map fst (used_lines p)) = false) by reflexivity.
    intros I. assert (T : existsb (String.eqb "cutoff_nyq") (map fst (used_lines p)) = true).
    { apply existsb_exists. exists "cutoff_nyq". split; [exact I|apply String.eqb_refl]. }
    rewrite C in T. discriminate T.
  Qed.

  Local Opaque used_lines.

  Lemma word_field p kv w cap :
    In (fst kv, Word w cap) keys -> In kv (printed sci flag p) ->
    exists keep get, In (fst kv, keep, get) text_fields /\ snd kv = get p.
  Proof.
    intros K I. apply key_found in K.
    unfold printed in I. cbn [In] in I.
    repeat (destruct I as [<-|I];
      [first [exfalso; cbv in K; discriminate K
             |cbn [fst snd]; unfold text_fields; do 2 eexists; split;
                [cbn [In]; repeat (first [left; reflexivity|right])|reflexivity]]|]).
    contradiction.
  Qed.

  (** No value mentions a parameter's name. *)
  Definition quiet_values (p : fparams) : Prop :=
    forall kv key, In kv (used_lines p) -> In key names -> ~ occurs key (snd kv).

  Lemma used_gives p kv key w :
    Forall blank_free (printed_texts p) -> quiet_values p ->
    In kv (used_lines p) -> In key names ->
    gives (line_of kv) key w <-> w = snd kv /\ snd kv <> "" /\ key = fst kv.
  Proof.
    intros BF Q I K. pose proof (used_in p kv I) as I'.
    pose proof (printed_ok p BF) as PO. rewrite Forall_forall in PO.
    destruct (PO kv I') as ((W & H & _) & B). specialize (Q kv key I K).
    pose proof (proj2 (used_names p) kv key I K) as U. destruct kv as (n, v). cbn [fst snd] in *.
    rewrite (line_gives n v key w W H B K). split.
    - intros (-> & NE & [O|O]); [|contradiction]. auto.
    - intros (-> & NE & ->). repeat split; auto. left. exists "", "". now rewrite sapp_nil_r.
  Qed.

  Lemma used_last p key v :
    Forall blank_free (printed_texts p) -> quiet_values p ->
    In key names -> In (key, v) (used_lines p) -> v <> "" ->
    last_given key (map line_of (used_lines p)) v.
  Proof.
    intros BF Q K I NE. pose proof (proj1 (used_names p)) as ND.
    assert (G : forall kv w, In kv (used_lines p) -> gives (line_of kv) key w -> key = fst kv).
    { intros kv w Ik Gk. apply (used_gives p kv key w BF Q Ik K) in Gk. exact (proj2 (proj2 Gk)). }
    assert (GV : gives (line_of (key, v)) key v) by (apply (used_gives p (key, v) key v BF Q I K); auto).
    apply in_split in I. destruct I as (a & b & E). rewrite E in *. rewrite map_app in *. cbn [map fst] in *.
    exists (map line_of a), (line_of (key, v)), (map line_of b). split; [reflexivity|]. split; [exact GV|].
    apply Forall_map, Forall_forall. intros kv Ib w Gw.
    assert (key = fst kv).
    { apply (G kv w); [|exact Gw]. apply in_app_iff. right. now right. }
    apply NoDup_remove_2 in ND. apply ND, in_app_iff. right. subst key. now apply in_map.
  Qed.

  Lemma used_never p key :
    Forall blank_free (printed_texts p) -> quiet_values p ->
    In key names -> ~ In key (map fst (used_lines p)) ->
    never_given key (map line_of (used_lines p)).
  Proof.
    intros BF Q K N. apply Forall_map, Forall_forall. intros kv I w G.
    apply (used_gives p kv key w BF Q I K) in G. destruct G as (_ & _ & ->). apply N. now apply in_map.
  Qed.

  (** Which is a matter of the texts alone. *)
  Lemma quiet_texts p :
    (forall x key, In key names -> ~ occurs key (sci x)) ->
    Forall (fun t => forall key, In key names -> ~ occurs key t) (printed_texts p) ->
    quiet_values p.
  Proof.
    intros S F kv key I K. apply used_in in I. rewrite Forall_forall in F.
    specialize (fun t H => F t H key K). unfold printed in I. cbn [In] in I.
    repeat (destruct I as [<-|I];
      [cbn [fst snd];
       first [apply low_quiet; [first [apply to_string_low|apply fmt_fixed_low]|exact K]
             |apply (S _ _ K)
             |apply F; unfold printed_texts, text_fields; cbv zeta; cbn [map snd app In]; tauto]|]).
    contradiction.
  Qed.

  (** It is read to the end when every text fits the variable it is read
      into. *)
  Theorem used_file_reads mem p0 p :
    Forall blank_free (printed_texts p) -> quiet_values p ->
    (forall key keep get w cap, In (key, keep, get) text_fields -> In (key, Word w cap) keys ->
       (Z.of_nat (String.length (get p)) < cap)%Z) ->
    exists q, parse_file mem p0 (print_lines (used_lines p)) = Ok q.
  Proof.
    intros BF Q F. pose proof (printed_ok p BF) as PO.
    assert (PU : Forall (fun kv => (word (fst kv) /\ hash_free (fst kv) /\ String.length (fst kv) < 1024) /\
                      blank_free (snd kv)) (used_lines p)).
    { rewrite Forall_forall in *. intros kv I. apply PO. now apply used_in. }
    assert (T : text_lines (print_lines (used_lines p)) = map line_of (used_lines p)).
    { apply print_lines_text. eapply Forall_impl; [|exact PU]. cbv beta.
      intros kv (((_ & ?) & _) & ?). auto. }
    apply fits_read; rewrite T.
    - apply Forall_map. eapply Forall_impl; [|exact PU]. cbv beta.
      intros (n, v) ((W & _ & L) & B). now apply line_sane.
    - intros l k v w cap I G K. apply in_map_iff in I. destruct I as (kv & <- & I).
      assert (KN : In k names) by (change k with (fst (k, Word w cap)); now apply in_map).
      apply (used_gives p kv k v BF Q I KN) in G. destruct G as (-> & _ & ->).
      apply Z.le_lt_trans with (Z.of_nat (String.length (snd kv))).
      { apply Nat2Z.inj_le. unfold clip. destruct w; [rewrite stake_length; lia|lia]. }
      apply used_in in I.
      assert (TF : exists keep get, In (fst kv, keep, get) text_fields /\ snd kv = get p).
      { apply word_field with (1 := K). exact I. }
      destruct TF as (keep & get & TF & ->). exact (F _ _ _ _ _ TF K).
  Qed.

  Lemma fmt_fixed_nonempty d x : fmt_fixed d x <> "".
  Proof.
    unfold fmt_fixed. destruct (Rltb x 0); [discriminate|]. cbn [append]. intros E.
    apply sapp_eq_nil in E. destruct E as (E & _). now apply dec_nonempty in E.
  Qed.

  Lemma to_string_nonempty z : to_string z <> "".
  Proof. unfold to_string. destruct (z <? 0)%Z; [discriminate|apply dec_nonempty]. Qed.

  (** C91: read without that line, a used-parameter file gives back every
      text (of less than 1024 characters) and every integer; numbers come
      back rounded, to four decimals, or three for the box; the Nyquist
      cutoff is not in the file. *)
  Theorem used_file_parsed mem p0 p q :
    Forall blank_free (printed_texts p) -> quiet_values p ->
    parse_file mem p0 (print_lines (used_lines p)) = Ok q ->
    (forall key keep get, In (key, keep, get) text_fields ->
       get p <> "" -> String.length (get p) < 1024 -> get q = get p) /\
    (forall key get, In (key, get) (int_fields ++ grid_fields) -> get q = get p) /\
    (forall key get, In (key, get) (num_fields ++ box_fields) -> key <> "cutoff_nyq" ->
       exists d n, (d = 3 /\ In (key, get) box_fields \/ d = 4 /\ In (key, get) num_fields) /\
         get q = (IZR n / 10 ^ d)%R /\ (Rabs (get q - get p) <= / 2 / 10 ^ d)%R) /\
    cutoff_nyq (smp (core q)) = cutoff_nyq (smp (core p0)).
  Proof.
    intros BF Q E. pose proof (printed_ok p BF) as PO.
    assert (PU : Forall (fun kv => (word (fst kv) /\ hash_free (fst kv) /\ String.length (fst kv) < 1024) /\
                      blank_free (snd kv)) (used_lines p)).
    { rewrite Forall_forall in *. intros kv I. apply PO. now apply used_in. }
    assert (T : text_lines (print_lines (used_lines p)) = map line_of (used_lines p)).
    { apply print_lines_text. eapply Forall_impl; [|exact PU]. cbv beta.
      intros kv (((_ & ?) & _) & ?). auto. }
    assert (SN : Forall sane (text_lines (print_lines (used_lines p)))).
    { rewrite T. apply Forall_map. eapply Forall_impl; [|exact PU]. cbv beta.
      intros (n, v) ((W & _ & L) & B). now apply line_sane. }
    pose proof (file_text mem p0 _ q SN E) as FT.
    pose proof (file_numbers mem p0 _ q SN E) as (FN & FI).
    pose proof (file_box mem p0 _ q SN E) as (FB & FG).
    rewrite T in FT, FN, FI, FB, FG. split; [|split; [|split]].
    - intros key keep get H NE L. pose proof (text_field_name _ _ _ H) as K.
      assert (I : In (key, get p) (used_lines p)).
      { unfold text_fields in H. cbn [In] in H.
        repeat (destruct H as [H|H]; [injection H as <- <- <-; apply used_has; [unfold printed; cbn [In]; tauto|reflexivity]|]).
        contradiction. }
      destruct (FT key keep get H) as (A & _).
      destruct (A _ (used_last p key _ BF Q K I NE)) as (w & cap & KI & ->).
      pose proof (keys_width _ KI) as W. cbn [snd usual_width] in W.
      destruct W as [-> | ->]; cbn [clip wide]; [reflexivity|]. apply stake_all. lia.
    - intros key get H. pose proof (int_field_name _ _ H) as K.
      assert (I : In (key, to_string (get p)) (used_lines p)).
      { unfold int_fields, grid_fields in H. cbn [In app] in H.
        repeat (destruct H as [H|H]; [injection H as <- <-; apply used_has; [unfold printed; cbn [In]; tauto|reflexivity]|]).
        contradiction. }
      pose proof (used_last p key _ BF Q K I (to_string_nonempty _)) as LG.
      pose proof (last_given_read read_int key _ _ _ LG (read_int_to_string _)) as LR.
      apply in_app_iff in H. destruct H as [H|H]; [now apply (FI key get H)|now apply (FG key get H)].
    - intros key get H NC. pose proof (num_field_name _ _ H) as K.
      assert (C : exists d, (d = 3 /\ In (key, get) box_fields \/ d = 4 /\ In (key, get) num_fields) /\
                  1 <= d /\ In (key, fmt_fixed d (get p)) (used_lines p)).
      { apply in_app_iff in H. destruct H as [H|H]; [exists 4|exists 3]; (split; [tauto|]; split; [lia|]).
        - unfold num_fields in H. cbn [In] in H.
          repeat (destruct H as [H|H]; [injection H as <- <-; first [exfalso; now apply NC | apply used_has; [unfold printed; cbn [In]; tauto|reflexivity]]|]).
          contradiction.
        - unfold box_fields in H. cbn [In] in H.
          repeat (destruct H as [H|H]; [injection H as <- <-; apply used_has; [unfold printed; cbn [In]; tauto|reflexivity]|]).
          contradiction. }
      destruct C as (d & Hd & D & I).
      pose proof (used_last p key _ BF Q K I (fmt_fixed_nonempty _ _)) as LG.
      destruct (read_num_fixed d (get p) D) as (n & RD & B).
      pose proof (last_given_read read_num key _ _ _ LG RD) as LR.
      assert (G : get q = (IZR n / 10 ^ d)%R).
      { apply in_app_iff in H. destruct H as [H|H]; [now apply (FN key get H)|now apply (FB key get H)]. }
      exists d, n. split; [exact Hd|]. split; [exact G|]. now rewrite G.
    - apply (FN "cutoff_nyq" (fun p => cutoff_nyq (smp (core p)))).
      + unfold num_fields. cbn [In]. tauto.
      + apply never_given_read, used_never; auto.
        * apply (find_key_name _ Number). reflexivity.
        * apply used_cutoff.
  Qed.
End Used.

(* ------------------------------------------------------------------ *)
(** * A concrete case *)

Definition run : fparams :=
  {| core := demo "powspec" "diag" "false" "measure" "mock.dat" (T3 1000 1000 1000)%R
               (T3 64 64 64)%Z 0%R;
     catalogue_columns := "x,y,z,nz"; catalogue_dataset := ""; i_wa := 0; j_wa := 0;
     verbose := 20; progbar := "false" |}.

Lemma run_texts :
  Forall blank_free (printed_texts run) /\
  Forall (fun t => forall key, In key names -> ~ occurs key t) (printed_texts run).
Proof.
  split.
  - cbv [printed_texts run]. repeat constructor.
  - apply Forall_forall. intros t I key K O.
    assert (C : forallb (fun t => forallb (fun a => match sfind a t with Some _ => false | None => true end) names)
                  (printed_texts run) = true) by reflexivity.
    pose proof (proj1 (forallb_forall _ _) C t I) as C1. cbv beta in C1.
    pose proof (proj1 (forallb_forall _ _) C1 key K) as C2. cbv beta in C2.
    destruct (sfind key t) eqn:E; [discriminate|]. apply sfind_none in E. contradiction.
Qed.

Example used_file_case mem p0 :
  let sci := fun _ => "1.000000e+09" in
  let flag := fun _ => 0%Z in
  (forall fuel b q, read_from_file fuel b mem p0 (print_to_file sci flag run) <> Ok q) /\
  exists q, parse_file mem p0 (print_lines (used_lines sci flag run)) = Ok q /\
    data_file (pths (core q)) = "mock.dat" /\ assignment (smp (core q)) = "tsc" /\
    ngrid (smp (core q)) = T3 64%Z 64%Z 64%Z /\ verbose q = 20%Z /\
    (Rabs (ax0 (boxsize (smp (core q))) - 1000) <= / 2 / 10 ^ 3)%R.
Proof.
  intros sci flag. destruct run_texts as (BF & QT).
  assert (SW : forall x, blank_free (sci x)) by (intros x; cbv; repeat split).
  assert (Q : quiet_values sci flag run).
  { apply quiet_texts; auto. intros x key K O. unfold sci in O.
    assert (C : forallb (fun a => match sfind a "1.000000e+09" with Some _ => false | None => true end) names = true)
      by reflexivity.
    pose proof (proj1 (forallb_forall _ _) C key K) as C1. cbv beta in C1.
    destruct (sfind key "1.000000e+09") eqn:E; [discriminate|]. apply sfind_none in E. contradiction. }
  split; [intros fuel b q; now apply used_file_rejected|].
  destruct (used_file_reads sci flag SW mem p0 run BF Q) as (q & E).
  { intros key keep get w cap H K. apply key_found in K. unfold text_fields in H. cbn [In] in H.
    repeat (destruct H as [H|H]; [injection H as <- <- <-; cbv in K; injection K as <- <-; reflexivity|]).
    contradiction. }
  exists q. split; [exact E|].
  destruct (used_file_parsed sci flag SW mem p0 run q BF Q E) as (T & NI & N & _).
  split.
  { apply (T "data_catalogue_file" false (fun p => data_file (pths (core p)))).
    - unfold text_fields. cbn [In]. tauto.
    - discriminate.
    - cbn. lia. }
  split.
  { apply (T "assignment" true (fun p => assignment (smp (core p)))).
    - unfold text_fields. cbn [In]. tauto.
    - discriminate.
    - cbn. lia. }
  split.
  { assert (H : forall key get, In (key, get) grid_fields -> get q = get run).
    { intros key get H. apply (NI key get). apply in_app_iff. now right. }
    destruct (ngrid (smp (core q))) as [n0 n1 n2] eqn:EN.
    pose proof (H "ngrid_x" (fun p => ax0 (ngrid (smp (core p)))) ltac:(unfold grid_fields; cbn [In]; tauto)) as H0.
    pose proof (H "ngrid_y" (fun p => ax1 (ngrid (smp (core p)))) ltac:(unfold grid_fields; cbn [In]; tauto)) as H1.
    pose proof (H "ngrid_z" (fun p => ax2 (ngrid (smp (core p)))) ltac:(unfold grid_fields; cbn [In]; tauto)) as H2.
    cbv beta in H0, H1, H2. rewrite EN in H0, H1, H2. cbn in H0, H1, H2. now subst. }
  split.
  { apply (NI "verbose" verbose). apply in_app_iff. left. unfold int_fields. cbn [In]. tauto. }
  destruct (N "boxsize_x" (fun p => ax0 (boxsize (smp (core p))))) as (d & n & D & _ & B).
  - apply in_app_iff. right. unfold box_fields. cbn [In]. tauto.
  - discriminate.
  - destruct D as [(-> & _)|(_ & D)]; [exact B|]. exfalso. unfold num_fields in D. cbn [In] in D.
    repeat (destruct D as [D|D]; [discriminate D|]). contradiction.
Qed.

Print Assumptions read_int_to_string.
Print Assumptions read_num_fixed.
Print Assumptions read_num_fixed_exact.
Print Assumptions used_file_rejected.
Print Assumptions used_file_reads.
Print Assumptions used_file_parsed.
