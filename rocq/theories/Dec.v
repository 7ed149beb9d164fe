(* Decimal text of integers, as written by std::to_string, "%d" and Python's
   "{:d}", and its numerical value. *)
From Coq Require Import String Ascii List ZArith Lia Bool.
From Verif Require Import Base StrModel StrProps.
Import ListNotations.
Local Open Scope string_scope.
Local Open Scope Z_scope.

Definition digit (n : Z) : ascii := ascii_of_nat (48 + Z.to_nat n).

Fixpoint dec_loop (fuel : nat) (n : Z) : string :=
  match fuel with
  | O => ""
  | S f =>
      if n <? 10 then String (digit n) ""
      else dec_loop f (n / 10) ++ String (digit (n mod 10)) ""
  end.

(** Digits of a non-negative integer. *)
Definition dec (n : Z) : string := dec_loop (S (Z.to_nat (Z.log2 n))) n.

(** `std::to_string(int)`, "%d", f"{n:d}". *)
Definition to_string (z : Z) : string :=
  if z <? 0 then "-" ++ dec (- z) else dec z.

(** Value of a digit string, [None] if it is empty or has another character. *)
Definition digit_value (c : ascii) : option Z :=
  let n := Z.of_nat (nat_of_ascii c) in
  if (48 <=? n) && (n <=? 57) then Some (n - 48) else None.

Fixpoint digits_from (acc : Z) (s : string) : option Z :=
  match s with
  | EmptyString => Some acc
  | String c t => match digit_value c with
                  | Some d => digits_from (10 * acc + d) t
                  | None => None
                  end
  end.

Definition digits_value (s : string) : option Z :=
  match s with EmptyString => None | _ => digits_from 0 s end.

Arguments digit : simpl never.
Arguments digit_value : simpl never.
Arguments Z.mul : simpl never.

Lemma digit_value_digit n : 0 <= n < 10 -> digit_value (digit n) = Some n.
Proof.
  intros H. unfold digit_value, digit. rewrite nat_ascii_embedding by lia.
  rewrite Nat2Z.inj_add, Z2Nat.id by lia. change (Z.of_nat 48) with 48.
  replace ((48 <=? 48 + n) && (48 + n <=? 57)) with true; [f_equal; lia|].
  symmetry. apply andb_true_iff. split; apply Z.leb_le; lia.
Qed.

Lemma digits_from_app acc a b :
  digits_from acc (a ++ b) =
  match digits_from acc a with Some v => digits_from v b | None => None end.
Proof.
  revert acc; induction a as [|c a IH]; intros acc; simpl; [reflexivity|].
  destruct (digit_value c); [apply IH | reflexivity].
Qed.

Lemma log2_div10 n : 10 <= n -> Z.log2 (n / 10) < Z.log2 n.
Proof.
  intros H. assert (0 < n / 10) by (apply Z.div_str_pos; lia).
  apply Z.log2_lt_pow2; [assumption|].
  apply Z.div_lt_upper_bound; [lia|].
  destruct (Z.log2_spec n) as (_ & U); [lia|]. rewrite Z.pow_succ_r in U by apply Z.log2_nonneg.
  lia.
Qed.

Lemma dec_loop_value fuel n acc :
  0 <= n -> (Z.to_nat (Z.log2 n) < fuel)%nat ->
  exists k, 0 < k /\ digits_from acc (dec_loop fuel n) = Some (acc * k + n).
Proof.
  revert n acc; induction fuel as [|f IH]; intros n acc N L; [lia|]. cbn [dec_loop].
  destruct (Z.ltb_spec n 10) as [H|H].
  - exists 10. split; [lia|]. cbn [digits_from]. rewrite digit_value_digit by lia. f_equal. lia.
  - pose proof (log2_div10 n H) as D. pose proof (Z.log2_nonneg n).
    pose proof (Z.log2_nonneg (n / 10)).
    destruct (IH (n / 10) acc) as (k & K & E); [apply Z.div_pos; lia | lia |].
    exists (10 * k). split; [lia|]. rewrite digits_from_app, E. cbn [digits_from].
    rewrite digit_value_digit by (apply Z.mod_pos_bound; lia). f_equal.
    pose proof (Z.div_mod n 10). lia.
Qed.

Lemma dec_loop_nonempty f n : dec_loop (S f) n <> "".
Proof.
  cbn [dec_loop]. destruct (n <? 10); [discriminate|]. intros E.
  apply sapp_eq_nil in E. destruct E as (_ & E). discriminate.
Qed.

(** The text of a non-negative integer reads back as that integer. *)
Theorem dec_value n : 0 <= n -> digits_value (dec n) = Some n.
Proof.
  intros N. unfold digits_value. destruct (dec n) eqn:E.
  - exfalso. exact (dec_loop_nonempty _ _ E).
  - rewrite <- E. destruct (dec_loop_value (S (Z.to_nat (Z.log2 n))) n 0 N) as (k & _ & H);
      [lia|]. unfold dec. rewrite H. f_equal.
Qed.

Theorem dec_inj m n : 0 <= m -> 0 <= n -> dec m = dec n -> m = n.
Proof.
  intros M N E. apply dec_value in M, N. rewrite E, N in M. now injection M.
Qed.

(** Every character of the text is a digit. *)
Fixpoint all_digits (s : string) : Prop :=
  match s with
  | EmptyString => True
  | String c t => digit_value c <> None /\ all_digits t
  end.

Lemma all_digits_app a b : all_digits (a ++ b) <-> all_digits a /\ all_digits b.
Proof. induction a as [|c a IH]; simpl; tauto. Qed.

Lemma digits_from_all acc s v : digits_from acc s = Some v -> all_digits s.
Proof.
  revert acc; induction s as [|c s IH]; intros acc; simpl; [auto|].
  destruct (digit_value c) eqn:D; [|discriminate]. intros H. split; [congruence|]. eauto.
Qed.

Lemma dec_digits n : 0 <= n -> all_digits (dec n).
Proof.
  intros N. pose proof (dec_value n N) as H. unfold digits_value in H.
  destruct (dec n); [exact I|]. eapply digits_from_all; exact H.
Qed.

Lemma dec_nonempty n : dec n <> "".
Proof. apply dec_loop_nonempty. Qed.

Lemma to_string_nonneg n : 0 <= n -> to_string n = dec n.
Proof. intros H. unfold to_string. destruct (Z.ltb_spec n 0); [lia | reflexivity]. Qed.

Lemma minus_not_digit : digit_value "-"%char = None.
Proof. reflexivity. Qed.

Theorem to_string_inj m n : to_string m = to_string n -> m = n.
Proof.
  unfold to_string. destruct (Z.ltb_spec m 0) as [M|M], (Z.ltb_spec n 0) as [N|N]; intros E.
  - apply sapp_inv_head in E. apply dec_inj in E; lia.
  - exfalso. pose proof (dec_digits n N) as D. rewrite <- E in D. now destruct D.
  - exfalso. pose proof (dec_digits m M) as D. rewrite E in D. now destruct D.
  - apply dec_inj; assumption.
Qed.

Lemma dec_small n : 0 <= n < 10 -> dec n = String (digit n) "".
Proof.
  intros H. unfold dec. cbn [dec_loop]. destruct (Z.ltb_spec n 10); [reflexivity | lia].
Qed.

Lemma dec_two n : 10 <= n < 100 -> dec n = String (digit (n / 10)) (String (digit (n mod 10)) "").
Proof.
  intros H. unfold dec. cbn [dec_loop]. destruct (Z.ltb_spec n 10); [lia|].
  assert (L : 3 <= Z.log2 n) by (apply Z.log2_le_pow2; lia).
  destruct (Z.to_nat (Z.log2 n)) as [|f] eqn:F; [lia|]. cbn [dec_loop].
  assert (0 <= n / 10 < 10).
  { split; [apply Z.div_pos; lia | apply Z.div_lt_upper_bound; lia]. }
  destruct (Z.ltb_spec (n / 10) 10); [reflexivity | lia].
Qed.

Example dec_case : to_string 0 = "0" /\ to_string 1234 = "1234" /\ to_string (-17) = "-17".
Proof. repeat split. Qed.

Print Assumptions dec_value.
Print Assumptions to_string_inj.
