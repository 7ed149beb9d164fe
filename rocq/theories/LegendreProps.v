(* Legendre polynomials, their moments and the multipoles of a function of
   the cosine.  Mathematics only: nothing here mirrors a /repo function. *)
From Coq Require Import Reals ZArith List Lia Lra Bool.
From Coquelicot Require Import Coquelicot.
Import ListNotations.
Open Scope R_scope.

(** The Legendre polynomial of degree n, by Bonnet's recurrence
    (n + 2) P_{n+2} = (2n + 3) x P_{n+1} - (n + 1) P_n. *)
Fixpoint leg (n : nat) (x : R) : R :=
  match n with
  | O => 1
  | S m => match m with
           | O => x
           | S k => ((2 * INR k + 3) * x * leg m x - (INR k + 1) * leg k x) / (INR k + 2)
           end
  end.

(** The mean of a function of the cosine. *)
Definition mean (f : R -> R) : R := RInt f (-1) 1 / 2.

(** The multipole of degree l of a function of the cosine. *)
Definition pole (l : nat) (f : R -> R) : R :=
  (2 * INR l + 1) * mean (fun x => f x * leg l x).

Lemma leg_SS n x :
  leg (S (S n)) x = ((2 * INR n + 3) * x * leg (S n) x - (INR n + 1) * leg n x) / (INR n + 2).
Proof. reflexivity. Qed.

Lemma mul_cont (f g : R -> R) (x : R) : continuous f x -> continuous g x -> continuous (fun y => f y * g y) x.
Proof. apply (continuous_mult (K := R_AbsRing)). Qed.

Lemma add_cont (f g : R -> R) (x : R) : continuous f x -> continuous g x -> continuous (fun y => f y + g y) x.
Proof. apply (continuous_plus (V := R_NormedModule)). Qed.

Lemma leg_cont2 n : forall x : R, continuous (leg n) x /\ continuous (leg (S n)) x.
Proof.
  induction n as [|n IH]; intros x.
  - split; [apply continuous_const|apply continuous_id].
  - destruct (IH x) as [A B]. split; [exact B|].
    apply continuous_ext with
      (fun x => ((2 * INR n + 3) / (INR n + 2) * x) * leg (S n) x
                + - (INR n + 1) / (INR n + 2) * leg n x).
    { intros y. rewrite leg_SS.
      match goal with |- @eq _ ?a ?b => change (@eq R a b) end.
      field. pose proof (pos_INR n). lra. }
    apply add_cont.
    + apply mul_cont; [|exact B].
      apply mul_cont; [apply continuous_const|apply continuous_id].
    + apply mul_cont; [apply continuous_const|exact A].
Qed.

Lemma leg_cont n (x : R) : continuous (leg n) x.
Proof. exact (proj1 (leg_cont2 n x)). Qed.

Lemma pow_cont k (x : R) : continuous (fun y : R => y ^ k) x.
Proof.
  induction k as [|k IH]; [apply continuous_const|].
  apply (continuous_mult (K := R_AbsRing) (fun y => y) (fun y => y ^ k));
    [apply continuous_id|exact IH].
Qed.

Lemma int_cont (f : R -> R) : (forall x : R, continuous f x) -> ex_RInt f (-1) 1.
Proof. intros H. apply (ex_RInt_continuous (V := R_CompleteNormedModule)). intros x _. apply H. Qed.

Lemma mean_plus (f g : R -> R) : (forall x : R, continuous f x) -> (forall x : R, continuous g x) ->
  mean (fun x => f x + g x) = mean f + mean g.
Proof.
  intros F G. unfold mean.
  pose proof (RInt_plus (V := R_CompleteNormedModule) f g (-1) 1
                (int_cont f F) (int_cont g G)) as E.
  change (RInt (fun x => f x + g x) (-1) 1 = RInt f (-1) 1 + RInt g (-1) 1) in E.
  rewrite E. field.
Qed.

Lemma mean_scal c (f : R -> R) : (forall x : R, continuous f x) -> mean (fun x => c * f x) = c * mean f.
Proof.
  intros F. unfold mean.
  pose proof (RInt_scal (V := R_CompleteNormedModule) f (-1) 1 c (int_cont f F)) as E.
  change (RInt (fun x => c * f x) (-1) 1 = c * RInt f (-1) 1) in E. rewrite E. field.
Qed.

Lemma mean_ext f g : (forall x, f x = g x) -> mean f = mean g.
Proof. intros H. unfold mean. f_equal. apply RInt_ext. intros x _. apply H. Qed.

(** Moments of the Legendre polynomials. *)
Definition moment (n k : nat) : R := mean (fun x => leg n x * x ^ k).

Lemma moment_cont n k (x : R) : continuous (fun y : R => leg n y * y ^ k) x.
Proof. apply mul_cont; [apply leg_cont|apply pow_cont]. Qed.

Lemma moment_step n k : (INR n + 2) * moment (S (S n)) k
  = (2 * INR n + 3) * moment (S n) (S k) - (INR n + 1) * moment n k.
Proof.
  unfold moment. rewrite <- !mean_scal by apply moment_cont.
  assert (E : mean (fun x => (2 * INR n + 3) * (leg (S n) x * x ^ S k))
              = mean (fun x => (INR n + 2) * (leg (S (S n)) x * x ^ k))
                + mean (fun x => (INR n + 1) * (leg n x * x ^ k))).
  { rewrite <- mean_plus.
    - apply mean_ext. intros x. rewrite leg_SS. cbn [pow]. field.
      pose proof (pos_INR n). lra.
    - intros x. apply mul_cont; [apply continuous_const|apply moment_cont].
    - intros x. apply mul_cont; [apply continuous_const|apply moment_cont]. }
  rewrite E. ring.
Qed.

Lemma mean_pow k : mean (fun x => x ^ k) = (1 - (-1) ^ S k) / (2 * (INR k + 1)).
Proof.
  unfold mean. pose proof (pos_INR k) as P.
  assert (E : RInt (fun x => x ^ k) (-1) 1 = 1 ^ S k / (INR k + 1) - (-1) ^ S k / (INR k + 1)).
  { apply is_RInt_unique.
    apply (is_RInt_derive (V := R_CompleteNormedModule) (fun x => x ^ S k / (INR k + 1))).
    - intros x _. auto_derive; [trivial|]. cbn [pred].
      match goal with |- context [match k with O => ?a | S _ => ?b end] =>
        change (match k with O => a | S _ => b end) with (INR (S k)) end.
      rewrite S_INR. field. lra.
    - intros x _. apply pow_cont. }
  rewrite E, pow1. field. lra.
Qed.

(** The basic identity of the moments. *)
Lemma moment_0 k : moment 0 k = (1 - (-1) ^ S k) / (2 * (INR k + 1)).
Proof.
  unfold moment. rewrite <- mean_pow. apply mean_ext. intros x. cbn [leg]. ring.
Qed.

Lemma moment_1 k : moment 1 k = moment 0 (S k).
Proof. unfold moment. apply mean_ext. intros x. cbn [leg pow]. ring. Qed.

Lemma moment_descent n :
  (moment (S n) 0 = 0
   /\ forall k, (INR k + INR n + 3) * moment (S n) (S k) = (INR k + 1) * moment n k)
  /\ (moment (S (S n)) 0 = 0
   /\ forall k, (INR k + INR n + 4) * moment (S (S n)) (S k) = (INR k + 1) * moment (S n) k).
Proof.
  induction n as [|n IH].
  - assert (B : forall k, (INR k + 3) * moment 1 (S k) = (INR k + 1) * moment 0 k).
    { intros k. rewrite moment_1, !moment_0, !S_INR. cbn [pow].
      pose proof (pos_INR k). field. lra. }
    assert (B0 : moment 1 0 = 0).
    { rewrite moment_1, moment_0. cbn. field. }
    assert (S2 : forall k, 2 * moment 2 k = 3 * moment 1 (S k) - moment 0 k).
    { intros k. pose proof (moment_step 0 k) as E. cbn [INR] in E. lra. }
    split; [split; [exact B0|]|split].
    + intros k. cbn [INR]. rewrite <- B. ring.
    + pose proof (S2 0%nat) as E. pose proof (B 0%nat) as F. cbn [INR] in F. lra.
    + intros k. cbn [INR]. pose proof (S2 (S k)) as E. pose proof (B (S k)) as F.
      rewrite S_INR in F. rewrite moment_1.
      pose proof (pos_INR k) as P.
      assert (M : moment 1 (S (S k)) = (INR k + 2) / (INR k + 4) * moment 0 (S k)).
      { apply Rmult_eq_reg_l with (INR k + 4); [|lra]. 
        transitivity ((INR k + 2) * moment 0 (S k)); [lra|]. field. lra. }
      assert (M2 : moment 2 (S k) = (3 * ((INR k + 2) / (INR k + 4)) - 1) / 2 * moment 0 (S k)).
      { rewrite M in E. lra. }
      rewrite M2. field. lra.
  - destruct IH as [[A0 A] [B0 B]]. split; [split; [exact B0|]|].
    + intros k. rewrite S_INR. rewrite <- B. ring.
    + assert (U : forall k, moment (S (S (S n))) k
                  = (INR k - INR n - 1) / (INR k + INR n + 4) * moment (S n) k).
      { intros k. pose proof (moment_step (S n) k) as E. rewrite S_INR in E.
        pose proof (B k) as F. pose proof (pos_INR k). pose proof (pos_INR n).
        assert (M : moment (S (S n)) (S k) = (INR k + 1) / (INR k + INR n + 4) * moment (S n) k).
        { apply Rmult_eq_reg_l with (INR k + INR n + 4); [|lra]. rewrite F. field. lra. }
        rewrite M in E.
        apply Rmult_eq_reg_l with (INR n + 3); [|lra].
        transitivity ((2 * (INR n + 1) + 3) * ((INR k + 1) / (INR k + INR n + 4) * moment (S n) k)
                      - (INR n + 1 + 1) * moment (S n) k); [lra|]. field. lra. }
      split.
      * rewrite U, A0. ring.
      * intros k. rewrite U, !S_INR. pose proof (pos_INR k). pose proof (pos_INR n).
        (* (k+1) moment (n+2) k in terms of moment n k *)
        pose proof (moment_step n k) as E. pose proof (A k) as F.
        assert (M : moment (S n) (S k) = (INR k + 1) / (INR k + INR n + 3) * moment n k).
        { apply Rmult_eq_reg_l with (INR k + INR n + 3); [|lra]. rewrite F. field. lra. }
        rewrite M in E |- *.
        assert (M2 : moment (S (S n)) k
                     = ((2 * INR n + 3) * ((INR k + 1) / (INR k + INR n + 3)) - (INR n + 1))
                       / (INR n + 2) * moment n k).
        { apply Rmult_eq_reg_l with (INR n + 2); [|lra]. rewrite E. field. lra. }
        rewrite M2. field. lra.
Qed.

Lemma moment_low n : moment (S n) 0 = 0.
Proof. apply (moment_descent n). Qed.

Lemma moment_SS n k : moment (S n) (S k) = (INR k + 1) / (INR k + INR n + 3) * moment n k.
Proof.
  destruct (moment_descent n) as [[_ H] _]. specialize (H k).
  pose proof (pos_INR k). pose proof (pos_INR n).
  apply Rmult_eq_reg_l with (INR k + INR n + 3); [|lra]. rewrite H. field. lra.
Qed.

(** A Legendre polynomial has no lower moments. *)
Theorem moment_high n : forall k, (k < n)%nat -> moment n k = 0.
Proof.
  induction n as [|n IH]; intros k H; [lia|]. destruct k as [|k]; [apply moment_low|].
  rewrite moment_SS, IH by lia. ring.
Qed.

(** Polynomials as lists of coefficients, from x^k upward. *)
Fixpoint poly (c : list R) (k : nat) (x : R) : R :=
  match c with
  | [] => 0
  | h :: t => h * x ^ k + poly t (S k) x
  end.

Fixpoint poly_moment (n : nat) (c : list R) (k : nat) : R :=
  match c with
  | [] => 0
  | h :: t => h * moment n k + poly_moment n t (S k)
  end.

Lemma poly_cont c : forall k (x : R), continuous (poly c k) x.
Proof.
  induction c as [|h t IH]; intros k x; [apply continuous_const|].
  apply (add_cont (fun x => h * x ^ k) (poly t (S k))); [|apply IH].
  apply mul_cont; [apply continuous_const|apply pow_cont].
Qed.

Lemma mean_poly n c : forall k, mean (fun x => leg n x * poly c k x) = poly_moment n c k.
Proof.
  induction c as [|h t IH]; intros k; cbn [poly poly_moment].
  - transitivity (mean (fun x => 0 * leg n x)); [apply mean_ext; intros; ring|].
    rewrite mean_scal by apply leg_cont. ring.
  - rewrite <- IH. unfold moment. rewrite <- mean_scal by apply moment_cont.
    rewrite <- mean_plus.
    + apply mean_ext. intros x. ring.
    + intros x. apply mul_cont; [apply continuous_const|apply moment_cont].
    + intros x. apply mul_cont; [apply leg_cont|apply poly_cont].
Qed.

(** So it is orthogonal to every polynomial of lower degree. *)
Theorem leg_orthogonal n c : (List.length c <= n)%nat ->
  mean (fun x => leg n x * poly c 0 x) = 0.
Proof.
  rewrite mean_poly. assert (G : forall k, (List.length c + k <= n)%nat -> poly_moment n c k = 0).
  { induction c as [|h t IH]; intros k H; cbn [poly_moment]; [reflexivity|].
    cbn [List.length] in H. rewrite moment_high, IH by lia. ring. }
  intros H. apply G. lia.
Qed.

(** Moments of one degree from those of the one below, as a computation. *)
Fixpoint moment_value (n k : nat) : R :=
  match n with
  | O => (1 - (-1) ^ S k) / (2 * (INR k + 1))
  | S n' => match k with
            | O => 0
            | S k' => (INR k' + 1) / (INR k' + INR n' + 3) * moment_value n' k'
            end
  end.

Lemma moment_eq n : forall k, moment n k = moment_value n k.
Proof.
  induction n as [|n IH]; intros k; cbn [moment_value]; [apply moment_0|].
  destruct k as [|k]; [apply moment_low|]. now rewrite moment_SS, IH.
Qed.

Lemma leg_2 x : leg 2 x = (3 * x ^ 2 - 1) / 2.
Proof. cbn. field. Qed.

Lemma leg_4 x : leg 4 x = (35 * x ^ 4 - 30 * x ^ 2 + 3) / 8.
Proof. cbn. field. Qed.

(** The value at one, by which the recurrence is seen to be the usual one. *)
Theorem leg_one n : leg n 1 = 1.
Proof.
  assert (H : leg n 1 = 1 /\ leg (S n) 1 = 1); [|apply H].
  induction n as [|n [A B]]; [split; reflexivity|]. split; [exact B|].
  rewrite leg_SS, A, B. pose proof (pos_INR n). field. lra.
Qed.
