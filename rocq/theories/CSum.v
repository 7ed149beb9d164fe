(* Finite sums of complex numbers; used by the proofs about the spherical orders. *)
From Coq Require Import Reals ZArith List Lia Lra Bool Permutation.
From Coquelicot Require Import Complex.
Import ListNotations.
Open Scope C_scope.

Definition csum (l : list C) : C := fold_right Cplus (RtoC 0) l.

Lemma csum_app l l' : csum (l ++ l') = csum l + csum l'.
Proof. induction l as [|a l IH]; cbn [app csum fold_right]; [now rewrite Cplus_0_l|].
  fold (csum (l ++ l')). rewrite IH. fold (csum l). apply Cplus_assoc. Qed.
Lemma csum_cons a l : csum (a :: l) = a + csum l.
Proof. reflexivity. Qed.
Lemma csum_perm l l' : Permutation l l' -> csum l = csum l'.
Proof.
  induction 1; cbn [csum fold_right]; auto.
  - fold (csum l). fold (csum l'). now rewrite IHPermutation.
  - fold (csum l). rewrite !Cplus_assoc. f_equal. apply Cplus_comm.
  - congruence.
Qed.
Lemma csum_map_ext {A} (f g : A -> C) l : (forall x, In x l -> f x = g x) -> csum (map f l) = csum (map g l).
Proof. intros H. f_equal. now apply map_ext_in. Qed.
Lemma csum_map_zero {A} (f : A -> C) l : (forall x, In x l -> f x = RtoC 0) -> csum (map f l) = RtoC 0.
Proof.
  induction l as [|a l IH]; intros H; [reflexivity|]. cbn [map]. rewrite csum_cons, IH, H; [apply Cplus_0_l|now left|].
  intros x Hx. apply H. now right.
Qed.
Lemma csum_map_plus {A} (f g : A -> C) l : csum (map (fun x => f x + g x) l) = csum (map f l) + csum (map g l).
Proof.
  induction l as [|a l IH]; cbn [map]; [cbn; now rewrite Cplus_0_l|]. rewrite !csum_cons, IH.
  generalize (csum (map f l)) (csum (map g l)). intros x y. ring.
Qed.
Lemma csum_map_scal {A} c (f : A -> C) l : csum (map (fun x => c * f x) l) = c * csum (map f l).
Proof.
  induction l as [|a l IH]; cbn [map]; [cbn; now rewrite Cmult_0_r|]. rewrite !csum_cons, IH. ring.
Qed.
Lemma csum_filter {A} (p : A -> bool) (f : A -> C) l :
  (forall x, In x l -> p x = false -> f x = RtoC 0) -> csum (map f (filter p l)) = csum (map f l).
Proof.
  induction l as [|a l IH]; intros H; [reflexivity|]. cbn [filter]. destruct (p a) eqn:E; cbn [map]; rewrite ?csum_cons.
  - f_equal. apply IH. intros. apply H; auto. now right.
  - rewrite (H a), Cplus_0_l by (auto; now left). apply IH. intros. apply H; auto. now right.
Qed.
Lemma csum_conj l : Cconj (csum l) = csum (map Cconj l).
Proof.
  induction l as [|a l IH].
  - unfold csum, Cconj, RtoC. cbn. now rewrite Ropp_0.
  - cbn [map]. rewrite !csum_cons, <- IH. unfold Cconj, Cplus. destruct a, (csum l). cbn. f_equal. ring.
Qed.
Lemma csum_flat_map {A B} (f : B -> C) (g : A -> list B) l :
  csum (map f (flat_map g l)) = csum (map (fun x => csum (map f (g x))) l).
Proof. induction l as [|a l IH]; [reflexivity|]. cbn [flat_map map]. now rewrite map_app, csum_app, csum_cons, IH. Qed.

Lemma Cconj_mult x y : Cconj (x * y) = Cconj x * Cconj y.
Proof. unfold Cconj, Cmult. destruct x, y. cbn. f_equal; ring. Qed.
Lemma Cconj_plus x y : Cconj (x + y) = Cconj x + Cconj y.
Proof. unfold Cconj, Cplus. destruct x, y. cbn. f_equal; ring. Qed.
Lemma Cconj_RtoC r : Cconj (RtoC r) = RtoC r.
Proof. unfold Cconj, RtoC. cbn. now rewrite Ropp_0. Qed.
Lemma Cconj_inv x : Cconj (Cconj x) = x.
Proof. unfold Cconj. destruct x. cbn. now rewrite Ropp_involutive. Qed.

(** Powers of minus one with integer exponents. *)
Open Scope R_scope.
Definition sign (n : Z) : R := powerRZ (-1) n.
Lemma sign_plus a b : sign (a + b) = sign a * sign b.
Proof. unfold sign. apply powerRZ_add. lra. Qed.
Lemma sign_0 : sign 0 = 1. Proof. reflexivity. Qed.
Lemma sign_1 : sign 1 = -1. Proof. apply pow_1. Qed.
Lemma pow_m1_sqr n : (-1) ^ n * (-1) ^ n = 1.
Proof. rewrite <- Rpow_mult_distr. replace (-1 * -1) with 1 by ring. apply pow1. Qed.
Lemma sign_sqr a : sign a * sign a = 1.
Proof.
  unfold sign. destruct a as [|p|p]; cbn [powerRZ]; [ring|apply pow_m1_sqr|].
  rewrite <- Rinv_mult, pow_m1_sqr. apply Rinv_1.
Qed.
Lemma sign_cases a : sign a = 1 \/ sign a = -1.
Proof. assert (H := sign_sqr a). assert ((sign a - 1) * (sign a + 1) = 0) by lra.
  apply Rmult_integral in H0. lra. Qed.
Lemma sign_opp a : sign (- a) = sign a.
Proof.
  assert (H : sign (- a) * sign a = 1) by (rewrite <- sign_plus, Z.add_opp_diag_l; reflexivity).
  destruct (sign_cases a) as [E|E]; rewrite E in *; lra.
Qed.
Lemma sign_even a : sign (2 * a) = 1.
Proof. replace (2 * a)%Z with (a + a)%Z by lia. rewrite sign_plus. apply sign_sqr. Qed.
Lemma sign_minus a b : sign (a - b) = sign a * sign b.
Proof. unfold Z.sub. now rewrite sign_plus, sign_opp. Qed.
