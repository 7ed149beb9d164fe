(* Finite sums of reals over lists. *)
From Coq Require Import Reals ZArith List Lia Lra Bool Permutation.
From Verif Require Import Base ArrayModel ArrayProofs.
Import ListNotations.
Open Scope R_scope.

Lemma rsum_nil : rsum [] = 0. Proof. reflexivity. Qed.
Lemma rsum_cons x l : rsum (x :: l) = x + rsum l. Proof. reflexivity. Qed.

Lemma rsum_app l1 l2 : rsum (l1 ++ l2) = rsum l1 + rsum l2.
Proof. induction l1 as [|x l1 IH]; simpl; [rewrite Rplus_0_l; reflexivity|]. unfold rsum in *. simpl. rewrite IH. ring. Qed.

Lemma rsum_map_ext {A} (f g : A -> R) l : (forall x, In x l -> f x = g x) ->
  rsum (map f l) = rsum (map g l).
Proof. intros H. f_equal. now apply map_ext_in. Qed.

Lemma rsum_map_plus {A} (f g : A -> R) l :
  rsum (map (fun x => f x + g x) l) = rsum (map f l) + rsum (map g l).
Proof. induction l as [|x l IH]; cbn [map]; rewrite ?rsum_nil, ?rsum_cons; [ring|]. rewrite IH. ring. Qed.

Lemma rsum_map_scal {A} c (f : A -> R) l :
  rsum (map (fun x => c * f x) l) = c * rsum (map f l).
Proof. induction l as [|x l IH]; cbn [map]; rewrite ?rsum_nil, ?rsum_cons; [ring|]. rewrite IH. ring. Qed.

Lemma rsum_map_scal_r {A} c (f : A -> R) l :
  rsum (map (fun x => f x * c) l) = rsum (map f l) * c.
Proof. induction l as [|x l IH]; cbn [map]; rewrite ?rsum_nil, ?rsum_cons; [ring|]. rewrite IH. ring. Qed.

Lemma rsum_map_zero {A} (f : A -> R) l : (forall x, In x l -> f x = 0) -> rsum (map f l) = 0.
Proof.
  induction l as [|x l IH]; intros H; [reflexivity|]. cbn [map]. rewrite rsum_cons, IH, (H x).
  - ring. - now left. - intros y Hy. apply H. now right.
Qed.

Lemma rsum_flat_map {A B} (f : A -> list B) (h : B -> R) l :
  rsum (map h (flat_map f l)) = rsum (map (fun x => rsum (map h (f x))) l).
Proof.
  induction l as [|x l IH]; [reflexivity|]. cbn [flat_map map]. rewrite map_app, rsum_app, IH. reflexivity.
Qed.

Lemma rsum_swap {A B} (f : A -> B -> R) la lb :
  rsum (map (fun a => rsum (map (f a) lb)) la) = rsum (map (fun b => rsum (map (fun a => f a b) la)) lb).
Proof.
  induction la as [|a la IH]; cbn [map].
  - rewrite rsum_nil. symmetry. apply rsum_map_zero. reflexivity.
  - rewrite rsum_cons, IH. rewrite <- rsum_map_plus. reflexivity.
Qed.

Lemma rsum_perm l1 l2 : Permutation l1 l2 -> rsum l1 = rsum l2.
Proof. induction 1; rewrite ?rsum_cons in *; try lra; reflexivity. Qed.

Lemma rsum_map_perm {A} (f : A -> R) l1 l2 : Permutation l1 l2 -> rsum (map f l1) = rsum (map f l2).
Proof. intros H. apply rsum_perm. now apply Permutation_map. Qed.

Lemma rsum_nonneg l : (forall x, In x l -> 0 <= x) -> 0 <= rsum l.
Proof.
  induction l as [|x l IH]; intros H; [rewrite rsum_nil; lra|]. rewrite rsum_cons.
  assert (0 <= x) by (apply H; now left). assert (0 <= rsum l) by (apply IH; intros; apply H; now right). lra.
Qed.

Lemma rsum_le {A} (f g : A -> R) l : (forall x, In x l -> f x <= g x) -> rsum (map f l) <= rsum (map g l).
Proof.
  induction l as [|x l IH]; intros H; cbn [map]; [lra|]. rewrite !rsum_cons.
  assert (f x <= g x) by (apply H; now left).
  assert (rsum (map f l) <= rsum (map g l)) by (apply IH; intros; apply H; now right). lra.
Qed.

Lemma rsum_prod {A B} (f : A -> R) (h : B -> R) la lb :
  rsum (map (fun a => rsum (map (fun b => f a * h b) lb)) la) = rsum (map f la) * rsum (map h lb).
Proof.
  rewrite (rsum_map_ext _ (fun a => f a * rsum (map h lb))) by (intros; apply rsum_map_scal).
  apply rsum_map_scal_r.
Qed.

Lemma rsum_const {A} c (l : list A) : rsum (map (fun _ => c) l) = INR (length l) * c.
Proof.
  induction l as [|x l IH]; cbn [map]; [rewrite rsum_nil; simpl; ring|].
  rewrite rsum_cons, IH. change (length (x :: l)) with (S (length l)). rewrite S_INR. ring.
Qed.

Lemma rsum_opp {A} (f : A -> R) l : rsum (map (fun x => - f x) l) = - rsum (map f l).
Proof. induction l as [|x l IH]; cbn [map]; rewrite ?rsum_nil, ?rsum_cons; [ring|]. rewrite IH. ring. Qed.

(** Picking one entry of a duplicate-free list. *)
Lemma rsum_pick {A} (dec : forall x y : A, {x = y} + {x <> y}) (f : A -> R) (a : A) l : NoDup l ->
  rsum (map (fun x => if dec x a then f x else 0) l) = if in_dec dec a l then f a else 0.
Proof.
  induction l as [|x l IH]; intros N; [reflexivity|]. inversion N as [|? ? N1 N2]; subst.
  cbn [map]. rewrite rsum_cons, IH by exact N2.
  destruct (dec x a) as [->|D].
  - destruct (in_dec dec a l) as [I|I]; [contradiction|].
    destruct (in_dec dec a (a :: l)) as [I2|I2]; [ring|]. exfalso. apply I2. now left.
  - destruct (in_dec dec a l) as [I|I]; destruct (in_dec dec a (x :: l)) as [I2|I2]; try ring.
    + exfalso. apply I2. now right.
    + exfalso. destruct I2 as [E|E]; [now apply D|contradiction].
Qed.

(** ** Ranges *)
Lemma In_arange lo hi x : In x (arange lo hi) <-> (lo <= x < hi)%Z.
Proof.
  unfold arange. rewrite in_map_iff. split.
  - intros (i & <- & H). apply in_seq in H. lia.
  - intros H. exists (Z.to_nat (x - lo)). split; [lia|]. apply in_seq. lia.
Qed.

Lemma NoDup_arange lo hi : NoDup (arange lo hi).
Proof.
  unfold arange. apply FinFun.Injective_map_NoDup; [|apply seq_NoDup]. intros x y H. lia.
Qed.

Lemma arange_split lo mid hi : (lo <= mid <= hi)%Z -> arange lo hi = arange lo mid ++ arange mid hi.
Proof.
  intros H. unfold arange. replace (Z.to_nat (hi - lo)) with (Z.to_nat (mid - lo) + Z.to_nat (hi - mid))%nat by lia.
  rewrite seq_app, map_app. f_equal.
  rewrite Nat.add_0_l.
  replace (seq (Z.to_nat (mid - lo)) (Z.to_nat (hi - mid))) with (map (fun i => (Z.to_nat (mid - lo) + i)%nat) (seq 0 (Z.to_nat (hi - mid)))).
  - rewrite map_map. apply map_ext. intros. lia.
  - generalize (Z.to_nat (hi - mid)). intros n. generalize (Z.to_nat (mid - lo)). intros m.
    assert (G : forall k, map (fun i => (m + i)%nat) (seq k n) = seq (m + k) n).
    { induction n as [|n IH]; intros k; [reflexivity|]. cbn [seq map]. rewrite IH. f_equal. f_equal. lia. }
    rewrite G. f_equal. lia.
Qed.

Lemma arange_empty lo hi : (hi <= lo)%Z -> arange lo hi = [].
Proof. intros H. unfold arange. replace (Z.to_nat (hi - lo)) with 0%nat by lia. reflexivity. Qed.

Lemma arange_cons lo hi : (lo < hi)%Z -> arange lo hi = lo :: arange (lo + 1) hi.
Proof.
  intros H. rewrite (arange_split lo (lo + 1) hi) by lia.
  replace (arange lo (lo + 1)) with [lo]; [reflexivity|].
  unfold arange. replace (Z.to_nat (lo + 1 - lo)) with 1%nat by lia. cbn [seq map]. f_equal. lia.
Qed.

Lemma arange_snoc lo hi : (lo < hi)%Z -> arange lo hi = arange lo (hi - 1) ++ [(hi - 1)%Z].
Proof.
  intros H. rewrite (arange_split lo (hi - 1) hi) by lia. f_equal.
  rewrite arange_cons, arange_empty by lia. reflexivity.
Qed.

(** A function supported in [lo, hi) has the same sum over any larger range. *)
Lemma rsum_arange_support (f : Z -> R) lo hi lo' hi' :
  (lo' <= lo)%Z -> (lo <= hi)%Z -> (hi <= hi')%Z ->
  (forall u, (u < lo \/ hi <= u)%Z -> f u = 0) ->
  rsum (map f (arange lo' hi')) = rsum (map f (arange lo hi)).
Proof.
  intros H1 H2 H3 Z0. rewrite (arange_split lo' lo hi'), (arange_split lo hi hi') by lia.
  rewrite !map_app, !rsum_app.
  rewrite (rsum_map_zero f (arange lo' lo)), (rsum_map_zero f (arange hi hi')).
  - ring.
  - intros x Hx. apply In_arange in Hx. apply Z0. lia.
  - intros x Hx. apply In_arange in Hx. apply Z0. lia.
Qed.

(** Picking one entry of a range. *)
Lemma rsum_arange_pick (f : Z -> R) a lo hi :
  rsum (map (fun x => if (x =? a)%Z then f x else 0) (arange lo hi)) =
  if ((lo <=? a) && (a <? hi))%Z then f a else 0.
Proof.
  rewrite (rsum_map_ext _ (fun x => if Z.eq_dec x a then f x else 0)).
  - rewrite rsum_pick by apply NoDup_arange.
    destruct (in_dec Z.eq_dec a (arange lo hi)) as [I|I]; rewrite In_arange in I.
    + destruct (Z.leb_spec lo a), (Z.ltb_spec a hi); simpl; try lia. reflexivity.
    + destruct (Z.leb_spec lo a), (Z.ltb_spec a hi); simpl; try lia; reflexivity.
  - intros x _. destruct (Z.eqb_spec x a); destruct (Z.eq_dec x a); try contradiction; reflexivity.
Qed.
