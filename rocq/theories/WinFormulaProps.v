(* The named two-point formulae are exact (C44). *)
From Coq Require Import Reals ZArith List Lia Lra Bool.
From Coquelicot Require Import Coquelicot.
From Verif Require Import Base ArrayModel ArrayProofs RSum LegendreProps WinFormulaModel.
Import ListNotations.
Open Scope R_scope.

(* ------------------------------------------------------------------ *)
(* Vocabulary                                                          *)

(** A function of the cosine with multipoles v 0, ..., v (N - 1). *)
Definition expansion (N : nat) (v : nat -> R) (mu : R) : R :=
  rsum (map (fun a => v a * leg a mu) (seq 0 N)).

(** A correlation function with monopole, quadrupole and hexadecapole. *)
Definition even_expansion (v : nat -> R) (mu : R) : R :=
  v 0%nat * leg 0 mu + v 2%nat * leg 2 mu + v 4%nat * leg 4 mu.

Lemma sum_cont {A} (f : A -> R -> R) l (x : R) :
  (forall a, In a l -> continuous (f a) x) ->
  continuous (fun y : R => rsum (map (fun a => f a y) l)) x.
Proof.
  induction l as [|a l IH]; intros H; [apply continuous_const|].
  apply (add_cont (f a) (fun y => rsum (map (fun a => f a y) l))).
  - apply H. now left.
  - apply IH. intros b Hb. apply H. now right.
Qed.

Lemma mean_expansion N v (g : R -> R) : (forall x : R, continuous g x) ->
  mean (fun x => expansion N v x * g x)
  = rsum (map (fun a => v a * mean (fun x => leg a x * g x)) (seq 0 N)).
Proof.
  intros G. unfold expansion. generalize (seq 0 N). induction l as [|a l IH].
  - cbn [map]. rewrite rsum_nil. transitivity (mean (fun x => 0 * g x)).
    + apply mean_ext. intros x. cbn. ring.
    + rewrite mean_scal by exact G. ring.
  - cbn [map]. rewrite rsum_cons, <- IH.
    rewrite <- mean_scal by (intros x; apply mul_cont; [apply leg_cont|apply G]).
    rewrite <- mean_plus.
    + apply mean_ext. intros x. cbn [map]. rewrite rsum_cons. ring.
    + intros x. apply mul_cont; [apply continuous_const|].
      apply mul_cont; [apply leg_cont|apply G].
    + intros x. apply mul_cont; [|apply G]. apply (sum_cont (fun a x => v a * leg a x)).
      intros b _. apply mul_cont; [apply continuous_const|apply leg_cont].
Qed.

(** The polynomial [even_expansion v * leg l] for l = 0, 2, 4. *)
Definition weight (l : nat) (v : nat -> R) : list R :=
  let c0 := v 0%nat - v 2%nat / 2 + 3 / 8 * v 4%nat in
  let c2 := 3 / 2 * v 2%nat - 30 / 8 * v 4%nat in
  let c4 := 35 / 8 * v 4%nat in
  match l with
  | 0%nat => [c0; 0; c2; 0; c4]
  | 2%nat => [- c0 / 2; 0; 3 / 2 * c0 - c2 / 2; 0; 3 / 2 * c2 - c4 / 2; 0; 3 / 2 * c4]
  | _ => [3 / 8 * c0; 0; 3 / 8 * c2 - 30 / 8 * c0; 0;
          3 / 8 * c4 - 30 / 8 * c2 + 35 / 8 * c0; 0;
          - (30 / 8) * c4 + 35 / 8 * c2; 0; 35 / 8 * c4]
  end.

Lemma weight_poly l v x : l = 0%nat \/ l = 2%nat \/ l = 4%nat ->
  even_expansion v x * leg l x = poly (weight l v) 0 x.
Proof.
  intros H. unfold even_expansion. rewrite leg_2, leg_4.
  destruct H as [-> | [-> | ->]]; unfold weight; rewrite ?leg_2, ?leg_4; cbn [leg poly pow]; field.
Qed.

Lemma weight_short l v : (List.length (weight l v) <= 9)%nat.
Proof. destruct l as [|[|[|]]]; cbn; lia. Qed.

(** The multipole of the product is a sum over window multipoles below nine. *)
Lemma product_pole N q z l : (9 <= N)%nat -> l = 0%nat \/ l = 2%nat \/ l = 4%nat ->
  pole l (fun mu => expansion N q mu * even_expansion z mu)
  = (2 * INR l + 1)
    * rsum (map (fun a => q a * poly_moment a (weight l z) 0) (seq 0 9)).
Proof.
  intros HN Hl. unfold pole. f_equal.
  transitivity (mean (fun x => expansion N q x * poly (weight l z) 0 x)).
  { apply mean_ext. intros x. rewrite <- weight_poly by exact Hl. ring. }
  rewrite mean_expansion by apply poly_cont.
  replace N with (9 + (N - 9))%nat by lia. rewrite seq_app, map_app, rsum_app.
  assert (Z : rsum (map (fun a => q a * mean (fun x => leg a x * poly (weight l z) 0 x))
                        (seq (0 + 9) (N - 9))) = 0).
  { apply rsum_map_zero. intros a Ha. apply in_seq in Ha.
    rewrite leg_orthogonal; [ring|]. pose proof (weight_short l z). lia. }
  rewrite Z, Rplus_0_r. apply rsum_map_ext. intros a _. now rewrite mean_poly.
Qed.

(** The value [convolve_at] gives once every lookup succeeds. *)
Definition formula_sum (f : list term) (q z : nat -> R) : R :=
  rsum (map (fun t : term => let '(a, b, c) := t in c * q a * z b) f).

Lemma convolve_value f interp window cf r q z :
  (forall t, In t f -> exists xs ys, window (fst (fst t)) = Some (xs, ys)
                                     /\ interp xs ys r = q (fst (fst t))) ->
  (forall t, In t f -> exists xs ys, cf (snd (fst t)) = Some (xs, ys)
                                     /\ interp xs ys r = z (snd (fst t))) ->
  convolve_at f interp window cf r = Ok (formula_sum f q z).
Proof.
  intros HQ HZ. unfold convolve_at, formula_sum.
  assert (E : sequence (map (fun t : term =>
            let '(q, z, c) := t in
            match window q with
            | None => Err KeyError
            | Some (rq, vq) =>
                match cf z with
                | None => Err KeyError
                | Some (rz, vz) => Ok (c * interp rq vq r * interp rz vz r)
                end
            end) f) = Ok (map (fun t : term => let '(a, b, c) := t in c * q a * z b) f)).
  { induction f as [|[[a b] c] f IH]; [reflexivity|]. cbn [map sequence].
    destruct (HQ (a, b, c) (or_introl eq_refl)) as (x1 & y1 & W1 & E1).
    destruct (HZ (a, b, c) (or_introl eq_refl)) as (x2 & y2 & W2 & E2).
    cbn [fst snd] in W1, E1, W2, E2. rewrite W1, W2, E1, E2. cbn [bind].
    rewrite IH; [reflexivity| |].
    - intros t Ht. apply HQ. now right.
    - intros t Ht. apply HZ. now right. }
  rewrite E. reflexivity.
Qed.

(** The identities behind the tables, for all values. *)
Lemma wilson_sum N q z l f : (9 <= N)%nat -> wilson16 l = Ok f ->
  formula_sum f q z = pole l (fun mu => expansion N q mu * even_expansion z mu).
Proof.
  intros HN Hf.
  assert (Hl : l = 0%nat \/ l = 2%nat \/ l = 4%nat).
  { destruct l as [|[|[|[|[|l]]]]]; try discriminate Hf; auto. }
  rewrite product_pole by assumption.
  destruct Hl as [-> | [-> | ->]]; injection Hf as <-;
    unfold formula_sum, weight, tm; cbn [map seq poly_moment];
    rewrite ?rsum_cons, ?rsum_nil, !moment_eq; cbn [moment_value INR pow]; field.
Qed.

(** C44: for every window with any number of multipoles and every correlation
    function with even multipoles up to the hexadecapole, the convolved
    samples are the multipoles of the product, whatever spline supplies the
    values at the output separation. *)
Theorem wilson_exact N (q z : nat -> R) l f interp window cf r :
  (9 <= N)%nat -> wilson16 l = Ok f ->
  (forall a, In a [0; 2; 4; 6; 8]%nat -> exists xs ys,
      window a = Some (xs, ys) /\ interp xs ys r = q a) ->
  (forall b, In b [0; 2; 4]%nat -> exists xs ys,
      cf b = Some (xs, ys) /\ interp xs ys r = z b) ->
  convolve_at f interp window cf r
  = Ok (pole l (fun mu => expansion N q mu * even_expansion z mu)).
Proof.
  intros HN Hf HQ HZ. rewrite <- (wilson_sum N q z l f HN Hf).
  assert (Hl : l = 0%nat \/ l = 2%nat \/ l = 4%nat).
  { destruct l as [|[|[|[|[|l]]]]]; try discriminate Hf; auto. }
  apply convolve_value.
  - intros t Ht. apply HQ.
    destruct Hl as [-> | [-> | ->]]; injection Hf as <-; cbn [In] in Ht;
      repeat (destruct Ht as [<-|Ht]; [cbn; tauto|]); contradiction.
  - intros t Ht. apply HZ.
    destruct Hl as [-> | [-> | ->]]; injection Hf as <-; cbn [In] in Ht;
      repeat (destruct Ht as [<-|Ht]; [cbn; tauto|]); contradiction.
Qed.

(** A window that lacks one of the multipoles of the formula is refused. *)
Theorem wilson_missing l f interp window cf r a :
  wilson16 l = Ok f -> (exists t, In t f /\ fst (fst t) = a) -> window a = None ->
  convolve_at f interp window cf r = Err KeyError.
Proof.
  intros _ (t & Ht & Ha) Hw. unfold convolve_at.
  assert (G : forall g, In t g -> exists e, sequence (map (fun t : term =>
            let '(q, z, c) := t in
            match window q with
            | None => Err KeyError
            | Some (rq, vq) =>
                match cf z with
                | None => Err KeyError
                | Some (rz, vz) => Ok (c * interp rq vq r * interp rz vz r)
                end
            end) g) = Err e /\ e = KeyError).
  { induction g as [|[[a' b'] c'] g IH]; intros H; [destruct H|]. cbn [map sequence].
    destruct H as [H|H].
    - subst t. cbn [fst] in Ha. subst a'. rewrite Hw. cbn [bind]. eauto.
    - destruct (IH H) as (e & E & ->).
      destruct (window a') as [[? ?]|]; [|cbn [bind]; eauto].
      destruct (cf b') as [[? ?]|]; cbn [bind]; [|eauto]. rewrite E. cbn [bind]. eauto. }
  destruct (G f Ht) as (e & -> & ->). reflexivity.
Qed.

(** A window with a dipole and a multipole of degree ten besides. *)
Example wilson_case :
  let q := fun a : nat =>
    match a with 0%nat => 1 | 1%nat => 5 | 2%nat => 1 / 2 | 10%nat => 7 | _ => 0 end in
  let z := fun b : nat => match b with 0%nat => 3 | 2%nat => 7 | _ => 0 end in
  pole 2 (fun mu => expansion 11 q mu * even_expansion z mu) = 19 / 2
  /\ formula_sum [tm 2 0 1; tm 0 2 1; tm 2 2 (2 / 7); tm 4 2 (2 / 7);
                  tm 2 4 (2 / 7); tm 4 4 (100 / 693); tm 6 4 (25 / 143)] q z = 19 / 2.
Proof.
  intros q z.
  assert (E : formula_sum [tm 2 0 1; tm 0 2 1; tm 2 2 (2 / 7); tm 4 2 (2 / 7);
                  tm 2 4 (2 / 7); tm 4 4 (100 / 693); tm 6 4 (25 / 143)] q z = 19 / 2).
  { unfold formula_sum, tm. cbn [map]. rewrite !rsum_cons, rsum_nil. unfold q, z. field. }
  split; [|exact E]. rewrite <- E. symmetry. apply wilson_sum; [lia|reflexivity].
Qed.

Print Assumptions wilson_exact.
Print Assumptions wilson_missing.
Print Assumptions leg_orthogonal.
Print Assumptions leg_one.
