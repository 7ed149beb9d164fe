(* The numerator of the Lanczos series has no zero to the right of the
   imaginary axis (a Routh-Hurwitz argument, checked by computation). *)
From Coq Require Import Reals ZArith List Lia Lra Bool.
From Coquelicot Require Import Complex.
From Verif Require Import Base ArrayModel ArrayProofs FftlogModel GammaModel.
Import ListNotations.
Local Open Scope R_scope.

(* Polynomials by their whole coefficients, the highest first. *)
Fixpoint pe (l : list Z) (u : C) : C :=
  match l with
  | [] => RtoC 0
  | c :: l => (RtoC (IZR c) * Cpown u (length l) + pe l u)%C
  end.
Fixpoint padd (a b : list Z) : list Z :=
  match a, b with
  | x :: a, y :: b => (x + y)%Z :: padd a b
  | _, _ => []
  end.
Definition scale (k : Z) (l : list Z) : list Z := map (Z.mul k) l.
Definition mulx (k : Z) (l : list Z) : list Z := padd (l ++ [0%Z]) (0%Z :: scale k l).

Lemma padd_length a b : length a = length b -> length (padd a b) = length a.
Proof.
  revert b; induction a as [|x a IH]; intros [|y b]; simpl; try discriminate; auto.
Qed.
Lemma scale_length k l : length (scale k l) = length l.
Proof. apply map_length. Qed.
Lemma mulx_length k l : length (mulx k l) = S (length l).
Proof.
  unfold mulx. rewrite padd_length; rewrite app_length; cbn [length]; rewrite ?scale_length; lia.
Qed.
Lemma pe_add a b u : length a = length b -> pe (padd a b) u = (pe a u + pe b u)%C.
Proof.
  revert b; induction a as [|x a IH]; intros [|y b] H; try discriminate H; cbn [pe padd].
  - ring.
  - cbn [length] in H. injection H as H. rewrite IH, padd_length, plus_IZR, RtoC_plus by exact H.
    rewrite H. ring.
Qed.
Lemma pe_scale k l u : pe (scale k l) u = (RtoC (IZR k) * pe l u)%C.
Proof.
  induction l as [|c l IH]; cbn [pe scale map].
  - ring.
  - fold (scale k l). rewrite IH, scale_length, mult_IZR, RtoC_mult. ring.
Qed.
Lemma pe_shift l u : pe (l ++ [0%Z]) u = (u * pe l u)%C.
Proof.
  induction l as [|c l IH]; cbn [pe app].
  - cbn [length Cpown]. ring.
  - rewrite IH, app_length. cbn [length]. rewrite Nat.add_1_r. cbn [Cpown]. ring.
Qed.
Lemma pe_zero l u : pe (0%Z :: l) u = pe l u.
Proof. cbn [pe]. ring. Qed.
Lemma pe_mulx k l u : pe (mulx k l) u = ((u + RtoC (IZR k)) * pe l u)%C.
Proof.
  unfold mulx. rewrite pe_add, pe_shift, pe_zero, pe_scale.
  - ring.
  - rewrite app_length. cbn [length]. rewrite scale_length. lia.
Qed.

(* Every second coefficient. *)
Fixpoint alt (b : bool) (l : list Z) : list Z :=
  match l with
  | [] => []
  | c :: l => (if b then c else 0%Z) :: alt (negb b) l
  end.
Lemma alt_length b l : length (alt b l) = length l.
Proof. revert b; induction l; intros b; simpl; auto. Qed.
Lemma alt_split b l u : (pe (alt b l) u + pe (alt (negb b) l) u)%C = pe l u.
Proof.
  revert b; induction l as [|c l IH]; intros b; cbn [alt pe].
  - ring.
  - rewrite <- (IH (negb b)), !alt_length. destruct b; cbn [negb]; ring.
Qed.

Fixpoint routh (fuel : nat) (p q : list Z) : bool :=
  match fuel, p, q with
  | S fuel, lp :: _, lq :: _ =>
      (0 <? lp)%Z && (0 <? lq)%Z && (length p =? S (length q))%nat &&
      match padd (scale lq p) (scale (- lp) (q ++ [0%Z])) with
      | x :: y :: r =>
          (x =? 0)%Z && (y =? 0)%Z &&
          match r with [] => (length q =? 1)%nat | _ => routh fuel q r end
      | _ => false
      end
  | _, _, _ => false
  end.

Lemma re_inv (w : C) : 0 < fst w -> 0 < fst (/ w)%C.
Proof.
  intros H. unfold Cinv. cbn [fst]. apply Rdiv_lt_0_compat; [exact H|]. nra.
Qed.
Lemma re_scale (a : R) (w : C) : fst (RtoC a * w)%C = a * fst w.
Proof. unfold RtoC, Cmult. cbn [fst snd]. ring. Qed.
Lemma re_plus (v w : C) : fst (v + w)%C = fst v + fst w.
Proof. reflexivity. Qed.
Lemma re_nonzero (w : C) : 0 < fst w -> w <> RtoC 0.
Proof. intros H E. rewrite E in H. cbn in H. lra. Qed.

Lemma routh_ok fuel p q u :
  routh fuel p q = true -> 0 < fst u ->
  pe q u <> RtoC 0 /\ 0 < fst (pe p u / pe q u)%C.
Proof.
  revert p q; induction fuel as [|fuel IH]; intros p q H U; [discriminate H|].
  destruct p as [|lp p']; [discriminate H|]. destruct q as [|lq q']; [discriminate H|].
  set (p := lp :: p') in *. set (q := lq :: q') in *.
  cbn [routh] in H. fold p q in H. change (match p with [] => false | _ => _ end) with
    ((0 <? lp)%Z && (0 <? lq)%Z && (length p =? S (length q))%nat &&
      match padd (scale lq p) (scale (- lp) (q ++ [0%Z])) with
      | x :: y :: r =>
          (x =? 0)%Z && (y =? 0)%Z &&
          match r with [] => (length q =? 1)%nat | _ => routh fuel q r end
      | _ => false
      end) in H.
  apply andb_prop in H as [H H4]. apply andb_prop in H as [H H3]. apply andb_prop in H as [H1 H2].
  apply Z.ltb_lt in H1, H2. apply Nat.eqb_eq in H3.
  assert (L : length (scale lq p) = length (scale (- lp) (q ++ [0%Z]))).
  { rewrite !scale_length, app_length. cbn [length] in *. lia. }
  pose proof (pe_add _ _ u L) as E. rewrite !pe_scale, pe_shift in E.
  destruct (padd (scale lq p) (scale (- lp) (q ++ [0%Z]))) as [|x [|y r]]; try discriminate H4.
  apply andb_prop in H4 as [H4 H6]. apply andb_prop in H4 as [H4 H5].
  apply Z.eqb_eq in H4, H5. subst x y. rewrite !pe_zero in E.
  pose proof (IZR_lt _ _ H1) as A. pose proof (IZR_lt _ _ H2) as B.
  assert (NB : RtoC (IZR lq) <> RtoC 0) by (intros K; apply RtoC_inj in K; lra).
  rewrite opp_IZR, RtoC_opp in E.
  assert (D : forall Q : C, Q <> RtoC 0 -> Q = pe q u ->
    (pe p u / Q = RtoC (IZR lp / IZR lq) * u + RtoC (/ IZR lq) * (pe r u / Q))%C).
  { intros Q NQ EQ. rewrite <- EQ in E.
    rewrite RtoC_div, RtoC_inv by lra.
    assert (E' : pe p u = ((pe r u + RtoC (IZR lp) * (u * Q)) / RtoC (IZR lq))%C).
    { rewrite E. field. exact NB. }
    rewrite E'. field. auto. }
  destruct r as [|r0 r'].
  - apply Nat.eqb_eq in H6. destruct q'; [|discriminate H6].
    assert (N : pe q u <> RtoC 0).
    { unfold q. cbn [pe length Cpown]. intros K. apply NB. rewrite <- K. ring. }
    split; [exact N|]. rewrite (D _ N eq_refl). cbn [pe].
    replace (RtoC 0 / pe q u)%C with (RtoC 0) by (field; exact N).
    rewrite re_plus, !re_scale. cbn [fst RtoC]. rewrite Rmult_0_r, Rplus_0_r.
    apply Rmult_lt_0_compat; [apply Rdiv_lt_0_compat; assumption | exact U].
  - destruct (IH _ _ H6 U) as [N P].
    assert (NQ : pe q u <> RtoC 0).
    { intros K. rewrite K in P. unfold Cdiv in P. rewrite Cmult_0_l in P. cbn in P. lra. }
    split; [exact NQ|]. rewrite (D _ NQ eq_refl).
    rewrite re_plus, !re_scale.
    replace (pe (r0 :: r') u / pe q u)%C with (/ (pe q u / pe (r0 :: r') u))%C by (field; auto).
    pose proof (re_inv _ P) as I.
    assert (0 < IZR lp / IZR lq * fst u).
    { apply Rmult_lt_0_compat; [apply Rdiv_lt_0_compat; assumption | exact U]. }
    assert (0 < / IZR lq * fst (/ (pe q u / pe (r0 :: r') u))%C).
    { apply Rmult_lt_0_compat; [apply Rinv_0_lt_compat; assumption | exact I]. }
    lra.
Qed.

Lemma hurwitz l u :
  routh (length l) (alt true l) (tl (alt false l)) = true -> 0 < fst u -> pe l u <> RtoC 0.
Proof.
  intros H U K. destruct (routh_ok _ _ _ _ H U) as [N P].
  rewrite <- (alt_split true) in K. cbn [negb] in K.
  destruct l as [|c l]; [discriminate H|].
  cbn [alt tl negb] in N, P, K. rewrite (pe_zero (alt true l)) in K.
  set (p := pe (c :: alt false l) u) in *. set (q := pe (alt true l) u) in *.
  assert (E : p = (- q)%C) by (replace p with (p + q - q)%C by ring; rewrite K; ring).
  rewrite E in P. replace (- q / q)%C with (RtoC (-1)) in P; [cbn in P; lra|].
  replace (RtoC (-1)) with (- RtoC 1)%C by (rewrite <- RtoC_opp; f_equal; lra). field. exact N.
Qed.

(* The numerator of the series over (z + 1) ... (z + 8), in units of 10^-27. *)
Definition unit27 : R := 10 ^ 27.
Definition whole : list Z :=
  [ 999999999999809932277000000; 676520368121885098567000000000;
    -1259139216722402870470000000000; 771323428777653078849000000000;
    -176615029162140599066000000000; 12507343278686904814500000000;
    -138571095265720116896000000; 9984369578019570859560; 150563273514931155834 ]%Z.
Lemma coefficients : pcoeff = map (fun k => IZR k / unit27) whole.
Proof. unfold pcoeff, whole, unit27. cbn [map]. repeat (apply (f_equal2 cons); [field|]). reflexivity. Qed.

Fixpoint build (ks : list Z) (i : Z) (n d : list Z) : list Z :=
  match ks with
  | [] => n
  | k :: ks => build ks (i + 1) (padd (mulx (i - 1) n) (0%Z :: scale k d)) (mulx (i - 1) d)
  end.
Definition numerator : list Z := build (tl whole) 1 [hd 0%Z whole] [1%Z].

Lemma cdiv_ok a b : b <> RtoC 0 -> cdiv a b = Ok (a / b)%C.
Proof.
  intros H. unfold cdiv. destruct (Reqb (fst b) 0 && Reqb (snd b) 0) eqn:E; [|reflexivity].
  apply andb_prop in E as [E1 E2]. apply Reqb_spec in E1, E2. exfalso. apply H.
  destruct b; cbn in *; subst; reflexivity.
Qed.
Lemma cdiv_zero a : cdiv a (RtoC 0) = Err NotANumber.
Proof. unfold cdiv, RtoC. cbn [fst snd]. now rewrite (proj2 (Reqb_spec 0 0) eq_refl). Qed.

Lemma unit27_nz : RtoC unit27 <> RtoC 0.
Proof. intros K. apply RtoC_inj in K. unfold unit27 in K. lra. Qed.

Definition positive (w : C) : Prop := exists r, 0 < r /\ w = RtoC r.
Lemma positive_mult v w : positive v -> positive w -> positive (v * w)%C.
Proof.
  intros (r & R & ->) (s & S & ->). exists (r * s). split; [now apply Rmult_lt_0_compat|].
  now rewrite RtoC_mult.
Qed.
Lemma positive_plus v w : positive v -> positive w -> positive (v + w)%C.
Proof.
  intros (r & R & ->) (s & S & ->). exists (r + s). split; [lra|]. now rewrite RtoC_plus.
Qed.
Lemma positive_inv v : positive v -> positive (/ v)%C.
Proof.
  intros (r & R & ->). exists (/ r). split; [now apply Rinv_0_lt_compat|].
  rewrite RtoC_inv; [reflexivity | lra].
Qed.
Lemma positive_pe l u :
  forallb (Z.ltb 0) l = true -> l <> [] -> positive u -> positive (pe l u).
Proof.
  intros H N U. induction l as [|c l IH]; [now elim N|].
  cbn [forallb] in H. apply andb_prop in H as [H1 H2]. apply Z.ltb_lt, IZR_lt in H1. cbn [pe].
  assert (P : positive (RtoC (IZR c) * Cpown u (length l))%C).
  { apply positive_mult; [now exists (IZR c)|]. clear - U.
    induction (length l); cbn [Cpown]; [exists 1; split; [lra | reflexivity] | now apply positive_mult]. }
  destruct l as [|c' l].
  - cbn [pe]. rewrite Cplus_0_r. exact P.
  - apply positive_plus; [exact P|]. apply IH; [exact H2 | discriminate].
Qed.

Lemma series_build ks : forall i n d z acc,
  (1 <= i)%Z -> 0 < fst z + 1 -> length n = length d ->
  pe d (z + RtoC 1)%C <> RtoC 0 ->
  acc = (pe n (z + RtoC 1) / (RtoC unit27 * pe d (z + RtoC 1)))%C ->
  exists s e, series_from (map (fun k => IZR k / unit27) ks) i z acc = Ok s
    /\ (s * e = pe (build ks i n d) (z + RtoC 1))%C
    /\ (snd z = 0 -> positive (pe d (z + RtoC 1)%C) -> positive e).
Proof.
  induction ks as [|k ks IH]; intros i n d z acc I Z L D E; cbn [map series_from build].
  - exists acc, (RtoC unit27 * pe d (z + RtoC 1))%C. split; [reflexivity|]. split.
    + rewrite E. field. split; [exact D | exact unit27_nz].
    + intros _ P. apply positive_mult; [exists unit27; split; [unfold unit27; lra | reflexivity] | exact P].
  - assert (N : (z + RtoC (IZR i))%C <> RtoC 0).
    { apply re_nonzero. rewrite re_plus. cbn [fst RtoC]. pose proof (IZR_le _ _ I). lra. }
    rewrite cdiv_ok by exact N. cbn [bind].
    assert (M : (z + RtoC 1 + RtoC (IZR (i - 1)) = z + RtoC (IZR i))%C).
    { rewrite minus_IZR, RtoC_minus. ring. }
    edestruct (IH (i + 1)%Z (padd (mulx (i - 1) n) (0%Z :: scale k d)) (mulx (i - 1) d) z)
      as (s & e & E1 & E2 & E3); [| | | | | exists s, e; split; [exact E1|]; split; [exact E2|]].
    + lia.
    + exact Z.
    + rewrite padd_length; rewrite !mulx_length; [lia|]. cbn [length]. rewrite scale_length. lia.
    + rewrite pe_mulx, M. now apply Cmult_neq_0.
    + rewrite pe_add, !pe_mulx, pe_zero, pe_scale, M.
      * rewrite E, RtoC_div; [| unfold unit27; lra]. field. repeat split; auto using unit27_nz.
      * rewrite mulx_length. cbn [length]. rewrite scale_length. lia.
    + intros Y P. apply E3; [exact Y|]. rewrite pe_mulx, M. apply positive_mult; [|exact P].
      exists (fst z + IZR i). pose proof (IZR_le _ _ I). split; [lra|].
      destruct z as [x y]. cbn [fst snd] in Y |- *. subst y. unfold RtoC, Cplus. cbn. f_equal. ring.
Qed.

Lemma numerator_stable : routh (length numerator) (alt true numerator) (tl (alt false numerator)) = true.
Proof. vm_compute. reflexivity. Qed.

Lemma series_ok z : 0 < fst z + 1 -> exists s, lanczos_series z = Ok s /\ s <> RtoC 0
  /\ (snd z = 0 -> positive s).
Proof.
  intros H. unfold lanczos_series. rewrite coefficients.
  destruct (series_build (tl whole) 1 [hd 0%Z whole] [1%Z] z (RtoC (IZR (hd 0%Z whole) / unit27)))
    as (s & e & E1 & E2 & E3).
  - lia.
  - exact H.
  - reflexivity.
  - cbn [pe length Cpown]. intros K. assert (K' : RtoC 1 = RtoC 0) by (rewrite <- K; ring).
    apply RtoC_inj in K'. lra.
  - rewrite RtoC_div; [| unfold unit27; lra]. cbn [pe length Cpown]. field. exact unit27_nz.
  - assert (N : pe numerator (z + RtoC 1)%C <> RtoC 0).
    { apply (hurwitz _ _ numerator_stable). rewrite re_plus. exact H. }
    fold numerator in E2. exists s. split; [exact E1|]. split.
    + intros K. rewrite K, Cmult_0_l in E2. now apply N.
    + intros Y.
      assert (P : positive e).
      { apply E3; [exact Y|]. exists 1. split; [lra|]. cbn [pe length Cpown]. ring. }
      assert (U : positive (z + RtoC 1)%C).
      { exists (fst z + 1). split; [exact H|]. destruct z as [x y]. cbn [fst snd] in Y |- *. subst y.
        unfold RtoC, Cplus. cbn. f_equal. ring. }
      replace s with (pe numerator (z + RtoC 1) * / e)%C.
      * apply positive_mult; [|now apply positive_inv].
        apply positive_pe; [vm_compute; reflexivity | vm_compute; discriminate | exact U].
      * rewrite <- E2. field. destruct P as (r & R & ->). intros K. apply RtoC_inj in K. lra.
Qed.
