(* The coefficients of the named three-point formulae are those of products
   of multipoles (C66). *)
From Coq Require Import String.
From Coq Require Import Reals ZArith List Lia Lra Bool.
From Coquelicot Require Import Coquelicot.
From Verif Require Import Base ArrayModel ArrayProofs RSum LegendreProps MultipoleModel
  WindowModel WindowProps WinConvModel WinConvProps WinConvSumProps WinConvCases.
Import ListNotations.
Local Open Scope R_scope.

(* ------------------------------------------------------------------ *)
(* Vocabulary                                                          *)

(** A direction, from its cosine with the line of sight and its azimuth. *)
Definition vec : Type := R * R * R.
Definition dir (mu phi : R) : vec :=
  (sqrt (1 - mu * mu) * cos phi, sqrt (1 - mu * mu) * sin phi, mu).
Definition los : vec := (0, 0, 1).
Definition dotv (a b : vec) : R :=
  fst (fst a) * fst (fst b) + snd (fst a) * snd (fst b) + snd a * snd b.

(** The mean over all directions, and over all pairs of directions. *)
Definition turn_mean (g : R -> R) : R := RInt g 0 (2 * PI) / (2 * PI).
Definition sphere_mean (g : vec -> R) : R :=
  mean (fun mu => turn_mean (fun phi => g (dir mu phi))).
Definition pair_mean (g : vec -> vec -> R) : R :=
  sphere_mean (fun a => sphere_mean (fun b => g a b)).

(** The functions of two directions and the line of sight that belong to the
    multipoles of the formulae: the tripolar spherical harmonics with a
    Legendre normalisation. *)
Definition tripolar (l : list Z) (a b : vec) : R :=
  match l with
  | [0; 0; 0]%Z => 1
  | [1; 1; 0]%Z => dotv a b
  | [2; 0; 2]%Z => (3 * (dotv a los) ^ 2 - 1) / 2
  | [0; 2; 2]%Z => (3 * (dotv b los) ^ 2 - 1) / 2
  | [1; 1; 2]%Z => (3 * dotv a los * dotv b los - dotv a b) / 2
  | _ => 0
  end.

(* ------------------------------------------------------------------ *)
(* Means of polynomials in the three cosines                           *)

Definition mono3 : Type := R * nat * nat * nat.
Definition ev1 (p q r : R) (m : mono3) : R :=
  let '(c, i, j, k) := m in c * (p ^ i * q ^ j * r ^ k).
Definition ev (p q r : R) (l : list mono3) : R := rsum (map (ev1 p q r) l).

Definition mul1 (m n : mono3) : mono3 :=
  let '(c, i, j, k) := m in let '(d, a, b, e) := n in (c * d, (i + a)%nat, (j + b)%nat, (k + e)%nat).
Definition mulp (l r : list mono3) : list mono3 := flat_map (fun m => map (mul1 m) r) l.

Lemma ev_app p q r l l' : ev p q r (l ++ l')%list = ev p q r l + ev p q r l'.
Proof. unfold ev. now rewrite map_app, rsum_app. Qed.

Lemma ev_cons p q r m l : ev p q r (m :: l) = ev1 p q r m + ev p q r l.
Proof. unfold ev. cbn [map]. now rewrite rsum_cons. Qed.

Lemma ev_mul p q r l l' : ev p q r (mulp l l') = ev p q r l * ev p q r l'.
Proof.
  induction l as [|m l IH]; [unfold ev; cbn; ring|].
  cbn [mulp flat_map]. fold (mulp l l'). rewrite ev_app, IH, ev_cons.
  assert (E : ev p q r (map (mul1 m) l') = ev1 p q r m * ev p q r l').
  { unfold ev. clear IH. induction l' as [|n l' IH']; [cbn; ring|].
    cbn [map]. rewrite !rsum_cons, IH'.
    destruct m as [[[c i] j] k], n as [[[d a] b] e]. cbn [mul1 ev1]. rewrite !pow_add. ring. }
  rewrite E. ring.
Qed.

(** The mean over azimuths of the k-th power of the cosine between two
    directions, for k up to 2, as a polynomial in the other two cosines. *)
Definition turned (k : nat) : list mono3 :=
  match k with
  | 0%nat => [(1, 0%nat, 0%nat, 0%nat)]
  | 1%nat => [(1, 1%nat, 1%nat, 0%nat)]
  | 2%nat => [(3 / 2, 2%nat, 2%nat, 0%nat); (- (1 / 2), 2%nat, 0%nat, 0%nat); (- (1 / 2), 0%nat, 2%nat, 0%nat); (1 / 2, 0%nat, 0%nat, 0%nat)]
  | _ => []
  end.
Definition turn (l : list mono3) : list mono3 :=
  flat_map (fun m => let '(c, i, j, k) := m in map (mul1 (c, i, j, 0%nat)) (turned k)) l.

Lemma turn_cos0 x A B D :
  turn_mean (fun phi => A + B * cos (x - phi) + D * (cos (x - phi)) ^ 2) = A + D / 2.
Proof.
  unfold turn_mean.
  assert (E : RInt (fun phi => A + B * cos (x - phi) + D * (cos (x - phi)) ^ 2) 0 (2 * PI)
    = ((A + D / 2) * (2 * PI) - B * sin (x - 2 * PI) - D / 2 * (sin (x - 2 * PI) * cos (x - 2 * PI)))
      - ((A + D / 2) * 0 - B * sin (x - 0) - D / 2 * (sin (x - 0) * cos (x - 0)))).
  { apply is_RInt_unique.
    apply (is_RInt_derive (V := R_CompleteNormedModule)
      (fun phi => (A + D / 2) * phi - B * sin (x - phi) - D / 2 * (sin (x - phi) * cos (x - phi)))).
    - intros y _. auto_derive; [trivial|].
      pose proof (sin2_cos2 (x - y)) as P. unfold Rsqr in P.
      replace (x + - y) with (x - y) by ring.
      assert (P' : sin (x - y) * sin (x - y) = 1 - cos (x - y) * cos (x - y)) by lra.
      transitivity (A + D / 2 + B * cos (x - y)
        + D / 2 * (cos (x - y) * cos (x - y) - sin (x - y) * sin (x - y))); [field|].
      rewrite P'. field.
    - intros y _. apply (ex_derive_continuous (V := R_NormedModule)). auto_derive. trivial. }
  rewrite E. rewrite Rminus_0_r.
  assert (S : sin (x - 2 * PI) = sin x).
  { rewrite <- (sin_period (x - 2 * PI) 1). cbn [INR]. f_equal. ring. }
  assert (K : cos (x - 2 * PI) = cos x).
  { rewrite <- (cos_period (x - 2 * PI) 1). cbn [INR]. f_equal. ring. }
  rewrite S, K. field. apply PI_neq0.
Qed.

Lemma turn_const c : turn_mean (fun _ => c) = c.
Proof.
  unfold turn_mean. rewrite RInt_const.
  change (scal (2 * PI - 0) c) with ((2 * PI - 0) * c). field. apply PI_neq0.
Qed.

Lemma turn_ext f g : (forall x, f x = g x) -> turn_mean f = turn_mean g.
Proof. intros H. unfold turn_mean. f_equal. apply RInt_ext. intros x _. apply H. Qed.

Definition low (l : list mono3) : Prop := forall c i j k, In (c, i, j, k) l -> (k <= 2)%nat.

Lemma mean_ext_in f g : (forall x, -1 < x < 1 -> f x = g x) -> mean f = mean g.
Proof.
  intros H. unfold mean. f_equal. apply RInt_ext. intros x Hx. apply H.
  rewrite Rmin_left, Rmax_right in Hx by lra. exact Hx.
Qed.

Lemma dot_dirs m1 f1 m2 f2 : dotv (dir m1 f1) (dir m2 f2)
  = m1 * m2 + sqrt (1 - m1 * m1) * sqrt (1 - m2 * m2) * cos (f1 - f2).
Proof. unfold dotv, dir. cbn [fst snd]. rewrite cos_minus. ring. Qed.

Lemma dot_los m f : dotv (dir m f) los = m.
Proof. unfold dotv, dir, los. cbn [fst snd]. ring. Qed.

Lemma turn_ev l p q x : low l -> -1 < p < 1 -> -1 < q < 1 ->
  turn_mean (fun phi => ev p q (p * q + sqrt (1 - p * p) * sqrt (1 - q * q) * cos (x - phi)) l)
  = ev p q 0 (turn l).
Proof.
  intros L Hp Hq. set (s := sqrt (1 - p * p) * sqrt (1 - q * q)).
  assert (S2 : s * s = (1 - p * p) * (1 - q * q)).
  { unfold s. replace (sqrt (1 - p * p) * sqrt (1 - q * q) * (sqrt (1 - p * p) * sqrt (1 - q * q)))
      with ((sqrt (1 - p * p) * sqrt (1 - p * p)) * (sqrt (1 - q * q) * sqrt (1 - q * q))) by ring.
    rewrite !sqrt_sqrt by nra. reflexivity. }
  assert (G : exists A B D, (forall phi, ev p q (p * q + s * cos (x - phi)) l
                = A + B * cos (x - phi) + D * (cos (x - phi)) ^ 2)
     /\ ev p q 0 (turn l) = A + D / 2).
  { clearbody s. induction l as [|[[[c i] j] k] l IH].
    - exists 0, 0, 0. split; [intros phi; unfold ev; cbn; ring|unfold ev; cbn; field].
    - destruct IH as (A & B & D & E & F).
      { intros c' i' j' k' I. apply (L c' i' j' k'). now right. }
      assert (Hk : (k <= 2)%nat) by (apply (L c i j k); now left).
      cbn [turn flat_map]. fold (turn l). rewrite ev_app, F.
      assert (H : exists A' B' D', (forall u, c * (p ^ i * q ^ j * (p * q + s * u) ^ k) = A' + B' * u + D' * u ^ 2)
        /\ ev p q 0 (map (mul1 (c, i, j, 0%nat)) (turned k)) = A' + D' / 2).
      { destruct k as [|[|[|k]]]; [| | |lia].
        - exists (c * (p ^ i * q ^ j)), 0, 0. split; [intros u; ring|].
          unfold ev. cbn [turned map mul1 ev1]. unfold rsum. cbn [fold_right].
          rewrite !Nat.add_0_r. cbn [pow]. field.
        - exists (c * (p ^ i * q ^ j) * (p * q)), (c * (p ^ i * q ^ j) * s), 0. split; [intros u; ring|].
          unfold ev. cbn [turned map mul1 ev1]. unfold rsum. cbn [fold_right Nat.add].
          rewrite !pow_add. field.
        - exists (c * (p ^ i * q ^ j) * (p * q) ^ 2), (c * (p ^ i * q ^ j) * 2 * (p * q) * s),
            (c * (p ^ i * q ^ j) * (s * s)). split; [intros u; ring|]. rewrite S2.
          unfold ev. cbn [turned map mul1 ev1]. unfold rsum. cbn [fold_right Nat.add].
          rewrite !pow_add. field. }
      destruct H as (A' & B' & D' & E' & F'). exists (A + A'), (B + B'), (D + D'). split.
      + intros phi. unfold ev. cbn [map]. rewrite rsum_cons.
        fold (ev p q (p * q + s * cos (x - phi)) l). rewrite E. cbn [ev1]. rewrite E'. ring.
      + rewrite F'. field. }
  destruct G as (A & B & D & E & ->). rewrite <- (turn_cos0 x A B D). now apply turn_ext.
Qed.

(** The moments of the two cosines with the line of sight. *)
Definition even_moment (i : nat) : R := (1 - (-1) ^ S i) / (2 * (INR i + 1)).
Definition plane_mean (l : list mono3) : R :=
  rsum (map (fun m : mono3 => let '(c, i, j, _) := m in c * (even_moment i * even_moment j)) l).

Lemma turn_flat l c i j k : In (c, i, j, k) (turn l) -> k = 0%nat.
Proof.
  unfold turn. intros I. apply in_flat_map in I as ([[[c' i'] j'] k'] & _ & I).
  apply in_map_iff in I as ([[[d a] b] e] & E & I). cbn [mul1] in E. injection E as <- <- <- <-.
  destruct k' as [|[|[|k']]]; cbn in I; intuition; match goal with H : _ = _ |- _ => now injection H as <- <- <- <- end.
Qed.

Lemma inner_mean l p : (forall c i j k, In (c, i, j, k) l -> k = 0%nat) ->
  (forall q : R, continuous (fun q => ev p q 0 l) q) /\
  mean (fun q => ev p q 0 l)
  = rsum (map (fun m : mono3 => let '(c, i, j, _) := m in c * even_moment j * p ^ i) l).
Proof.
  induction l as [|[[[c i] j] k] l IH]; intros K.
  - split.
    + intros q. apply continuous_const.
    + cbn [map]. unfold ev. cbn [map]. unfold rsum. cbn [fold_right].
      transitivity (mean (fun x => 0 * x ^ 0)); [apply mean_ext; intros; ring|].
      rewrite mean_scal by apply pow_cont. ring.
  - destruct IH as [C E]. { intros c' i' j' k' I. apply (K c' i' j' k'). now right. }
    assert (k = 0%nat) by (apply (K c i j k); now left). subst k.
    assert (X : forall q, ev p q 0 ((c, i, j, 0%nat) :: l) = c * p ^ i * q ^ j + ev p q 0 l).
    { intros q. unfold ev. cbn [map]. rewrite rsum_cons. cbn [ev1]. cbn [pow]. ring. }
    assert (C' : forall q : R, continuous (fun q => c * p ^ i * q ^ j) q).
    { intros q. apply mul_cont; [apply continuous_const|apply pow_cont]. }
    split.
    + intros q. apply continuous_ext with (fun q => c * p ^ i * q ^ j + ev p q 0 l).
      { intros y. symmetry. apply X. }
      apply add_cont; [apply C'|apply C].
    + rewrite (mean_ext _ _ X), mean_plus by assumption. rewrite E, mean_scal by apply pow_cont.
      rewrite mean_pow. cbn [map]. rewrite rsum_cons. unfold even_moment. ring.
Qed.

Lemma outer_mean (l : list mono3) :
  (forall p : R, continuous (fun p => rsum (map (fun m : mono3 => let '(c, i, j, _) := m in
                                        c * even_moment j * p ^ i) l)) p) /\
  mean (fun p => rsum (map (fun m : mono3 => let '(c, i, j, _) := m in c * even_moment j * p ^ i) l))
  = plane_mean l.
Proof.
  unfold plane_mean. induction l as [|[[[c i] j] k] l [C E]].
  - split; [intros p; apply continuous_const|]. cbn [map]. unfold rsum. cbn [fold_right].
    transitivity (mean (fun x => 0 * x ^ 0)); [apply mean_ext; intros; ring|].
    rewrite mean_scal by apply pow_cont. ring.
  - cbn [map]. set (g := fun p : R => rsum (map (fun m : mono3 =>
      let '(c, i, j, _) := m in c * even_moment j * p ^ i) l)) in *.
    assert (C' : forall p : R, continuous (fun p => c * even_moment j * p ^ i) p).
    { intros q. apply mul_cont; [apply continuous_const|apply pow_cont]. }
    assert (X : forall p, rsum (c * even_moment j * p ^ i :: map (fun m : mono3 =>
      let '(c, i, j, _) := m in c * even_moment j * p ^ i) l) = c * even_moment j * p ^ i + g p).
    { intros p. now rewrite rsum_cons. }
    split.
    + intros p. apply continuous_ext with (fun p => c * even_moment j * p ^ i + g p).
      { intros y. symmetry. apply X. }
      apply add_cont; [apply C'|apply C].
    + rewrite (mean_ext _ _ X), mean_plus by assumption. rewrite E, mean_scal by apply pow_cont.
      rewrite mean_pow. rewrite rsum_cons. fold (even_moment i). ring.
Qed.

Lemma pair_mean_poly l g : low l ->
  (forall a b, g a b = ev (dotv a los) (dotv b los) (dotv a b) l) ->
  pair_mean g = plane_mean (turn l).
Proof.
  intros L G. unfold pair_mean, sphere_mean.
  rewrite <- (proj2 (outer_mean (turn l))). apply mean_ext_in. intros p Hp.
  rewrite <- (proj2 (inner_mean (turn l) p (turn_flat l))).
  rewrite <- (turn_const (mean (fun q => ev p q 0 (turn l)))).
  apply turn_ext. intros x. apply mean_ext_in. intros q Hq.
  rewrite <- (turn_ev l p q x L Hp Hq). apply turn_ext. intros y.
  rewrite G, !dot_los, dot_dirs. reflexivity.
Qed.

(** The functions as polynomials. *)
Definition tri (l : list Z) : list mono3 :=
  match l with
  | [0; 0; 0]%Z => [(1, 0%nat, 0%nat, 0%nat)]
  | [1; 1; 0]%Z => [(1, 0%nat, 0%nat, 1%nat)]
  | [2; 0; 2]%Z => [(3 / 2, 2%nat, 0%nat, 0%nat); (- (1 / 2), 0%nat, 0%nat, 0%nat)]
  | [0; 2; 2]%Z => [(3 / 2, 0%nat, 2%nat, 0%nat); (- (1 / 2), 0%nat, 0%nat, 0%nat)]
  | [1; 1; 2]%Z => [(3 / 2, 1%nat, 1%nat, 0%nat); (- (1 / 2), 0%nat, 0%nat, 1%nat)]
  | _ => []
  end.

Lemma tri_ev l a b : In l case_poles -> tripolar l a b = ev (dotv a los) (dotv b los) (dotv a b) (tri l).
Proof.
  intros [<-|[<-|[<-|[<-|[<-|[]]]]]]; cbn [tripolar tri]; unfold ev, rsum;
    cbn [map fold_right ev1 pow]; field.
Qed.

Definition low_b (l : list mono3) : bool := forallb (fun m : mono3 => let '(_, _, _, k) := m in (k <=? 2)%nat) l.
Lemma low_spec l : low_b l = true -> low l.
Proof.
  intros H c i j k I. unfold low_b in H. rewrite forallb_forall in H. specialize (H _ I).
  now apply Nat.leb_le.
Qed.

Lemma pair2 l m : In l case_poles -> In m case_poles ->
  pair_mean (fun a b => tripolar l a b * tripolar m a b) = plane_mean (turn (mulp (tri l) (tri m))).
Proof.
  intros Hl Hm. apply pair_mean_poly.
  - apply low_spec. revert Hl Hm.
    intros [<-|[<-|[<-|[<-|[<-|[]]]]]] [<-|[<-|[<-|[<-|[<-|[]]]]]]; reflexivity.
  - intros a b. now rewrite ev_mul, <- !tri_ev.
Qed.

Lemma pair3 l m n : In l case_poles -> In m case_poles -> In n case_poles ->
  low_b (mulp (tri l) (mulp (tri m) (tri n))) = true ->
  pair_mean (fun a b => tripolar l a b * (tripolar m a b * tripolar n a b))
  = plane_mean (turn (mulp (tri l) (mulp (tri m) (tri n)))).
Proof.
  intros Hl Hm Hn Hlow. apply pair_mean_poly; [now apply low_spec|].
  intros a b. now rewrite !ev_mul, <- !tri_ev.
Qed.

Ltac plane := unfold plane_mean, rsum;
  cbn [tri mulp flat_map map mul1 Nat.add turn turned app fold_right];
  unfold even_moment; cbn [pow INR]; try (field; fail); try lra.

Definition norm2 (l : list Z) : R :=
  match l with
  | [0; 0; 0]%Z => 1 | [1; 1; 0]%Z => 1 / 3 | [1; 1; 2]%Z => 1 / 6 | _ => 1 / 5
  end.

(** The functions are orthogonal and not zero. *)
Theorem tripolar_orthogonal l m : In l case_poles -> In m case_poles ->
  pair_mean (fun a b => tripolar l a b * tripolar m a b)
  = if meq l m then norm2 l else 0.
Proof.
  intros Hl Hm. rewrite pair2 by assumption. revert Hl Hm.
  intros [<-|[<-|[<-|[<-|[<-|[]]]]]] [<-|[<-|[<-|[<-|[<-|[]]]]]];
    cbn [meq norm2 Z.eqb Pos.eqb andb]; plane.
Qed.

(** Every coefficient of the table is the projection of the product of the
    two functions of the term on the function of the multipole. *)
Theorem sugiyama_exact f : build_formulae sugiyama19 = Ok f ->
  forall m ts t, lookup (f_dict f) m = Ok ts -> In t ts ->
    match t_Z t with
    | ZPole z => t_c t = pair_mean (fun a b => tripolar m a b * (tripolar (t_Q t) a b * tripolar z a b))
                         / pair_mean (fun a b => tripolar m a b * tripolar m a b)
    | ZIc => t_c t = - (pair_mean (fun a b => tripolar m a b * (tripolar (t_Q t) a b * 1))
                        / pair_mean (fun a b => tripolar m a b * tripolar m a b))
    end.
Proof.
  intros B m ts t E It. compute_formulae B. apply lookup_some_in in E. cbn [f_dict] in E.
  assert (I : forall l, existsb (meq l) case_poles = true -> In l case_poles).
  { intros l H. apply existsb_exists in H as (x & Ix & Ex). apply meq_spec in Ex. now subst. }
  destruct E as [E|[E|[E|[E|[]]]]]; injection E as <- <-;
    cbn [In] in It; repeat (destruct It as [<-|It]); try contradiction; cbn [t_Z t_Q t_c];
    rewrite tripolar_orthogonal by (apply I; reflexivity);
    try (match goal with |- context [pair_mean (fun a b => tripolar ?x a b * (tripolar ?y a b * 1))] =>
           change (fun a b => tripolar x a b * (tripolar y a b * 1)) with
             (fun a b => tripolar x a b * (tripolar y a b * tripolar [0; 0; 0]%Z a b)) end);
    rewrite pair3 by (try (apply I); reflexivity);
    cbn [meq norm2 Z.eqb Pos.eqb andb]; plane.
Qed.

(** The table stops at leading terms: a product of two quadrupoles has a
    monopole, which the formula of the monopole leaves out. *)
Theorem sugiyama_truncated f : build_formulae sugiyama19 = Ok f ->
  pair_mean (fun a b => tripolar [0; 0; 0]%Z a b * (tripolar [2; 0; 2]%Z a b * tripolar [2; 0; 2]%Z a b))
    = 1 / 5
  /\ forall ts t, lookup (f_dict f) [0; 0; 0]%Z = Ok ts -> In t ts ->
       ~ (t_Q t = [2; 0; 2]%Z /\ t_Z t = ZPole [2; 0; 2]%Z).
Proof.
  intros B. split.
  - rewrite pair3 by (try (cbn; tauto); reflexivity). plane.
  - intros ts t E It [E1 E2]. compute_formulae B. apply lookup_some_in in E. cbn [f_dict] in E.
    destruct E as [E|[E|[E|[E|[]]]]]; try discriminate; injection E as <-; cbn [In] in It;
      repeat (destruct It as [<-|It]); try contradiction; discriminate.
Qed.

Example sugiyama_case :
  pair_mean (fun a b => tripolar [1; 1; 2]%Z a b * (tripolar [2; 0; 2]%Z a b * tripolar [1; 1; 0]%Z a b))
  / pair_mean (fun a b => tripolar [1; 1; 2]%Z a b * tripolar [1; 1; 2]%Z a b) = 2 / 5.
Proof.
  rewrite tripolar_orthogonal by (cbn; tauto). rewrite pair3 by (try (cbn; tauto); reflexivity).
  cbn [meq norm2 Z.eqb Pos.eqb andb]. plane.
Qed.

Print Assumptions tripolar_orthogonal.
Print Assumptions sugiyama_exact.
Print Assumptions sugiyama_truncated.
