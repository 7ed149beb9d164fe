(* Properties of the normalisation and shot-noise amplitudes: C26 and C27. *)
From Coq Require Import Reals ZArith List Lia Lra Bool Permutation.
From Coquelicot Require Import Complex.
From Flocq Require Import Core.Raux.
From Verif Require Import Base ArrayModel ArrayProofs RSum MeshModel MeshProofs CSum SphHarmModel SphHarmProps
  CatModel CatProps NormModel.
Import ListNotations.
Open Scope R_scope.

(** ** C27: particle-based amplitudes *)

Lemma recip_ok x : x <> 0 -> recip x = Ok (1 / x).
Proof. intros N. unfold recip. destruct (Reqb x 0) eqn:E; [apply Reqb_spec in E; contradiction|reflexivity]. Qed.
Lemma recip_zero : recip 0 = Err NotANumber.
Proof. unfold recip. destruct (Reqb 0 0) eqn:E; [reflexivity|apply Reqb_false in E; congruence]. Qed.

Ltac nz := repeat first [assumption | exact R1_neq_R0 | apply Rmult_integral_contrapositive_currified].

(** The power-spectrum normalisation times [alpha] times the sum of [ws nz wc wc] is one; a zero
    sum and missing particles are refused, a zero [alpha] gives a non-finite value. *)
Theorem powspec_norm_reciprocal :
  forall c alpha,
  (pdata c = None -> powspec_norm_particles c alpha = Err InvalidData) /\
  forall ps, pdata c = Some ps ->
  let I2 := rsum (map (fun p => p_ws p * p_nz p * p_wc p * p_wc p) ps) in
  (I2 = 0 -> powspec_norm_particles c alpha = Err InvalidData) /\
  (I2 <> 0 -> alpha <> 0 -> exists v, powspec_norm_particles c alpha = Ok v /\ v * (alpha * I2) = 1) /\
  (I2 <> 0 -> alpha = 0 -> powspec_norm_particles c alpha = Err NotANumber).
Proof.
  intros c alpha. split; [unfold powspec_norm_particles; intros ->; reflexivity|].
  intros ps E I2. unfold powspec_norm_particles. rewrite E.
  assert (Q : I2_sum ps = I2) by (unfold I2_sum, I2; apply rsum_map_ext; intros; ring).
  rewrite Q. destruct (Reqb I2 0) eqn:Z; [apply Reqb_spec in Z|apply Reqb_false in Z].
  - split; [reflexivity|]. split; intros; contradiction.
  - split; [intros; contradiction|]. split.
    + intros _ A. exists (1 / (alpha * I2)). split; [apply recip_ok|field; auto].
      apply Rmult_integral_contrapositive_currified; assumption.
    + intros _ ->. rewrite Rmult_0_l. apply recip_zero.
Qed.

(** The same for the bispectrum with [ws nz nz wc wc wc]. *)
Theorem bispec_norm_reciprocal :
  forall c alpha,
  (pdata c = None -> bispec_norm_particles c alpha = Err InvalidData) /\
  forall ps, pdata c = Some ps ->
  let I3 := rsum (map (fun p => p_ws p * (p_nz p * p_nz p) * (p_wc p * p_wc p * p_wc p)) ps) in
  (I3 = 0 -> bispec_norm_particles c alpha = Err InvalidData) /\
  (I3 <> 0 -> alpha <> 0 -> exists v, bispec_norm_particles c alpha = Ok v /\ v * (alpha * I3) = 1) /\
  (I3 <> 0 -> alpha = 0 -> bispec_norm_particles c alpha = Err NotANumber).
Proof.
  intros c alpha. split; [unfold bispec_norm_particles; intros ->; reflexivity|].
  intros ps E I3. unfold bispec_norm_particles. rewrite E.
  assert (Q : I3_sum ps = I3) by (unfold I3_sum, I3; apply rsum_map_ext; intros; ring).
  rewrite Q. destruct (Reqb I3 0) eqn:Z; [apply Reqb_spec in Z|apply Reqb_false in Z].
  - split; [reflexivity|]. split; intros; contradiction.
  - split; [intros; contradiction|]. split.
    + intros _ A. exists (1 / (alpha * I3)). split; [apply recip_ok|field; auto].
      apply Rmult_integral_contrapositive_currified; assumption.
    + intros _ ->. rewrite Rmult_0_l. apply recip_zero.
Qed.

(** Rescaling sampling weights, densities and clustering weights of every particle. *)
Definition rescaled (a b g : R) (p p' : pdatum) : Prop :=
  p_ws p' = a * p_ws p /\ p_nz p' = b * p_nz p /\ p_wc p' = g * p_wc p.

Lemma rescaled_sum (f : pdatum -> R) k (Q : pdatum -> pdatum -> Prop) ps ps' :
  (forall p p', Q p p' -> f p' = k * f p) -> Forall2 Q ps ps' ->
  rsum (map f ps') = k * rsum (map f ps).
Proof.
  intros H F. induction F as [|p p' ps ps' R F IH]; cbn [map]; rewrite ?rsum_nil, ?rsum_cons; [ring|].
  rewrite IH, (H p p' R). ring.
Qed.

Theorem particle_norms_scale :
  forall c c' ps ps' a b g t alpha v, pdata c = Some ps -> pdata c' = Some ps' ->
  Forall2 (rescaled a b g) ps ps' -> a <> 0 -> b <> 0 -> g <> 0 -> t <> 0 ->
  (powspec_norm_particles c alpha = Ok v ->
   powspec_norm_particles c' (t * alpha) = Ok (v / (t * a * b * g ^ 2))) /\
  (bispec_norm_particles c alpha = Ok v ->
   bispec_norm_particles c' (t * alpha) = Ok (v / (t * a * b ^ 2 * g ^ 3))).
Proof.
  intros c c' ps ps' a b g t alpha v E E' F Ha Hb Hg Ht. split.
  - unfold powspec_norm_particles. rewrite E, E'.
    assert (Q : I2_sum ps' = a * b * g ^ 2 * I2_sum ps).
    { unfold I2_sum. apply rescaled_sum with (Q := rescaled a b g); [|exact F].
      intros p p' [-> [-> ->]]. ring. }
    rewrite Q. destruct (Reqb (I2_sum ps) 0) eqn:Z; [discriminate|]. apply Reqb_false in Z.
    unfold recip at 1. destruct (Reqb (alpha * I2_sum ps) 0) eqn:Y; [discriminate|]. apply Reqb_false in Y.
    intros V. injection V as <-.
    assert (K : a * b * g ^ 2 <> 0) by nz.
    destruct (Reqb (a * b * g ^ 2 * I2_sum ps) 0) eqn:X.
    { apply Reqb_spec in X. apply Rmult_integral in X. tauto. }
    assert (A : alpha <> 0) by (intros ->; apply Y; ring).
    rewrite recip_ok; [f_equal; field; repeat split; assumption|].
    nz.
  - unfold bispec_norm_particles. rewrite E, E'.
    assert (Q : I3_sum ps' = a * b ^ 2 * g ^ 3 * I3_sum ps).
    { unfold I3_sum. apply rescaled_sum with (Q := rescaled a b g); [|exact F].
      intros p p' [-> [-> ->]]. ring. }
    rewrite Q. destruct (Reqb (I3_sum ps) 0) eqn:Z; [discriminate|]. apply Reqb_false in Z.
    unfold recip at 1. destruct (Reqb (alpha * I3_sum ps) 0) eqn:Y; [discriminate|]. apply Reqb_false in Y.
    intros V. injection V as <-.
    assert (K : a * b ^ 2 * g ^ 3 <> 0) by nz.
    destruct (Reqb (a * b ^ 2 * g ^ 3 * I3_sum ps) 0) eqn:X.
    { apply Reqb_spec in X. apply Rmult_integral in X. tauto. }
    assert (A : alpha <> 0) by (intros ->; apply Y; ring).
    rewrite recip_ok; [f_equal; field; repeat split; assumption|].
    nz.
Qed.

(** With non-negative columns a refused catalogue has no particle with positive [ws], [nz] and
    [wc]; otherwise the factor is positive. *)
Lemma rsum_zero_terms {A} (f : A -> R) l : (forall x, In x l -> 0 <= f x) -> rsum (map f l) = 0 ->
  forall x, In x l -> f x = 0.
Proof.
  induction l as [|y l IH]; intros P Z x I; [destruct I|]. cbn [map] in Z. rewrite rsum_cons in Z.
  assert (Fy : 0 <= f y) by (apply P; left; reflexivity).
  assert (B : 0 <= rsum (map f l)).
  { apply rsum_nonneg. intros z Hz. apply in_map_iff in Hz. destruct Hz as [w [<- W]]. apply P. right. exact W. }
  destruct I as [<-|I]; [lra|]. apply IH; [intros z Hz; apply P; right; exact Hz|lra|exact I].
Qed.

Theorem particle_norms_refusal :
  forall c ps alpha, pdata c = Some ps ->
  (forall p, In p ps -> 0 <= p_ws p /\ 0 <= p_nz p /\ 0 <= p_wc p) -> 0 < alpha ->
  ((exists p, In p ps /\ 0 < p_ws p /\ 0 < p_nz p /\ 0 < p_wc p) ->
   exists v2 v3, powspec_norm_particles c alpha = Ok v2 /\ 0 < v2 /\
                 bispec_norm_particles c alpha = Ok v3 /\ 0 < v3) /\
  (~ (exists p, In p ps /\ 0 < p_ws p /\ 0 < p_nz p /\ 0 < p_wc p) ->
   powspec_norm_particles c alpha = Err InvalidData /\ bispec_norm_particles c alpha = Err InvalidData).
Proof.
  intros c ps alpha E Pos Ha.
  assert (T2 : forall p, In p ps -> 0 <= p_ws p * p_nz p * p_wc p ^ 2).
  { intros p I. destruct (Pos p I) as [A [B D]]. apply Rmult_le_pos; [apply Rmult_le_pos; assumption|apply pow_le, D]. }
  assert (T3' : forall p, In p ps -> 0 <= p_ws p * p_nz p ^ 2 * p_wc p ^ 3).
  { intros p I. destruct (Pos p I) as [A [B D]].
    apply Rmult_le_pos; [apply Rmult_le_pos; [assumption|apply pow_le, B]|apply pow_le, D]. }
  assert (S2 : 0 <= I2_sum ps).
  { apply rsum_nonneg. intros x I. apply in_map_iff in I. destruct I as [p [<- I]]. apply T2, I. }
  assert (S3 : 0 <= I3_sum ps).
  { apply rsum_nonneg. intros x I. apply in_map_iff in I. destruct I as [p [<- I]]. apply T3', I. }
  unfold powspec_norm_particles, bispec_norm_particles. rewrite E. split.
  - intros [p [I [A [B D]]]].
    assert (N2 : I2_sum ps <> 0).
    { intros Z. assert (Q := rsum_zero_terms _ _ T2 Z p I). cbv beta in Q.
      assert (0 < p_ws p * p_nz p * p_wc p ^ 2); [|lra].
      apply Rmult_lt_0_compat; [apply Rmult_lt_0_compat; assumption|apply pow_lt, D]. }
    assert (N3 : I3_sum ps <> 0).
    { intros Z. assert (Q := rsum_zero_terms _ _ T3' Z p I). cbv beta in Q.
      assert (0 < p_ws p * p_nz p ^ 2 * p_wc p ^ 3); [|lra].
      apply Rmult_lt_0_compat; [apply Rmult_lt_0_compat; [assumption|apply pow_lt, B]|apply pow_lt, D]. }
    destruct (Reqb (I2_sum ps) 0) eqn:Z2; [apply Reqb_spec in Z2; contradiction|].
    destruct (Reqb (I3_sum ps) 0) eqn:Z3; [apply Reqb_spec in Z3; contradiction|].
    assert (P2 : 0 < alpha * I2_sum ps) by (apply Rmult_lt_0_compat; lra).
    assert (P3 : 0 < alpha * I3_sum ps) by (apply Rmult_lt_0_compat; lra).
    exists (1 / (alpha * I2_sum ps)), (1 / (alpha * I3_sum ps)).
    rewrite !recip_ok by lra. unfold Rdiv. rewrite !Rmult_1_l.
    split; [reflexivity|]. split; [apply Rinv_0_lt_compat, P2|]. split; [reflexivity|]. apply Rinv_0_lt_compat, P3.
  - intros N.
    assert (Zero : forall p, In p ps -> p_ws p = 0 \/ p_nz p = 0 \/ p_wc p = 0).
    { intros p I. destruct (Pos p I) as [A [B D]].
      destruct A as [A|A]; [|auto]. destruct B as [B|B]; [|auto]. destruct D as [D|D]; [|auto].
      exfalso. apply N. exists p. auto. }
    assert (Z2 : I2_sum ps = 0).
    { apply rsum_map_zero. intros p I. destruct (Zero p I) as [-> | [-> | ->]]; ring. }
    assert (Z3 : I3_sum ps = 0).
    { apply rsum_map_zero. intros p I. destruct (Zero p I) as [-> | [-> | ->]]; ring. }
    rewrite Z2, Z3. destruct (Reqb 0 0) eqn:Q; [auto|apply Reqb_false in Q; congruence].
Qed.

(** Independent of the order of the particles. *)
Theorem particle_amplitudes_order :
  forall c c' ps ps' alpha, pdata c = Some ps -> pdata c' = Some ps' -> Permutation ps ps' ->
  powspec_norm_particles c alpha = powspec_norm_particles c' alpha /\
  bispec_norm_particles c alpha = bispec_norm_particles c' alpha /\
  powspec_shotnoise_particles c alpha = powspec_shotnoise_particles c' alpha.
Proof.
  intros c c' ps ps' alpha E E' P.
  unfold powspec_norm_particles, bispec_norm_particles, powspec_shotnoise_particles. rewrite E, E'.
  assert (Q2 : I2_sum ps = I2_sum ps') by (apply rsum_map_perm, P).
  assert (Q3 : I3_sum ps = I3_sum ps') by (apply rsum_map_perm, P).
  rewrite Q2, Q3. split; [reflexivity|]. split; [reflexivity|]. f_equal. apply rsum_map_perm, P.
Qed.

(** Reciprocals add over disjoint catalogues. *)
Theorem particle_norms_additive :
  forall c1 c2 c ps1 ps2 alpha v1 v2 v,
  pdata c1 = Some ps1 -> pdata c2 = Some ps2 -> pdata c = Some (ps1 ++ ps2) ->
  (powspec_norm_particles c1 alpha = Ok v1 -> powspec_norm_particles c2 alpha = Ok v2 ->
   powspec_norm_particles c alpha = Ok v -> / v = / v1 + / v2) /\
  (bispec_norm_particles c1 alpha = Ok v1 -> bispec_norm_particles c2 alpha = Ok v2 ->
   bispec_norm_particles c alpha = Ok v -> / v = / v1 + / v2).
Proof.
  assert (Inv : forall x w, recip x = Ok w -> / w = x).
  { intros x w. unfold recip. destruct (Reqb x 0); [discriminate|]. intros W. injection W as <-.
    unfold Rdiv. rewrite Rmult_1_l. apply Rinv_inv. }
  intros c1 c2 c ps1 ps2 alpha v1 v2 v E1 E2 E. split.
  - unfold powspec_norm_particles. rewrite E1, E2, E.
    destruct (Reqb (I2_sum ps1) 0); [discriminate|]. destruct (Reqb (I2_sum ps2) 0); [discriminate|].
    destruct (Reqb (I2_sum (ps1 ++ ps2)) 0); [discriminate|].
    intros V1 V2 V. apply Inv in V1, V2, V. rewrite V1, V2, V. unfold I2_sum. rewrite map_app, rsum_app. ring.
  - unfold bispec_norm_particles. rewrite E1, E2, E.
    destruct (Reqb (I3_sum ps1) 0); [discriminate|]. destruct (Reqb (I3_sum ps2) 0); [discriminate|].
    destruct (Reqb (I3_sum (ps1 ++ ps2)) 0); [discriminate|].
    intros V1 V2 V. apply Inv in V1, V2, V. rewrite V1, V2, V. unfold I3_sum. rewrite map_app, rsum_app. ring.
Qed.

(** The shot-noise amplitude: a sum of squared weights, whatever [alpha]. *)
Theorem shotnoise_particles :
  forall c alpha,
  (pdata c = None -> powspec_shotnoise_particles c alpha = Err InvalidData) /\
  forall ps, pdata c = Some ps ->
  exists v, powspec_shotnoise_particles c alpha = Ok v /\
    v = rsum (map (fun p => (p_ws p * p_wc p) * (p_ws p * p_wc p)) ps) /\
    0 <= v /\ (v = 0 <-> forall p, In p ps -> p_ws p * p_wc p = 0).
Proof.
  intros c alpha. unfold powspec_shotnoise_particles. split; [intros ->; reflexivity|].
  intros ps E. rewrite E. eexists. split; [reflexivity|].
  assert (Q : rsum (map (fun p => p_ws p ^ 2 * p_wc p ^ 2) ps) =
              rsum (map (fun p => (p_ws p * p_wc p) * (p_ws p * p_wc p)) ps)).
  { apply rsum_map_ext. intros; ring. }
  split; [exact Q|]. rewrite Q.
  assert (P : forall p, In p ps -> 0 <= (p_ws p * p_wc p) * (p_ws p * p_wc p)) by (intros; apply Rle_0_sqr).
  split.
  - apply rsum_nonneg. intros x I. apply in_map_iff in I. destruct I as [p [<- I]]. apply P, I.
  - split.
    + intros Z p I. apply Rsqr_0_uniq. unfold Rsqr. exact (rsum_zero_terms _ _ P Z p I).
    + intros H. apply rsum_map_zero. intros p I. rewrite (H p I). ring.
Qed.

(** The spherical-harmonic weighted shot noise at degree and order zero is the sum of the weights
    to the given power, data plus [alpha] to that power times random; for loaded catalogues and
    power two each sum is the particle shot noise. *)
Lemma csum_RtoC {A} (f : A -> R) l : csum (map (fun x => RtoC (f x)) l) = RtoC (rsum (map f l)).
Proof.
  induction l as [|x l IH]; [reflexivity|]. cbn [map]. rewrite csum_cons, rsum_cons, IH, RtoC_plus. reflexivity.
Qed.

Lemma ylm_sum_00 P q los ps : length los = length ps ->
  ylm_wgtd_sum P q 0 0 los ps = RtoC (rsum (map (fun p => p_w p ^ q) ps)).
Proof.
  unfold ylm_wgtd_sum. revert ps. induction los as [|[[x y] z] los IH]; intros [|p ps] L; try discriminate; [reflexivity|].
  cbn [combine map]. rewrite csum_cons, rsum_cons, IH by (cbn in L; lia). rewrite RtoC_plus. f_equal.
  cbn [reduced_ylm Z.eqb andb]. apply Cmult_1_l.
Qed.

Theorem ylm_shotnoise_monopole :
  forall P q alpha los_data los_rand data rand,
  length los_data = length data -> length los_rand = length rand ->
  ylm_wgtd_shotnoise P q 0 0 alpha los_data los_rand data rand =
    RtoC (rsum (map (fun p => p_w p ^ q) data) + alpha ^ q * rsum (map (fun p => p_w p ^ q) rand)) /\
  ylm_wgtd_shotnoise1 P q 0 0 alpha los_data data = RtoC (alpha ^ q * rsum (map (fun p => p_w p ^ q) data)).
Proof.
  intros P q alpha ld lr d r L1 L2. unfold ylm_wgtd_shotnoise, ylm_wgtd_shotnoise1.
  rewrite (ylm_sum_00 P q ld d L1), (ylm_sum_00 P q lr r L2). split.
  - rewrite RtoC_plus, RtoC_mult. reflexivity.
  - rewrite RtoC_mult. reflexivity.
Qed.

Theorem shotnoise_agreement :
  forall P c ps los alpha v, pdata c = Some ps -> (forall p, In p ps -> p_w p = p_ws p * p_wc p) ->
  length los = length ps -> powspec_shotnoise_particles c alpha = Ok v ->
  ylm_wgtd_shotnoise1 P 2 0 0 1 los ps = RtoC v.
Proof.
  intros P c ps los alpha v E W L V. destruct (shotnoise_particles c alpha) as [_ S]. destruct (S ps E) as [v' [V' [Q _]]].
  rewrite V in V'. injection V' as <-. destruct (ylm_shotnoise_monopole P 2 1 los los ps ps L L) as [_ ->].
  f_equal. rewrite Q, pow1, Rmult_1_l. apply rsum_map_ext. intros p I. rewrite (W p I). ring.
Qed.

(** Mirror symmetry in the order, as for the harmonics. *)
Theorem ylm_shotnoise_mirror :
  forall P q l m alpha los_data los_rand data rand,
  ylm_wgtd_shotnoise P q l (- m) alpha los_data los_rand data rand =
  (RtoC (sign m) * Cconj (ylm_wgtd_shotnoise P q l m alpha los_data los_rand data rand))%C.
Proof.
  assert (H : forall P q l m los ps, ylm_wgtd_sum P q l (- m) los ps =
    (RtoC (sign m) * Cconj (ylm_wgtd_sum P q l m los ps))%C).
  { intros P q l m los ps. unfold ylm_wgtd_sum. rewrite csum_conj, map_map, <- csum_map_scal.
    apply csum_map_ext. intros [v p] _. rewrite ylm_opposite_order, Cconj_mult, Cconj_RtoC. ring. }
  intros P q l m alpha ld lr d r. unfold ylm_wgtd_shotnoise. rewrite !H, Cconj_plus, Cconj_mult, Cconj_RtoC. ring.
Qed.

(** ** C26: mixed-mesh normalisation *)

Lemma tsub_axis i u v : at_axis i (tsub u v) = at_axis i u - at_axis i v.
Proof. destruct i; reflexivity. Qed.
Lemma triple_ext (u v : triple R) : (forall i, at_axis i u = at_axis i v) -> u = v.
Proof.
  intros H. destruct u, v. f_equal; [apply (H AX)|apply (H AY)|apply (H AZ)].
Qed.

Lemma shift_back d d' ps : (forall i, at_axis i d' = - at_axis i d) ->
  map (shift_pos d') (map (shift_pos d) ps) = ps.
Proof.
  intros H. rewrite map_map. rewrite <- (map_id ps) at 2. apply map_ext. intros [u nz ws wc w].
  unfold shift_pos. cbn [p_pos p_nz p_ws p_wc p_w]. f_equal. apply triple_ext. intros i.
  rewrite !tsub_axis, H. ring.
Qed.

Lemma refresh_current_id c ps : has c ps -> extents_current c -> refresh c ps = c.
Proof.
  intros [E N] X. unfold extents_current in X. rewrite E in X. destruct c as [pd w ws lo hi sp]. cbn [pdata] in E. subst pd.
  assert (A : forall i, at_axis i (pos_min (refresh (Catalogue (Some ps) w ws lo hi sp) ps)) = at_axis i lo /\
                        at_axis i (pos_max (refresh (Catalogue (Some ps) w ws lo hi sp) ps)) = at_axis i hi).
  { intros i. apply (extremes_unique i ps); [apply refresh_extremes, N|apply X]. }
  assert (B : forall i, at_axis i (pos_span (refresh (Catalogue (Some ps) w ws lo hi sp) ps)) = at_axis i sp).
  { intros i. rewrite refresh_span by exact N. destruct (A i) as [-> ->]. symmetry. apply X. }
  destruct ps as [|p ps]; [congruence|]. cbn [refresh] in *. cbn [pos_min pos_max pos_span] in *.
  f_equal; apply triple_ext; intros i; [apply A|apply A|apply B].
Qed.

(** Moving by [d] and then back by the change of the kept minimum. *)
Lemma restore_one s a d ps : has (s a) ps -> extents_current (s a) ->
  forall s1, s1 a = shifted d (s a) ps ->
  exists s2, offset_coords a (tsub (pos_min (s1 a)) (pos_min (s a))) s1 = (s2, Ok tt) /\
    s2 a = s a /\ (forall b, b <> a -> s2 b = s1 b).
Proof.
  intros H X s1 E1.
  assert (H1 : has (s1 a) (map (shift_pos d) ps)) by (rewrite E1; apply shifted_has, H).
  assert (D : forall i, at_axis i (tsub (pos_min (s1 a)) (pos_min (s a))) = - at_axis i d).
  { intros i. rewrite tsub_axis, E1. assert (X' := X). unfold extents_current in X'. rewrite (proj1 H) in X'.
    destruct (shifted_extremes i d (s a) ps _ _ (proj2 H) (proj1 (X' i))) as [-> _]. ring. }
  destruct (offset_run s1 a (tsub (pos_min (s1 a)) (pos_min (s a))) _ H1) as [s2 [R F]].
  exists s2. split; [exact R|]. split.
  - rewrite F, Nat.eqb_refl. unfold shifted at 1. rewrite (shift_back d _ ps D).
    transitivity (refresh (s a) ps); [|apply refresh_current_id; assumption]. apply refresh_ext; [| |apply H].
    + rewrite E1. apply refresh_weights.
    + rewrite E1. apply refresh_weights.
  - intros b Nb. rewrite F. apply Nat.eqb_neq in Nb. rewrite Nb. reflexivity.
Qed.

Lemma shift_zero ps : map (shift_pos (T3 0 0 0)) ps = ps.
Proof.
  rewrite <- (map_id ps) at 2. apply map_ext. intros [u nz ws wc w]. unfold shift_pos. cbn [p_pos p_nz p_ws p_wc p_w].
  f_equal. apply triple_ext. intros i. rewrite tsub_axis. destruct i; cbn; ring.
Qed.

(** The alignment shift, from the reference extents. *)
Definition align_shift (al : alignment) (g : mesh_params) (padfactor : R) (cb : catalogue) : triple R :=
  let pad := T3 padfactor padfactor padfactor in
  match al with
  | AlignPad PadGrid => tsub (pos_min cb) (grid_pad (boxsize g) (ngrid g) pad)
  | AlignPad PadBox => tsub (pos_min cb) (tmap2 Rmult pad (boxsize g))
  | AlignPad PadOther => T3 0 0 0
  | AlignCentre => tmap2 (fun m l => m - l / 2) (tmap2 (fun lo hi => (lo + hi) / 2) (pos_min cb) (pos_max cb)) (boxsize g)
  | AlignOther => T3 0 0 0
  end.

Lemma align_run s a b al g padfactor psa psb : a <> b -> has (s a) psa -> has (s b) psb ->
  extents_current (s a) -> extents_current (s b) ->
  exists s', align a b al g padfactor s = (s', Ok tt) /\
    s' a = shifted (align_shift al g padfactor (s b)) (s a) psa /\
    s' b = shifted (align_shift al g padfactor (s b)) (s b) psb /\
    (forall c, c <> a -> c <> b -> s' c = s c).
Proof.
  intros N Ha Hb Xa Xb. assert (Rb := refresh_current_id (s b) psb Hb Xb).
  assert (Still : forall c ps, has c ps -> extents_current c -> shifted (T3 0 0 0) c ps = c).
  { intros c ps H X. unfold shifted. rewrite shift_zero. apply refresh_current_id; assumption. }
  destruct al as [[| |]| |]; unfold align, align_shift.
  - destruct (align_general s a b psa psb
      (fun c => tsub (pos_min c) (tmap2 Rmult (T3 padfactor padfactor padfactor) (boxsize g))) N Ha Hb)
      as [s' [E [Fb [Fa M]]]]. rewrite Rb in Fa, Fb.
    exists s'. split; [exact E|]. split; [exact Fa|]. split; [exact Fb|]. apply M.
  - destruct (align_general1 s a b psa psb
      (fun c => tsub (pos_min c) (grid_pad (boxsize g) (ngrid g) (T3 padfactor padfactor padfactor))) N Ha Hb)
      as [s' [E [Fb [Fa M]]]]. rewrite Rb in Fa, Fb.
    exists s'. split; [exact E|]. split; [exact Fa|]. split; [exact Fb|]. apply M.
  - exists s. rewrite !Still by assumption. repeat split.
  - destruct (align_general s a b psa psb
      (fun c => tmap2 (fun m l => m - l / 2) (tmap2 (fun lo hi => (lo + hi) / 2) (pos_min c) (pos_max c)) (boxsize g)) N Ha Hb)
      as [s' [E [Fb [Fa M]]]]. rewrite Rb in Fa, Fb.
    exists s'. split; [exact E|]. split; [exact Fa|]. split; [exact Fb|]. apply M.
  - exists s. rewrite !Still by assumption. repeat split.
Qed.

(** Result and effect for distinct initialised catalogues. *)
Lemma mixed_norm_run s a b al sch g padfactor alpha psa psb :
  a <> b -> has (s a) psa -> has (s b) psb -> extents_current (s a) -> extents_current (s b) ->
  exists s', mixed_norm a b al sch g padfactor alpha s =
      (s', Ok (recip (alpha * vol_cell g *
         mixed_sum sch g (map (shift_pos (align_shift al g padfactor (s b))) psa)
                         (map (shift_pos (align_shift al g padfactor (s b))) psb)))) /\
    forall c, s' c = s c.
Proof.
  intros N Ha Hb Xa Xb. unfold mixed_norm. unfold andthen at 1, get at 1. cbn [fst snd].
  unfold andthen at 1, get at 1. cbn [fst snd]. unfold andthen at 1.
  destruct (align_run s a b al g padfactor psa psb N Ha Hb Xa Xb) as [s1 [E1 [Fa [Fb Fc]]]]. rewrite E1.
  set (d := align_shift al g padfactor (s b)) in *.
  unfold andthen at 1, get at 1. cbn [fst snd]. unfold andthen at 1, get at 1. cbn [fst snd].
  destruct (restore_one s a d psa Ha Xa s1 Fa) as [s2 [E2 [G2 H2]]]. unfold andthen at 1. rewrite E2.
  assert (Fb2 : s2 b = shifted d (s b) psb) by (rewrite H2 by auto; exact Fb).
  assert (Eb : s1 b = s2 b) by (symmetry; apply H2; auto). rewrite Eb.
  destruct (restore_one s b d psb Hb Xb s2 Fb2) as [s3 [E3 [G3 H3]]]. unfold andthen at 1. rewrite E3.
  exists s3. split.
  - unfold ret. rewrite Fa, Fb2. unfold particles_of.
    rewrite (proj1 (shifted_has d (s a) psa (proj2 Ha))), (proj1 (shifted_has d (s b) psb (proj2 Hb))). reflexivity.
  - intros c. destruct (Nat.eq_dec c b) as [->|Nb]; [exact G3|]. rewrite H3 by exact Nb.
    destruct (Nat.eq_dec c a) as [->|Na]; [exact G2|]. rewrite H2 by exact Na. apply Fc; assumption.
Qed.

(** The catalogues are left as they were: positions, extents and all else, for any two distinct
    catalogue objects holding particles, however they were obtained. *)
Theorem mixed_norm_restores :
  forall s a b al sch g padfactor alpha psa psb,
  reached s -> a <> b -> has (s a) psa -> has (s b) psb ->
  exists s' v, mixed_norm a b al sch g padfactor alpha s = (s', Ok v) /\ forall c, s' c = s c.
Proof.
  intros s a b al sch g padfactor alpha psa psb Re N Ha Hb.
  destruct (catalogues_in_step s Re a) as [_ [Xa _]]. destruct (catalogues_in_step s Re b) as [_ [Xb _]].
  destruct (mixed_norm_run s a b al sch g padfactor alpha psa psb N Ha Hb Xa Xb) as [s' [E F]].
  exists s'. eexists. split; [exact E|exact F].
Qed.

Theorem mixed_norm_box_restores :
  forall s a b al sch padfactor alpha padding cellsize psa psb,
  reached s -> a <> b -> has (s a) psa -> has (s b) psb ->
  exists s' v, mixed_norm_box a b al sch padfactor alpha padding cellsize s = (s', Ok v) /\ forall c, s' c = s c.
Proof.
  intros s a b al sch padfactor alpha padding cellsize psa psb Re N Ha Hb.
  unfold mixed_norm_box. unfold andthen at 1, get at 1. cbn [fst snd]. unfold andthen at 1, get at 1. cbn [fst snd].
  destruct (norm_box (pos_span (s a)) (pos_span (s b)) padding cellsize) as [n l].
  apply (mixed_norm_restores s a b al sch _ padfactor alpha psa psb); assumption.
Qed.

(** The value does not depend on where the pair of catalogues sits: moving both by one vector
    beforehand changes nothing when the catalogues are padded or centred. *)
Theorem mixed_norm_translation :
  forall s a b t sch g padfactor alpha psa psb al,
  reached s -> a <> b -> has (s a) psa -> has (s b) psb ->
  al = AlignPad PadBox \/ al = AlignPad PadGrid \/ al = AlignCentre ->
  exists s0 s1 s2 v, (offset_coords b t ;> offset_coords a t) s = (s0, Ok tt) /\
    mixed_norm a b al sch g padfactor alpha s = (s1, Ok v) /\
    mixed_norm a b al sch g padfactor alpha s0 = (s2, Ok v).
Proof.
  intros s a b t sch g padfactor alpha psa psb al Re N Ha Hb Al.
  destruct (catalogues_in_step s Re a) as [_ [Xa _]]. destruct (catalogues_in_step s Re b) as [_ [Xb _]].
  destruct (offset_two s a b t psa psb N Ha Hb) as [s0 [E0 [Fa [Fb Fc]]]].
  assert (Ha0 : has (s0 a) (map (shift_pos t) psa)) by (rewrite Fa; apply shifted_has, Ha).
  assert (Hb0 : has (s0 b) (map (shift_pos t) psb)) by (rewrite Fb; apply shifted_has, Hb).
  assert (Xa0 : extents_current (s0 a)) by (rewrite Fa; apply refresh_current, map_nonempty, Ha).
  assert (Xb0 : extents_current (s0 b)) by (rewrite Fb; apply refresh_current, map_nonempty, Hb).
  destruct (mixed_norm_run s a b al sch g padfactor alpha psa psb N Ha Hb Xa Xb) as [s1 [E1 _]].
  destruct (mixed_norm_run s0 a b al sch g padfactor alpha _ _ N Ha0 Hb0 Xa0 Xb0) as [s2 [E2 _]].
  exists s0, s1, s2. eexists. split; [exact E0|]. split; [exact E1|]. rewrite E2.
  assert (D : forall i, at_axis i (align_shift al g padfactor (s0 b)) = at_axis i (align_shift al g padfactor (s b)) - at_axis i t).
  { intros i. assert (X := Xb). unfold extents_current in X. rewrite (proj1 Hb) in X.
    destruct (shifted_extremes i t (s b) psb _ _ (proj2 Hb) (proj1 (X i))) as [Q1 Q2]. rewrite <- Fb in Q1, Q2.
    destruct Al as [-> | [-> | ->]]; destruct i; cbn [align_shift at_axis tsub tmap2 ax0 ax1 ax2] in *; rewrite ?Q1, ?Q2; lra. }
  assert (M : forall ps, map (shift_pos (align_shift al g padfactor (s0 b))) (map (shift_pos t) ps) =
                         map (shift_pos (align_shift al g padfactor (s b))) ps).
  { intros ps. rewrite map_map. apply map_ext. intros [u nz ws wc w]. unfold shift_pos. cbn [p_pos p_nz p_ws p_wc p_w].
    f_equal. apply triple_ext. intros i. rewrite !tsub_axis, D. ring. }
  rewrite !M. reflexivity.
Qed.

(** One object in both roles is not restored. *)
Lemma reached_load s a x y z nz ws wc s' r : reached s ->
  load_particle_data a x y z nz ws wc s = (s', r) -> reached s'.
Proof.
  intros H E. replace s' with (fst (run_op (OpLoad a x y z nz ws wc) s)); [constructor; exact H|].
  cbn [run_op]. rewrite E. reflexivity.
Qed.

Lemma offset_min s a d ps lo hi i : has (s a) ps -> extremes i ps lo hi ->
  exists s', offset_coords a d s = (s', Ok tt) /\ has (s' a) (map (shift_pos d) ps) /\
    at_axis i (pos_min (s' a)) = lo - at_axis i d /\ extremes i (map (shift_pos d) ps) (lo - at_axis i d) (hi - at_axis i d).
Proof.
  intros H X. destruct (offset_run s a d ps H) as [s' [E F]]. exists s'. split; [exact E|].
  rewrite F, Nat.eqb_refl. split; [apply shifted_has, H|].
  split; [apply (shifted_extremes i d (s a) ps lo hi (proj2 H) X)|apply shift_extremes, X].
Qed.

Theorem mixed_norm_alias_refuted :
  exists s a g ps, reached s /\ has (s a) ps /\
    forall sch alpha, exists s' v, mixed_norm a a AlignCentre sch g 0 alpha s = (s', Ok v) /\
      pdata (s' a) <> pdata (s a).
Proof.
  set (s0 := fun _ : nat => catalogue_new).
  destruct (load_particle_data_spec s0 0 [0; 2] [0; 2] [0; 2] [1; 1] [1; 1] [1; 1]) as [L _].
  destruct L as [s1 [ps [R1 [H1 [N1 [Rows1 [_ [_ [X1 _]]]]]]]]]; [repeat split; cbn; lia|].
  assert (K1 : reached s1) by (apply (reached_load s0 _ _ _ _ _ _ _ s1 _ reached_new R1)).
  exists s1, 0%nat, (MeshParams (T3 4%Z 4%Z 4%Z) (T3 4 4 4) 1), ps. split; [exact K1|]. split; [exact H1|].
  intros sch alpha.
  assert (X : extremes AX ps 0 2).
  { destruct ps as [|p0 [|p1 [|? ?]]]; try discriminate.
    destruct (Rows1 0%nat p0 eq_refl) as [P0x _]. destruct (Rows1 1%nat p1 eq_refl) as [P1x _]. cbn [nth_error] in *.
    injection P0x as P0x. injection P1x as P1x. split; [|split].
    - exists p0. split; [left; reflexivity|symmetry; exact P0x].
    - exists p1. split; [right; left; reflexivity|symmetry; exact P1x].
    - intros p [<-|[<-|[]]]; cbn [at_axis]; lra. }
  assert (M0 : at_axis AX (pos_min (s1 0%nat)) = 0).
  { assert (X' := X1). unfold extents_current in X'. rewrite (proj1 H1) in X'.
    apply (extremes_unique AX ps _ _ _ _ (proj1 (X' AX)) X). }
  destruct (single_run s1 0 ps H1 (T3 4 4 4)) as [s2 [E2 Sum2]].
  (* the particles after centring *)
  assert (P2 : exists ps2, has (s2 0%nat) ps2 /\ extremes AX ps2 2 4 /\ at_axis AX (pos_min (s2 0%nat)) = 2).
  { unfold centre_in_box in E2. unfold andthen at 1 in E2. rewrite (extents_run s1 0 ps H1) in E2.
    rewrite (refresh_current_id (s1 0%nat) ps H1 X1) in E2. unfold andthen at 1 in E2.
    set (s1' := upd s1 0 (s1 0%nat)) in E2.
    assert (B : s1' 0%nat = s1 0%nat) by apply upd_same.
    assert (H1' : has (s1' 0%nat) ps) by (rewrite B; exact H1).
    assert (X1' : extents_current (s1' 0%nat)) by (rewrite B; exact X1).
    rewrite (extents_run s1' 0 ps H1') in E2. rewrite (refresh_current_id _ ps H1' X1') in E2.
    set (s1'' := upd s1' 0 (s1' 0%nat)) in E2.
    assert (B' : s1'' 0%nat = s1 0%nat) by (unfold s1''; rewrite upd_same; exact B).
    assert (H1'' : has (s1'' 0%nat) ps) by (rewrite B'; exact H1).
    unfold andthen at 1, get in E2. cbn [fst snd] in E2. cbv zeta in E2. rewrite B' in E2.
    match type of E2 with (offset_coords 0 ?v ;> _) _ = _ => set (d := v) in E2 end.
    assert (D : at_axis AX d = -1).
    { assert (X' := X1). unfold extents_current in X'. rewrite (proj1 H1) in X'.
      destruct (extremes_unique AX ps _ _ _ _ (proj1 (X' AX)) X) as [Q1 Q2].
      unfold d. cbn [at_axis tmap2 ax0] in *. rewrite Q1, Q2. lra. }
    destruct (offset_min s1'' 0 d ps 0 2 AX H1'' X) as [s3 [E3 [H3 [_ X3]]]].
    unfold andthen in E2. rewrite E3 in E2.
    destruct (offset_min s3 0 d _ _ _ AX H3 X3) as [s4 [E4 [H4 [M4 X4]]]].
    rewrite E4 in E2. injection E2 as <-. exists (map (shift_pos d) (map (shift_pos d) ps)).
    split; [exact H4|]. rewrite D in X4, M4.
    replace (0 - -1 - -1) with 2 in X4 by ring. replace (2 - -1 - -1) with 4 in X4 by ring.
    split; [exact X4|]. rewrite M4. ring. }
  destruct P2 as [ps2 [H2 [X2 M2]]].
  unfold mixed_norm. unfold andthen at 1, get at 1. cbn [fst snd]. unfold andthen at 1, get at 1. cbn [fst snd].
  unfold andthen at 1. cbn [align boxsize]. rewrite E2.
  unfold andthen at 1, get at 1. cbn [fst snd]. unfold andthen at 1, get at 1. cbn [fst snd]. cbv zeta.
  set (o := tsub (pos_min (s2 0%nat)) (pos_min (s1 0%nat))).
  assert (O : at_axis AX o = 2) by (unfold o; rewrite tsub_axis, M2, M0; ring).
  destruct (offset_min s2 0 o ps2 _ _ AX H2 X2) as [s3 [E3 [H3 [_ X3]]]].
  unfold andthen at 1. rewrite E3.
  destruct (offset_min s3 0 o _ _ _ AX H3 X3) as [s4 [E4 [H4 [M4 X4]]]].
  unfold andthen at 1. rewrite E4. exists s4. eexists. split; [reflexivity|].
  intros Same. rewrite (proj1 H4), (proj1 H1) in Same. injection Same as Same. rewrite Same in X4.
  destruct (extremes_unique AX ps _ _ _ _ X4 X) as [Q _]. rewrite O in Q. lra.
Qed.

(** With an empty data catalogue and grid padding the call fails and leaves the random catalogue
    moved. *)
Theorem mixed_norm_failure_refuted :
  exists s a b g ps, reached s /\ a <> b /\ pdata (s a) = None /\ has (s b) ps /\
    forall sch alpha, exists s', mixed_norm a b (AlignPad PadGrid) sch g 1 alpha s = (s', Err InvalidData) /\
      pdata (s' b) <> pdata (s b).
Proof.
  set (s0 := fun _ : nat => catalogue_new).
  destruct (load_particle_data_spec s0 1 [5; 7] [5; 7] [5; 7] [1; 1] [1; 1] [1; 1]) as [L _].
  destruct L as [s1 [ps [R1 [H1 [N1 [Rows1 [_ [_ [X1 F1]]]]]]]]]; [repeat split; cbn; lia|].
  assert (K1 : reached s1) by (apply (reached_load s0 _ _ _ _ _ _ _ s1 _ reached_new R1)).
  exists s1, 0%nat, 1%nat, (MeshParams (T3 4%Z 4%Z 4%Z) (T3 4 4 4) 1), ps.
  assert (N0 : pdata (s1 0%nat) = None) by (rewrite F1 by discriminate; reflexivity).
  split; [exact K1|]. split; [discriminate|]. split; [exact N0|]. split; [exact H1|].
  intros sch alpha.
  assert (X : extremes AX ps 5 7).
  { destruct ps as [|p0 [|p1 [|? ?]]]; try discriminate.
    destruct (Rows1 0%nat p0 eq_refl) as [P0x _]. destruct (Rows1 1%nat p1 eq_refl) as [P1x _]. cbn [nth_error] in *.
    injection P0x as P0x. injection P1x as P1x. split; [|split].
    - exists p0. split; [left; reflexivity|symmetry; exact P0x].
    - exists p1. split; [right; left; reflexivity|symmetry; exact P1x].
    - intros p [<-|[<-|[]]]; cbn [at_axis]; lra. }
  unfold mixed_norm. unfold andthen at 1, get at 1. cbn [fst snd]. unfold andthen at 1, get at 1. cbn [fst snd].
  unfold andthen at 1. cbn [align boxsize ngrid]. unfold pad_grids. unfold andthen at 1.
  rewrite (extents_run s1 1 ps H1), (refresh_current_id _ ps H1 X1).
  set (s2 := upd s1 1 (s1 1%nat)). unfold andthen at 1, get at 1. cbn [fst snd]. cbv zeta.
  assert (B2 : s2 1%nat = s1 1%nat) by apply upd_same.
  assert (H2 : has (s2 1%nat) ps) by (rewrite B2; exact H1).
  rewrite B2. set (d := tsub _ _).
  assert (D : at_axis AX d = 4).
  { unfold d. rewrite tsub_axis. assert (X' := X1). unfold extents_current in X'. rewrite (proj1 H1) in X'.
    destruct (extremes_unique AX ps _ _ _ _ (proj1 (X' AX)) X) as [-> _].
    unfold grid_pad. cbn [at_axis tmap2 ax0]. field. }
  destruct (offset_run s2 1 d ps H2) as [s3 [E3 F3]]. unfold andthen at 1. rewrite E3.
  assert (N3 : pdata (s3 0%nat) = None) by (rewrite F3; cbn [Nat.eqb]; unfold s2; rewrite upd_other by discriminate; exact N0).
  unfold offset_coords at 1, andthen at 1, get at 1. cbn [fst snd]. rewrite N3. unfold throw.
  exists s3. split; [reflexivity|]. intros Same. rewrite F3 in Same. cbn [Nat.eqb] in Same.
  rewrite (proj1 (shifted_has d (s2 1%nat) ps (proj2 H1))), (proj1 H1) in Same. injection Same as Same.
  assert (X' := shift_extremes AX d ps _ _ X). rewrite Same in X'.
  destruct (extremes_unique AX ps _ _ _ _ X' X) as [Q _]. rewrite D in Q. lra.
Qed.

(** The box of the overload: an even number of cells of the stated size, covering the padded
    extents of both catalogues, with less than two cells to spare. *)
Theorem norm_box_covers :
  forall span_data span_rand padding cellsize n l,
  norm_box span_data span_rand padding cellsize = (n, l) -> 0 < cellsize ->
  (forall i, 0 <= at_axis i span_data /\ 0 <= at_axis i span_rand) -> 0 <= padding ->
  (exists k, n = 2 * k)%Z /\ l = IZR n * cellsize /\
  (forall i, (1 + padding) * at_axis i span_data <= l /\ (1 + padding) * at_axis i span_rand <= l) /\
  exists i c, (c = span_data \/ c = span_rand) /\ l < (1 + padding) * at_axis i c + 2 * cellsize.
Proof.
  intros sd sr pad h n l E Hh Hs Hp. unfold norm_box in E.
  set (m := Rmax (tmax sd) (tmax sr)) in E. set (k := Zceil ((1 + pad) * m / h)) in E. injection E as <- <-.
  assert (M : forall i, at_axis i sd <= m /\ at_axis i sr <= m).
  { intros i. assert (T : forall t, at_axis i t <= tmax t).
    { intros t. unfold tmax. destruct i; cbn [at_axis].
      - eapply Rle_trans; [apply Rmax_l|apply Rmax_l].
      - eapply Rle_trans; [apply Rmax_r|apply Rmax_l].
      - apply Rmax_r. }
    split; eapply Rle_trans; try apply T; [apply Rmax_l|apply Rmax_r]. }
  assert (A : exists i c, (c = sd \/ c = sr) /\ at_axis i c = m).
  { assert (T : forall t, exists i, at_axis i t = tmax t).
    { intros t. unfold tmax. destruct (Rle_dec (Rmax (ax0 t) (ax1 t)) (ax2 t)) as [Q|Q].
      - exists AZ. rewrite Rmax_right by exact Q. reflexivity.
      - rewrite Rmax_left by lra. destruct (Rle_dec (ax0 t) (ax1 t)) as [Q'|Q'].
        + exists AY. rewrite Rmax_right by exact Q'. reflexivity.
        + exists AX. rewrite Rmax_left by lra. reflexivity. }
    unfold m. destruct (Rle_dec (tmax sd) (tmax sr)) as [Q|Q].
    - rewrite Rmax_right by exact Q. destruct (T sr) as [i Hi]. exists i, sr. auto.
    - rewrite Rmax_left by lra. destruct (T sd) as [i Hi]. exists i, sd. auto. }
  assert (M0 : 0 <= m) by (destruct (M AX), (Hs AX); lra).
  assert (Q0 : 0 <= (1 + pad) * m / h).
  { apply Rmult_le_pos; [apply Rmult_le_pos; lra|left; apply Rinv_0_lt_compat, Hh]. }
  assert (K0 : (0 <= k)%Z).
  { apply le_IZR. apply Rle_trans with ((1 + pad) * m / h); [exact Q0|apply Zceil_ub]. }
  assert (Rem : (0 <= Z.rem k 2 <= 1)%Z).
  { assert (P := Z.rem_bound_pos k 2 K0 ltac:(lia)). lia. }
  assert (U : (1 + pad) * m / h <= IZR k) by apply Zceil_ub.
  assert (V : IZR k < (1 + pad) * m / h + 1) by (assert (W := Zceil_lb ((1 + pad) * m / h)); fold k in W; lra).
  assert (F : (1 + pad) * m = (1 + pad) * m / h * h) by (field; lra).
  assert (Cov : (1 + pad) * m <= IZR (k + Z.rem k 2) * h).
  { rewrite F. apply Rmult_le_compat_r; [lra|]. rewrite plus_IZR. assert (0 <= IZR (Z.rem k 2)) by (apply IZR_le; lia). lra. }
  split; [|split; [reflexivity|split]].
  - assert (Q := Z.quot_rem k 2 ltac:(lia)). exists (Z.quot k 2 + Z.rem k 2)%Z. lia.
  - intros i. destruct (M i). split; (eapply Rle_trans; [|exact Cov]); apply Rmult_le_compat_l; lra.
  - destruct A as [i [c [C1 C2]]]. exists i, c. split; [exact C1|]. rewrite C2, F.
    replace ((1 + pad) * m / h * h + 2 * h) with (((1 + pad) * m / h + 2) * h) by ring.
    apply Rmult_lt_compat_r; [exact Hh|]. rewrite plus_IZR.
    assert (IZR (Z.rem k 2) <= 1) by (apply (IZR_le _ 1); lia). lra.
Qed.

(** ** Mesh-based factors *)

Lemma assign_scale sch g k (f : pdatum -> pdatum) ps gid :
  (forall p, In p ps -> p_pos (f p) = p_pos p /\ p_w (f p) = k * p_w p) ->
  assign_main sch g (map weigh (map f ps)) gid false = k * assign_main sch g (map weigh ps) gid false.
Proof.
  intros H. unfold assign_main. rewrite !run_value, !rsum_flat_map, !map_map, <- rsum_map_scal.
  apply rsum_map_ext. intros p I. destruct (H p I) as [E1 E2]. unfold weigh, updates_main. cbn [pos].
  rewrite E1, E2. unfold particle_updates. rewrite <- rsum_map_scal. cbn [w_re w_im].
  set (cx := cells sch _ _). set (cy := cells sch _ _). set (cz := cells sch _ _). clearbody cx cy cz.
  rewrite !rsum_flat_map. apply rsum_map_ext. intros [i wx] _. rewrite !rsum_flat_map. apply rsum_map_ext.
  intros [j wy] _. rewrite !rsum_flat_map. apply rsum_map_ext. intros [l wz] _.
  destruct ((0 <=? grid_index (ax1 (ngrid g)) (ax2 (ngrid g)) i j l)%Z && (grid_index (ax1 (ngrid g)) (ax2 (ngrid g)) i j l <? nmesh g)%Z); cbn [map];
    rewrite ?rsum_cons, ?rsum_nil; [|ring].
  unfold contrib. cbn [u_gid u_part u_amount].
  destruct (gid =? grid_index (ax1 (ngrid g)) (ax2 (ngrid g)) i j l)%Z; cbn [andb Bool.eqb]; ring.
Qed.

Theorem mesh_norms_scale :
  forall order sch g c c' ps (f : pdatum -> pdatum) k t alpha v,
  pdata c = Some ps -> pdata c' = Some (map f ps) ->
  (forall p, In p ps -> p_pos (f p) = p_pos p /\ p_w (f p) = k * p_w p) -> k <> 0 -> t <> 0 ->
  norm_from_mesh order sch g c alpha = Ok v ->
  norm_from_mesh order sch g c' (t * alpha) = Ok (v / (t * k) ^ order).
Proof.
  intros order sch g c c' ps f k t alpha v E E' H K T. unfold norm_from_mesh, powlaw_norm. rewrite E, E'.
  set (S1 := rsum (map (fun gid => assign_main sch g (map weigh ps) gid false ^ order) (arange 0 (nmesh g)))).
  assert (Q : rsum (map (fun gid => assign_main sch g (map weigh (map f ps)) gid false ^ order) (arange 0 (nmesh g))) = k ^ order * S1).
  { unfold S1. rewrite <- rsum_map_scal. apply rsum_map_ext. intros gid _. rewrite (assign_scale sch g k f ps gid H).
    apply Rpow_mult_distr. }
  rewrite Q. unfold recip at 1. destruct (Reqb (S1 * vol_cell g) 0) eqn:Z; [discriminate|]. apply Reqb_false in Z.
  destruct (Reqb (alpha ^ order) 0) eqn:A; [discriminate|]. apply Reqb_false in A.
  intros V. injection V as <-.
  assert (Kn : k ^ order <> 0) by (apply pow_nonzero, K). assert (Tn : t ^ order <> 0) by (apply pow_nonzero, T).
  rewrite recip_ok.
  2:{ replace (k ^ order * S1 * vol_cell g) with (k ^ order * (S1 * vol_cell g)) by ring. nz. }
  rewrite !Rpow_mult_distr. destruct (Reqb (t ^ order * alpha ^ order) 0) eqn:B.
  { apply Reqb_spec in B. apply Rmult_integral in B. tauto. }
  f_equal. assert (S1 <> 0) by (intros Y; apply Z; rewrite Y; ring).
  assert (vol_cell g <> 0) by (intros Y; apply Z; rewrite Y; ring). field. repeat split; assumption.
Qed.

(** Particle order does not matter to the mesh-based factors either. *)
Theorem mesh_norms_order :
  forall order sch g c c' ps ps' alpha, pdata c = Some ps -> pdata c' = Some ps' -> Permutation ps ps' ->
  norm_from_mesh order sch g c alpha = norm_from_mesh order sch g c' alpha.
Proof.
  intros order sch g c c' ps ps' alpha E E' P. unfold norm_from_mesh, powlaw_norm. rewrite E, E'.
  assert (Q : forall gid, assign_main sch g (map weigh ps) gid false = assign_main sch g (map weigh ps') gid false).
  { intros gid. unfold assign_main. rewrite !run_value. apply rsum_map_perm. apply Permutation_flat_map', Permutation_map, P. }
  rewrite (rsum_map_ext _ (fun gid => assign_main sch g (map weigh ps') gid false ^ order)); [reflexivity|].
  intros gid _. rewrite Q. reflexivity.
Qed.

(** Unlike the particle-based factors, the mesh-based factors do not refuse a zero sum: the
    returned value is not finite. *)
Theorem mesh_norm_zero_refuted :
  exists order sch g c alpha ps, (order = 2 \/ order = 3)%nat /\ valid g /\ has c ps /\ 0 < alpha /\
    norm_from_mesh order sch g c alpha = Err NotANumber /\
    powspec_norm_particles c alpha = Err InvalidData.
Proof.
  set (p := PDatum (T3 1 1 1) 1 0 1 0).
  exists 2%nat, NGP, (MeshParams (T3 4%Z 4%Z 4%Z) (T3 4 4 4) 1),
    (Catalogue (Some [p]) 0 0 (T3 1 1 1) (T3 1 1 1) (T3 0 0 0)), 1, [p].
  split; [auto|]. split; [repeat split; cbn; (lia || lra)|]. split; [split; [reflexivity|discriminate]|]. split; [lra|].
  split.
  - unfold norm_from_mesh, powlaw_norm. cbn [pdata].
    rewrite rsum_map_zero; [rewrite Rmult_0_l, recip_zero; reflexivity|].
    intros gid _. assert (Q := assign_scale NGP (MeshParams (T3 4%Z 4%Z 4%Z) (T3 4 4 4) 1) 0 (fun q => q) [p] gid).
    cbn [map] in Q |- *. rewrite Q; [ring|]. intros q [<-|[]]. split; [reflexivity|]. cbn. ring.
  - unfold powspec_norm_particles. cbn [pdata]. replace (I2_sum [p]) with 0.
    + destruct (Reqb 0 0) eqn:Z; [reflexivity|apply Reqb_false in Z; congruence].
    + unfold I2_sum. cbn [map]. rewrite rsum_cons, rsum_nil. unfold p. cbn. ring.
Qed.

(** ** Concrete cases *)
Example norm_case :
  let ps := [PDatum (T3 1 1 1) 2 1 3 3; PDatum (T3 2 2 2) 1 4 (1/2) 2] in
  let c := Catalogue (Some ps) 0 0 (T3 1 1 1) (T3 2 2 2) (T3 1 1 1) in
  powspec_norm_particles c (1/10) = Ok (10 / 19) /\
  bispec_norm_particles c (1/10) = Ok (20 / 217) /\
  powspec_shotnoise_particles c (1/10) = Ok 13.
Proof.
  intros ps c. unfold powspec_norm_particles, bispec_norm_particles, powspec_shotnoise_particles. cbn [pdata c].
  assert (A : I2_sum ps = 19) by (unfold I2_sum, ps; cbn [map p_ws p_nz p_wc]; rewrite !rsum_cons, rsum_nil; lra).
  assert (B : I3_sum ps = 217 / 2) by (unfold I3_sum, ps; cbn [map p_ws p_nz p_wc]; rewrite !rsum_cons, rsum_nil; lra).
  rewrite A, B.
  destruct (Reqb 19 0) eqn:Z; [apply Reqb_spec in Z; lra|]. destruct (Reqb (217 / 2) 0) eqn:Z'; [apply Reqb_spec in Z'; lra|].
  rewrite !recip_ok by lra. split; [f_equal; field|]. split; [f_equal; field|].
  f_equal. unfold ps. cbn [map p_ws p_nz p_wc]. rewrite !rsum_cons, rsum_nil. lra.
Qed.

Example norm_box_case : norm_box (T3 10 20 30) (T3 25 5 5) (1/10) 4 = (10%Z, 40).
Proof.
  unfold norm_box, tmax. cbn [ax0 ax1 ax2].
  rewrite (Rmax_right 10 20), (Rmax_right 20 30), (Rmax_left 25 5), (Rmax_left 25 5), (Rmax_left 30 25) by lra.
  assert (Z : Zceil ((1 + 1 / 10) * 30 / 4) = 9%Z) by (apply Zceil_imp; cbn; lra).
  rewrite Z. replace (9 + Z.rem 9 2)%Z with 10%Z by reflexivity. f_equal. lra.
Qed.

Print Assumptions mixed_norm_restores.
Print Assumptions mesh_norms_scale.
Print Assumptions ylm_shotnoise_mirror.
