(* Claims C79, C80 and C81: the shot noise of three-point statistics as sums over pairs of
   objects, with nearest-grid-point assignment and no interlacing. *)
From Coq Require Import Reals ZArith List Lia Lra Bool Permutation.
From Coquelicot Require Import Complex.
From Flocq Require Import Core.Raux.
From Verif Require Import Base ArrayModel ArrayProofs RSum MeshModel MeshIndexProps MeshProofs MeshProps MeshWindowProps
  BinVecModel BinVecProps CSum ThreePtModel OrderProps WignerProps SphHarmModel SphHarmProps Dft3 CatModel NormModel FieldModel FieldProps
  CorrProps PowProps BispecModel BispecProps.
Import ListNotations.
Open Scope R_scope.

(** ** C79: the amplitude *)

Definition cubes (ps : list ((R * R * R) * pdatum)) (f : R * R * R -> C) : C :=
  csum (map (fun vp => RtoC (p_w (snd vp) ^ 3) * f (fst vp))%C ps).

Lemma ylm_wgtd_cubes P L M ps :
  ylm_wgtd_sum P 3 L M (map fst ps) (map snd ps) = cubes ps (reduced_ylm P L M).
Proof.
  unfold ylm_wgtd_sum, cubes. induction ps as [|[v p] ps IH]; [reflexivity|]. cbn [map combine fst snd]. rewrite !csum_cons, IH. f_equal. ring.
Qed.

(** include/threept.hpp 163-173 documents the sum over the data minus alpha cubed times the
    sum over the randoms, the contribution of triplets of an object with itself. The code
    adds the second sum. *)
Theorem third_amplitude :
  forall P L M alpha data rand,
  let S := ylm_wgtd_shotnoise P 3 L M alpha (map fst data) (map fst rand) (map snd data) (map snd rand) in
  S = (cubes data (reduced_ylm P L M) + RtoC (alpha ^ 3) * cubes rand (reduced_ylm P L M))%C /\
  S = (csum (map (fun o => RtoC (weight_of o ^ 3) * reduced_ylm P L M (los_of o)) (objects alpha data rand))
       + RtoC (2 * alpha ^ 3) * cubes rand (reduced_ylm P L M))%C.
Proof.
  intros P L M alpha data rand S.
  assert (E : S = (cubes data (reduced_ylm P L M) + RtoC (alpha ^ 3) * cubes rand (reduced_ylm P L M))%C).
  { unfold S, ylm_wgtd_shotnoise. now rewrite !ylm_wgtd_cubes. }
  split; [exact E|]. rewrite E. unfold objects. rewrite map_app, csum_app, !map_map. unfold cubes.
  assert (X : forall s ps, csum (map (fun x : (R * R * R) * pdatum => RtoC (weight_of (x, s) ^ 3) * reduced_ylm P L M (los_of (x, s)))%C ps) =
    (RtoC (s ^ 3) * cubes ps (reduced_ylm P L M))%C).
  { intros s ps. unfold cubes. rewrite <- csum_map_scal. apply csum_map_ext. intros [v p] _. unfold weight_of, part_of, los_of. cbn [fst snd].
    rewrite Rpow_mult_distr, RtoC_mult. ring. }
  rewrite !X. fold (cubes rand (reduced_ylm P L M)) (cubes data (reduced_ylm P L M)).
  replace (1 ^ 3) with 1 by ring. replace ((- alpha) ^ 3) with (- alpha ^ 3) by ring. replace (2 * alpha ^ 3) with (alpha ^ 3 + alpha ^ 3) by ring.
  rewrite RtoC_opp, RtoC_plus. ring.
Qed.

(** ** Proof support *)
Lemma quad_weight P l m v p : cweight (quad_particle P l m (v, p)) = (Cconj (reduced_ylm P l m v) * RtoC (p_w p ^ 2))%C.
Proof. unfold cweight, quad_particle, RtoC, Cmult. cbn [w_re w_im fst snd]. f_equal; ring. Qed.

Lemma quad_main_unit P st l m ps x : valid (st_mesh st) -> (forall vp, In vp ps -> handled st (snd vp)) ->
  grid_cell (ngrid (st_mesh st)) x ->
  f_main (assign_field st (map (quad_particle P l m) ps)) x =
  csum (map (fun vp => (Cconj (reduced_ylm P l m (fst vp)) * RtoC (p_w (snd vp) ^ 2)) * f_main (unweighted_field st [snd vp]) x)%C ps).
Proof.
  intros V H Hx. rewrite main_value; [|exact V| |exact Hx].
  - rewrite map_map. apply csum_map_ext. intros [v p] Hp. rewrite unit_main by (try assumption; exact (H _ Hp)).
    rewrite quad_weight. reflexivity.
  - intros q Hq. apply in_map_iff in Hq. destruct Hq as ([v p] & <- & Hp). exact (proj1 (H _ Hp)).
Qed.
Lemma quad_shadow_unit P st l m ps x : valid (st_mesh st) -> (forall vp, In vp ps -> handled st (snd vp)) ->
  st_interlace st = true -> grid_cell (ngrid (st_mesh st)) x ->
  f_shadow (assign_field st (map (quad_particle P l m) ps)) x =
  csum (map (fun vp => (Cconj (reduced_ylm P l m (fst vp)) * RtoC (p_w (snd vp) ^ 2)) * f_shadow (unweighted_field st [snd vp]) x)%C ps).
Proof.
  intros V H I Hx. rewrite shadow_value; [|exact V| |exact Hx].
  - rewrite map_map. apply csum_map_ext. intros [v p] Hp. rewrite unit_shadow by (try assumption; exact (H _ Hp)).
    rewrite quad_weight. reflexivity.
  - intros q Hq. apply in_map_iff in Hq. destruct Hq as ([v p] & <- & Hp). exact (proj2 (H _ Hp) I).
Qed.

Lemma csum_squares alpha data rand (f : (R * R * R) * pdatum -> C) :
  csum (map (fun o => RtoC (snd o ^ 2) * f (fst o))%C (objects alpha data rand)) =
  (csum (map f data) + RtoC (alpha ^ 2) * csum (map f rand))%C.
Proof.
  unfold objects. rewrite map_app, csum_app, !map_map. cbn [fst snd]. f_equal.
  - apply csum_map_ext. intros. replace (1 ^ 2) with 1 by ring. ring.
  - rewrite csum_map_scal. f_equal. f_equal. ring.
Qed.

(** Transform of the quadratic field of a survey. *)
Lemma transform_quad P st alpha l m data rand c : valid (st_mesh st) -> all_handled st data rand ->
  transform st (quad_field P st alpha l m data rand) c =
  csum (map (fun o => RtoC (weight_of o ^ 2) * Cconj (reduced_ylm P l m (los_of o)) * single st (part_of o) c)%C (objects alpha data rand)).
Proof.
  intros V H. pose proof H as (H1 & H2).
  assert (X : forall (F : pdatum -> C),
    csum (map (fun o => RtoC (weight_of o ^ 2) * Cconj (reduced_ylm P l m (los_of o)) * F (part_of o))%C (objects alpha data rand)) =
    (csum (map (fun vp => (Cconj (reduced_ylm P l m (fst vp)) * RtoC (p_w (snd vp) ^ 2)) * F (snd vp)) data)
     + RtoC (alpha ^ 2) * csum (map (fun vp => (Cconj (reduced_ylm P l m (fst vp)) * RtoC (p_w (snd vp) ^ 2)) * F (snd vp)) rand))%C).
  { intros F. rewrite <- csum_squares. apply csum_map_ext. intros o _. unfold weight_of, part_of, los_of.
    rewrite Rpow_mult_distr, RtoC_mult. ring. }
  apply (transform_sum st (objects alpha data rand) (fun o => RtoC (weight_of o ^ 2) * Cconj (reduced_ylm P l m (los_of o)))%C part_of); [exact V| | |].
  - intros o Ho. exact (In_objects _ _ _ _ _ H Ho).
  - intros x Hx. rewrite (X (fun p => f_main (unweighted_field st [p]) x)). unfold quad_field. cbn [f_main]. rewrite !quad_main_unit by assumption. reflexivity.
  - intros I x Hx. rewrite (X (fun p => f_shadow (unweighted_field st [p]) x)). unfold quad_field. cbn [f_shadow]. rewrite I. rewrite !quad_shadow_unit by assumption. reflexivity.
Qed.

(** The same field with nearest-grid-point assignment. *)
Lemma unit_points st p x : sound st -> st_scheme st = NGP -> handled st p -> grid_cell (ngrid (st_mesh st)) x ->
  f_main (unweighted_field st [p]) x = if cell_eqb x (nearest (st_mesh st) p) then RtoC (/ vol_cell (st_mesh st)) else RtoC 0.
Proof.
  intros (V & _) E H Hx. rewrite unit_main by assumption. rewrite E, ngp_share by (exact V || exact (proj1 H)).
  destruct (cell_eqb _ _); [|f_equal; unfold Rdiv; ring]. f_equal. unfold Rdiv. ring.
Qed.
Lemma quad_points P st alpha l m data rand x : sound st -> st_scheme st = NGP -> all_handled st data rand ->
  grid_cell (ngrid (st_mesh st)) x ->
  f_main (quad_field P st alpha l m data rand) x =
  points (vol_cell (st_mesh st)) (map (fun o => (nearest (st_mesh st) (part_of o), RtoC (weight_of o ^ 2) * Cconj (reduced_ylm P l m (los_of o)))%C)
    (objects alpha data rand)) x.
Proof.
  intros S E H Hx. pose proof S as (V & _). pose proof H as (H1 & H2). unfold points. rewrite map_map. cbn [fst snd].
  unfold quad_field. cbn [f_main]. rewrite !quad_main_unit by assumption.
  rewrite <- csum_squares. apply csum_map_ext. intros o Ho. pose proof (In_objects _ _ _ _ _ H Ho) as HO.
  unfold weight_of, part_of, los_of in *. rewrite unit_points by assumption. destruct (cell_eqb _ _); [|ring].
  rewrite Rpow_mult_distr, RtoC_mult. ring.
Qed.

(** Every term of the configuration-space statistic is a real multiple of the harmonic of
    a line of sight. *)
Definition shot_terms (g : mesh_params) (alpha : R) (data rand : list ((R * R * R) * pdatum)) (r : gcell) : list (R * (R * R * R)) :=
  map (fun ab => (if separated g (part_of (fst ab)) (part_of (snd ab)) r then weight_of (fst ab) * weight_of (snd ab) ^ 2 else 0, los_of (fst ab)))
    (distinct_pairs (objects alpha data rand)) ++
  map (fun vp => (if same_cell (ngrid g) cell0 r then - (2 * alpha ^ 3) * p_w (snd vp) ^ 3 else 0, fst vp)) rand.

Lemma shot_terms_sum g alpha data rand r (f : R * R * R -> C) :
  csum (map (fun cn => RtoC (fst cn) * f (snd cn))%C (shot_terms g alpha data rand r)) =
  (csum (map (fun ab => if separated g (part_of (fst ab)) (part_of (snd ab)) r
     then RtoC (weight_of (fst ab) * weight_of (snd ab) ^ 2) * f (los_of (fst ab)) else RtoC 0) (distinct_pairs (objects alpha data rand)))
   - (if same_cell (ngrid g) cell0 r then RtoC (2 * alpha ^ 3) * cubes rand f else RtoC 0))%C.
Proof.
  unfold shot_terms. rewrite map_app, csum_app, !map_map. cbn [fst snd]. unfold Cminus. f_equal.
  - apply csum_map_ext. intros ab _. destruct (separated _ _ _ _); ring.
  - destruct (same_cell _ _ _).
    + rewrite (csum_map_ext _ (fun vp => (- RtoC (2 * alpha ^ 3)) * (RtoC (p_w (snd vp) ^ 3) * f (fst vp)))%C).
      * rewrite csum_map_scal. unfold cubes. ring.
      * intros vp _. rewrite RtoC_mult, RtoC_opp. ring.
    + rewrite csum_map_zero; [ring|]. intros. ring.
Qed.

(** ** C80: pairs of objects in configuration space *)

(** The statistic of configuration space: ordered pairs of different objects, the second
    with the square of its weight; the amplitude subtracted at zero separation exceeds the
    pairs of an object with itself by twice the random term. *)
Theorem shot_mesh_pairs :
  forall P st alpha L M data rand r, sound st -> st_scheme st = NGP -> st_interlace st = false -> all_handled st data rand ->
  twopt_3d st (transform st (ylm_wgtd_field P st alpha L M data rand)) (transform st (quad_field P st alpha 0 0 data rand))
    (ylm_wgtd_shotnoise P 3 L M alpha (map fst data) (map fst rand) (map snd data) (map snd rand)) r =
  (RtoC (/ vol_cell (st_mesh st)) *
   (csum (map (fun ab => if separated (st_mesh st) (part_of (fst ab)) (part_of (snd ab)) r
      then RtoC (weight_of (fst ab) * weight_of (snd ab) ^ 2) * reduced_ylm P L M (los_of (fst ab)) else RtoC 0)
      (distinct_pairs (objects alpha data rand)))
    - (if same_cell (ngrid (st_mesh st)) cell0 r then RtoC (2 * alpha ^ 3) * cubes rand (reduced_ylm P L M) else RtoC 0)))%C.
Proof.
  intros P st alpha L M data rand r S E I H. pose proof S as (V & _). set (obs := objects alpha data rand).
  assert (GR : forall (f : object -> C) xu, In xu (map (fun o => (nearest (st_mesh st) (part_of o), f o)) obs) ->
    grid_cell (ngrid (st_mesh st)) (fst xu)).
  { intros f xu X. apply in_map_iff in X. destruct X as (o & <- & _). now apply nearest_grid. }
  assert (B : objects_inside (st_mesh st) data rand) by (split; intros vp Hv; [exact (proj1 (proj1 H vp Hv))|exact (proj1 (proj2 H vp Hv))]).
  rewrite (twopt_points st _ _ _ _ _ r S E I (GR _) (GR _) (ngp_field P st alpha L M data rand S E B)
    (fun c Hc => quad_points P st alpha 0 0 data rand c S E H Hc)).
  f_equal. fold obs. rewrite map_map. cbn [fst snd]. rewrite (proj2 (third_amplitude P L M alpha data rand)). fold obs.
  set (F := fun a b : object => if separated (st_mesh st) (part_of a) (part_of b) r
     then (RtoC (weight_of a * weight_of b ^ 2) * reduced_ylm P L M (los_of a))%C else RtoC 0).
  rewrite (csum_map_ext _ (fun a => csum (map (F a) obs))).
  - rewrite csum_all_pairs.
    rewrite (csum_map_ext (fun a => F a a) (fun o => if same_cell (ngrid (st_mesh st)) cell0 r
       then (RtoC (weight_of o ^ 3) * reduced_ylm P L M (los_of o))%C else RtoC 0)).
    + rewrite <- csum_if_const. unfold F. destruct (same_cell _ _ _); ring.
    + intros o _. unfold F, separated. replace (cell_sub (nearest (st_mesh st) (part_of o)) (nearest (st_mesh st) (part_of o))) with cell0.
      * replace (weight_of o * weight_of o ^ 2) with (weight_of o ^ 3) by ring. reflexivity.
      * destruct (nearest _ _) as [[i j] k]. unfold cell_sub, cell0. now rewrite !Z.sub_diag.
  - intros a _. rewrite map_map. apply csum_map_ext. intros b _. cbn [fst snd]. unfold F, separated.
    destruct (same_cell _ _ _); [|reflexivity]. rewrite (proj1 (ylm_special P _)), Cconj_RtoC, Cmult_1_r, Cconj_RtoC, RtoC_mult. ring.
Qed.

(** The sum over orders of real multiples of products of harmonics. *)
Lemma harmonic_orders P l1 l2 L (u v : R * R * R) (l : list (R * (R * R * R))) :
  weighted_sum l1 l2 L (wigner_3j l1 l2 L) (fun t => let '(m1, m2, M) := t in
    csum (map (fun cn => RtoC (fst cn) * reduced_ylm P L M (snd cn)) l) * (reduced_ylm P l1 m1 u * reduced_ylm P l2 m2 v))%C (all_orders l1 l2 L) =
  csum (map (fun cn => RtoC (fst cn) * triplet_harmonic P l1 l2 L u v (snd cn))%C l).
Proof.
  unfold weighted_sum.
  rewrite (csum_map_ext _ (fun t => csum (map (fun cn => RtoC (fst cn) * (let '(m1, m2, M) := t in
     RtoC (weight l1 l2 L (wigner_3j l1 l2 L) t) * (reduced_ylm P l1 m1 u * reduced_ylm P l2 m2 v * reduced_ylm P L M (snd cn)))) l))%C).
  - rewrite csum_swap. apply csum_map_ext. intros cn _. rewrite csum_map_scal. reflexivity.
  - intros [[m1 m2] M] _. rewrite (Cmult_comm (csum _)), Cmult_assoc, <- csum_map_scal. apply csum_map_ext. intros cn _. ring.
Qed.
Lemma terms_conj P L M (l : list (R * (R * R * R))) :
  csum (map (fun cn => RtoC (fst cn) * reduced_ylm P L (- M) (snd cn))%C l) =
  (RtoC (sign M) * Cconj (csum (map (fun cn => RtoC (fst cn) * reduced_ylm P L M (snd cn)) l)))%C.
Proof.
  rewrite csum_conj, map_map, <- csum_map_scal. apply csum_map_ext. intros cn _. rewrite ylm_opposite_order, Cconj_mult, Cconj_RtoC. ring.
Qed.

Lemma bin_mean_conj cells f : Cconj (bin_mean_spec cells f) = bin_mean_spec cells (fun c => Cconj (f c)).
Proof. unfold bin_mean_spec. rewrite Cconj_mult, Cconj_RtoC, csum_conj, map_map. reflexivity. Qed.

Lemma shot_3pcf_exact P st order fa fb amp l1 l2 m1 m2 b : Permutation order (grid_cells (ngrid (st_mesh st))) ->
  let s := shot_3pcf P st order fa fb amp l1 l2 m1 m2 b in
  let n := INR (length (sep_cells st b)) in
  s_stat s = (bin_mean_spec (sep_cells st b) (fun c => twopt_3d st fa fb amp c * (reduced_ylm P l1 m1 (sep_vec st c) * reduced_ylm P l2 m2 (sep_vec st c)))
              * RtoC (/ vol_cell (st_mesh st) * sign (l1 + l2) / n))%C /\
  s_count s = n /\ s_coord s = mean_or (b_centre b) (sep_len st) (sep_cells st b).
Proof.
  intros H s n. unfold s, shot_3pcf.
  pose proof (fine_binning_exact dr_sample (ngrid (st_mesh st)) (b_lo b) (b_hi b) (b_centre b) (sep_len st) (sep_len st) order
    dr_pos (fun c _ => vec_mod_nonneg _) H) as E. cbv zeta in E. unfold sep_len at 1 2 in E. rewrite E. cbn [s_stat s_count s_coord].
  change (counted dr_sample (b_lo b) (b_hi b) (sep_len st) (all_cells (ngrid (st_mesh st)))) with (sep_cells st b) in *.
  split; [|split; reflexivity].
  rewrite (bin_complex_exact dr_sample (ngrid (st_mesh st))) by (try exact H; try exact dr_pos; intros; apply vec_mod_nonneg).
  change (counted dr_sample (b_lo b) (b_hi b) _ (grid_cells (ngrid (st_mesh st)))) with (sep_cells st b).
  destruct (sep_cells st b) as [|c l] eqn:Ec.
  - rewrite (proj2 (Reqb_spec _ _)) by reflexivity. unfold bin_mean_spec. cbn [map csum fold_right]. ring.
  - rewrite (proj2 (Reqb_false _ _)); [reflexivity|]. apply not_0_INR. discriminate.
Qed.

Lemma shot_loop (c : triplet -> R) k v V :
  term_loop c (fun t => RtoC (c t) * RtoC k * mirrored_sum (mirror_w3j t) (v t))%C V =
  (RtoC k * snd (order_loop c 1 v V))%C.
Proof.
  rewrite term_loop_order, <- term_loop_scal. apply term_loop_ext. intros t. unfold mirror_w3j. ring.
Qed.

(** The shot noise of the three-point correlation function: mean over the separations of
    the bin of the pairs of different objects at each of them, the harmonics of both
    degrees taken at the separation of the first object from the second.  There is no sign
    for odd [l1 + l2]: the one in [shot_3pcf] (documented in include/field.hpp 685) is met
    by a second one in [compute_3pcf]. *)
Theorem threepcf_shot_is_pair_sum :
  forall P sj st ord wd wr l1 l2 L data rand norm same a b,
  let w := wigner_3j l1 l2 L in
  sound st -> st_scheme st = NGP -> st_interlace st = false -> all_handled st data rand ->
  validate_coupling w = Ok tt -> well_separated l1 l2 L w ->
  (forall t, Permutation (ord t) (grid_cells (ngrid (st_mesh st)))) ->
  let vc := vol_cell (st_mesh st) in let alpha := wd / wr in
  exists out, compute_3pcf P sj w st ord wd wr l1 l2 L data rand norm same a b = Ok out /\
  t_shot out = (RtoC norm * if same then
    RtoC (/ (vc ^ 2 * INR (length (sep_cells st a)))) *
    bin_mean_spec (sep_cells st a) (fun r =>
      csum (map (fun xy => if separated (st_mesh st) (part_of (fst xy)) (part_of (snd xy)) r
        then RtoC (weight_of (fst xy) * weight_of (snd xy) ^ 2) * triplet_harmonic P l1 l2 L (sep_vec st r) (sep_vec st r) (los_of (fst xy))
        else RtoC 0) (distinct_pairs (objects alpha data rand)))
      - (if same_cell (ngrid (st_mesh st)) cell0 r
         then RtoC (2 * alpha ^ 3) * cubes rand (triplet_harmonic P l1 l2 L (sep_vec st r) (sep_vec st r)) else RtoC 0))
    else RtoC 0)%C.
Proof.
  intros P sj st ord wd wr l1 l2 L data rand norm same a b w S E I H V W HP vc alpha.
  unfold compute_3pcf, threepcf_entry. rewrite V. cbn [bind]. eexists. split; [reflexivity|]. cbn [t_shot]. f_equal.
  destruct same; [|reflexivity]. rewrite shot_loop. fold alpha.
  set (T := fun r => shot_terms (st_mesh st) alpha data rand r).
  set (n := INR (length (sep_cells st a))).
  assert (X : forall t, s_stat (let '(m1, m2, M) := t in shot_3pcf P st (ord t) (s_dn (survey_sources P st alpha L data rand) M)
      (transform st (quad_field P st alpha 0 0 data rand)) (s_S (survey_sources P st alpha L data rand) M) l1 l2 m1 m2 a) =
    (RtoC (/ vc * (/ vc * sign (l1 + l2) / n)) * bin_mean_spec (sep_cells st a) (fun r => let '(m1, m2, M) := t in
      csum (map (fun cn => RtoC (fst cn) * reduced_ylm P L M (snd cn)) (T r)) * (reduced_ylm P l1 m1 (sep_vec st r) * reduced_ylm P l2 m2 (sep_vec st r))))%C).
  { intros [[m1 m2] M]. rewrite (proj1 (shot_3pcf_exact P st (ord (m1, m2, M)) _ _ _ l1 l2 m1 m2 a (HP _))). fold vc n.
    rewrite RtoC_mult, (Cmult_comm (RtoC (/ vc))), <- Cmult_assoc, <- bin_mean_scal, Cmult_comm. f_equal. apply bin_mean_ext. intros r _.
    cbn [survey_sources s_dn s_S]. rewrite shot_mesh_pairs by assumption. fold vc. unfold T. rewrite shot_terms_sum. ring. }
  rewrite (survey_total l1 l2 L w); [|exact V|apply wigner_reversal|exact W|].
  - unfold weighted_sum.
    rewrite (csum_map_ext _ (fun t => RtoC (/ vc * (/ vc * sign (l1 + l2) / n)) * bin_mean_spec (sep_cells st a) (fun r =>
      RtoC (weight l1 l2 L w t) * let '(m1, m2, M) := t in
      csum (map (fun cn => RtoC (fst cn) * reduced_ylm P L M (snd cn)) (T r)) * (reduced_ylm P l1 m1 (sep_vec st r) * reduced_ylm P l2 m2 (sep_vec st r))))%C).
    + rewrite csum_map_scal, bin_mean_sum, Cmult_assoc, <- RtoC_mult.
      replace (powerRZ (-1) (l1 + l2) * (/ vc * (/ vc * sign (l1 + l2) / n))) with (/ (vc ^ 2 * n)).
      * f_equal. apply bin_mean_ext. intros r _. rewrite <- shot_terms_sum. fold (T r).
        exact (harmonic_orders P l1 l2 L (sep_vec st r) (sep_vec st r) (T r)).
      * change (powerRZ (-1) (l1 + l2)) with (sign (l1 + l2)). rewrite Rinv_mult. simpl (vc ^ 2). rewrite Rmult_1_r, Rinv_mult.
        transitivity ((sign (l1 + l2) * sign (l1 + l2)) * (/ vc * / vc * / n)); [rewrite sign_sqr; ring|unfold Rdiv; ring].
    + intros t _. specialize (X t). destruct t as [[m1 m2] M]. rewrite X. rewrite bin_mean_scal. ring.
  - intros t RG NZ. rewrite !X, Cmult_1_l, Cconj_mult, Cconj_RtoC, bin_mean_conj. f_equal. apply bin_mean_ext. intros r _.
    destruct t as [[m1 m2] M]. cbn [mirrored].
    assert (Sel : (m1 + m2 + M = 0)%Z) by (apply (wigner_selection l1 l2 L); intros Z; apply NZ; unfold weight, w; rewrite Z; ring).
    rewrite terms_conj, !ylm_opposite_order, !Cconj_mult.
    transitivity (RtoC (sign (m1 + m2 + M)) * (Cconj (csum (map (fun cn => RtoC (fst cn) * reduced_ylm P L M (snd cn)) (T r))) *
      (Cconj (reduced_ylm P l1 m1 (sep_vec st r)) * Cconj (reduced_ylm P l2 m2 (sep_vec st r)))))%C.
    + rewrite !sign_plus, !RtoC_mult. ring.
    + rewrite Sel, sign_0. ring.
Qed.

(** *** Degrees (L, 0, L) *)
Lemma weight_l0l L m : (Z.abs m <= L)%Z -> weight L 0 L (wigner_3j L 0 L) (m, 0, - m)%Z = (2 * IZR L + 1) * sign m.
Proof.
  intros H. unfold weight. pose proof (wigner_zero L 0 ltac:(lia)) as W0. change (- 0)%Z with 0%Z in W0. rewrite W0, wigner_zero by exact H.
  assert (0 < 2 * IZR L + 1) by (assert (0 <= IZR L) by (apply IZR_le; lia); lra).
  assert (S : sqrt (2 * IZR L + 1) * sqrt (2 * IZR L + 1) = 2 * IZR L + 1) by (apply sqrt_sqrt; lra).
  assert (0 < sqrt (2 * IZR L + 1)) by now apply sqrt_lt_R0.
  rewrite Z.add_0_r, sign_plus. set (q := sqrt _) in *. replace (2 * 0 + 1) with 1 by ring. rewrite <- S.
  transitivity (sign L * sign L * (q * q * sign m)); [field; lra|]. rewrite sign_sqr. ring.
Qed.
Lemma weight_l0l_zero L m M : (m + M <> 0)%Z -> weight L 0 L (wigner_3j L 0 L) (m, 0, M)%Z = 0.
Proof.
  intros H. unfold weight. destruct (Req_dec (wigner_3j L 0 L (m, 0, M)%Z) 0) as [->|N]; [ring|].
  apply wigner_selection in N. lia.
Qed.
Lemma well_separated_l0l L : (0 <= L)%Z -> well_separated L 0 L (wigner_3j L 0 L).
Proof.
  intros HL [[m1 m2] M] (H1 & H2 & H3). assert (m2 = 0%Z) by lia. subst m2.
  destruct (Z.eq_dec (m1 + M) 0) as [E|N]; [|left; now apply weight_l0l_zero].
  replace M with (- m1)%Z by lia. right. rewrite weight_l0l by lia. rewrite Rabs_mult.
  assert (A : Rabs (sign m1) = 1) by (destruct (sign_cases m1) as [->| ->]; [apply Rabs_R1|rewrite Rabs_left; lra]).
  assert (0 <= IZR L) by (apply IZR_le; lia). rewrite A, Rabs_pos_eq by lra. unfold eps_coupling. lra.
Qed.
Lemma validate_101 : validate_coupling (wigner_3j 1 0 1) = Ok tt.
Proof.
  unfold validate_coupling. pose proof (wigner_zero 1 0 ltac:(lia)) as W0. change (- 0)%Z with 0%Z in W0. rewrite W0.
  replace (Rltb _ _) with false; [reflexivity|]. symmetry. apply Rltb_false. change (sign (1 + 0)) with (sign 1). rewrite sign_1.
  replace (2 * 1 + 1) with 3 by ring. assert (S : sqrt 3 * sqrt 3 = 3) by (apply sqrt_sqrt; lra). assert (0 < sqrt 3) by (apply sqrt_lt_R0; lra).
  assert (sqrt 3 < 2) by nra. replace (-1 / sqrt 3) with (- / sqrt 3) by (unfold Rdiv; ring). rewrite Rabs_Ropp, Rabs_pos_eq.
  - assert (/ 2 < / sqrt 3) by (apply Rinv_lt_contravar; nra). unfold eps_coupling. lra.
  - left. now apply Rinv_0_lt_compat.
Qed.

(** Harmonics of degree one on the polar axis. *)
Lemma ylm_axis a m : eps_sph <= Rabs a -> (Z.abs m <= 1)%Z ->
  reduced_ylm legendre 1 m (0, 0, a) = if (m =? 0)%Z then RtoC (a / Rabs a) else RtoC 0.
Proof.
  intros H Hm. unfold reduced_ylm. change (1 =? 0)%Z with false. cbn [andb].
  replace (0 * 0 + 0 * 0 + a * a) with (Rsqr a) by (unfold Rsqr; ring). rewrite sqrt_Rsqr_abs, Rabs_Rabsolu.
  replace (Rltb (Rabs a) eps_sph) with false by (symmetry; apply Rltb_false; lra).
  assert (B := eps_sph_pos). assert (NA : Rabs a <> 0) by lra.
  destruct (Z.eqb_spec m 0) as [->|N].
  - change (Z.abs 0) with 0%Z. rewrite legendre_10. change (Z.quot (0 - 0) 2) with 0%Z. rewrite Rmult_0_l. unfold cis. rewrite cos_0, sin_0.
    change (powerRZ (-1) 0) with 1. assert (P := PI_RGT_0).
    assert (Q : sqrt (3 / (4 * PI)) * sqrt (4 * PI / (2 * 1 + 1)) = 1).
    { rewrite <- sqrt_mult_alt by (apply Rlt_le, Rdiv_lt_0_compat; lra). transitivity (sqrt 1); [f_equal; field; lra|apply sqrt_1]. }
    unfold Cmult, Cconj, RtoC. cbn [fst snd]. f_equal; [|ring].
    transitivity (a / Rabs a * (sqrt (3 / (4 * PI)) * sqrt (4 * PI / (2 * 1 + 1)))); [ring|rewrite Q; ring].
  - assert (Z1 : legendre 1 (Z.abs m) (a / Rabs a) = 0).
    { replace (Z.abs m) with 1%Z by lia. destruct legendre_is_like as [L1 L2]. destruct (Rle_lt_dec 0 a) as [Ha|Ha].
      - rewrite Rabs_pos_eq in * by exact Ha. replace (a / a) with 1 by (field; lra). apply L2. lia.
      - rewrite Rabs_left in * by exact Ha. replace (a / - a) with (Ropp 1) by (field; lra). rewrite (L1 1%Z 1%Z 1) by lia. rewrite L2 by lia. ring. }
    rewrite Z1. rewrite Cmult_0_r, Cconj_RtoC. ring.
Qed.
Lemma harmonic_axis a b v : eps_sph <= Rabs a -> eps_sph <= Rabs b ->
  triplet_harmonic legendre 1 0 1 (0, 0, a) v (0, 0, b) = RtoC (3 * (a / Rabs a) * (b / Rabs b)).
Proof.
  intros Ha Hb. unfold triplet_harmonic.
  change (all_orders 1 0 1) with [(-1, 0, -1); (-1, 0, 0); (-1, 0, 1); (0, 0, -1); (0, 0, 0); (0, 0, 1); (1, 0, -1); (1, 0, 0); (1, 0, 1)]%Z.
  cbn [map]. rewrite !csum_cons. rewrite !ylm_axis by (assumption || lia). cbn [Z.eqb].
  rewrite (proj1 (ylm_special legendre v)). pose proof (weight_l0l 1 0 ltac:(lia)) as W. change (- 0)%Z with 0%Z in W. rewrite W, sign_0.
  cbn [csum fold_right]. replace (2 * 1 + 1) with 3 by ring. rewrite !RtoC_mult. ring.
Qed.

(** Two objects on the polar axis of a mesh of four cells per side. *)
Definition at_z (z w : R) : pdatum := PDatum (T3 0 0 z) 1 1 1 w.
Definition two_on_axis : list ((R * R * R) * pdatum) := [((0, 0, 1), at_z 0 1); ((0, 0, 1), at_z 1 2)].
Definition bin_all : bin3 := Bin3 0 10 5.

Lemma nearest_z z w i : IZR i - 1 / 2 <= z < IZR i + 1 / 2 -> (0 <= i < 4)%Z -> nearest grid4 (at_z z w) = (0, 0, i)%Z.
Proof.
  intros H Hi. unfold nearest, nearest_axis, at_z, grid4. cbn [ngrid boxsize p_pos ax0 ax1 ax2].
  rewrite !(Zfloor_imp 0) by (cbn; lra). rewrite (Zfloor_imp i) by (rewrite plus_IZR; lra).
  rewrite (Z.mod_small i) by lia. reflexivity.
Qed.
Lemma sound4 : sound st4.
Proof. unfold sound, valid, st4, grid4, mesh_size; cbn; repeat split; try lia; lra. Qed.
Lemma axis_handled : all_handled st4 two_on_axis [].
Proof.
  split; [|intros vp []]. intros vp [<-|[<-|[]]]; (split; [unfold inside_box, in_box; cbn; repeat split; lra|discriminate]).
Qed.
Lemma filter_all {A} (p : A -> bool) l : (forall x, In x l -> p x = true) -> filter p l = l.
Proof.
  induction l as [|x l IH]; intros H; [reflexivity|]. cbn [filter]. rewrite (H x) by now left. f_equal. apply IH. intros; apply H; now right.
Qed.
Lemma sep_all : sep_cells st4 bin_all = grid_cells (ngrid grid4).
Proof.
  unfold sep_cells, counted. rewrite filter_all; [reflexivity|]. intros c Hc. apply In_grid_cells in Hc.
  assert (B : 0 <= sep_len st4 c <= 4).
  { destruct c as [[i j] k]. destruct Hc as (H0 & H1 & H2). cbn in H0, H1, H2.
    split; [apply vec_mod_nonneg|]. unfold sep_len, vec_mod, wavevector, dr_of. cbn [st4 st_mesh grid4 ngrid boxsize ax0 ax1 ax2].
    rewrite !grid_vector_shift. eapply Rle_trans; [apply (sqrt_le_1_alt _ (4 * 4))|rewrite sqrt_square; lra].
    assert (X : forall i, (0 <= i < 4)%Z -> IZR (shift_index 4 i) * (4 / 4) * (IZR (shift_index 4 i) * (4 / 4)) <= 4).
    { intros u Hu. assert (C : (u = 0 \/ u = 1 \/ u = 2 \/ u = 3)%Z) by lia. destruct C as [->|[->|[->| ->]]]; cbn; lra. }
    pose proof (X i H0). pose proof (X j H1). pose proof (X k H2). lra. }
  assert (F : (0 <= Zfloor (sep_len st4 c / dr_sample) <= 40)%Z).
  { unfold dr_sample. split; [apply Zfloor_lub; cbn; lra|]. apply le_IZR. eapply Rle_trans; [apply Zfloor_lb|]. cbn. lra. }
  unfold sampled. rewrite !andb_true_iff, Z.ltb_lt, Rleb_spec, Rltb_spec. unfold n_sample, dr_sample in *. cbn [bin_all b_lo b_hi].
  assert (0 <= IZR (Zfloor (sep_len st4 c / / 10)) <= 40) by (split; apply IZR_le; tauto). repeat split; try lia; lra.
Qed.

Lemma total_separated ng d f : grid_pos ng -> total3 ng (fun r => if same_cell ng d r then f r else RtoC 0) = f (cell_mod ng d).
Proof.
  intros G. pose proof (mesh_size_pos ng G) as M.
  transitivity (RtoC (/ mesh_size ng) * total3 ng (fun x => f x * (if same_cell ng d x then RtoC (mesh_size ng) else RtoC 0)))%C.
  - rewrite <- total3_scal. apply total3_ext. intros x _. destruct (same_cell ng d x); [|ring].
    replace (RtoC (/ mesh_size ng) * (f x * RtoC (mesh_size ng)))%C with (RtoC (/ mesh_size ng) * RtoC (mesh_size ng) * f x)%C by ring.
    rewrite <- RtoC_mult, Rinv_l by lra. ring.
  - rewrite total3_same by exact G. rewrite Cmult_assoc, <- RtoC_mult, Rinv_l by lra. ring.
Qed.

(** With the sign of equation (51), as documented for the uncoupled statistic
    (include/field.hpp 679-703), the shot noise of odd [l1 + l2] would be the opposite. *)
Theorem threepcf_shot_sign_refuted :
  exists sj st ord data norm b out, sound st /\ all_handled st data [] /\ well_separated 1 0 1 (wigner_3j 1 0 1) /\
  (forall t, Permutation (ord t) (grid_cells (ngrid (st_mesh st)))) /\
  compute_3pcf legendre sj (wigner_3j 1 0 1) st ord 1 1 1 0 1 data [] norm true b b = Ok out /\
  t_shot out <>
  (RtoC (norm * sign (1 + 0)) * (RtoC (/ (vol_cell (st_mesh st) ^ 2 * INR (length (sep_cells st b)))) *
    bin_mean_spec (sep_cells st b) (fun r =>
      csum (map (fun xy => if separated (st_mesh st) (part_of (fst xy)) (part_of (snd xy)) r
        then RtoC (weight_of (fst xy) * weight_of (snd xy) ^ 2) * triplet_harmonic legendre 1 0 1 (sep_vec st r) (sep_vec st r) (los_of (fst xy))
        else RtoC 0) (distinct_pairs (objects 1 data []))))))%C.
Proof.
  exists (fun _ _ => 1), st4, (fun _ => grid_cells (ngrid grid4)), two_on_axis, 1, bin_all.
  destruct (threepcf_shot_is_pair_sum legendre (fun _ _ => 1) st4 (fun _ => grid_cells (ngrid grid4)) 1 1 1 0 1 two_on_axis [] 1 true bin_all bin_all
    sound4 eq_refl eq_refl axis_handled validate_101 (well_separated_l0l 1 ltac:(lia)) (fun _ => Permutation_refl _)) as (out & E & T).
  exists out. split; [exact sound4|]. split; [exact axis_handled|]. split; [apply well_separated_l0l; lia|]. split; [intros; apply Permutation_refl|].
  split; [exact E|]. rewrite T. clear E T. replace (1 / 1) with 1 by field.
  set (K := (RtoC (/ (vol_cell (st_mesh st4) ^ 2 * INR (length (sep_cells st4 bin_all)))))%C).
  set (F := fun r : gcell => csum (map (fun xy => if separated (st_mesh st4) (part_of (fst xy)) (part_of (snd xy)) r
        then RtoC (weight_of (fst xy) * weight_of (snd xy) ^ 2) * triplet_harmonic legendre 1 0 1 (sep_vec st4 r) (sep_vec st4 r) (los_of (fst xy))
        else RtoC 0)%C (distinct_pairs (objects 1 two_on_axis [])))).
  rewrite (bin_mean_ext _ _ F).
  2: { intros r _. unfold cubes. cbn [map csum fold_right]. fold (F r). destruct (same_cell _ _ _); ring. }
  assert (V : bin_mean_spec (sep_cells st4 bin_all) F = RtoC (-6 * / 64)).
  { unfold bin_mean_spec. rewrite sep_all. fold (total3 (ngrid grid4) F).
    assert (L : INR (length (grid_cells (ngrid grid4))) = 64) by (rewrite INR_IZR_INZ; reflexivity). rewrite L. rewrite RtoC_mult. f_equal.
    set (o1 := ((0, 0, 1), at_z 0 1, 1) : object). set (o2 := ((0, 0, 1), at_z 1 2, 1) : object).
    assert (G : grid_pos (ngrid grid4)) by (unfold grid_pos; cbn; lia).
    set (g := fun (k : R) (r : gcell) => (RtoC k * triplet_harmonic legendre 1 0 1 (sep_vec st4 r) (sep_vec st4 r) (0, 0, 1)%R)%C).
    rewrite (total3_ext _ F (fun r => (if same_cell (ngrid grid4) (0, 0, -1)%Z r then g 4 r else RtoC 0)
      + (if same_cell (ngrid grid4) (0, 0, 1)%Z r then g 2 r else RtoC 0))%C).
    - rewrite total3_plus, !total_separated by exact G. change (cell_mod (ngrid grid4) (0, 0, -1)%Z) with (0, 0, 3)%Z.
      change (cell_mod (ngrid grid4) (0, 0, 1)%Z) with (0, 0, 1)%Z. unfold g.
      assert (S3 : sep_vec st4 (0, 0, 3)%Z = (0, 0, -1)).
      { unfold sep_vec, wavevector, dr_of. cbn [st4 st_mesh grid4 ngrid boxsize ax0 ax1 ax2]. rewrite !grid_vector_shift. cbn. repeat f_equal; field. }
      assert (S1 : sep_vec st4 (0, 0, 1)%Z = (0, 0, 1)).
      { unfold sep_vec, wavevector, dr_of. cbn [st4 st_mesh grid4 ngrid boxsize ax0 ax1 ax2]. rewrite !grid_vector_shift. cbn. repeat f_equal; field. }
      rewrite S3, S1. assert (A1 : Rabs 1 = 1) by apply Rabs_R1. assert (A2 : Rabs (-1) = 1) by (rewrite Rabs_left; lra).
      rewrite !harmonic_axis by (rewrite ?A1, ?A2; unfold eps_sph; lra). rewrite A1, A2. rewrite <- !RtoC_mult, <- RtoC_plus. f_equal. field.
    - intros r _. unfold F. change (distinct_pairs (objects 1 two_on_axis [])) with [(o1, o2); (o2, o1)]. cbn [map fst snd]. rewrite !csum_cons.
      cbn [csum fold_right]. rewrite Cplus_0_r. unfold separated. change (part_of o1) with (at_z 0 1). change (part_of o2) with (at_z 1 2).
      change (st_mesh st4) with grid4. rewrite (nearest_z 0 1 0), (nearest_z 1 2 1) by (lia || lra). cbn [cell_sub].
      unfold weight_of. change (part_of o1) with (at_z 0 1). change (part_of o2) with (at_z 1 2). cbn [at_z p_w o1 o2 snd los_of fst].
      change (0 - 1)%Z with (-1)%Z. unfold g. unfold o1, o2, los_of. cbn [fst snd].
      replace (1 * 1 * (1 * 2) ^ 2) with 4 by ring. replace (1 * 2 * (1 * 1) ^ 2) with 2 by ring. reflexivity. }
  rewrite V, sep_all in *. unfold K. change (vol_cell (st_mesh st4)) with 1.
  assert (L : INR (length (grid_cells (ngrid grid4))) = 64) by (rewrite INR_IZR_INZ; reflexivity). rewrite sep_all, L.
  intros X. apply (f_equal fst) in X. unfold Cmult, RtoC in X. cbn [fst snd] in X. replace (1 + 0)%Z with 1%Z in X by lia. rewrite sign_1 in X. lra.
Qed.

(** ** C81: the shot noise of bispectra *)

(** Separation of the grid points nearest to two objects. *)
Definition mesh_sep (st : settings) (x y : object) : R * R * R :=
  sep_vec st (cell_mod (ngrid (st_mesh st)) (cell_sub (nearest (st_mesh st) (part_of x)) (nearest (st_mesh st) (part_of y)))).

Lemma harmonic_orders_c P l1 l2 L (u v : R * R * R) (l : list (C * (R * R * R))) :
  weighted_sum l1 l2 L (wigner_3j l1 l2 L) (fun t => let '(m1, m2, M) := t in
    csum (map (fun cn => fst cn * reduced_ylm P L M (snd cn)) l) * (reduced_ylm P l1 m1 u * reduced_ylm P l2 m2 v))%C (all_orders l1 l2 L) =
  csum (map (fun cn => fst cn * triplet_harmonic P l1 l2 L u v (snd cn))%C l).
Proof.
  unfold weighted_sum.
  rewrite (csum_map_ext _ (fun t => csum (map (fun cn => fst cn * (let '(m1, m2, M) := t in
     RtoC (weight l1 l2 L (wigner_3j l1 l2 L) t) * (reduced_ylm P l1 m1 u * reduced_ylm P l2 m2 v * reduced_ylm P L M (snd cn)))) l))%C).
  - rewrite csum_swap. apply csum_map_ext. intros cn _. rewrite csum_map_scal. reflexivity.
  - intros [[m1 m2] M] _. rewrite (Cmult_comm (csum _)), Cmult_assoc, <- csum_map_scal. apply csum_map_ext. intros cn _. ring.
Qed.

Lemma single_ngp st p k : sound st -> st_scheme st = NGP -> st_interlace st = false -> handled st p ->
  single st p k = Cconj (wave (ngrid (st_mesh st)) k (nearest (st_mesh st) p)).
Proof.
  intros S E I H. pose proof S as (V & _). pose proof (valid_grid _ V) as G. assert (Hv : 0 < vol_cell (st_mesh st)) by apply V.
  unfold single, transform. rewrite I, fourier_total.
  rewrite (total3_ext _ _ (fun x => if same_cell (ngrid (st_mesh st)) (nearest (st_mesh st) p) x
    then RtoC (/ vol_cell (st_mesh st)) * Cconj (wave (ngrid (st_mesh st)) k x) else RtoC 0)%C).
  - rewrite total_separated by exact G. rewrite cell_mod_id by now apply nearest_grid.
    rewrite Cmult_assoc, <- RtoC_mult, Rinv_r by lra. ring.
  - intros x Hx. rewrite unit_points by assumption. rewrite same_cell_grid by (try assumption; now apply nearest_grid).
    destruct (cell_eqb_spec x (nearest (st_mesh st) p)) as [->|N].
    + destruct (cell_eqb_spec (nearest (st_mesh st) p) (nearest (st_mesh st) p)); [ring|congruence].
    + destruct (cell_eqb_spec (nearest (st_mesh st) p) x); [congruence|ring].
Qed.
Lemma single_unit st p k : sound st -> st_scheme st = NGP -> st_interlace st = false -> handled st p ->
  (single st p k * Cconj (single st p k))%C = RtoC 1.
Proof.
  intros. rewrite single_ngp by assumption. rewrite Cconj_inv, Cmult_comm. apply wave_norm.
Qed.

(** The statistic of one mode. *)
Definition mode_terms (st : settings) (alpha : R) (data rand : list ((R * R * R) * pdatum)) (k : gcell) : list (C * (R * R * R)) :=
  map (fun xy => (RtoC (weight_of (fst xy) * weight_of (snd xy) ^ 2) * (single st (part_of (fst xy)) k * Cconj (single st (part_of (snd xy)) k)), los_of (snd xy))%C)
    (distinct_pairs (objects alpha data rand)) ++
  map (fun vp => (RtoC (- (2 * alpha ^ 3) * p_w (snd vp) ^ 3), fst vp)) rand.
Lemma mode_terms_sum st alpha data rand k (f : R * R * R -> C) :
  csum (map (fun cn => fst cn * f (snd cn))%C (mode_terms st alpha data rand k)) =
  (csum (map (fun xy => RtoC (weight_of (fst xy) * weight_of (snd xy) ^ 2) * f (los_of (snd xy)) * (single st (part_of (fst xy)) k * Cconj (single st (part_of (snd xy)) k)))
     (distinct_pairs (objects alpha data rand)))
   - RtoC (2 * alpha ^ 3) * cubes rand f)%C.
Proof.
  unfold mode_terms. rewrite map_app, csum_app, !map_map. cbn [fst snd]. unfold Cminus. f_equal.
  - apply csum_map_ext. intros xy _. ring.
  - rewrite (csum_map_ext _ (fun vp => (- RtoC (2 * alpha ^ 3)) * (RtoC (p_w (snd vp) ^ 3) * f (fst vp)))%C).
    + rewrite csum_map_scal. unfold cubes. ring.
    + intros vp _. rewrite RtoC_mult, RtoC_opp. ring.
Qed.

Lemma shot_mode_pairs P st alpha L M data rand k : sound st -> st_scheme st = NGP -> st_interlace st = false -> all_handled st data rand ->
  let dn := transform st (ylm_wgtd_field P st alpha 0 0 data rand) in
  let N := transform st (quad_field P st alpha L M data rand) in
  let S := ylm_wgtd_shotnoise P 3 L M alpha (map fst data) (map fst rand) (map snd data) (map snd rand) in
  (pk_mode st dn N k - sn_mode st S k)%C = csum (map (fun cn => fst cn * reduced_ylm P L M (snd cn))%C (mode_terms st alpha data rand k)).
Proof.
  intros S E I H dn N A. pose proof S as (V & _). unfold pk_mode. rewrite sn_mode_flat, win_alias, ngp_alias, Rinv_1 by assumption.
  rewrite mode_terms_sum. unfold dn, N, A. rewrite transform_objects, transform_quad by assumption. rewrite (proj2 (third_amplitude P L M alpha data rand)).
  set (obs := objects alpha data rand). rewrite csum_conj, map_map, csum_mult.
  set (F := fun x y : object => (RtoC (weight_of x * weight_of y ^ 2) * reduced_ylm P L M (los_of y) * (single st (part_of x) k * Cconj (single st (part_of y) k)))%C).
  rewrite (csum_map_ext _ (fun x => csum (map (F x) obs))).
  - rewrite csum_all_pairs. rewrite (csum_map_ext (fun x => F x x) (fun o => RtoC (weight_of o ^ 3) * reduced_ylm P L M (los_of o))%C).
    + unfold F. ring.
    + intros o Ho. unfold F. rewrite single_unit by (try assumption; exact (In_objects _ _ _ _ _ H Ho)).
      replace (weight_of o * weight_of o ^ 2) with (weight_of o ^ 3) by ring. ring.
  - intros x _. apply csum_map_ext. intros y _. unfold F. rewrite (proj1 (ylm_special P _)), !Cconj_mult, Cconj_RtoC, Cconj_inv, RtoC_mult. ring.
Qed.

(** The weighted sum over orders of the statistic of a bin, one degree being zero. *)
Lemma fourier_orders P st order alpha l m1 L M data rand b : sound st -> st_scheme st = NGP -> st_interlace st = false -> all_handled st data rand ->
  Permutation order (grid_cells (ngrid (st_mesh st))) ->
  let dn := transform st (ylm_wgtd_field P st alpha 0 0 data rand) in
  let N := transform st (quad_field P st alpha L M data rand) in
  let S := ylm_wgtd_shotnoise P 3 L M alpha (map fst data) (map fst rand) (map snd data) (map snd rand) in
  let s := stats_fourier P st order dn N S l m1 b in
  (s_stat s - s_shot s)%C = bin_mean_spec (mode_cells st b) (fun k =>
    csum (map (fun cn => fst cn * reduced_ylm P L M (snd cn)) (mode_terms st alpha data rand k)) * reduced_ylm P l m1 (mode_vec st k))%C.
Proof.
  intros S E I H HP dn N A s. unfold s. destruct (stats_fourier_exact P st order dn N A l m1 b HP) as (E1 & E2 & _). rewrite E1, E2.
  unfold bin_mean_spec. match goal with |- (?A * ?k - ?B * ?k)%C = _ => replace (A * k - B * k)%C with ((A - B) * k)%C by ring end. f_equal.
  transitivity (csum (map (fun c => pk_mode st dn N c * reduced_ylm P l m1 (wavevector (ngrid (st_mesh st)) (dk_of (st_mesh st)) c)
     + RtoC (-1) * (sn_mode st A c * reduced_ylm P l m1 (wavevector (ngrid (st_mesh st)) (dk_of (st_mesh st)) c)))%C (mode_cells st b))).
  - rewrite csum_map_plus, csum_map_scal. replace (RtoC (-1)) with (- RtoC 1)%C by (rewrite <- RtoC_opp; f_equal; lra). unfold cell. ring.
  - apply csum_map_ext. intros k _. rewrite <- (shot_mode_pairs P st alpha L M data rand k) by assumption. fold dn N A. unfold mode_vec.
    replace (RtoC (-1)) with (- RtoC 1)%C by (rewrite <- RtoC_opp; f_equal; lra). ring.
Qed.

Lemma term_loop_ext_in c f g V : (forall t, In t V -> f t = g t) -> term_loop c f V = term_loop c g V.
Proof.
  intros H. unfold term_loop. f_equal. generalize (@nil triplet, RtoC 0). induction V as [|t V IH]; intros s; [reflexivity|]. cbn [fold_left].
  rewrite IH by (intros; apply H; now right). f_equal. unfold term_step. destruct s as [K acc]. rewrite (H t) by now left. reflexivity.
Qed.

Lemma mode_terms_neg P st alpha L M data rand k : valid (st_mesh st) -> all_handled st data rand ->
  grid_cell (ngrid (st_mesh st)) k -> interior (ngrid (st_mesh st)) k ->
  csum (map (fun cn => fst cn * reduced_ylm P L (- M) (snd cn))%C (mode_terms st alpha data rand (neg_cell (ngrid (st_mesh st)) k))) =
  (RtoC (sign M) * Cconj (csum (map (fun cn => fst cn * reduced_ylm P L M (snd cn)) (mode_terms st alpha data rand k))))%C.
Proof.
  intros V H Hk Ik. rewrite !mode_terms_sum.
  assert (In2 : forall xy, In xy (distinct_pairs (objects alpha data rand)) -> handled st (part_of (fst xy)) /\ handled st (part_of (snd xy))).
  { intros xy X. unfold distinct_pairs in X. apply in_flat_map in X. destruct X as ([x r] & X1 & X2). apply in_map_iff in X2. destruct X2 as (y & <- & Y).
    pose proof (picks_perm _ _ _ X1) as Pm. cbn [fst snd].
    split; apply (In_objects st alpha data rand); try exact H; apply (Permutation_in _ Pm); [now left|now right]. }
  unfold Cminus. rewrite Cconj_plus, Cmult_plus_distr_l. f_equal.
  - rewrite csum_conj, map_map, <- csum_map_scal. apply csum_map_ext. intros xy X. destruct (In2 xy X) as [H1 H2].
    rewrite !single_neg by assumption. rewrite ylm_opposite_order, !Cconj_mult, !Cconj_RtoC, !Cconj_inv. ring.
  - assert (CC : cubes rand (reduced_ylm P L (- M)) = (RtoC (sign M) * Cconj (cubes rand (reduced_ylm P L M)))%C).
    { unfold cubes. rewrite csum_conj, map_map, <- csum_map_scal. apply csum_map_ext. intros vp _. rewrite ylm_opposite_order, Cconj_mult, Cconj_RtoC. ring. }
    rewrite CC. replace (- (RtoC (2 * alpha ^ 3) * cubes rand (reduced_ylm P L M)))%C with (RtoC (- (2 * alpha ^ 3)) * cubes rand (reduced_ylm P L M))%C by (rewrite RtoC_opp; ring).
    rewrite Cconj_mult, Cconj_RtoC, RtoC_opp. ring.
Qed.

Lemma bin_mean_reindex st b f : grid_pos (ngrid (st_mesh st)) -> below_nyquist_bin st b ->
  bin_mean_spec (mode_cells st b) (fun k => f (neg_cell (ngrid (st_mesh st)) k)) = bin_mean_spec (mode_cells st b) f.
Proof.
  intros G N. unfold bin_mean_spec. f_equal. apply csum_neg; [apply mode_cells_NoDup| |].
  - intros c Hc. exact (mode_cells_grid st b c Hc).
  - intros c Hc. exact (mode_cells_neg st b c G N Hc).
Qed.

(** The sum over orders of the statistics in Fourier space. *)
Lemma mode_orders P st alpha l1 l2 L data rand b :
  let w := wigner_3j l1 l2 L in
  valid (st_mesh st) -> legendre_like P -> all_handled st data rand -> validate_coupling w = Ok tt -> well_separated l1 l2 L w ->
  below_nyquist_bin st b ->
  snd (order_loop (coupling_3pt l1 l2 L w) (powerRZ (-1) L) (fun t => let '(m1, m2, M) := t in bin_mean_spec (mode_cells st b) (fun k =>
    csum (map (fun cn => fst cn * reduced_ylm P L M (snd cn)) (mode_terms st alpha data rand k)) *
    (reduced_ylm P l1 m1 (mode_vec st k) * reduced_ylm P l2 m2 (mode_vec st k))))%C (visited_survey l1 l2 L w)) =
  bin_mean_spec (mode_cells st b) (fun k =>
    csum (map (fun cn => fst cn * triplet_harmonic P l1 l2 L (mode_vec st k) (mode_vec st k) (snd cn))%C (mode_terms st alpha data rand k))).
Proof.
  intros w V LP H VC W N. pose proof (valid_grid _ V) as G.
  rewrite (survey_total l1 l2 L w); [|exact VC|apply wigner_reversal|exact W|].
  - unfold weighted_sum.
    rewrite (csum_map_ext _ (fun t => bin_mean_spec (mode_cells st b) (fun k => RtoC (weight l1 l2 L w t) * let '(m1, m2, M) := t in
      csum (map (fun cn => fst cn * reduced_ylm P L M (snd cn)) (mode_terms st alpha data rand k)) *
      (reduced_ylm P l1 m1 (mode_vec st k) * reduced_ylm P l2 m2 (mode_vec st k))))%C).
    + rewrite bin_mean_sum. apply bin_mean_ext. intros k _. exact (harmonic_orders_c P l1 l2 L (mode_vec st k) (mode_vec st k) (mode_terms st alpha data rand k)).
    + intros [[m1 m2] M] _. now rewrite bin_mean_scal.
  - intros [[m1 m2] M] (R1 & R2 & R3) NZ. cbn [mirrored].
    assert (Sel : (m1 + m2 + M = 0)%Z) by (apply (wigner_selection l1 l2 L); intros Z; apply NZ; unfold weight, w; rewrite Z; ring).
    rewrite <- (bin_mean_reindex st b) by assumption. rewrite bin_mean_conj, <- bin_mean_scal. apply bin_mean_ext. intros k Hk.
    destruct (N k Hk) as [Ik Ok]. pose proof (mode_cells_grid st b k Hk) as Gk.
    rewrite mode_terms_neg by assumption.
    replace (mode_vec st (neg_cell (ngrid (st_mesh st)) k)) with (opp3 (mode_vec st k)) by (symmetry; now apply wavevector_neg).
    rewrite !ylm_opposite_order, !ylm_parity by (assumption || lia). rewrite !Cconj_mult, !Cconj_RtoC.
    change (powerRZ (-1) L) with (sign L). rewrite <- (sign_parity l1 l2 L) by (apply (validated_even l1 l2 L w VC), wigner_reversal).
    replace (sign (l1 + l2)) with (sign (l1 + l2) * sign (m1 + m2 + M) * (sign (m1 + m2 + M)  * sign (m1 + m2 + M))) by (rewrite sign_sqr, Sel, sign_0; ring).
    rewrite !sign_plus, !RtoC_mult.
    pose proof (sign_sqr m1) as Q1. pose proof (sign_sqr m2) as Q2. pose proof (sign_sqr M) as Q3.
    apply (f_equal RtoC) in Q1, Q2, Q3. rewrite RtoC_mult in Q1, Q2, Q3. ring [Q1 Q2 Q3].
Qed.

(** The sum over orders of the statistic in configuration space. *)
Lemma config_orders P st alpha l1 l2 L data rand (s : gcell -> R) cells :
  let w := wigner_3j l1 l2 L in
  validate_coupling w = Ok tt -> well_separated l1 l2 L w ->
  snd (order_loop (coupling_3pt l1 l2 L w) 1 (fun t => let '(m1, m2, M) := t in csum (map (fun r =>
    csum (map (fun cn => RtoC (fst cn) * reduced_ylm P L M (snd cn)) (shot_terms (st_mesh st) alpha data rand r)) *
    (RtoC (s r) * (reduced_ylm P l1 m1 (sep_vec st r) * reduced_ylm P l2 m2 (sep_vec st r)))) cells))%C (visited_survey l1 l2 L w)) =
  csum (map (fun r => RtoC (s r) * csum (map (fun cn => RtoC (fst cn) * triplet_harmonic P l1 l2 L (sep_vec st r) (sep_vec st r) (snd cn))
    (shot_terms (st_mesh st) alpha data rand r)))%C cells).
Proof.
  intros w VC W. rewrite (survey_total l1 l2 L w); [|exact VC|apply wigner_reversal|exact W|].
  - unfold weighted_sum.
    rewrite (csum_map_ext _ (fun t => csum (map (fun r => RtoC (s r) * (RtoC (weight l1 l2 L w t) * let '(m1, m2, M) := t in
      csum (map (fun cn => RtoC (fst cn) * reduced_ylm P L M (snd cn)) (shot_terms (st_mesh st) alpha data rand r)) *
      (reduced_ylm P l1 m1 (sep_vec st r) * reduced_ylm P l2 m2 (sep_vec st r)))) cells))%C).
    + rewrite csum_swap. apply csum_map_ext. intros r _. rewrite csum_map_scal. f_equal.
      exact (harmonic_orders P l1 l2 L (sep_vec st r) (sep_vec st r) (shot_terms (st_mesh st) alpha data rand r)).
    + intros [[m1 m2] M] _. rewrite <- csum_map_scal. apply csum_map_ext. intros r _. ring.
  - intros [[m1 m2] M] (R1 & R2 & R3) NZ. cbn [mirrored].
    assert (Sel : (m1 + m2 + M = 0)%Z) by (apply (wigner_selection l1 l2 L); intros Z; apply NZ; unfold weight, w; rewrite Z; ring).
    rewrite Cmult_1_l, csum_conj, map_map. apply csum_map_ext. intros r _. rewrite terms_conj, !ylm_opposite_order, !Cconj_mult, !Cconj_RtoC.
    transitivity (RtoC (sign (m1 + m2 + M)) * (Cconj (csum (map (fun cn => RtoC (fst cn) * reduced_ylm P L M (snd cn)) (shot_terms (st_mesh st) alpha data rand r))) *
      (RtoC (s r) * (Cconj (reduced_ylm P l1 m1 (sep_vec st r)) * Cconj (reduced_ylm P l2 m2 (sep_vec st r))))))%C.
    + rewrite !sign_plus, !RtoC_mult. ring.
    + rewrite Sel, sign_0. ring.
Qed.

Lemma weight_000 : weight 0 0 0 (wigner_3j 0 0 0) (0, 0, 0)%Z = 1.
Proof. pose proof (weight_l0l 0 0 ltac:(lia)) as X. change (- 0)%Z with 0%Z in X. rewrite X, sign_0. lra. Qed.
Lemma term_loop_000 f :
  term_loop (coupling_3pt 0 0 0 (wigner_3j 0 0 0)) f (visited_survey 0 0 0 (wigner_3j 0 0 0)) = f (0, 0, 0)%Z.
Proof.
  unfold visited_survey. change (arange (- 0) (0 + 1)) with [0%Z]. cbn [flat_map existsb map app]. rewrite !weight_coupling, weight_000.
  rewrite Rabs_R1. rewrite (proj2 (Rltb_spec _ _)) by (unfold eps_coupling; lra). cbn [orb app].
  unfold term_loop. cbn [fold_left term_step existsb]. rewrite weight_coupling, weight_000, Rabs_R1.
  rewrite (proj2 (Rltb_false _ _)) by (unfold eps_coupling; lra). cbn [snd]. ring.
Qed.
Lemma harmonic_000 P u v n : triplet_harmonic P 0 0 0 u v n = RtoC 1.
Proof.
  unfold triplet_harmonic. change (all_orders 0 0 0) with [(0, 0, 0)%Z]. cbn [map]. rewrite csum_cons. rewrite weight_000, !(proj1 (ylm_special P _)).
  cbn. ring.
Qed.

Lemma term_loop_zero c V : term_loop c (fun _ => RtoC 0) V = RtoC 0.
Proof. destruct (term_loop_csum c V) as [K HK]. rewrite HK. apply csum_map_zero. reflexivity. Qed.
Lemma term_loop_if c (q : bool) f V : term_loop c (fun t => if q then f t else RtoC 0) V = if q then term_loop c f V else RtoC 0.
Proof. destruct q; [reflexivity|apply term_loop_zero]. Qed.

Lemma sep_vec_0 st : two_cells st -> sep_vec st cell0 = (0, 0, 0).
Proof.
  intros G. unfold two_cells in G. unfold sep_vec, wavevector, cell0, grid_vector. destruct (ngrid (st_mesh st)) as [a b c]. cbn [ax0 ax1 ax2] in *.
  rewrite !(proj2 (Z.ltb_lt _ _)) by (apply Z.div_str_pos; lia). repeat f_equal; ring.
Qed.

(** The shot noise of bispectra (NGP assignment without interlacing).  The weights [W] of
    the objects carry [- alpha] for randoms.  Terms: all three objects equal, if both degrees
    are zero; the first or the second equal to the third, means over the modes of a bin;
    and the first two equal, sums over pairs with spherical Bessel functions of their
    separation.  The amplitude adds [2 alpha^3 sum w^3] over the randoms to the first term
    and takes it off each of the others. *)
Theorem bispec_shot_is_pair_sum :
  forall P sj st ord wd wr l1 l2 L data rand norm a b,
  let w := wigner_3j l1 l2 L in
  sound st -> legendre_like P -> st_scheme st = NGP -> st_interlace st = false -> all_handled st data rand ->
  validate_coupling w = Ok tt -> well_separated l1 l2 L w ->
  (forall t, Permutation (ord t) (grid_cells (ngrid (st_mesh st)))) ->
  modes_of st a <> [] -> modes_of st b <> [] ->
  (l2 = 0%Z -> below_nyquist_bin st a) -> (l1 = 0%Z -> below_nyquist_bin st b) ->
  let alpha := wd / wr in let obs := objects alpha data rand in let pairs := distinct_pairs obs in
  let h := triplet_harmonic P l1 l2 L in
  let excess f := (RtoC (2 * alpha ^ 3) * cubes rand f)%C in
  let coincident c := bin_mean_spec (mode_cells st c) (fun k =>
    csum (map (fun xy => RtoC (weight_of (fst xy) * weight_of (snd xy) ^ 2) * h (mode_vec st k) (mode_vec st k) (los_of (snd xy)) *
      (single st (part_of (fst xy)) k * Cconj (single st (part_of (snd xy)) k))) pairs)
    - excess (h (mode_vec st k) (mode_vec st k)))%C in
  let bessel v := sj l1 (k_eff st a * vec_mod v) * sj l2 (k_eff st b * vec_mod v) in
  exists out, compute_bispec P sj w st ord wd wr l1 l2 L data rand norm a b = Ok out /\
  t_shot out = (RtoC norm *
    ((if (l1 =? 0)%Z && (l2 =? 0)%Z then csum (map (fun o => RtoC (weight_of o ^ 3)) obs) + excess (fun _ => RtoC 1) else RtoC 0)
     + (if (l2 =? 0)%Z then coincident a else RtoC 0)
     + (if (l1 =? 0)%Z then coincident b else RtoC 0)
     + ipow (l1 + l2) *
       (csum (map (fun xy => let s := mesh_sep st (fst xy) (snd xy) in
          RtoC (weight_of (fst xy) * weight_of (snd xy) ^ 2) * (RtoC (bessel s) * h s s (los_of (fst xy)))) pairs)
        - RtoC (bessel (sep_vec st cell0)) * excess (h (sep_vec st cell0) (sep_vec st cell0)))))%C.
Proof.
  intros P sj st ord wd wr l1 l2 L data rand norm a b w S LP E I H VC W HP NA NB Na Nb alpha obs pairs h excess coincident bessel.
  pose proof S as (V & _). pose proof (valid_grid _ V) as G. assert (Hv : 0 < vol_cell (st_mesh st)) by apply V.
  unfold compute_bispec, bispec_entry. rewrite VC. cbn [bind].
  replace (_ || _)%bool with false by (destruct (modes_of st a), (modes_of st b); reflexivity || contradiction).
  eexists. split; [reflexivity|]. cbn [t_shot]. f_equal. fold alpha.
  set (c := coupling_3pt l1 l2 L w). set (src := survey_sources P st alpha L data rand).
  set (dn := transform st (ylm_wgtd_field P st alpha 0 0 data rand)). set (N0 := transform st (quad_field P st alpha 0 0 data rand)).
  set (row := fun t => let '(m1, m2, M) := t in stats_fourier P st (ord t) dn (s_N src M) (s_S src M) l1 m1 a).
  set (col := fun t => let '(m1, m2, M) := t in stats_fourier P st (ord t) dn (s_N src M) (s_S src M) l2 m2 b).
  set (xi := fun t => let '(m1, m2, M) := t in shot_bispec P sj st (s_dn src M) N0 (s_S src M) l1 l2 m1 m2 (k_eff st a) (k_eff st b)).
  rewrite (term_loop_ext c _ (fun t =>
    (((if (l1 =? 0)%Z && (l2 =? 0)%Z then RtoC (c t) * s_S src (snd t) else RtoC 0)
    + (if (l2 =? 0)%Z then mirrored_sum (mirror_of L t) (RtoC (c t) * (s_stat (row t) - s_shot (row t))) else RtoC 0))
    + (if (l1 =? 0)%Z then mirrored_sum (mirror_of L t) (RtoC (c t) * (s_stat (col t) - s_shot (col t))) else RtoC 0))
    + ipow (l1 + l2) * mirrored_sum (mirror_w3j t) (RtoC (c t) * xi t))%C)
    by (intros [[m1 m2] M]; reflexivity).
  rewrite !term_loop_plus, !term_loop_if, term_loop_scal. f_equal; [f_equal; [f_equal|]|f_equal].
  - destruct ((l1 =? 0)%Z && (l2 =? 0)%Z)%bool eqn:Z0; [|reflexivity]. apply Bool.andb_true_iff in Z0. destruct Z0 as [Z1 Z2].
    apply Z.eqb_eq in Z1, Z2. assert (L = 0%Z) by (pose proof (accepted_degrees_even l1 l2 L VC); lia).
    unfold c, w. subst l1 l2 L. rewrite term_loop_000, weight_coupling, weight_000. cbn [src survey_sources s_S snd].
    rewrite (proj2 (third_amplitude P 0 0 alpha data rand)). unfold excess. rewrite Cmult_1_l. f_equal.
    + apply csum_map_ext. intros o _. rewrite (proj1 (ylm_special P _)). ring.
    + f_equal. unfold cubes. apply csum_map_ext. intros vp _. now rewrite (proj1 (ylm_special P _)).
  - destruct (Z.eqb_spec l2 0) as [Z2|]; [|reflexivity]. specialize (Na Z2).
    transitivity (snd (order_loop c (powerRZ (-1) L) (fun t => let '(m1, m2, M) := t in bin_mean_spec (mode_cells st a) (fun k =>
      csum (map (fun cn => fst cn * reduced_ylm P L M (snd cn)) (mode_terms st alpha data rand k)) *
      (reduced_ylm P l1 m1 (mode_vec st k) * reduced_ylm P l2 m2 (mode_vec st k))))%C (visited_survey l1 l2 L w))).
    + rewrite term_loop_order. apply term_loop_ext_in. intros [[m1 m2] M] Ht. apply visited_survey_spec in Ht. destruct Ht as ((R1 & R2 & R3) & _).
      rewrite mirrored_scal. unfold mirror_of. do 2 f_equal. unfold row, src. cbn [survey_sources s_N s_S].
      unfold dn. rewrite fourier_orders by (try assumption; apply HP).
      apply bin_mean_ext. intros k _. replace m2 with 0%Z by lia. rewrite Z2, (proj1 (ylm_special P _)). ring.
    + unfold c, w. rewrite mode_orders by assumption. apply bin_mean_ext. intros k _. apply mode_terms_sum.
  - destruct (Z.eqb_spec l1 0) as [Z1|]; [|reflexivity]. specialize (Nb Z1).
    transitivity (snd (order_loop c (powerRZ (-1) L) (fun t => let '(m1, m2, M) := t in bin_mean_spec (mode_cells st b) (fun k =>
      csum (map (fun cn => fst cn * reduced_ylm P L M (snd cn)) (mode_terms st alpha data rand k)) *
      (reduced_ylm P l1 m1 (mode_vec st k) * reduced_ylm P l2 m2 (mode_vec st k))))%C (visited_survey l1 l2 L w))).
    + rewrite term_loop_order. apply term_loop_ext_in. intros [[m1 m2] M] Ht. apply visited_survey_spec in Ht. destruct Ht as ((R1 & R2 & R3) & _).
      rewrite mirrored_scal. unfold mirror_of. do 2 f_equal. unfold col, src. cbn [survey_sources s_N s_S].
      unfold dn. rewrite fourier_orders by (try assumption; apply HP).
      apply bin_mean_ext. intros k _. replace m1 with 0%Z by lia. rewrite Z1, (proj1 (ylm_special P _)). ring.
    + unfold c, w. rewrite mode_orders by assumption. apply bin_mean_ext. intros k _. apply mode_terms_sum.
  - transitivity (snd (order_loop c 1 (fun t => let '(m1, m2, M) := t in csum (map (fun r =>
      csum (map (fun cn => RtoC (fst cn) * reduced_ylm P L M (snd cn)) (shot_terms (st_mesh st) alpha data rand r)) *
      (RtoC (bessel (sep_vec st r)) * (reduced_ylm P l1 m1 (sep_vec st r) * reduced_ylm P l2 m2 (sep_vec st r)))) (grid_cells (ngrid (st_mesh st)))))%C
      (visited_survey l1 l2 L w))).
    + rewrite term_loop_order. apply term_loop_ext. intros [[m1 m2] M]. rewrite mirrored_scal. unfold mirror_w3j. do 2 f_equal.
      unfold xi, shot_bispec. rewrite Cmult_comm, <- csum_map_scal. apply csum_map_ext. intros r _.
      unfold src. cbn [survey_sources s_dn s_S]. unfold N0. rewrite shot_mesh_pairs by assumption. rewrite shot_terms_sum. fold (sep_vec st r) (bessel (sep_vec st r)).
      assert (Q : (RtoC (vol_cell (st_mesh st)) * RtoC (/ vol_cell (st_mesh st)))%C = RtoC 1) by (rewrite <- RtoC_mult, Rinv_r by lra; reflexivity).
      unfold bessel. ring [Q].
    + unfold c, w. rewrite (config_orders P st alpha l1 l2 L data rand (fun r => bessel (sep_vec st r))) by assumption.
      rewrite (csum_map_ext _ (fun r => csum (map (fun xy => if separated (st_mesh st) (part_of (fst xy)) (part_of (snd xy)) r
         then RtoC (weight_of (fst xy) * weight_of (snd xy) ^ 2) * (RtoC (bessel (sep_vec st r)) * h (sep_vec st r) (sep_vec st r) (los_of (fst xy))) else RtoC 0) pairs)
         + (if same_cell (ngrid (st_mesh st)) cell0 r then - (RtoC (bessel (sep_vec st r)) * excess (h (sep_vec st r) (sep_vec st r))) else RtoC 0))%C).
      * rewrite csum_map_plus. unfold Cminus. f_equal.
        -- rewrite csum_swap. apply csum_map_ext. intros xy _. unfold separated.
           exact (total_separated _ _ (fun r => RtoC (weight_of (fst xy) * weight_of (snd xy) ^ 2) * (RtoC (bessel (sep_vec st r)) * h (sep_vec st r) (sep_vec st r) (los_of (fst xy))))%C G).
        -- pose proof (total_separated (ngrid (st_mesh st)) cell0 (fun r => - (RtoC (bessel (sep_vec st r)) * excess (h (sep_vec st r) (sep_vec st r))))%C G) as X.
           unfold total3 in X. rewrite X. rewrite cell_mod_id; [reflexivity|]. destruct (ngrid (st_mesh st)) as [p q r]. unfold grid_pos in G. cbn in *. lia.
      * intros r _. rewrite shot_terms_sum. unfold Cminus. rewrite Cmult_plus_distr_l. f_equal.
        -- rewrite <- csum_map_scal. apply csum_map_ext. intros xy _. destruct (separated _ _ _ _); unfold h; ring.
        -- destruct (same_cell _ _ _); unfold excess, h; ring.
Qed.

Lemma bin_mean_sub cells f k : cells <> [] -> bin_mean_spec cells (fun c => f c - k)%C = (bin_mean_spec cells f - k)%C.
Proof.
  intros N. unfold bin_mean_spec. assert (P : 0 < INR (length cells)) by (apply lt_0_INR; destruct cells; [contradiction|cbn; lia]).
  assert (X : csum (map (fun c => f c - k)%C cells) = (csum (map f cells) - RtoC (INR (length cells)) * k)%C).
  { clear. induction cells as [|c l IH]; [cbn; ring|]. cbn [map length]. rewrite !csum_cons, IH, S_INR, RtoC_plus. ring. }
  rewrite X. assert (Q : (RtoC (INR (length cells)) * RtoC (/ INR (length cells)))%C = RtoC 1) by (rewrite <- RtoC_mult, Rinv_r by lra; reflexivity).
  ring [Q].
Qed.

(** The monopole: pairs of different objects, the cubes of the data weights and five times
    (instead of once) those of the randoms. *)
Theorem bispec_monopole_shot :
  forall P sj st ord wd wr data rand norm a b,
  sound st -> two_cells st -> legendre_like P -> st_scheme st = NGP -> st_interlace st = false -> all_handled st data rand ->
  (forall t, Permutation (ord t) (grid_cells (ngrid (st_mesh st)))) ->
  modes_of st a <> [] -> modes_of st b <> [] -> mode_cells st a <> [] -> mode_cells st b <> [] ->
  below_nyquist_bin st a -> below_nyquist_bin st b -> sj 0%Z 0 = 1 ->
  let alpha := wd / wr in let pairs := distinct_pairs (objects alpha data rand) in
  let ww xy := RtoC (weight_of (fst xy) * weight_of (snd xy) ^ 2) in
  let mean c := bin_mean_spec (mode_cells st c) (fun k =>
    csum (map (fun xy => ww xy * (single st (part_of (fst xy)) k * Cconj (single st (part_of (snd xy)) k))) pairs))%C in
  exists out, compute_bispec P sj (wigner_3j 0 0 0) st ord wd wr 0 0 0 data rand norm a b = Ok out /\
  t_shot out = (RtoC norm *
    (mean a + mean b
     + csum (map (fun xy => let r := vec_mod (mesh_sep st (fst xy) (snd xy)) in
         ww xy * RtoC (sj 0%Z (k_eff st a * r)%R * sj 0%Z (k_eff st b * r)%R)) pairs)
     + (cubes data (fun _ => RtoC 1) - RtoC (5 * alpha ^ 3) * cubes rand (fun _ => RtoC 1))))%C.
Proof.
  intros P sj st ord wd wr data rand norm a b S T LP E I H HP NA NB MA MB Na Nb J alpha pairs ww mean.
  assert (VC : validate_coupling (wigner_3j 0 0 0) = Ok tt).
  { unfold validate_coupling. pose proof weight_000 as X. unfold weight in X. rewrite (proj2 (Rltb_false _ _)); [reflexivity|].
    assert (Q : wigner_3j 0 0 0 (0, 0, 0)%Z * wigner_3j 0 0 0 (0, 0, 0)%Z = 1) by lra.
    unfold eps_coupling. set (q := wigner_3j 0 0 0 (0, 0, 0)%Z) in *. clearbody q. destruct (Rcase_abs q) as [N|N].
    - rewrite Rabs_left by exact N. nra.
    - rewrite Rabs_right by exact N. nra. }
  destruct (bispec_shot_is_pair_sum P sj st ord wd wr 0 0 0 data rand norm a b S LP E I H VC (well_separated_l0l 0 ltac:(lia)) HP NA NB (fun _ => Na) (fun _ => Nb))
    as (out & E1 & E2). exists out. split; [exact E1|]. rewrite E2. clear E1 E2. f_equal. cbn [Z.eqb andb]. fold alpha.
  rewrite (sep_vec_0 st T). replace (vec_mod (0, 0, 0)) with 0 by (unfold vec_mod; rewrite !Rmult_0_l, !Rplus_0_l; symmetry; apply sqrt_0).
  rewrite !Rmult_0_r, J, Rmult_1_l. change (ipow (0 + 0)) with (RtoC 1).
  set (A := cubes rand (fun _ => RtoC 1)).
  assert (U : forall u v, cubes rand (triplet_harmonic P 0 0 0 u v) = A) by (intros; unfold A, cubes; apply csum_map_ext; intros; now rewrite harmonic_000).
  assert (M : forall c, mode_cells st c <> [] -> bin_mean_spec (mode_cells st c) (fun k =>
    csum (map (fun xy => RtoC (weight_of (fst xy) * weight_of (snd xy) ^ 2) * triplet_harmonic P 0 0 0 (mode_vec st k) (mode_vec st k) (los_of (snd xy)) *
      (single st (part_of (fst xy)) k * Cconj (single st (part_of (snd xy)) k))) (distinct_pairs (objects alpha data rand)))
    - RtoC (2 * alpha ^ 3) * cubes rand (triplet_harmonic P 0 0 0 (mode_vec st k) (mode_vec st k)))%C = (mean c - RtoC (2 * alpha ^ 3) * A)%C).
  { intros c N. unfold mean. rewrite <- bin_mean_sub by exact N. apply bin_mean_ext. intros k _. rewrite U. f_equal. fold pairs.
    apply csum_map_ext. intros xy _. rewrite harmonic_000. unfold ww. ring. }
  rewrite !M by assumption. rewrite U.
  assert (B : csum (map (fun o => RtoC (weight_of o ^ 3)) (objects alpha data rand)) = (cubes data (fun _ => RtoC 1) - RtoC (alpha ^ 3) * A)%C).
  { destruct (third_amplitude P 0 0 alpha data rand) as [T1 T2]. rewrite T1 in T2.
    assert (Y : forall l, cubes l (reduced_ylm P 0 0) = cubes l (fun _ => RtoC 1)) by (intros; unfold cubes; apply csum_map_ext; intros; now rewrite (proj1 (ylm_special P _))).
    rewrite !Y in T2. fold A in T2.
    rewrite (csum_map_ext _ (fun o => RtoC (weight_of o ^ 3) * reduced_ylm P 0 0 (los_of o))%C) by (intros; rewrite (proj1 (ylm_special P _)); ring).
    set (Q := csum _) in *. replace Q with (Q + RtoC (2 * alpha ^ 3) * A - RtoC (2 * alpha ^ 3) * A)%C by ring. rewrite <- T2.
    replace (2 * alpha ^ 3) with (alpha ^ 3 + alpha ^ 3) by ring. rewrite RtoC_plus. ring. }
  rewrite B. replace (csum (map (fun xy => let s := mesh_sep st (fst xy) (snd xy) in _) _)) with
    (csum (map (fun xy => let r := vec_mod (mesh_sep st (fst xy) (snd xy)) in ww xy * RtoC (sj 0%Z (k_eff st a * r)%R * sj 0%Z (k_eff st b * r)%R))%C pairs)).
  - replace (2 * alpha ^ 3) with (alpha ^ 3 + alpha ^ 3) by ring. replace (5 * alpha ^ 3) with (alpha ^ 3 + alpha ^ 3 + alpha ^ 3 + alpha ^ 3 + alpha ^ 3) by ring.
    rewrite !RtoC_plus. cbv zeta. ring.
  - apply csum_map_ext. intros xy _. cbv zeta. rewrite harmonic_000. unfold ww. ring.
Qed.

(** One random object makes no pair, and its triple with itself is [- alpha^3 w^3]. *)
Definition bin_low : bin3 := Bin3 1 (21 / 10) (3 / 2).
Lemma low_modes c : mode_len st4 c < 21 / 10 + dk_sample -> interior (ngrid grid4) c.
Proof.
  destruct c as [[i j] k]. unfold mode_len, vec_mod, wavevector, dk_of. cbn [st4 st_mesh grid4 ngrid boxsize ax0 ax1 ax2]. rewrite !grid_vector_shift.
  set (x := shift_index 4 i). set (y := shift_index 4 j). set (z := shift_index 4 k). intros H. unfold interior, below_nyquist. cbn [ax0 ax1 ax2]. fold x y z.
  change (4 / 2)%Z with 2%Z. clearbody x y z. pose proof PI2_3_2 as HP.
  assert (X : forall u q : R, u * (2 * PI / 4) * (u * (2 * PI / 4)) <= q -> 0 <= q -> sqrt q < 21 / 10 + dk_sample -> Rabs u < 2).
  { intros u q Hq H0 Hs. unfold dk_sample in Hs. assert (q < 3 * 3).
    { apply sqrt_lt_0_alt. rewrite sqrt_square by lra. lra. }
    apply Rabs_def1; apply Rnot_le_lt; intros Hu.
    - assert (3 <= u * (2 * PI / 4)) by nra. nra.
    - assert (u * (2 * PI / 4) <= -3) by nra. nra. }
  assert (Y : forall u : Z, Rabs (IZR u) < 2 -> (Z.abs u < 2)%Z) by (intros u Hu; rewrite <- abs_IZR in Hu; now apply lt_IZR).
  set (d := 2 * PI / 4) in *.
  pose proof (Rle_0_sqr (IZR x * d)) as Q1. pose proof (Rle_0_sqr (IZR y * d)) as Q2. pose proof (Rle_0_sqr (IZR z * d)) as Q3. unfold Rsqr in *.
  repeat split; apply Y; (eapply X; [|clear H|exact H]); lra.
Qed.
Lemma low_below : below_nyquist_bin st4 bin_low.
Proof.
  intros c Hc. split.
  - apply low_modes. unfold mode_cells, counted in Hc. apply filter_In in Hc. destruct Hc as [_ Hc]. rewrite !andb_true_iff, Rltb_spec in Hc. destruct Hc as [_ Hc].
    unfold sampled in Hc. cbn [bin_low b_hi] in Hc. pose proof (Zfloor_ub (mode_len st4 c / dk_sample)) as U.
    unfold dk_sample in *. lra.
  - apply mode_off_axis; cbn; pose proof PI2_3_2; pose proof PI_4; unfold eps_sph; lra.
Qed.
Lemma low_len : mode_len st4 (1, 0, 0)%Z = PI / 2.
Proof.
  unfold mode_len, vec_mod, wavevector, dk_of. cbn [st4 st_mesh grid4 ngrid boxsize ax0 ax1 ax2]. rewrite !grid_vector_shift.
  change (shift_index 4 1) with 1%Z. change (shift_index 4 0) with 0%Z. pose proof PI_RGT_0.
  replace (_ + _) with (Rsqr (PI / 2)) by (unfold Rsqr; field). apply sqrt_Rsqr. lra.
Qed.
Lemma low_nonempty : modes_of st4 bin_low <> [] /\ mode_cells st4 bin_low <> [].
Proof.
  pose proof PI2_3_2 as HP. pose proof PI_4 as HP4.
  assert (G : grid_cell (ngrid (st_mesh st4)) (1, 0, 0)%Z) by (cbn; lia).
  split; intros N.
  - assert (X : In (1, 0, 0)%Z (modes_of st4 bin_low)).
    { apply In_modes. split; [exact G|]. rewrite low_len. cbn [bin_low b_lo b_hi]. lra. }
    rewrite N in X. exact X.
  - assert (X : In (1, 0, 0)%Z (mode_cells st4 bin_low)).
    { unfold mode_cells, counted. rewrite filter_In, !andb_true_iff, Z.ltb_lt, Rleb_spec, Rltb_spec. split; [now apply In_grid_cells|].
      rewrite low_len. unfold sampled. pose proof (Zfloor_ub (PI / 2 / dk_sample)) as U. pose proof (Zfloor_lb (PI / 2 / dk_sample)) as L.
      cbn [bin_low b_lo b_hi]. set (z := Zfloor _) in *. clearbody z. unfold dk_sample, n_sample in *.
      assert (B : IZR z < 200001) by lra. apply lt_IZR in B. repeat split; try lia; lra. }
    rewrite N in X. exact X.
Qed.

Theorem bispec_lone_random_refuted :
  exists P sj st ord v p norm a b out,
    sound st /\ legendre_like P /\ sj 0%Z 0 = 1 /\ all_handled st [] [(v, p)] /\ below_nyquist_bin st a /\ below_nyquist_bin st b /\
    (forall t, Permutation (ord t) (grid_cells (ngrid (st_mesh st)))) /\ p_w p = 1 /\
    compute_bispec P sj (wigner_3j 0 0 0) st ord 1 1 0 0 0 [] [(v, p)] norm a b = Ok out /\
    distinct_pairs (objects 1 [] [(v, p)]) = [] /\
    csum (map (fun o => RtoC (weight_of o ^ 3)) (objects 1 [] [(v, p)])) = RtoC (Ropp 1) /\
    t_shot out = (RtoC norm * RtoC (-5))%C /\ t_shot out <> (RtoC norm * RtoC (Ropp 1))%C.
Proof.
  assert (H : all_handled st4 [] [((0, 0, 1), at_z 0 1)]).
  { split; [intros vp []|]. intros vp [<-|[]]; (split; [unfold inside_box, in_box; cbn; repeat split; lra|discriminate]). }
  destruct low_nonempty as [N1 N2].
  destruct (bispec_monopole_shot legendre (fun _ _ => 1) st4 (fun _ => grid_cells (ngrid grid4)) 1 1 [] [((0, 0, 1), at_z 0 1)] 1 bin_low bin_low
    sound4 ltac:(unfold two_cells; cbn; lia) legendre_is_like eq_refl eq_refl H (fun _ => Permutation_refl _) N1 N1 N2 N2 low_below low_below eq_refl) as (out & E1 & E2).
  assert (D : distinct_pairs (objects (1 / 1) [] [((0, 0, 1), at_z 0 1)]) = []) by reflexivity.
  assert (F : t_shot out = (RtoC 1 * RtoC (-5))%C).
  { rewrite E2, D. f_equal. unfold bin_mean_spec. cbn [map csum fold_right].
    replace (csum (map (fun _ : gcell => RtoC 0) (mode_cells st4 bin_low))) with (RtoC 0) by (symmetry; apply csum_map_zero; reflexivity).
    unfold cubes. cbn [map csum fold_right snd at_z p_w].
    replace (5 * (1 / 1) ^ 3) with 5 by field. replace (1 ^ 3) with 1 by ring. rewrite !Cmult_0_l, Cmult_1_r, !Cplus_0_r.
    unfold Cminus. rewrite !Cplus_0_l, Cmult_1_r, <- RtoC_opp. reflexivity. }
  exists legendre, (fun _ _ => 1), st4, (fun _ => grid_cells (ngrid grid4)), (0, 0, 1), (at_z 0 1), 1, bin_low, bin_low, out.
  split; [exact sound4|]. split; [exact legendre_is_like|]. split; [reflexivity|]. split; [exact H|]. split; [exact low_below|]. split; [exact low_below|].
  split; [intros; apply Permutation_refl|]. split; [reflexivity|]. split; [exact E1|]. split; [reflexivity|].
  split; [|split; [exact F|]].
  - unfold objects. cbn [map app csum fold_right]. unfold weight_of, part_of. cbn [fst snd at_z p_w]. rewrite Cplus_0_r. f_equal. ring.
  - rewrite F. intros X. apply (f_equal fst) in X. cbn in X. lra.
Qed.

(** The documented amplitude is another number already for one random object. *)
Theorem third_amplitude_refuted :
  exists P alpha data rand,
    ylm_wgtd_shotnoise P 3 0 0 alpha (map fst data) (map fst rand) (map snd data) (map snd rand) <>
    (cubes data (reduced_ylm P 0 0) - RtoC (alpha ^ 3) * cubes rand (reduced_ylm P 0 0))%C.
Proof.
  exists legendre, (1 / 2), [((0, 0, 1), at_z 0 2)], [((0, 0, 1), at_z 1 1)].
  rewrite (proj1 (third_amplitude legendre 0 0 (1 / 2) [((0, 0, 1), at_z 0 2)] [((0, 0, 1), at_z 1 1)])).
  unfold cubes. cbn [map csum fold_right snd fst at_z p_w]. rewrite !(proj1 (ylm_special legendre _)).
  intros X. apply (f_equal fst) in X. cbn in X. lra.
Qed.

Example third_amplitude_case :
  ylm_wgtd_shotnoise legendre 3 0 0 (1 / 2) [(0, 0, 1)] [(0, 0, 1)] [at_z 0 2] [at_z 1 1] = RtoC (65 / 8).
Proof.
  pose proof (proj1 (third_amplitude legendre 0 0 (1 / 2) [((0, 0, 1), at_z 0 2)] [((0, 0, 1), at_z 1 1)])) as X.
  cbn [map fst snd] in X. rewrite X. unfold cubes. cbn [map csum fold_right snd fst at_z p_w]. rewrite !(proj1 (ylm_special legendre _)).
  apply injective_projections; cbn; lra.
Qed.

(** One galaxy of weight 2: the raw monopole is 8 times the mean of the inverse windows. *)
Example triangle_average_case :
  exists out, compute_bispec legendre (fun _ _ => 1) (wigner_3j 0 0 0) st4 (fun _ => grid_cells (ngrid grid4)) 1 1 0 0 0
    [((0, 0, 1), at_z 1 2)] [] 1 bin_low bin_low = Ok out /\
  t_raw out = (RtoC 8 * pair_mean (modes_of st4 bin_low) (modes_of st4 bin_low) (fun k1 k2 =>
    RtoC (/ (window_at st4 k1 * window_at st4 k2 * window_at st4 (closing (ngrid grid4) k1 k2)))))%C /\
  t_shot out = RtoC 8.
Proof.
  assert (H : all_handled st4 [((0, 0, 1), at_z 1 2)] []).
  { split; [|intros vp []]. intros vp [<-|[]]; (split; [unfold inside_box, in_box; cbn; repeat split; lra|discriminate]). }
  destruct low_nonempty as [N1 N2].
  assert (SB : safe_bin st4 bin_low).
  { intros c [Gc Hc]. split; [|apply mode_off_axis; cbn; pose proof PI2_3_2; pose proof PI_4; unfold eps_sph; lra].
    apply low_modes. cbn [bin_low b_hi] in Hc. unfold dk_sample. lra. }
  assert (ST : safe_triangles st4 bin_low bin_low).
  { split; [exact SB|]. split; [exact SB|]. intros k1 k2 _ _. right. split; [reflexivity|]. unfold even_grid. cbn.  repeat split; exists 2%Z; reflexivity. }
  destruct (bispec_monopole_shot legendre (fun _ _ => 1) st4 (fun _ => grid_cells (ngrid grid4)) 1 1 [((0, 0, 1), at_z 1 2)] [] 1 bin_low bin_low
    sound4 ltac:(unfold two_cells; cbn; lia) legendre_is_like eq_refl eq_refl H (fun _ => Permutation_refl _) N1 N1 N2 N2 low_below low_below eq_refl) as (out & E1 & E2).
  assert (VC : validate_coupling (wigner_3j 0 0 0) = Ok tt).
  { unfold compute_bispec, bispec_entry in E1. destruct (validate_coupling _) as [[]|]; [reflexivity|discriminate]. }
  destruct (bispectrum_is_triangle_average legendre (fun _ _ => 1) st4 (fun _ => grid_cells (ngrid grid4)) 1 1 0 0 0 [((0, 0, 1), at_z 1 2)] [] 1 bin_low bin_low
    (modes_of st4 bin_low) (modes_of st4 bin_low) sound4 legendre_is_like (Z.le_refl 0) H VC (well_separated_l0l 0 (Z.le_refl 0)) ST
    (modes_of_listed st4 bin_low) (modes_of_listed st4 bin_low) N1 N1) as (o & F1 & F2).
  rewrite E1 in F1. injection F1 as <-. exists out. split; [exact E1|]. split.
  - rewrite F2. rewrite Cmult_1_l. unfold pair_mean. rewrite Cmult_assoc. f_equal. rewrite <- csum_map_scal. apply csum_map_ext. intros k1 _.
    rewrite <- csum_map_scal. apply csum_map_ext. intros k2 _. cbv zeta. f_equal. unfold objects. cbn [map app csum fold_right].
    rewrite harmonic_000. unfold weight_of, part_of. cbn [fst snd at_z p_w]. change (PDatum (T3 0 0 1) 1 1 1 2) with (at_z 1 2).
    rewrite !single_ngp by (try reflexivity; try exact sound4; exact (proj1 H _ (or_introl eq_refl))).
    unfold closing. rewrite wave_mod by (unfold grid_pos; cbn; lia). rewrite wave_opp, wave_add, Cconj_inv.
    set (n := nearest _ _). pose proof (wave_norm (ngrid (st_mesh st4)) k1 n) as Q1. pose proof (wave_norm (ngrid (st_mesh st4)) k2 n) as Q2.
    set (u := wave _ k1 n) in *. set (v := wave _ k2 n) in *. clearbody u v. rewrite !Cplus_0_r, Rmult_1_l, Cmult_1_r.
    replace (RtoC 8) with (RtoC 2 * RtoC 2 * RtoC 2)%C by (rewrite <- !RtoC_mult; f_equal; lra). ring [Q1 Q2].
  - rewrite E2. cbn [objects map app distinct_pairs picks flat_map]. unfold bin_mean_spec. cbn [map csum fold_right].
    replace (csum (map (fun _ : gcell => RtoC 0) (mode_cells st4 bin_low))) with (RtoC 0) by (symmetry; apply csum_map_zero; reflexivity).
    unfold cubes. cbn [map csum fold_right snd at_z p_w]. apply injective_projections; cbn; ring.
Qed.

Print Assumptions third_amplitude.
Print Assumptions threepcf_shot_is_pair_sum.
Print Assumptions threepcf_shot_sign_refuted.
Print Assumptions bispec_shot_is_pair_sum.
Print Assumptions bispec_monopole_shot.
Print Assumptions bispec_lone_random_refuted.
