(* Claims C82 to C84: three-point correlation functions as sums over pairs of modes, the
   shot noise of boxes and windows. *)
From Coq Require Import Reals ZArith List Lia Lra Bool Permutation FunctionalExtensionality.
From Coquelicot Require Import Complex.
From Flocq Require Import Core.Raux.
From Verif Require Import Base ArrayModel ArrayProofs MeshModel MeshIndexProps MeshProofs MeshProps MeshWindowProps BinVecModel BinVecProps CSum ThreePtModel OrderProps WignerProps
  SphHarmModel SphHarmProps CatModel NormModel FieldModel Dft3 FieldProps CorrProps PowProps BispecModel BispecProps ShotProps.
Import ListNotations.
Open Scope R_scope.

(** ** Vocabulary *)

(** Sum over all pairs of modes of the mesh. *)
Definition pair_total (ng : triple Z) (f : gcell -> gcell -> C) : C := total3 ng (fun k1 => total3 ng (f k1)).

(** ** Proof support *)
Lemma pair_total_ext ng f g : (forall k1 k2, grid_cell ng k1 -> grid_cell ng k2 -> f k1 k2 = g k1 k2) -> pair_total ng f = pair_total ng g.
Proof. intros H. apply total3_ext. intros k1 H1. apply total3_ext. intros k2 H2. now apply H. Qed.
Lemma pair_total_scal ng z f : pair_total ng (fun k1 k2 => z * f k1 k2)%C = (z * pair_total ng f)%C.
Proof. unfold pair_total. rewrite <- total3_scal. apply total3_ext. intros k1 _. apply total3_scal. Qed.
Lemma pair_total_conj ng f : Cconj (pair_total ng f) = pair_total ng (fun k1 k2 => Cconj (f k1 k2)).
Proof. unfold pair_total. rewrite total3_conj. apply total3_ext. intros k1 _. apply total3_conj. Qed.
Lemma pair_total_sum {T} ng (f : T -> gcell -> gcell -> C) l :
  csum (map (fun t => pair_total ng (f t)) l) = pair_total ng (fun k1 k2 => csum (map (fun t => f t k1 k2) l)).
Proof.
  unfold pair_total. rewrite csum_total3. apply total3_ext. intros k1 _. apply csum_total3.
Qed.
Lemma total3_neg ng f : grid_pos ng -> total3 ng (fun c => f (neg_cell ng c)) = total3 ng f.
Proof.
  intros G. apply csum_neg; [apply NoDup_grid_cells| |].
  - intros c. apply In_grid_cells.
  - intros c H. apply In_grid_cells in H. apply In_grid_cells. now apply neg_cell_grid.
Qed.
Lemma pair_total_neg ng f : grid_pos ng -> pair_total ng (fun k1 k2 => f (neg_cell ng k1) (neg_cell ng k2)) = pair_total ng f.
Proof.
  intros G. unfold pair_total. rewrite <- (total3_neg ng (fun k1 => total3 ng (f k1))) by exact G. apply total3_ext. intros k1 _.
  now apply total3_neg.
Qed.
Lemma pair_total_swap ng f : pair_total ng f = pair_total ng (fun k2 k1 => f k1 k2).
Proof. apply total3_swap. Qed.

(** One component: the fields of both sides summed over the mesh with the third. *)
Definition sjl_component (P : Z -> Z -> R -> R) (sj : Z -> R -> R) (st : settings) (dn : gcell -> C) (G : Z -> gcell -> C)
    (l1 l2 : Z) (ra rb : R) (t : triplet) : C :=
  let '(m1, m2, M) := t in
  bispec_component (ngrid (st_mesh st)) (sjl_field P sj st dn l1 m1 ra) (sjl_field P sj st dn l2 m2 rb) (compensated st (G M)).

Lemma sjl_component_modes P sj st dn G l1 l2 ra rb m1 m2 M : sound st ->
  (RtoC (vol_cell (st_mesh st)) * sjl_component P sj st dn G l1 l2 ra rb (m1, m2, M))%C =
  (RtoC (/ st_vol st ^ 2) * pair_total (ngrid (st_mesh st)) (fun k1 k2 =>
    let k3 := closing (ngrid (st_mesh st)) k1 k2 in
    RtoC (sj l1 (mode_len st k1 * ra)%R * sj l2 (mode_len st k2 * rb)%R)
    * (reduced_ylm P l1 m1 (mode_vec st k1) * reduced_ylm P l2 m2 (mode_vec st k2))
    * (dn k1 * dn k2 * G M k3 * RtoC (/ (window_at st k1 * window_at st k2 * window_at st k3)))))%C.
Proof.
  intros (V & E). pose proof (valid_grid _ V) as HG.
  assert (W : 0 < vol_cell (st_mesh st)) by apply V. pose proof (mesh_size_pos _ HG) as MP.
  assert (HV : st_vol st <> 0) by (rewrite E; nra).
  unfold sjl_component, bispec_component. set (ng := ngrid (st_mesh st)) in *.
  set (u := fun c => (RtoC (sj l1 (mode_len st c * ra)%R) * (reduced_ylm P l1 m1 (mode_vec st c) * (dn c * RtoC (/ window_at st c))) * RtoC (/ st_vol st))%C).
  set (v := fun c => (RtoC (sj l2 (mode_len st c * rb)%R) * (reduced_ylm P l2 m2 (mode_vec st c) * (dn c * RtoC (/ window_at st c))) * RtoC (/ st_vol st))%C).
  set (g := fun c => (RtoC (/ st_vol st) * (G M c * RtoC (/ window_at st c)))%C).
  rewrite (csum_map_ext _ (fun x => csum (map (fun c => u c * wave ng c x) (grid_cells ng)) * csum (map (fun d => v d * wave ng d x) (grid_cells ng))
     * total3 ng (fun e => g e * wave ng e x))%C).
  - change (csum (map (fun x => csum (map (fun c => u c * wave ng c x) (grid_cells ng)) * csum (map (fun d => v d * wave ng d x) (grid_cells ng))
       * total3 ng (fun e => g e * wave ng e x))%C (grid_cells ng))) with
      (total3 ng (fun x => csum (map (fun c => u c * wave ng c x) (grid_cells ng)) * csum (map (fun d => v d * wave ng d x) (grid_cells ng))
       * total3 ng (fun e => g e * wave ng e x))%C).
    rewrite triangle_sum by exact HG. rewrite Cmult_assoc, <- RtoC_mult, <- E.
    change (csum (map (fun c => csum (map (fun d => u c * v d * g (closing ng c d)) (grid_cells ng))) (grid_cells ng)))%C with
      (pair_total ng (fun c d => u c * v d * g (closing ng c d))%C).
    rewrite <- !pair_total_scal. apply pair_total_ext. intros c d _ _. unfold u, v, g. cbv zeta.
    rewrite !Rinv_mult, !RtoC_mult. replace (/ st_vol st ^ 2) with (/ st_vol st * / st_vol st) by (field; exact HV). rewrite RtoC_mult.
    assert (Q : (RtoC (st_vol st) * RtoC (/ st_vol st))%C = RtoC 1) by (rewrite <- RtoC_mult, Rinv_r by exact HV; reflexivity).
    ring [Q].
  - intros x _. unfold sjl_field, compensated, inv_fourier. fold ng.
    rewrite (csum_map_ext _ (fun c => u c * wave ng c x)%C) by (intros [[i j] k] _; unfold u, wave, mode_vec, mode_len, window_at; reflexivity).
    rewrite (csum_map_ext (fun c : Z * Z * Z => let '(i, j, k) := c in (RtoC (sj l2 _) * _ * _ * _)%C) (fun d => v d * wave ng d x)%C)
      by (intros [[i j] k] _; unfold v, wave, mode_vec, mode_len, window_at; reflexivity).
    rewrite (csum_map_ext (fun c : Z * Z * Z => let '(i, j, k) := c in (RtoC (/ st_vol st) * _ * _)%C) (fun e => g e * wave ng e x)%C)
      by (intros [[i j] k] _; unfold g, wave, window_at; reflexivity).
    reflexivity.
Qed.

(** The field has no modes at the Nyquist frequency. *)
Definition nyquist_free (st : settings) (dn : gcell -> C) : Prop :=
  forall k, grid_cell (ngrid (st_mesh st)) k -> ~ interior (ngrid (st_mesh st)) k -> dn k = RtoC 0.
(** Fundamental wavenumbers large enough for the harmonics of all modes. *)
Definition wide_modes (st : settings) : Prop :=
  eps_sph <= 2 * PI / ax0 (boxsize (st_mesh st)) /\ eps_sph <= 2 * PI / ax1 (boxsize (st_mesh st)).

Lemma interior_dec ng c : {interior ng c} + {~ interior ng c}.
Proof.
  destruct c as [[i j] k]. unfold interior, below_nyquist.
  destruct (Z_lt_dec (Z.abs (shift_index (ax0 ng) i)) (ax0 ng / 2)); [|right; tauto].
  destruct (Z_lt_dec (Z.abs (shift_index (ax1 ng) j)) (ax1 ng / 2)); [|right; tauto].
  destruct (Z_lt_dec (Z.abs (shift_index (ax2 ng) k)) (ax2 ng / 2)); [left|right]; tauto.
Qed.
Lemma shift_neg_abs n i : (0 <= i < n)%Z -> (Z.abs (shift_index n i) < n / 2)%Z -> (Z.abs (shift_index n (neg_index n i)) < n / 2)%Z.
Proof.
  intros H. unfold shift_index, neg_index. assert (n / 2 <= n)%Z by (apply Z.div_le_upper_bound; lia).
  pose proof (Z.mul_div_le n 2 ltac:(lia)) as Q1. pose proof (Z.mul_succ_div_gt n 2 ltac:(lia)) as Q2.
  destruct (Z.eqb_spec i 0); destruct (Z.ltb_spec i (n / 2)); repeat match goal with |- context [(?a <? ?b)%Z] => destruct (Z.ltb_spec a b) end; lia.
Qed.
Lemma interior_neg ng c : grid_cell ng c -> interior ng c -> interior ng (neg_cell ng c).
Proof.
  destruct c as [[i j] k]. intros (H0 & H1 & H2) (I0 & I1 & I2). unfold neg_cell, interior, below_nyquist in *.
  repeat split; now apply shift_neg_abs.
Qed.
Lemma interior_neg_iff ng c : grid_cell ng c -> interior ng (neg_cell ng c) <-> interior ng c.
Proof.
  intros H. split; [|now apply interior_neg]. intros I. rewrite <- (neg_cell_inv ng c) by exact H. apply interior_neg; [now apply neg_cell_grid|exact I].
Qed.

Lemma sjl_component_mirror P sj st dn G l1 l2 ra rb m1 m2 M : sound st -> legendre_like P -> wide_modes st ->
  st_interlace st = false -> even_grid (ngrid (st_mesh st)) ->
  (Z.abs m1 <= l1)%Z -> (Z.abs m2 <= l2)%Z -> nyquist_free st dn ->
  (forall c, grid_cell (ngrid (st_mesh st)) c -> dn (neg_cell (ngrid (st_mesh st)) c) = Cconj (dn c)) ->
  (forall c, grid_cell (ngrid (st_mesh st)) c -> G (- M)%Z (neg_cell (ngrid (st_mesh st)) c) = (RtoC (sign M) * Cconj (G M c))%C) ->
  (RtoC (vol_cell (st_mesh st)) * sjl_component P sj st dn G l1 l2 ra rb (- m1, - m2, - M)%Z)%C =
  (RtoC (sign (l1 + l2 + (m1 + m2 + M))) * Cconj (RtoC (vol_cell (st_mesh st)) * sjl_component P sj st dn G l1 l2 ra rb (m1, m2, M)))%C.
Proof.
  intros S LP [W0 W1] I EG B1 B2 NF HD HG. pose proof S as (V & _). pose proof (valid_grid _ V) as GP.
  rewrite !sjl_component_modes by exact S. rewrite Cconj_mult, Cconj_RtoC, pair_total_conj, <- !pair_total_scal.
  rewrite <- pair_total_neg by exact GP. apply pair_total_ext. intros k1 k2 H1 H2. cbv zeta.
  rewrite closing_neg by assumption. set (k3 := closing (ngrid (st_mesh st)) k1 k2). assert (G3 : grid_cell (ngrid (st_mesh st)) k3) by now apply closing_grid.
  assert (SM : forall c, safe_mode st c) by (intros c; right; now split).
  rewrite !window_at_neg by (try assumption; apply SM). rewrite HG, !HD by assumption.
  destruct (interior_dec (ngrid (st_mesh st)) k1) as [I1|N1].
  2: { rewrite (NF k1 H1 N1), !Cconj_mult, Cconj_RtoC. ring. }
  destruct (interior_dec (ngrid (st_mesh st)) k2) as [I2|N2].
  2: { rewrite (NF k2 H2 N2), !Cconj_mult, Cconj_RtoC. ring. }
  assert (VN : forall c, grid_cell (ngrid (st_mesh st)) c -> interior (ngrid (st_mesh st)) c ->
    mode_vec st (neg_cell (ngrid (st_mesh st)) c) = opp3 (mode_vec st c)) by (intros; now apply wavevector_neg).
  assert (LN : forall c, grid_cell (ngrid (st_mesh st)) c -> interior (ngrid (st_mesh st)) c -> mode_len st (neg_cell (ngrid (st_mesh st)) c) = mode_len st c).
  { intros c Hc Ic. unfold mode_len. change (wavevector (ngrid (st_mesh st)) (dk_of (st_mesh st)) (neg_cell (ngrid (st_mesh st)) c)) with (mode_vec st (neg_cell (ngrid (st_mesh st)) c)).
    rewrite VN by assumption. apply vec_mod_opp. }
  rewrite !VN, !LN by assumption. rewrite !ylm_opposite_order, !ylm_parity by (try assumption; apply mode_off_axis; assumption).
  rewrite !Cconj_mult, !Cconj_RtoC.
  replace (l1 + l2 + (m1 + m2 + M))%Z with ((l1 + m1) + (l2 + m2) + M)%Z by lia.
  rewrite (sign_plus (l1 + m1 + (l2 + m2)) M), (sign_plus (l1 + m1) (l2 + m2)), (sign_plus l1 m1), (sign_plus l2 m2), !RtoC_mult. ring.
Qed.

Lemma weighted_modes P sj st dn (G : Z -> gcell -> C) l1 l2 L ra rb ts : sound st ->
  weighted_sum l1 l2 L (wigner_3j l1 l2 L) (fun t => RtoC (vol_cell (st_mesh st)) * sjl_component P sj st dn G l1 l2 ra rb t)%C ts =
  (RtoC (/ st_vol st ^ 2) * pair_total (ngrid (st_mesh st)) (fun k1 k2 =>
    let k3 := closing (ngrid (st_mesh st)) k1 k2 in
    RtoC (sj l1 (mode_len st k1 * ra)%R * sj l2 (mode_len st k2 * rb)%R) * (dn k1 * dn k2) *
    csum (map (fun t => let '(m1, m2, M) := t in RtoC (weight l1 l2 L (wigner_3j l1 l2 L) t) *
      (reduced_ylm P l1 m1 (mode_vec st k1) * reduced_ylm P l2 m2 (mode_vec st k2) * G M k3)) ts)
    * RtoC (/ (window_at st k1 * window_at st k2 * window_at st k3))))%C.
Proof.
  intros S. unfold weighted_sum.
  rewrite (csum_map_ext _ (fun t => RtoC (/ st_vol st ^ 2) * pair_total (ngrid (st_mesh st)) (fun k1 k2 =>
    let k3 := closing (ngrid (st_mesh st)) k1 k2 in
    (RtoC (sj l1 (mode_len st k1 * ra)%R * sj l2 (mode_len st k2 * rb)%R) * (dn k1 * dn k2) * RtoC (/ (window_at st k1 * window_at st k2 * window_at st k3))) *
    (let '(m1, m2, M) := t in RtoC (weight l1 l2 L (wigner_3j l1 l2 L) t) *
      (reduced_ylm P l1 m1 (mode_vec st k1) * reduced_ylm P l2 m2 (mode_vec st k2) * G M k3))))%C).
  - rewrite csum_map_scal, pair_total_sum. f_equal. apply pair_total_ext. intros k1 k2 _ _. cbv zeta. rewrite csum_map_scal. ring.
  - intros [[m1 m2] M] _. rewrite sjl_component_modes by exact S. rewrite Cmult_assoc, (Cmult_comm _ (RtoC (/ _))), <- Cmult_assoc, <- pair_total_scal.
    f_equal. apply pair_total_ext. intros k1 k2 _ _. cbv zeta. ring.
Qed.

Lemma threepcf_loop (c : triplet -> R) L vc z v V :
  term_loop c (fun t => RtoC (c t) * RtoC vc * z * mirrored_sum (mirror_of L t) (v t))%C V =
  (z * snd (order_loop c (powerRZ (-1) L) (fun t => RtoC vc * v t) V))%C.
Proof.
  rewrite term_loop_order, <- term_loop_scal. apply term_loop_ext. intros t. rewrite mirrored_scal. unfold mirror_of. ring.
Qed.

(** ** C82: three-point correlation functions as sums over pairs of modes *)
Theorem threepcf_is_mode_sum :
  forall P sj st ord wd wr l1 l2 L data rand norm same a b,
  let w := wigner_3j l1 l2 L in let alpha := wd / wr in let obs := objects alpha data rand in
  let delta k := csum (map (fun o => RtoC (weight_of o) * single st (part_of o) k)%C obs) in
  sound st -> legendre_like P -> wide_modes st -> st_interlace st = false -> even_grid (ngrid (st_mesh st)) -> all_handled st data rand ->
  (forall t, Permutation (ord t) (grid_cells (ngrid (st_mesh st)))) ->
  validate_coupling w = Ok tt -> well_separated l1 l2 L w -> nyquist_free st delta ->
  let ra := mean_or (b_centre a) (sep_len st) (sep_cells st a) in let rb := mean_or (b_centre b) (sep_len st) (sep_cells st b) in
  exists out, compute_3pcf P sj w st ord wd wr l1 l2 L data rand norm same a b = Ok out /\
  t_raw out = (RtoC norm * (ipow (l1 + l2) * (RtoC (/ st_vol st ^ 2) * pair_total (ngrid (st_mesh st)) (fun k1 k2 =>
    let k3 := closing (ngrid (st_mesh st)) k1 k2 in
    RtoC (sj l1 (mode_len st k1 * ra)%R * sj l2 (mode_len st k2 * rb)%R) * (delta k1 * delta k2)
    * csum (map (fun o => RtoC (weight_of o) * triplet_harmonic P l1 l2 L (mode_vec st k1) (mode_vec st k2) (los_of o) * single st (part_of o) k3) obs)
    * RtoC (/ (window_at st k1 * window_at st k2 * window_at st k3))))))%C.
Proof.
  intros P sj st ord wd wr l1 l2 L data rand norm same a b w alpha obs delta S LP WM I EG H HP VC W NF ra rb.
  pose proof S as (VM & _). pose proof (valid_grid _ VM) as GP.
  assert (D : forall k, transform st (ylm_wgtd_field P st alpha 0 0 data rand) k = delta k).
  { intros k. rewrite transform_objects by assumption. fold obs. apply csum_map_ext. intros o _. rewrite (proj1 (ylm_special P _)). ring. }
  assert (SM : forall c, safe_mode st c) by (intros c; right; now split).
  unfold compute_3pcf, threepcf_entry. rewrite VC. cbn [bind]. eexists. split; [reflexivity|]. cbn [t_raw]. f_equal. fold alpha.
  rewrite (proj2 (proj2 (shot_3pcf_exact P st (ord (0, 0, 0)%Z) _ _ _ l1 l2 0 0 a (HP _)))), (proj2 (proj2 (shot_3pcf_exact P st (ord (0, 0, 0)%Z) _ _ _ l1 l2 0 0 b (HP _)))).
  fold ra rb. set (dn := transform st (ylm_wgtd_field P st alpha 0 0 data rand)) in *. set (src := survey_sources P st alpha L data rand).
  rewrite (term_loop_ext _ _ (fun t => RtoC (coupling_3pt l1 l2 L w t) * RtoC (vol_cell (st_mesh st)) * ipow (l1 + l2) *
    mirrored_sum (mirror_of L t) (sjl_component P sj st dn (s_dn src) l1 l2 ra rb t))%C) by (intros [[m1 m2] M]; reflexivity).
  rewrite threepcf_loop. f_equal. rewrite (survey_total l1 l2 L w); [|exact VC|apply wigner_reversal|exact W|].
  - unfold w. rewrite weighted_modes by exact S. f_equal. apply pair_total_ext. intros k1 k2 _ _. cbv zeta. set (k3 := closing (ngrid (st_mesh st)) k1 k2).
    rewrite !D. f_equal. f_equal.
    rewrite (csum_map_ext _ (fun t => csum (map (fun o => RtoC (weight_of o) * single st (part_of o) k3 * (let '(m1, m2, M) := t in
        RtoC (weight l1 l2 L (wigner_3j l1 l2 L) t) * (reduced_ylm P l1 m1 (mode_vec st k1) * reduced_ylm P l2 m2 (mode_vec st k2) * reduced_ylm P L M (los_of o)))) obs))%C).
    + rewrite csum_swap. apply csum_map_ext. intros o _. rewrite csum_map_scal. unfold triplet_harmonic. ring.
    + intros [[m1 m2] M] _. unfold src. cbn [survey_sources s_dn]. rewrite transform_objects by assumption. fold obs.
      rewrite <- !csum_map_scal. apply csum_map_ext. intros o _. ring.
  - intros [[m1 m2] M] (R1 & R2 & R3) NZ. cbn [mirrored].
    assert (Sel : (m1 + m2 + M = 0)%Z) by (apply (wigner_selection l1 l2 L); intros E; apply NZ; unfold weight, w; rewrite E; ring).
    rewrite sjl_component_mirror; try assumption; try lia.
    + rewrite Sel, Z.add_0_r. rewrite (sign_parity l1 l2 L) by (apply (validated_even l1 l2 L w VC), wigner_reversal). reflexivity.
    + intros k Hk N. rewrite D. now apply NF.
    + intros c Hc. rewrite !D. unfold delta. rewrite csum_conj, map_map. apply csum_map_ext. intros o Ho. assert (HO := In_objects _ _ _ _ _ H Ho).
      rewrite single_neg_safe by (try assumption; apply SM). now rewrite Cconj_mult, Cconj_RtoC.
    + intros c Hc. unfold src. cbn [survey_sources s_dn]. rewrite !transform_objects by assumption. fold obs.
      rewrite csum_conj, map_map, <- csum_map_scal. apply csum_map_ext. intros o Ho. assert (HO := In_objects _ _ _ _ _ H Ho).
      rewrite single_neg_safe by (try assumption; apply SM). rewrite ylm_opposite_order, !Cconj_mult, Cconj_RtoC. ring.
Qed.

(** The monopole has one order only: no condition on the modes is needed. *)
Theorem threepcf_monopole_is_mode_sum :
  forall P sj st ord wd wr data rand norm same a b,
  let alpha := wd / wr in let obs := objects alpha data rand in
  let delta k := csum (map (fun o => RtoC (weight_of o) * single st (part_of o) k)%C obs) in
  sound st -> all_handled st data rand ->
  (forall t, Permutation (ord t) (grid_cells (ngrid (st_mesh st)))) ->
  let ra := mean_or (b_centre a) (sep_len st) (sep_cells st a) in let rb := mean_or (b_centre b) (sep_len st) (sep_cells st b) in
  exists out, compute_3pcf P sj (wigner_3j 0 0 0) st ord wd wr 0 0 0 data rand norm same a b = Ok out /\
  t_raw out = (RtoC norm * (RtoC (/ st_vol st ^ 2) * pair_total (ngrid (st_mesh st)) (fun k1 k2 =>
    let k3 := closing (ngrid (st_mesh st)) k1 k2 in
    RtoC (sj 0%Z (mode_len st k1 * ra)%R * sj 0%Z (mode_len st k2 * rb)%R) * (delta k1 * delta k2 * delta k3)
    * RtoC (/ (window_at st k1 * window_at st k2 * window_at st k3)))))%C.
Proof.
  intros P sj st ord wd wr data rand norm same a b alpha obs delta S H HP ra rb. pose proof S as (VM & _).
  assert (VC : validate_coupling (wigner_3j 0 0 0) = Ok tt).
  { unfold validate_coupling. pose proof weight_000 as X. unfold weight in X. rewrite (proj2 (Rltb_false _ _)); [reflexivity|].
    assert (Q : wigner_3j 0 0 0 (0, 0, 0)%Z * wigner_3j 0 0 0 (0, 0, 0)%Z = 1) by lra.
    unfold eps_coupling. set (q := wigner_3j 0 0 0 (0, 0, 0)%Z) in *. clearbody q. destruct (Rcase_abs q) as [N|N].
    - rewrite Rabs_left by exact N. nra.
    - rewrite Rabs_right by exact N. nra. }
  assert (D : forall k, transform st (ylm_wgtd_field P st alpha 0 0 data rand) k = delta k).
  { intros k. rewrite transform_objects by assumption. fold obs. apply csum_map_ext. intros o _. rewrite (proj1 (ylm_special P _)). ring. }
  unfold compute_3pcf, threepcf_entry. rewrite VC. cbn [bind]. eexists. split; [reflexivity|]. cbn [t_raw]. f_equal. fold alpha.
  rewrite (proj2 (proj2 (shot_3pcf_exact P st (ord (0, 0, 0)%Z) _ _ _ 0 0 0 0 a (HP _)))), (proj2 (proj2 (shot_3pcf_exact P st (ord (0, 0, 0)%Z) _ _ _ 0 0 0 0 b (HP _)))).
  fold ra rb. rewrite term_loop_000, weight_coupling, weight_000. unfold mirrored_sum, mirror_of. cbn [is_zeros Z.eqb andb].
  set (dn := transform st (ylm_wgtd_field P st alpha 0 0 data rand)) in *.
  pose proof (sjl_component_modes P sj st dn (s_dn (survey_sources P st alpha 0 data rand)) 0 0 ra rb 0 0 0 S) as X. unfold sjl_component in X.
  change (ipow (0 + 0)) with (RtoC 1). rewrite Cmult_1_l, Cmult_1_r, Cmult_0_l, Cplus_0_r. cbn [survey_sources s_dn] in X |- *. rewrite X.
  f_equal. apply pair_total_ext. intros k1 k2 _ _. cbv zeta. rewrite !(proj1 (ylm_special P _)). fold dn. rewrite !D. ring.
Qed.

(** ** C83: symmetries *)
Lemma ipow_conj n : Cconj (ipow n) = (RtoC (sign n) * ipow n)%C.
Proof.
  pose proof (Z.div_mod n 4 ltac:(lia)) as E. pose proof (Z.mod_pos_bound n 4 ltac:(lia)) as B.
  assert (X : sign n = sign (n mod 4)).
  { rewrite E at 1. replace (4 * (n / 4) + n mod 4)%Z with (2 * (2 * (n / 4)) + n mod 4)%Z by lia. rewrite sign_plus, sign_even. ring. }
  rewrite X. unfold ipow. assert (C : (n mod 4 = 0 \/ n mod 4 = 1 \/ n mod 4 = 2 \/ n mod 4 = 3)%Z) by lia.
  destruct C as [->|[->|[->| ->]]]; rewrite ?sign_0, ?sign_1.
  - apply injective_projections; cbn; ring.
  - apply injective_projections; cbn; ring.
  - change 2%Z with (2 * 1)%Z at 1. rewrite sign_even. apply injective_projections; cbn; ring.
  - change 3%Z with (2 * 1 + 1)%Z at 1. rewrite sign_plus, sign_even, sign_1. apply injective_projections; cbn; ring.
Qed.

Lemma real_fixed (z : C) : Cconj z = z -> snd z = 0.
Proof. destruct z as [x y]. unfold Cconj. cbn [fst snd]. intros E. injection E as E. lra. Qed.

(** All multipoles are real, whatever the degrees. *)
Theorem threepcf_real :
  forall P sj st ord wd wr l1 l2 L data rand norm same a b out,
  let w := wigner_3j l1 l2 L in
  let delta k := csum (map (fun o => RtoC (weight_of o) * single st (part_of o) k)%C (objects (wd / wr) data rand)) in
  sound st -> legendre_like P -> wide_modes st -> st_interlace st = false -> even_grid (ngrid (st_mesh st)) -> all_handled st data rand ->
  (forall t, Permutation (ord t) (grid_cells (ngrid (st_mesh st)))) -> well_separated l1 l2 L w -> nyquist_free st delta ->
  compute_3pcf P sj w st ord wd wr l1 l2 L data rand norm same a b = Ok out -> snd (t_raw out) = 0.
Proof.
  intros P sj st ord wd wr l1 l2 L data rand norm same a b out w delta S LP WM I EG H HP W NF E.
  assert (VC : validate_coupling w = Ok tt) by (unfold compute_3pcf, threepcf_entry in E; destruct (validate_coupling w) as [[]|]; [reflexivity|discriminate]).
  destruct (threepcf_is_mode_sum P sj st ord wd wr l1 l2 L data rand norm same a b S LP WM I EG H HP VC W NF) as (o & E1 & E2).
  fold w in E1. rewrite E in E1. injection E1 as <-. apply real_fixed. rewrite E2.
  pose proof S as (VM & _). pose proof (valid_grid _ VM) as GP. assert (SM : forall c, safe_mode st c) by (intros c; right; now split).
  assert (SP : sign (l1 + l2 + L) = 1) by (apply (validated_even l1 l2 L w VC), wigner_reversal).
  rewrite !Cconj_mult, !Cconj_RtoC, ipow_conj, pair_total_conj. f_equal.
  rewrite (Cmult_comm (RtoC (sign (l1 + l2))) (ipow (l1 + l2))), <- Cmult_assoc. f_equal. rewrite Cmult_assoc, (Cmult_comm (RtoC (sign _))), <- Cmult_assoc.
  f_equal. rewrite <- pair_total_scal, <- (pair_total_neg (ngrid (st_mesh st))) by exact GP. apply pair_total_ext. intros k1 k2 H1 H2. cbv zeta.
  rewrite closing_neg by assumption. set (k3 := closing (ngrid (st_mesh st)) k1 k2). assert (G3 : grid_cell (ngrid (st_mesh st)) k3) by now apply closing_grid.
  rewrite !window_at_neg by (try assumption; apply SM).
  fold (delta k1) (delta k2) (delta (neg_cell (ngrid (st_mesh st)) k1)) (delta (neg_cell (ngrid (st_mesh st)) k2)).
  assert (HD : forall c, grid_cell (ngrid (st_mesh st)) c -> delta (neg_cell (ngrid (st_mesh st)) c) = Cconj (delta c)).
  { intros c Hc. unfold delta. rewrite csum_conj, map_map. apply csum_map_ext. intros o Ho. assert (HO := In_objects _ _ _ _ _ H Ho).
    rewrite single_neg_safe by (try assumption; apply SM). now rewrite Cconj_mult, Cconj_RtoC. }
  rewrite !HD by assumption. rewrite !Cconj_mult, !Cconj_RtoC, !Cconj_inv.
  destruct (interior_dec (ngrid (st_mesh st)) k1) as [I1|N1].
  2: { rewrite (NF k1 H1 N1). ring. }
  destruct (interior_dec (ngrid (st_mesh st)) k2) as [I2|N2].
  2: { rewrite (NF k2 H2 N2). ring. }
  assert (VN : forall c, grid_cell (ngrid (st_mesh st)) c -> interior (ngrid (st_mesh st)) c ->
    mode_vec st (neg_cell (ngrid (st_mesh st)) c) = opp3 (mode_vec st c)) by (intros; now apply wavevector_neg).
  assert (LN : forall c, grid_cell (ngrid (st_mesh st)) c -> interior (ngrid (st_mesh st)) c -> mode_len st (neg_cell (ngrid (st_mesh st)) c) = mode_len st c).
  { intros c Hc Ic. unfold mode_len. change (wavevector (ngrid (st_mesh st)) (dk_of (st_mesh st)) (neg_cell (ngrid (st_mesh st)) c)) with (mode_vec st (neg_cell (ngrid (st_mesh st)) c)).
    rewrite VN by assumption. apply vec_mod_opp. }
  rewrite !VN, !LN by assumption.
  rewrite csum_conj, map_map.
  rewrite (csum_map_ext _ (fun o => RtoC (sign (l1 + l2)) * (RtoC (weight_of o) * triplet_harmonic P l1 l2 L (mode_vec st k1) (mode_vec st k2) (los_of o) * single st (part_of o) k3))%C).
  - rewrite csum_map_scal. assert (Q : (RtoC (sign (l1 + l2)) * RtoC (sign (l1 + l2)))%C = RtoC 1) by now rewrite <- RtoC_mult, sign_sqr. ring [Q].
  - intros o Ho. assert (HO := In_objects _ _ _ _ _ H Ho). rewrite harmonic_parity by (try assumption; apply mode_off_axis; apply WM).
    rewrite single_neg_safe by (try assumption; apply SM). rewrite !Cconj_mult, !Cconj_RtoC, Cconj_inv, harmonic_real by exact SP. ring.
Qed.

Lemma threepcf_valid P sj w st ord wd wr l1 l2 L data rand norm same a b out :
  compute_3pcf P sj w st ord wd wr l1 l2 L data rand norm same a b = Ok out -> validate_coupling w = Ok tt.
Proof. unfold compute_3pcf, threepcf_entry. destruct (validate_coupling w) as [[]|]; [reflexivity|discriminate]. Qed.

(** Swapping the degrees together with the bins. *)
Theorem threepcf_exchange :
  forall P sj st ord ord' wd wr l1 l2 L data rand norm same same' a b out out',
  let delta k := csum (map (fun o => RtoC (weight_of o) * single st (part_of o) k)%C (objects (wd / wr) data rand)) in
  sound st -> legendre_like P -> wide_modes st -> st_interlace st = false -> even_grid (ngrid (st_mesh st)) -> all_handled st data rand ->
  (forall t, Permutation (ord t) (grid_cells (ngrid (st_mesh st)))) -> (forall t, Permutation (ord' t) (grid_cells (ngrid (st_mesh st)))) ->
  well_separated l1 l2 L (wigner_3j l1 l2 L) -> nyquist_free st delta ->
  compute_3pcf P sj (wigner_3j l1 l2 L) st ord wd wr l1 l2 L data rand norm same a b = Ok out ->
  compute_3pcf P sj (wigner_3j l2 l1 L) st ord' wd wr l2 l1 L data rand norm same' b a = Ok out' ->
  t_raw out' = t_raw out.
Proof.
  intros P sj st ord ord' wd wr l1 l2 L data rand norm same same' a b out out' delta S LP WM I EG H HP HP' W NF E1 E2.
  pose proof (threepcf_valid _ _ _ _ _ _ _ _ _ _ _ _ _ _ _ _ _ E1) as V. destruct (exchange_valid l1 l2 L V) as [V' SP].
  destruct (threepcf_is_mode_sum P sj st ord wd wr l1 l2 L data rand norm same a b S LP WM I EG H HP V W NF) as (o1 & F1 & R1).
  rewrite E1 in F1. injection F1 as <-.
  destruct (threepcf_is_mode_sum P sj st ord' wd wr l2 l1 L data rand norm same' b a S LP WM I EG H HP' V' (exchange_separated _ _ _ SP W) NF) as (o2 & F2 & R2).
  rewrite E2 in F2. injection F2 as <-.
  rewrite R1, R2. rewrite (Z.add_comm l2 l1). f_equal. f_equal. f_equal. rewrite pair_total_swap. apply pair_total_ext. intros k1 k2 _ _. cbv zeta.
  rewrite (closing_sym _ k2 k1). set (obs := objects _ _ _).
  rewrite (csum_map_ext (fun o => RtoC (weight_of o) * triplet_harmonic P l2 l1 L (mode_vec st k2) (mode_vec st k1) (los_of o) * _)%C
    (fun o => RtoC (weight_of o) * triplet_harmonic P l1 l2 L (mode_vec st k1) (mode_vec st k2) (los_of o) * single st (part_of o) (closing (ngrid (st_mesh st)) k1 k2))%C)
    by (intros o _; now rewrite harmonic_exchange).
  rewrite (Rmult_comm (window_at st k2) (window_at st k1)), (Rmult_comm (sj l2 _)). ring.
Qed.

Theorem threepcf_catalogue_order :
  forall P sj st ord ord' wd wr l1 l2 L data data' rand rand' norm same a b out out',
  let delta k := csum (map (fun o => RtoC (weight_of o) * single st (part_of o) k)%C (objects (wd / wr) data rand)) in
  sound st -> legendre_like P -> wide_modes st -> st_interlace st = false -> even_grid (ngrid (st_mesh st)) -> all_handled st data rand ->
  (forall t, Permutation (ord t) (grid_cells (ngrid (st_mesh st)))) -> (forall t, Permutation (ord' t) (grid_cells (ngrid (st_mesh st)))) ->
  well_separated l1 l2 L (wigner_3j l1 l2 L) -> nyquist_free st delta ->
  Permutation data data' -> Permutation rand rand' ->
  compute_3pcf P sj (wigner_3j l1 l2 L) st ord wd wr l1 l2 L data rand norm same a b = Ok out ->
  compute_3pcf P sj (wigner_3j l1 l2 L) st ord' wd wr l1 l2 L data' rand' norm same a b = Ok out' ->
  t_raw out' = t_raw out.
Proof.
  intros P sj st ord ord' wd wr l1 l2 L data data' rand rand' norm same a b out out' delta S LP WM I EG H HP HP' W NF PD PR E1 E2.
  assert (H' : all_handled st data' rand').
  { destruct H as [H1 H2]. split; intros vp Hv; [apply H1|apply H2]; (eapply Permutation_in; [apply Permutation_sym; eassumption|exact Hv]). }
  pose proof (Permutation_sym (objects_perm (wd / wr) _ _ _ _ PD PR)) as Q.
  pose proof (threepcf_valid _ _ _ _ _ _ _ _ _ _ _ _ _ _ _ _ _ E1) as V.
  assert (NF' : nyquist_free st (fun k => csum (map (fun o => RtoC (weight_of o) * single st (part_of o) k)%C (objects (wd / wr) data' rand')))).
  { intros k Hk Nk. rewrite <- (NF k Hk Nk). unfold delta. apply csum_perm. now apply Permutation_map. }
  destruct (threepcf_is_mode_sum P sj st ord wd wr l1 l2 L data rand norm same a b S LP WM I EG H HP V W NF) as (o1 & F1 & R1).
  rewrite E1 in F1. injection F1 as <-.
  destruct (threepcf_is_mode_sum P sj st ord' wd wr l1 l2 L data' rand' norm same a b S LP WM I EG H' HP' V W NF') as (o2 & F2 & R2).
  rewrite E2 in F2. injection F2 as <-.
  rewrite R1, R2. f_equal. f_equal. f_equal. apply pair_total_ext. intros k1 k2 _ _. cbv zeta. f_equal.
  f_equal; [f_equal; f_equal|]; apply csum_perm; now apply Permutation_map.
Qed.

Theorem threepcf_weight_scale :
  forall P sj st ord wd wr l1 l2 L data rand norm same a b s out out',
  let delta k := csum (map (fun o => RtoC (weight_of o) * single st (part_of o) k)%C (objects (wd / wr) data rand)) in
  sound st -> legendre_like P -> wide_modes st -> st_interlace st = false -> even_grid (ngrid (st_mesh st)) -> all_handled st data rand ->
  (forall t, Permutation (ord t) (grid_cells (ngrid (st_mesh st)))) ->
  well_separated l1 l2 L (wigner_3j l1 l2 L) -> nyquist_free st delta -> s <> 0 ->
  compute_3pcf P sj (wigner_3j l1 l2 L) st ord wd wr l1 l2 L data rand norm same a b = Ok out ->
  compute_3pcf P sj (wigner_3j l1 l2 L) st ord (s * wd) (s * wr) l1 l2 L (map (scale_weight s) data) (map (scale_weight s) rand) norm same a b = Ok out' ->
  t_raw out' = (RtoC (s ^ 3) * t_raw out)%C.
Proof.
  intros P sj st ord wd wr l1 l2 L data rand norm same a b s out out' delta S LP WM I EG H HP W NF Hs E1 E2.
  assert (H' : all_handled st (map (scale_weight s) data) (map (scale_weight s) rand)).
  { destruct H as [H1 H2]. split; intros vp Hv; apply in_map_iff in Hv; destruct Hv as (q & <- & Hq);
      (eapply handled_pos; [|first [exact (H1 q Hq)|exact (H2 q Hq)]]; reflexivity). }
  pose proof (threepcf_valid _ _ _ _ _ _ _ _ _ _ _ _ _ _ _ _ _ E1) as V.
  assert (A : s * wd / (s * wr) = wd / wr).
  { unfold Rdiv. destruct (Req_dec wr 0) as [->|N]; [rewrite Rmult_0_r, Rinv_0; ring|]. field. split; assumption. }
  set (sc := fun o : object => (scale_weight s (fst o), snd o)).
  assert (O : objects (wd / wr) (map (scale_weight s) data) (map (scale_weight s) rand) = map sc (objects (wd / wr) data rand)).
  { unfold objects. rewrite map_app, !map_map. reflexivity. }
  assert (WS : forall o, weight_of (sc o) = s * weight_of o) by (intros [[v p] t]; unfold weight_of, sc, part_of; cbn; ring).
  assert (SG : forall o k, single st (part_of (sc o)) k = single st (part_of o) k) by (intros; now apply single_pos).
  set (obs := objects (wd / wr) data rand) in *.
  assert (X1 : forall g : object -> C, (forall o, In o obs -> g (sc o) = (RtoC s * g o)%C) ->
    csum (map g (map sc obs)) = (RtoC s * csum (map g obs))%C).
  { intros g Hg. rewrite map_map, <- csum_map_scal. now apply csum_map_ext. }
  assert (X2 : forall k, csum (map (fun o => RtoC (weight_of o) * single st (part_of o) k)%C (map sc obs)) = (RtoC s * delta k)%C).
  { intros k. apply X1. intros o _. rewrite WS, SG, RtoC_mult. ring. }
  assert (NF' : nyquist_free st (fun k => csum (map (fun o => RtoC (weight_of o) * single st (part_of o) k)%C
    (objects (s * wd / (s * wr)) (map (scale_weight s) data) (map (scale_weight s) rand))))).
  { intros k Hk Nk. rewrite A, O, X2, (NF k Hk Nk). ring. }
  destruct (threepcf_is_mode_sum P sj st ord wd wr l1 l2 L data rand norm same a b S LP WM I EG H HP V W NF) as (o1 & F1 & R1).
  rewrite E1 in F1. injection F1 as <-.
  destruct (threepcf_is_mode_sum P sj st ord (s * wd) (s * wr) l1 l2 L _ _ norm same a b S LP WM I EG H' HP V W NF') as (o2 & F2 & R2).
  rewrite E2 in F2. injection F2 as <-. rewrite R1, R2, A, O. fold obs.
  match goal with |- (_ * (_ * (_ * ?x)) = _ * (_ * (_ * (_ * ?y))))%C => enough (Q : x = (RtoC (s ^ 3) * y)%C) by (rewrite Q; ring) end.
  rewrite <- pair_total_scal. apply pair_total_ext. intros k1 k2 _ _. cbv zeta. rewrite !X2. fold (delta k1) (delta k2). rewrite X1.
  - replace (s ^ 3) with (s * s * s) by ring. rewrite !RtoC_mult. ring.
  - intros o _. rewrite WS, SG, RtoC_mult. change (los_of (sc o)) with (los_of o). ring.
Qed.

(** Degrees (1, 0, 1): a loop whose additions vanish at nonzero orders. *)
Lemma term_loop_101 f : (forall t, In t (visited_survey 1 0 1 (wigner_3j 1 0 1)) -> is_zeros t = false -> f t = RtoC 0) ->
  term_loop (coupling_3pt 1 0 1 (wigner_3j 1 0 1)) f (visited_survey 1 0 1 (wigner_3j 1 0 1)) = f (0, 0, 0)%Z.
Proof.
  intros Hf. set (w := wigner_3j 1 0 1) in *. set (V := visited_survey 1 0 1 w) in *. set (c := coupling_3pt 1 0 1 w).
  set (e := fun t : triplet => if is_zeros t then RtoC 1 else RtoC 0).
  assert (W : weight 1 0 1 w (0, 0, 0)%Z = 3).
  { pose proof (weight_l0l 1 0 ltac:(lia)) as X. change (- 0)%Z with 0%Z in X. unfold w. rewrite X, sign_0. ring. }
  assert (Z0 : forall t, is_zeros t = true -> t = (0, 0, 0)%Z).
  { intros [[i j] k]. unfold is_zeros. rewrite !andb_true_iff, !Z.eqb_eq. intros ((-> & ->) & ->). reflexivity. }
  assert (T : term_loop c e V = RtoC 1).
  { pose proof (survey_total 1 0 1 w (fun t => (Ci * e t)%C) (-1) validate_101 (wigner_reversal 1 0 1) (well_separated_l0l 1 ltac:(lia))) as X.
    fold V c in X. rewrite term_loop_order in X.
    rewrite (term_loop_ext _ _ (fun t => (RtoC 3 * Ci) * e t)%C) in X.
    - rewrite term_loop_scal in X.
      assert (Y : weighted_sum 1 0 1 w (fun t => (Ci * e t)%C) (all_orders 1 0 1) = (RtoC 3 * Ci)%C).
      { unfold weighted_sum.
        change (all_orders 1 0 1) with [(-1, 0, -1); (-1, 0, 0); (-1, 0, 1); (0, 0, -1); (0, 0, 0); (0, 0, 1); (1, 0, -1); (1, 0, 0); (1, 0, 1)]%Z.
        cbn [map]. rewrite !csum_cons, W. unfold e. cbn [is_zeros Z.eqb andb csum fold_right]. ring. }
      rewrite Y in X. assert (Q : (RtoC 3 * Ci * term_loop c e V)%C = (RtoC 3 * Ci)%C).
      { apply X. intros [[i j] k] _ _. unfold e. cbn [mirrored]. unfold is_zeros.
        destruct ((i =? 0) && (j =? 0) && (k =? 0))%Z eqn:E.
        - apply (Z0 (i, j, k)) in E. injection E as -> -> ->. cbn. apply injective_projections; cbn; ring.
        - replace ((- i =? 0) && (- j =? 0) && (- k =? 0))%Z with false; [apply injective_projections; cbn; ring|].
          symmetry. rewrite !andb_false_iff, !Z.eqb_neq in *. lia. }
      destruct (term_loop c e V) as [x y]. apply (f_equal fst) in Q as Q1. apply (f_equal snd) in Q. cbn in Q, Q1. apply injective_projections; cbn; lra.
    - intros t. unfold e. destruct (is_zeros t) eqn:E; unfold mirrored_sum; [|cbn; apply injective_projections; cbn; ring].
      apply Z0 in E. subst t. unfold c. rewrite weight_coupling, W. cbn. apply injective_projections; cbn; ring. }
  rewrite (term_loop_ext_in _ _ (fun t => f (0, 0, 0)%Z * e t)%C).
  - rewrite term_loop_scal, T. ring.
  - intros t Ht. unfold e. destruct (is_zeros t) eqn:E; [apply Z0 in E; subst t; ring|]. rewrite Hf by assumption. ring.
Qed.

(** Four objects filling a plane of a mesh of two cells per side. *)
Definition grid2 : mesh_params := MeshParams (T3 2 2 2)%Z (T3 2 2 2) 1.
Definition st2 : settings := Settings NGP 1 false grid2 8.
Definition at_xy (x y : R) : (R * R * R) * pdatum := ((0, 0, 1), PDatum (T3 x y 0) 1 1 1 1).
Definition plane : list ((R * R * R) * pdatum) := [at_xy 0 0; at_xy 1 0; at_xy 0 1; at_xy 1 1].

Lemma sound2 : sound st2.
Proof. unfold sound, valid, st2, grid2, mesh_size; cbn; repeat split; try lia; lra. Qed.
Lemma plane_handled : all_handled st2 plane [].
Proof.
  split; [|intros vp []]. intros vp [<-|[<-|[<-|[<-|[]]]]]; (split; [unfold inside_box, in_box; cbn; repeat split; lra|discriminate]).
Qed.
Lemma plane_nearest x y : (0 <= x <= 1)%Z -> (0 <= y <= 1)%Z -> nearest grid2 (snd (at_xy (IZR x) (IZR y))) = (x, y, 0)%Z.
Proof.
  intros Hx Hy. unfold nearest, nearest_axis, at_xy, grid2. cbn [snd ngrid boxsize p_pos ax0 ax1 ax2].
  rewrite (Zfloor_imp x), (Zfloor_imp y), (Zfloor_imp 0) by (rewrite ?plus_IZR; split; lra). rewrite !Z.mod_small by lia. reflexivity.
Qed.

Lemma wave2 i j k x y : wave (ngrid grid2) (i, j, k) (x, y, 0)%Z = RtoC (sign (i * x + j * y)).
Proof.
  unfold wave, dft_phase, grid2. cbn [ngrid ax0 ax1 ax2]. rewrite Z.mul_0_r.
  replace (2 * PI * (IZR (i * x) / 2 + IZR (j * y) / 2 + 0 / 2)) with (IZR (i * x + j * y) * PI) by (rewrite plus_IZR; field).
  apply SphHarmProps.cis_mPI.
Qed.

Definition plane_delta (k : gcell) : C := csum (map (fun o => RtoC (weight_of o) * single st2 (part_of o) k)%C (objects (1 / 1) plane [])).
Lemma plane_delta_value k : grid_cell (ngrid grid2) k -> plane_delta k = if ((fst (fst k) =? 0) && (snd (fst k) =? 0))%Z then RtoC 4 else RtoC 0.
Proof.
  intros Hk. pose proof plane_handled as [H _]. unfold plane_delta, objects, plane. cbn [map app]. rewrite !csum_cons. cbn [csum fold_right].
  unfold part_of, weight_of, part_of. cbn [fst snd].
  assert (Q : forall x y, (0 <= x <= 1)%Z -> (0 <= y <= 1)%Z -> In (at_xy (IZR x) (IZR y)) plane ->
    single st2 (snd (at_xy (IZR x) (IZR y))) k = RtoC (sign (fst (fst k) * x + snd (fst k) * y))).
  { intros x y Hx Hy Hin. rewrite single_ngp by (try reflexivity; try exact sound2; exact (H _ Hin)).
    change (st_mesh st2) with grid2. rewrite plane_nearest by assumption. destruct k as [[i j] l]. rewrite wave2, Cconj_RtoC. reflexivity. }
  pose proof (Q 0%Z 0%Z ltac:(lia) ltac:(lia) ltac:(cbn; tauto)) as Q1. pose proof (Q 1%Z 0%Z ltac:(lia) ltac:(lia) ltac:(cbn; tauto)) as Q2.
  pose proof (Q 0%Z 1%Z ltac:(lia) ltac:(lia) ltac:(cbn; tauto)) as Q3. pose proof (Q 1%Z 1%Z ltac:(lia) ltac:(lia) ltac:(cbn; tauto)) as Q4.
  rewrite Q1, Q2, Q3, Q4. clear Q Q1 Q2 Q3 Q4. cbn [at_xy snd p_w]. destruct k as [[i j] l]. destruct Hk as (Hi & Hj & Hl). cbn [grid2 ngrid ax0 ax1 ax2] in *. cbn [fst snd].
  assert (CI : (i = 0 \/ i = 1)%Z) by lia. assert (CJ : (j = 0 \/ j = 1)%Z) by lia.
  destruct CI as [-> | ->], CJ as [-> | ->]; cbn [Z.mul Z.add Pos.add Pos.mul Z.eqb andb]; rewrite ?(sign_even 1 : sign 2 = 1), ?sign_1, ?sign_0;
    apply injective_projections; cbn; ring.
Qed.

(** The modes [(0, 0, 0)] and [(0, 0, 1)]. *)
Lemma mode2 k : (k = 0 \/ k = 1)%Z -> mode_vec st2 (0, 0, k)%Z = (0, 0, - (IZR k * PI)) /\ mode_len st2 (0, 0, k)%Z = IZR k * PI /\
  window_at st2 (0, 0, k)%Z = if (k =? 0)%Z then 1 else 2 / PI.
Proof.
  pose proof PI_RGT_0 as HP. intros H.
  assert (V : mode_vec st2 (0, 0, k)%Z = (0, 0, - (IZR k * PI))).
  { unfold mode_vec, wavevector, dk_of. cbn [st2 st_mesh grid2 ngrid boxsize ax0 ax1 ax2]. rewrite !grid_vector_shift.
    destruct H as [-> | ->]; cbn [shift_index]; unfold shift_index; cbn [Z.ltb Z.compare Z.div]; cbn; repeat f_equal; field. }
  split; [exact V|]. split.
  - unfold mode_len. change (wavevector _ _ _) with (mode_vec st2 (0, 0, k)%Z). rewrite V. unfold vec_mod.
    replace (0 * 0 + 0 * 0 + - (IZR k * PI) * - (IZR k * PI)) with (Rsqr (IZR k * PI)) by (unfold Rsqr; ring).
    apply sqrt_Rsqr. destruct H as [-> | ->]; lra.
  - unfold window_at, window_direct. cbn [st2 st_mesh st_order grid2 ngrid ax0 ax1 ax2].
    change (shift_index 2 0) with 0%Z. cbn [Z.eqb]. destruct H as [-> | ->].
    + change (shift_index 2 0) with 0%Z. cbn. ring.
    + change (shift_index 2 1) with (-1)%Z. cbn [Z.eqb]. replace (PI * -1 / 2) with (- (PI / 2)) by field. rewrite sin_neg, sin_PI2. cbn [pow]. field. lra.
Qed.
Lemma cells2 : grid_cells (ngrid grid2) = [(0, 0, 0); (0, 0, 1); (0, 1, 0); (0, 1, 1); (1, 0, 0); (1, 0, 1); (1, 1, 0); (1, 1, 1)]%Z.
Proof. reflexivity. Qed.

(** Modes at the Nyquist frequency: the multipole of degrees (1, 0, 1) of real weights is
    imaginary. *)
Theorem threepcf_real_refuted :
  forall sj norm same a b,
  let ra := mean_or (b_centre a) (sep_len st2) (sep_cells st2 a) in let rb := mean_or (b_centre b) (sep_len st2) (sep_cells st2 b) in
  exists out, sound st2 /\ wide_modes st2 /\ even_grid (ngrid (st_mesh st2)) /\ all_handled st2 plane [] /\
  compute_3pcf legendre sj (wigner_3j 1 0 1) st2 (fun _ => grid_cells (ngrid grid2)) 1 1 1 0 1 plane [] norm same a b = Ok out /\
  fst (t_raw out) = 0 /\
  snd (t_raw out) = - norm * 3 * (PI ^ 2 / 4) * sj 1%Z (PI * ra) * (sj 0%Z (0 * rb) + sj 0%Z (PI * rb)).
Proof.
  intros sj norm same a b ra rb. pose proof sound2 as S. pose proof S as (VM & _).
  assert (D : forall k, transform st2 (ylm_wgtd_field legendre st2 (1 / 1) 0 0 plane []) k = plane_delta k).
  { intros k. rewrite transform_objects by (assumption || apply plane_handled). apply csum_map_ext. intros o _. rewrite (proj1 (ylm_special legendre _)). ring. }
  assert (D1 : forall M k, (Z.abs M <= 1)%Z -> transform st2 (ylm_wgtd_field legendre st2 (1 / 1) 1 M plane []) k = (if (M =? 0)%Z then plane_delta k else RtoC 0)).
  { intros M k HM. rewrite transform_objects by (assumption || apply plane_handled).
    transitivity (csum (map (fun o => (if (M =? 0)%Z then RtoC 1 else RtoC 0) * (RtoC (weight_of o) * single st2 (part_of o) k))%C (objects (1 / 1) plane []))).
    - apply csum_map_ext. intros o Ho. assert (LO : los_of o = (0, 0, 1)).
      { unfold objects, plane in Ho. cbn [map app] in Ho. destruct Ho as [<-|[<-|[<-|[<-|[]]]]]; reflexivity. }
      rewrite LO, ylm_axis by (rewrite ?Rabs_R1; unfold eps_sph; lra || exact HM). rewrite Rabs_R1. destruct (M =? 0)%Z; [replace (1 / 1) with 1 by field|]; ring.
    - rewrite csum_map_scal. fold (plane_delta k). destruct (M =? 0)%Z; ring. }
  unfold compute_3pcf, threepcf_entry. rewrite validate_101. cbn [bind]. eexists. split; [exact S|].
  assert (PB : 3 < PI) by (pose proof PI2_3_2; unfold PI2 in *; lra).
  split; [unfold wide_modes, eps_sph; cbn; split; lra|]. split; [repeat split; exists 1%Z; reflexivity|]. split; [exact plane_handled|]. split; [reflexivity|].
  cbn [t_raw].
  rewrite (proj2 (proj2 (shot_3pcf_exact legendre st2 (grid_cells (ngrid grid2)) _ _ _ 1 0 0 0 a (Permutation_refl _)))),
    (proj2 (proj2 (shot_3pcf_exact legendre st2 (grid_cells (ngrid grid2)) _ _ _ 1 0 0 0 b (Permutation_refl _)))).
  fold ra rb. set (dn := transform st2 (ylm_wgtd_field legendre st2 (1 / 1) 0 0 plane [])) in *. set (src := survey_sources legendre st2 (1 / 1) 1 plane []).
  rewrite (term_loop_ext _ _ (fun t => ipow (1 + 0) * (RtoC (coupling_3pt 1 0 1 (wigner_3j 1 0 1) t) *
    mirrored_sum (mirror_of 1 t) (RtoC (vol_cell (st_mesh st2)) * sjl_component legendre sj st2 dn (s_dn src) 1 0 ra rb t)))%C)
    
    by (intros [[m1 m2] M]; rewrite mirrored_scal; unfold sjl_component, src; cbn [survey_sources s_dn];
        match goal with |- context [mirrored_sum ?u ?v] => generalize (mirrored_sum u v) end; intros z;
        generalize (RtoC (coupling_3pt 1 0 1 (wigner_3j 1 0 1) (m1, m2, M))) (RtoC (vol_cell (st_mesh st2))) (ipow (1 + 0)); intros; ring).
  assert (X : forall m1 M, (Z.abs m1 <= 1)%Z -> (Z.abs M <= 1)%Z ->
    (RtoC (vol_cell (st_mesh st2)) * sjl_component legendre sj st2 dn (s_dn src) 1 0 ra rb (m1, 0, M)%Z)%C =
    if ((m1 =? 0) && (M =? 0))%Z then RtoC (- (PI ^ 2 / 4) * sj 1%Z (PI * ra) * (sj 0%Z (0 * rb) + sj 0%Z (PI * rb))) else RtoC 0).
  { intros m1 M H1 HM. rewrite sjl_component_modes by exact S. change (ngrid (st_mesh st2)) with (ngrid grid2).
    assert (DV : forall k, grid_cell (ngrid grid2) k -> dn k = if ((fst (fst k) =? 0) && (snd (fst k) =? 0))%Z then RtoC 4 else RtoC 0)
      by (intros k Hk; rewrite D; now apply plane_delta_value).
    assert (GV : forall k, grid_cell (ngrid grid2) k -> s_dn src M k = if (M =? 0)%Z then (if ((fst (fst k) =? 0) && (snd (fst k) =? 0))%Z then RtoC 4 else RtoC 0) else RtoC 0)
      by (intros k Hk; unfold src; cbn [survey_sources s_dn]; rewrite D1 by exact HM; now rewrite plane_delta_value).
    destruct (mode2 0 ltac:(lia)) as (V0 & L0 & W0). destruct (mode2 1 ltac:(lia)) as (V1 & L1 & W1). cbn [Z.eqb] in W0, W1.
    rewrite Rmult_0_l, Ropp_0 in V0. rewrite Rmult_1_l in V1, L1. rewrite Rmult_0_l in L0.
    unfold pair_total. set (F := fun k1 : gcell => total3 (ngrid grid2) _).
    assert (ZK : forall k1, grid_cell (ngrid grid2) k1 -> dn k1 = RtoC 0 \/ reduced_ylm legendre 1 m1 (mode_vec st2 k1) = RtoC 0 -> F k1 = RtoC 0).
    { intros k1 G1 Z. unfold F, total3. apply csum_map_zero. intros k2 _. destruct Z as [-> | ->]; ring. }
    unfold total3 at 1. rewrite cells2. cbn [map]. rewrite !csum_cons. cbn [csum fold_right].
    rewrite (ZK (0, 0, 0)%Z); [|cbn; lia|right; rewrite V0; apply (proj2 (ylm_special legendre (0, 0, 0))); discriminate].
    rewrite (ZK (0, 1, 0)%Z), (ZK (0, 1, 1)%Z), (ZK (1, 0, 0)%Z), (ZK (1, 0, 1)%Z), (ZK (1, 1, 0)%Z), (ZK (1, 1, 1)%Z)
      by (first [solve [cbn; lia] | left; rewrite DV by (cbn; lia); reflexivity]).
    assert (AP : Rabs (- PI) = PI) by (rewrite Rabs_Ropp; apply Rabs_pos_eq; lra).
    assert (Y : reduced_ylm legendre 1 m1 (mode_vec st2 (0, 0, 1)%Z) = if (m1 =? 0)%Z then RtoC (-1) else RtoC 0).
    { rewrite V1, ylm_axis by (rewrite ?AP; unfold eps_sph; lra || exact H1). rewrite AP. destruct (m1 =? 0)%Z; [|reflexivity]. f_equal. field. lra. }
    unfold F, total3. rewrite cells2. cbn [map]. rewrite !csum_cons. cbn [csum fold_right]. clear F ZK.
    rewrite (DV (0, 1, 0)%Z), (DV (0, 1, 1)%Z), (DV (1, 0, 0)%Z), (DV (1, 0, 1)%Z), (DV (1, 1, 0)%Z), (DV (1, 1, 1)%Z) by (cbn; lia). cbn [fst snd Z.eqb andb].
    rewrite !Cmult_0_r, !Cmult_0_l, !Cmult_0_r, !Cplus_0_r, !Cplus_0_l.
    change (closing (ngrid grid2) (0, 0, 1)%Z (0, 0, 0)%Z) with (0, 0, 1)%Z. change (closing (ngrid grid2) (0, 0, 1)%Z (0, 0, 1)%Z) with (0, 0, 0)%Z.
    rewrite !DV, !GV, Y, L0, L1, W0, W1 by (cbn; lia). cbn [fst snd Z.eqb andb]. rewrite !(proj1 (ylm_special legendre _)).
    destruct (m1 =? 0)%Z, (M =? 0)%Z; cbn [andb]; try ring.
    rewrite <- ?RtoC_mult, <- ?RtoC_plus, <- ?RtoC_mult. f_equal. change (st_vol st2) with 8. field. lra. }
  rewrite term_loop_scal, term_loop_101.
  - rewrite X by (cbn; lia). cbn [Z.eqb andb]. unfold mirrored_sum, mirror_of. cbn [is_zeros Z.eqb andb].
    rewrite weight_coupling. pose proof (weight_l0l 1 0 ltac:(lia)) as W. change (- 0)%Z with 0%Z in W. rewrite W, sign_0.
    change (ipow (1 + 0)) with Ci. cbn. split; ring.
  - intros [[m1 m2] M] Ht NZ. apply visited_survey_spec in Ht. destruct Ht as ((R1 & R2 & R3) & _). assert (m2 = 0)%Z by lia. subst m2.
    rewrite X by lia. unfold is_zeros in NZ. replace ((m1 =? 0) && (M =? 0))%Z with false.
    + unfold mirrored_sum. rewrite Cconj_RtoC. ring.
    + symmetry. rewrite !andb_false_iff, !Z.eqb_neq in *. lia.
Qed.

(** Integer powers of the imaginary unit. *)
Theorem ipow_is_power : forall n, ipow 0 = RtoC 1 /\ ipow 1 = Ci /\ ipow (n + 1) = (Ci * ipow n)%C.
Proof.
  intros n. split; [reflexivity|]. split; [reflexivity|]. unfold ipow. rewrite Z.add_mod by lia. pose proof (Z.mod_pos_bound n 4 ltac:(lia)) as B.
  assert (C : (n mod 4 = 0 \/ n mod 4 = 1 \/ n mod 4 = 2 \/ n mod 4 = 3)%Z) by lia.
  destruct C as [->|[->|[->| ->]]]; cbn; apply injective_projections; cbn; ring.
Qed.

(** ** C84: window functions *)
Lemma window_transform P st alpha l m ps c : valid (st_mesh st) -> st_interlace st = false -> (forall vp, In vp ps -> handled st (snd vp)) ->
  transform st (ylm_wgtd_field1 P st alpha l m ps) c = transform st (ylm_wgtd_field P st (1 / 1) l m (map (scale_weight alpha) ps) []) c.
Proof.
  intros V I H. assert (H' : all_handled st (map (scale_weight alpha) ps) []).
  { split; [|intros vp []]. intros vp Hv. apply in_map_iff in Hv. destruct Hv as (q & <- & Hq). eapply handled_pos; [|exact (H q Hq)]. reflexivity. }
  rewrite transform_objects by assumption. unfold objects. cbn [map]. rewrite app_nil_r, !map_map.
  rewrite (transform_sum st ps (fun vp => RtoC (alpha * p_w (snd vp)) * reduced_ylm P l m (fst vp))%C snd).
  - apply csum_map_ext. intros vp _. rewrite <- (single_pos st (snd (scale_weight alpha vp)) (snd vp)) by reflexivity. unfold weight_of, part_of, los_of. cbn [fst snd scale_weight p_w]. rewrite Rmult_1_l. reflexivity.
  - exact V.
  - exact H.
  - intros x Hx. unfold ylm_wgtd_field1. cbn [f_main]. rewrite assign_main_unit by assumption. rewrite <- csum_map_scal. apply csum_map_ext.
    intros vp _. rewrite RtoC_mult. ring.
  - congruence.
Qed.
Lemma window_quad P st alpha l m ps c : valid (st_mesh st) -> st_interlace st = false -> (forall vp, In vp ps -> handled st (snd vp)) ->
  transform st (quad_field1 P st alpha l m ps) c = transform st (quad_field P st (1 / 1) l m (map (scale_weight alpha) ps) []) c.
Proof.
  intros V I H. assert (H' : all_handled st (map (scale_weight alpha) ps) []).
  { split; [|intros vp []]. intros vp Hv. apply in_map_iff in Hv. destruct Hv as (q & <- & Hq). eapply handled_pos; [|exact (H q Hq)]. reflexivity. }
  rewrite transform_quad by assumption. unfold objects. cbn [map]. rewrite app_nil_r, !map_map.
  rewrite (transform_sum st ps (fun vp => RtoC ((alpha * p_w (snd vp)) ^ 2) * Cconj (reduced_ylm P l m (fst vp)))%C snd).
  - apply csum_map_ext. intros vp _. rewrite <- (single_pos st (snd (scale_weight alpha vp)) (snd vp)) by reflexivity. unfold weight_of, part_of, los_of. cbn [fst snd scale_weight p_w]. rewrite Rmult_1_l. reflexivity.
  - exact V.
  - exact H.
  - intros x Hx. unfold quad_field1. cbn [f_main]. rewrite quad_main_unit by assumption. rewrite <- csum_map_scal. apply csum_map_ext.
    intros vp _. rewrite Rpow_mult_distr, RtoC_mult. ring.
  - congruence.
Qed.

Lemma threepcf_entry_ext P sj w st ord dn dn' N N' src src' V l1 l2 L norm wa same a b :
  (forall c, dn c = dn' c) -> (forall c, N c = N' c) -> (forall M c, s_dn src M c = s_dn src' M c) -> (forall M, s_S src M = s_S src' M) ->
  threepcf_entry P sj w st ord dn N src V l1 l2 L norm wa same a b = threepcf_entry P sj w st ord dn' N' src' V l1 l2 L norm wa same a b.
Proof.
  intros E1 E2 E3 E4. apply functional_extensionality in E1, E2, E4. subst dn' N'.
  assert (E5 : s_dn src = s_dn src') by (apply functional_extensionality; intros M; apply functional_extensionality; apply E3).
  unfold threepcf_entry. rewrite E4, E5. reflexivity.
Qed.

(** The window function is the three-point correlation function of the random catalogue
    with weights times [alpha] and no randoms. *)
Theorem window_is_survey :
  forall P sj w st ord l1 l2 L rand alpha norm same a b,
  valid (st_mesh st) -> st_interlace st = false -> (forall vp, In vp rand -> handled st (snd vp)) ->
  compute_3pcf_window P sj w st ord l1 l2 L rand alpha norm None same a b =
  compute_3pcf P sj w st ord 1 1 l1 l2 L (map (scale_weight alpha) rand) [] norm same a b.
Proof.
  intros P sj w st ord l1 l2 L rand alpha norm same a b V I H. unfold compute_3pcf_window, compute_3pcf. apply threepcf_entry_ext.
  - intros c. now apply window_transform.
  - intros c. now apply window_quad.
  - intros M c. now apply window_transform.
  - intros M. cbn [window_sources survey_sources s_S]. unfold ylm_wgtd_shotnoise1, ylm_wgtd_shotnoise. rewrite !ylm_wgtd_cubes.
    change (cubes [] (reduced_ylm P L M)) with (RtoC 0). rewrite Cmult_0_r, Cplus_0_r. unfold cubes. rewrite map_map, <- csum_map_scal.
    apply csum_map_ext. intros vp _. cbn [scale_weight fst snd p_w]. rewrite Rpow_mult_distr, RtoC_mult. ring.
Qed.

Lemma picks_map {A B} (f : A -> B) l : picks (map f l) = map (fun xl => (f (fst xl), map f (snd xl))) (picks l).
Proof.
  induction l as [|x l IH]; [reflexivity|]. cbn [map picks]. rewrite IH. rewrite !map_map. cbn [map]. f_equal. apply map_ext. intros [y r]. reflexivity.
Qed.
Lemma distinct_pairs_map {A B} (f : A -> B) l : distinct_pairs (map f l) = map (fun xy => (f (fst xy), f (snd xy))) (distinct_pairs l).
Proof.
  unfold distinct_pairs. rewrite picks_map. generalize (picks l). intros q. induction q as [|[x r] q IH]; [reflexivity|].
  cbn [map flat_map fst snd]. rewrite IH, map_app, !map_map. reflexivity.
Qed.

(** Its shot noise has no excess at zero separation. *)
Theorem window_shot_is_pair_sum :
  forall P sj st ord l1 l2 L rand alpha norm same a b,
  let w := wigner_3j l1 l2 L in
  sound st -> st_scheme st = NGP -> st_interlace st = false -> (forall vp, In vp rand -> handled st (snd vp)) ->
  validate_coupling w = Ok tt -> well_separated l1 l2 L w ->
  (forall t, Permutation (ord t) (grid_cells (ngrid (st_mesh st)))) ->
  let vc := vol_cell (st_mesh st) in
  exists out, compute_3pcf_window P sj w st ord l1 l2 L rand alpha norm None same a b = Ok out /\
  t_shot out = (RtoC norm * if same then
    RtoC (/ (vc ^ 2 * INR (length (sep_cells st a)))) *
    bin_mean_spec (sep_cells st a) (fun r =>
      csum (map (fun xy => if separated (st_mesh st) (part_of (fst xy)) (part_of (snd xy)) r
        then RtoC (weight_of (fst xy) * weight_of (snd xy) ^ 2) * triplet_harmonic P l1 l2 L (sep_vec st r) (sep_vec st r) (los_of (fst xy))
        else RtoC 0) (distinct_pairs (map (fun vp => (vp, alpha)) rand))))
    else RtoC 0)%C.
Proof.
  intros P sj st ord l1 l2 L rand alpha norm same a b w S E I H VC W HP vc. pose proof S as (V & _).
  assert (H' : all_handled st (map (scale_weight alpha) rand) []).
  { split; [|intros vp []]. intros vp Hv. apply in_map_iff in Hv. destruct Hv as (q & <- & Hq). eapply handled_pos; [|exact (H q Hq)]. reflexivity. }
  destruct (threepcf_shot_is_pair_sum P sj st ord 1 1 l1 l2 L (map (scale_weight alpha) rand) [] norm same a b S E I H' VC W HP) as (out & E1 & E2).
  exists out. rewrite window_is_survey by assumption. split; [exact E1|]. rewrite E2. f_equal. destruct same; [|reflexivity]. f_equal. apply bin_mean_ext. intros r _.
  set (sc := fun vp : (R * R * R) * pdatum => (scale_weight alpha vp, 1) : object).
  replace (objects (1 / 1) (map (scale_weight alpha) rand) []) with (map sc rand).
  2: { unfold objects. cbn [map]. rewrite app_nil_r, map_map. reflexivity. }
  change (cubes [] (triplet_harmonic P l1 l2 L (sep_vec st r) (sep_vec st r))) with (RtoC 0).
  rewrite !distinct_pairs_map, !map_map.
  rewrite (csum_map_ext (fun x => if separated (st_mesh st) (part_of (fst ((fst x, alpha), (snd x, alpha)))) _ r then _ else _)
    (fun x => if separated (st_mesh st) (part_of (fst (sc (fst x), sc (snd x)))) (part_of (snd (sc (fst x), sc (snd x)))) r
        then RtoC (weight_of (fst (sc (fst x), sc (snd x))) * weight_of (snd (sc (fst x), sc (snd x))) ^ 2) *
          triplet_harmonic P l1 l2 L (sep_vec st r) (sep_vec st r) (los_of (fst (sc (fst x), sc (snd x)))) else RtoC 0)%C).
  - destruct (same_cell _ _ _); ring.
  - intros [x y] _. unfold sc, separated, weight_of, part_of, los_of. cbn [fst snd scale_weight p_w]. unfold nearest. cbn [p_pos]. rewrite !Rmult_1_l. reflexivity.
Qed.

(** ** Periodic boxes *)
Lemma box_total l1 l2 L w v mirror : (0 <= L)%Z ->
  validate_coupling w = Ok tt -> reversal_symmetric l1 l2 L w -> well_separated l1 l2 L w ->
  (forall t, in_range l1 l2 0 t -> weight l1 l2 L w t <> 0 -> v (mirrored t) = (RtoC mirror * Cconj (v t))%C) ->
  snd (order_loop (coupling_3pt l1 l2 L w) mirror v (visited_box l1 l2)) = weighted_sum l1 l2 L w v (all_orders l1 l2 0).
Proof.
  intros HL V S W Hv.
  assert (E : visited_box l1 l2 = all_orders l1 l2 0).
  { unfold visited_box, all_orders. apply flat_map_ext. intros m1. generalize (arange (- l2) (l2 + 1)).
    intros l. induction l as [|b l IH]; [reflexivity|]. cbn [map flat_map]. rewrite IH. reflexivity. }
  rewrite E. unfold weighted_sum.
  rewrite (order_loop_total (coupling_3pt l1 l2 L w) mirror v (all_orders l1 l2 0) (all_orders l1 l2 0)).
  - apply csum_map_ext. intros t _. now rewrite weight_coupling.
  - apply NoDup_all_orders.
  - apply NoDup_all_orders.
  - auto.
  - intros t H. apply In_all_orders in H. apply In_all_orders. now apply mirrored_range.
  - auto.
  - intros t H. apply In_all_orders in H. rewrite weight_coupling. apply W. destruct t as [[a b] c]. cbn in *. lia.
  - intros t H. rewrite !weight_coupling. now apply weight_mirrored.
  - intros t H. rewrite weight_coupling. apply Hv. now apply In_all_orders.
Qed.

Theorem box_threepcf_is_mode_sum :
  forall P sj st ord l1 l2 L ps norm same a b,
  let w := wigner_3j l1 l2 L in
  sound st -> legendre_like P -> wide_modes st -> st_interlace st = false -> even_grid (ngrid (st_mesh st)) -> (0 <= L)%Z -> (forall p, In p ps -> handled st p) ->
  (forall t, Permutation (ord t) (grid_cells (ngrid (st_mesh st)))) ->
  validate_coupling w = Ok tt -> well_separated l1 l2 L w -> nyquist_free st (box_delta st ps) ->
  let ra := mean_or (b_centre a) (sep_len st) (sep_cells st a) in let rb := mean_or (b_centre b) (sep_len st) (sep_cells st b) in
  exists out, compute_3pcf_in_gpp_box P sj w st ord l1 l2 L ps norm same a b = Ok out /\
  t_raw out = (RtoC norm * (ipow (l1 + l2) * (RtoC (/ st_vol st ^ 2) * pair_total (ngrid (st_mesh st)) (fun k1 k2 =>
    let k3 := closing (ngrid (st_mesh st)) k1 k2 in
    RtoC (sj l1 (mode_len st k1 * ra)%R * sj l2 (mode_len st k2 * rb)%R) * (box_delta st ps k1 * box_delta st ps k2 * box_delta st ps k3)
    * box_harmonic P l1 l2 L (mode_vec st k1) (mode_vec st k2)
    * RtoC (/ (window_at st k1 * window_at st k2 * window_at st k3))))))%C.
Proof.
  intros P sj st ord l1 l2 L ps norm same a b w S LP WM I EG HL H HP VC W NF ra rb.
  pose proof S as (VM & _). pose proof (valid_grid _ VM) as GP.
  assert (D : forall k, grid_cell (ngrid (st_mesh st)) k -> transform st (fluctuation_field st ps) k = box_delta st ps k).
  { intros k Hk. apply fluctuation_transform; try assumption. congruence. }
  assert (SM : forall c, safe_mode st c) by (intros c; right; now split).
  unfold compute_3pcf_in_gpp_box, threepcf_entry. rewrite VC. cbn [bind]. eexists. split; [reflexivity|]. cbn [t_raw]. f_equal.
  rewrite (proj2 (proj2 (shot_3pcf_exact P st (ord (0, 0, 0)%Z) _ _ _ l1 l2 0 0 a (HP _)))), (proj2 (proj2 (shot_3pcf_exact P st (ord (0, 0, 0)%Z) _ _ _ l1 l2 0 0 b (HP _)))).
  fold ra rb. set (dn := transform st (fluctuation_field st ps)) in *. set (src := box_sources st ps).
  rewrite (term_loop_ext _ _ (fun t => RtoC (coupling_3pt l1 l2 L w t) * RtoC (vol_cell (st_mesh st)) * ipow (l1 + l2) *
    mirrored_sum (mirror_of L t) (sjl_component P sj st dn (s_dn src) l1 l2 ra rb t))%C) by (intros [[m1 m2] M]; reflexivity).
  rewrite threepcf_loop. f_equal. rewrite (box_total l1 l2 L w); [|exact HL|exact VC|apply wigner_reversal|exact W|].
  - unfold w. rewrite weighted_modes by exact S. f_equal. apply pair_total_ext. intros k1 k2 H1 H2. cbv zeta. set (k3 := closing (ngrid (st_mesh st)) k1 k2).
    assert (H3 : grid_cell (ngrid (st_mesh st)) k3) by now apply closing_grid.
    rewrite !D by assumption. f_equal. unfold box_harmonic. rewrite <- !Cmult_assoc. f_equal. f_equal. f_equal. rewrite <- csum_map_scal. apply csum_map_ext.
    intros [[m1 m2] M] _. unfold src. cbn [box_sources s_dn]. fold dn. rewrite D by assumption. ring.
  - intros [[m1 m2] M] (R1 & R2 & R3) NZ. cbn [mirrored].
    assert (Sel : (m1 + m2 + M = 0)%Z) by (apply (wigner_selection l1 l2 L); intros E; apply NZ; unfold weight, w; rewrite E; ring).
    assert (M = 0)%Z by lia. subst M.
    rewrite sjl_component_mirror; try assumption; try lia.
    + rewrite Sel, Z.add_0_r. rewrite (sign_parity l1 l2 L) by (apply (validated_even l1 l2 L w VC), wigner_reversal). reflexivity.
    + intros k Hk N. rewrite D by exact Hk. now apply NF.
    + intros c Hc. rewrite !D by (try assumption; now apply neg_cell_grid). apply box_delta_neg; try assumption. apply SM.
    + intros c Hc. unfold src. cbn [box_sources s_dn]. fold dn. rewrite !D by (try assumption; now apply neg_cell_grid). rewrite sign_0, Cmult_1_l.
      apply box_delta_neg; try assumption. apply SM.
Qed.

(** Shot noise: pairs of different particles against the expected number. *)
Theorem box_threepcf_shot :
  forall P sj st ord l1 l2 L ps norm same a b,
  let w := wigner_3j l1 l2 L in
  sound st -> st_scheme st = NGP -> st_interlace st = false -> (0 <= L)%Z -> (forall p, In p ps -> handled st p) ->
  (forall t, Permutation (ord t) (grid_cells (ngrid (st_mesh st)))) ->
  validate_coupling w = Ok tt -> well_separated l1 l2 L w ->
  let vc := vol_cell (st_mesh st) in let N := INR (length ps) in
  exists out, compute_3pcf_in_gpp_box P sj w st ord l1 l2 L ps norm same a b = Ok out /\
  t_shot out = (RtoC norm * if same then
    RtoC (/ (vc * INR (length (sep_cells st a)))) *
    bin_mean_spec (sep_cells st a) (fun r =>
      RtoC (INR (pairs_at (st_mesh st) ps r) / vc - N ^ 2 / st_vol st) * box_harmonic P l1 l2 L (sep_vec st r) (sep_vec st r))
    else RtoC 0)%C.
Proof.
  intros P sj st ord l1 l2 L ps norm same a b w S E I HL H HP VC W vc N. pose proof S as (V & _). pose proof (valid_grid _ V) as GP.
  assert (X0 : forall r, twopt_3d st (transform st (fluctuation_field st ps)) (transform st (unweighted_field st ps)) (RtoC N) r =
    RtoC (INR (pairs_at (st_mesh st) ps r) / vc - N ^ 2 / st_vol st)).
  { intros r. unfold vc, N. rewrite <- box_corrfunc_mesh_pairs by (try assumption; intros p Hp; exact (proj1 (H p Hp))).
    unfold twopt_3d. rewrite !inverse_total. f_equal. apply total3_ext. intros c Hc. f_equal. f_equal. unfold pk_mode.
    rewrite !fluctuation_transform by (try assumption; congruence). unfold box_delta. rewrite I. destruct (cell_eqb_spec c cell0) as [->|NZ]; [ring|].
    rewrite unweighted_transform by assumption. reflexivity. }
  unfold compute_3pcf_in_gpp_box, threepcf_entry. rewrite VC. cbn [bind]. eexists. split; [reflexivity|]. cbn [t_shot]. f_equal.
  destruct same; [|reflexivity]. rewrite shot_loop. set (n := INR (length (sep_cells st a))).
  assert (X : forall t, s_stat (let '(m1, m2, M) := t in shot_3pcf P st (ord t) (s_dn (box_sources st ps) M)
      (transform st (unweighted_field st ps)) (s_S (box_sources st ps) M) l1 l2 m1 m2 a) =
    (RtoC (/ vc * sign (l1 + l2) / n) * bin_mean_spec (sep_cells st a) (fun r => let '(m1, m2, M) := t in
      RtoC (INR (pairs_at (st_mesh st) ps r) / vc - N ^ 2 / st_vol st) * (reduced_ylm P l1 m1 (sep_vec st r) * reduced_ylm P l2 m2 (sep_vec st r))))%C).
  { intros [[m1 m2] M]. rewrite (proj1 (shot_3pcf_exact P st (ord (m1, m2, M)) _ _ _ l1 l2 m1 m2 a (HP _))). fold vc n.
    rewrite Cmult_comm. f_equal. apply bin_mean_ext. intros r _. cbn [box_sources s_dn s_S]. fold N. rewrite X0. reflexivity. }
  rewrite (box_total l1 l2 L w); [|exact HL|exact VC|apply wigner_reversal|exact W|].
  - unfold weighted_sum.
    rewrite (csum_map_ext _ (fun t => RtoC (/ vc * sign (l1 + l2) / n) * bin_mean_spec (sep_cells st a) (fun r =>
      RtoC (INR (pairs_at (st_mesh st) ps r) / vc - N ^ 2 / st_vol st) * let '(m1, m2, M) := t in RtoC (weight l1 l2 L w t) *
        (reduced_ylm P l1 m1 (sep_vec st r) * reduced_ylm P l2 m2 (sep_vec st r))))%C).
    + rewrite csum_map_scal, bin_mean_sum, Cmult_assoc, <- RtoC_mult.
      replace (powerRZ (-1) (l1 + l2) * (/ vc * sign (l1 + l2) / n)) with (/ (vc * n)).
      * f_equal. apply bin_mean_ext. intros r _. rewrite csum_map_scal. reflexivity.
      * change (powerRZ (-1) (l1 + l2)) with (sign (l1 + l2)). rewrite Rinv_mult.
        transitivity ((sign (l1 + l2) * sign (l1 + l2)) * (/ vc * / n)); [rewrite sign_sqr; ring|unfold Rdiv; ring].
    + intros t _. specialize (X t). destruct t as [[m1 m2] M]. rewrite X. rewrite Cmult_assoc, (Cmult_comm (RtoC (weight _ _ _ _ _))), <- Cmult_assoc. f_equal.
      rewrite <- bin_mean_scal. apply bin_mean_ext. intros r _. ring.
  - intros t RG NZ. rewrite !X, Cmult_1_l, Cconj_mult, Cconj_RtoC, bin_mean_conj. f_equal. apply bin_mean_ext. intros r _.
    destruct t as [[m1 m2] M]. cbn [mirrored]. destruct RG as (R1 & R2 & R3).
    assert (Sel : (m1 + m2 + M = 0)%Z) by (apply (wigner_selection l1 l2 L); intros Z; apply NZ; unfold weight, w; rewrite Z; ring).
    assert (M = 0)%Z by lia. subst M.
    rewrite !ylm_opposite_order, !Cconj_mult, Cconj_RtoC.
    transitivity (RtoC (sign (m1 + m2)) * (RtoC (INR (pairs_at (st_mesh st) ps r) / vc - N ^ 2 / st_vol st) *
      (Cconj (reduced_ylm P l1 m1 (sep_vec st r)) * Cconj (reduced_ylm P l2 m2 (sep_vec st r)))))%C.
    + rewrite !sign_plus, !RtoC_mult. ring.
    + rewrite Z.add_0_r in Sel. rewrite Sel, sign_0. ring.
Qed.

(** ** Concrete cases *)

(** Eight objects on the corners of a cell: no mode at the Nyquist frequency. *)
Definition at_corner (x y z : R) : (R * R * R) * pdatum := ((0, 0, 1), PDatum (T3 x y z) 1 1 1 1).
Definition corners : list ((R * R * R) * pdatum) :=
  [at_corner 0 0 0; at_corner 1 0 0; at_corner 0 1 0; at_corner 1 1 0; at_corner 0 0 1; at_corner 1 0 1; at_corner 0 1 1; at_corner 1 1 1].
Lemma corners_handled : all_handled st4 corners [].
Proof.
  split; [|intros vp []].
  intros vp [<-|[<-|[<-|[<-|[<-|[<-|[<-|[<-|[]]]]]]]]]; (split; [unfold inside_box, in_box; cbn; repeat split; lra|discriminate]).
Qed.
Lemma corner_nearest x y z : (0 <= x <= 1)%Z -> (0 <= y <= 1)%Z -> (0 <= z <= 1)%Z -> nearest grid4 (snd (at_corner (IZR x) (IZR y) (IZR z))) = (x, y, z).
Proof.
  intros Hx Hy Hz. unfold nearest, nearest_axis, at_corner, grid4. cbn [snd ngrid boxsize p_pos ax0 ax1 ax2].
  rewrite (Zfloor_imp x), (Zfloor_imp y), (Zfloor_imp z) by (rewrite ?plus_IZR; split; lra). rewrite !Z.mod_small by lia. reflexivity.
Qed.
Lemma corners_nyquist :
  nyquist_free st4 (fun k => csum (map (fun o => RtoC (weight_of o) * single st4 (part_of o) k)%C (objects (1 / 1) corners []))).
Proof.
  intros k Hk NI. pose proof corners_handled as [H _].
  set (X := Cconj (wave (ngrid grid4) k (1, 0, 0)%Z)). set (Y := Cconj (wave (ngrid grid4) k (0, 1, 0)%Z)). set (Z := Cconj (wave (ngrid grid4) k (0, 0, 1)%Z)).
  assert (Q : forall x y z, (0 <= x <= 1)%Z -> (0 <= y <= 1)%Z -> (0 <= z <= 1)%Z -> In (at_corner (IZR x) (IZR y) (IZR z)) corners ->
    single st4 (snd (at_corner (IZR x) (IZR y) (IZR z))) k = Cconj (wave (ngrid grid4) k (x, y, z))).
  { intros x y z Hx Hy Hz Hin. rewrite single_ngp by (try reflexivity; try exact sound4; exact (H _ Hin)).
    change (st_mesh st4) with grid4. now rewrite corner_nearest by assumption. }
  assert (W : forall a b, Cconj (wave (ngrid grid4) k (cell_add a b)) = (Cconj (wave (ngrid grid4) k a) * Cconj (wave (ngrid grid4) k b))%C).
  { intros a b. rewrite !(wave_sym _ k), wave_add, Cconj_mult. reflexivity. }
  pose proof (W (1, 0, 0)%Z (0, 1, 0)%Z) as W1. pose proof (W (1, 0, 0)%Z (0, 0, 1)%Z) as W2. pose proof (W (0, 1, 0)%Z (0, 0, 1)%Z) as W3.
  pose proof (W (1, 1, 0)%Z (0, 0, 1)%Z) as W4. cbn [cell_add Z.add] in W1, W2, W3, W4. rewrite W1 in W4. fold X Y Z in W1, W2, W3, W4.
  assert (W0 : Cconj (wave (ngrid grid4) k (0, 0, 0)%Z) = RtoC 1).
  { rewrite wave_sym. change (0, 0, 0)%Z with cell0. now rewrite wave_0, Cconj_RtoC. }
  transitivity ((RtoC 1 + X) * (RtoC 1 + Y) * (RtoC 1 + Z))%C.
  - unfold objects, corners. cbn [map app]. rewrite !csum_cons. cbn [csum fold_right]. unfold weight_of, part_of. cbn [fst snd].
    rewrite (Q 0 0 0)%Z, (Q 1 0 0)%Z, (Q 0 1 0)%Z, (Q 1 1 0)%Z, (Q 0 0 1)%Z, (Q 1 0 1)%Z, (Q 0 1 1)%Z, (Q 1 1 1)%Z
      by (first [lia | cbn; tauto]). rewrite W0, W1, W2, W3, W4. fold X Y Z. cbn [at_corner snd p_w]. rewrite Rmult_1_l. ring.
  - destruct k as [[i j] l]. destruct Hk as (Hi & Hj & Hl). cbn [st4 st_mesh grid4 ngrid ax0 ax1 ax2] in *.
    assert (N : forall n, (0 <= n < 4)%Z -> ~ below_nyquist 4 n -> n = 2%Z).
    { intros n Hn B. assert (C : (n = 0 \/ n = 1 \/ n = 2 \/ n = 3)%Z) by lia. destruct C as [->|[->|[->| ->]]]; [| |reflexivity|]; exfalso; apply B; unfold below_nyquist; cbn; lia. }
    assert (P : SphHarmModel.cis PI = RtoC (-1)) by apply SphHarmProps.cis_PI.
    assert (C3 : ~ below_nyquist 4 i \/ ~ below_nyquist 4 j \/ ~ below_nyquist 4 l).
    { destruct (Z_lt_dec (Z.abs (shift_index 4 i)) (4 / 2)) as [B1|B1]; [|left; exact B1].
      destruct (Z_lt_dec (Z.abs (shift_index 4 j)) (4 / 2)) as [B2|B2]; [|right; left; exact B2].
      right; right. intros B3. apply NI. repeat split; assumption. }
    destruct C3 as [B|[B|B]]; apply N in B; try assumption; subst.
    + assert (E : X = RtoC (-1)); [|rewrite E, <- RtoC_plus; replace (1 + -1) with 0 by ring; ring].
      unfold X, wave, dft_phase. cbn [grid4 ngrid ax0 ax1 ax2]. rewrite !Z.mul_0_r.
      replace (2 * PI * (IZR (2 * 1) / 4 + 0 / 4 + 0 / 4)) with PI by (cbn; field). rewrite P. apply Cconj_RtoC.
    + assert (E : Y = RtoC (-1)); [|rewrite E, <- RtoC_plus; replace (1 + -1) with 0 by ring; ring].
      unfold Y, wave, dft_phase. cbn [grid4 ngrid ax0 ax1 ax2]. rewrite !Z.mul_0_r.
      replace (2 * PI * (0 / 4 + IZR (2 * 1) / 4 + 0 / 4)) with PI by (cbn; field). rewrite P. apply Cconj_RtoC.
    + assert (E : Z = RtoC (-1)); [|rewrite E, <- RtoC_plus; replace (1 + -1) with 0 by ring; ring].
      unfold Z, wave, dft_phase. cbn [grid4 ngrid ax0 ax1 ax2]. rewrite !Z.mul_0_r.
      replace (2 * PI * (0 / 4 + 0 / 4 + IZR (2 * 1) / 4)) with PI by (cbn; field). rewrite P. apply Cconj_RtoC.
Qed.

Example threepcf_case : forall sj a b, exists out,
  compute_3pcf legendre sj (wigner_3j 1 0 1) st4 (fun _ => grid_cells (ngrid grid4)) 1 1 1 0 1 corners [] 1 true a b = Ok out /\ snd (t_raw out) = 0.
Proof.
  intros sj a b.
  assert (PB : 3 < PI) by (pose proof PI2_3_2; unfold PI2 in *; lra).
  assert (WM : wide_modes st4) by (unfold wide_modes, eps_sph; cbn; split; lra).
  assert (EG : even_grid (ngrid (st_mesh st4))) by (repeat split; exists 2%Z; reflexivity).
  destruct (threepcf_is_mode_sum legendre sj st4 (fun _ => grid_cells (ngrid grid4)) 1 1 1 0 1 corners [] 1 true a b sound4 legendre_is_like WM eq_refl EG
    corners_handled (fun _ => Permutation_refl _) validate_101 (well_separated_l0l 1 ltac:(lia)) corners_nyquist) as (out & E & _).
  exists out. split; [exact E|].
  exact (threepcf_real _ _ _ _ _ _ _ _ _ _ _ _ _ _ _ _ sound4 legendre_is_like WM eq_refl EG corners_handled (fun _ => Permutation_refl _)
    (well_separated_l0l 1 ltac:(lia)) corners_nyquist E).
Qed.

(** The imaginary part of the refutation does not vanish. *)
Example threepcf_imaginary_case :
  exists out, compute_3pcf legendre (fun _ _ => 1) (wigner_3j 1 0 1) st2 (fun _ => grid_cells (ngrid grid2)) 1 1 1 0 1 plane [] 1 true bin_all bin_all = Ok out /\
  snd (t_raw out) < -13.
Proof.
  destruct (threepcf_real_refuted (fun _ _ => 1) 1 true bin_all bin_all) as (out & _ & _ & _ & _ & E & _ & V). exists out. split; [exact E|]. rewrite V.
  assert (PB : 3 < PI) by (pose proof PI2_3_2; unfold PI2 in *; lra). nra.
Qed.

Print Assumptions threepcf_is_mode_sum.
Print Assumptions threepcf_monopole_is_mode_sum.
Print Assumptions ipow_is_power.
Print Assumptions threepcf_real.
Print Assumptions threepcf_exchange.
Print Assumptions threepcf_catalogue_order.
Print Assumptions threepcf_weight_scale.
Print Assumptions threepcf_real_refuted.
Print Assumptions window_is_survey.
Print Assumptions window_shot_is_pair_sum.
Print Assumptions box_threepcf_is_mode_sum.
Print Assumptions box_threepcf_shot.
