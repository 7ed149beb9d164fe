(* Claims C73 to C75: power spectra as averages over modes, their symmetries and scalings. *)
From Coq Require Import Reals ZArith List Lia Lra Bool Permutation.
From Coquelicot Require Import Complex.
From Flocq Require Import Core.Raux.
From Verif Require Import Base ArrayModel ArrayProofs RSum MeshModel MeshIndexProps MeshProofs MeshProps MeshWindowProps
  BinVecModel BinVecProps CSum ThreePtModel WignerProps SphHarmModel SphHarmProps Dft3 CatModel NormModel FieldModel FieldProps CorrProps.
Import ListNotations.
Open Scope R_scope.

(** ** Specification vocabulary *)

(** The transform of one particle of unit weight, and the particles it is right for. *)
Definition single (st : settings) (p : pdatum) (c : gcell) : C := transform st (unweighted_field st [p]) c.
Definition handled (st : settings) (p : pdatum) : Prop :=
  inside_box (st_mesh st) p /\ (st_interlace st = true -> shadow_handles (st_scheme st) (st_mesh st) (unit_particle p)).
Definition all_handled (st : settings) (data rand : list ((R * R * R) * pdatum)) : Prop :=
  (forall vp, In vp data -> handled st (snd vp)) /\ (forall vp, In vp rand -> handled st (snd vp)).
Definition mode_vec (st : settings) (c : gcell) : R * R * R := wavevector (ngrid (st_mesh st)) (dk_of (st_mesh st)) c.

(** ** Proof support *)
Lemma fourier_csum {A} ng vc (f : A -> gcell -> C) l c :
  fourier ng vc (fun x => csum (map (fun a => f a x) l)) c = csum (map (fun a => fourier ng vc (f a) c) l).
Proof.
  induction l as [|a l IH]; cbn [map].
  - rewrite fourier_total. rewrite total3_zero; [cbn; ring|]. intros x _. cbn. ring.
  - rewrite csum_cons, <- IH, <- fourier_plus. apply fourier_ext. intros x. now rewrite csum_cons.
Qed.

Lemma unit_main st p x : valid (st_mesh st) -> handled st p -> grid_cell (ngrid (st_mesh st)) x ->
  f_main (unweighted_field st [p]) x = RtoC (share cells grid_loc (st_scheme st) (st_mesh st) (p_pos p) x / vol_cell (st_mesh st)).
Proof.
  intros V (B & _) Hx. unfold unweighted_field. rewrite main_value; [|exact V| |exact Hx].
  - cbn [map csum fold_right unit_particle pos]. change (cweight (unit_particle p)) with (RtoC 1). ring.
  - intros q [<-|[]]. exact B.
Qed.
Lemma unit_shadow st p x : valid (st_mesh st) -> handled st p -> st_interlace st = true -> grid_cell (ngrid (st_mesh st)) x ->
  f_shadow (unweighted_field st [p]) x =
  RtoC (share cells_shadow grid_loc_shadow (st_scheme st) (st_mesh st) (p_pos p) x / vol_cell (st_mesh st)).
Proof.
  intros V (_ & B) I Hx. unfold unweighted_field. rewrite shadow_value; [|exact V| |exact Hx].
  - cbn [map csum fold_right unit_particle pos]. change (cweight (unit_particle p)) with (RtoC 1). ring.
  - intros q [<-|[]]. exact (B I).
Qed.

(** The transform is additive over particles and linear in their weights. *)
Lemma transform_sum {A} st (obs : list A) (wt : A -> C) (pt : A -> pdatum) f c : valid (st_mesh st) ->
  (forall o, In o obs -> handled st (pt o)) ->
  (forall x, grid_cell (ngrid (st_mesh st)) x -> f_main f x = csum (map (fun o => wt o * f_main (unweighted_field st [pt o]) x)%C obs)) ->
  (st_interlace st = true -> forall x, grid_cell (ngrid (st_mesh st)) x ->
     f_shadow f x = csum (map (fun o => wt o * f_shadow (unweighted_field st [pt o]) x)%C obs)) ->
  transform st f c = csum (map (fun o => wt o * single st (pt o) c)%C obs).
Proof.
  intros V H FM FS. unfold transform.
  rewrite (fourier_grid _ _ _ _ _ FM), fourier_csum.
  destruct (st_interlace st) eqn:I.
  - rewrite (fourier_grid _ _ _ _ _ (FS eq_refl)), fourier_csum.
    rewrite (csum_map_ext (fun o => wt o * single st (pt o) c)%C (fun o => RtoC (/ 2) *
      (fourier (ngrid (st_mesh st)) (vol_cell (st_mesh st)) (fun x => wt o * f_main (unweighted_field st [pt o]) x) c +
       cis (interlace_arg (ngrid (st_mesh st)) c) *
       fourier (ngrid (st_mesh st)) (vol_cell (st_mesh st)) (fun x => wt o * f_shadow (unweighted_field st [pt o]) x) c))%C).
    + rewrite csum_map_scal, csum_map_plus, csum_map_scal. ring.
    + intros o _. unfold single, transform. rewrite I, !fourier_mult. ring.
  - apply csum_map_ext. intros o _. unfold single, transform. now rewrite I, fourier_mult.
Qed.

Lemma assign_main_unit P st l m ps x : valid (st_mesh st) -> (forall vp, In vp ps -> handled st (snd vp)) ->
  grid_cell (ngrid (st_mesh st)) x ->
  f_main (assign_field st (map (ylm_particle P l m) ps)) x =
  csum (map (fun vp => (reduced_ylm P l m (fst vp) * RtoC (p_w (snd vp))) * f_main (unweighted_field st [snd vp]) x)%C ps).
Proof.
  intros V H Hx. rewrite main_value; [|exact V| |exact Hx].
  - rewrite map_map. apply csum_map_ext. intros [v p] Hp. rewrite unit_main by (try assumption; exact (H _ Hp)).
    f_equal. unfold cweight, ylm_particle, RtoC, Cmult. cbn [w_re w_im fst snd]. f_equal; ring.
  - intros q Hq. apply in_map_iff in Hq. destruct Hq as ([v p] & <- & Hp). exact (proj1 (H _ Hp)).
Qed.
Lemma assign_shadow_unit P st l m ps x : valid (st_mesh st) -> (forall vp, In vp ps -> handled st (snd vp)) ->
  st_interlace st = true -> grid_cell (ngrid (st_mesh st)) x ->
  f_shadow (assign_field st (map (ylm_particle P l m) ps)) x =
  csum (map (fun vp => (reduced_ylm P l m (fst vp) * RtoC (p_w (snd vp))) * f_shadow (unweighted_field st [snd vp]) x)%C ps).
Proof.
  intros V H I Hx. rewrite shadow_value; [|exact V| |exact Hx].
  - rewrite map_map. apply csum_map_ext. intros [v p] Hp. rewrite unit_shadow by (try assumption; exact (H _ Hp)).
    f_equal. unfold cweight, ylm_particle, RtoC, Cmult. cbn [w_re w_im fst snd]. f_equal; ring.
  - intros q Hq. apply in_map_iff in Hq. destruct Hq as ([v p] & <- & Hp). exact (proj2 (H _ Hp) I).
Qed.

Lemma csum_objects alpha data rand (f : (R * R * R) * pdatum -> C) :
  csum (map (fun o => RtoC (snd o) * f (fst o))%C (objects alpha data rand)) =
  (csum (map f data) - RtoC alpha * csum (map f rand))%C.
Proof.
  unfold objects. rewrite map_app, csum_app, !map_map. cbn [fst snd]. unfold Cminus. f_equal.
  - apply csum_map_ext. intros. ring.
  - rewrite csum_map_scal. rewrite RtoC_opp. ring.
Qed.

Lemma In_objects st alpha data rand o : all_handled st data rand -> In o (objects alpha data rand) -> handled st (part_of o).
Proof.
  intros (H1 & H2) H. unfold objects in H. apply in_app_or in H. destruct H as [H|H]; apply in_map_iff in H;
    destruct H as (vp & <- & Hv); unfold part_of; cbn; auto.
Qed.

(** Transform of the weighted field of a survey. *)
Lemma transform_objects P st alpha l m data rand c : valid (st_mesh st) -> all_handled st data rand ->
  transform st (ylm_wgtd_field P st alpha l m data rand) c =
  csum (map (fun o => RtoC (weight_of o) * reduced_ylm P l m (los_of o) * single st (part_of o) c)%C (objects alpha data rand)).
Proof.
  intros V H. pose proof H as (H1 & H2).
  apply (transform_sum st (objects alpha data rand) (fun o => RtoC (weight_of o) * reduced_ylm P l m (los_of o))%C part_of); [exact V| | |].
  - intros o Ho. exact (In_objects _ _ _ _ _ H Ho).
  - intros x Hx. unfold ylm_wgtd_field. cbn [f_main]. rewrite !assign_main_unit by assumption.
    rewrite <- csum_objects. apply csum_map_ext. intros [[v p] s] _. unfold weight_of, part_of, los_of. cbn [fst snd]. rewrite RtoC_mult. ring.
  - intros I x Hx. unfold ylm_wgtd_field. cbn [f_shadow]. rewrite I. rewrite !assign_shadow_unit by assumption.
    rewrite <- csum_objects. apply csum_map_ext. intros [[v p] s] _. unfold weight_of, part_of, los_of. cbn [fst snd]. rewrite RtoC_mult. ring.
Qed.

(** ** C73: power spectra as averages over modes *)

(** The survey multipoles: the normalisation times (2 L + 1) times the mean over the modes
    of the bin of the field weighted by the harmonics of line of sight and wavevector,
    times the conjugate of the plain field, over the mesh correction; likewise the shot
    noise. *)
Theorem powspec_is_mode_average :
  forall P st ord wd wr L data rand norm b, valid (st_mesh st) -> (0 <= L)%Z -> all_handled st data rand ->
  (forall M m, Permutation (ord M m) (grid_cells (ngrid (st_mesh st)))) ->
  let out := compute_powspec P (wigner_3j L 0 L) st ord wd wr L data rand norm b in
  let obs := objects (wd / wr) data rand in
  o_raw out =
  (RtoC norm * (RtoC (2 * IZR L + 1) * bin_mean_spec (mode_cells st b) (fun k =>
     csum (map (fun o => RtoC (weight_of o) * ylm_pair P L (los_of o) (mode_vec st k) * single st (part_of o) k) obs)
     * Cconj (csum (map (fun o => RtoC (weight_of o) * single st (part_of o) k) obs)) * RtoC (/ win_of st k))))%C /\
  o_shot out =
  (RtoC norm * (RtoC (2 * IZR L + 1) * bin_mean_spec (mode_cells st b) (fun k =>
     csum (map (fun o => RtoC (weight_of o * weight_of o) * ylm_pair P L (los_of o) (mode_vec st k)) obs)
     * RtoC (alias_of st k / win_of st k))))%C /\
  o_count out = INR (length (mode_cells st b)) /\ o_bin out = b_centre b.
Proof.
  intros P st ord wd wr L data rand norm b V HL H HP out obs.
  assert (SW : forall (M : Z) (z : C), (RtoC (sign M) * (RtoC (sign M) * z))%C = z).
  { intros M z. rewrite Cmult_assoc, <- RtoC_mult, sign_sqr. apply Cmult_1_l. }
  split; [|split; [|split]].
  - unfold out, compute_powspec. cbn [o_raw]. f_equal. rewrite order_sum_wigner by exact HL. f_equal.
    rewrite (csum_map_ext _ (fun M => bin_mean_spec (mode_cells st b) (fun k =>
      csum (map (fun o => RtoC (weight_of o) * (reduced_ylm P L M (los_of o) * Cconj (reduced_ylm P L M (mode_vec st k))) * single st (part_of o) k) obs)
      * Cconj (csum (map (fun o => RtoC (weight_of o) * single st (part_of o) k) obs)) * RtoC (/ win_of st k)))%C).
    + rewrite bin_mean_sum. apply bin_mean_ext. intros k _.
      rewrite (csum_map_ext _ (fun M => (Cconj (csum (map (fun o => RtoC (weight_of o) * single st (part_of o) k) obs)) * RtoC (/ win_of st k)) *
        csum (map (fun o => RtoC (weight_of o) * (reduced_ylm P L M (los_of o) * Cconj (reduced_ylm P L M (mode_vec st k))) * single st (part_of o) k) obs))%C)
        by (intros; ring).
      rewrite csum_map_scal, csum_swap.
      rewrite (csum_map_ext (fun o => csum _) (fun o => RtoC (weight_of o) * ylm_pair P L (los_of o) (mode_vec st k) * single st (part_of o) k)%C); [ring|].
      intros o _. unfold ylm_pair.
      replace (RtoC (weight_of o) * csum (map (fun M => reduced_ylm P L M (los_of o) * Cconj (reduced_ylm P L M (mode_vec st k))) (arange (- L) (L + 1))) * single st (part_of o) k)%C
        with ((RtoC (weight_of o) * single st (part_of o) k) * csum (map (fun M => reduced_ylm P L M (los_of o) * Cconj (reduced_ylm P L M (mode_vec st k))) (arange (- L) (L + 1))))%C by ring.
      rewrite <- csum_map_scal. apply csum_map_ext. intros. ring.
    + intros M _. rewrite (proj1 (stats_fourier_exact P st (ord M (- M)%Z) _ _ _ L (- M) b (HP M (- M)%Z))).
      rewrite <- bin_mean_scal. apply bin_mean_ext. intros k _. unfold pk_mode. rewrite !transform_objects by assumption. fold obs.
      fold (mode_vec st k). rewrite ylm_opposite_order.
      rewrite (csum_map_ext (fun o => RtoC (weight_of o) * reduced_ylm P 0 0 (los_of o) * single st (part_of o) k)%C (fun o => RtoC (weight_of o) * single st (part_of o) k)%C)
        by (intros o _; rewrite (proj1 (ylm_special P _)); ring).
      set (B := Cconj (csum _)). set (Y := Cconj (reduced_ylm P L M (mode_vec st k))).
      rewrite (csum_map_ext (fun o => RtoC (weight_of o) * (reduced_ylm P L M (los_of o) * Y) * single st (part_of o) k)%C
        (fun o => Y * (RtoC (weight_of o) * reduced_ylm P L M (los_of o) * single st (part_of o) k))%C) by (intros; ring).
      rewrite csum_map_scal. set (A := csum _).
      replace (RtoC (sign M) * (A * B * RtoC (/ win_of st k) * (RtoC (sign M) * Y)))%C
        with (RtoC (sign M) * (RtoC (sign M) * (Y * A * B * RtoC (/ win_of st k))))%C by ring.
      now rewrite SW.
  - unfold out, compute_powspec. cbn [o_shot]. f_equal. rewrite order_sum_wigner by exact HL. f_equal.
    rewrite (csum_map_ext _ (fun M => bin_mean_spec (mode_cells st b) (fun k =>
      csum (map (fun o => RtoC (weight_of o * weight_of o) * (reduced_ylm P L M (los_of o) * Cconj (reduced_ylm P L M (mode_vec st k)))) obs)
      * RtoC (alias_of st k / win_of st k)))%C).
    + rewrite bin_mean_sum. apply bin_mean_ext. intros k _.
      rewrite (csum_map_ext _ (fun M => RtoC (alias_of st k / win_of st k) *
        csum (map (fun o => RtoC (weight_of o * weight_of o) * (reduced_ylm P L M (los_of o) * Cconj (reduced_ylm P L M (mode_vec st k)))) obs))%C)
        by (intros; ring).
      rewrite csum_map_scal, csum_swap. rewrite Cmult_comm. f_equal. apply csum_map_ext. intros o _. unfold ylm_pair. now rewrite <- csum_map_scal.
    + intros M _. rewrite (proj1 (proj2 (stats_fourier_exact P st (ord M (- M)%Z) _ _ _ L (- M) b (HP M (- M)%Z)))).
      rewrite <- bin_mean_scal. apply bin_mean_ext. intros k _. unfold sn_mode. rewrite shotnoise_objects. fold obs. fold (mode_vec st k).
      rewrite ylm_opposite_order. set (Y := Cconj (reduced_ylm P L M (mode_vec st k))).
      rewrite (csum_map_ext (fun o => RtoC (weight_of o * weight_of o) * (reduced_ylm P L M (los_of o) * Y))%C
        (fun o => Y * (RtoC (weight_of o * weight_of o) * reduced_ylm P L M (los_of o)))%C) by (intros; ring).
      rewrite csum_map_scal. set (A := csum _). unfold Rdiv. rewrite RtoC_mult.
      replace (RtoC (sign M) * (A * RtoC (alias_of st k) * RtoC (/ win_of st k) * (RtoC (sign M) * Y)))%C
        with (RtoC (sign M) * (RtoC (sign M) * (Y * A * (RtoC (alias_of st k) * RtoC (/ win_of st k)))))%C by ring.
      now rewrite SW.
  - unfold out, compute_powspec. cbn [o_count]. apply (stats_fourier_exact P st (ord 0%Z 0%Z)). apply HP.
  - reflexivity.
Qed.

Lemma ylm_pair_0 P u v : ylm_pair P 0 u v = RtoC 1.
Proof.
  unfold ylm_pair. change (arange (- 0) (0 + 1)) with [0%Z]. cbn [map]. rewrite csum_cons, !(proj1 (ylm_special P _)).
  rewrite Cconj_RtoC. cbn. ring.
Qed.
Lemma bin_mean_const cells a : cells <> [] -> bin_mean_spec cells (fun _ => a) = a.
Proof.
  intros N. unfold bin_mean_spec. assert (E : csum (map (fun _ : gcell => a) cells) = (RtoC (INR (length cells)) * a)%C).
  { clear. induction cells as [|c l IH]; [cbn; ring|]. cbn [map]. rewrite csum_cons, IH. cbn [length]. rewrite S_INR, RtoC_plus. ring. }
  rewrite E. assert (INR (length cells) <> 0) by (apply not_0_INR; destruct cells; [congruence|discriminate]).
  replace (RtoC (INR (length cells)) * a * RtoC (/ INR (length cells)))%C with ((RtoC (INR (length cells)) * RtoC (/ INR (length cells))) * a)%C by ring.
  rewrite <- RtoC_mult, Rinv_r by assumption. ring.
Qed.

(** Without interlacing the monopole shot noise is the normalisation times the sum of the
    squared weights, in every bin with modes and for every scheme. *)
Theorem powspec_shot_monopole :
  forall P st ord wd wr data rand norm b, valid (st_mesh st) -> st_interlace st = false -> all_handled st data rand ->
  (forall M m, Permutation (ord M m) (grid_cells (ngrid (st_mesh st)))) -> mode_cells st b <> [] ->
  o_shot (compute_powspec P (wigner_3j 0 0 0) st ord wd wr 0 data rand norm b) =
  RtoC (norm * (total_w2 data + (wd / wr) ^ 2 * total_w2 rand)).
Proof.
  intros P st ord wd wr data rand norm b V I H HP N.
  destruct (powspec_is_mode_average P st ord wd wr 0 data rand norm b V ltac:(lia) H HP) as (_ & -> & _).
  rewrite (bin_mean_ext _ _ (fun _ => RtoC (total_w2 data + (wd / wr) ^ 2 * total_w2 rand))).
  - rewrite bin_mean_const by exact N. replace (2 * 0 + 1) with 1 by ring. rewrite Cmult_1_l, <- RtoC_mult. reflexivity.
  - intros k _. rewrite win_alias by exact I. pose proof (alias_pos st k V I). replace (alias_of st k / alias_of st k) with 1 by (field; lra).
    rewrite Cmult_1_r. rewrite (csum_map_ext _ (fun o => RtoC (weight_of o * weight_of o))) by (intros; rewrite ylm_pair_0; ring).
    unfold objects. rewrite map_app, csum_app, !map_map. unfold weight_of, part_of. cbn [fst snd]. rewrite RtoC_plus. f_equal.
    + unfold total_w2. clear. induction data as [|[v p] l IH]; [reflexivity|]. cbn [map]. rewrite csum_cons, IH, rsum_cons, <- RtoC_plus. cbn [snd]. f_equal. ring.
    + unfold total_w2. clear. induction rand as [|[v p] l IH]; [cbn [map]; rewrite rsum_nil; cbn; f_equal; ring|].
      cbn [map]. rewrite csum_cons, IH, rsum_cons, <- RtoC_plus. cbn [snd]. f_equal. ring.
Qed.

(** The periodic box: amplitudes squared of the sum over particles, the zero mode removed
    (kept at a quarter of [N^2] under interlacing). *)
Theorem box_powspec_is_mode_average :
  forall P st order L ps norm b, sound st -> (st_interlace st = true -> two_cells st) ->
  (forall p, In p ps -> handled st p) -> Permutation order (grid_cells (ngrid (st_mesh st))) ->
  let out := compute_powspec_in_gpp_box P st order L ps norm b in
  let delta k := if cell_eqb k cell0 then RtoC (if st_interlace st then INR (length ps) / 2 else 0)
                 else csum (map (fun p => single st p k) ps) in
  o_raw out = (RtoC norm * (RtoC (2 * IZR L + 1) * bin_mean_spec (mode_cells st b) (fun k =>
     delta k * Cconj (delta k) * RtoC (/ win_of st k) * reduced_ylm P L 0 (mode_vec st k))))%C /\
  o_count out = INR (length (mode_cells st b)).
Proof.
  intros P st order L ps norm b S T H HP out delta. pose proof S as (V & _).
  assert (HS : st_interlace st = true -> two_cells st /\ forall p, In p ps -> shadow_handles (st_scheme st) (st_mesh st) (unit_particle p)).
  { intros I. split; [now apply T|]. intros p Hp. exact (proj2 (H p Hp) I). }
  destruct (fluctuation_modes st ps S (fun p Hp => proj1 (H p Hp)) HS) as [M0 Z0].
  assert (D : forall k, grid_cell (ngrid (st_mesh st)) k -> transform st (fluctuation_field st ps) k = delta k).
  { intros k Hk. unfold delta. destruct (cell_eqb_spec k cell0) as [->|N]; [exact Z0|]. rewrite M0 by assumption.
    rewrite (transform_sum st ps (fun _ => RtoC 1) (fun p => p) (unweighted_field st ps) k V).
    - apply csum_map_ext. intros. ring.
    - exact H.
    - intros x Hx. unfold unweighted_field at 1. rewrite main_value; [|exact V| |exact Hx].
      + rewrite map_map. apply csum_map_ext. intros p Hp. rewrite unit_main by (try assumption; now apply H).
        reflexivity.
      + intros q Hq. apply in_map_iff in Hq. destruct Hq as (p & <- & Hp). exact (proj1 (H p Hp)).
    - intros I x Hx. unfold unweighted_field at 1. rewrite shadow_value; [|exact V| |exact Hx].
      + rewrite map_map. apply csum_map_ext. intros p Hp. rewrite unit_shadow by (try assumption; now apply H).
        reflexivity.
      + intros q Hq. apply in_map_iff in Hq. destruct Hq as (p & <- & Hp). exact (proj2 (H p Hp) I). }
  split.
  - unfold out, compute_powspec_in_gpp_box. cbn [o_raw]. f_equal. rewrite plus_IZR, mult_IZR. f_equal.
    rewrite (proj1 (stats_fourier_exact P st order _ _ _ L 0 b HP)). apply bin_mean_ext. intros k Hk.
    unfold mode_cells, counted in Hk. apply filter_In in Hk. destruct Hk as [Hk _]. apply In_grid_cells in Hk.
    unfold pk_mode. rewrite D by exact Hk. reflexivity.
  - unfold out, compute_powspec_in_gpp_box. cbn [o_count]. apply (stats_fourier_exact P st order). exact HP.
Qed.

(** The coordinates reported with the statistics: bin centre, number of cells and their
    mean length, the centre standing in for an empty bin. *)
Definition mean_or (dflt : R) (len : gcell -> R) (cells : list gcell) : R :=
  if (length cells =? 0)%nat then dflt else rsum (map len cells) / INR (length cells).
Lemma fourier_coord P st order fa fb amp l m b : Permutation order (grid_cells (ngrid (st_mesh st))) ->
  s_coord (stats_fourier P st order fa fb amp l m b) = mean_or (b_centre b) (mode_len st) (mode_cells st b).
Proof.
  intros H. unfold stats_fourier.
  pose proof (fine_binning_exact dk_sample (ngrid (st_mesh st)) (b_lo b) (b_hi b) (b_centre b) (mode_len st) (mode_len st) order
    dk_pos (fun c _ => vec_mod_nonneg _) H) as E. cbv zeta in E. unfold mode_len at 1 2 in E. rewrite E. reflexivity.
Qed.
Lemma config_coord P st order fa fb amp l m b : Permutation order (grid_cells (ngrid (st_mesh st))) ->
  s_coord (stats_config P st order fa fb amp l m b) = mean_or (b_centre b) (sep_len st) (sep_cells st b).
Proof.
  intros H. unfold stats_config.
  pose proof (fine_binning_exact dr_sample (ngrid (st_mesh st)) (b_lo b) (b_hi b) (b_centre b) (sep_len st) (sep_len st) order
    dr_pos (fun c _ => vec_mod_nonneg _) H) as E. cbv zeta in E. unfold sep_len at 1 2 in E. rewrite E. reflexivity.
Qed.

Theorem twopt_coordinates :
  forall P w st ord order wd wr L data rand ps alpha norm b,
  (forall M m, Permutation (ord M m) (grid_cells (ngrid (st_mesh st)))) -> Permutation order (grid_cells (ngrid (st_mesh st))) ->
  let k_coords out := o_bin out = b_centre b /\ o_count out = INR (length (mode_cells st b)) /\
                      o_coord out = mean_or (b_centre b) (mode_len st) (mode_cells st b) in
  let r_coords out := o_bin out = b_centre b /\ o_count out = INR (length (sep_cells st b)) /\
                      o_coord out = mean_or (b_centre b) (sep_len st) (sep_cells st b) /\ o_shot out = RtoC 0 in
  k_coords (compute_powspec P w st ord wd wr L data rand norm b) /\
  k_coords (compute_powspec_in_gpp_box P st order L ps norm b) /\
  r_coords (compute_corrfunc P w st ord wd wr L data rand norm b) /\
  r_coords (compute_corrfunc_in_gpp_box P st order L ps norm b) /\
  r_coords (compute_corrfunc_window P w st ord L rand alpha norm b).
Proof.
  intros P w st ord order wd wr L data rand ps alpha norm b HP HO k_coords r_coords. unfold k_coords, r_coords.
  unfold compute_powspec, compute_powspec_in_gpp_box, compute_corrfunc, compute_corrfunc_in_gpp_box, compute_corrfunc_window.
  cbn [o_bin o_count o_coord o_shot].
  split; [|split; [|split; [|split]]].
  - split; [reflexivity|]. split; [apply (stats_fourier_exact P st _ _ _ _ _ _ b (HP 0%Z 0%Z))|apply fourier_coord, HP].
  - split; [reflexivity|]. split; [apply (stats_fourier_exact P st _ _ _ _ _ _ b HO)|apply fourier_coord, HO].
  - split; [reflexivity|]. split; [apply (stats_config_exact P st _ _ _ _ _ _ b (HP 0%Z 0%Z))|split; [apply config_coord, HP|reflexivity]].
  - split; [reflexivity|]. split; [apply (stats_config_exact P st _ _ _ _ _ _ b HO)|split; [apply config_coord, HO|reflexivity]].
  - split; [reflexivity|]. split; [apply (stats_config_exact P st _ _ _ _ _ _ b (HP 0%Z 0%Z))|split; [apply config_coord, HP|reflexivity]].
Qed.

(** The mean of a bin that is not empty lies in the bin, up to the sampling step. *)
Theorem mean_in_bin :
  forall st b dflt, (mode_cells st b <> [] -> b_lo b <= mean_or dflt (mode_len st) (mode_cells st b) < b_hi b + dk_sample) /\
  (sep_cells st b <> [] -> b_lo b <= mean_or dflt (sep_len st) (sep_cells st b) < b_hi b + dr_sample).
Proof.
  assert (A : forall (len : gcell -> R) lo hi l, l <> [] -> (forall c, In c l -> lo <= len c < hi) ->
    lo <= rsum (map len l) / INR (length l) < hi).
  { intros len lo hi l N H.
    assert (B : INR (length l) * lo <= rsum (map len l) /\ rsum (map len l) < INR (length l) * hi).
    { clear - N H. induction l as [|c l IH]; [congruence|]. cbn [map length]. rewrite rsum_cons, S_INR.
      destruct (H c (or_introl eq_refl)). destruct l as [|c' l].
      - cbn. lra.
      - destruct IH; [discriminate|intros; apply H; now right|]. lra. }
    assert (P : 0 < INR (length l)) by (apply lt_0_INR; destruct l; [congruence|cbn; lia]).
    assert (E : rsum (map len l) = INR (length l) * (rsum (map len l) / INR (length l))) by (field; lra).
    set (m := rsum (map len l) / INR (length l)) in *. rewrite E in B. clearbody m. destruct B as [B1 B2].
    apply Rmult_le_reg_l in B1; [|exact P]. apply Rmult_lt_reg_l in B2; [|exact P]. lra. }
  intros st b dflt. unfold mean_or. split; intros N.
  - destruct (length (mode_cells st b) =? 0)%nat eqn:Z; [apply Nat.eqb_eq, length_zero_iff_nil in Z; contradiction|].
    apply A; [exact N|]. intros c Hc. assert (G := Hc). unfold mode_cells, counted in G. apply filter_In in G. destruct G as [G _].
    exact (proj1 (proj1 (fine_binning_tolerance dk_sample (b_lo b) (b_hi b) (mode_len st) _ c dk_pos G) Hc)).
  - destruct (length (sep_cells st b) =? 0)%nat eqn:Z; [apply Nat.eqb_eq, length_zero_iff_nil in Z; contradiction|].
    apply A; [exact N|]. intros c Hc. assert (G := Hc). unfold sep_cells, counted in G. apply filter_In in G. destruct G as [G _].
    exact (proj1 (proj1 (fine_binning_tolerance dr_sample (b_lo b) (b_hi b) (sep_len st) _ c dr_pos G) Hc)).
Qed.

(** Box shot noise. *)
Theorem box_powspec_shot :
  forall P st order L ps norm b, Permutation order (grid_cells (ngrid (st_mesh st))) ->
  o_shot (compute_powspec_in_gpp_box P st order L ps norm b) =
  (RtoC norm * (RtoC (2 * IZR L + 1) * bin_mean_spec (mode_cells st b) (fun k =>
     RtoC (INR (length ps) * (alias_of st k / win_of st k)) * reduced_ylm P L 0 (mode_vec st k))))%C.
Proof.
  intros P st order L ps norm b HP. unfold compute_powspec_in_gpp_box. cbn [o_shot]. f_equal. rewrite plus_IZR, mult_IZR. f_equal.
  rewrite (proj1 (proj2 (stats_fourier_exact P st order _ _ _ L 0 b HP))). apply bin_mean_ext. intros k _.
  unfold sn_mode, Rdiv. rewrite !RtoC_mult. unfold mode_vec. ring.
Qed.

(** ** C74: reality and parity *)
Lemma win_nonneg st k : valid (st_mesh st) -> 0 <= / win_of st k.
Proof.
  intros V. destruct (st_interlace st) eqn:I.
  - destruct k as [[i j] l]. unfold win_of. rewrite I. set (w := window_direct _ _ _ _ _).
    destruct (Req_dec w 0) as [->|N]; [rewrite Rmult_0_l, Rinv_0; lra|]. left. apply Rinv_0_lt_compat. nra.
  - rewrite win_alias by exact I. pose proof (alias_pos st k V I). left. apply Rinv_0_lt_compat. lra.
Qed.
Lemma csum_nonneg {A} (f : A -> C) l : (forall a, In a l -> 0 <= fst (f a) /\ snd (f a) = 0) ->
  0 <= fst (csum (map f l)) /\ snd (csum (map f l)) = 0.
Proof.
  induction l as [|a l IH]; intros H; [cbn; lra|]. cbn [map]. rewrite csum_cons. cbn [fst snd Cplus].
  destruct (H a (or_introl eq_refl)), IH; [intros; apply H; now right|]. cbn. lra.
Qed.
Lemma bin_mean_nonneg cells f : (forall c, In c cells -> 0 <= fst (f c) /\ snd (f c) = 0) ->
  0 <= fst (bin_mean_spec cells f) /\ snd (bin_mean_spec cells f) = 0.
Proof.
  intros H. destruct (csum_nonneg f cells H) as [A B]. unfold bin_mean_spec, Cmult, RtoC. cbn [fst snd]. rewrite B. split; [|ring].
  assert (0 <= / INR (length cells)).
  { destruct (length cells) as [|n] eqn:E; [cbn; rewrite Rinv_0; lra|]. left. apply Rinv_0_lt_compat. apply lt_0_INR. lia. }
  nra.
Qed.
Lemma Cmult_conj z : (z * Cconj z)%C = RtoC (fst z * fst z + snd z * snd z).
Proof. destruct z as [x y]. unfold Cmult, Cconj, RtoC. cbn. f_equal; ring. Qed.

Lemma nonneg_scal n z : 0 <= n -> 0 <= fst z /\ snd z = 0 -> 0 <= fst (RtoC n * z)%C /\ snd (RtoC n * z)%C = 0.
Proof. intros Hn [A B]. unfold Cmult, RtoC. cbn [fst snd]. rewrite B. split; nra. Qed.

(** Monopoles of raw power are real and not negative, for boxes and surveys. *)
Theorem powspec_monopole_positive :
  forall P st ord wd wr data rand norm b, valid (st_mesh st) -> all_handled st data rand -> 0 <= norm ->
  (forall M m, Permutation (ord M m) (grid_cells (ngrid (st_mesh st)))) ->
  let p := o_raw (compute_powspec P (wigner_3j 0 0 0) st ord wd wr 0 data rand norm b) in 0 <= fst p /\ snd p = 0.
Proof.
  intros P st ord wd wr data rand norm b V H Hn HP p.
  destruct (powspec_is_mode_average P st ord wd wr 0 data rand norm b V ltac:(lia) H HP) as (E & _). unfold p. rewrite E.
  replace (2 * 0 + 1) with 1 by ring. rewrite Cmult_1_l.
  apply nonneg_scal; [exact Hn|]. apply bin_mean_nonneg. intros k _. rewrite (csum_map_ext (fun o => RtoC (weight_of o) * ylm_pair P 0 (los_of o) (mode_vec st k) * single st (part_of o) k)%C
      (fun o => RtoC (weight_of o) * single st (part_of o) k)%C) by (intros; rewrite ylm_pair_0; ring).
    rewrite Cmult_conj. rewrite <- RtoC_mult. cbn [fst snd RtoC]. split; [|reflexivity].
    apply Rmult_le_pos; [nra|now apply win_nonneg].
Qed.
Theorem box_powspec_monopole_positive :
  forall P st order ps norm b, valid (st_mesh st) -> 0 <= norm -> Permutation order (grid_cells (ngrid (st_mesh st))) ->
  let p := o_raw (compute_powspec_in_gpp_box P st order 0 ps norm b) in 0 <= fst p /\ snd p = 0.
Proof.
  intros P st order ps norm b V Hn HP p. unfold p, compute_powspec_in_gpp_box. cbn [o_raw].
  rewrite (proj1 (stats_fourier_exact P st order _ _ _ 0 0 b HP)). change (IZR (2 * 0 + 1)) with 1. rewrite Cmult_1_l.
  apply nonneg_scal; [exact Hn|]. apply bin_mean_nonneg. intros k _. rewrite (proj1 (ylm_special P _)), Cmult_1_r. unfold pk_mode. rewrite Cmult_conj, <- RtoC_mult. cbn [fst snd RtoC].
    split; [|reflexivity]. apply Rmult_le_pos; [nra|now apply win_nonneg].
Qed.

(** Bins all of whose modes lie below the Nyquist frequency on every axis, and off or on
    the polar axis by the code's tolerance. *)
Definition below_nyquist_bin (st : settings) (b : bin3) : Prop :=
  forall c, In c (mode_cells st b) -> interior (ngrid (st_mesh st)) c /\ off_axis (mode_vec st c).

Lemma mode_cells_grid st b c : In c (mode_cells st b) -> grid_cell (ngrid (st_mesh st)) c.
Proof. intros H. unfold mode_cells, counted in H. apply filter_In in H. now apply In_grid_cells. Qed.
Lemma mode_cells_neg st b c : grid_pos (ngrid (st_mesh st)) -> below_nyquist_bin st b -> In c (mode_cells st b) ->
  In (neg_cell (ngrid (st_mesh st)) c) (mode_cells st b).
Proof.
  intros G N H. destruct (N c H) as [I _]. pose proof (mode_cells_grid st b c H) as Hc.
  unfold mode_cells, counted in *. apply filter_In in H. destruct H as [_ H]. apply filter_In. split.
  - apply In_grid_cells. now apply neg_cell_grid.
  - unfold mode_len in *. now rewrite wavevector_neg, vec_mod_opp.
Qed.
Lemma mode_cells_NoDup st b : NoDup (mode_cells st b).
Proof. unfold mode_cells, counted. apply NoDup_filter, NoDup_grid_cells. Qed.

Lemma interlace_frac_shift n i : (0 < n)%Z -> interlace_frac n i = IZR (shift_index n i) / IZR n.
Proof.
  intros H. assert (0 < IZR n) by (apply IZR_lt; exact H). unfold interlace_frac, shift_index. destruct (i <? n / 2)%Z; [reflexivity|].
  rewrite minus_IZR. field. lra.
Qed.
Lemma interlace_arg_neg ng c : grid_pos ng -> grid_cell ng c -> interior ng c -> interlace_arg ng (neg_cell ng c) = - interlace_arg ng c.
Proof.
  destruct c as [[i j] k]. intros (H0 & H1 & H2) (G0 & G1 & G2) (N0 & N1 & N2). unfold interlace_arg, neg_cell.
  rewrite !interlace_frac_shift by assumption. rewrite !shift_neg by assumption. rewrite !opp_IZR. unfold Rdiv. ring.
Qed.

(** The transform of a particle at the opposite mode. *)
Lemma single_neg st p c : valid (st_mesh st) -> handled st p -> grid_cell (ngrid (st_mesh st)) c -> interior (ngrid (st_mesh st)) c ->
  single st p (neg_cell (ngrid (st_mesh st)) c) = Cconj (single st p c).
Proof.
  intros V H Hc Ic. pose proof (valid_grid _ V) as G. unfold single, transform.
  assert (HM : forall c, fourier (ngrid (st_mesh st)) (vol_cell (st_mesh st)) (f_main (unweighted_field st [p])) c =
    fourier (ngrid (st_mesh st)) (vol_cell (st_mesh st)) (fun x => RtoC (share cells grid_loc (st_scheme st) (st_mesh st) (p_pos p) x / vol_cell (st_mesh st))) c)
    by (intros; apply fourier_grid; intros; now apply unit_main).
  assert (HH : forall f : gcell -> R, fourier (ngrid (st_mesh st)) (vol_cell (st_mesh st)) (fun x => RtoC (f x)) (neg_cell (ngrid (st_mesh st)) c) =
    Cconj (fourier (ngrid (st_mesh st)) (vol_cell (st_mesh st)) (fun x => RtoC (f x)) c))
    by (intros f; apply (fourier_hermitian _ _ _ G); [intros; apply Cconj_RtoC|exact Hc]).
  rewrite !HM, HH.
  destruct (st_interlace st) eqn:I; [|reflexivity].
  assert (HS : forall c, fourier (ngrid (st_mesh st)) (vol_cell (st_mesh st)) (f_shadow (unweighted_field st [p])) c =
    fourier (ngrid (st_mesh st)) (vol_cell (st_mesh st)) (fun x => RtoC (share cells_shadow grid_loc_shadow (st_scheme st) (st_mesh st) (p_pos p) x / vol_cell (st_mesh st))) c)
    by (intros; apply fourier_grid; intros; now apply unit_shadow).
  rewrite !HS, HH.
  rewrite interlace_arg_neg by assumption. rewrite cis_opp. now rewrite !Cconj_mult, Cconj_plus, !Cconj_mult, Cconj_RtoC.
Qed.

Lemma alias_sin2_neg n i : (0 <= i < n)%Z -> below_nyquist n i -> alias_sin2 n (neg_index n i) = alias_sin2 n i.
Proof.
  intros H N. unfold alias_sin2. rewrite shift_neg by assumption.
  replace (- shift_index n i =? 0)%Z with (shift_index n i =? 0)%Z by (destruct (Z.eqb_spec (shift_index n i) 0), (Z.eqb_spec (- shift_index n i) 0); lia).
  destruct (_ =? 0)%Z; [reflexivity|]. rewrite opp_IZR. replace (PI * - IZR (shift_index n i) / IZR n) with (- (PI * IZR (shift_index n i) / IZR n)) by (unfold Rdiv; ring).
  rewrite sin_neg. ring.
Qed.
Lemma win_neg st c : valid (st_mesh st) -> grid_cell (ngrid (st_mesh st)) c -> interior (ngrid (st_mesh st)) c ->
  win_of st (neg_cell (ngrid (st_mesh st)) c) = win_of st c.
Proof.
  intros V Hc Ic. pose proof (valid_grid _ V) as G. destruct c as [[i j] k]. pose proof Hc as (H0 & H1 & H2). pose proof Ic as (N0 & N1 & N2).
  unfold win_of, neg_cell. destruct (st_interlace st) eqn:I.
  - rewrite window_neg by (try assumption; now left). reflexivity.
  - unfold alias_of. rewrite I. unfold calc_alias. now rewrite !alias_sin2_neg.
Qed.

Lemma arange_opp L (f : Z -> C) : csum (map (fun M => f (- M)%Z) (arange (- L) (L + 1))) = csum (map f (arange (- L) (L + 1))).
Proof.
  rewrite <- (map_map Z.opp f). apply csum_perm, Permutation_map. apply NoDup_Permutation.
  - apply FinFun.Injective_map_NoDup; [intros a b; lia|apply NoDup_arange].
  - apply NoDup_arange.
  - intros M. rewrite in_map_iff. split.
    + intros (m & <- & H). apply In_arange in H. apply In_arange. lia.
    + intros H. exists (- M)%Z. split; [lia|]. apply In_arange in H. apply In_arange. lia.
Qed.
Lemma ylm_pair_real P L u v : Cconj (ylm_pair P L u v) = ylm_pair P L u v.
Proof.
  unfold ylm_pair. rewrite csum_conj, map_map. rewrite <- arange_opp. apply csum_map_ext. intros M _.
  rewrite !ylm_opposite_order, !Cconj_mult, !Cconj_RtoC, !Cconj_inv.
  replace (RtoC (sign M) * reduced_ylm P L M u * (RtoC (sign M) * Cconj (reduced_ylm P L M v)))%C
    with ((RtoC (sign M) * RtoC (sign M)) * (reduced_ylm P L M u * Cconj (reduced_ylm P L M v)))%C by ring.
  rewrite <- RtoC_mult, sign_sqr. ring.
Qed.
Lemma ylm_pair_neg P L u v : legendre_like P -> off_axis v -> ylm_pair P L u (opp3 v) = (RtoC (sign L) * ylm_pair P L u v)%C.
Proof.
  intros HP Hv. unfold ylm_pair. rewrite <- csum_map_scal. apply csum_map_ext. intros M HM. apply In_arange in HM.
  rewrite ylm_parity by (try assumption; lia). rewrite Cconj_mult, Cconj_RtoC. ring.
Qed.

Lemma bin_mean_parity st b f s : grid_pos (ngrid (st_mesh st)) -> below_nyquist_bin st b ->
  (forall c, In c (mode_cells st b) -> f (neg_cell (ngrid (st_mesh st)) c) = (RtoC s * Cconj (f c))%C) ->
  bin_mean_spec (mode_cells st b) f = (RtoC s * Cconj (bin_mean_spec (mode_cells st b) f))%C.
Proof.
  intros G N H. unfold bin_mean_spec. rewrite Cconj_mult, Cconj_RtoC, csum_conj, map_map, Cmult_assoc, <- csum_map_scal. f_equal.
  rewrite <- (csum_neg (ngrid (st_mesh st)) (mode_cells st b) f (mode_cells_NoDup st b) (mode_cells_grid st b) (fun c => mode_cells_neg st b c G N)).
  apply csum_map_ext. exact H.
Qed.

(** Below the Nyquist frequency, even survey multipoles are real and odd ones imaginary. *)
Theorem powspec_parity :
  forall P st ord wd wr L data rand norm b, valid (st_mesh st) -> (0 <= L)%Z -> legendre_like P -> all_handled st data rand ->
  (forall M m, Permutation (ord M m) (grid_cells (ngrid (st_mesh st)))) -> below_nyquist_bin st b ->
  let p := o_raw (compute_powspec P (wigner_3j L 0 L) st ord wd wr L data rand norm b) in
  (Z.Even L -> snd p = 0) /\ (Z.Odd L -> fst p = 0).
Proof.
  intros P st ord wd wr L data rand norm b V HL LP H HP N p. pose proof (valid_grid _ V) as G.
  assert (E : p = (RtoC (sign L) * Cconj p)%C).
  { unfold p. destruct (powspec_is_mode_average P st ord wd wr L data rand norm b V HL H HP) as (-> & _).
    set (f := fun k : gcell => _). rewrite (bin_mean_parity st b f (sign L) G N) at 1.
    - rewrite !Cconj_mult, !Cconj_RtoC. ring.
    - intros c Hc. destruct (N c Hc) as [Ic Oc]. pose proof (mode_cells_grid st b c Hc) as Gc. unfold f.
      assert (VN : mode_vec st (neg_cell (ngrid (st_mesh st)) c) = opp3 (mode_vec st c)) by now apply wavevector_neg.
      rewrite win_neg by assumption. rewrite VN.
      rewrite !Cconj_mult, Cconj_RtoC, Cconj_inv. rewrite !csum_conj, !map_map. rewrite Cmult_assoc. f_equal. rewrite Cmult_assoc. f_equal.
      + rewrite <- csum_map_scal. apply csum_map_ext. intros o Ho. apply (In_objects st) in Ho; [|exact H].
        rewrite ylm_pair_neg by assumption. rewrite single_neg by assumption. rewrite !Cconj_mult, Cconj_RtoC, ylm_pair_real. ring.
      + apply csum_map_ext. intros o Ho. apply (In_objects st) in Ho; [|exact H].
        rewrite single_neg by assumption. rewrite Cconj_mult, Cconj_inv, Cconj_RtoC. reflexivity. }
  clearbody p. destruct p as [x y]. unfold RtoC, Cconj, Cmult in E. cbn [fst snd] in *. injection E as E1 E2. split; intros (q & ->).
  - rewrite sign_even in E2. lra.
  - rewrite sign_plus, sign_even, sign_1 in E1. lra.
Qed.

(** Odd multipoles of a box vanish below the Nyquist frequency. *)
Theorem box_powspec_odd_vanish :
  forall P st order L ps norm b, sound st -> (st_interlace st = true -> two_cells st) -> Z.Odd L -> (0 <= L)%Z -> legendre_like P ->
  (forall p, In p ps -> handled st p) -> Permutation order (grid_cells (ngrid (st_mesh st))) -> below_nyquist_bin st b ->
  o_raw (compute_powspec_in_gpp_box P st order L ps norm b) = RtoC 0.
Proof.
  intros P st order L ps norm b S T OL HL LP H HP N. pose proof S as (V & _). pose proof (valid_grid _ V) as G.
  destruct (box_powspec_is_mode_average P st order L ps norm b S T H HP) as (-> & _).
  set (f := fun k : gcell => _).
  assert (FR : forall c, Cconj (f c) = f c).
  { intros c. unfold f. set (d := (if cell_eqb c cell0 then _ else _)). rewrite !Cconj_mult, Cconj_RtoC, Cconj_inv.
    assert (Y : Cconj (reduced_ylm P L 0 (mode_vec st c)) = reduced_ylm P L 0 (mode_vec st c)).
    { pose proof (ylm_opposite_order P L 0 (mode_vec st c)) as Q. change (- 0)%Z with 0%Z in Q. rewrite sign_0, Cmult_1_l in Q. now symmetry. }
    rewrite Y. ring. }
  assert (E : bin_mean_spec (mode_cells st b) f = (RtoC (sign L) * Cconj (bin_mean_spec (mode_cells st b) f))%C).
  { apply bin_mean_parity; [exact G|exact N|]. intros c Hc. rewrite FR.
    destruct (N c Hc) as [Ic Oc]. pose proof (mode_cells_grid st b c Hc) as Gc. unfold f.
    assert (VN : mode_vec st (neg_cell (ngrid (st_mesh st)) c) = opp3 (mode_vec st c)) by now apply wavevector_neg.
    rewrite win_neg by assumption. rewrite VN. rewrite ylm_parity by (try assumption; lia).
    assert (C0 : cell_eqb (neg_cell (ngrid (st_mesh st)) c) cell0 = cell_eqb c cell0).
    { destruct (cell_eqb_spec (neg_cell (ngrid (st_mesh st)) c) cell0) as [E0|E0], (cell_eqb_spec c cell0) as [E1|E1]; try reflexivity.
      - exfalso. apply E1. rewrite <- (neg_cell_inv (ngrid (st_mesh st)) c Gc), E0. reflexivity.
      - exfalso. apply E0. rewrite E1. reflexivity. }
    rewrite C0. destruct (cell_eqb c cell0).
    - rewrite Cconj_RtoC. ring.
    - rewrite (csum_map_ext (fun p => single st p (neg_cell (ngrid (st_mesh st)) c)) (fun p => Cconj (single st p c)))
        by (intros p Hp; apply single_neg; auto).
      rewrite <- (map_map (fun p => single st p c) Cconj), <- csum_conj, Cconj_inv. ring. }
  assert (B : Cconj (bin_mean_spec (mode_cells st b) f) = bin_mean_spec (mode_cells st b) f).
  { unfold bin_mean_spec. rewrite Cconj_mult, Cconj_RtoC, csum_conj, map_map. f_equal. apply csum_map_ext. intros. apply FR. }
  rewrite B in E. destruct OL as (q & ->). rewrite sign_plus, sign_even, sign_1 in E.
  assert (Z0 : bin_mean_spec (mode_cells st b) f = RtoC 0).
  { destruct (bin_mean_spec (mode_cells st b) f) as [x y]. unfold Cmult, RtoC in *. cbn [fst snd] in *. injection E as E1 E2. f_equal; lra. }
  rewrite Z0. ring.
Qed.

(** ** C75: order of the catalogues and scale of the weights *)
Lemma objects_perm alpha data data' rand rand' : Permutation data data' -> Permutation rand rand' ->
  Permutation (objects alpha data rand) (objects alpha data' rand').
Proof. intros A B. unfold objects. apply Permutation_app; now apply Permutation_map. Qed.

Theorem powspec_catalogue_order :
  forall P st ord ord' wd wr L data data' rand rand' norm b, valid (st_mesh st) -> (0 <= L)%Z -> all_handled st data rand ->
  (forall M m, Permutation (ord M m) (grid_cells (ngrid (st_mesh st)))) ->
  (forall M m, Permutation (ord' M m) (grid_cells (ngrid (st_mesh st)))) ->
  Permutation data data' -> Permutation rand rand' ->
  let out d r o := compute_powspec P (wigner_3j L 0 L) st o wd wr L d r norm b in
  o_raw (out data rand ord) = o_raw (out data' rand' ord') /\ o_shot (out data rand ord) = o_shot (out data' rand' ord').
Proof.
  intros P st ord ord' wd wr L data data' rand rand' norm b V HL H HP HP' A B out.
  assert (H' : all_handled st data' rand').
  { destruct H as [H1 H2]. split; intros vp Hv; [apply H1|apply H2]; (eapply Permutation_in; [apply Permutation_sym; eassumption|exact Hv]). }
  destruct (powspec_is_mode_average P st ord wd wr L data rand norm b V HL H HP) as (E1 & E2 & _).
  destruct (powspec_is_mode_average P st ord' wd wr L data' rand' norm b V HL H' HP') as (E1' & E2' & _).
  unfold out. rewrite E1, E2, E1', E2'. pose proof (objects_perm (wd / wr) _ _ _ _ A B) as Q.
  split; f_equal; f_equal; apply bin_mean_ext; intros k _.
  - f_equal. f_equal; [|f_equal]; apply csum_perm; now apply Permutation_map.
  - f_equal. apply csum_perm; now apply Permutation_map.
Qed.

(** All weights (and so their sums) times [s]: power and shot noise times [s^2]. *)
Definition scale_weight (s : R) (vp : (R * R * R) * pdatum) : (R * R * R) * pdatum :=
  (fst vp, PDatum (p_pos (snd vp)) (p_nz (snd vp)) (p_ws (snd vp)) (p_wc (snd vp)) (s * p_w (snd vp))).
Lemma handled_pos st p p' : p_pos p' = p_pos p -> handled st p -> handled st p'.
Proof. intros E (A & B). unfold handled, inside_box, in_box, shadow_handles, loc0, loc1, loc2 in *. unfold unit_particle in *. now rewrite E. Qed.
Lemma single_pos st p p' c : p_pos p' = p_pos p -> single st p' c = single st p c.
Proof. intros E. unfold single, unweighted_field. cbn [map]. unfold unit_particle. now rewrite E. Qed.

Theorem powspec_weight_scale :
  forall P st ord wd wr L data rand norm b s, valid (st_mesh st) -> (0 <= L)%Z -> all_handled st data rand -> s <> 0 ->
  (forall M m, Permutation (ord M m) (grid_cells (ngrid (st_mesh st)))) ->
  let out a c d r := compute_powspec P (wigner_3j L 0 L) st ord a c L d r norm b in
  o_raw (out (s * wd) (s * wr) (map (scale_weight s) data) (map (scale_weight s) rand)) = (RtoC (s ^ 2) * o_raw (out wd wr data rand))%C /\
  o_shot (out (s * wd) (s * wr) (map (scale_weight s) data) (map (scale_weight s) rand)) = (RtoC (s ^ 2) * o_shot (out wd wr data rand))%C.
Proof.
  intros P st ord wd wr L data rand norm b s V HL H Hs HP out.
  assert (H' : all_handled st (map (scale_weight s) data) (map (scale_weight s) rand)).
  { destruct H as [H1 H2]. split; intros vp Hv; apply in_map_iff in Hv; destruct Hv as (q & <- & Hq);
      (eapply handled_pos; [|first [exact (H1 q Hq)|exact (H2 q Hq)]]; reflexivity). }
  destruct (powspec_is_mode_average P st ord wd wr L data rand norm b V HL H HP) as (E1 & E2 & _).
  destruct (powspec_is_mode_average P st ord (s * wd) (s * wr) L _ _ norm b V HL H' HP) as (E1' & E2' & _).
  unfold out. rewrite E1, E2, E1', E2'.
  assert (A : s * wd / (s * wr) = wd / wr).
  { unfold Rdiv. destruct (Req_dec wr 0) as [->|N]; [rewrite Rmult_0_r, Rinv_0; ring|]. field. split; assumption. }
  rewrite A.
  set (sc := fun o : object => (scale_weight s (fst o), snd o)).
  assert (O : objects (wd / wr) (map (scale_weight s) data) (map (scale_weight s) rand) = map sc (objects (wd / wr) data rand)).
  { unfold objects. rewrite map_app, !map_map. reflexivity. }
  rewrite O. set (obs := objects (wd / wr) data rand).
  assert (W : forall o, weight_of (sc o) = s * weight_of o) by (intros [[v p] t]; unfold weight_of, sc, part_of; cbn; ring).
  assert (SG : forall o k, single st (part_of (sc o)) k = single st (part_of o) k) by (intros; now apply single_pos).
  assert (X1 : forall g : object -> C, (forall o, In o obs -> g (sc o) = (RtoC s * g o)%C) ->
    csum (map g (map sc obs)) = (RtoC s * csum (map g obs))%C).
  { intros g Hg. rewrite map_map, <- csum_map_scal. now apply csum_map_ext. }
  split.
  - replace (RtoC (s ^ 2) * (RtoC norm * (RtoC (2 * IZR L + 1) * bin_mean_spec (mode_cells st b) (fun k =>
       csum (map (fun o => RtoC (weight_of o) * ylm_pair P L (los_of o) (mode_vec st k) * single st (part_of o) k) obs)
       * Cconj (csum (map (fun o => RtoC (weight_of o) * single st (part_of o) k) obs)) * RtoC (/ win_of st k)))))%C
    with (RtoC norm * (RtoC (2 * IZR L + 1) * (RtoC (s ^ 2) * bin_mean_spec (mode_cells st b) (fun k =>
       csum (map (fun o => RtoC (weight_of o) * ylm_pair P L (los_of o) (mode_vec st k) * single st (part_of o) k) obs)
       * Cconj (csum (map (fun o => RtoC (weight_of o) * single st (part_of o) k) obs)) * RtoC (/ win_of st k)))))%C by ring.
    f_equal. f_equal. rewrite <- bin_mean_scal. apply bin_mean_ext. intros k _.
    rewrite !X1.
    + rewrite Cconj_mult, Cconj_RtoC. replace (s ^ 2) with (s * s) by ring. rewrite RtoC_mult. ring.
    + intros o _. rewrite W, SG, RtoC_mult. ring.
    + intros o _. rewrite W, SG, RtoC_mult. change (los_of (sc o)) with (los_of o). ring.
  - replace (RtoC (s ^ 2) * (RtoC norm * (RtoC (2 * IZR L + 1) * bin_mean_spec (mode_cells st b) (fun k =>
       csum (map (fun o => RtoC (weight_of o * weight_of o) * ylm_pair P L (los_of o) (mode_vec st k)) obs)
       * RtoC (alias_of st k / win_of st k)))))%C
    with (RtoC norm * (RtoC (2 * IZR L + 1) * (RtoC (s ^ 2) * bin_mean_spec (mode_cells st b) (fun k =>
       csum (map (fun o => RtoC (weight_of o * weight_of o) * ylm_pair P L (los_of o) (mode_vec st k)) obs)
       * RtoC (alias_of st k / win_of st k)))))%C by ring.
    f_equal. f_equal. rewrite <- bin_mean_scal. apply bin_mean_ext. intros k _. rewrite Cmult_assoc. f_equal.
    rewrite map_map, <- csum_map_scal. apply csum_map_ext. intros o _. rewrite W. change (los_of (sc o)) with (los_of o).
    replace (s * weight_of o * (s * weight_of o)) with (s ^ 2 * (weight_of o * weight_of o)) by ring. rewrite RtoC_mult. ring.
Qed.

(** ** C76: what interlacing removes *)

(** A plane wave with integer wave numbers [q] per box side, sampled at the cells and at
    half a cell before them, as the main and the shadow mesh do. *)
Definition plane_wave (ng : triple Z) (q : gcell) (x : triple R) : C :=
  let '(a, b, c) := q in
  cis (2 * PI * (IZR a * ax0 x / IZR (ax0 ng) + IZR b * ax1 x / IZR (ax1 ng) + IZR c * ax2 x / IZR (ax2 ng))).
Definition sampled_wave (ng : triple Z) (q : gcell) (shift : R) (x : gcell) : C :=
  let '(i, j, k) := x in plane_wave ng q (T3 (IZR i - shift) (IZR j - shift) (IZR k - shift)).

(** The mode seen is the wave number modulo the mesh. *)
Theorem interlacing_images :
  forall st q c, sound st -> grid_cell (ngrid (st_mesh st)) c -> st_interlace st = true ->
  let ng := ngrid (st_mesh st) in
  let fld := MField (sampled_wave ng q 0) (sampled_wave ng q (1 / 2)) in
  forall n0 n1 n2,
  q = (shift_index (ax0 ng) (fst (fst c)) + n0 * ax0 ng, shift_index (ax1 ng) (snd (fst c)) + n1 * ax1 ng,
       shift_index (ax2 ng) (snd c) + n2 * ax2 ng)%Z ->
  transform st fld c = if Z.even (n0 + n1 + n2) then RtoC (st_vol st) else RtoC 0.
Proof.
  intros st q c (V & Hvol) Hc I ng fld n0 n1 n2 Eq. pose proof (valid_grid _ V) as G. fold ng in G, Hvol, Hc.
  set (vc := vol_cell (st_mesh st)) in *.
  assert (SW : forall s x, sampled_wave ng q s x = (wave ng q x * cis (- (2 * PI * s * (IZR (fst (fst q)) / IZR (ax0 ng) + IZR (snd (fst q)) / IZR (ax1 ng) + IZR (snd q) / IZR (ax2 ng)))))%C).
  { intros s x. destruct q as [[a b] d], x as [[i j] k]. unfold sampled_wave, plane_wave, wave, dft_phase. cbn [ax0 ax1 ax2 fst snd].
    rewrite <- cis_plus. f_equal. rewrite !mult_IZR. unfold Rdiv. ring. }
  assert (QC : cell_mod ng q = c).
  { rewrite Eq. destruct c as [[i j] k]. destruct Hc as (C0 & C1 & C2). cbn [fst snd cell_mod].
    assert (X : forall n i m, (0 <= i < n -> (shift_index n i + m * n) mod n = i)%Z).
    { intros n i0 m Hi. rewrite Z.mod_add by lia. unfold shift_index. destruct (_ <? _)%Z; [now apply Z.mod_small|].
      replace (i0 - n)%Z with (i0 + (-1) * n)%Z by lia. rewrite Z.mod_add by lia. now apply Z.mod_small. }
    now rewrite !X. }
  assert (F : forall s, fourier ng vc (sampled_wave ng q s) c = (RtoC (vc * mesh_size ng) *
    cis (- (2 * PI * s * (IZR (fst (fst q)) / IZR (ax0 ng) + IZR (snd (fst q)) / IZR (ax1 ng) + IZR (snd q) / IZR (ax2 ng)))))%C).
  { intros s. rewrite fourier_total. set (ph := cis _).
    rewrite (total3_ext _ _ (fun x => ph * (wave ng q x * Cconj (wave ng c x)))%C) by (intros x _; rewrite SW; unfold ph; ring).
    rewrite total3_scal, wave_orth by exact G.
    replace (same_cell ng q c) with true; [rewrite RtoC_mult; ring|]. symmetry. unfold same_cell.
    replace (cell_mod ng (cell_sub q c)) with cell0; [reflexivity|].
    destruct q as [[a b] d], c as [[i j] k]. cbn [cell_mod] in QC. injection QC as Q0 Q1 Q2. unfold cell_mod, cell_sub, cell0.
    assert (X : forall n a i, (a mod n = i -> 0 <= i < n -> (a - i) mod n = 0)%Z).
    { intros n a0 i0 <- Hi. rewrite Zminus_mod_idemp_r, Z.sub_diag. apply Z.mod_0_l. lia. }
    destruct Hc as (C0 & C1 & C2). now rewrite !X. }
  unfold transform. rewrite I. cbn [f_main f_shadow fld]. fold ng vc. rewrite !F.
  replace (- (2 * PI * 0 * (IZR (fst (fst q)) / IZR (ax0 ng) + IZR (snd (fst q)) / IZR (ax1 ng) + IZR (snd q) / IZR (ax2 ng)))) with 0 by ring.
  assert (C00 : cis 0 = RtoC 1) by (unfold cis; now rewrite cos_0, sin_0). rewrite C00.
  assert (PH : (cis (interlace_arg ng c) * cis (- (2 * PI * (1 / 2) * (IZR (fst (fst q)) / IZR (ax0 ng) + IZR (snd (fst q)) / IZR (ax1 ng) + IZR (snd q) / IZR (ax2 ng)))))%C
     = if Z.even (n0 + n1 + n2) then RtoC 1 else RtoC (-1)).
  { rewrite <- cis_plus. destruct G as (G0 & G1 & G2). apply IZR_lt in G0, G1, G2. rewrite Eq. destruct c as [[i j] k]. unfold interlace_arg. cbn [fst snd].
    rewrite !interlace_frac_shift by (apply lt_IZR; assumption).
    rewrite !plus_IZR, !mult_IZR.
    set (a := IZR (shift_index (ax0 ng) i)). set (b := IZR (shift_index (ax1 ng) j)). set (d := IZR (shift_index (ax2 ng) k)).
    replace (PI * (a / IZR (ax0 ng) + b / IZR (ax1 ng) + d / IZR (ax2 ng)) +
      - (2 * PI * (1 / 2) * ((a + IZR n0 * IZR (ax0 ng)) / IZR (ax0 ng) + (b + IZR n1 * IZR (ax1 ng)) / IZR (ax1 ng) + (d + IZR n2 * IZR (ax2 ng)) / IZR (ax2 ng))))
      with (- (PI * IZR (n0 + n1 + n2))) by (rewrite !plus_IZR; field; repeat split; lra).
    destruct (Z.even (n0 + n1 + n2)) eqn:EV.
    - apply Z.even_spec in EV. destruct EV as (t & ->). rewrite mult_IZR.
      replace (- (PI * (2 * IZR t))) with (2 * PI * IZR (- t)) by (rewrite opp_IZR; ring). apply cis_2PI.
    - rewrite <- Z.negb_odd in EV. apply negb_false_iff, Z.odd_spec in EV. destruct EV as (t & ->). rewrite plus_IZR, mult_IZR.
      replace (- (PI * (2 * IZR t + 1))) with (2 * PI * IZR (- t) + - PI) by (rewrite opp_IZR; ring). rewrite cis_plus, cis_2PI.
      unfold cis. rewrite cos_neg, sin_neg, cos_PI, sin_PI. unfold RtoC, Cmult. cbn. f_equal; ring. }
  replace (cis (interlace_arg ng c) * (RtoC (vc * mesh_size ng) * cis (- (2 * PI * (1 / 2) *
     (IZR (fst (fst q)) / IZR (ax0 ng) + IZR (snd (fst q)) / IZR (ax1 ng) + IZR (snd q) / IZR (ax2 ng))))))%C
   with (RtoC (vc * mesh_size ng) * (cis (interlace_arg ng c) * cis (- (2 * PI * (1 / 2) *
     (IZR (fst (fst q)) / IZR (ax0 ng) + IZR (snd (fst q)) / IZR (ax1 ng) + IZR (snd q) / IZR (ax2 ng))))))%C by ring.
  rewrite PH, Hvol. destruct (Z.even (n0 + n1 + n2)); rewrite <- !RtoC_mult, <- RtoC_plus, <- RtoC_mult; f_equal; field.
Qed.

(** ** Concrete cases *)
Lemma single_ngp st p c : valid (st_mesh st) -> handled st p -> st_scheme st = NGP -> st_interlace st = false ->
  grid_cell (ngrid (st_mesh st)) (nearest (st_mesh st) p) ->
  single st p c = Cconj (wave (ngrid (st_mesh st)) c (nearest (st_mesh st) p)).
Proof.
  intros V H E I G. unfold single, transform. rewrite I.
  rewrite (fourier_grid _ _ _ (fun x => RtoC ((if cell_eqb x (nearest (st_mesh st) p) then 1 else 0) / vol_cell (st_mesh st)))).
  - rewrite fourier_total, (total3_pick _ _ _ G).
    + destruct (cell_eqb_spec (nearest (st_mesh st) p) (nearest (st_mesh st) p)) as [_|N]; [|congruence]. rewrite Cmult_assoc, <- RtoC_mult. assert (0 < vol_cell (st_mesh st)) by apply V.
      replace (vol_cell (st_mesh st) * (1 / vol_cell (st_mesh st))) with 1 by (field; lra). apply Cmult_1_l.
    + intros x _ N. destruct (cell_eqb_spec x (nearest (st_mesh st) p)); [contradiction|]. unfold Rdiv. rewrite Rmult_0_l. ring.
  - intros x Hx. rewrite unit_main by assumption. rewrite E, ngp_share by (first [exact V|exact (proj1 H)]). reflexivity.
Qed.
Lemma ylm_dipole x y z : eps_sph <= sqrt (x * x + y * y + z * z) ->
  reduced_ylm legendre 1 0 (x, y, z) = RtoC (z / sqrt (x * x + y * y + z * z)).
Proof.
  intros H. assert (PP := PI_RGT_0). unfold reduced_ylm. cbn [Z.eqb andb]. set (r := sqrt _) in *.
  rewrite (proj2 (Rltb_false (Rabs r) eps_sph)) by (rewrite Rabs_right; [exact H|apply Rle_ge, sqrt_pos]). cbn [Z.abs]. rewrite legendre_10.
  assert (Q : sqrt (3 / (4 * PI)) * sqrt (4 * PI / 3) = 1).
  { rewrite <- sqrt_mult_alt by (apply Rlt_le, Rdiv_lt_0_compat; lra). replace (3 / (4 * PI) * (4 * PI / 3)) with 1 by (field; lra). apply sqrt_1. }
  change (Z.quot (0 - 0) 2) with 0%Z. rewrite powerRZ_O, Rmult_0_l. unfold cis. rewrite cos_0, sin_0.
  replace (2 * 1 + 1) with 3 by ring.
  unfold Cmult, Cconj, RtoC. cbn [fst snd]. f_equal; [|ring].
  transitivity (z / r * (sqrt (3 / (4 * PI)) * sqrt (4 * PI / 3))); [unfold Rdiv; ring|rewrite Q; ring].
Qed.

Definition origin_bin : bin3 := Bin3 (29 / 10) (41 / 10) 3.
Lemma vec2 i : (0 <= i < 2)%Z -> grid_vector 2 (2 * PI / 2) i = - PI * IZR i.
Proof.
  intros H. assert (T : (i = 0 \/ i = 1)%Z) by lia. destruct T as [-> | ->]; unfold grid_vector; cbn [Z.ltb Z.div Z.div_eucl Z.compare]; cbn; field.
Qed.
Lemma mode_len2 i j k : (0 <= i < 2)%Z -> (0 <= j < 2)%Z -> (0 <= k < 2)%Z ->
  mode_vec st_ngp (i, j, k) = (- PI * IZR i, - PI * IZR j, - PI * IZR k) /\ mode_len st_ngp (i, j, k) = PI * sqrt (IZR (i + j + k)).
Proof.
  intros Hi Hj Hk. assert (PP := PI_RGT_0). unfold mode_len, mode_vec, wavevector, dk_of. cbn [st_ngp st_mesh grid2 ngrid boxsize ax0 ax1 ax2].
  rewrite !vec2 by assumption. split; [reflexivity|]. unfold vec_mod.
  assert (SQ : forall t, (0 <= t < 2)%Z -> IZR t * IZR t = IZR t) by (intros t Ht; assert (T : (t = 0 \/ t = 1)%Z) by lia; destruct T as [-> | ->]; ring).
  replace (- PI * IZR i * (- PI * IZR i) + - PI * IZR j * (- PI * IZR j) + - PI * IZR k * (- PI * IZR k))
    with ((PI * PI) * IZR (i + j + k)) by (rewrite !plus_IZR; transitivity (PI * PI * (IZR i * IZR i + IZR j * IZR j + IZR k * IZR k)); [now rewrite !SQ|ring]).
  rewrite sqrt_mult_alt by nra. now rewrite sqrt_square by lra.
Qed.
Lemma origin_modes : mode_cells st_ngp origin_bin = [(0, 0, 1); (0, 1, 0); (1, 0, 0)]%Z.
Proof.
  assert (PP := PI2_3_2). assert (P4 := PI_4). unfold mode_cells. change (ngrid (st_mesh st_ngp)) with (T3 2 2 2)%Z.
  assert (D : 0 < dk_sample) by (unfold dk_sample; lra).
  assert (TOL := fun c H => fine_binning_tolerance dk_sample (b_lo origin_bin) (b_hi origin_bin) (mode_len st_ngp) (grid_cells (T3 2 2 2)%Z) c D H).
  assert (IN : forall i j k, (0 <= i < 2)%Z -> (0 <= j < 2)%Z -> (0 <= k < 2)%Z ->
    (i + j + k = 1)%Z <-> In (i, j, k) (counted dk_sample (b_lo origin_bin) (b_hi origin_bin) (mode_len st_ngp) (grid_cells (T3 2 2 2)%Z))).
  { intros i j k Hi Hj Hk. assert (G : In (i, j, k) (grid_cells (T3 2 2 2)%Z)) by (apply In_grid_cells; repeat split; cbn; lia).
    destruct (TOL _ G) as [T1 T2]. destruct (mode_len2 i j k Hi Hj Hk) as [_ L]. rewrite L in *. cbn [b_lo b_hi origin_bin] in *. split.
    - intros E. apply T2; rewrite E, sqrt_1; unfold dk_sample, n_sample; lra.
    - intros H. apply T1 in H. destruct H as [H _]. unfold dk_sample in H.
      assert (C : (i + j + k = 0 \/ i + j + k = 1 \/ 2 <= i + j + k)%Z) by lia. destruct C as [C|[C|C]]; [|exact C|].
      + rewrite C, sqrt_0 in H. lra.
      + apply IZR_le in C. assert (S : sqrt (196 / 100) <= sqrt (IZR (i + j + k))) by (apply sqrt_le_1; lra).
        replace (196 / 100) with (14 / 10 * (14 / 10)) in S by field. rewrite sqrt_square in S by lra. nra. }
  unfold counted in *. revert IN. change (grid_cells (T3 2 2 2)%Z) with [(0,0,0);(0,0,1);(0,1,0);(0,1,1);(1,0,0);(1,0,1);(1,1,0);(1,1,1)]%Z.
  set (f := fun c : cell => _). clearbody f. intros IN.
  assert (F : forall i j k, (0 <= i < 2)%Z -> (0 <= j < 2)%Z -> (0 <= k < 2)%Z -> f (i, j, k) = (i + j + k =? 1)%Z).
  { intros i j k Hi Hj Hk. specialize (IN i j k Hi Hj Hk). rewrite filter_In in IN.
    destruct (Z.eqb_spec (i + j + k) 1) as [E|E]; [apply IN; exact E|]. destruct (f (i, j, k)) eqn:Q; [|reflexivity]. exfalso. apply E, IN. split; [|reflexivity].
    assert (A : (i = 0 \/ i = 1)%Z) by lia. assert (B : (j = 0 \/ j = 1)%Z) by lia. assert (C : (k = 0 \/ k = 1)%Z) by lia.
    destruct A as [-> | ->], B as [-> | ->], C as [-> | ->]; cbn; tauto. }
  cbn [filter]. rewrite !F by lia. reflexivity.
Qed.

Lemma nearest_origin w : nearest grid2 (at_origin w) = (0, 0, 0)%Z.
Proof. apply (nearest_at 0 w 0); [lra|lia]. Qed.
Lemma origin_handled w : handled st_ngp (at_origin w).
Proof. split; [apply (origin_inside false w)|discriminate]. Qed.

(** At the Nyquist frequency the mesh holds a mode without its opposite: a box with one
    galaxy has a dipole. *)
Theorem box_powspec_odd_refuted :
  exists st ps b, sound st /\ st_interlace st = false /\ (forall p, In p ps -> handled st p) /\
  o_raw (compute_powspec_in_gpp_box legendre st (grid_cells (ngrid (st_mesh st))) 1 ps 1 b) <> RtoC 0.
Proof.
  exists st_ngp, [at_origin 1], origin_bin. assert (PP := PI2_3_2).
  assert (H : forall p, In p [at_origin 1] -> handled st_ngp p) by (intros p [<-|[]]; apply origin_handled).
  pose proof (proj1 (st2_sound false)) as S.
  split; [exact S|]. split; [reflexivity|]. split; [exact H|].
  destruct (box_powspec_is_mode_average legendre st_ngp (grid_cells (ngrid (st_mesh st_ngp))) 1 [at_origin 1] 1 origin_bin S ltac:(discriminate) H (Permutation_refl _)) as (-> & _).
  rewrite (bin_mean_ext _ _ (fun k => reduced_ylm legendre 1 0 (mode_vec st_ngp k))).
  - rewrite origin_modes. unfold bin_mean_spec. cbn [map length].
    rewrite (proj1 (mode_len2 0 0 1 ltac:(lia) ltac:(lia) ltac:(lia))), (proj1 (mode_len2 0 1 0 ltac:(lia) ltac:(lia) ltac:(lia))), (proj1 (mode_len2 1 0 0 ltac:(lia) ltac:(lia) ltac:(lia))).
    assert (Q : sqrt (PI * PI) = PI) by (apply sqrt_square; lra).
    assert (E : eps_sph <= sqrt (PI * PI)) by (rewrite Q; unfold eps_sph; lra).
    rewrite !ylm_dipole by (match goal with |- _ <= sqrt ?t => replace t with (PI * PI) by ring end; exact E).
    rewrite !csum_cons. cbn [csum fold_right].
    replace (- PI * 0 * (- PI * 0) + - PI * 0 * (- PI * 0) + - PI * 1 * (- PI * 1)) with (PI * PI) by ring. rewrite Q.
    intros X. apply (f_equal fst) in X. unfold Cmult, Cplus, RtoC in X. cbn [fst snd] in X.
    replace (- PI * 1 / PI) with (-1) in X by (field; lra). replace (INR 3) with 3 in X by (rewrite INR_IZR_INZ; reflexivity).
    unfold Rdiv in X. rewrite !Rmult_0_r, !Rmult_0_l in X. lra.
  - intros c Hc. rewrite origin_modes in Hc.
    assert (CZ : cell_eqb c cell0 = false) by (destruct Hc as [<-|[<-|[<-|[]]]]; reflexivity). rewrite CZ.
    cbn [map]. rewrite csum_cons. cbn [csum fold_right]. rewrite single_ngp; try reflexivity; [|apply S|apply origin_handled|cbn [st_ngp st_mesh]; rewrite nearest_origin; repeat split; cbn; lia].
    cbn [st_ngp st_mesh]. rewrite nearest_origin. rewrite win_alias, ngp_alias by reflexivity.
    assert (W : wave (ngrid grid2) c (0, 0, 0)%Z = RtoC 1).
    { destruct c as [[i j] k]. unfold wave, dft_phase. rewrite !Z.mul_0_r. unfold Rdiv. rewrite !Rmult_0_l, !Rplus_0_l, Rmult_0_r. unfold cis. now rewrite cos_0, sin_0. }
    rewrite W, Cplus_0_r, !Cconj_RtoC, Rinv_1. ring.
Qed.

(** The monopole of the same box is one: two random phases would add, one particle is pure
    shot noise. *)
Example box_powspec_case :
  o_raw (compute_powspec_in_gpp_box legendre st_ngp (grid_cells (T3 2 2 2)%Z) 0 [at_origin 1] 1 origin_bin) = RtoC 1.
Proof.
  pose proof (proj1 (st2_sound false)) as S.
  assert (H : forall p, In p [at_origin 1] -> handled st_ngp p) by (intros p [<-|[]]; apply origin_handled).
  destruct (box_powspec_is_mode_average legendre st_ngp (grid_cells (ngrid (st_mesh st_ngp))) 0 [at_origin 1] 1 origin_bin S ltac:(discriminate) H (Permutation_refl _)) as (E & _).
  change (ngrid (st_mesh st_ngp)) with (T3 2 2 2)%Z in E. rewrite E. clear E.
  rewrite (bin_mean_ext _ _ (fun k => RtoC 1)).
  - rewrite bin_mean_const by (rewrite origin_modes; discriminate). replace (2 * 0 + 1) with 1 by ring. ring.
  - intros c Hc. rewrite origin_modes in Hc.
    assert (CZ : cell_eqb c cell0 = false) by (destruct Hc as [<-|[<-|[<-|[]]]]; reflexivity). rewrite CZ.
    cbn [map]. rewrite csum_cons. cbn [csum fold_right]. rewrite single_ngp; try reflexivity; [|apply S|apply origin_handled|cbn [st_ngp st_mesh]; rewrite nearest_origin; repeat split; cbn; lia].
    cbn [st_ngp st_mesh]. rewrite nearest_origin. rewrite win_alias, ngp_alias by reflexivity.
    assert (W : wave (ngrid grid2) c (0, 0, 0)%Z = RtoC 1).
    { destruct c as [[i j] k]. unfold wave, dft_phase. rewrite !Z.mul_0_r. unfold Rdiv. rewrite !Rmult_0_l, !Rplus_0_l, Rmult_0_r. unfold cis. now rewrite cos_0, sin_0. }
    rewrite W, Cplus_0_r, !Cconj_RtoC, Rinv_1, (proj1 (ylm_special legendre _)). ring.
Qed.

(** Images: on the interlaced mesh of two cells the wave with one wave per axis folded
    once disappears, folded twice it stays. *)
Example interlacing_case :
  let st := st2 true in let ng := (T3 2 2 2)%Z in
  transform st (MField (sampled_wave ng (-1, 0, 2)%Z 0) (sampled_wave ng (-1, 0, 2)%Z (1 / 2))) (1, 0, 0)%Z = RtoC 0 /\
  transform st (MField (sampled_wave ng (-1, 2, 2)%Z 0) (sampled_wave ng (-1, 2, 2)%Z (1 / 2))) (1, 0, 0)%Z = RtoC 8.
Proof.
  intros st ng. pose proof (proj1 (st2_sound true)) as S.
  assert (G : grid_cell (ngrid (st_mesh st)) (1, 0, 0)%Z) by (repeat split; cbn; lia). split.
  - exact (interlacing_images st (-1, 0, 2)%Z (1, 0, 0)%Z S G eq_refl 0 0 1 eq_refl)%Z.
  - exact (interlacing_images st (-1, 2, 2)%Z (1, 0, 0)%Z S G eq_refl 0 1 1 eq_refl)%Z.
Qed.

Print Assumptions powspec_is_mode_average.
Print Assumptions box_powspec_is_mode_average.
Print Assumptions powspec_shot_monopole.
Print Assumptions twopt_coordinates.
Print Assumptions mean_in_bin.
Print Assumptions box_powspec_shot.
Print Assumptions powspec_monopole_positive.
Print Assumptions powspec_parity.
Print Assumptions box_powspec_odd_vanish.
Print Assumptions box_powspec_odd_refuted.
Print Assumptions powspec_catalogue_order.
Print Assumptions powspec_weight_scale.
Print Assumptions interlacing_images.
