(* Claim C87: the shot noise of a bispectrum measured in a periodic box is a sum over
   coincident objects. *)
From Coq Require Import Reals ZArith List Lia Lra Bool Permutation.
From Coquelicot Require Import Complex.
From Flocq Require Import Core.Raux.
From Verif Require Import Base ArrayModel ArrayProofs MeshModel MeshIndexProps MeshProofs MeshProps MeshWindowProps BinVecModel BinVecProps RSum CSum ThreePtModel OrderProps WignerProps
  SphHarmModel SphHarmProps CatModel NormModel FieldModel Dft3 FieldProps CorrProps PowProps BispecModel BispecProps ShotProps ThreePcfProps.
Import ListNotations.
Open Scope R_scope.

(** ** Vocabulary *)

(** Separation on the mesh of two objects in the box. *)
Definition box_sep (st : settings) (x y : pdatum) : R * R * R :=
  sep_vec st (cell_mod (ngrid (st_mesh st)) (cell_sub (nearest (st_mesh st) x) (nearest (st_mesh st) y))).

(** Product of the amplitudes of one mode, summed over the ordered pairs of distinct objects;
    the mean density is removed from the zero mode. *)
Definition pair_power (st : settings) (ps : list pdatum) (k : gcell) : C :=
  (csum (map (fun xy => single st (fst xy) k * Cconj (single st (snd xy) k)) (distinct_pairs ps))
   - (if cell_eqb k cell0 then RtoC (INR (length ps) ^ 2) else RtoC 0))%C.

(** ** Proof support *)
Lemma box_mode_pairs st ps k : sound st -> st_scheme st = NGP -> st_interlace st = false -> (forall p, In p ps -> handled st p) ->
  grid_cell (ngrid (st_mesh st)) k ->
  (pk_mode st (transform st (fluctuation_field st ps)) (transform st (unweighted_field st ps)) k - sn_mode st (RtoC (INR (length ps))) k)%C
  = pair_power st ps k.
Proof.
  intros S E I H Hk. pose proof S as (V & _). pose proof (valid_grid _ V) as G. unfold pk_mode.
  rewrite sn_mode_flat, win_alias, ngp_alias, Rinv_1 by assumption.
  rewrite fluctuation_transform by (try assumption; congruence). rewrite unweighted_transform by assumption.
  assert (A : (csum (map (fun p => single st p k) ps) * Cconj (csum (map (fun p => single st p k) ps)) =
    csum (map (fun xy => single st (fst xy) k * Cconj (single st (snd xy) k)) (distinct_pairs ps)) + RtoC (INR (length ps)))%C).
  { rewrite csum_conj, map_map, csum_mult.
    rewrite (csum_all_pairs (fun x y => single st x k * Cconj (single st y k))%C). f_equal.
    rewrite (csum_map_ext _ (fun _ => RtoC 1)) by (intros p Hp; apply single_unit; try assumption; now apply H).
    clear. induction ps as [|p ps IH]; [reflexivity|]. cbn [map length]. rewrite csum_cons, IH, S_INR, RtoC_plus. ring. }
  unfold pair_power, box_delta. rewrite I. destruct (cell_eqb_spec k cell0) as [->|N].
  - assert (B : csum (map (fun p => single st p cell0) ps) = RtoC (INR (length ps))).
    { rewrite (csum_map_ext _ (fun _ => RtoC 1)).
      - clear. induction ps as [|p ps IH]; [reflexivity|]. cbn [map length]. rewrite csum_cons, IH, S_INR, RtoC_plus. ring.
      - intros p Hp. rewrite single_ngp by (try assumption; now apply H). rewrite wave_0. apply Cconj_RtoC. }
    rewrite B, Cconj_RtoC, <- RtoC_mult in A.
    assert (A' : csum (map (fun xy => single st (fst xy) cell0 * Cconj (single st (snd xy) cell0)) (distinct_pairs ps))%C =
      RtoC (INR (length ps) * INR (length ps) - INR (length ps))).
    { unfold Rminus. rewrite RtoC_plus, A, RtoC_opp. ring. }
    rewrite A'. rewrite RtoC_minus, RtoC_mult. replace (INR (length ps) ^ 2) with (INR (length ps) * INR (length ps)) by ring. rewrite RtoC_mult. ring.
  - rewrite <- Cmult_assoc, (Cmult_comm (Cconj _)), Cmult_assoc, (Cmult_comm _ (RtoC 1)), Cmult_1_l in *.
    rewrite A. ring.
Qed.

Lemma box_fourier P st order ps l m b : sound st -> st_scheme st = NGP -> st_interlace st = false -> (forall p, In p ps -> handled st p) ->
  Permutation order (grid_cells (ngrid (st_mesh st))) ->
  let s := stats_fourier P st order (transform st (fluctuation_field st ps)) (transform st (unweighted_field st ps)) (RtoC (INR (length ps))) l m b in
  (s_stat s - s_shot s)%C = bin_mean_spec (mode_cells st b) (fun k => pair_power st ps k * reduced_ylm P l m (mode_vec st k))%C.
Proof.
  intros S E I H HP s. unfold s.
  set (dn := transform st (fluctuation_field st ps)). set (N := transform st (unweighted_field st ps)). set (A := RtoC (INR (length ps))).
  destruct (stats_fourier_exact P st order dn N A l m b HP) as (E1 & E2 & _). rewrite E1, E2.
  unfold bin_mean_spec. match goal with |- (?A * ?k - ?B * ?k)%C = _ => replace (A * k - B * k)%C with ((A - B) * k)%C by ring end. f_equal.
  transitivity (csum (map (fun c => pk_mode st dn N c * reduced_ylm P l m (wavevector (ngrid (st_mesh st)) (dk_of (st_mesh st)) c)
     + RtoC (-1) * (sn_mode st A c * reduced_ylm P l m (wavevector (ngrid (st_mesh st)) (dk_of (st_mesh st)) c)))%C (mode_cells st b))).
  - rewrite csum_map_plus, csum_map_scal. replace (RtoC (-1)) with (- RtoC 1)%C by (rewrite <- RtoC_opp; f_equal; lra). unfold cell. ring.
  - apply csum_map_ext. intros k Hk. rewrite <- (box_mode_pairs st ps k) by (try assumption;
      unfold mode_cells, counted in Hk; apply filter_In in Hk; now apply In_grid_cells). fold dn N A. unfold mode_vec.
    replace (RtoC (-1)) with (- RtoC 1)%C by (rewrite <- RtoC_opp; f_equal; lra). ring.
Qed.

(** A sum with one term. *)
Lemma csum_lone {A} (l : list A) a (g : A -> C) : NoDup l -> In a l -> (forall u, In u l -> u <> a -> g u = RtoC 0) -> csum (map g l) = g a.
Proof.
  intros ND Ha Hu. apply in_split in Ha. destruct Ha as (l1 & l2 & ->).
  assert (N : ~ In a (l1 ++ l2)) by now apply NoDup_remove_2.
  rewrite map_app, csum_app. cbn [map]. rewrite csum_cons.
  assert (Z : forall m, (forall u, In u m -> g u = RtoC 0) -> csum (map g m) = RtoC 0).
  { intros m Hm. induction m as [|u m IH]; [reflexivity|]. cbn [map]. rewrite csum_cons, IH, Hm by (intros; try apply Hm; cbn; auto). ring. }
  rewrite (Z l1), (Z l2); [ring| |].
  - intros u Hin. apply Hu; [apply in_or_app; right; now right|]. intros ->. apply N, in_or_app. now right.
  - intros u Hin. apply Hu; [apply in_or_app; now left|]. intros ->. apply N, in_or_app. now left.
Qed.

(** A loop in which only the first triplet of orders has a coupling. *)
Lemma term_skip c add V s : (forall t, In t V -> c t = 0) -> fold_left (term_step c add) V s = s.
Proof.
  revert s. induction V as [|t V IH]; intros s H; [reflexivity|]. cbn [fold_left]. rewrite IH by (intros; apply H; now right).
  destruct s as [K x]. unfold term_step. destruct (existsb _ _); [reflexivity|].
  rewrite H by now left. rewrite Rabs_R0. replace (Rltb 0 eps_coupling) with true; [reflexivity|].
  symmetry. apply Rltb_spec. unfold eps_coupling. lra.
Qed.
Lemma term_only c add t V : NoDup V -> In t V -> (forall u, In u V -> u <> t -> c u = 0) -> eps_coupling < Rabs (c t) ->
  term_loop c add V = add t.
Proof.
  intros ND Ht Hu Hc. apply in_split in Ht. destruct Ht as (V1 & V2 & ->). unfold term_loop. rewrite fold_left_app. cbn [fold_left].
  assert (N : ~ In t (V1 ++ V2)) by now apply NoDup_remove_2.
  rewrite (term_skip c add V1).
  2:{ intros u Hin. apply Hu; [apply in_or_app; now left|]. intros ->. apply N, in_or_app. now left. }
  unfold term_step at 2. cbn [existsb]. replace (Rltb (Rabs (c t)) eps_coupling) with false by (symmetry; apply Rltb_false; lra).
  rewrite term_skip.
  2:{ intros u Hin. apply Hu; [apply in_or_app; right; now right|]. intros ->. apply N, in_or_app. now right. }
  cbn [snd]. apply Cplus_0_l.
Qed.
Lemma visited_all l1 l2 : visited_box l1 l2 = all_orders l1 l2 0.
Proof.
  unfold visited_box, all_orders. apply flat_map_ext. intros m1. generalize (arange (- l2) (l2 + 1)).
  intros l. induction l as [|b l IH]; [reflexivity|]. cbn [map flat_map]. rewrite IH. reflexivity.
Qed.

(** The orders with a coupling when one degree is zero. *)
Lemma box_lone_order l1 l2 L t : (l1 = 0 \/ l2 = 0)%Z -> In t (all_orders l1 l2 0) -> t <> (0, 0, 0)%Z -> weight l1 l2 L (wigner_3j l1 l2 L) t = 0.
Proof.
  intros Z Ht N. apply In_all_orders in Ht. destruct t as [[m1 m2] M]. destruct Ht as (R1 & R2 & R3).
  destruct (Req_dec (wigner_3j l1 l2 L (m1, m2, M)) 0) as [E|E]; [unfold weight; rewrite E; ring|].
  apply wigner_selection in E. exfalso. apply N. repeat f_equal; lia.
Qed.
Lemma lone_weight l1 l2 L : (0 <= l1)%Z -> (0 <= l2)%Z -> (0 <= L)%Z -> validate_coupling (wigner_3j l1 l2 L) = Ok tt ->
  well_separated l1 l2 L (wigner_3j l1 l2 L) -> eps_coupling < Rabs (weight l1 l2 L (wigner_3j l1 l2 L) (0, 0, 0)%Z).
Proof.
  intros H1 H2 HL VC W. destruct (W (0, 0, 0)%Z) as [E|E]; [cbn; lia| |exact E]. exfalso.
  unfold validate_coupling in VC. destruct (Rltb (Rabs (wigner_3j l1 l2 L (0, 0, 0)%Z)) eps_coupling) eqn:B; [discriminate|].
  apply Rltb_false in B. unfold weight in E.
  assert (0 < 2 * IZR l1 + 1 /\ 0 < 2 * IZR l2 + 1 /\ 0 < 2 * IZR L + 1) as (P1 & P2 & P3)
    by (apply IZR_le in H1, H2, HL; lra).
  assert (X : wigner_3j l1 l2 L (0, 0, 0)%Z <> 0) by (intros Z; rewrite Z, Rabs_R0 in B; unfold eps_coupling in B; lra).
  revert E. repeat apply Rmult_integral_contrapositive_currified; try assumption; lra.
Qed.

(** The separations of one mesh summed with the pairs found there. *)
Lemma box_config_pairs st ps (f : R * R * R -> C) : sound st ->
  let vc := vol_cell (st_mesh st) in let N := INR (length ps) in
  (csum (map (fun r => RtoC (INR (pairs_at (st_mesh st) ps r) / vc - N ^ 2 / st_vol st) * f (sep_vec st r)) (grid_cells (ngrid (st_mesh st)))) * RtoC vc)%C =
  (csum (map (fun xy => f (box_sep st (fst xy) (snd xy))) (distinct_pairs ps))
   - RtoC (N ^ 2 / mesh_size (ngrid (st_mesh st))) * csum (map (fun r => f (sep_vec st r)) (grid_cells (ngrid (st_mesh st)))))%C.
Proof.
  intros S vc N. pose proof S as (V & EV). pose proof (valid_grid _ V) as G. assert (Hv : 0 < vc) by apply V.
  rewrite (csum_map_ext _ (fun r => RtoC (/ vc) * csum (map (fun xy => if separated (st_mesh st) (fst xy) (snd xy) r then f (sep_vec st r) else RtoC 0) (distinct_pairs ps))
     + RtoC (- (N ^ 2 / st_vol st)) * f (sep_vec st r))%C).
  - rewrite csum_map_plus, !csum_map_scal, csum_swap.
    rewrite (csum_map_ext _ (fun xy => f (box_sep st (fst xy) (snd xy)))).
    + rewrite Cmult_plus_distr_r.
      assert (Q : (RtoC (/ vc) * RtoC vc)%C = RtoC 1) by (rewrite <- RtoC_mult, Rinv_l by lra; reflexivity).
      replace (RtoC (N ^ 2 / mesh_size (ngrid (st_mesh st)))) with (RtoC (N ^ 2 / st_vol st) * RtoC vc)%C.
      * rewrite RtoC_opp. ring [Q].
      * rewrite <- RtoC_mult, EV. f_equal. fold vc. pose proof (mesh_size_pos _ G). field. lra.
    + intros xy _. unfold separated, box_sep. exact (total_separated _ _ (fun r => f (sep_vec st r)) G).
  - intros r _. unfold pairs_at.
    rewrite (csum_map_ext (fun xy => if separated _ _ _ _ then _ else _) (fun xy => f (sep_vec st r) * (if separated (st_mesh st) (fst xy) (snd xy) r then RtoC 1 else RtoC 0))%C)
      by (intros xy _; destruct (separated _ _ _ _); ring).
    rewrite csum_map_scal, csum_count. unfold Rminus, Rdiv. rewrite RtoC_plus, !RtoC_mult. ring.
Qed.

(** ** C87 *)
Theorem box_bispec_shot :
  forall P sj st ord l1 l2 L ps norm a b,
  let w := wigner_3j l1 l2 L in
  sound st -> st_scheme st = NGP -> st_interlace st = false -> (0 <= l1)%Z -> (0 <= l2)%Z -> (0 <= L)%Z -> (forall p, In p ps -> handled st p) ->
  (forall t, Permutation (ord t) (grid_cells (ngrid (st_mesh st)))) ->
  validate_coupling w = Ok tt -> well_separated l1 l2 L w -> modes_of st a <> [] -> modes_of st b <> [] ->
  let N := INR (length ps) in let h v := box_harmonic P l1 l2 L v v in
  let coincident c := bin_mean_spec (mode_cells st c) (fun k => pair_power st ps k * h (mode_vec st k))%C in
  let f v := (RtoC (sj l1 (k_eff st a * vec_mod v) * sj l2 (k_eff st b * vec_mod v))%R * h v)%C in
  exists out, compute_bispec_in_gpp_box P sj w st ord l1 l2 L ps norm a b = Ok out /\
  t_shot out = (RtoC norm *
    ((if (l1 =? 0)%Z && (l2 =? 0)%Z then RtoC N else RtoC 0)
     + (if (l2 =? 0)%Z then coincident a else RtoC 0)
     + (if (l1 =? 0)%Z then coincident b else RtoC 0)
     + ipow (l1 + l2) *
       (csum (map (fun xy => f (box_sep st (fst xy) (snd xy))) (distinct_pairs ps))
        - RtoC (N ^ 2 / mesh_size (ngrid (st_mesh st))) * csum (map (fun r => f (sep_vec st r)) (grid_cells (ngrid (st_mesh st)))))))%C.
Proof.
  intros P sj st ord l1 l2 L ps norm a b w S E I H1 H2 HL H HP VC W NA NB N h coincident f.
  pose proof S as (V & _). pose proof (valid_grid _ V) as G.
  unfold compute_bispec_in_gpp_box, bispec_entry. rewrite VC. cbn [bind].
  replace (_ || _)%bool with false by (destruct (modes_of st a), (modes_of st b); reflexivity || contradiction).
  eexists. split; [reflexivity|]. cbn [t_shot]. f_equal.
  set (c := coupling_3pt l1 l2 L w). set (src := box_sources st ps).
  set (dn := transform st (fluctuation_field st ps)). set (N0 := transform st (unweighted_field st ps)).
  set (row := fun t => let '(m1, m2, M) := t in stats_fourier P st (ord t) dn (s_N src M) (s_S src M) l1 m1 a).
  set (col := fun t => let '(m1, m2, M) := t in stats_fourier P st (ord t) dn (s_N src M) (s_S src M) l2 m2 b).
  set (xi := fun t => let '(m1, m2, M) := t in shot_bispec P sj st (s_dn src M) N0 (s_S src M) l1 l2 m1 m2 (k_eff st a) (k_eff st b)).
  rewrite (term_loop_ext c _ (fun t =>
    (((if (l1 =? 0)%Z && (l2 =? 0)%Z then RtoC (c t) * s_S src (snd t) else RtoC 0)
    + (if (l2 =? 0)%Z then mirrored_sum (mirror_of L t) (RtoC (c t) * (s_stat (row t) - s_shot (row t))) else RtoC 0))
    + (if (l1 =? 0)%Z then mirrored_sum (mirror_of L t) (RtoC (c t) * (s_stat (col t) - s_shot (col t))) else RtoC 0))
    + ipow (l1 + l2) * mirrored_sum (mirror_w3j t) (RtoC (c t) * xi t))%C)
    by (intros [[m1 m2] M]; reflexivity).
  assert (LW := lone_weight l1 l2 L H1 H2 HL VC W).
  assert (ON : forall add, (l1 = 0 \/ l2 = 0)%Z -> term_loop c add (visited_box l1 l2) = add (0, 0, 0)%Z).
  { intros add Z0. rewrite visited_all. apply term_only.
    - apply NoDup_all_orders.
    - apply In_all_orders. cbn. lia.
    - intros u Hu Nu. unfold c. rewrite weight_coupling. now apply box_lone_order.
    - unfold c. now rewrite weight_coupling. }
  assert (HH : forall v, (l1 = 0 \/ l2 = 0)%Z -> h v = (RtoC (c (0, 0, 0)%Z) * (reduced_ylm P l1 0 v * reduced_ylm P l2 0 v))%C).
  { intros v Z0. unfold h, box_harmonic, c. rewrite weight_coupling. fold w.
    assert (X := csum_lone (all_orders l1 l2 0) (0, 0, 0)%Z (fun t => let '(m1, m2, M) := t in
      RtoC (weight l1 l2 L w t) * (reduced_ylm P l1 m1 v * reduced_ylm P l2 m2 v))%C). cbn beta iota in X. apply X.
    - apply NoDup_all_orders.
    - apply In_all_orders. cbn. lia.
    - intros [[m1 m2] M] Hu Nu. unfold w. rewrite box_lone_order by assumption. ring. }
  rewrite !term_loop_plus, !term_loop_if, term_loop_scal. f_equal; [f_equal; [f_equal|]|f_equal].
  - destruct ((l1 =? 0)%Z && (l2 =? 0)%Z)%bool eqn:Z0; [|reflexivity]. apply Bool.andb_true_iff in Z0. destruct Z0 as [Z1 Z2].
    apply Z.eqb_eq in Z1, Z2. assert (L = 0%Z) by (pose proof (accepted_degrees_even l1 l2 L VC); lia).
    rewrite ON by now left. unfold c, w. subst l1 l2 L. rewrite weight_coupling, weight_000. cbn [src box_sources s_S snd]. fold N. ring.
  - destruct (Z.eqb_spec l2 0) as [Z2|]; [|reflexivity]. rewrite ON by now right.
    unfold mirrored_sum, mirror_of. cbn [is_zeros Z.eqb andb]. unfold row, src. cbn [box_sources s_N s_S]. unfold dn. rewrite box_fourier by (try assumption; apply HP).
    unfold coincident. rewrite <- bin_mean_scal. rewrite Cmult_0_l, Cplus_0_r.
    apply bin_mean_ext. intros k _. rewrite HH by now right. rewrite Z2, (proj1 (ylm_special P _)). ring.
  - destruct (Z.eqb_spec l1 0) as [Z1|]; [|reflexivity]. rewrite ON by now left.
    unfold mirrored_sum, mirror_of. cbn [is_zeros Z.eqb andb]. unfold col, src. cbn [box_sources s_N s_S]. unfold dn. rewrite box_fourier by (try assumption; apply HP).
    unfold coincident. rewrite <- bin_mean_scal. rewrite Cmult_0_l, Cplus_0_r.
    apply bin_mean_ext. intros k _. rewrite HH by now left. rewrite Z1, (proj1 (ylm_special P _)). ring.
  - set (vc := vol_cell (st_mesh st)).
    assert (X0 : forall r, twopt_3d st dn N0 (RtoC N) r = RtoC (INR (pairs_at (st_mesh st) ps r) / vc - N ^ 2 / st_vol st)).
    { intros r. unfold vc, N. rewrite <- box_corrfunc_mesh_pairs by (try assumption; intros p Hp; exact (proj1 (H p Hp))).
      unfold twopt_3d. rewrite !inverse_total. f_equal. apply total3_ext. intros x Hx. f_equal. f_equal. unfold pk_mode, dn, N0.
      rewrite !fluctuation_transform by (try assumption; congruence). unfold box_delta. rewrite I. destruct (cell_eqb_spec x cell0) as [->|NZ]; [ring|].
      rewrite unweighted_transform by assumption. reflexivity. }
    assert (X : forall m1 m2 M, xi (m1, m2, M) = (csum (map (fun r => RtoC (INR (pairs_at (st_mesh st) ps r) / vc - N ^ 2 / st_vol st) *
       (RtoC (sj l1 (k_eff st a * vec_mod (sep_vec st r)) * sj l2 (k_eff st b * vec_mod (sep_vec st r)))%R *
        (reduced_ylm P l1 m1 (sep_vec st r) * reduced_ylm P l2 m2 (sep_vec st r)))) (grid_cells (ngrid (st_mesh st)))) * RtoC vc)%C).
    { intros m1 m2 M. unfold xi, shot_bispec. cbn [src box_sources s_dn s_S]. f_equal. apply csum_map_ext. intros r _. fold N. fold dn. rewrite X0. unfold sep_vec. ring. }
    etransitivity; [|exact (box_config_pairs st ps f S)]. unfold f. fold vc N.
    transitivity (snd (order_loop c 1 xi (visited_box l1 l2))).
    + rewrite term_loop_order. apply term_loop_ext. intros t. rewrite mirrored_scal. reflexivity.
    + unfold c. rewrite (box_total l1 l2 L w); [|exact HL|exact VC|apply wigner_reversal|exact W|].
      * unfold weighted_sum.
        rewrite (csum_map_ext _ (fun t => RtoC vc * csum (map (fun r => let '(m1, m2, M) := t in RtoC (INR (pairs_at (st_mesh st) ps r) / vc - N ^ 2 / st_vol st) *
          (RtoC (sj l1 (k_eff st a * vec_mod (sep_vec st r)) * sj l2 (k_eff st b * vec_mod (sep_vec st r)))%R *
           (RtoC (weight l1 l2 L w t) * (reduced_ylm P l1 m1 (sep_vec st r) * reduced_ylm P l2 m2 (sep_vec st r))))) (grid_cells (ngrid (st_mesh st)))))%C).
        -- rewrite csum_map_scal, csum_swap, Cmult_comm. f_equal. apply csum_map_ext. intros r _. unfold h, box_harmonic. fold w.
           rewrite <- !csum_map_scal. apply csum_map_ext. intros [[m1 m2] M] _. reflexivity.
        -- intros [[m1 m2] M] _. rewrite X. rewrite (Cmult_comm _ (RtoC vc)), Cmult_assoc, (Cmult_comm (RtoC (weight _ _ _ _ _))), <- Cmult_assoc. f_equal.
           rewrite <- csum_map_scal. apply csum_map_ext. intros r _. ring.
      * intros [[m1 m2] M] (R1 & R2 & R3) NZ. cbn [mirrored]. rewrite !X, Cmult_1_l, Cconj_mult, Cconj_RtoC, csum_conj, map_map. f_equal. apply csum_map_ext. intros r _.
        assert (Sel : (m1 + m2 + M = 0)%Z) by (apply (wigner_selection l1 l2 L); intros Z; apply NZ; unfold weight, w; rewrite Z; ring).
        assert (M = 0)%Z by lia. subst M.
        rewrite !ylm_opposite_order, !Cconj_mult, !Cconj_RtoC.
        transitivity (RtoC (sign (m1 + m2)) * (RtoC (INR (pairs_at (st_mesh st) ps r) / vc - N ^ 2 / st_vol st) *
          (RtoC (sj l1 (k_eff st a * vec_mod (sep_vec st r)) * sj l2 (k_eff st b * vec_mod (sep_vec st r)))%R *
          (Cconj (reduced_ylm P l1 m1 (sep_vec st r)) * Cconj (reduced_ylm P l2 m2 (sep_vec st r))))))%C.
        -- rewrite !sign_plus, !RtoC_mult. ring.
        -- rewrite Z.add_0_r in Sel. rewrite Sel, sign_0. ring.
Qed.

(** One object: nothing is left of the products of pairs away from the zero mode. *)
Lemma box_harmonic_000 P u v : box_harmonic P 0 0 0 u v = RtoC 1.
Proof.
  unfold box_harmonic. change (all_orders 0 0 0) with [(0, 0, 0)%Z]. cbn [map]. rewrite csum_cons, weight_000, !(proj1 (ylm_special P _)). cbn. ring.
Qed.
Theorem box_lone_shot :
  forall P sj st ord p norm a b,
  sound st -> st_scheme st = NGP -> st_interlace st = false -> handled st p ->
  (forall t, Permutation (ord t) (grid_cells (ngrid (st_mesh st)))) ->
  modes_of st a <> [] -> modes_of st b <> [] -> ~ In cell0 (mode_cells st a) -> ~ In cell0 (mode_cells st b) ->
  let bessel r := RtoC (sj 0%Z (k_eff st a * vec_mod (sep_vec st r)) * sj 0%Z (k_eff st b * vec_mod (sep_vec st r)))%R in
  exists out, compute_bispec_in_gpp_box P sj (wigner_3j 0 0 0) st ord 0 0 0 [p] norm a b = Ok out /\
  t_shot out = (RtoC norm * (RtoC 1 - RtoC (/ mesh_size (ngrid (st_mesh st))) * csum (map bessel (grid_cells (ngrid (st_mesh st))))))%C.
Proof.
  intros P sj st ord p norm a b S E I H HP NA NB ZA ZB bessel.
  assert (VC : validate_coupling (wigner_3j 0 0 0) = Ok tt).
  { unfold validate_coupling. pose proof weight_000 as X. unfold weight in X. rewrite (proj2 (Rltb_false _ _)); [reflexivity|].
    assert (Q : wigner_3j 0 0 0 (0, 0, 0)%Z * wigner_3j 0 0 0 (0, 0, 0)%Z = 1) by lra.
    unfold eps_coupling. set (q := wigner_3j 0 0 0 (0, 0, 0)%Z) in *. clearbody q. destruct (Rcase_abs q) as [N|N].
    - rewrite Rabs_left by exact N. nra.
    - rewrite Rabs_right by exact N. nra. }
  assert (W := well_separated_l0l 0 ltac:(lia)).
  destruct (box_bispec_shot P sj st ord 0 0 0 [p] norm a b S E I ltac:(lia) ltac:(lia) ltac:(lia)
    ltac:(intros q [<-|[]]; exact H) HP VC W NA NB) as (out & E1 & E2).
  exists out. split; [exact E1|]. rewrite E2. f_equal. cbn [Z.eqb andb]. change (0 + 0)%Z with 0%Z. change (ipow 0) with (RtoC 1).
  assert (Q : forall c, ~ In cell0 (mode_cells st c) -> bin_mean_spec (mode_cells st c) (fun k => pair_power st [p] k * box_harmonic P 0 0 0 (mode_vec st k) (mode_vec st k))%C = RtoC 0).
  { intros c Hc. unfold bin_mean_spec. rewrite csum_map_zero; [apply Cmult_0_l|]. intros k Hk. unfold pair_power.
    change (distinct_pairs [p]) with (@nil (pdatum * pdatum)). cbn [map]. destruct (cell_eqb_spec k cell0) as [->|_]; [contradiction|].
    cbn [csum fold_right]. ring. }
  rewrite !Q by assumption. change (distinct_pairs [p]) with (@nil (pdatum * pdatum)). cbn [map length].
  rewrite (csum_map_ext _ bessel) by (intros r _; rewrite box_harmonic_000; unfold bessel; ring).
  replace (INR 1 ^ 2 / mesh_size (ngrid (st_mesh st))) with (/ mesh_size (ngrid (st_mesh st))) by (cbn; unfold Rdiv; ring).
  change (INR 1) with 1. change (csum []) with (RtoC 0). ring.
Qed.

Example box_shot_case : forall sj, exists out,
  compute_bispec_in_gpp_box legendre sj (wigner_3j 0 0 0) st4 (fun _ => grid_cells (ngrid grid4)) 0 0 0 [at_z 1 1] 3 bin_low bin_low = Ok out /\
  t_shot out = (RtoC 3 * (RtoC 1 - RtoC (/ 64) * csum (map (fun r =>
    RtoC (sj 0%Z (k_eff st4 bin_low * vec_mod (sep_vec st4 r)) * sj 0%Z (k_eff st4 bin_low * vec_mod (sep_vec st4 r)))%R) (grid_cells (ngrid grid4)))))%C.
Proof.
  intros sj. destruct low_nonempty as [N1 N2].
  assert (Z0 : ~ In cell0 (mode_cells st4 bin_low)).
  { intros X. unfold mode_cells, counted in X. apply filter_In in X. destruct X as [_ X]. rewrite !andb_true_iff in X. destruct X as [[_ X] _].
    apply Rleb_spec in X. cbn [bin_low b_lo] in X. revert X. unfold sampled.
    replace (mode_len st4 cell0) with 0.
    - replace (0 / dk_sample) with (IZR 0) by (unfold Rdiv; cbn; ring). rewrite Zfloor_IZR. unfold dk_sample. lra.
    - unfold mode_len, vec_mod, wavevector, dk_of. cbn [st4 st_mesh grid4 ngrid boxsize ax0 ax1 ax2 cell0]. rewrite !grid_vector_shift.
      change (shift_index 4 0) with 0%Z. replace (_ + _) with 0 by ring. symmetry. exact sqrt_0. }
  refine (box_lone_shot legendre sj st4 _ (at_z 1 1) 3 bin_low bin_low sound4 eq_refl eq_refl _ (fun _ => Permutation_refl _) N1 N1 Z0 Z0).
  split; [unfold inside_box, in_box; cbn; repeat split; lra|discriminate].
Qed.

Print Assumptions box_bispec_shot.
Print Assumptions box_lone_shot.
