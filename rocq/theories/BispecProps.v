(* Claims C77 and C78: three-point measurements. *)
From Coq Require Import Reals ZArith List Lia Lra Bool Permutation.
From Coquelicot Require Import Complex.
From Verif Require Import Base ArrayModel ArrayProofs RSum MeshModel MeshIndexProps MeshProofs MeshProps MeshWindowProps
  BinVecModel BinVecProps CSum ThreePtModel OrderProps WignerProps SphHarmModel SphHarmProps Dft3 CatModel NormModel FieldModel FieldProps
  CorrProps PowProps BispecModel.
Import ListNotations.
Open Scope R_scope.

(** ** Specification vocabulary *)

(** The third mode of a triangle closed modulo the mesh. *)
Definition closing (ng : triple Z) (k1 k2 : gcell) : gcell := cell_mod ng (cell_opp (cell_add k1 k2)).

(** The assignment window of a mode. *)
Definition window_at (st : settings) (c : gcell) : R :=
  let '(i, j, k) := c in window_direct (ngrid (st_mesh st)) i j k (st_order st).

(** The modes of a bin, exactly: wavenumbers in [b_lo, b_hi). *)
Definition bin_modes (st : settings) (b : bin3) (c : gcell) : Prop :=
  grid_cell (ngrid (st_mesh st)) c /\ b_lo b <= mode_len st c < b_hi b.

(** The mean over pairs of modes. *)
Definition pair_mean (A B : list gcell) (f : gcell -> gcell -> C) : C :=
  (csum (map (fun k1 => csum (map (f k1) B)) A) * RtoC (/ (INR (length A) * INR (length B))))%C.

(** The harmonics of the triangle and the line of sight coupled with the weights of the
    orders. *)
Definition triplet_harmonic (P : Z -> Z -> R -> R) (l1 l2 L : Z) (u v n : R * R * R) : C :=
  csum (map (fun t => let '(m1, m2, M) := t in
    RtoC (weight l1 l2 L (wigner_3j l1 l2 L) t) *
    (reduced_ylm P l1 m1 u * reduced_ylm P l2 m2 v * reduced_ylm P L M n))%C (all_orders l1 l2 L)).

(** ** Proof support *)
Lemma csum_mult {A B} (f : A -> C) (g : B -> C) l m :
  (csum (map f l) * csum (map g m))%C = csum (map (fun a => csum (map (fun b => f a * g b)%C m)) l).
Proof.
  induction l as [|a l IH]; cbn [map]; [cbn; ring|]. rewrite !csum_cons, <- IH, csum_map_scal. ring.
Qed.

Lemma wave_triple ng c d (g : gcell -> C) : grid_pos ng ->
  total3 ng (fun x => wave ng c x * wave ng d x * total3 ng (fun e => g e * wave ng e x))%C =
  (RtoC (mesh_size ng) * g (closing ng c d))%C.
Proof.
  intros G. unfold closing. rewrite <- total3_same by exact G.
  rewrite (total3_ext _ _ (fun x => total3 ng (fun e => g e * (wave ng (cell_add c d) x * wave ng e x))%C)).
  - rewrite total3_swap. apply total3_ext. intros e _. rewrite total3_scal. f_equal.
    rewrite (total3_ext _ _ (fun x => Cconj (wave ng (cell_opp (cell_add c d)) x * Cconj (wave ng e x)))%C).
    + rewrite <- total3_conj, wave_orth by exact G. destruct same_cell; apply Cconj_RtoC.
    + intros x _. rewrite wave_opp, !Cconj_mult, !Cconj_inv. reflexivity.
  - intros x _. rewrite <- total3_scal. apply total3_ext. intros e _. rewrite wave_add. ring.
Qed.

Lemma triangle_sum ng A B (u v g : gcell -> C) : grid_pos ng ->
  total3 ng (fun x => csum (map (fun c => u c * wave ng c x) A) * csum (map (fun d => v d * wave ng d x) B)
                      * total3 ng (fun e => g e * wave ng e x))%C =
  (RtoC (mesh_size ng) * csum (map (fun c => csum (map (fun d => u c * v d * g (closing ng c d)) B)) A))%C.
Proof.
  intros G.
  rewrite (total3_ext _ _ (fun x => csum (map (fun c => csum (map (fun d =>
    u c * v d * (wave ng c x * wave ng d x * total3 ng (fun e => g e * wave ng e x))) B)) A))%C).
  - rewrite <- csum_total3, <- csum_map_scal. apply csum_map_ext. intros c _.
    rewrite <- csum_total3, <- csum_map_scal. apply csum_map_ext. intros d _.
    rewrite total3_scal, wave_triple by exact G. ring.
  - intros x _. rewrite csum_mult, Cmult_comm, <- csum_map_scal. apply csum_map_ext. intros c _.
    rewrite <- csum_map_scal. apply csum_map_ext. intros d _. ring.
Qed.

(** One component of the raw bispectrum as a mean over triangles. *)
Theorem component_triangles :
  forall P st dn G l1 l2 a b m1 m2 M, sound st ->
  (RtoC (vol_cell (st_mesh st)) * raw_component P st dn G l1 l2 a b (m1, m2, M))%C =
  pair_mean (modes_of st a) (modes_of st b) (fun k1 k2 =>
    let k3 := closing (ngrid (st_mesh st)) k1 k2 in
    reduced_ylm P l1 m1 (mode_vec st k1) * reduced_ylm P l2 m2 (mode_vec st k2)
    * (dn k1 * RtoC (/ window_at st k1)) * (dn k2 * RtoC (/ window_at st k2)) * (G M k3 * RtoC (/ window_at st k3)))%C.
Proof.
  intros P st dn G l1 l2 a b m1 m2 M (V & E). pose proof (valid_grid _ V) as HG.
  assert (W : 0 < vol_cell (st_mesh st)) by apply V. pose proof (mesh_size_pos _ HG) as MP.
  assert (HV : st_vol st <> 0) by (rewrite E; nra).
  unfold raw_component, bispec_component, pair_mean.
  set (A := modes_of st a). set (B := modes_of st b). set (ng := ngrid (st_mesh st)).
  set (u := fun c => (reduced_ylm P l1 m1 (mode_vec st c) * (dn c * RtoC (/ window_at st c)))%C).
  set (v := fun c => (reduced_ylm P l2 m2 (mode_vec st c) * (dn c * RtoC (/ window_at st c)))%C).
  set (g := fun c => (RtoC (/ st_vol st) * (G M c * RtoC (/ window_at st c)))%C).
  rewrite (csum_map_ext _ (fun x => RtoC (/ INR (length A) * / INR (length B)) *
    (csum (map (fun c => u c * wave ng c x) A) * csum (map (fun d => v d * wave ng d x) B) * total3 ng (fun e => g e * wave ng e x)))%C).
  - rewrite csum_map_scal. fold (total3 ng (fun x => csum (map (fun c => u c * wave ng c x) A) * csum (map (fun d => v d * wave ng d x) B) * total3 ng (fun e => g e * wave ng e x)))%C.
    rewrite triangle_sum by exact HG. rewrite Rinv_mult.
    set (S := csum _). transitivity (RtoC (vol_cell (st_mesh st) * mesh_size ng) * S * RtoC (/ INR (length A) * / INR (length B)))%C; [rewrite !RtoC_mult; ring|].
    f_equal. unfold S. rewrite <- csum_map_scal. apply csum_map_ext. intros c _. rewrite <- csum_map_scal. apply csum_map_ext. intros d _.
    unfold u, v, g. fold ng in E |- *. rewrite <- E.
    set (k3 := closing ng c d).
    replace (RtoC (st_vol st) * (reduced_ylm P l1 m1 (mode_vec st c) * (dn c * RtoC (/ window_at st c)) *
       (reduced_ylm P l2 m2 (mode_vec st d) * (dn d * RtoC (/ window_at st d))) * (RtoC (/ st_vol st) * (G M k3 * RtoC (/ window_at st k3)))))%C
      with ((RtoC (st_vol st) * RtoC (/ st_vol st)) * (reduced_ylm P l1 m1 (mode_vec st c) * (dn c * RtoC (/ window_at st c)) *
       (reduced_ylm P l2 m2 (mode_vec st d) * (dn d * RtoC (/ window_at st d))) * (G M k3 * RtoC (/ window_at st k3))))%C by ring.
    rewrite <- RtoC_mult, Rinv_r by exact HV. ring.
  - intros x _. unfold band, band_field, compensated, inv_fourier. fold ng. fold (modes_of st a) (modes_of st b). fold A B.
    change (band_modes ng (dk_of (st_mesh st)) (b_lo a) (b_hi a)) with A. change (band_modes ng (dk_of (st_mesh st)) (b_lo b) (b_hi b)) with B.
    rewrite (csum_map_ext _ (fun c => u c * wave ng c x)%C) by (intros [[i j] k] _; unfold u, wave, mode_vec, window_at; reflexivity).
    rewrite (csum_map_ext (fun c : Z * Z * Z => let '(i, j, k) := c in (reduced_ylm P l2 m2 _ * _ * _)%C) (fun d => v d * wave ng d x)%C)
      by (intros [[i j] k] _; unfold v, wave, mode_vec, window_at; reflexivity).
    rewrite (csum_map_ext (fun c : Z * Z * Z => let '(i, j, k) := c in (RtoC (/ st_vol st) * _ * _)%C) (fun e => g e * wave ng e x)%C)
      by (intros [[i j] k] _; unfold g, wave, window_at; reflexivity).
    unfold total3. rewrite RtoC_mult. unfold A, B, cell in *. ring.
Qed.

(** *** Loops *)
Lemma term_loop_keys c V : forall K0, exists K, forall add acc,
  fold_left (term_step c add) V (K0, acc) = (K0 ++ K, acc + csum (map add K))%C.
Proof.
  induction V as [|t V IH]; intros K0.
  - exists []. intros add acc. cbn. rewrite app_nil_r. f_equal. now rewrite Cplus_0_r.
  - cbn [fold_left]. destruct (existsb (is_inverse t) K0) eqn:E1.
    + destruct (IH K0) as [K HK]. exists K. intros add acc. unfold term_step at 2. rewrite E1. apply HK.
    + destruct (Rltb (Rabs (c t)) eps_coupling) eqn:E2.
      * destruct (IH K0) as [K HK]. exists K. intros add acc. unfold term_step at 2. rewrite E1, E2. apply HK.
      * destruct (IH (K0 ++ [t])) as [K HK]. exists (t :: K). intros add acc. unfold term_step at 2. rewrite E1, E2, HK.
        rewrite <- app_assoc. cbn [app map]. f_equal. rewrite csum_cons. ring.
Qed.
Lemma term_loop_csum c V : exists K, forall add, term_loop c add V = csum (map add K).
Proof.
  destruct (term_loop_keys c V []) as [K HK]. exists K. intros add. unfold term_loop. rewrite HK. cbn [snd]. ring.
Qed.
Lemma term_loop_order c mirror v V :
  snd (order_loop c mirror v V) =
  term_loop c (fun t => RtoC (c t) * mirrored_sum (if is_zeros t then 0 else mirror) (v t))%C V.
Proof.
  reflexivity.
Qed.
Lemma term_loop_ext c f g V : (forall t, f t = g t) -> term_loop c f V = term_loop c g V.
Proof.
  intros H. destruct (term_loop_csum c V) as [K HK]. rewrite !HK. apply csum_map_ext. intros t _. apply H.
Qed.
Lemma term_loop_scal c a f V : term_loop c (fun t => a * f t)%C V = (a * term_loop c f V)%C.
Proof. destruct (term_loop_csum c V) as [K HK]. rewrite !HK. apply csum_map_scal. Qed.
Lemma term_loop_plus c f g V : term_loop c (fun t => f t + g t)%C V = (term_loop c f V + term_loop c g V)%C.
Proof. destruct (term_loop_csum c V) as [K HK]. rewrite !HK. apply csum_map_plus. Qed.

Lemma mirrored_scal f r z : mirrored_sum f (RtoC r * z)%C = (RtoC r * mirrored_sum f z)%C.
Proof. unfold mirrored_sum. rewrite Cconj_mult, Cconj_RtoC. ring. Qed.

(** *** Reversal of modes *)
Lemma neg_index_mod n i : (0 <= i < n)%Z -> neg_index n i = ((- i) mod n)%Z.
Proof.
  intros H. unfold neg_index. destruct (Z.eqb_spec i 0) as [->|N]; [reflexivity|]. apply (Z.mod_unique_pos _ _ (-1)); lia.
Qed.
Lemma neg_cell_mod ng c : grid_cell ng c -> neg_cell ng c = cell_mod ng (cell_opp c).
Proof.
  destruct c as [[i j] k]. intros (H0 & H1 & H2). cbn. now rewrite !neg_index_mod.
Qed.
Lemma closing_grid ng k1 k2 : grid_pos ng -> grid_cell ng (closing ng k1 k2).
Proof. intros G. now apply cell_mod_grid. Qed.
Lemma opp_mod_opp n u : (0 < n)%Z -> ((- ((- u) mod n)) mod n = u mod n)%Z.
Proof.
  intros H. rewrite <- (Z.opp_involutive u) at 2. rewrite <- !(Z.sub_0_l). now rewrite Zminus_mod_idemp_r.
Qed.
Lemma closing_neg ng k1 k2 : grid_pos ng -> grid_cell ng k1 -> grid_cell ng k2 ->
  closing ng (neg_cell ng k1) (neg_cell ng k2) = neg_cell ng (closing ng k1 k2).
Proof.
  intros G H1 H2. rewrite (neg_cell_mod ng (closing ng k1 k2)) by now apply closing_grid. rewrite !neg_cell_mod by assumption.
  unfold closing. destruct k1 as [[a b] c], k2 as [[d e] f], G as (G0 & G1 & G2). cbn [cell_mod cell_opp cell_add].
  assert (X : forall n u v, (0 < n)%Z -> ((- ((- u) mod n + (- v) mod n)) mod n = (- ((- (u + v)) mod n)) mod n)%Z).
  { intros n u v Hn. rewrite opp_mod_opp by exact Hn.
    rewrite <- (Z.sub_0_l ((- u) mod n + (- v) mod n)), Zminus_mod, <- Zplus_mod, <- Zminus_mod. f_equal. lia. }
  now rewrite !X.
Qed.
Lemma closing_sym ng k1 k2 : closing ng k1 k2 = closing ng k2 k1.
Proof. unfold closing. destruct k1 as [[a b] c], k2 as [[d e] f]. cbn. now rewrite (Z.add_comm a), (Z.add_comm b), (Z.add_comm c). Qed.

Lemma In_modes st b c : In c (modes_of st b) <-> bin_modes st b c.
Proof.
  unfold modes_of, band_modes, bin_modes. rewrite filter_In, In_grid_cells. unfold in_band, mode_len.
  rewrite andb_true_iff, Rleb_spec, Rltb_spec. tauto.
Qed.
Lemma NoDup_modes st b : NoDup (modes_of st b).
Proof. apply NoDup_filter, NoDup_grid_cells. Qed.

(** Bins whose modes lie below the Nyquist frequency (and off or on the polar axis by the
    code's tolerance), and pairs of such bins whose triangles do, or need not. *)
Definition safe_bin (st : settings) (b : bin3) : Prop :=
  forall c, bin_modes st b c -> interior (ngrid (st_mesh st)) c /\ off_axis (mode_vec st c).
Definition safe_mode (st : settings) (c : gcell) : Prop :=
  interior (ngrid (st_mesh st)) c \/ (st_interlace st = false /\ even_grid (ngrid (st_mesh st))).
Definition safe_triangles (st : settings) (a b : bin3) : Prop :=
  safe_bin st a /\ safe_bin st b /\
  forall k1 k2, bin_modes st a k1 -> bin_modes st b k2 -> safe_mode st (closing (ngrid (st_mesh st)) k1 k2).

Lemma modes_neg st b c : safe_bin st b -> bin_modes st b c -> bin_modes st b (neg_cell (ngrid (st_mesh st)) c).
Proof.
  intros S H. destruct (S c H) as [I _]. destruct H as [G H]. split; [now apply neg_cell_grid|].
  unfold mode_len in *. now rewrite wavevector_neg, vec_mod_opp.
Qed.
Lemma pair_mean_neg st a b f : safe_bin st a -> safe_bin st b ->
  pair_mean (modes_of st a) (modes_of st b) f =
  pair_mean (modes_of st a) (modes_of st b) (fun k1 k2 => f (neg_cell (ngrid (st_mesh st)) k1) (neg_cell (ngrid (st_mesh st)) k2)).
Proof.
  intros Sa Sb. unfold pair_mean. f_equal. symmetry.
  assert (X : forall b g, safe_bin st b -> csum (map (fun c => g (neg_cell (ngrid (st_mesh st)) c)) (modes_of st b)) = csum (map g (modes_of st b))).
  { intros b' g S. apply csum_neg; [apply NoDup_modes| |]; intros c H; [now apply In_modes in H as [H _]|].
    apply In_modes. apply modes_neg; [exact S|]. now apply In_modes. }
  rewrite <- (X a (fun k1 => csum (map (f k1) (modes_of st b)))) by exact Sa. apply csum_map_ext. intros k1 _.
  now rewrite <- (X b (f (neg_cell (ngrid (st_mesh st)) k1))) by exact Sb.
Qed.
Lemma pair_mean_ext A B f g : (forall k1 k2, In k1 A -> In k2 B -> f k1 k2 = g k1 k2) -> pair_mean A B f = pair_mean A B g.
Proof.
  intros H. unfold pair_mean. f_equal. apply csum_map_ext. intros k1 H1. apply csum_map_ext. intros k2 H2. now apply H.
Qed.
Lemma pair_mean_scal A B z f : pair_mean A B (fun k1 k2 => z * f k1 k2)%C = (z * pair_mean A B f)%C.
Proof.
  unfold pair_mean. rewrite (csum_map_ext _ (fun k1 => z * csum (map (f k1) B))%C).
  - rewrite csum_map_scal. ring.
  - intros k1 _. apply csum_map_scal.
Qed.
Lemma pair_mean_conj A B f : Cconj (pair_mean A B f) = pair_mean A B (fun k1 k2 => Cconj (f k1 k2)).
Proof.
  unfold pair_mean. rewrite Cconj_mult, Cconj_RtoC, csum_conj, map_map. f_equal. apply csum_map_ext. intros k1 _.
  now rewrite csum_conj, map_map.
Qed.
Lemma pair_mean_sum {T} A B (f : T -> gcell -> gcell -> C) l :
  csum (map (fun t => pair_mean A B (f t)) l) = pair_mean A B (fun k1 k2 => csum (map (fun t => f t k1 k2) l)).
Proof.
  unfold pair_mean. induction l as [|t l IH]; cbn [map].
  - rewrite (csum_map_ext _ (fun _ => RtoC 0)).
    + rewrite csum_map_zero by reflexivity. cbn. ring.
    + intros k1 _. now apply csum_map_zero.
  - rewrite csum_cons, IH, <- Cmult_plus_distr_r. f_equal. rewrite <- csum_map_plus. apply csum_map_ext. intros k1 _.
    rewrite <- csum_map_plus. apply csum_map_ext. intros k2 _. now rewrite csum_cons.
Qed.

Lemma window_at_neg st c : valid (st_mesh st) -> grid_cell (ngrid (st_mesh st)) c -> safe_mode st c ->
  window_at st (neg_cell (ngrid (st_mesh st)) c) = window_at st c.
Proof.
  intros V H S. pose proof (valid_grid _ V) as G. destruct c as [[i j] k]. unfold window_at, neg_cell.
  destruct S as [(N0 & N1 & N2)|(_ & _ & E0 & E1 & E2)].
  - apply window_neg; auto.
  - destruct H as (H0 & H1 & H2). apply window_neg; [exact G|repeat split; tauto| | |]; apply even_axis; assumption.
Qed.

(** A component at mirrored orders. *)
Lemma component_mirror P st dn G l1 l2 a b m1 m2 M : sound st -> legendre_like P ->
  (Z.abs m1 <= l1)%Z -> (Z.abs m2 <= l2)%Z -> safe_triangles st a b ->
  (forall c, bin_modes st a c \/ bin_modes st b c -> dn (neg_cell (ngrid (st_mesh st)) c) = Cconj (dn c)) ->
  (forall k1 k2, bin_modes st a k1 -> bin_modes st b k2 ->
     G (- M)%Z (neg_cell (ngrid (st_mesh st)) (closing (ngrid (st_mesh st)) k1 k2)) =
     (RtoC (sign M) * Cconj (G M (closing (ngrid (st_mesh st)) k1 k2)))%C) ->
  (RtoC (vol_cell (st_mesh st)) * raw_component P st dn G l1 l2 a b (- m1, - m2, - M)%Z)%C =
  (RtoC (sign (l1 + l2 + (m1 + m2 + M))) * Cconj (RtoC (vol_cell (st_mesh st)) * raw_component P st dn G l1 l2 a b (m1, m2, M)))%C.
Proof.
  intros S LP B1 B2 (Sa & Sb & St) HD HG. pose proof S as (V & _). pose proof (valid_grid _ V) as GP.
  rewrite !component_triangles by exact S. rewrite pair_mean_neg by assumption. rewrite pair_mean_conj, <- pair_mean_scal.
  apply pair_mean_ext. intros k1 k2 H1 H2. apply In_modes in H1. apply In_modes in H2.
  destruct (Sa k1 H1) as [I1 O1]. destruct (Sb k2 H2) as [I2 O2]. pose proof (proj1 H1) as G1. pose proof (proj1 H2) as G2.
  cbv zeta. rewrite closing_neg by assumption. set (k3 := closing (ngrid (st_mesh st)) k1 k2).
  assert (S3 : safe_mode st k3) by now apply St. assert (G3 : grid_cell (ngrid (st_mesh st)) k3) by now apply closing_grid.
  rewrite !window_at_neg by (try assumption; now left).
  assert (VN : forall c, grid_cell (ngrid (st_mesh st)) c -> interior (ngrid (st_mesh st)) c ->
    mode_vec st (neg_cell (ngrid (st_mesh st)) c) = opp3 (mode_vec st c)) by (intros; now apply wavevector_neg).
  rewrite !VN by assumption. unfold k3 at 1. rewrite HG by assumption. fold k3.
  rewrite !HD by auto. rewrite !ylm_opposite_order, !ylm_parity by assumption.
  rewrite !Cconj_mult, !Cconj_RtoC.
  replace (l1 + l2 + (m1 + m2 + M))%Z with ((l1 + m1) + (l2 + m2) + M)%Z by lia.
  rewrite (sign_plus (l1 + m1 + (l2 + m2)) M), (sign_plus (l1 + m1) (l2 + m2)), (sign_plus l1 m1), (sign_plus l2 m2), !RtoC_mult. ring.
Qed.

Lemma single_neg_safe st p c : valid (st_mesh st) -> handled st p -> grid_cell (ngrid (st_mesh st)) c -> safe_mode st c ->
  single st p (neg_cell (ngrid (st_mesh st)) c) = Cconj (single st p c).
Proof.
  intros V H Hc [Ic|[I _]]; [now apply single_neg|].
  pose proof (valid_grid _ V) as G. unfold single, transform. rewrite I.
  assert (HM : forall c, fourier (ngrid (st_mesh st)) (vol_cell (st_mesh st)) (f_main (unweighted_field st [p])) c =
    fourier (ngrid (st_mesh st)) (vol_cell (st_mesh st)) (fun x => RtoC (share cells grid_loc (st_scheme st) (st_mesh st) (p_pos p) x / vol_cell (st_mesh st))) c)
    by (intros; apply fourier_grid; intros; now apply unit_main).
  rewrite !HM. apply (fourier_hermitian _ _ _ G); [intros; apply Cconj_RtoC|exact Hc].
Qed.

(** The pairs of modes in any order. *)
Definition modes_listed (st : settings) (b : bin3) (A : list gcell) : Prop := NoDup A /\ forall c, In c A <-> bin_modes st b c.
Lemma modes_listed_perm st b A : modes_listed st b A -> Permutation A (modes_of st b).
Proof.
  intros [N H]. apply NoDup_Permutation; [exact N|apply NoDup_modes|]. intros c. rewrite H. symmetry. apply In_modes.
Qed.
Lemma pair_mean_perm A A' B B' f : Permutation A A' -> Permutation B B' -> pair_mean A B f = pair_mean A' B' f.
Proof.
  intros HA HB. unfold pair_mean. rewrite (Permutation_length HA), (Permutation_length HB). f_equal.
  rewrite (csum_perm (map _ A) (map (fun k1 => csum (map (f k1) B)) A')) by now apply Permutation_map.
  apply csum_map_ext. intros k1 _. apply csum_perm. now apply Permutation_map.
Qed.
Lemma modes_listed_nil st b A : modes_listed st b A -> A <> [] -> (length (modes_of st b) =? 0)%nat = false.
Proof.
  intros H N. apply Nat.eqb_neq. intros E. apply N, length_zero_iff_nil. exact (eq_trans (Permutation_length (modes_listed_perm _ _ _ H)) E).
Qed.

Lemma sign_parity l1 l2 L : sign (l1 + l2 + L) = 1 -> sign (l1 + l2) = sign L.
Proof.
  intros H. rewrite sign_plus in H. pose proof (sign_sqr L). 
  replace (sign (l1 + l2)) with (sign (l1 + l2) * sign L * sign L) by (rewrite Rmult_assoc, H0; ring). rewrite H. ring.
Qed.

Lemma raw_loop (c : triplet -> R) L vc v V :
  term_loop c (fun t => RtoC (c t) * RtoC vc * mirrored_sum (mirror_of L t) (v t))%C V =
  snd (order_loop c (powerRZ (-1) L) (fun t => RtoC vc * v t)%C V).
Proof.
  rewrite term_loop_order. apply term_loop_ext. intros t. rewrite mirrored_scal. unfold mirror_of. ring.
Qed.

(** The sum over orders of means over triangles. *)
Lemma weighted_triangles P st dn (G : Z -> gcell -> C) l1 l2 L a b ts : sound st ->
  weighted_sum l1 l2 L (wigner_3j l1 l2 L) (fun t => RtoC (vol_cell (st_mesh st)) * raw_component P st dn G l1 l2 a b t)%C ts =
  pair_mean (modes_of st a) (modes_of st b) (fun k1 k2 =>
    dn k1 * dn k2 *
    csum (map (fun t => let '(m1, m2, M) := t in RtoC (weight l1 l2 L (wigner_3j l1 l2 L) t) *
      (reduced_ylm P l1 m1 (mode_vec st k1) * reduced_ylm P l2 m2 (mode_vec st k2) * G M (closing (ngrid (st_mesh st)) k1 k2))) ts)
    * RtoC (/ (window_at st k1 * window_at st k2 * window_at st (closing (ngrid (st_mesh st)) k1 k2))))%C.
Proof.
  intros S. unfold weighted_sum.
  rewrite (csum_map_ext _ (fun t => pair_mean (modes_of st a) (modes_of st b) (fun k1 k2 =>
    (dn k1 * dn k2 * RtoC (/ (window_at st k1 * window_at st k2 * window_at st (closing (ngrid (st_mesh st)) k1 k2)))) *
    (let '(m1, m2, M) := t in RtoC (weight l1 l2 L (wigner_3j l1 l2 L) t) *
      (reduced_ylm P l1 m1 (mode_vec st k1) * reduced_ylm P l2 m2 (mode_vec st k2) * G M (closing (ngrid (st_mesh st)) k1 k2))))%C)).
  - rewrite pair_mean_sum. apply pair_mean_ext. intros k1 k2 _ _. rewrite csum_map_scal. ring.
  - intros [[m1 m2] M] _. rewrite component_triangles by exact S. rewrite <- pair_mean_scal. apply pair_mean_ext. intros k1 k2 _ _.
    cbv zeta. rewrite !Rinv_mult, !RtoC_mult. ring.
Qed.

(** ** C77: bispectra as means over triangles *)

(** The survey bispectrum multipoles. *)
Theorem bispectrum_is_triangle_average :
  forall P sj st ord wd wr l1 l2 L data rand norm a b A B,
  let w := wigner_3j l1 l2 L in
  sound st -> legendre_like P -> (0 <= L)%Z -> all_handled st data rand ->
  validate_coupling w = Ok tt -> well_separated l1 l2 L w ->
  safe_triangles st a b -> modes_listed st a A -> modes_listed st b B -> A <> [] -> B <> [] ->
  let obs := objects (wd / wr) data rand in
  let delta k := csum (map (fun o => RtoC (weight_of o) * single st (part_of o) k)%C obs) in
  exists out, compute_bispec P sj w st ord wd wr l1 l2 L data rand norm a b = Ok out /\
  t_raw out = (RtoC norm * pair_mean A B (fun k1 k2 =>
    let k3 := closing (ngrid (st_mesh st)) k1 k2 in
    delta k1 * delta k2
    * csum (map (fun o => RtoC (weight_of o) * triplet_harmonic P l1 l2 L (mode_vec st k1) (mode_vec st k2) (los_of o) * single st (part_of o) k3) obs)
    * RtoC (/ (window_at st k1 * window_at st k2 * window_at st k3))))%C.
Proof.
  intros P sj st ord wd wr l1 l2 L data rand norm a b A B w S LP HL H V W ST HA HB NA NB obs delta.
  pose proof S as (VM & _). pose proof (valid_grid _ VM) as GP.
  unfold compute_bispec, bispec_entry. rewrite V. cbn [bind].
  rewrite (modes_listed_nil _ _ _ HA NA), (modes_listed_nil _ _ _ HB NB). cbn [orb].
  eexists. split; [reflexivity|]. cbn [t_raw]. f_equal. rewrite raw_loop.
  rewrite (survey_total l1 l2 L w); [|exact V|apply wigner_reversal|exact W|].
  - change (csum (map _ (all_orders l1 l2 L))) with (weighted_sum l1 l2 L w (fun t => RtoC (vol_cell (st_mesh st)) *
      raw_component P st (transform st (ylm_wgtd_field P st (wd / wr) 0 0 data rand)) (s_dn (survey_sources P st (wd / wr) L data rand)) l1 l2 a b t)%C (all_orders l1 l2 L)).
    unfold w. rewrite weighted_triangles by exact S.
    rewrite (pair_mean_perm A (modes_of st a) B (modes_of st b)) by now apply modes_listed_perm.
    apply pair_mean_ext. intros k1 k2 H1 H2. cbv zeta. set (k3 := closing (ngrid (st_mesh st)) k1 k2).
    f_equal. f_equal.
    + assert (D : forall k, transform st (ylm_wgtd_field P st (wd / wr) 0 0 data rand) k = delta k).
      { intros k. rewrite transform_objects by assumption. fold obs. apply csum_map_ext. intros o _. rewrite (proj1 (ylm_special P _)). ring. }
      now rewrite !D.
    + rewrite (csum_map_ext _ (fun t => csum (map (fun o => RtoC (weight_of o) * single st (part_of o) k3 * (let '(m1, m2, M) := t in
        RtoC (weight l1 l2 L (wigner_3j l1 l2 L) t) * (reduced_ylm P l1 m1 (mode_vec st k1) * reduced_ylm P l2 m2 (mode_vec st k2) * reduced_ylm P L M (los_of o)))) obs))%C).
      * rewrite csum_swap. apply csum_map_ext. intros o _. rewrite csum_map_scal. unfold triplet_harmonic. ring.
      * intros [[m1 m2] M] _. cbn [survey_sources s_dn]. rewrite transform_objects by assumption. fold obs.
        rewrite <- !csum_map_scal. apply csum_map_ext. intros o _. ring.
  - intros [[m1 m2] M] (R1 & R2 & R3) NZ. cbn [mirrored].
    assert (Sel : (m1 + m2 + M = 0)%Z) by (apply (wigner_selection l1 l2 L); intros E; apply NZ; unfold weight, w; rewrite E; ring).
    rewrite component_mirror; [|exact S|exact LP|lia|lia|exact ST| |].
    + rewrite Sel, Z.add_0_r. rewrite (sign_parity l1 l2 L) by (apply (validated_even l1 l2 L w V), wigner_reversal).
      reflexivity.
    + intros c Hc. rewrite !transform_objects by assumption. fold obs. rewrite csum_conj, map_map. apply csum_map_ext. intros o Ho.
      assert (HO := In_objects _ _ _ _ _ H Ho). 
      assert (I : grid_cell (ngrid (st_mesh st)) c /\ interior (ngrid (st_mesh st)) c)
        by (destruct Hc as [Hc|Hc]; (split; [apply Hc|]); [apply (proj1 ST)|apply (proj1 (proj2 ST))]; exact Hc).
      rewrite single_neg by tauto. rewrite !Cconj_mult, Cconj_RtoC, (proj1 (ylm_special P _)), Cconj_RtoC. reflexivity.
    + intros k1 k2 H1 H2. cbn [survey_sources s_dn]. rewrite !transform_objects by assumption. fold obs.
      rewrite csum_conj, map_map, <- csum_map_scal. apply csum_map_ext. intros o Ho. assert (HO := In_objects _ _ _ _ _ H Ho).
      rewrite single_neg_safe; [|exact VM|exact HO|now apply closing_grid|now apply (proj2 (proj2 ST))].
      rewrite ylm_opposite_order, !Cconj_mult, Cconj_RtoC. ring.
Qed.

(** The vectors of modes and of separations by axis: integer multiples of the fundamental
    wavenumber and of the grid step, the integers being congruent to the indices. *)
Definition signed_axis (n i s : Z) : Prop := (exists q, s = i + n * q)%Z /\ (n / 2 - n <= s < n / 2)%Z.
Lemma shift_signed n i : (0 <= i < n)%Z -> signed_axis n i (shift_index n i).
Proof.
  intros H. unfold signed_axis, shift_index. assert (n / 2 <= n)%Z by (apply Z.div_le_upper_bound; lia). destruct (Z.ltb_spec i (n / 2)).
  - split; [exists 0%Z; lia|lia].
  - assert (0 <= n / 2)%Z by (apply Z.div_pos; lia). split; [exists (-1)%Z; lia|lia].
Qed.
Lemma signed_unique n i s t : signed_axis n i s -> signed_axis n i t -> s = t.
Proof.
  intros [[p ->] H1] [[q ->] H2]. set (h := (n / 2)%Z) in *. clearbody h. assert (0 < n)%Z by lia.
  destruct (Z.lt_trichotomy p q) as [L|[->|L]]; [|reflexivity|]; exfalso.
  - assert (n * (p + 1) <= n * q)%Z by (apply Z.mul_le_mono_nonneg_l; lia). lia.
  - assert (n * (q + 1) <= n * p)%Z by (apply Z.mul_le_mono_nonneg_l; lia). lia.
Qed.

Theorem mesh_vectors :
  forall st i j k s0 s1 s2, grid_cell (ngrid (st_mesh st)) (i, j, k) ->
  let n := ngrid (st_mesh st) in let box := boxsize (st_mesh st) in
  signed_axis (ax0 n) i s0 -> signed_axis (ax1 n) j s1 -> signed_axis (ax2 n) k s2 ->
  mode_vec st (i, j, k) = (IZR s0 * (2 * PI / ax0 box), IZR s1 * (2 * PI / ax1 box), IZR s2 * (2 * PI / ax2 box)) /\
  wavevector n (dr_of (st_mesh st)) (i, j, k) =
    (IZR s0 * (ax0 box / IZR (ax0 n)), IZR s1 * (ax1 box / IZR (ax1 n)), IZR s2 * (ax2 box / IZR (ax2 n))).
Proof.
  intros st i j k s0 s1 s2 (G0 & G1 & G2) n box H0 H1 H2. unfold mode_vec, wavevector, dk_of, dr_of. cbn [ax0 ax1 ax2].
  rewrite !grid_vector_shift.
  rewrite (signed_unique _ _ _ _ H0 (shift_signed _ _ G0)), (signed_unique _ _ _ _ H1 (shift_signed _ _ G1)), (signed_unique _ _ _ _ H2 (shift_signed _ _ G2)).
  split; reflexivity.
Qed.

(** Bins fine enough for all their triangles to lie below the Nyquist frequency. *)
Definition resolved (st : settings) (a b : bin3) : Prop :=
  let n := ngrid (st_mesh st) in let box := boxsize (st_mesh st) in
  let axis nn ll := 2 * (b_hi a + b_hi b) <= 2 * PI / ll * (IZR nn - 1) in
  axis (ax0 n) (ax0 box) /\ axis (ax1 n) (ax1 box) /\ axis (ax2 n) (ax2 box).

Definition sum3 (u v : R * R * R) : R * R * R :=
  let '(x, y, z) := u in let '(a, b, c) := v in (x + a, y + b, z + c).

Lemma axis_le_len x y z : Rabs x <= vec_mod (x, y, z) /\ Rabs y <= vec_mod (x, y, z) /\ Rabs z <= vec_mod (x, y, z).
Proof.
  unfold vec_mod. rewrite <- !sqrt_Rsqr_abs. unfold Rsqr. repeat split; apply sqrt_le_1_alt; nra.
Qed.
Lemma mode_off_axis st c : eps_sph <= 2 * PI / ax0 (boxsize (st_mesh st)) -> eps_sph <= 2 * PI / ax1 (boxsize (st_mesh st)) -> off_axis (mode_vec st c).
Proof.
  intros D0 D1. destruct c as [[i j] k]. unfold mode_vec, wavevector, off_axis, dk_of. cbn [ax0 ax1 ax2]. rewrite !grid_vector_shift.
  set (d0 := 2 * PI / ax0 _) in *. set (d1 := 2 * PI / ax1 _) in *. clearbody d0 d1.
  set (s := shift_index _ i). set (t := shift_index _ j). assert (B := eps_sph_pos).
  assert (N : forall u : Z, u <> 0%Z -> 1 <= Rabs (IZR u)) by (intros u Hu; rewrite <- abs_IZR; apply IZR_le; lia).
  assert (Q : forall x y, Rabs x <= sqrt (x * x + y * y) /\ Rabs y <= sqrt (x * x + y * y)).
  { intros x y. rewrite <- !sqrt_Rsqr_abs. unfold Rsqr. split; apply sqrt_le_1_alt; nra. }
  destruct (Z.eq_dec s 0) as [E0|N0].
  - destruct (Z.eq_dec t 0) as [E1|N1].
    + left. rewrite E0, E1. lra.
    + right. eapply Rle_trans; [|exact (proj2 (Q _ _))]. rewrite Rabs_mult, (Rabs_pos_eq d1) by lra. specialize (N t N1). nra.
  - right. eapply Rle_trans; [|exact (proj1 (Q _ _))]. rewrite Rabs_mult, (Rabs_pos_eq d0) by lra. specialize (N s N0). nra.
Qed.

Lemma axis_closing n i j : (0 < n)%Z -> (2 * Z.abs (shift_index n i + shift_index n j) + 1 < n)%Z ->
  (0 <= i < n)%Z -> (0 <= j < n)%Z ->
  shift_index n ((- (i + j)) mod n) = (- (shift_index n i + shift_index n j))%Z.
Proof.
  intros Hn H Hi Hj. destruct (shift_signed n i Hi) as [[p Ep] _]. destruct (shift_signed n j Hj) as [[q Eq] _].
  set (s := shift_index n i) in *. set (t := shift_index n j) in *. clearbody s t.
  assert (M : (0 <= (- (i + j)) mod n < n)%Z) by (apply Z.mod_pos_bound; lia).
  apply (signed_unique n ((- (i + j)) mod n)); [now apply shift_signed|]. split.
  - exists ((- (i + j)) / n - p - q)%Z. pose proof (Z.div_mod (- (i + j)) n ltac:(lia)). lia.
  - assert (D := Z.div_mod n 2 ltac:(lia)). assert (0 <= n mod 2 < 2)%Z by (apply Z.mod_pos_bound; lia). lia.
Qed.
Lemma axis_resolved d n h1 h2 s t : 0 < d -> 2 * (h1 + h2) <= d * (IZR n - 1) -> Rabs (IZR s * d) < h1 -> Rabs (IZR t * d) < h2 ->
  (2 * Z.abs (s + t) + 1 < n)%Z.
Proof.
  intros Hd H H1 H2. apply lt_IZR. rewrite plus_IZR, mult_IZR, abs_IZR, plus_IZR.
  rewrite Rabs_mult, (Rabs_pos_eq d) in H1, H2 by lra. pose proof (Rabs_triang (IZR s) (IZR t)). 
  assert (d * (2 * Rabs (IZR s + IZR t) + 1) < d * IZR n) by nra. nra.
Qed.
Lemma axis_interior n s : (2 * Z.abs s + 1 < n)%Z -> (Z.abs s < n / 2)%Z.
Proof.
  intros H. assert (D := Z.div_mod n 2 ltac:(lia)). assert (0 <= n mod 2 < 2)%Z by (apply Z.mod_pos_bound; lia). lia.
Qed.

(** Then the three wavevectors of every triangle add up to zero and no mode is lost. *)
Theorem resolved_triangles :
  forall st a b, sound st -> resolved st a b ->
  0 < ax0 (boxsize (st_mesh st)) -> 0 < ax1 (boxsize (st_mesh st)) -> 0 < ax2 (boxsize (st_mesh st)) ->
  forall k1 k2, bin_modes st a k1 -> bin_modes st b k2 ->
  let k3 := closing (ngrid (st_mesh st)) k1 k2 in
  grid_cell (ngrid (st_mesh st)) k3 /\ sum3 (sum3 (mode_vec st k1) (mode_vec st k2)) (mode_vec st k3) = (0, 0, 0) /\
  interior (ngrid (st_mesh st)) k1 /\ interior (ngrid (st_mesh st)) k2 /\ interior (ngrid (st_mesh st)) k3.
Proof.
  intros st a b (V & _) (R0 & R1 & R2) L0 L1 L2 k1 k2 [G1 H1] [G2 H2] k3. pose proof (valid_grid _ V) as GP. pose proof PI_RGT_0 as HPI.
  split; [now apply closing_grid|]. unfold k3, closing, mode_len in *. set (ng := ngrid (st_mesh st)) in *.
  destruct k1 as [[i j] k], k2 as [[i' j'] k']. destruct G1 as (I0 & I1 & I2), G2 as (J0 & J1 & J2), GP as (P0 & P1 & P2).
  cbn [cell_mod cell_opp cell_add]. unfold mode_vec, wavevector, dk_of, interior, below_nyquist in *. cbn [ax0 ax1 ax2] in *.
  rewrite !grid_vector_shift in *.
  set (d0 := 2 * PI / ax0 _) in *. set (d1 := 2 * PI / ax1 _) in *. set (d2 := 2 * PI / ax2 _) in *.
  assert (D0 : 0 < d0) by (apply Rdiv_lt_0_compat; lra). assert (D1 : 0 < d1) by (apply Rdiv_lt_0_compat; lra).
  assert (D2 : 0 < d2) by (apply Rdiv_lt_0_compat; lra). clearbody d0 d1 d2.
  set (v1 := vec_mod _) in H1. set (v2 := vec_mod _) in H2.
  destruct (axis_le_len (IZR (shift_index (ax0 ng) i) * d0) (IZR (shift_index (ax1 ng) j) * d1) (IZR (shift_index (ax2 ng) k) * d2)) as (A0 & A1 & A2).
  destruct (axis_le_len (IZR (shift_index (ax0 ng) i') * d0) (IZR (shift_index (ax1 ng) j') * d1) (IZR (shift_index (ax2 ng) k') * d2)) as (B0 & B1 & B2).
  fold v1 in A0, A1, A2. fold v2 in B0, B1, B2.
  assert (PA : 0 <= v1) by (eapply Rle_trans; [apply Rabs_pos|exact A0]).
  assert (PB : 0 <= v2) by (eapply Rle_trans; [apply Rabs_pos|exact B0]). clearbody v1 v2.
  assert (X : forall d n s t, 0 < d -> 2 * (b_hi a + b_hi b) <= d * (IZR n - 1) -> Rabs (IZR s * d) <= v1 -> Rabs (IZR t * d) <= v2 ->
    (2 * Z.abs (s + t) + 1 < n)%Z /\ (Z.abs s < n / 2)%Z /\ (Z.abs t < n / 2)%Z).
  { intros d n s t Hd H HA HB. split; [apply (axis_resolved d n (b_hi a) (b_hi b)); try assumption; lra|]. split; apply axis_interior.
    - replace s with (s + 0)%Z by lia. apply (axis_resolved d n (b_hi a) (b_hi b)); try assumption; [lra|]. rewrite Rmult_0_l, Rabs_R0. lra.
    - replace t with (0 + t)%Z by lia. apply (axis_resolved d n (b_hi a) (b_hi b)); try assumption; [|lra]. rewrite Rmult_0_l, Rabs_R0. lra. }
  destruct (X d0 (ax0 ng) _ _ D0 R0 A0 B0) as (X0 & Y0 & Z0). destruct (X d1 (ax1 ng) _ _ D1 R1 A1 B1) as (X1 & Y1 & Z1).
  destruct (X d2 (ax2 ng) _ _ D2 R2 A2 B2) as (X2 & Y2 & Z2).
  rewrite !axis_closing by assumption. split; [|split; [tauto|split; [tauto|]]].
  - unfold sum3. fold ng. rewrite !opp_IZR, !plus_IZR. f_equal; [f_equal|]; ring.
  - rewrite !Z.abs_opp. repeat split; now apply axis_interior.
Qed.

Corollary resolved_safe :
  forall st a b, sound st -> resolved st a b ->
  0 < ax0 (boxsize (st_mesh st)) -> 0 < ax1 (boxsize (st_mesh st)) -> 0 < ax2 (boxsize (st_mesh st)) ->
  eps_sph <= 2 * PI / ax0 (boxsize (st_mesh st)) -> eps_sph <= 2 * PI / ax1 (boxsize (st_mesh st)) ->
  (exists c, bin_modes st a c) -> (exists c, bin_modes st b c) -> safe_triangles st a b.
Proof.
  intros st a b S R L0 L1 L2 E0 E1 [c1 C1] [c2 C2]. pose proof (resolved_triangles st a b S R L0 L1 L2) as T.
  split; [|split].
  - intros c Hc. split; [exact (proj1 (proj2 (proj2 (T c c2 Hc C2))))|now apply mode_off_axis].
  - intros c Hc. split; [exact (proj1 (proj2 (proj2 (proj2 (T c1 c C1 Hc)))))|now apply mode_off_axis].
  - intros k1 k2 H1 H2. left. exact (proj2 (proj2 (proj2 (proj2 (T k1 k2 H1 H2))))).
Qed.

(** Without that condition modes below the Nyquist frequency are combined with a third
    mode that does not close the triangle. *)
Definition grid4 : mesh_params := MeshParams (T3 4 4 4)%Z (T3 4 4 4) 1.
Definition st4 : settings := Settings NGP 1 false grid4 64.
Definition bin4 : bin3 := Bin3 1 3 2.
Theorem triangles_closed_refuted :
  exists st a k1 k2, sound st /\ bin_modes st a k1 /\ bin_modes st a k2 /\
  interior (ngrid (st_mesh st)) k1 /\ interior (ngrid (st_mesh st)) k2 /\
  sum3 (sum3 (mode_vec st k1) (mode_vec st k2)) (mode_vec st (closing (ngrid (st_mesh st)) k1 k2)) <> (0, 0, 0).
Proof.
  exists st4, bin4, (3, 0, 0)%Z, (3, 0, 0)%Z.
  assert (S : sound st4) by (unfold sound, valid, st4, grid4, mesh_size; cbn; repeat split; try lia; lra).
  assert (B : bin_modes st4 bin4 (3, 0, 0)%Z).
  { split; [unfold grid_cell; cbn; lia|]. unfold mode_len, wavevector, dk_of, vec_mod. cbn [st4 st_mesh grid4 ngrid boxsize ax0 ax1 ax2 bin4 b_lo b_hi].
    rewrite !grid_vector_shift. change (shift_index 4 3) with (-1)%Z. change (shift_index 4 0) with 0%Z.
    pose proof PI2_3_2. pose proof PI_4. replace (_ + _) with (Rsqr (PI / 2)) by (unfold Rsqr; field). rewrite sqrt_Rsqr by lra. lra. }
  split; [exact S|]. split; [exact B|]. split; [exact B|].
  assert (I : interior (ngrid (st_mesh st4)) (3, 0, 0)%Z) by (unfold interior, below_nyquist; cbn; lia).
  split; [exact I|]. split; [exact I|].
  change (closing _ _ _) with (2, 0, 0)%Z. unfold mode_vec, wavevector, dk_of, sum3. cbn [st4 st_mesh grid4 ngrid boxsize ax0 ax1 ax2].
  rewrite !grid_vector_shift. change (shift_index 4 3) with (-1)%Z. change (shift_index 4 2) with (-2)%Z. change (shift_index 4 0) with 0%Z.
  intros E. assert (X : IZR (-1) * (2 * PI / 4) + IZR (-1) * (2 * PI / 4) + IZR (-2) * (2 * PI / 4) = 0) by congruence.
  pose proof PI_RGT_0. lra.
Qed.

(** *** Periodic boxes *)
Definition box_delta (st : settings) (ps : list pdatum) (k : gcell) : C :=
  if cell_eqb k cell0 then RtoC (if st_interlace st then INR (length ps) / 2 else 0)
  else csum (map (fun p => single st p k) ps).
Definition box_harmonic (P : Z -> Z -> R -> R) (l1 l2 L : Z) (u v : R * R * R) : C :=
  csum (map (fun t => let '(m1, m2, M) := t in
    RtoC (weight l1 l2 L (wigner_3j l1 l2 L) t) * (reduced_ylm P l1 m1 u * reduced_ylm P l2 m2 v))%C (all_orders l1 l2 0)).

Lemma unweighted_transform st ps k : valid (st_mesh st) -> (forall p, In p ps -> handled st p) ->
  transform st (unweighted_field st ps) k = csum (map (fun p => single st p k) ps).
Proof.
  intros V H. rewrite (transform_sum st ps (fun _ => RtoC 1) (fun p => p) (unweighted_field st ps) k V).
  - apply csum_map_ext. intros. ring.
  - exact H.
  - intros x Hx. unfold unweighted_field at 1. rewrite main_value; [|exact V| |exact Hx].
    + rewrite map_map. apply csum_map_ext. intros p Hp. rewrite unit_main by (try assumption; now apply H). reflexivity.
    + intros q Hq. apply in_map_iff in Hq. destruct Hq as (p & <- & Hp). exact (proj1 (H p Hp)).
  - intros I x Hx. unfold unweighted_field at 1. rewrite shadow_value; [|exact V| |exact Hx].
    + rewrite map_map. apply csum_map_ext. intros p Hp. rewrite unit_shadow by (try assumption; now apply H). reflexivity.
    + intros q Hq. apply in_map_iff in Hq. destruct Hq as (p & <- & Hp). exact (proj2 (H p Hp) I).
Qed.
Lemma fluctuation_transform st ps k : sound st -> (st_interlace st = true -> two_cells st) ->
  (forall p, In p ps -> handled st p) -> grid_cell (ngrid (st_mesh st)) k ->
  transform st (fluctuation_field st ps) k = box_delta st ps k.
Proof.
  intros S T H Hk. pose proof S as (V & _).
  assert (HS : st_interlace st = true -> two_cells st /\ forall p, In p ps -> shadow_handles (st_scheme st) (st_mesh st) (unit_particle p)).
  { intros I. split; [now apply T|]. intros p Hp. exact (proj2 (H p Hp) I). }
  destruct (fluctuation_modes st ps S (fun p Hp => proj1 (H p Hp)) HS) as [M0 Z0].
  unfold box_delta. destruct (cell_eqb_spec k cell0) as [->|N]; [exact Z0|]. rewrite M0 by assumption.
  now apply unweighted_transform.
Qed.
Lemma neg_cell_zero ng c : grid_cell ng c -> cell_eqb (neg_cell ng c) cell0 = cell_eqb c cell0.
Proof.
  destruct c as [[i j] k]. intros (H0 & H1 & H2).
  assert (X : forall n i, (0 <= i < n)%Z -> neg_index n i = 0%Z <-> i = 0%Z).
  { intros n u Hu. unfold neg_index. destruct (Z.eqb_spec u 0); lia. }
  unfold neg_cell. destruct (cell_eqb_spec (i, j, k) cell0) as [E|N], (cell_eqb_spec (neg_index (ax0 ng) i, neg_index (ax1 ng) j, neg_index (ax2 ng) k) cell0) as [E'|N'];
    try reflexivity; exfalso; unfold cell0 in *.
  - apply N'. injection E. intros -> -> ->. reflexivity.
  - apply N. injection E'. intros E2 E1 E0. apply X in E0; [|assumption]. apply X in E1; [|assumption]. apply X in E2; [|assumption]. now subst.
Qed.
Lemma box_delta_neg st ps c : valid (st_mesh st) -> (forall p, In p ps -> handled st p) -> grid_cell (ngrid (st_mesh st)) c -> safe_mode st c ->
  box_delta st ps (neg_cell (ngrid (st_mesh st)) c) = Cconj (box_delta st ps c).
Proof.
  intros V H Hc S. unfold box_delta. rewrite neg_cell_zero by exact Hc. destruct (cell_eqb c cell0); [now rewrite Cconj_RtoC|].
  rewrite csum_conj, map_map. apply csum_map_ext. intros p Hp. apply single_neg_safe; auto.
Qed.

Theorem box_bispectrum_is_triangle_average :
  forall P sj st ord l1 l2 L ps norm a b A B,
  let w := wigner_3j l1 l2 L in
  sound st -> (st_interlace st = true -> two_cells st) -> legendre_like P -> (0 <= L)%Z -> (forall p, In p ps -> handled st p) ->
  validate_coupling w = Ok tt -> well_separated l1 l2 L w ->
  safe_triangles st a b -> modes_listed st a A -> modes_listed st b B -> A <> [] -> B <> [] ->
  exists out, compute_bispec_in_gpp_box P sj w st ord l1 l2 L ps norm a b = Ok out /\
  t_raw out = (RtoC norm * pair_mean A B (fun k1 k2 =>
    let k3 := closing (ngrid (st_mesh st)) k1 k2 in
    box_delta st ps k1 * box_delta st ps k2 * box_delta st ps k3 * box_harmonic P l1 l2 L (mode_vec st k1) (mode_vec st k2)
    * RtoC (/ (window_at st k1 * window_at st k2 * window_at st k3))))%C.
Proof.
  intros P sj st ord l1 l2 L ps norm a b A B w S T LP HL H V W ST HA HB NA NB.
  pose proof S as (VM & _). pose proof (valid_grid _ VM) as GP.
  unfold compute_bispec_in_gpp_box, bispec_entry. rewrite V. cbn [bind].
  rewrite (modes_listed_nil _ _ _ HA NA), (modes_listed_nil _ _ _ HB NB). cbn [orb].
  eexists. split; [reflexivity|]. cbn [t_raw]. f_equal. rewrite raw_loop.
  set (v := fun t => (RtoC (vol_cell (st_mesh st)) * raw_component P st (transform st (fluctuation_field st ps)) (s_dn (box_sources st ps)) l1 l2 a b t)%C).
  assert (E : raw_box l1 l2 L w v = Ok (weighted_sum l1 l2 L w v (all_orders l1 l2 0))).
  { apply box_sum_complete; [exact HL|exact V|apply wigner_reversal|exact W|].
    intros [[m1 m2] M] (R1 & R2 & R3) NZ. cbn [mirrored].
    assert (Sel : (m1 + m2 + M = 0)%Z) by (apply (wigner_selection l1 l2 L); intros E; apply NZ; unfold weight, w; rewrite E; ring).
    assert (M = 0)%Z by lia. subst M. unfold v.
    rewrite component_mirror; [|exact S|exact LP|lia|lia|exact ST| |].
    - rewrite Sel, Z.add_0_r. rewrite (sign_parity l1 l2 L) by (apply (validated_even l1 l2 L w V), wigner_reversal). reflexivity.
    - intros c Hc. 
      assert (I : grid_cell (ngrid (st_mesh st)) c /\ interior (ngrid (st_mesh st)) c)
        by (destruct Hc as [Hc|Hc]; (split; [apply Hc|]); [apply (proj1 ST)|apply (proj1 (proj2 ST))]; exact Hc).
      rewrite !fluctuation_transform; try assumption; [|tauto|now apply neg_cell_grid]. apply box_delta_neg; try assumption; [tauto|left; tauto].
    - intros k1 k2 H1 H2. cbn [box_sources s_dn]. assert (G3 := closing_grid _ k1 k2 GP).
      rewrite !fluctuation_transform; try assumption; [|now apply neg_cell_grid]. rewrite sign_0, Cmult_1_l.
      apply box_delta_neg; try assumption. now apply (proj2 (proj2 ST)). }
  unfold raw_box in E. rewrite V in E. cbn [bind] in E. injection E as E. rewrite E.
  unfold w, v. rewrite weighted_triangles by exact S.
  rewrite (pair_mean_perm A (modes_of st a) B (modes_of st b)) by now apply modes_listed_perm.
  apply pair_mean_ext. intros k1 k2 H1 H2. cbv zeta. set (k3 := closing (ngrid (st_mesh st)) k1 k2).
  apply In_modes in H1. apply In_modes in H2.
  rewrite !fluctuation_transform; try assumption; [|apply H2|apply H1]. f_equal.
  rewrite <- !Cmult_assoc. f_equal. f_equal.
  unfold box_harmonic. rewrite <- csum_map_scal. apply csum_map_ext. intros [[m1 m2] M] _. cbn [box_sources s_dn].
  rewrite fluctuation_transform; try assumption; [ring|]. now apply closing_grid.
Qed.

(** ** C78: symmetries *)

(** Exchange of the first two columns of a 3-j symbol. *)
Theorem wigner_exchange :
  forall l1 l2 L m1 m2 M, wigner_3j l2 l1 L (m2, m1, M) = sign (l1 + l2 + L) * wigner_3j l1 l2 L (m1, m2, M).
Proof.
  intros l1 l2 L m1 m2 M. rewrite <- (wigner_reversal l1 l2 L (m1, m2, M)). unfold wigner_3j, mirrored. rewrite !Z.abs_opp.
  replace (- m1 + - m2 + - M =? 0)%Z with (m2 + m1 + M =? 0)%Z by (destruct (Z.eqb_spec (m2 + m1 + M) 0), (Z.eqb_spec (- m1 + - m2 + - M) 0); lia).
  replace (Z.abs (l2 - l1)) with (Z.abs (l1 - l2)) by lia. rewrite (Z.add_comm l2 l1).
  replace ((m2 + m1 + M =? 0) && (Z.abs m2 <=? l2) && (Z.abs m1 <=? l1))%Z with ((m2 + m1 + M =? 0) && (Z.abs m1 <=? l1) && (Z.abs m2 <=? l2))%Z
    by (destruct (m2 + m1 + M =? 0)%Z, (Z.abs m1 <=? l1)%Z, (Z.abs m2 <=? l2)%Z; reflexivity).
  destruct ((m2 + m1 + M =? 0) && _ && _ && _ && _ && _)%Z; [|reflexivity].
  replace (sign (l2 - l1 - M)) with (sign (l1 - l2 - - M)).
  2: { replace (l1 - l2 - - M)%Z with ((l2 - l1 - M) + 2 * (l1 - l2 + M))%Z by lia. rewrite sign_plus, sign_even. ring. }
  f_equal; [f_equal; [f_equal|]|].
  - f_equal. f_equal. replace (- l1 + l2 + L)%Z with (l2 - l1 + L)%Z by lia. replace (- l2 + l1 + L)%Z with (l1 - l2 + L)%Z by lia. ring.
  - f_equal. replace (l1 + - m1)%Z with (l1 - m1)%Z by lia. replace (l1 - - m1)%Z with (l1 + m1)%Z by lia.
    replace (l2 + - m2)%Z with (l2 - m2)%Z by lia. replace (l2 - - m2)%Z with (l2 + m2)%Z by lia.
    replace (L + - M)%Z with (L - M)%Z by lia. replace (L - - M)%Z with (L + M)%Z by lia. ring.
  - f_equal. apply map_ext. intros k. unfold racah_term.
    replace (l2 + l1 - L - k)%Z with (l1 + l2 - L - k)%Z by lia. 
    replace (l1 - - m1 - k)%Z with (l1 + m1 - k)%Z by lia. replace (l2 + - m2 - k)%Z with (l2 - m2 - k)%Z by lia.
    replace (L - l2 + - m1 + k)%Z with (L - l2 - m1 + k)%Z by lia. replace (L - l1 - - m2 + k)%Z with (L - l1 + m2 + k)%Z by lia.
    cbn [forallb map fold_right].
    set (x := (0 <=? k)%Z). set (y := (0 <=? l1 + l2 - L - k)%Z). set (p := (0 <=? l2 - m2 - k)%Z). set (q := (0 <=? l1 + m1 - k)%Z).
    set (r := (0 <=? L - l1 + m2 + k)%Z). set (s := (0 <=? L - l2 - m1 + k)%Z).
    replace (x && (y && (q && (p && (s && (r && true))))))%bool with (x && (y && (p && (q && (r && (s && true))))))%bool
      by (destruct x, y, p, q, r, s; reflexivity).
    destruct (x && _)%bool; [|reflexivity]. f_equal. ring.
Qed.

Definition swap12 (t : triplet) : triplet := let '(m1, m2, M) := t in (m2, m1, M).
Lemma weight_exchange l1 l2 L t : sign (l1 + l2 + L) = 1 ->
  weight l2 l1 L (wigner_3j l2 l1 L) (swap12 t) = weight l1 l2 L (wigner_3j l1 l2 L) t.
Proof.
  intros S. destruct t as [[m1 m2] M]. unfold weight, swap12. rewrite (wigner_exchange l1 l2 L m1 m2 M), (wigner_exchange l1 l2 L 0 0 0), S. ring.
Qed.
Lemma orders_swap l1 l2 L : Permutation (map swap12 (all_orders l1 l2 L)) (all_orders l2 l1 L).
Proof.
  apply NoDup_Permutation.
  - apply FinFun.Injective_map_NoDup; [|apply NoDup_all_orders]. intros [[a b] c] [[d e] f] E. unfold swap12 in E. congruence.
  - apply NoDup_all_orders.
  - intros [[a b] c]. rewrite in_map_iff, In_all_orders. split.
    + intros ([[d e] f] & E & H). apply In_all_orders in H. unfold swap12 in E. injection E as <- <- <-. unfold in_range in *. tauto.
    + intros H. exists (b, a, c). split; [reflexivity|]. apply In_all_orders. unfold in_range in *. tauto.
Qed.
Lemma orders_mirror l1 l2 L : Permutation (map mirrored (all_orders l1 l2 L)) (all_orders l1 l2 L).
Proof.
  apply NoDup_Permutation.
  - apply FinFun.Injective_map_NoDup; [|apply NoDup_all_orders]. intros x y E. now rewrite <- (mirrored_inv x), E, mirrored_inv.
  - apply NoDup_all_orders.
  - intros t. rewrite in_map_iff, In_all_orders. split.
    + intros (u & <- & H). apply In_all_orders in H. now apply mirrored_range.
    + intros H. exists (mirrored t). split; [apply mirrored_inv|]. apply In_all_orders. now apply mirrored_range.
Qed.

Lemma harmonic_exchange P l1 l2 L u v n : sign (l1 + l2 + L) = 1 -> triplet_harmonic P l2 l1 L v u n = triplet_harmonic P l1 l2 L u v n.
Proof.
  intros S. unfold triplet_harmonic.
  rewrite <- (csum_perm _ _ (Permutation_map _ (orders_swap l1 l2 L))), map_map. apply csum_map_ext. intros t _.
  rewrite <- (weight_exchange l1 l2 L t S). destruct t as [[m1 m2] M]. cbn [swap12]. ring.
Qed.
Lemma box_harmonic_exchange P l1 l2 L u v : sign (l1 + l2 + L) = 1 -> box_harmonic P l2 l1 L v u = box_harmonic P l1 l2 L u v.
Proof.
  intros S. unfold box_harmonic.
  rewrite <- (csum_perm _ _ (Permutation_map _ (orders_swap l1 l2 0))), map_map. apply csum_map_ext. intros t _.
  rewrite <- (weight_exchange l1 l2 L t S). destruct t as [[m1 m2] M]. cbn [swap12]. ring.
Qed.

Lemma ylm_conj P l m v : Cconj (reduced_ylm P l m v) = (RtoC (sign m) * reduced_ylm P l (- m) v)%C.
Proof. rewrite ylm_opposite_order, Cmult_assoc, <- RtoC_mult, sign_sqr. ring. Qed.
Lemma weight_selects l1 l2 L m1 m2 M z : 
  (RtoC (weight l1 l2 L (wigner_3j l1 l2 L) (m1, m2, M)) * (RtoC (sign m1) * RtoC (sign m2) * RtoC (sign M) * z))%C =
  (RtoC (weight l1 l2 L (wigner_3j l1 l2 L) (m1, m2, M)) * z)%C.
Proof.
  destruct (Req_dec (wigner_3j l1 l2 L (m1, m2, M)) 0) as [E|E].
  - unfold weight. rewrite E, Rmult_0_r. ring.
  - apply wigner_selection in E. destruct E as [E _].
    replace (RtoC (sign m1) * RtoC (sign m2) * RtoC (sign M))%C with (RtoC (sign (m1 + m2 + M))) by (rewrite !sign_plus, !RtoC_mult; ring).
    rewrite E, sign_0. ring.
Qed.
Lemma weight_mirror l1 l2 L t : sign (l1 + l2 + L) = 1 ->
  weight l1 l2 L (wigner_3j l1 l2 L) (mirrored t) = weight l1 l2 L (wigner_3j l1 l2 L) t.
Proof. intros S. unfold weight. rewrite (wigner_reversal l1 l2 L t), S. ring. Qed.

Lemma harmonic_real P l1 l2 L u v n : sign (l1 + l2 + L) = 1 -> Cconj (triplet_harmonic P l1 l2 L u v n) = triplet_harmonic P l1 l2 L u v n.
Proof.
  intros S. unfold triplet_harmonic. rewrite csum_conj, map_map.
  rewrite <- (csum_perm _ _ (Permutation_map _ (orders_mirror l1 l2 L))) at 1. rewrite map_map. apply csum_map_ext. intros t _.
  rewrite <- (weight_mirror l1 l2 L t S). destruct t as [[m1 m2] M]. cbn [mirrored]. rewrite Cconj_mult, Cconj_RtoC, !Cconj_mult, !ylm_conj, !Z.opp_involutive.
  rewrite <- (weight_selects l1 l2 L (- m1) (- m2) (- M) (reduced_ylm P l1 m1 u * reduced_ylm P l2 m2 v * reduced_ylm P L M n)%C). ring.
Qed.

Lemma box_harmonic_real P l1 l2 L u v : sign (l1 + l2 + L) = 1 -> Cconj (box_harmonic P l1 l2 L u v) = box_harmonic P l1 l2 L u v.
Proof.
  intros S. unfold box_harmonic. rewrite csum_conj, map_map.
  rewrite <- (csum_perm _ _ (Permutation_map _ (orders_mirror l1 l2 0))) at 1. rewrite map_map. apply csum_map_ext. intros t Ht.
  rewrite <- (weight_mirror l1 l2 L t S). destruct t as [[m1 m2] M]. apply In_all_orders in Ht. destruct Ht as (_ & _ & HM).
  assert (M = 0)%Z by lia. subst M. cbn [mirrored]. rewrite Cconj_mult, Cconj_RtoC, !Cconj_mult, !ylm_conj, !Z.opp_involutive.
  rewrite <- (weight_selects l1 l2 L (- m1) (- m2) (- 0) (reduced_ylm P l1 m1 u * reduced_ylm P l2 m2 v)%C).
  change (- 0)%Z with 0%Z. rewrite sign_0. ring.
Qed.
Lemma harmonic_parity P l1 l2 L u v n : legendre_like P -> off_axis u -> off_axis v ->
  triplet_harmonic P l1 l2 L (opp3 u) (opp3 v) n = (RtoC (sign (l1 + l2)) * triplet_harmonic P l1 l2 L u v n)%C.
Proof.
  intros LP Hu Hv. unfold triplet_harmonic. rewrite <- csum_map_scal. apply csum_map_ext. intros [[m1 m2] M] H.
  apply In_all_orders in H. destruct H as (H1 & H2 & _). rewrite !ylm_parity by (try assumption; lia). rewrite sign_plus, RtoC_mult. ring.
Qed.
Lemma box_harmonic_parity P l1 l2 L u v : legendre_like P -> off_axis u -> off_axis v ->
  box_harmonic P l1 l2 L (opp3 u) (opp3 v) = (RtoC (sign (l1 + l2)) * box_harmonic P l1 l2 L u v)%C.
Proof.
  intros LP Hu Hv. unfold box_harmonic. rewrite <- csum_map_scal. apply csum_map_ext. intros [[m1 m2] M] H.
  apply In_all_orders in H. destruct H as (H1 & H2 & _). rewrite !ylm_parity by (try assumption; lia). rewrite sign_plus, RtoC_mult. ring.
Qed.

(** A mean over pairs of modes of a function that turns into its conjugate times a sign. *)
Lemma pair_mean_parity st a b f s : safe_bin st a -> safe_bin st b ->
  (forall k1 k2, bin_modes st a k1 -> bin_modes st b k2 ->
     f (neg_cell (ngrid (st_mesh st)) k1) (neg_cell (ngrid (st_mesh st)) k2) = (RtoC s * Cconj (f k1 k2))%C) ->
  pair_mean (modes_of st a) (modes_of st b) f = (RtoC s * Cconj (pair_mean (modes_of st a) (modes_of st b) f))%C.
Proof.
  intros Sa Sb H. rewrite pair_mean_neg at 1 by assumption. rewrite pair_mean_conj, <- pair_mean_scal. apply pair_mean_ext.
  intros k1 k2 H1 H2. apply H; now apply In_modes.
Qed.

Lemma parity_split (z : C) L : z = (RtoC (sign L) * Cconj z)%C -> (Z.Even L -> snd z = 0) /\ (Z.Odd L -> fst z = 0).
Proof.
  intros E. destruct z as [x y]. unfold RtoC, Cconj, Cmult in E. cbn [fst snd] in *. injection E as E1 E2. split; intros (q & ->).
  - rewrite sign_even in E2. lra.
  - rewrite sign_plus, sign_even, sign_1 in E1. lra.
Qed.

(** Raw multipoles of even degree [L] are real, of odd degree imaginary. *)
Theorem bispectrum_parity :
  forall P sj st ord wd wr l1 l2 L data rand norm a b out,
  let w := wigner_3j l1 l2 L in
  sound st -> legendre_like P -> (0 <= L)%Z -> all_handled st data rand -> well_separated l1 l2 L w -> safe_triangles st a b ->
  compute_bispec P sj w st ord wd wr l1 l2 L data rand norm a b = Ok out ->
  (Z.Even L -> snd (t_raw out) = 0) /\ (Z.Odd L -> fst (t_raw out) = 0).
Proof.
  intros P sj st ord wd wr l1 l2 L data rand norm a b out w S LP HL H W ST E. pose proof S as (VM & _). pose proof (valid_grid _ VM) as GP.
  assert (V : validate_coupling w = Ok tt).
  { unfold compute_bispec, bispec_entry in E. destruct (validate_coupling w) as [[]|]; [reflexivity|discriminate]. }
  assert (NN : modes_of st a <> [] /\ modes_of st b <> []).
  { unfold compute_bispec, bispec_entry in E. rewrite V in E. cbn [bind] in E. 
    destruct (modes_of st a) as [|x A], (modes_of st b) as [|y B]; cbn [length Nat.eqb orb] in E; try discriminate. split; discriminate. }
  assert (LS : forall c, modes_listed st c (modes_of st c)) by (intros c; split; [apply NoDup_modes|apply In_modes]).
  destruct (bispectrum_is_triangle_average P sj st ord wd wr l1 l2 L data rand norm a b _ _ S LP HL H V W ST (LS a) (LS b) (proj1 NN) (proj2 NN))
    as (out' & E' & R). unfold w in E. rewrite E in E'. injection E' as <-.
  apply parity_split. rewrite R. set (f := fun k1 k2 : gcell => _).
  assert (SP : sign (l1 + l2 + L) = 1) by (apply (validated_even l1 l2 L w V), wigner_reversal).
  rewrite (pair_mean_parity st a b f (sign L)) at 1.
  - rewrite Cconj_mult, Cconj_RtoC. ring.
  - apply ST.
  - apply ST.
  - intros k1 k2 H1 H2. destruct (proj1 ST k1 H1) as [I1 O1]. destruct (proj1 (proj2 ST) k2 H2) as [I2 O2].
    pose proof (proj1 H1) as G1. pose proof (proj1 H2) as G2. assert (S3 := proj2 (proj2 ST) k1 k2 H1 H2). assert (G3 := closing_grid _ k1 k2 GP).
    unfold f. cbv zeta. rewrite closing_neg by assumption. rewrite !window_at_neg by (try assumption; now left).
    assert (VN : forall c, grid_cell (ngrid (st_mesh st)) c -> interior (ngrid (st_mesh st)) c ->
      mode_vec st (neg_cell (ngrid (st_mesh st)) c) = opp3 (mode_vec st c)) by (intros; now apply wavevector_neg).
    rewrite !VN by assumption. rewrite !Cconj_mult, Cconj_RtoC, !csum_conj, !map_map.
    rewrite Cmult_assoc. f_equal.
    rewrite (csum_map_ext _ (fun o => Cconj (RtoC (weight_of o) * single st (part_of o) k1)%C)).
    2: { intros o Ho. apply (In_objects st) in Ho; [|exact H]. rewrite single_neg, Cconj_mult, Cconj_RtoC by assumption. reflexivity. }
    rewrite (csum_map_ext (fun o => RtoC (weight_of o) * single st (part_of o) (neg_cell (ngrid (st_mesh st)) k2))%C (fun o => Cconj (RtoC (weight_of o) * single st (part_of o) k2)%C)).
    2: { intros o Ho. apply (In_objects st) in Ho; [|exact H]. rewrite single_neg, Cconj_mult, Cconj_RtoC by assumption. reflexivity. }
    set (X := csum (map (fun o => Cconj (RtoC (weight_of o) * single st (part_of o) k1)%C) _)).
    set (Y := csum (map (fun o => Cconj (RtoC (weight_of o) * single st (part_of o) k2)%C) _)).
    match goal with |- _ = (_ * (_ * _ * ?z))%C => transitivity (X * Y * (RtoC (sign L) * z))%C; [|ring] end. f_equal. rewrite <- csum_map_scal. apply csum_map_ext. intros o Ho.
    apply (In_objects st) in Ho; [|exact H]. rewrite harmonic_parity by assumption. rewrite single_neg_safe by assumption.
    rewrite !Cconj_mult, Cconj_RtoC, harmonic_real by exact SP. rewrite (sign_parity l1 l2 L SP). ring.
Qed.

Lemma entry_ok P sj w st ord d N src vis l1 l2 L norm a b out :
  bispec_entry P sj w st ord d N src vis l1 l2 L norm a b = Ok out ->
  validate_coupling w = Ok tt /\ modes_of st a <> [] /\ modes_of st b <> [].
Proof.
  intros E. unfold bispec_entry in E. destruct (validate_coupling w) as [[]|] eqn:V; [|discriminate]. cbn [bind] in E. split; [reflexivity|].
  destruct (modes_of st a) as [|x A], (modes_of st b) as [|y B]; cbn [length Nat.eqb orb] in E; try discriminate. split; discriminate.
Qed.
Lemma modes_of_listed st b : modes_listed st b (modes_of st b).
Proof. split; [apply NoDup_modes|apply In_modes]. Qed.

Theorem box_bispectrum_parity :
  forall P sj st ord l1 l2 L ps norm a b out,
  let w := wigner_3j l1 l2 L in
  sound st -> (st_interlace st = true -> two_cells st) -> legendre_like P -> (0 <= L)%Z -> (forall p, In p ps -> handled st p) ->
  well_separated l1 l2 L w -> safe_triangles st a b ->
  compute_bispec_in_gpp_box P sj w st ord l1 l2 L ps norm a b = Ok out ->
  (Z.Even L -> snd (t_raw out) = 0) /\ (Z.Odd L -> fst (t_raw out) = 0).
Proof.
  intros P sj st ord l1 l2 L ps norm a b out w S T LP HL H W ST E. pose proof S as (VM & _). pose proof (valid_grid _ VM) as GP.
  destruct (entry_ok _ _ _ _ _ _ _ _ _ _ _ _ _ _ _ _ E) as (V & NA & NB).
  destruct (box_bispectrum_is_triangle_average P sj st ord l1 l2 L ps norm a b _ _ S T LP HL H V W ST (modes_of_listed st a) (modes_of_listed st b) NA NB)
    as (out' & E' & R). unfold w in E. rewrite E in E'. injection E' as <-.
  apply parity_split. rewrite R. set (f := fun k1 k2 : gcell => _).
  assert (SP : sign (l1 + l2 + L) = 1) by (apply (validated_even l1 l2 L w V), wigner_reversal).
  rewrite (pair_mean_parity st a b f (sign L)) at 1.
  - rewrite Cconj_mult, Cconj_RtoC. ring.
  - apply ST.
  - apply ST.
  - intros k1 k2 H1 H2. destruct (proj1 ST k1 H1) as [I1 O1]. destruct (proj1 (proj2 ST) k2 H2) as [I2 O2].
    pose proof (proj1 H1) as G1. pose proof (proj1 H2) as G2. assert (S3 := proj2 (proj2 ST) k1 k2 H1 H2). assert (G3 := closing_grid _ k1 k2 GP).
    unfold f. cbv zeta. rewrite closing_neg by assumption. rewrite !window_at_neg by (try assumption; now left).
    assert (VN : forall c, grid_cell (ngrid (st_mesh st)) c -> interior (ngrid (st_mesh st)) c ->
      mode_vec st (neg_cell (ngrid (st_mesh st)) c) = opp3 (mode_vec st c)) by (intros; now apply wavevector_neg).
    rewrite !VN by assumption. rewrite !box_delta_neg by (try assumption; now left). rewrite box_harmonic_parity by assumption.
    rewrite !Cconj_mult, Cconj_RtoC, box_harmonic_real by exact SP. rewrite (sign_parity l1 l2 L SP). ring.
Qed.

(** Degrees and bins exchanged together. *)
Lemma exchange_valid l1 l2 L : validate_coupling (wigner_3j l1 l2 L) = Ok tt ->
  validate_coupling (wigner_3j l2 l1 L) = Ok tt /\ sign (l1 + l2 + L) = 1.
Proof.
  intros V. assert (S : sign (l1 + l2 + L) = 1) by (apply (validated_even l1 l2 L _ V), wigner_reversal). split; [|exact S].
  unfold validate_coupling in *. rewrite (wigner_exchange l1 l2 L 0 0 0), S, Rmult_1_l. exact V.
Qed.
Lemma exchange_separated l1 l2 L : sign (l1 + l2 + L) = 1 -> well_separated l1 l2 L (wigner_3j l1 l2 L) -> well_separated l2 l1 L (wigner_3j l2 l1 L).
Proof.
  intros S W [[m2 m1] M] H. change (m2, m1, M) with (swap12 (m1, m2, M)). rewrite weight_exchange by exact S. apply W. unfold in_range in *. tauto.
Qed.
Lemma safe_exchange st a b : safe_triangles st a b -> safe_triangles st b a.
Proof. intros (A & B & C). split; [exact B|split; [exact A|]]. intros k1 k2 H1 H2. rewrite closing_sym. now apply C. Qed.
Lemma pair_mean_exchange A B f : pair_mean A B f = pair_mean B A (fun k2 k1 => f k1 k2).
Proof. unfold pair_mean. rewrite csum_swap. rewrite (Rmult_comm (INR (length A))). reflexivity. Qed.

Theorem bispectrum_exchange :
  forall P sj st ord ord' wd wr l1 l2 L data rand norm a b out out',
  sound st -> legendre_like P -> (0 <= L)%Z -> all_handled st data rand -> well_separated l1 l2 L (wigner_3j l1 l2 L) -> safe_triangles st a b ->
  compute_bispec P sj (wigner_3j l1 l2 L) st ord wd wr l1 l2 L data rand norm a b = Ok out ->
  compute_bispec P sj (wigner_3j l2 l1 L) st ord' wd wr l2 l1 L data rand norm b a = Ok out' ->
  t_raw out' = t_raw out /\ t_eff1 out' = t_eff2 out /\ t_eff2 out' = t_eff1 out /\ t_n1 out' = t_n2 out /\ t_n2 out' = t_n1 out.
Proof.
  intros P sj st ord ord' wd wr l1 l2 L data rand norm a b out out' S LP HL H W ST E1 E2.
  destruct (entry_ok _ _ _ _ _ _ _ _ _ _ _ _ _ _ _ _ E1) as (V & NA & NB). destruct (exchange_valid l1 l2 L V) as [V' SP].
  destruct (bispectrum_is_triangle_average P sj st ord wd wr l1 l2 L data rand norm a b _ _ S LP HL H V W ST (modes_of_listed st a) (modes_of_listed st b) NA NB)
    as (o1 & F1 & R1). rewrite E1 in F1. injection F1 as <-.
  destruct (bispectrum_is_triangle_average P sj st ord' wd wr l2 l1 L data rand norm b a _ _ S LP HL H V' (exchange_separated _ _ _ SP W) (safe_exchange _ _ _ ST)
    (modes_of_listed st b) (modes_of_listed st a) NB NA) as (o2 & F2 & R2). rewrite E2 in F2. injection F2 as <-.
  split.
  - rewrite R1, R2. f_equal. rewrite pair_mean_exchange. apply pair_mean_ext. intros k1 k2 _ _. cbv zeta. rewrite (closing_sym _ k2 k1).
    set (obs := objects _ _ _).
    rewrite (csum_map_ext (fun o => RtoC (weight_of o) * triplet_harmonic P l2 l1 L (mode_vec st k2) (mode_vec st k1) (los_of o) * _)%C
      (fun o => RtoC (weight_of o) * triplet_harmonic P l1 l2 L (mode_vec st k1) (mode_vec st k2) (los_of o) * single st (part_of o) (closing (ngrid (st_mesh st)) k1 k2))%C)
      by (intros o _; now rewrite harmonic_exchange).
    rewrite (Rmult_comm (window_at st k2) (window_at st k1)). ring.
  - unfold compute_bispec, bispec_entry in E1, E2. rewrite V in E1. rewrite V' in E2. cbn [bind] in E1, E2.
    destruct (_ || _)%bool in E1; [discriminate|]. destruct (_ || _)%bool in E2; [discriminate|].
    injection E1 as <-. injection E2 as <-. repeat split.
Qed.

Theorem box_bispectrum_exchange :
  forall P sj st ord ord' l1 l2 L ps norm a b out out',
  sound st -> (st_interlace st = true -> two_cells st) -> legendre_like P -> (0 <= L)%Z -> (forall p, In p ps -> handled st p) ->
  well_separated l1 l2 L (wigner_3j l1 l2 L) -> safe_triangles st a b ->
  compute_bispec_in_gpp_box P sj (wigner_3j l1 l2 L) st ord l1 l2 L ps norm a b = Ok out ->
  compute_bispec_in_gpp_box P sj (wigner_3j l2 l1 L) st ord' l2 l1 L ps norm b a = Ok out' ->
  t_raw out' = t_raw out.
Proof.
  intros P sj st ord ord' l1 l2 L ps norm a b out out' S T LP HL H W ST E1 E2.
  destruct (entry_ok _ _ _ _ _ _ _ _ _ _ _ _ _ _ _ _ E1) as (V & NA & NB). destruct (exchange_valid l1 l2 L V) as [V' SP].
  destruct (box_bispectrum_is_triangle_average P sj st ord l1 l2 L ps norm a b _ _ S T LP HL H V W ST (modes_of_listed st a) (modes_of_listed st b) NA NB)
    as (o1 & F1 & R1). rewrite E1 in F1. injection F1 as <-.
  destruct (box_bispectrum_is_triangle_average P sj st ord' l2 l1 L ps norm b a _ _ S T LP HL H V' (exchange_separated _ _ _ SP W) (safe_exchange _ _ _ ST)
    (modes_of_listed st b) (modes_of_listed st a) NB NA) as (o2 & F2 & R2). rewrite E2 in F2. injection F2 as <-.
  rewrite R1, R2. f_equal. rewrite pair_mean_exchange. apply pair_mean_ext. intros k1 k2 _ _. cbv zeta. rewrite (closing_sym _ k2 k1).
  rewrite box_harmonic_exchange by exact SP. rewrite (Rmult_comm (window_at st k2) (window_at st k1)). ring.
Qed.

(** The order of the catalogues does not matter, and weights (with their sums) times [s]
    give the raw bispectrum times [s^3]. *)
Theorem bispectrum_catalogue_order :
  forall P sj st ord ord' wd wr l1 l2 L data data' rand rand' norm a b out out',
  sound st -> legendre_like P -> (0 <= L)%Z -> all_handled st data rand -> well_separated l1 l2 L (wigner_3j l1 l2 L) -> safe_triangles st a b ->
  Permutation data data' -> Permutation rand rand' ->
  compute_bispec P sj (wigner_3j l1 l2 L) st ord wd wr l1 l2 L data rand norm a b = Ok out ->
  compute_bispec P sj (wigner_3j l1 l2 L) st ord' wd wr l1 l2 L data' rand' norm a b = Ok out' ->
  t_raw out' = t_raw out.
Proof.
  intros P sj st ord ord' wd wr l1 l2 L data data' rand rand' norm a b out out' S LP HL H W ST PD PR E1 E2.
  assert (H' : all_handled st data' rand').
  { destruct H as [H1 H2]. split; intros vp Hv; [apply H1|apply H2]; (eapply Permutation_in; [apply Permutation_sym; eassumption|exact Hv]). }
  destruct (entry_ok _ _ _ _ _ _ _ _ _ _ _ _ _ _ _ _ E1) as (V & NA & NB).
  destruct (bispectrum_is_triangle_average P sj st ord wd wr l1 l2 L data rand norm a b _ _ S LP HL H V W ST (modes_of_listed st a) (modes_of_listed st b) NA NB)
    as (o1 & F1 & R1). rewrite E1 in F1. injection F1 as <-.
  destruct (bispectrum_is_triangle_average P sj st ord' wd wr l1 l2 L data' rand' norm a b _ _ S LP HL H' V W ST (modes_of_listed st a) (modes_of_listed st b) NA NB)
    as (o2 & F2 & R2). rewrite E2 in F2. injection F2 as <-.
  rewrite R1, R2. f_equal. pose proof (Permutation_sym (objects_perm (wd / wr) _ _ _ _ PD PR)) as Q. apply pair_mean_ext. intros k1 k2 _ _. cbv zeta.
  f_equal. f_equal; [f_equal|]; apply csum_perm; now apply Permutation_map.
Qed.

Theorem bispectrum_weight_scale :
  forall P sj st ord wd wr l1 l2 L data rand norm a b s out out',
  sound st -> legendre_like P -> (0 <= L)%Z -> all_handled st data rand -> well_separated l1 l2 L (wigner_3j l1 l2 L) -> safe_triangles st a b -> s <> 0 ->
  compute_bispec P sj (wigner_3j l1 l2 L) st ord wd wr l1 l2 L data rand norm a b = Ok out ->
  compute_bispec P sj (wigner_3j l1 l2 L) st ord (s * wd) (s * wr) l1 l2 L (map (scale_weight s) data) (map (scale_weight s) rand) norm a b = Ok out' ->
  t_raw out' = (RtoC (s ^ 3) * t_raw out)%C.
Proof.
  intros P sj st ord wd wr l1 l2 L data rand norm a b s out out' S LP HL H W ST Hs E1 E2.
  assert (H' : all_handled st (map (scale_weight s) data) (map (scale_weight s) rand)).
  { destruct H as [H1 H2]. split; intros vp Hv; apply in_map_iff in Hv; destruct Hv as (q & <- & Hq);
      (eapply handled_pos; [|first [exact (H1 q Hq)|exact (H2 q Hq)]]; reflexivity). }
  destruct (entry_ok _ _ _ _ _ _ _ _ _ _ _ _ _ _ _ _ E1) as (V & NA & NB).
  destruct (bispectrum_is_triangle_average P sj st ord wd wr l1 l2 L data rand norm a b _ _ S LP HL H V W ST (modes_of_listed st a) (modes_of_listed st b) NA NB)
    as (o1 & F1 & R1). rewrite E1 in F1. injection F1 as <-.
  destruct (bispectrum_is_triangle_average P sj st ord (s * wd) (s * wr) l1 l2 L _ _ norm a b _ _ S LP HL H' V W ST (modes_of_listed st a) (modes_of_listed st b) NA NB)
    as (o2 & F2 & R2). rewrite E2 in F2. injection F2 as <-.
  assert (A : s * wd / (s * wr) = wd / wr).
  { unfold Rdiv. destruct (Req_dec wr 0) as [->|N]; [rewrite Rmult_0_r, Rinv_0; ring|]. field. split; assumption. }
  rewrite R1, R2, A.
  set (sc := fun o : object => (scale_weight s (fst o), snd o)).
  assert (O : objects (wd / wr) (map (scale_weight s) data) (map (scale_weight s) rand) = map sc (objects (wd / wr) data rand)).
  { unfold objects. rewrite map_app, !map_map. reflexivity. }
  rewrite O. set (obs := objects (wd / wr) data rand).
  assert (WS : forall o, weight_of (sc o) = s * weight_of o) by (intros [[v p] t]; unfold weight_of, sc, part_of; cbn; ring).
  assert (SG : forall o k, single st (part_of (sc o)) k = single st (part_of o) k) by (intros; now apply single_pos).
  rewrite Cmult_assoc, (Cmult_comm (RtoC (s ^ 3)) (RtoC norm)), <- Cmult_assoc. f_equal. rewrite <- pair_mean_scal. apply pair_mean_ext. intros k1 k2 _ _. cbv zeta.
  assert (X1 : forall g : object -> C, (forall o, In o obs -> g (sc o) = (RtoC s * g o)%C) ->
    csum (map g (map sc obs)) = (RtoC s * csum (map g obs))%C).
  { intros g Hg. rewrite map_map, <- csum_map_scal. now apply csum_map_ext. }
  rewrite !X1.
  - replace (s ^ 3) with (s * s * s) by ring. rewrite !RtoC_mult. ring.
  - intros o _. rewrite WS, SG, RtoC_mult. change (los_of (sc o)) with (los_of o). ring.
  - intros o _. rewrite WS, SG, RtoC_mult. ring.
  - intros o _. rewrite WS, SG, RtoC_mult. ring.
Qed.

(** Coordinates reported with an entry, and bins without modes. *)
Theorem bispec_coordinates :
  forall P sj w st ord dn00 N00 src visited l1 l2 L norm a b A B,
  modes_listed st a A -> modes_listed st b B ->
  match bispec_entry P sj w st ord dn00 N00 src visited l1 l2 L norm a b with
  | Ok out =>
      validate_coupling w = Ok tt /\ A <> [] /\ B <> [] /\
      t_bin1 out = b_centre a /\ t_bin2 out = b_centre b /\
      t_n1 out = INR (length A) /\ t_n2 out = INR (length B) /\
      t_eff1 out = rsum (map (mode_len st) A) / INR (length A) /\ t_eff2 out = rsum (map (mode_len st) B) / INR (length B) /\
      b_lo a <= t_eff1 out < b_hi a /\ b_lo b <= t_eff2 out < b_hi b
  | Err e => e = InvalidParameter /\ validate_coupling w = Err InvalidParameter \/ e = NotANumber /\ (A = [] \/ B = [])
  end.
Proof.
  intros P sj w st ord dn00 N00 src visited l1 l2 L norm a b A B HA HB.
  assert (PA := modes_listed_perm _ _ _ HA). assert (PB := modes_listed_perm _ _ _ HB).
  assert (NA : (length (modes_of st a) =? 0)%nat = true <-> A = []).
  { rewrite Nat.eqb_eq. rewrite <- length_zero_iff_nil. split; intros E; [exact (eq_trans (Permutation_length PA) E)|exact (eq_trans (eq_sym (Permutation_length PA)) E)]. }
  assert (NB : (length (modes_of st b) =? 0)%nat = true <-> B = []).
  { rewrite Nat.eqb_eq. rewrite <- length_zero_iff_nil. split; intros E; [exact (eq_trans (Permutation_length PB) E)|exact (eq_trans (eq_sym (Permutation_length PB)) E)]. }
  unfold bispec_entry. destruct (validate_coupling w) as [[]|e] eqn:V; cbn [bind].
  2: { left. unfold validate_coupling in *. destruct (Rltb _ _); [|discriminate]. injection V as <-. split; reflexivity. }
  destruct (length (modes_of st a) =? 0)%nat eqn:EA; cbn [orb].
  { right. split; [reflexivity|]. left. now apply NA. }
  destruct (length (modes_of st b) =? 0)%nat eqn:EB.
  { right. split; [reflexivity|]. right. now apply NB. }
  cbn [t_bin1 t_bin2 t_n1 t_n2 t_eff1 t_eff2].
  assert (NA' : A <> []) by (intros E; apply NA in E; discriminate). assert (NB' : B <> []) by (intros E; apply NB in E; discriminate).
  assert (K : forall b A, modes_listed st b A -> A <> [] ->
    k_eff st b = rsum (map (mode_len st) A) / INR (length A) /\ INR (length (modes_of st b)) = INR (length A) /\ b_lo b <= k_eff st b < b_hi b).
  { clear. intros b A H N. assert (P := modes_listed_perm _ _ _ H).
    assert (EL : INR (length (modes_of st b)) = INR (length A)) by (f_equal; symmetry; exact (Permutation_length P)).
    assert (ES : k_eff st b = rsum (map (mode_len st) A) / INR (length A)).
    { unfold k_eff. rewrite EL. f_equal. symmetry. exact (rsum_perm _ _ (Permutation_map (mode_len st) P)). }
    split; [exact ES|]. split; [exact EL|]. rewrite ES.
    assert (Q : INR (length A) * b_lo b <= rsum (map (mode_len st) A) < INR (length A) * b_hi b).
    { assert (F : forall c, In c A -> b_lo b <= mode_len st c < b_hi b) by (intros c Hc; apply H in Hc; apply Hc).
      clear - N F. induction A as [|c l IH]; [congruence|]. cbn [map length]. rewrite rsum_cons, S_INR.
      destruct (F c (or_introl eq_refl)). destruct l as [|c' l].
      - cbn. lra.
      - destruct IH; [discriminate|intros; apply F; now right|]. lra. }
    assert (PP : 0 < INR (length A)) by (apply lt_0_INR; destruct A; [congruence|cbn; lia]).
    assert (E : rsum (map (mode_len st) A) = INR (length A) * (rsum (map (mode_len st) A) / INR (length A))) by (field; lra).
    set (m := rsum (map (mode_len st) A) / INR (length A)) in *. rewrite E in Q. clearbody m. destruct Q as [B1 B2].
    apply Rmult_le_reg_l in B1; [|exact PP]. apply Rmult_lt_reg_l in B2; [|exact PP]. lra. }
  destruct (K a A HA NA') as (K1 & K2 & K3). destruct (K b B HB NB') as (K4 & K5 & K6).
  repeat split; assumption || (try tauto); try (apply K3); try (apply K6).
Qed.

Print Assumptions bispectrum_is_triangle_average.
Print Assumptions box_bispectrum_is_triangle_average.
Print Assumptions resolved_triangles.
Print Assumptions bispectrum_exchange.
Print Assumptions bispec_coordinates.
