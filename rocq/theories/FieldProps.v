(* Claims C67 and C68: the fields on the mesh and their transforms. *)
From Coq Require Import Reals ZArith List Lia Lra Bool Permutation.
From Coquelicot Require Import Complex.
From Flocq Require Import Core.Raux.
From Verif Require Import Base ArrayModel ArrayProofs RSum MeshModel MeshIndexProps MeshProofs MeshProps MeshWindowProps
  BinVecModel BinVecProps CSum ThreePtModel SphHarmModel SphHarmProps Dft3 CatModel NormModel FieldModel.
Import ListNotations.
Open Scope R_scope.

(** ** Specification vocabulary *)

(** A particle inside the box; a sound mesh and its volume. *)
Definition inside_box (g : mesh_params) (p : pdatum) : Prop := in_box g (unit_particle p).
Definition sound (st : settings) : Prop :=
  valid (st_mesh st) /\ st_vol st = vol_cell (st_mesh st) * mesh_size (ngrid (st_mesh st)).

(** Complex weight of a particle and total weight. *)
Definition cweight (p : particle) : C := (w_re p, w_im p).

(** ** Proof support: values of assigned fields *)
Lemma grid_is_cell ng i j k : grid_cell ng (i, j, k) -> is_cell (ax0 ng) (ax1 ng) (ax2 ng) i j k.
Proof. intros H. exact H. Qed.
Lemma valid_grid g : valid g -> grid_pos (ngrid g).
Proof. intros (H & _). exact H. Qed.

(** Share of the particle in a cell. *)
Definition share (cs : scheme -> Z -> R -> list (Z * R)) (loc : Z -> R -> R -> R) (sch : scheme) (g : mesh_params)
    (x : triple R) (c : gcell) : R :=
  let '(i, j, k) := c in
  mass i (cs sch (ax0 (ngrid g)) (loc (ax0 (ngrid g)) (ax0 (boxsize g)) (ax0 x))) *
  mass j (cs sch (ax1 (ngrid g)) (loc (ax1 (ngrid g)) (ax1 (boxsize g)) (ax1 x))) *
  mass k (cs sch (ax2 (ngrid g)) (loc (ax2 (ngrid g)) (ax2 (boxsize g)) (ax2 x))).

Lemma csum_pair {A} (f : A -> R) (h : A -> R) l : csum (map (fun a => (f a, h a)) l) = (rsum (map f l), rsum (map h l)).
Proof.
  induction l as [|a l IH]; [reflexivity|]. cbn [map]. rewrite csum_cons, IH, !rsum_cons. reflexivity.
Qed.

Lemma main_value st ps c : valid (st_mesh st) -> (forall p, In p ps -> in_box (st_mesh st) p) ->
  grid_cell (ngrid (st_mesh st)) c ->
  f_main (assign_field st ps) c =
  csum (map (fun p => cweight p * RtoC (share cells grid_loc (st_scheme st) (st_mesh st) (pos p) c / vol_cell (st_mesh st)))%C ps).
Proof.
  intros V B H. destruct c as [[i j] k]. cbn [assign_field f_main mesh_at]. unfold assign_main.
  pose proof V as ((Hx & Hy & Hz) & L0 & L1 & L2 & Hv).
  rewrite (csum_map_ext _ (fun p =>
    (rsum (map (contrib (grid_index (ax1 (ngrid (st_mesh st))) (ax2 (ngrid (st_mesh st))) i j k) false) (updates_main (st_scheme st) (st_mesh st) p)),
     rsum (map (contrib (grid_index (ax1 (ngrid (st_mesh st))) (ax2 (ngrid (st_mesh st))) i j k) true) (updates_main (st_scheme st) (st_mesh st) p))))).
  - rewrite csum_pair. rewrite !run_value, !rsum_flat_map. reflexivity.
  - intros p Hp. destruct (B p Hp) as (B0 & B1 & B2). unfold updates_main.
    rewrite !particle_value by (try assumption; apply cells_in; try assumption; now apply loc_range).
    unfold cweight, part_weight, RtoC, Cmult, share. cbn [fst snd]. f_equal; field; lra.
Qed.

Lemma csum_re l : fst (csum l) = rsum (map fst l).
Proof. induction l as [|a l IH]; [reflexivity|]. rewrite csum_cons. cbn [map]. rewrite rsum_cons, <- IH. reflexivity. Qed.
Lemma csum_im l : snd (csum l) = rsum (map snd l).
Proof. induction l as [|a l IH]; [reflexivity|]. rewrite csum_cons. cbn [map]. rewrite rsum_cons, <- IH. reflexivity. Qed.

(** The cells in order are the indices of the flat array. *)
Lemma mass_total n l : in_axis n l -> csum (map (fun c => RtoC (mass c l)) (arange 0 n)) = RtoC (tot l).
Proof.
  intros H. unfold mass, tot. induction l as [|x l IH]; cbn [map].
  - apply csum_map_zero. intros. now rewrite rsum_nil.
  - rewrite rsum_cons.
    rewrite (csum_map_ext _ (fun c => RtoC (if (fst x =? c)%Z then snd x else 0) +
       RtoC (rsum (map (fun y => if (fst y =? c)%Z then snd y else 0) l)))%C)
      by (intros c _; now rewrite rsum_cons, RtoC_plus).
    rewrite csum_map_plus, IH by (intros y Hy; apply H; now right). rewrite RtoC_plus. f_equal.
    rewrite (csum_pick _ _ (fst x)).
    + now rewrite Z.eqb_refl.
    + apply NoDup_arange.
    + apply In_arange. pose proof (H x (or_introl eq_refl)). lia.
    + intros b _ N. destruct (Z.eqb_spec (fst x) b); [congruence|reflexivity].
Qed.
Lemma share_total cs loc sch g x :
  (forall ax : forall A, triple A -> A, (ax = @ax0 \/ ax = @ax1 \/ ax = @ax2) ->
     let l := cs sch (ax Z (ngrid g)) (loc (ax Z (ngrid g)) (ax R (boxsize g)) (ax R x)) in
     in_axis (ax Z (ngrid g)) l /\ tot l = 1) ->
  total3 (ngrid g) (fun c => RtoC (share cs loc sch g x c)) = RtoC 1.
Proof.
  intros H. unfold share.
  destruct (H (@ax0) ltac:(auto)) as [I0 T0], (H (@ax1) ltac:(auto)) as [I1 T1], (H (@ax2) ltac:(auto)) as [I2 T2].
  clear H. cbv zeta beta in *.
  set (lx := cs sch (ax0 (ngrid g)) _) in *. set (ly := cs sch (ax1 (ngrid g)) _) in *. set (lz := cs sch (ax2 (ngrid g)) _) in *.
  rewrite (total3_ext _ _ (fun c => let '(i, j, k) := c in RtoC (mass i lx) * RtoC (mass j ly) * RtoC (mass k lz))%C)
    by (intros [[i j] k] _; now rewrite !RtoC_mult).
  rewrite (total3_product (ngrid g) (fun i => RtoC (mass i lx)) (fun j => RtoC (mass j ly)) (fun k => RtoC (mass k lz))).
  rewrite !mass_total by assumption. rewrite T0, T1, T2. rewrite <- !RtoC_mult. f_equal. ring.
Qed.
Lemma main_share_total sch g x : valid g -> in_box g (Particle x 1 0) ->
  total3 (ngrid g) (fun c => RtoC (share cells grid_loc sch g x c)) = RtoC 1.
Proof.
  intros ((Hx & Hy & Hz) & L0 & L1 & L2 & Hv) (B0 & B1 & B2). cbn [pos] in *.
  apply share_total. intros ax [->|[->| ->]]; cbv zeta beta; (split; [apply cells_in; [assumption|now apply loc_range]|apply cells_tot]).
Qed.
Lemma shadow_share_total sch g x : valid g -> shadow_handles sch g (Particle x 1 0) ->
  total3 (ngrid g) (fun c => RtoC (share cells_shadow grid_loc_shadow sch g x c)) = RtoC 1.
Proof.
  intros ((Hx & Hy & Hz) & L0 & L1 & L2 & Hv) ((B0 & B1 & B2) & G0 & G1 & G2).
  unfold loc0, loc1, loc2 in *. cbn [pos] in *.
  rewrite <- loc_same in G0, G1, G2 by assumption.
  destruct (shadow_cells sch _ _ Hx (loc_range _ _ _ Hx B0) G0) as [R0 E0].
  destruct (shadow_cells sch _ _ Hy (loc_range _ _ _ Hy B1) G1) as [R1 E1].
  destruct (shadow_cells sch _ _ Hz (loc_range _ _ _ Hz B2) G2) as [R2 E2].
  apply share_total. intros ax [->|[->| ->]]; cbv zeta beta; rewrite grid_loc_shadow_eq;
    rewrite ?E0, ?E1, ?E2; (split; [now apply cells_in|apply cells_tot]).
Qed.

Lemma shadow_value st ps c : valid (st_mesh st) -> (forall p, In p ps -> shadow_handles (st_scheme st) (st_mesh st) p) ->
  grid_cell (ngrid (st_mesh st)) c ->
  f_shadow (assign_field st ps) c =
  csum (map (fun p => cweight p * RtoC (share cells_shadow grid_loc_shadow (st_scheme st) (st_mesh st) (pos p) c / vol_cell (st_mesh st)))%C ps).
Proof.
  intros V B H. destruct c as [[i j] k]. cbn [assign_field f_shadow mesh_at]. unfold assign_shadow.
  pose proof V as ((Hx & Hy & Hz) & L0 & L1 & L2 & Hv).
  rewrite (csum_map_ext _ (fun p =>
    (rsum (map (contrib (grid_index (ax1 (ngrid (st_mesh st))) (ax2 (ngrid (st_mesh st))) i j k) false) (updates_shadow (st_scheme st) (st_mesh st) p)),
     rsum (map (contrib (grid_index (ax1 (ngrid (st_mesh st))) (ax2 (ngrid (st_mesh st))) i j k) true) (updates_shadow (st_scheme st) (st_mesh st) p))))).
  - rewrite csum_pair. rewrite !run_value, !rsum_flat_map. reflexivity.
  - intros p Hp. destruct (B p Hp) as ((B0 & B1 & B2) & G0 & G1 & G2).
    unfold loc0, loc1, loc2 in *. rewrite <- loc_same in G0, G1, G2 by assumption.
    destruct (shadow_cells (st_scheme st) _ _ Hx (loc_range _ _ _ Hx B0) G0) as [R0 E0].
    destruct (shadow_cells (st_scheme st) _ _ Hy (loc_range _ _ _ Hy B1) G1) as [R1 E1].
    destruct (shadow_cells (st_scheme st) _ _ Hz (loc_range _ _ _ Hz B2) G2) as [R2 E2].
    unfold updates_shadow, share. rewrite !grid_loc_shadow_eq, E0, E1, E2.
    rewrite !particle_value by (try assumption; now apply cells_in).
    unfold cweight, part_weight, RtoC, Cmult. cbn [fst snd]. f_equal; field; lra.
Qed.

Lemma fourier_0 ng vc f : fourier ng vc f cell0 = (RtoC vc * total3 ng f)%C.
Proof.
  rewrite fourier_total. f_equal. apply total3_ext. intros x _. rewrite wave_0.
  rewrite Cconj_RtoC. apply Cmult_1_r.
Qed.

Lemma total_assigned (K : triple R -> gcell -> R) ng vc ps : vc <> 0 ->
  (forall p, In p ps -> total3 ng (fun c => RtoC (K (pos p) c)) = RtoC 1) ->
  (RtoC vc * total3 ng (fun c => csum (map (fun p => cweight p * RtoC (K (pos p) c / vc)) ps)))%C = csum (map cweight ps).
Proof.
  intros Hv H. rewrite <- (csum_total3 ng (fun p c => cweight p * RtoC (K (pos p) c / vc))%C).
  rewrite <- csum_map_scal. apply csum_map_ext. intros p Hp.
  rewrite (total3_ext _ _ (fun c => (cweight p * RtoC (/ vc)) * RtoC (K (pos p) c))%C)
    by (intros c _; unfold Rdiv; rewrite RtoC_mult; ring).
  rewrite total3_scal, H by exact Hp.
  replace (RtoC vc * (cweight p * RtoC (/ vc) * RtoC 1))%C with (cweight p * (RtoC vc * RtoC (/ vc)))%C by ring.
  rewrite <- RtoC_mult, Rinv_r by exact Hv. apply Cmult_1_r.
Qed.

(** ** C67: zero modes *)

(** The phase at the zero mode. *)
Lemma interlace_arg_0 ng : (2 <= ax0 ng)%Z -> (2 <= ax1 ng)%Z -> (2 <= ax2 ng)%Z -> cis (interlace_arg ng cell0) = RtoC 1.
Proof.
  intros H0 H1 H2. unfold interlace_arg, cell0, interlace_frac.
  assert (X : forall n, (2 <= n)%Z -> (0 <? n / 2)%Z = true).
  { intros n Hn. apply Z.ltb_lt. apply Z.div_str_pos. lia. }
  rewrite !X by assumption. unfold Rdiv. rewrite !Rmult_0_l, !Rplus_0_l, Rmult_0_r.
  unfold cis. now rewrite cos_0, sin_0.
Qed.

Definition two_cells (st : settings) : Prop :=
  (2 <= ax0 (ngrid (st_mesh st)) /\ 2 <= ax1 (ngrid (st_mesh st)) /\ 2 <= ax2 (ngrid (st_mesh st)))%Z.

(** The zero mode of the transform of particles is their total weight. *)
Theorem zero_mode_is_total_weight :
  forall st ps, sound st ->
  (forall p, In p ps -> in_box (st_mesh st) p) ->
  (st_interlace st = true -> two_cells st /\ forall p, In p ps -> shadow_handles (st_scheme st) (st_mesh st) p) ->
  transform st (assign_field st ps) cell0 = csum (map cweight ps).
Proof.
  intros st ps (V & _) B I. unfold transform. pose proof (valid_grid _ V) as G.
  assert (Hv : vol_cell (st_mesh st) <> 0) by (destruct V as (_ & _ & _ & _ & Hv); lra).
  assert (E : fourier (ngrid (st_mesh st)) (vol_cell (st_mesh st)) (f_main (assign_field st ps)) cell0 = csum (map cweight ps)).
  { rewrite fourier_0. rewrite (total3_ext _ _ _ (fun c Hc => main_value st ps c V B Hc)).
    apply (total_assigned (share cells grid_loc (st_scheme st) (st_mesh st))); [exact Hv|].
    intros p Hp. apply main_share_total; [exact V|]. exact (B p Hp). }
  rewrite E. destruct (st_interlace st); [|reflexivity]. destruct (I eq_refl) as ((N0 & N1 & N2) & S).
  rewrite interlace_arg_0 by assumption. rewrite fourier_0.
  rewrite (total3_ext _ _ _ (fun c Hc => shadow_value st ps c V S Hc)).
  rewrite (total_assigned (share cells_shadow grid_loc_shadow (st_scheme st) (st_mesh st))); [|exact Hv|].
  - rewrite Cmult_1_l. set (S0 := csum _). replace ((S0 + S0) * RtoC (/ 2))%C with (S0 * (RtoC (/ 2) + RtoC (/ 2)))%C by ring.
    rewrite <- RtoC_plus. replace (/ 2 + / 2) with 1 by field. apply Cmult_1_r.
  - intros p Hp. apply shadow_share_total; [exact V|]. exact (S p Hp).
Qed.

(** ** Proof support: linearity and binning *)
Lemma fourier_plus ng vc f g c : fourier ng vc (fun x => f x + g x)%C c = (fourier ng vc f c + fourier ng vc g c)%C.
Proof.
  rewrite !fourier_total, <- Cmult_plus_distr_l, <- total3_plus. f_equal. apply total3_ext. intros. ring.
Qed.
Lemma fourier_minus ng vc f g c : fourier ng vc (fun x => f x - g x)%C c = (fourier ng vc f c - fourier ng vc g c)%C.
Proof.
  assert (E : fourier ng vc (fun x => (f x - g x) + g x)%C c = fourier ng vc f c) by (apply fourier_ext; intros; ring).
  rewrite fourier_plus in E. rewrite <- E. ring.
Qed.
Lemma fourier_mult ng vc a f c : fourier ng vc (fun x => a * f x)%C c = (a * fourier ng vc f c)%C.
Proof.
  rewrite !fourier_total, (total3_ext _ _ (fun x => a * (f x * Cconj (wave ng c x)))%C) by (intros; ring).
  rewrite total3_scal. ring.
Qed.
Lemma fourier_grid ng vc f g c : (forall x, grid_cell ng x -> f x = g x) -> fourier ng vc f c = fourier ng vc g c.
Proof. intros H. rewrite !fourier_total. f_equal. apply total3_ext. intros x Hx. now rewrite H. Qed.
Lemma fourier_const ng vc a c : grid_pos ng -> grid_cell ng c ->
  fourier ng vc (fun _ => a) c = if cell_eqb c cell0 then (RtoC (vc * mesh_size ng) * a)%C else RtoC 0.
Proof.
  intros G H. rewrite fourier_total.
  rewrite total3_scal, <- total3_conj. destruct (cell_eqb_spec c cell0) as [->|N].
  - rewrite wave_sum by exact G. rewrite cell_mod_id by exact H.
    replace (cell_eqb cell0 cell0) with true by reflexivity. cbn iota. rewrite Cconj_RtoC, RtoC_mult. ring.
  - rewrite wave_sum_0 by assumption. rewrite Cconj_RtoC. ring.
Qed.

Lemma all_cells_grid ng : all_cells ng = grid_cells ng.
Proof. reflexivity. Qed.
Lemma vec_mod_nonneg v : 0 <= vec_mod v.
Proof. destruct v as [[x y] z]. apply sqrt_pos. Qed.

(** The mean of a complex quantity over the counted cells of a bin. *)
Definition bin_mean_spec (cells : list gcell) (f : gcell -> C) : C :=
  (csum (map f cells) * RtoC (/ INR (length cells)))%C.

Lemma bin_complex_exact d ng lo hi len f order : 0 < d -> (forall c, 0 <= len c) ->
  Permutation order (grid_cells ng) ->
  bin_complex d lo hi len f order = bin_mean_spec (counted d lo hi len (grid_cells ng)) f.
Proof.
  intros Hd Hl P. unfold bin_complex, bin_mean_spec. rewrite <- all_cells_grid in *.
  rewrite !(fine_binning_exact d ng) by (try assumption; intros; apply Hl). cbn [snd].
  set (l := counted _ _ _ _ _). destruct l as [|c l].
  - cbn [length Nat.eqb map INR]. unfold csum, RtoC, Cmult. cbn. f_equal; ring.
  - cbn [length Nat.eqb].
    unfold Cmult, RtoC. cbn [fst snd]. rewrite csum_re, csum_im, !map_map. unfold Rdiv. f_equal.
    all: unfold cell; ring.
Qed.

Lemma dk_pos : 0 < dk_sample. Proof. unfold dk_sample. lra. Qed.
Lemma dr_pos : 0 < dr_sample. Proof. unfold dr_sample. lra. Qed.

(** Separation of a cell from the origin, to the nearest image. *)
Definition sep_len (st : settings) (c : gcell) : R := vec_mod (wavevector (ngrid (st_mesh st)) (dr_of (st_mesh st)) c).
Definition mode_len (st : settings) (c : gcell) : R := vec_mod (wavevector (ngrid (st_mesh st)) (dk_of (st_mesh st)) c).
Definition sep_cells (st : settings) (b : bin3) : list gcell :=
  counted dr_sample (b_lo b) (b_hi b) (sep_len st) (grid_cells (ngrid (st_mesh st))).
Definition mode_cells (st : settings) (b : bin3) : list gcell :=
  counted dk_sample (b_lo b) (b_hi b) (mode_len st) (grid_cells (ngrid (st_mesh st))).

Lemma stats_config_exact P st order fa fb amp l m b : Permutation order (grid_cells (ngrid (st_mesh st))) ->
  s_stat (stats_config P st order fa fb amp l m b) =
  bin_mean_spec (sep_cells st b)
    (fun c => twopt_3d st fa fb amp c * reduced_ylm P l m (wavevector (ngrid (st_mesh st)) (dr_of (st_mesh st)) c))%C /\
  s_count (stats_config P st order fa fb amp l m b) = INR (length (sep_cells st b)).
Proof.
  intros H. unfold stats_config.
  pose proof (fine_binning_exact dr_sample (ngrid (st_mesh st)) (b_lo b) (b_hi b) (b_centre b) (sep_len st) (sep_len st) order
    dr_pos (fun c _ => vec_mod_nonneg _) H) as E. cbv zeta in E. unfold sep_len at 1 2 in E. rewrite E. cbn [s_stat s_count].
  split; [|reflexivity].
  apply (bin_complex_exact dr_sample (ngrid (st_mesh st)) (b_lo b) (b_hi b) (sep_len st)).
  - exact dr_pos.
  - intros c. apply vec_mod_nonneg.
  - exact H.
Qed.
Lemma stats_fourier_exact P st order fa fb amp l m b : Permutation order (grid_cells (ngrid (st_mesh st))) ->
  s_stat (stats_fourier P st order fa fb amp l m b) =
  bin_mean_spec (mode_cells st b)
    (fun c => pk_mode st fa fb c * reduced_ylm P l m (wavevector (ngrid (st_mesh st)) (dk_of (st_mesh st)) c))%C /\
  s_shot (stats_fourier P st order fa fb amp l m b) =
  bin_mean_spec (mode_cells st b)
    (fun c => sn_mode st amp c * reduced_ylm P l m (wavevector (ngrid (st_mesh st)) (dk_of (st_mesh st)) c))%C /\
  s_count (stats_fourier P st order fa fb amp l m b) = INR (length (mode_cells st b)).
Proof.
  intros H. unfold stats_fourier.
  pose proof (fine_binning_exact dk_sample (ngrid (st_mesh st)) (b_lo b) (b_hi b) (b_centre b) (mode_len st) (mode_len st) order
    dk_pos (fun c _ => vec_mod_nonneg _) H) as E. cbv zeta in E. unfold mode_len at 1 2 in E. rewrite E. cbn [s_stat s_count s_shot].
  split; [|split; [|reflexivity]];
  apply (bin_complex_exact dk_sample (ngrid (st_mesh st)) (b_lo b) (b_hi b) (mode_len st));
    try exact dk_pos; try exact H; intros c; apply vec_mod_nonneg.
Qed.

(** Factors at the zero mode and without interlacing. *)
Lemma shift_0 n : (2 <= n)%Z -> shift_index n 0 = 0%Z.
Proof. intros H. unfold shift_index. assert (0 < n / 2)%Z by (apply Z.div_str_pos; lia). destruct (Z.ltb_spec 0 (n / 2)); lia. Qed.
Lemma alias_0 st : valid (st_mesh st) -> (st_interlace st = true -> two_cells st) -> alias_of st cell0 = 1.
Proof.
  intros V T. destruct (valid_grid _ V) as (H0 & H1 & H2). unfold alias_of, cell0. destruct (st_interlace st).
  - destruct (T eq_refl) as (N0 & N1 & N2). unfold calc_alias_interlaced. rewrite !shift_0 by assumption.
    unfold Rdiv. rewrite !Rmult_0_r, !Rmult_0_l, !Rplus_0_l, sqrt_0, Rmult_0_l, sin_0, cos_0.
    assert (E : (1 * 1) ^ st_order st = 1) by (rewrite Rmult_1_l; apply pow1). rewrite E.
    destruct (st_order st) as [|[|[|[|[|]]]]]; lra.
  - now apply (alias_positive (st_scheme st) (ngrid (st_mesh st)) 0 0 0).
Qed.
Lemma win_0 st : valid (st_mesh st) -> (st_interlace st = true -> two_cells st) -> win_of st cell0 = 1.
Proof.
  intros V T. pose proof (alias_0 st V T) as A. unfold win_of, cell0 in *. destruct (st_interlace st) eqn:I; [|exact A].
  destruct (T eq_refl) as (N0 & N1 & N2). unfold window_direct. rewrite !shift_0 by assumption. cbn [Z.eqb].
  rewrite !Rmult_1_l, pow1. ring.
Qed.
Lemma win_alias st c : st_interlace st = false -> win_of st c = alias_of st c.
Proof. intros I. destruct c as [[i j] k]. unfold win_of. now rewrite I. Qed.
Lemma alias_pos st c : valid (st_mesh st) -> st_interlace st = false -> 0 < alias_of st c <= 1.
Proof.
  intros V I. destruct (valid_grid _ V) as (H0 & H1 & H2). destruct c as [[i j] k]. unfold alias_of. rewrite I.
  now apply (alias_positive (st_scheme st) (ngrid (st_mesh st)) i j k).
Qed.
Lemma sn_mode_flat st amp c : valid (st_mesh st) -> st_interlace st = false -> sn_mode st amp c = amp.
Proof.
  intros V I. unfold sn_mode. rewrite win_alias by exact I. pose proof (alias_pos st c V I).
  rewrite <- Cmult_assoc, <- RtoC_mult, Rinv_r by lra. apply Cmult_1_r.
Qed.

Lemma inverse_total st fk x :
  inverse st fk x = (RtoC (/ st_vol st) * total3 (ngrid (st_mesh st)) (fun c => fk c * wave (ngrid (st_mesh st)) c x))%C.
Proof.
  unfold inverse. rewrite <- total3_scal. apply csum_map_ext. intros c _. unfold wave. ring.
Qed.

(** The sum of a field on the mesh is its zero mode. *)
Lemma inverse_sum st fk : grid_pos (ngrid (st_mesh st)) ->
  total3 (ngrid (st_mesh st)) (inverse st fk) = (RtoC (mesh_size (ngrid (st_mesh st)) / st_vol st) * fk cell0)%C.
Proof.
  intros G. set (ng := ngrid (st_mesh st)).
  rewrite (total3_ext _ _ (fun x => RtoC (/ st_vol st) * total3 ng (fun c => fk c * wave ng c x))%C)
    by (intros; apply inverse_total).
  rewrite total3_scal, total3_swap.
  assert (Z0 : grid_cell ng cell0) by (unfold grid_cell, cell0; destruct G as (? & ? & ?); fold ng in H, H0, H1; lia).
  rewrite (total3_pick ng _ cell0); [|exact Z0|].
  - rewrite total3_scal. rewrite (wave_sum ng cell0 G), cell_mod_id by exact Z0.
    replace (cell_eqb cell0 cell0) with true by reflexivity. cbn iota. unfold Rdiv. rewrite RtoC_mult. ring.
  - intros c Hc N. rewrite total3_scal, wave_sum_0 by assumption. ring.
Qed.

(** ** C67: the mean of a periodic box *)

(** Away from the zero mode the transform of the overdensities is that of the counts; the
    zero mode vanishes without interlacing and is half the number of particles with it. *)
Theorem fluctuation_modes :
  forall st ps, sound st -> (forall p, In p ps -> inside_box (st_mesh st) p) ->
  (st_interlace st = true -> two_cells st /\ forall p, In p ps -> shadow_handles (st_scheme st) (st_mesh st) (unit_particle p)) ->
  (forall c, grid_cell (ngrid (st_mesh st)) c -> c <> cell0 ->
     transform st (fluctuation_field st ps) c = transform st (unweighted_field st ps) c) /\
  transform st (fluctuation_field st ps) cell0 =
    RtoC (if st_interlace st then INR (length ps) / 2 else 0).
Proof.
  intros st ps (V & Hvol) B I. pose proof (valid_grid _ V) as G.
  assert (Hv : 0 < vol_cell (st_mesh st)) by apply V.
  pose proof (mesh_size_pos _ G) as Hm.
  assert (K : forall c, grid_cell (ngrid (st_mesh st)) c ->
    fourier (ngrid (st_mesh st)) (vol_cell (st_mesh st)) (f_main (fluctuation_field st ps)) c =
    (fourier (ngrid (st_mesh st)) (vol_cell (st_mesh st)) (f_main (unweighted_field st ps)) c -
     if cell_eqb c cell0 then RtoC (INR (length ps)) else RtoC 0)%C).
  { intros c Hc. unfold fluctuation_field. cbn [f_main]. rewrite fourier_minus, fourier_const by assumption. f_equal. f_equal.
    destruct (cell_eqb c cell0); [|reflexivity]. rewrite <- RtoC_mult. f_equal. rewrite Hvol. field. split; lra. }
  assert (Z0 : grid_cell (ngrid (st_mesh st)) cell0) by (unfold grid_cell, cell0; destruct G as (? & ? & ?); lia).
  split.
  - intros c Hc N. unfold transform. rewrite K by exact Hc. destruct (cell_eqb_spec c cell0) as [E|_]; [contradiction|].
    cbn [f_shadow fluctuation_field]. destruct (st_interlace st); [do 2 f_equal|]; ring.
  - pose proof (zero_mode_is_total_weight st (map unit_particle ps) (conj V Hvol)) as W.
    assert (T : csum (map cweight (map unit_particle ps)) = RtoC (INR (length ps))).
    { clear. induction ps as [|p ps IH]; [reflexivity|]. cbn [map]. rewrite csum_cons, IH. cbn [length].
      rewrite S_INR. unfold cweight, unit_particle, RtoC, Cplus. cbn. f_equal; ring. }
    rewrite T in W.
    assert (W' : transform st (unweighted_field st ps) cell0 = RtoC (INR (length ps))).
    { apply W.
      - intros p Hp. apply in_map_iff in Hp. destruct Hp as (q & <- & Hq). exact (B q Hq).
      - intros E. destruct (I E) as [N S]. split; [exact N|]. intros p Hp. apply in_map_iff in Hp.
        destruct Hp as (q & <- & Hq). exact (S q Hq). }
    unfold transform in *. rewrite K by exact Z0. replace (cell_eqb cell0 cell0) with true by reflexivity. cbn iota.
    change (f_shadow (fluctuation_field st ps)) with (f_shadow (unweighted_field st ps)).
    destruct (st_interlace st).
    + set (a := fourier _ _ (f_main _) _) in *. set (s := (cis _ * _)%C) in *.
      replace ((a - RtoC (INR (length ps)) + s) * RtoC (/ 2))%C with
        ((a + s) * RtoC (/ 2) - RtoC (INR (length ps)) * RtoC (/ 2))%C by ring.
      rewrite W', <- RtoC_mult, <- RtoC_minus. f_equal. field.
    + rewrite W', <- RtoC_minus. f_equal. ring.
Qed.

(** ** Proof support for C68 *)
Lemma counted_all d lo hi len cells : 0 < d -> lo <= 0 -> (forall c, In c cells -> 0 <= len c < hi /\ len c < IZR n_sample * d) ->
  counted d lo hi len cells = cells.
Proof.
  intros Hd Hlo H. unfold counted. induction cells as [|c cells IH]; [reflexivity|]. cbn [filter].
  destruct (H c (or_introl eq_refl)) as ((H0 & H1) & H2).
  assert (S0 : 0 <= sampled d (len c) <= len c).
  { unfold sampled. pose proof (Zfloor_lb (len c / d)) as L.
    assert (0 <= len c / d) by (apply Rmult_le_pos; [exact H0|]; left; now apply Rinv_0_lt_compat).
    split.
    - apply Rmult_le_pos; [|lra]. apply IZR_le. apply Zfloor_lub. exact H3.
    - apply Rmult_le_compat_r with (r := d) in L; [|lra]. replace (len c / d * d) with (len c) in L by (field; lra). exact L. }
  assert (A : (Zfloor (len c / d) <? n_sample)%Z = true).
  { apply Z.ltb_lt. apply lt_IZR. apply Rle_lt_trans with (len c / d); [apply Zfloor_lb|].
    apply Rmult_lt_reg_r with d; [exact Hd|]. replace (len c / d * d) with (len c) by (field; lra). exact H2. }
  rewrite A. replace (Rleb lo (sampled d (len c))) with true by (symmetry; apply Rleb_spec; lra).
  replace (Rltb (sampled d (len c)) hi) with true by (symmetry; apply Rltb_spec; lra). cbn [andb].
  f_equal. apply IH. intros c' Hc'. apply H. now right.
Qed.

(** A bin that holds every separation on the mesh. *)
Definition holds_all (st : settings) (b : bin3) : Prop :=
  b_lo b <= 0 /\ forall c, grid_cell (ngrid (st_mesh st)) c -> sep_len st c < b_hi b /\ sep_len st c < IZR n_sample * dr_sample.

Lemma grid_cells_length ng : grid_pos ng -> INR (length (grid_cells ng)) = mesh_size ng.
Proof.
  intros G. pose proof (wave_sum ng cell0 G) as W.
  rewrite (cell_mod_id ng cell0) in W by (unfold grid_cell, cell0; destruct G as (? & ? & ?); lia).
  replace (cell_eqb cell0 cell0) with true in W by reflexivity. cbn iota in W.
  rewrite (total3_ext _ _ (fun _ => RtoC 1)) in W by (intros; apply wave_0).
  apply RtoC_inj. rewrite <- W. unfold total3. generalize (grid_cells ng). clear.
  induction l as [|a l IH]; [reflexivity|]. cbn [map]. rewrite csum_cons, <- IH. cbn [length]. now rewrite S_INR, RtoC_plus, Cplus_comm.
Qed.

Lemma stats_config_all P st order fa fb amp b : valid (st_mesh st) -> (st_interlace st = true -> two_cells st) ->
  holds_all st b -> Permutation order (grid_cells (ngrid (st_mesh st))) ->
  s_stat (stats_config P st order fa fb amp 0 0 b) = (RtoC (/ st_vol st) * (fa cell0 * Cconj (fb cell0) - amp))%C.
Proof.
  intros V T (B0 & B) HP. pose proof (valid_grid _ V) as G.
  destruct (stats_config_exact P st order fa fb amp 0 0 b HP) as [E _]. rewrite E.
  unfold sep_cells. rewrite counted_all.
  - unfold bin_mean_spec. rewrite grid_cells_length by exact G.
    rewrite (csum_map_ext _ (twopt_3d st fa fb amp)) by (intros c _; rewrite (proj1 (ylm_special P _)); apply Cmult_1_r).
    change (csum (map ?f (grid_cells ?n))) with (total3 n f).
    unfold twopt_3d. rewrite inverse_sum by exact G. unfold pk_mode, sn_mode. rewrite win_0, alias_0 by assumption.
    pose proof (mesh_size_pos _ G) as Hm. rewrite Rinv_1. unfold Rdiv. rewrite RtoC_mult.
    set (S := (_ - _)%C).
    replace (RtoC (mesh_size (ngrid (st_mesh st))) * RtoC (/ st_vol st) * S * RtoC (/ mesh_size (ngrid (st_mesh st))))%C
      with (RtoC (/ st_vol st) * S * (RtoC (mesh_size (ngrid (st_mesh st))) * RtoC (/ mesh_size (ngrid (st_mesh st)))))%C by ring.
    rewrite <- (RtoC_mult (mesh_size _)), Rinv_r by lra. unfold S. ring.
  - exact dr_pos.
  - exact B0.
  - intros c Hc. apply In_grid_cells in Hc. destruct (B c Hc). split; [split; [apply vec_mod_nonneg|assumption]|assumption].
Qed.

Lemma sound_vol st : sound st -> 0 < st_vol st.
Proof.
  intros (V & ->). apply Rmult_lt_0_compat; [apply V|]. apply mesh_size_pos. exact (valid_grid _ V).
Qed.

(** ** C68: the box correlation function under interlacing *)

(** With all separations in one bin, the monopole sums to minus the removed self-pairs
    alone; interlacing adds one quarter (in units where the normalisation is [V / N^2]). *)
Theorem box_corrfunc_whole :
  forall P st order ps norm b, sound st -> (forall p, In p ps -> inside_box (st_mesh st) p) ->
  (st_interlace st = true -> two_cells st /\ forall p, In p ps -> shadow_handles (st_scheme st) (st_mesh st) (unit_particle p)) ->
  holds_all st b -> Permutation order (grid_cells (ngrid (st_mesh st))) ->
  o_raw (compute_corrfunc_in_gpp_box P st order 0 ps norm b) =
  RtoC (norm / st_vol st * ((if st_interlace st then INR (length ps) ^ 2 / 4 else 0) - INR (length ps))).
Proof.
  intros P st order ps norm b S B I H HP. destruct (fluctuation_modes st ps S B I) as [_ Z0].
  unfold compute_corrfunc_in_gpp_box. cbn [o_raw].
  rewrite stats_config_all; [|apply S|intros E; now apply I|exact H|exact HP]. rewrite Z0. rewrite Cconj_RtoC.
  rewrite <- !RtoC_mult, <- RtoC_minus, <- !RtoC_mult. f_equal.
  change (IZR (2 * 0 + 1)) with 1. pose proof (sound_vol st S). destruct (st_interlace st); field; lra.
Qed.

(** The field whose mean is subtracted from both meshes. *)
Definition balanced_field (st : settings) (ps : list pdatum) : mfield :=
  let f := unweighted_field st ps in
  let nbar := INR (length ps) / st_vol st in
  MField (fun c => f_main f c - RtoC nbar)%C (fun c => f_shadow f c - RtoC nbar)%C.

(** Under interlacing the measured correlation function lies above that of the balanced
    field by the same amount at every separation. *)
Theorem box_corrfunc_offset :
  forall st ps r, sound st -> st_interlace st = true -> two_cells st ->
  (forall p, In p ps -> inside_box (st_mesh st) p) ->
  (forall p, In p ps -> shadow_handles (st_scheme st) (st_mesh st) (unit_particle p)) ->
  let xi f := twopt_3d st (transform st f) (transform st f) (RtoC (INR (length ps))) r in
  xi (fluctuation_field st ps) = (xi (balanced_field st ps) + RtoC (INR (length ps) ^ 2 / 4 / st_vol st))%C.
Proof.
  intros st ps r S I T B Sh xi. pose proof S as (V & Hvol). pose proof (valid_grid _ V) as G.
  destruct (fluctuation_modes st ps S B (fun _ => conj T Sh)) as [_ Z0]. rewrite I in Z0.
  assert (Hv : 0 < vol_cell (st_mesh st)) by apply V.
  pose proof (mesh_size_pos _ G) as Hm.
  assert (C0 : grid_cell (ngrid (st_mesh st)) cell0) by (unfold grid_cell, cell0; destruct G as (? & ? & ?); lia).
  assert (K : forall c, grid_cell (ngrid (st_mesh st)) c -> transform st (balanced_field st ps) c =
    (transform st (fluctuation_field st ps) c - if cell_eqb c cell0 then RtoC (INR (length ps) / 2) else RtoC 0)%C).
  { intros c Hc. unfold transform. rewrite I. unfold balanced_field, fluctuation_field. cbn [f_main f_shadow].
    rewrite !fourier_minus, fourier_const by assumption.
    assert (E : vol_cell (st_mesh st) * mesh_size (ngrid (st_mesh st)) * (INR (length ps) / st_vol st) = INR (length ps))
      by (rewrite Hvol; field; split; lra).
    destruct (cell_eqb_spec c cell0) as [->|N].
    - destruct T as (N0 & N1 & N2). rewrite interlace_arg_0 by assumption. rewrite <- RtoC_mult, E. unfold Rdiv. rewrite RtoC_mult. ring.
    - ring. }
  unfold xi, twopt_3d. rewrite !inverse_total.
  rewrite (total3_ext _ _ (fun c => (pk_mode st (transform st (balanced_field st ps)) (transform st (balanced_field st ps)) c -
     sn_mode st (RtoC (INR (length ps))) c) * wave (ngrid (st_mesh st)) c r +
     (if cell_eqb c cell0 then RtoC (INR (length ps) ^ 2 / 4) else RtoC 0) * wave (ngrid (st_mesh st)) c r)%C).
  - rewrite total3_plus, Cmult_plus_distr_l. f_equal. rewrite (total3_pick _ _ cell0).
    + replace (cell_eqb cell0 cell0) with true by reflexivity. rewrite wave_0, Cmult_1_r, <- RtoC_mult. f_equal. unfold Rdiv. ring.
    + exact C0.
    + intros c _ N. destruct (cell_eqb_spec c cell0); [contradiction|]. ring.
  - intros c Hc. rewrite <- Cmult_plus_distr_r. f_equal. unfold pk_mode. rewrite K by exact Hc.
    destruct (cell_eqb_spec c cell0) as [->|N].
    + rewrite Z0, win_0 by (try exact V; intros _; exact T). rewrite Rinv_1.
      replace (RtoC (INR (length ps) / 2) - RtoC (INR (length ps) / 2))%C with (RtoC 0) by ring.
      rewrite Cconj_RtoC. replace (RtoC (INR (length ps) ^ 2 / 4)) with (RtoC (INR (length ps) / 2) * RtoC (INR (length ps) / 2))%C
        by (rewrite <- RtoC_mult; f_equal; field). ring.
    + replace (transform st (fluctuation_field st ps) c - RtoC 0)%C with (transform st (fluctuation_field st ps) c) by ring. ring.
Qed.

(** ** C69: the window correlation function *)

Lemma order_sum_0 w v : w (0, 0, 0)%Z = 1 -> order_sum 0 w v = v 0%Z 0%Z.
Proof.
  intros H. unfold order_sum. change (arange (- (0)) (0 + 1)) with [0%Z]. cbn [fold_left].
  unfold coupling_2pt. rewrite H. change (IZR ((2 * 0 + 1) * (2 * 0 + 1))) with 1.
  replace (Rltb (Rabs (1 * 1 * 1)) eps_coupling) with false.
  - rewrite !Rmult_1_l. ring.
  - symmetry. apply Rltb_false. rewrite !Rmult_1_l, Rabs_R1. unfold eps_coupling. lra.
Qed.

Definition total_w (ps : list ((R * R * R) * pdatum)) : R := rsum (map (fun vp => p_w (snd vp)) ps).
Definition total_w2 (ps : list ((R * R * R) * pdatum)) : R := rsum (map (fun vp => p_w (snd vp) ^ 2) ps).

Lemma ylm_sum_0 P q ps : ylm_wgtd_sum P q 0 0 (map fst ps) (map snd ps) = RtoC (rsum (map (fun vp => p_w (snd vp) ^ q) ps)).
Proof.
  unfold ylm_wgtd_sum. induction ps as [|[v p] ps IH]; [reflexivity|]. cbn [map combine]. cbn [fst snd].
  rewrite csum_cons, IH, rsum_cons, (proj1 (ylm_special P v)), Cmult_1_l. cbn [fst snd]. now rewrite RtoC_plus.
Qed.
Lemma ylm_weight_0 P ps : csum (map cweight (map (ylm_particle P 0 0) ps)) = RtoC (total_w ps).
Proof.
  unfold total_w. induction ps as [|[v p] ps IH]; [reflexivity|]. cbn [map]. rewrite csum_cons, IH, rsum_cons.
  unfold ylm_particle, cweight. rewrite (proj1 (ylm_special P v)). cbn [w_re w_im fst snd RtoC].
  unfold RtoC, Cplus. cbn [fst snd]. f_equal; ring.
Qed.

(** With all separations in one bin: the square of the total weight less the self-pairs.
    Under interlacing the total weight comes with the factor (alpha + 1)/2 instead of
    alpha, so the result does not scale with the square of alpha. *)
Theorem window_whole :
  forall P w st ord rand alpha norm b, sound st -> w (0, 0, 0)%Z = 1 ->
  (forall vp, In vp rand -> inside_box (st_mesh st) (snd vp)) ->
  (st_interlace st = true -> two_cells st /\
     forall vp, In vp rand -> shadow_handles (st_scheme st) (st_mesh st) (unit_particle (snd vp))) ->
  holds_all st b -> Permutation (ord 0%Z 0%Z) (grid_cells (ngrid (st_mesh st))) ->
  o_raw (compute_corrfunc_window P w st ord 0 rand alpha norm b) =
  RtoC (norm / st_vol st *
    ((if st_interlace st then (alpha + 1) / 2 else alpha) ^ 2 * total_w rand ^ 2 - alpha ^ 2 * total_w2 rand)).
Proof.
  intros P w st ord rand alpha norm b S W B I H HP. pose proof S as (V & Hvol).
  unfold compute_corrfunc_window. cbn [o_raw]. rewrite order_sum_0 by exact W.
  rewrite stats_config_all; [|exact V|intros E; now apply I|exact H|exact HP].
  assert (Z0 : transform st (ylm_wgtd_field1 P st alpha 0 0 rand) cell0 =
    RtoC ((if st_interlace st then (alpha + 1) / 2 else alpha) * total_w rand)).
  { assert (B' : forall p, In p (map (ylm_particle P 0 0) rand) -> in_box (st_mesh st) p).
    { intros p Hp. apply in_map_iff in Hp. destruct Hp as ([v q] & <- & Hq). exact (B _ Hq). }
    assert (I' : forall p, In p (map (ylm_particle P 0 0) rand) -> st_interlace st = true -> shadow_handles (st_scheme st) (st_mesh st) p).
    { intros p Hp E. apply in_map_iff in Hp. destruct Hp as ([v q] & <- & Hq). exact (proj2 (I E) _ Hq). }
    unfold transform, ylm_wgtd_field1. cbn [f_main f_shadow]. rewrite fourier_mult.
    set (st0 := Settings (st_scheme st) (st_order st) false (st_mesh st) (st_vol st)).
    assert (M : fourier (ngrid (st_mesh st)) (vol_cell (st_mesh st)) (f_main (assign_field st (map (ylm_particle P 0 0) rand))) cell0
      = RtoC (total_w rand)).
    { rewrite <- (ylm_weight_0 P). apply (zero_mode_is_total_weight st0); [exact S|exact B'|discriminate]. }
    rewrite M. destruct (st_interlace st) eqn:IL.
    - destruct (I eq_refl) as ((N0 & N1 & N2) & _). rewrite interlace_arg_0 by assumption. rewrite fourier_0.
      rewrite (total3_ext _ _ _ (fun c Hc => shadow_value st _ c V (fun p Hp => I' p Hp eq_refl) Hc)).
      rewrite (total_assigned (share cells_shadow grid_loc_shadow (st_scheme st) (st_mesh st))).
      + rewrite ylm_weight_0, Cmult_1_l, <- RtoC_mult, <- RtoC_plus, <- RtoC_mult. f_equal. field.
      + pose proof V as (_ & _ & _ & _ & X). lra.
      + intros p Hp. apply shadow_share_total; [exact V|]. exact (I' p Hp eq_refl).
    - now rewrite <- RtoC_mult. }
  rewrite Z0, Cconj_RtoC. unfold ylm_wgtd_shotnoise1. rewrite ylm_sum_0. fold (total_w2 rand).
  rewrite <- !RtoC_mult, <- RtoC_minus, <- !RtoC_mult. f_equal.
  pose proof (mesh_size_pos _ (valid_grid _ V)). assert (0 < vol_cell (st_mesh st)) by apply V.
  assert (st_vol st <> 0) by (rewrite Hvol; apply Rmult_integral_contrapositive; split; lra).
  unfold Rdiv. ring.
Qed.

(** The sum over orders as a sum. *)
Lemma fold_csum {A} (f : A -> C) (g : C -> A -> C) l : (forall acc a, g acc a = (acc + f a)%C) ->
  forall acc, fold_left g l acc = (acc + csum (map f l))%C.
Proof.
  intros H. induction l as [|a l IH]; intros acc; cbn [fold_left map]; [cbn; ring|].
  rewrite IH, H, csum_cons. ring.
Qed.
Lemma order_sum_csum L w v :
  order_sum L w v = csum (map (fun M => csum (map (fun m =>
    if Rltb (Rabs (coupling_2pt L L w m M)) eps_coupling then RtoC 0 else (RtoC (coupling_2pt L L w m M) * v M m)%C)
      (arange (- L) (L + 1)))) (arange (- L) (L + 1))).
Proof.
  unfold order_sum.
  rewrite (fold_csum (fun M => csum (map (fun m =>
    if Rltb (Rabs (coupling_2pt L L w m M)) eps_coupling then RtoC 0 else (RtoC (coupling_2pt L L w m M) * v M m)%C)
      (arange (- L) (L + 1))))).
  - ring.
  - intros acc M. apply fold_csum. intros acc' m. cbv zeta. destruct (Rltb _ _); ring.
Qed.
Lemma order_sum_scal L w a u v : (forall M m, v M m = (a * u M m)%C) -> order_sum L w v = (a * order_sum L w u)%C.
Proof.
  intros H. rewrite !order_sum_csum, <- csum_map_scal. apply csum_map_ext. intros M _. rewrite <- csum_map_scal.
  apply csum_map_ext. intros m _. rewrite H. destruct (Rltb _ _); ring.
Qed.

(** Without interlacing the window scales with the square of alpha, for every degree. *)
Theorem window_scales :
  forall P w st ord L rand alpha norm b, st_interlace st = false ->
  (forall M m, Permutation (ord M m) (grid_cells (ngrid (st_mesh st)))) ->
  o_raw (compute_corrfunc_window P w st ord L rand alpha norm b) =
  (RtoC (alpha ^ 2) * o_raw (compute_corrfunc_window P w st ord L rand 1 norm b))%C.
Proof.
  intros P w st ord L rand alpha norm b I HP. unfold compute_corrfunc_window. cbn [o_raw].
  rewrite (order_sum_scal L w (RtoC (alpha ^ 2)) (fun M m =>
    s_stat (stats_config P st (ord M m) (transform st (ylm_wgtd_field1 P st 1 L M rand)) (transform st (ylm_wgtd_field1 P st 1 0 0 rand))
      (ylm_wgtd_shotnoise1 P 2 L M 1 (map fst rand) (map snd rand)) L m b))); [ring|].
  intros M m. rewrite !(fun fa fb amp => proj1 (stats_config_exact P st (ord M m) fa fb amp L m b (HP M m))).
  unfold bin_mean_spec. rewrite Cmult_assoc. f_equal. rewrite <- csum_map_scal. apply csum_map_ext. intros r _.
  rewrite Cmult_assoc. f_equal. unfold twopt_3d. rewrite !inverse_total.
  rewrite Cmult_assoc, (Cmult_comm (RtoC (alpha ^ 2))), <- Cmult_assoc. f_equal. rewrite <- total3_scal.
  apply total3_ext. intros c _. rewrite Cmult_assoc. f_equal.
  unfold pk_mode, sn_mode, transform, ylm_wgtd_field1, ylm_wgtd_shotnoise1. rewrite I. cbn [f_main]. rewrite !fourier_mult, !Cconj_mult, !Cconj_RtoC.
  rewrite pow1. cbn [pow]. rewrite !RtoC_mult. ring.
Qed.

(** ** Cases *)
Definition grid2 : mesh_params := MeshParams (T3 2 2 2)%Z (T3 2 2 2) 1.
Definition st2 (il : bool) : settings := Settings CIC 2 il grid2 8.
Definition at_origin (w : R) : pdatum := PDatum (T3 0 0 0) 1 1 1 w.
Definition wide : bin3 := Bin3 0 10 5.

Lemma st2_sound il : sound (st2 il) /\ two_cells (st2 il).
Proof. unfold sound, two_cells, valid, st2, grid2, mesh_size. cbn. repeat split; try lia; lra. Qed.
Lemma origin_inside il w : inside_box (st_mesh (st2 il)) (at_origin w) /\
  shadow_handles (st_scheme (st2 il)) (st_mesh (st2 il)) (unit_particle (at_origin w)).
Proof.
  unfold inside_box, shadow_handles, shadow_good, loc0, loc1, loc2, in_box. cbn.
  repeat split; try lra; try discriminate.
Qed.
Lemma wide_all il : holds_all (st2 il) wide.
Proof.
  split; [cbn; lra|]. intros [[i j] k] (Hi & Hj & Hk). cbn in Hi, Hj, Hk.
  assert (S0 : sep_len (st2 il) (i, j, k) < 2).
  { unfold sep_len, wavevector, vec_mod, dr_of. cbn [st2 st_mesh grid2 ngrid boxsize ax0 ax1 ax2].
    assert (E : forall t, (0 <= t < 2)%Z -> -1 <= grid_vector 2 (2 / 2) t <= 1).
    { intros t Ht. assert (T : (t = 0 \/ t = 1)%Z) by lia. unfold grid_vector.
      destruct T as [-> | ->]; cbn [Z.ltb Z.div Z.div_eucl Z.compare]; cbn; lra. }
    pose proof (E i Hi). pose proof (E j Hj). pose proof (E k Hk).
    set (x := grid_vector 2 (2 / 2) i) in *. set (y := grid_vector 2 (2 / 2) j) in *. set (z := grid_vector 2 (2 / 2) k) in *.
    clearbody x y z. rewrite <- (sqrt_square 2) by lra. apply sqrt_lt_1; nra. }
  cbn [b_hi wide]. unfold n_sample, dr_sample. lra.
Qed.

(** Under interlacing the window does not scale with the square of alpha: one random
    particle, where the self-pair is the whole and the result should be zero. *)
Theorem window_scales_refuted :
  exists P w st ord rand alpha norm b, sound st /\ st_interlace st = true /\ w (0, 0, 0)%Z = 1 /\ 0 < alpha /\
  (forall M m, Permutation (ord M m) (grid_cells (ngrid (st_mesh st)))) /\
  o_raw (compute_corrfunc_window P w st ord 0 rand 1 norm b) = RtoC 0 /\
  o_raw (compute_corrfunc_window P w st ord 0 rand alpha norm b) <> RtoC 0.
Proof.
  exists legendre, (fun _ => 1), (st2 true), (fun _ _ => grid_cells (T3 2 2 2)%Z), [((0, 0, 1), at_origin 1)], 3, 8, wide.
  destruct (st2_sound true) as [S T].
  assert (X : forall alpha, o_raw (compute_corrfunc_window legendre (fun _ => 1) (st2 true) (fun _ _ => grid_cells (T3 2 2 2)%Z) 0
    [((0, 0, 1), at_origin 1)] alpha 8 wide) = RtoC (((alpha + 1) / 2) ^ 2 - alpha ^ 2)).
  { intros alpha. rewrite window_whole.
    - cbn [st2 st_interlace]. f_equal. cbn. field.
    - exact S.
    - reflexivity.
    - intros vp [<-|[]]. exact (proj1 (origin_inside true 1)).
    - intros _. split; [exact T|]. intros vp [<-|[]]. exact (proj2 (origin_inside true 1)).
    - apply wide_all.
    - apply Permutation_refl. }
  repeat split; try apply S; try lra; try (intros; apply Permutation_refl).
  - rewrite X. f_equal. field.
  - rewrite X. intros E. apply RtoC_inj in E. lra.
Qed.

(** The mean overdensity of an interlaced box field does not vanish. *)
Theorem box_mean_refuted :
  exists st ps, sound st /\ two_cells st /\ (forall p, In p ps -> inside_box (st_mesh st) p) /\
  transform st (fluctuation_field st ps) cell0 <> RtoC 0.
Proof.
  exists (st2 true), [at_origin 1]. destruct (st2_sound true) as [S T]. split; [exact S|]. split; [exact T|].
  assert (B : forall p, In p [at_origin 1] -> inside_box (st_mesh (st2 true)) p) by (intros p [<-|[]]; exact (proj1 (origin_inside true 1))).
  assert (Sh : forall p, In p [at_origin 1] -> shadow_handles (st_scheme (st2 true)) (st_mesh (st2 true)) (unit_particle p))
    by (intros p [<-|[]]; exact (proj2 (origin_inside true 1))).
  split; [exact B|]. rewrite (proj2 (fluctuation_modes _ _ S B (fun _ => conj T Sh))).
  cbn. intros E. apply RtoC_inj in E. lra.
Qed.

Example box_whole_case :
  o_raw (compute_corrfunc_in_gpp_box legendre (st2 false) (grid_cells (T3 2 2 2)%Z) 0 [at_origin 1; at_origin 1] 2 wide) = RtoC (- (1 / 2)) /\
  o_raw (compute_corrfunc_in_gpp_box legendre (st2 true) (grid_cells (T3 2 2 2)%Z) 0 [at_origin 1; at_origin 1] 2 wide) = RtoC (- (1 / 4)).
Proof.
  split; (rewrite box_corrfunc_whole;
    [cbn [st2 st_interlace st_vol length]; f_equal; simpl; field
    |apply st2_sound
    |intros p [<-|[<-|[]]]; apply (origin_inside true)
    |intros _; split; [apply st2_sound|]; intros p [<-|[<-|[]]]; apply (origin_inside true)
    |apply wide_all
    |apply Permutation_refl]).
Qed.

(** ** C70: shapes of fields compared before a two-point statistic *)

(** The fields and the statistics have the same meshes when accepted, except that the
    volume of the first field is not looked at. *)
Theorem fields_compatible_spec :
  forall this a b, fields_compatible this a b = true <->
  (d_box this = d_box a /\ d_box this = d_box b /\ d_grid this = d_grid a /\ d_grid this = d_grid b /\
   d_nmesh this = d_nmesh a /\ d_nmesh this = d_nmesh b /\ d_volume this = d_volume b).
Proof.
  intros [[x y z] [i j k] n v] [[x1 y1 z1] [i1 j1 k1] n1 v1] [[x2 y2 z2] [i2 j2 k2] n2 v2].
  unfold fields_compatible, axis_mismatch. cbn [d_box d_grid d_nmesh d_volume ax0 ax1 ax2].
  assert (Q : forall a b : R, Reqb a b = true <-> a = b) by (intros; apply Reqb_spec).
  split.
  - intros H.
    repeat match type of H with (if ?c then _ else _) = true => destruct c eqn:?E; [try discriminate|] end;
    repeat match goal with
    | E : (if ?c then _ else _) = _ |- _ => destruct c eqn:?; try discriminate
    | E : _ || _ = false |- _ => apply orb_false_iff in E; destruct E
    | E : negb _ = false |- _ => apply negb_false_iff in E
    | E : Reqb _ _ = true |- _ => apply Q in E
    | E : (_ =? _)%Z = true |- _ => apply Z.eqb_eq in E
    end; try discriminate.
    subst. now repeat split.
  - intros (E1 & E2 & E3 & E4 & E5 & E6 & E7). injection E1 as -> -> ->. injection E2 as -> -> ->.
    injection E3 as -> -> ->. injection E4 as -> -> ->. subst.
    repeat match goal with |- context [Reqb ?a ?a] => replace (Reqb a a) with true by (symmetry; now apply Q) end.
    now rewrite !Z.eqb_refl.
Qed.

Theorem fields_compatible_refuted :
  exists this a b, fields_compatible this a b = true /\ d_volume this <> d_volume a.
Proof.
  set (d := fun v => Dims (T3 1 1 1) (T3 2 2 2)%Z 8 v). exists (d 1), (d 2), (d 1). split.
  - apply fields_compatible_spec. unfold d. cbn. repeat split.
  - cbn. lra.
Qed.

Print Assumptions zero_mode_is_total_weight.
Print Assumptions fluctuation_modes.
Print Assumptions box_mean_refuted.
Print Assumptions box_corrfunc_whole.
Print Assumptions box_corrfunc_offset.
Print Assumptions window_whole.
Print Assumptions window_scales.
Print Assumptions window_scales_refuted.
Print Assumptions fields_compatible_spec.
Print Assumptions fields_compatible_refuted.
