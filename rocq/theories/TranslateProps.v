(* Claims C85 and C86: measurements do not depend on where the objects sit on the mesh;
   the wide-angle window does. *)
From Coq Require Import Reals ZArith List Lia Lra Bool Permutation FunctionalExtensionality.
From Coquelicot Require Import Complex.
From Flocq Require Import Core.Raux.
From Verif Require Import Base ArrayModel ArrayProofs MeshModel MeshIndexProps MeshProofs MeshProps MeshWindowProps BinVecModel BinVecProps RSum CSum ThreePtModel OrderProps WignerProps
  SphHarmModel SphHarmProps CatModel NormModel FieldModel Dft3 FieldProps CorrProps PowProps BispecModel BispecProps ShotProps ThreePcfProps.
Import ListNotations.
Open Scope R_scope.

(** ** Vocabulary *)

(** Coordinate moved by [s] mesh cells, up to whole periods of the box. *)
Definition moved_axis (n : Z) (L : R) (s : Z) (x x' : R) : Prop := exists q : Z, x' = x + IZR s * (L / IZR n) - IZR q * L.
(** The same object [s] mesh cells further. *)
Definition moved (g : mesh_params) (s : gcell) (p p' : pdatum) : Prop :=
  let '(a, b, c) := s in
  moved_axis (ax0 (ngrid g)) (ax0 (boxsize g)) a (ax0 (p_pos p)) (ax0 (p_pos p')) /\
  moved_axis (ax1 (ngrid g)) (ax1 (boxsize g)) b (ax1 (p_pos p)) (ax1 (p_pos p')) /\
  moved_axis (ax2 (ngrid g)) (ax2 (boxsize g)) c (ax2 (p_pos p)) (ax2 (p_pos p')) /\
  p_w p' = p_w p.
(** A catalogue with its lines of sight, all objects moved by the same cells. *)
Definition moved_catalogue (g : mesh_params) (s : gcell) : list ((R * R * R) * pdatum) -> list ((R * R * R) * pdatum) -> Prop :=
  Forall2 (fun vp vp' => fst vp' = fst vp /\ moved g s (snd vp) (snd vp')).

(** ** Proof support: one particle *)
Lemma trunc_shift l s : 0 <= l -> 0 <= l + IZR s -> Ztrunc (l + IZR s) = (Ztrunc l + s)%Z.
Proof.
  intros H1 H2. rewrite !Ztrunc_floor by assumption. apply Zfloor_imp. rewrite !plus_IZR.
  pose proof (Zfloor_lb l). pose proof (Zfloor_ub l). lra.
Qed.
Lemma first_shift sch l s : 0 <= l -> 0 <= l + IZR s -> first_cell sch (l + IZR s) = (first_cell sch l + s)%Z.
Proof.
  intros H1 H2. assert (E : l + IZR s - IZR (Ztrunc (l + IZR s)) = l - IZR (Ztrunc l)) by (rewrite trunc_shift, plus_IZR by assumption; ring).
  unfold first_cell. rewrite ?E, (trunc_shift l s) by assumption. destruct sch; try lia; [destruct (Rleb _ _)|destruct (Rltb _ _)]; lia.
Qed.
Lemma image_shift sch n l s a : axis_image sch n (l + IZR s) (a + s) =
  map (fun x => ((fst x + s) mod n, snd x))%Z (axis_image sch n l a) \/ n = 0%Z.
Proof.
  destruct (Z.eq_dec n 0) as [E|N]; [now right|left]. unfold axis_image.
  assert (A : arange (a + s) (a + s + support sch) = map (fun u => u + s)%Z (arange a (a + support sch))).
  { destruct sch; cbn [support]; rewrite ?arange1, ?arange2, ?arange3, ?arange4; cbn [map]; repeat (apply f_equal2; [lia|]); reflexivity. }
  rewrite A, !map_map. apply map_ext. intros u. cbn [fst snd]. rewrite Zplus_mod_idemp_l. f_equal. f_equal. rewrite plus_IZR. ring.
Qed.
Lemma mass_shift n c s l : (0 < n)%Z -> (0 <= c < n)%Z -> in_axis n l ->
  mass c (map (fun x => ((fst x + s) mod n, snd x))%Z l) = mass ((c - s) mod n) l.
Proof.
  intros Hn Hc I. unfold mass. rewrite map_map. apply rsum_map_ext. intros [u w] Hu. apply I in Hu. cbn [fst snd] in *.
  assert (E : ((u + s) mod n = c <-> u = (c - s) mod n)%Z).
  { split; intros E.
    - rewrite <- E, Zminus_mod_idemp_l. replace (u + s - s)%Z with u by lia. symmetry. now apply Z.mod_small.
    - rewrite E, Zplus_mod_idemp_l. replace (c - s + s)%Z with c by lia. now apply Z.mod_small. }
  destruct (Z.eqb_spec ((u + s) mod n) c), (Z.eqb_spec u ((c - s) mod n)); try reflexivity; exfalso; tauto.
Qed.
Lemma image_in_axis sch n l a : (0 < n)%Z -> in_axis n (axis_image sch n l a).
Proof. intros H x Hx. unfold axis_image in Hx. apply in_map_iff in Hx. destruct Hx as (u & <- & _). cbn. now apply Z.mod_pos_bound. Qed.
(** Cells of a location moved by whole cells within the mesh. *)
Lemma cells_shift sch n l l' s q c : (0 < n)%Z -> 0 <= l < IZR n -> 0 <= l' < IZR n -> l' = l + IZR s - IZR q * IZR n -> (0 <= c < n)%Z ->
  mass c (cells sch n l') = mass ((c - s) mod n) (cells sch n l).
Proof.
  intros Hn Hl Hl' E Hc. rewrite !cells_image by assumption.
  assert (E' : l' = l + IZR (s - q * n)) by (rewrite minus_IZR, mult_IZR; lra). rewrite E' in *.
  rewrite first_shift by lra. destruct (image_shift sch n l (s - q * n) (first_cell sch l)) as [->|N]; [|lia].
  rewrite mass_shift by (try assumption; now apply image_in_axis). f_equal.
  replace (c - (s - q * n))%Z with (c - s + q * n)%Z by lia. apply Z_mod_plus_full.
Qed.
Lemma loc_moved n L s x x' : (0 < n)%Z -> 0 < L -> moved_axis n L s x x' -> exists q, grid_loc n L x' = grid_loc n L x + IZR s - IZR q * IZR n.
Proof.
  intros Hn HL (q & ->). exists q. assert (0 < IZR n) by (apply IZR_lt; lia). unfold grid_loc. field. lra.
Qed.
Lemma share_shift cs loc sch g x x' (s c : gcell) :
  (let '(a, b, d) := s in let '(i, j, k) := c in
   mass i (cs sch (ax0 (ngrid g)) (loc (ax0 (ngrid g)) (ax0 (boxsize g)) (ax0 x'))) = mass ((i - a) mod ax0 (ngrid g)) (cs sch (ax0 (ngrid g)) (loc (ax0 (ngrid g)) (ax0 (boxsize g)) (ax0 x))) /\
   mass j (cs sch (ax1 (ngrid g)) (loc (ax1 (ngrid g)) (ax1 (boxsize g)) (ax1 x'))) = mass ((j - b) mod ax1 (ngrid g)) (cs sch (ax1 (ngrid g)) (loc (ax1 (ngrid g)) (ax1 (boxsize g)) (ax1 x))) /\
   mass k (cs sch (ax2 (ngrid g)) (loc (ax2 (ngrid g)) (ax2 (boxsize g)) (ax2 x'))) = mass ((k - d) mod ax2 (ngrid g)) (cs sch (ax2 (ngrid g)) (loc (ax2 (ngrid g)) (ax2 (boxsize g)) (ax2 x)))) ->
  share cs loc sch g x' c = share cs loc sch g x (cell_mod (ngrid g) (cell_sub c s)).
Proof.
  destruct s as [[a b] d], c as [[i j] k]. intros (E0 & E1 & E2). unfold share, cell_sub, cell_mod. now rewrite E0, E1, E2.
Qed.

Lemma main_shift st s p p' c : valid (st_mesh st) -> handled st p -> handled st p' -> moved (st_mesh st) s p p' -> grid_cell (ngrid (st_mesh st)) c ->
  share cells grid_loc (st_scheme st) (st_mesh st) (p_pos p') c =
  share cells grid_loc (st_scheme st) (st_mesh st) (p_pos p) (cell_mod (ngrid (st_mesh st)) (cell_sub c s)).
Proof.
  intros V (H & _) (H' & _) M Hc. apply share_shift. destruct s as [[a b] d], c as [[i j] k]. destruct Hc as (Hi & Hj & Hk).
  destruct M as (M0 & M1 & M2 & _). destruct H as (B0 & B1 & B2), H' as (B0' & B1' & B2'). cbn [unit_particle pos] in *.
  destruct V as ((P0 & P1 & P2) & L0 & L1 & L2 & _).
  destruct (loc_moved _ _ _ _ _ P0 L0 M0) as (q0 & E0). destruct (loc_moved _ _ _ _ _ P1 L1 M1) as (q1 & E1). destruct (loc_moved _ _ _ _ _ P2 L2 M2) as (q2 & E2).
  repeat split; [apply (cells_shift _ _ _ _ a q0)|apply (cells_shift _ _ _ _ b q1)|apply (cells_shift _ _ _ _ d q2)]; try assumption; now apply loc_range.
Qed.
(** The wrapped location of the shadow mesh moves like the location itself. *)
Lemma shadow_loc_moved n L s x x' : (0 < n)%Z -> 0 < L -> moved_axis n L s x x' ->
  exists q, grid_loc_shadow n L x' = grid_loc_shadow n L x + IZR s - IZR q * IZR n.
Proof.
  intros Hn HL M. destruct (loc_moved _ _ _ _ _ Hn HL M) as (q & E). rewrite !grid_loc_shadow_eq. rewrite E.
  destruct (Rltb _ _), (Rltb _ _); [exists q|exists (q + 1)%Z|exists (q - 1)%Z|exists q]; rewrite ?plus_IZR, ?minus_IZR; ring.
Qed.
Lemma shadow_shift st s p p' c : valid (st_mesh st) -> st_interlace st = true -> handled st p -> handled st p' -> moved (st_mesh st) s p p' -> grid_cell (ngrid (st_mesh st)) c ->
  share cells_shadow grid_loc_shadow (st_scheme st) (st_mesh st) (p_pos p') c =
  share cells_shadow grid_loc_shadow (st_scheme st) (st_mesh st) (p_pos p) (cell_mod (ngrid (st_mesh st)) (cell_sub c s)).
Proof.
  intros V I (_ & H) (_ & H') M Hc. specialize (H I). specialize (H' I). apply share_shift. destruct s as [[a b] d], c as [[i j] k]. destruct Hc as (Hi & Hj & Hk).
  destruct M as (M0 & M1 & M2 & _). destruct H as ((B0 & B1 & B2) & G0 & G1 & G2), H' as ((B0' & B1' & B2') & G0' & G1' & G2').
  unfold loc0, loc1, loc2 in *. cbn [unit_particle pos] in *.
  destruct V as ((P0 & P1 & P2) & L0 & L1 & L2 & _).
  destruct (shadow_loc_moved _ _ _ _ _ P0 L0 M0) as (q0 & E0). destruct (shadow_loc_moved _ _ _ _ _ P1 L1 M1) as (q1 & E1). destruct (shadow_loc_moved _ _ _ _ _ P2 L2 M2) as (q2 & E2).
  assert (X : forall n L x, (0 < n)%Z -> 0 < L -> 0 <= x < L -> shadow_good (st_scheme st) n (x / (L / IZR n)) ->
    0 <= grid_loc_shadow n L x < IZR n /\ cells_shadow (st_scheme st) n (grid_loc_shadow n L x) = cells (st_scheme st) n (grid_loc_shadow n L x)).
  { intros n L x Pn PL Bx Gx. assert (0 < IZR n) by (apply IZR_lt; lia). replace (x / (L / IZR n)) with (grid_loc n L x) in Gx by (unfold grid_loc; field; lra). rewrite grid_loc_shadow_eq. apply shadow_cells; [exact Pn|now apply loc_range|exact Gx]. }
  destruct (X _ _ _ P0 L0 B0 G0) as [R0 ->], (X _ _ _ P1 L1 B1 G1) as [R1 ->], (X _ _ _ P2 L2 B2 G2) as [R2 ->].
  destruct (X _ _ _ P0 L0 B0' G0') as [R0' ->], (X _ _ _ P1 L1 B1' G1') as [R1' ->], (X _ _ _ P2 L2 B2' G2') as [R2' ->].
  repeat split; [apply (cells_shift _ _ _ _ a q0)|apply (cells_shift _ _ _ _ b q1)|apply (cells_shift _ _ _ _ d q2)]; assumption.
Qed.
Lemma fourier_moved ng vc (F : gcell -> C) s k : grid_pos ng ->
  fourier ng vc (fun x => F (cell_mod ng (cell_sub x s))) k = (Cconj (wave ng k s) * fourier ng vc F k)%C.
Proof.
  intros G. rewrite !fourier_total.
  rewrite <- (total3_shift ng s (fun x => F (cell_mod ng (cell_sub x s)) * Cconj (wave ng k x))%C) by exact G.
  replace (Cconj (wave ng k s) * (RtoC vc * total3 ng (fun x => F x * Cconj (wave ng k x))))%C
    with (RtoC vc * (Cconj (wave ng k s) * total3 ng (fun x => F x * Cconj (wave ng k x))))%C by ring.
  f_equal. rewrite <- (total3_scal ng (Cconj (wave ng k s))). apply total3_ext. intros x Hx.
  rewrite wave_mod_r by exact G. rewrite (wave_sym ng k (cell_add x s)), wave_add, !(wave_sym ng k), Cconj_mult.
  replace (cell_mod ng (cell_sub (cell_mod ng (cell_add x s)) s)) with x; [ring|].
  destruct x as [[i j] l], s as [[a b] c], Hx as (H0 & H1 & H2). unfold cell_mod, cell_add, cell_sub.
  rewrite !Zminus_mod_idemp_l, !Z.add_simpl_r, !Z.mod_small by assumption. reflexivity.
Qed.

(** The transform of a moved object gains a phase. *)
Theorem single_moved : forall st s p p' k, valid (st_mesh st) -> handled st p -> handled st p' -> moved (st_mesh st) s p p' ->
  single st p' k = (Cconj (wave (ngrid (st_mesh st)) k s) * single st p k)%C.
Proof.
  intros st s p p' k V H H' M. pose proof (valid_grid _ V) as G. unfold single, transform.
  assert (E1 : fourier (ngrid (st_mesh st)) (vol_cell (st_mesh st)) (f_main (unweighted_field st [p'])) k =
    (Cconj (wave (ngrid (st_mesh st)) k s) * fourier (ngrid (st_mesh st)) (vol_cell (st_mesh st)) (f_main (unweighted_field st [p])) k)%C).
  { rewrite <- (fourier_moved _ _ _ s k G). apply fourier_grid. intros x Hx. rewrite !unit_main by (try assumption; now apply cell_mod_grid).
    now rewrite (main_shift st s p p') by assumption. }
  destruct (st_interlace st) eqn:I; [|exact E1].
  assert (E2 : fourier (ngrid (st_mesh st)) (vol_cell (st_mesh st)) (f_shadow (unweighted_field st [p'])) k =
    (Cconj (wave (ngrid (st_mesh st)) k s) * fourier (ngrid (st_mesh st)) (vol_cell (st_mesh st)) (f_shadow (unweighted_field st [p])) k)%C).
  { rewrite <- (fourier_moved _ _ _ s k G). apply fourier_grid. intros x Hx. rewrite !unit_shadow by (try assumption; now apply cell_mod_grid).
    now rewrite (shadow_shift st s p p') by assumption. }
  rewrite E1, E2. ring.
Qed.

(** ** Proof support: measurements *)
Lemma pk_mode_phase st (u fa fb fa' fb' : gcell -> C) : (forall k, (u k * Cconj (u k))%C = RtoC 1) ->
  (forall k, fa' k = (u k * fa k)%C) -> (forall k, fb' k = (u k * fb k)%C) -> pk_mode st fa' fb' = pk_mode st fa fb.
Proof.
  intros U A B. apply functional_extensionality. intros k. unfold pk_mode. rewrite A, B, Cconj_mult.
  replace (u k * fa k * (Cconj (u k) * Cconj (fb k)) * RtoC (/ win_of st k))%C
    with ((u k * Cconj (u k)) * (fa k * Cconj (fb k) * RtoC (/ win_of st k)))%C by ring. rewrite U. ring.
Qed.
Lemma fourier_phase P st order u fa fb fa' fb' amp l m b : (forall k, (u k * Cconj (u k))%C = RtoC 1) ->
  (forall k, fa' k = (u k * fa k)%C) -> (forall k, fb' k = (u k * fb k)%C) ->
  stats_fourier P st order fa' fb' amp l m b = stats_fourier P st order fa fb amp l m b.
Proof. intros U A B. unfold stats_fourier. now rewrite (pk_mode_phase st u fa fb fa' fb'). Qed.
Lemma twopt_phase st u fa fb fa' fb' amp : (forall k, (u k * Cconj (u k))%C = RtoC 1) ->
  (forall k, fa' k = (u k * fa k)%C) -> (forall k, fb' k = (u k * fb k)%C) -> twopt_3d st fa' fb' amp = twopt_3d st fa fb amp.
Proof. intros U A B. unfold twopt_3d. now rewrite (pk_mode_phase st u fa fb fa' fb'). Qed.
Lemma config_phase P st order u fa fb fa' fb' amp l m b : (forall k, (u k * Cconj (u k))%C = RtoC 1) ->
  (forall k, fa' k = (u k * fa k)%C) -> (forall k, fb' k = (u k * fb k)%C) ->
  stats_config P st order fa' fb' amp l m b = stats_config P st order fa fb amp l m b.
Proof. intros U A B. unfold stats_config. now rewrite (twopt_phase st u fa fb fa' fb'). Qed.

Lemma Cmult_cancel a x y : a <> RtoC 0 -> (a * x)%C = (a * y)%C -> x = y.
Proof.
  intros N E. transitivity (/ a * (a * x))%C; [field; exact N|]. rewrite E. field. exact N.
Qed.
Lemma phase_unit ng s k : (Cconj (wave ng k s) * Cconj (Cconj (wave ng k s)))%C = RtoC 1.
Proof. rewrite Cconj_inv, Cmult_comm. apply wave_norm. Qed.
Lemma phase_closing ng s k1 k2 : grid_pos ng ->
  (Cconj (wave ng k1 s) * Cconj (wave ng k2 s) * Cconj (wave ng (closing ng k1 k2) s))%C = RtoC 1.
Proof.
  intros G. unfold closing. rewrite wave_mod, wave_opp, wave_add, Cconj_inv by exact G.
  replace (Cconj (wave ng k1 s) * Cconj (wave ng k2 s) * (wave ng k1 s * wave ng k2 s))%C
    with ((wave ng k1 s * Cconj (wave ng k1 s)) * (wave ng k2 s * Cconj (wave ng k2 s)))%C by ring. rewrite !wave_norm. ring.
Qed.

Lemma moved_objects g s alpha data data' rand rand' : moved_catalogue g s data data' -> moved_catalogue g s rand rand' ->
  Forall2 (fun o o' => los_of o' = los_of o /\ moved g s (part_of o) (part_of o') /\ weight_of o' = weight_of o) (objects alpha data rand) (objects alpha data' rand').
Proof.
  intros D Rd. unfold objects. apply Forall2_app.
  - induction D as [|[v p] [v' p'] l l' (E & M) _ IH]; cbn [map]; constructor; [|exact IH]. unfold los_of, part_of, weight_of. cbn [fst snd part_of] in *.
    repeat split; try assumption. f_equal. unfold part_of. cbn. destruct s as [[a b] c]. exact (proj2 (proj2 (proj2 M))).
  - induction Rd as [|[v p] [v' p'] l l' (E & M) _ IH]; cbn [map]; constructor; [|exact IH]. unfold los_of, part_of, weight_of. cbn [fst snd part_of] in *.
    repeat split; try assumption. f_equal. unfold part_of. cbn. destruct s as [[a b] c]. exact (proj2 (proj2 (proj2 M))).
Qed.
Lemma csum_Forall2 {A B} (Q : A -> B -> Prop) (f : A -> C) (g : B -> C) l m : Forall2 Q l m -> (forall a b, In a l -> In b m -> Q a b -> f a = g b) ->
  csum (map f l) = csum (map g m).
Proof.
  induction 1 as [|a b l m H _ IH]; intros E; [reflexivity|]. cbn [map]. rewrite !csum_cons. rewrite (E a b) by (try exact H; now left). f_equal.
  apply IH. intros x y Hx Hy. apply E; now right.
Qed.

Section Moved.
  Variables (P : Z -> Z -> R -> R) (st : settings) (s : gcell) (data data' rand rand' : list ((R * R * R) * pdatum)).
  Hypothesis V : valid (st_mesh st).
  Hypothesis (H : all_handled st data rand) (H' : all_handled st data' rand').
  Hypothesis (MD : moved_catalogue (st_mesh st) s data data') (MR : moved_catalogue (st_mesh st) s rand rand').

  Lemma field_moved alpha l m k : transform st (ylm_wgtd_field P st alpha l m data' rand') k =
    (Cconj (wave (ngrid (st_mesh st)) k s) * transform st (ylm_wgtd_field P st alpha l m data rand) k)%C.
  Proof.
    rewrite !transform_objects by assumption. rewrite <- csum_map_scal. symmetry. eapply csum_Forall2; [exact (moved_objects _ _ alpha _ _ _ _ MD MR)|].
    intros o o' Ho Ho' (E1 & E2 & E3). rewrite E1, E3, (single_moved st s (part_of o) (part_of o')); [ring|exact V| | |exact E2].
    - exact (In_objects _ _ _ _ _ H Ho).
    - exact (In_objects _ _ _ _ _ H' Ho').
  Qed.
  Lemma quad_moved alpha l m k : transform st (quad_field P st alpha l m data' rand') k =
    (Cconj (wave (ngrid (st_mesh st)) k s) * transform st (quad_field P st alpha l m data rand) k)%C.
  Proof.
    rewrite !transform_quad by assumption. rewrite <- csum_map_scal. symmetry. eapply csum_Forall2; [exact (moved_objects _ _ alpha _ _ _ _ MD MR)|].
    intros o o' Ho Ho' (E1 & E2 & E3). rewrite E1, E3, (single_moved st s (part_of o) (part_of o')); [ring|exact V| | |exact E2].
    - exact (In_objects _ _ _ _ _ H Ho).
    - exact (In_objects _ _ _ _ _ H' Ho').
  Qed.
End Moved.
Lemma sum_moved P g s q l m ps ps' : moved_catalogue g s ps ps' ->
  ylm_wgtd_sum P q l m (map fst ps') (map snd ps') = ylm_wgtd_sum P q l m (map fst ps) (map snd ps).
Proof.
  intros M. unfold ylm_wgtd_sum. induction M as [|[v p] [v' p'] a b (E & Q) _ IH]; [reflexivity|]. cbn [map fst snd combine] in *. rewrite !csum_cons, IH, E.
  destruct s as [[x y] z]. now rewrite (proj2 (proj2 (proj2 Q))).
Qed.

(** ** C85 *)
Lemma measured_ext bc norm L w (t' t : Z -> Z -> stats2) : (forall M m, t' M m = t M m) ->
  Measured bc (s_coord (t' 0%Z 0%Z)) (s_count (t' 0%Z 0%Z)) (RtoC norm * order_sum L w (fun M m => s_stat (t' M m)))%C (RtoC norm * order_sum L w (fun M m => s_shot (t' M m)))%C =
  Measured bc (s_coord (t 0%Z 0%Z)) (s_count (t 0%Z 0%Z)) (RtoC norm * order_sum L w (fun M m => s_stat (t M m)))%C (RtoC norm * order_sum L w (fun M m => s_shot (t M m)))%C.
Proof. intros E. assert (Q : t' = t) by (do 2 (apply functional_extensionality; intro); apply E). now rewrite Q. Qed.
Lemma measured_ext0 bc norm L w (t' t : Z -> Z -> stats2) : (forall M m, t' M m = t M m) ->
  Measured bc (s_coord (t' 0%Z 0%Z)) (s_count (t' 0%Z 0%Z)) (RtoC norm * order_sum L w (fun M m => s_stat (t' M m)))%C (RtoC 0) =
  Measured bc (s_coord (t 0%Z 0%Z)) (s_count (t 0%Z 0%Z)) (RtoC norm * order_sum L w (fun M m => s_stat (t M m)))%C (RtoC 0).
Proof. intros E. assert (Q : t' = t) by (do 2 (apply functional_extensionality; intro); apply E). now rewrite Q. Qed.
Theorem powspec_placement :
  forall P w st ord wd wr L data rand data' rand' norm b s,
  valid (st_mesh st) -> all_handled st data rand -> all_handled st data' rand' ->
  moved_catalogue (st_mesh st) s data data' -> moved_catalogue (st_mesh st) s rand rand' ->
  compute_powspec P w st ord wd wr L data' rand' norm b = compute_powspec P w st ord wd wr L data rand norm b.
Proof.
  intros P w st ord wd wr L data rand data' rand' norm b s V H H' MD MR. unfold compute_powspec. cbv zeta.
  assert (T : forall M m,
    stats_fourier P st (ord M m) (transform st (ylm_wgtd_field P st (wd / wr) L M data' rand')) (transform st (ylm_wgtd_field P st (wd / wr) 0 0 data' rand'))
      (ylm_wgtd_shotnoise P 2 L M (wd / wr) (map fst data') (map fst rand') (map snd data') (map snd rand')) L m b =
    stats_fourier P st (ord M m) (transform st (ylm_wgtd_field P st (wd / wr) L M data rand)) (transform st (ylm_wgtd_field P st (wd / wr) 0 0 data rand))
      (ylm_wgtd_shotnoise P 2 L M (wd / wr) (map fst data) (map fst rand) (map snd data) (map snd rand)) L m b).
  { intros M m. unfold ylm_wgtd_shotnoise. rewrite (sum_moved P _ _ _ _ _ _ _ MD), (sum_moved P _ _ _ _ _ _ _ MR).
    apply (fourier_phase P st (ord M m) (fun k => Cconj (wave (ngrid (st_mesh st)) k s))); [intros; apply phase_unit| |]; intros k; now apply field_moved. }
  exact (measured_ext (b_centre b) norm L w _ _ T).
Qed.
Theorem corrfunc_placement :
  forall P w st ord wd wr L data rand data' rand' norm b s,
  valid (st_mesh st) -> all_handled st data rand -> all_handled st data' rand' ->
  moved_catalogue (st_mesh st) s data data' -> moved_catalogue (st_mesh st) s rand rand' ->
  compute_corrfunc P w st ord wd wr L data' rand' norm b = compute_corrfunc P w st ord wd wr L data rand norm b.
Proof.
  intros P w st ord wd wr L data rand data' rand' norm b s V H H' MD MR. unfold compute_corrfunc. cbv zeta.
  assert (T : forall M m,
    stats_config P st (ord M m) (transform st (ylm_wgtd_field P st (wd / wr) L M data' rand')) (transform st (ylm_wgtd_field P st (wd / wr) 0 0 data' rand'))
      (ylm_wgtd_shotnoise P 2 L M (wd / wr) (map fst data') (map fst rand') (map snd data') (map snd rand')) L m b =
    stats_config P st (ord M m) (transform st (ylm_wgtd_field P st (wd / wr) L M data rand)) (transform st (ylm_wgtd_field P st (wd / wr) 0 0 data rand))
      (ylm_wgtd_shotnoise P 2 L M (wd / wr) (map fst data) (map fst rand) (map snd data) (map snd rand)) L m b).
  { intros M m. unfold ylm_wgtd_shotnoise. rewrite (sum_moved P _ _ _ _ _ _ _ MD), (sum_moved P _ _ _ _ _ _ _ MR).
    apply (config_phase P st (ord M m) (fun k => Cconj (wave (ngrid (st_mesh st)) k s))); [intros; apply phase_unit| |]; intros k; now apply field_moved. }
  exact (measured_ext0 (b_centre b) norm L w _ _ T).
Qed.

(** Entries whose sources all gain the same phase. *)
Section Phase.
  Variables (P : Z -> Z -> R -> R) (sj : Z -> R -> R) (w : triplet -> R) (st : settings) (ord : triplet -> list gcell).
  Variables (s : gcell) (dn00 dn00' N00 N00' : gcell -> C) (src src' : sources).
  Hypothesis S : sound st.
  Hypothesis (D0 : forall k, dn00' k = (Cconj (wave (ngrid (st_mesh st)) k s) * dn00 k)%C).
  Hypothesis (D1 : forall k, N00' k = (Cconj (wave (ngrid (st_mesh st)) k s) * N00 k)%C).
  Hypothesis (D2 : forall M k, s_dn src' M k = (Cconj (wave (ngrid (st_mesh st)) k s) * s_dn src M k)%C).
  Hypothesis (D3 : forall M k, s_N src' M k = (Cconj (wave (ngrid (st_mesh st)) k s) * s_N src M k)%C).
  Hypothesis (D4 : forall M, s_S src' M = s_S src M).

  Lemma bispec_phase visited l1 l2 L norm a b :
    bispec_entry P sj w st ord dn00' N00' src' visited l1 l2 L norm a b = bispec_entry P sj w st ord dn00 N00 src visited l1 l2 L norm a b.
  Proof.
    pose proof S as (V & _). pose proof (valid_grid _ V) as G. assert (Hv : 0 < vol_cell (st_mesh st)) by apply V.
    unfold bispec_entry. destruct (validate_coupling w) as [[]|]; cbn [bind]; [|reflexivity]. destruct (_ || _); [reflexivity|]. cbv zeta.
    f_equal. f_equal.
    - f_equal. apply term_loop_ext. intros [[m1 m2] M]. f_equal. f_equal.
      apply (Cmult_cancel (RtoC (vol_cell (st_mesh st)))); [intros E; apply RtoC_inj in E; lra|].
      rewrite !component_triangles by exact S. apply pair_mean_ext. intros k1 k2 _ _. cbv zeta. rewrite !D0, D2.
      pose proof (phase_closing (ngrid (st_mesh st)) s k1 k2 G) as Q. ring [Q].
    - f_equal. apply term_loop_ext. intros [[m1 m2] M]. unfold bispec_shot_add. cbv zeta. rewrite !D4.
      rewrite !(fourier_phase P st _ (fun k => Cconj (wave (ngrid (st_mesh st)) k s)) dn00 (s_N src M) dn00' (s_N src' M)) by (intros; first [apply phase_unit|apply D0|apply D3]).
      unfold shot_bispec. rewrite (twopt_phase st (fun k => Cconj (wave (ngrid (st_mesh st)) k s)) (s_dn src M) N00 (s_dn src' M) N00')
        by (intros; first [apply phase_unit|apply D2|apply D1]). reflexivity.
  Qed.
  Lemma threepcf_phase visited l1 l2 L norm same a b :
    threepcf_entry P sj w st ord dn00' N00' src' visited l1 l2 L norm None same a b = threepcf_entry P sj w st ord dn00 N00 src visited l1 l2 L norm None same a b.
  Proof.
    pose proof S as (V & _). pose proof (valid_grid _ V) as G. assert (Hv : 0 < vol_cell (st_mesh st)) by apply V.
    assert (SH : forall b m1 m2 M t, shot_3pcf P st (ord t) (s_dn src' M) N00' (s_S src' M) l1 l2 m1 m2 b = shot_3pcf P st (ord t) (s_dn src M) N00 (s_S src M) l1 l2 m1 m2 b).
    { intros b0 m1 m2 M t. rewrite D4. unfold shot_3pcf. now rewrite (twopt_phase st (fun k => Cconj (wave (ngrid (st_mesh st)) k s)) (s_dn src M) N00 (s_dn src' M) N00')
        by (intros; first [apply phase_unit|apply D2|apply D1]). }
    unfold threepcf_entry. destruct (validate_coupling w) as [[]|]; cbn [bind]; [|reflexivity]. cbv beta iota zeta. rewrite !SH.
    match goal with |- Ok (Measured3 _ _ _ _ _ _ (_ * ?A)%C (_ * ?B)%C) = Ok (Measured3 _ _ _ _ _ _ (_ * ?A')%C (_ * ?B')%C) =>
      assert (E1 : A = A'); [|assert (E2 : B = B'); [|rewrite E1, E2; reflexivity]] end.
    - apply term_loop_ext. intros [[m1 m2] M]. apply f_equal, f_equal.
      apply (Cmult_cancel (RtoC (vol_cell (st_mesh st)))); [intros E; apply RtoC_inj in E; lra|].
      match goal with |- (_ * bispec_component _ (sjl_field _ _ _ _ _ _ ?ra) (sjl_field _ _ _ _ _ _ ?rb) _ = _)%C =>
        pose proof (sjl_component_modes P sj st dn00' (s_dn src') l1 l2 ra rb m1 m2 M S) as F1;
        pose proof (sjl_component_modes P sj st dn00 (s_dn src) l1 l2 ra rb m1 m2 M S) as F2 end.
      cbn [sjl_component] in F1, F2. rewrite F1, F2. f_equal. apply pair_total_ext. intros k1 k2 _ _. cbv zeta. rewrite !D0, D2.
      pose proof (phase_closing (ngrid (st_mesh st)) s k1 k2 G) as Q. ring [Q].
    - destruct same; [|reflexivity]. apply term_loop_ext. intros [[m1 m2] M]. now rewrite SH.
  Qed.
End Phase.
Theorem bispec_placement :
  forall P sj w st ord wd wr l1 l2 L data rand data' rand' norm a b s,
  sound st -> all_handled st data rand -> all_handled st data' rand' ->
  moved_catalogue (st_mesh st) s data data' -> moved_catalogue (st_mesh st) s rand rand' ->
  compute_bispec P sj w st ord wd wr l1 l2 L data' rand' norm a b = compute_bispec P sj w st ord wd wr l1 l2 L data rand norm a b.
Proof.
  intros P sj w st ord wd wr l1 l2 L data rand data' rand' norm a b s S H H' MD MR. pose proof S as (V & _). unfold compute_bispec. cbv zeta.
  apply (bispec_phase P sj w st ord s); [exact S|intros k|intros k|intros M k|intros M k|intros M]; cbn [survey_sources s_dn s_N s_S].
  - now apply field_moved.
  - now apply quad_moved.
  - now apply field_moved.
  - now apply quad_moved.
  - unfold ylm_wgtd_shotnoise. now rewrite (sum_moved P _ _ _ _ _ _ _ MD), (sum_moved P _ _ _ _ _ _ _ MR).
Qed.
Theorem threepcf_placement :
  forall P sj w st ord wd wr l1 l2 L data rand data' rand' norm same a b s,
  sound st -> all_handled st data rand -> all_handled st data' rand' ->
  moved_catalogue (st_mesh st) s data data' -> moved_catalogue (st_mesh st) s rand rand' ->
  compute_3pcf P sj w st ord wd wr l1 l2 L data' rand' norm same a b = compute_3pcf P sj w st ord wd wr l1 l2 L data rand norm same a b.
Proof.
  intros P sj w st ord wd wr l1 l2 L data rand data' rand' norm same a b s S H H' MD MR. pose proof S as (V & _). unfold compute_3pcf. cbv zeta.
  apply (threepcf_phase P sj w st ord s); [exact S|intros k|intros k|intros M k|intros M]; cbn [survey_sources s_dn s_N s_S].
  - now apply field_moved.
  - now apply quad_moved.
  - now apply field_moved.
  - unfold ylm_wgtd_shotnoise. now rewrite (sum_moved P _ _ _ _ _ _ _ MD), (sum_moved P _ _ _ _ _ _ _ MR).
Qed.

(** Boxes: all objects moved alike. *)
Lemma Forall2_len {A B} (Q : A -> B -> Prop) l m : Forall2 Q l m -> length l = length m.
Proof. induction 1 as [|x y l m _ _ IH]; cbn; [reflexivity|now rewrite IH]. Qed.
Section MovedBox.
  Variables (st : settings) (s : gcell) (ps ps' : list pdatum).
  Hypothesis V : valid (st_mesh st).
  Hypothesis (H : forall p, In p ps -> handled st p) (H' : forall p, In p ps' -> handled st p) (M : Forall2 (moved (st_mesh st) s) ps ps').
  Lemma number_moved k : transform st (unweighted_field st ps') k = (Cconj (wave (ngrid (st_mesh st)) k s) * transform st (unweighted_field st ps) k)%C.
  Proof.
    rewrite !unweighted_transform by assumption. rewrite <- csum_map_scal. symmetry. eapply csum_Forall2; [exact M|]. intros p p' Hp Hp' Q. symmetry. apply single_moved; auto.
  Qed.
  Lemma contrast_moved k : transform st (fluctuation_field st ps') k = (Cconj (wave (ngrid (st_mesh st)) k s) * transform st (fluctuation_field st ps) k)%C.
  Proof.
    pose proof (valid_grid _ V) as G. pose proof (number_moved k) as E.
    assert (X : forall qs, transform st (fluctuation_field st qs) k = (transform st (unweighted_field st qs) k
      - RtoC (if st_interlace st then / 2 else 1) * fourier (ngrid (st_mesh st)) (vol_cell (st_mesh st)) (fun _ => RtoC (INR (length qs) / st_vol st)) k)%C).
    { intros qs. unfold transform, fluctuation_field. cbn [f_main f_shadow]. rewrite fourier_minus. destruct (st_interlace st); ring. }
    rewrite !X, E, <- (Forall2_len _ _ _ M). rewrite (fourier_moved (ngrid (st_mesh st)) (vol_cell (st_mesh st)) (fun _ => RtoC (INR (length ps) / st_vol st)) s k G) at 1. ring.
  Qed.
End MovedBox.

Theorem box_placement :
  forall P sj w st order ord l1 l2 L ps ps' norm same a b s,
  sound st -> (forall p, In p ps -> handled st p) -> (forall p, In p ps' -> handled st p) -> Forall2 (moved (st_mesh st) s) ps ps' ->
  compute_powspec_in_gpp_box P st order L ps' norm b = compute_powspec_in_gpp_box P st order L ps norm b /\
  compute_corrfunc_in_gpp_box P st order L ps' norm b = compute_corrfunc_in_gpp_box P st order L ps norm b /\
  compute_bispec_in_gpp_box P sj w st ord l1 l2 L ps' norm a b = compute_bispec_in_gpp_box P sj w st ord l1 l2 L ps norm a b /\
  compute_3pcf_in_gpp_box P sj w st ord l1 l2 L ps' norm same a b = compute_3pcf_in_gpp_box P sj w st ord l1 l2 L ps norm same a b.
Proof.
  intros P sj w st order ord l1 l2 L ps ps' norm same a b s S H H' M. pose proof S as (V & _).
  pose proof (contrast_moved st s ps ps' V H H' M) as C. pose proof (number_moved st s ps ps' V H H' M) as N. pose proof (Forall2_len _ _ _ M) as EL.
  split; [|split; [|split]].
  - unfold compute_powspec_in_gpp_box. cbv zeta. rewrite <- EL.
    rewrite (fourier_phase P st order (fun k => Cconj (wave (ngrid (st_mesh st)) k s)) _ _ _ _ _ L 0 b (phase_unit _ s) C C). reflexivity.
  - unfold compute_corrfunc_in_gpp_box. cbv zeta. rewrite <- EL.
    rewrite (config_phase P st order (fun k => Cconj (wave (ngrid (st_mesh st)) k s)) _ _ _ _ _ L 0 b (phase_unit _ s) C C). reflexivity.
  - unfold compute_bispec_in_gpp_box. apply (bispec_phase P sj w st ord s); cbn [box_sources s_dn s_N s_S]; auto. intros. now rewrite EL.
  - unfold compute_3pcf_in_gpp_box. apply (threepcf_phase P sj w st ord s); cbn [box_sources s_dn s_N s_S]; auto. intros. now rewrite EL.
Qed.

(** Window functions. *)
Lemma moved_scaled g s alpha ps ps' : moved_catalogue g s ps ps' -> moved_catalogue g s (map (scale_weight alpha) ps) (map (scale_weight alpha) ps').
Proof.
  induction 1 as [|[v p] [v' p'] a b (E & Q) _ IH]; cbn [map]; constructor; [|exact IH]. split; [exact E|]. destruct s as [[x y] z]. destruct Q as (Q0 & Q1 & Q2 & Q3).
  repeat split; try assumption. cbn [scale_weight snd p_w] in *. now rewrite Q3.
Qed.
Theorem window_placement :
  forall P sj w st ord l1 l2 L rand rand' alpha norm same a b s,
  sound st -> st_interlace st = false -> (forall vp, In vp rand -> handled st (snd vp)) -> (forall vp, In vp rand' -> handled st (snd vp)) ->
  moved_catalogue (st_mesh st) s rand rand' ->
  compute_3pcf_window P sj w st ord l1 l2 L rand' alpha norm None same a b = compute_3pcf_window P sj w st ord l1 l2 L rand alpha norm None same a b.
Proof.
  intros P sj w st ord l1 l2 L rand rand' alpha norm same a b s S I H H' M. pose proof S as (V & _).
  assert (X : forall qs, (forall vp, In vp qs -> handled st (snd vp)) -> all_handled st (map (scale_weight alpha) qs) []).
  { intros qs Hq. split; [|intros vp []]. intros vp Hv. apply in_map_iff in Hv. destruct Hv as (q & <- & Hin). eapply handled_pos; [|exact (Hq q Hin)]. reflexivity. }
  rewrite !window_is_survey by assumption. apply (threepcf_placement P sj w st ord) with (s := s); [exact S|now apply X|now apply X|now apply moved_scaled|constructor].
Qed.

(** ** C86: wide-angle corrections *)

Lemma Ok_inj {A} (x y : A) : Ok x = Ok y -> x = y.
Proof. intros E. now injection E. Qed.
(** The corrections change the raw statistic only, and at order zero nothing. *)
Theorem wide_angle_changes_raw_only :
  forall P sj w st ord l1 l2 L rand alpha norm n same a b out,
  compute_3pcf_window P sj w st ord l1 l2 L rand alpha norm None same a b = Ok out ->
  exists z, compute_3pcf_window P sj w st ord l1 l2 L rand alpha norm (Some n) same a b =
    Ok (Measured3 (t_bin1 out) (t_bin2 out) (t_eff1 out) (t_eff2 out) (t_n1 out) (t_n2 out) z (t_shot out)).
Proof.
  intros P sj w st ord l1 l2 L rand alpha norm n same a b out. unfold compute_3pcf_window, threepcf_entry.
  destruct (validate_coupling w) as [[]|]; cbn [bind]; [|discriminate]. intros E. apply Ok_inj in E. subst out. cbn [t_bin1 t_bin2 t_eff1 t_eff2 t_n1 t_n2 t_shot]. eexists. reflexivity.
Qed.
Theorem wide_angle_order_zero :
  forall P sj w st ord l1 l2 L rand alpha norm same a b,
  compute_3pcf_window P sj w st ord l1 l2 L rand alpha norm (Some 0%Z) same a b = compute_3pcf_window P sj w st ord l1 l2 L rand alpha norm None same a b.
Proof.
  intros P sj w st ord l1 l2 L rand alpha norm same a b. unfold compute_3pcf_window.
  assert (K : forall f, wide_angle_kernel st 0 f = f).
  { intros f. apply functional_extensionality. intros x. unfold wide_angle_kernel. destruct (Rltb _ _); [reflexivity|]. cbn [Z.opp powerRZ]. ring. }
  unfold threepcf_entry. destruct (validate_coupling w) as [[]|]; cbn [bind]; [|reflexivity]. cbv zeta.
  match goal with |- Ok (Measured3 _ _ _ _ _ _ (_ * ?A)%C _) = Ok (Measured3 _ _ _ _ _ _ (_ * ?A')%C _) => assert (E : A = A'); [|rewrite E; reflexivity] end.
  apply term_loop_ext. intros [[m1 m2] M]. now rewrite K.
Qed.

(** One random on the mesh of two cells per side. *)
Definition at_cell (x y z : Z) : (R * R * R) * pdatum := ((0, 0, 1), PDatum (T3 (IZR x) (IZR y) (IZR z)) 1 1 1 1).
Definition bit (x : Z) : Prop := (x = 0 \/ x = 1)%Z.
Definition near_far (x y : Z) : R := if (x =? y)%Z then (1 + PI / 2) / 2 else (1 - PI / 2) / 2.
Definition bin_zero : bin3 := Bin3 0 (1 / 2) (1 / 4).

Lemma lone_handled x y z : bit x -> bit y -> bit z -> forall vp, In vp [at_cell x y z] -> handled st2 (snd vp).
Proof.
  intros Hx Hy Hz vp [<-|[]]. split; [|discriminate]. unfold inside_box, in_box. cbn [at_cell snd unit_particle pos p_pos ax0 ax1 ax2 st2 st_mesh grid2 boxsize].
  destruct Hx as [-> | ->], Hy as [-> | ->], Hz as [-> | ->]; repeat split; lra.
Qed.
Lemma wave2' i j k x y z : wave (ngrid grid2) (i, j, k) (x, y, z) = RtoC (sign (i * x) * sign (j * y) * sign (k * z)).
Proof.
  unfold wave, dft_phase, grid2. cbn [ngrid ax0 ax1 ax2].
  replace (2 * PI * (IZR (i * x) / 2 + IZR (j * y) / 2 + IZR (k * z) / 2)) with (IZR (i * x + j * y + k * z) * PI) by (rewrite !plus_IZR; field).
  rewrite SphHarmProps.cis_mPI, !sign_plus. reflexivity.
Qed.
Lemma window2 i j k : bit i -> bit j -> bit k ->
  window_direct (ngrid grid2) i j k 1 = (if (i =? 0)%Z then 1 else 2 / PI) * (if (j =? 0)%Z then 1 else 2 / PI) * (if (k =? 0)%Z then 1 else 2 / PI).
Proof.
  pose proof PI_RGT_0 as HP. unfold window_direct, grid2. cbn [ngrid ax0 ax1 ax2].
  assert (W : forall i, bit i -> (if (shift_index 2 i =? 0)%Z then 1 else sin (PI * IZR (shift_index 2 i) / 2) / (PI * IZR (shift_index 2 i) / 2)) = if (i =? 0)%Z then 1 else 2 / PI).
  { intros u [-> | ->]; [reflexivity|]. change (shift_index 2 1) with (-1)%Z. cbn [Z.eqb]. replace (PI * -1 / 2) with (- (PI / 2)) by field.
    rewrite sin_neg, sin_PI2. field. lra. }
  intros Hi Hj Hk. rewrite !W by assumption. apply pow_1.
Qed.
Lemma lone_field c x y z u v w : bit x -> bit y -> bit z -> bit u -> bit v -> bit w ->
  compensated st2 (fun k => RtoC c * Cconj (wave (ngrid grid2) k (x, y, z)))%C (u, v, w) = RtoC (c * (near_far x u * near_far y v * near_far z w)).
Proof.
  intros Hx Hy Hz Hu Hv Hw. pose proof PI_RGT_0 as HP. unfold compensated, inv_fourier.
  set (e := fun x u i : Z => RtoC (/ 2 * (if (i =? 0)%Z then 1 else PI / 2) * (sign (i * x) * sign (i * u)))).
  transitivity (RtoC c * total3 (ngrid grid2) (fun k => let '(i, j, l) := k in e x u i * e y v j * e z w l))%C.
  - rewrite <- total3_scal. unfold total3. apply csum_map_ext. intros [[i j] l] Hk. apply In_grid_cells in Hk. destruct Hk as (Hi & Hj & Hl).
    cbn [grid2 ngrid ax0 ax1 ax2] in Hi, Hj, Hl. assert (Bi : bit i) by (unfold bit; lia). assert (Bj : bit j) by (unfold bit; lia). assert (Bl : bit l) by (unfold bit; lia).
    change (ngrid (st_mesh st2)) with (ngrid grid2). change (st_order st2) with 1%nat. change (st_vol st2) with 8. rewrite window2 by assumption.
    change (cis (dft_phase (ngrid grid2) (i, j, l) (u, v, w))) with (wave (ngrid grid2) (i, j, l) (u, v, w)). rewrite !wave2', Cconj_RtoC.
    unfold e. rewrite <- !RtoC_mult. f_equal. destruct Bi as [-> | ->], Bj as [-> | ->], Bl as [-> | ->]; cbn [Z.eqb]; field; lra.
  - rewrite total3_product. change (arange 0 (ax0 (ngrid grid2))) with [0; 1]%Z. change (arange 0 (ax1 (ngrid grid2))) with [0; 1]%Z. change (arange 0 (ax2 (ngrid grid2))) with [0; 1]%Z.
    assert (A : forall x u, bit x -> bit u -> csum (map (e x u) [0; 1]%Z) = RtoC (near_far x u)).
    { intros p q Hp Hq. cbn [map]. rewrite !csum_cons. cbn [csum fold_right]. rewrite Cplus_0_r. unfold e, near_far. rewrite <- RtoC_plus. f_equal. cbn [Z.eqb].
      rewrite !Z.mul_0_l, !Z.mul_1_l, sign_0. destruct Hp as [-> | ->], Hq as [-> | ->]; cbn [Z.eqb Pos.eqb]; rewrite ?sign_0, ?sign_1; field. }
    rewrite !A by assumption. rewrite <- !RtoC_mult. reflexivity.
Qed.
Lemma sjl_zero P sj st dn x : sj 0%Z 0 = 1 -> sjl_field P sj st dn 0 0 0 x = compensated st dn x.
Proof.
  intros E. unfold sjl_field, compensated, inv_fourier. apply csum_map_ext. intros [[i j] k] _. cbv zeta. rewrite Rmult_0_r, E, (proj1 (ylm_special P _)). ring.
Qed.
Lemma cell_dist u v w : bit u -> bit v -> bit w -> sep_len st2 (u, v, w) = sqrt (IZR (u + v + w)).
Proof.
  intros Hu Hv Hw. unfold sep_len, vec_mod, wavevector, dr_of. cbn [st2 st_mesh grid2 ngrid boxsize ax0 ax1 ax2]. rewrite !grid_vector_shift.
  assert (X : forall u, bit u -> IZR (shift_index 2 u) * (2 / 2) * (IZR (shift_index 2 u) * (2 / 2)) = IZR u).
  { intros q [-> | ->]; [change (shift_index 2 0) with 0%Z|change (shift_index 2 1) with (-1)%Z]; field. }
  rewrite !X, !plus_IZR by assumption. reflexivity.
Qed.
Lemma zero_mean : mean_or (b_centre bin_zero) (sep_len st2) (sep_cells st2 bin_zero) = 0.
Proof.
  assert (Z0 : sep_len st2 (0, 0, 0)%Z = 0) by (rewrite cell_dist by (unfold bit; lia); apply sqrt_0).
  assert (F0 : Zfloor (0 / dr_sample) = 0%Z) by (unfold Rdiv; rewrite Rmult_0_l; apply Zfloor_imp; cbn; lra).
  assert (C : sep_cells st2 bin_zero = [(0, 0, 0)%Z]).
  { unfold sep_cells, counted. change (grid_cells (ngrid (st_mesh st2))) with (grid_cells (ngrid grid2)). rewrite cells2.
    match goal with |- filter ?q _ = _ => set (p := q) end.
    assert (P0 : p (0, 0, 0)%Z = true).
    { unfold p, sampled. rewrite Z0, F0, !andb_true_iff, Z.ltb_lt, Rleb_spec, Rltb_spec. unfold n_sample, dr_sample, bin_zero. cbn [b_lo b_hi]. repeat split; try lia; lra. }
    assert (P1 : forall u v w, bit u -> bit v -> bit w -> (1 <= u + v + w)%Z -> p (u, v, w) = false).
    { intros u v w Hu Hv Hw H. unfold p. rewrite !andb_false_iff. right. apply Rltb_false. unfold sampled, dr_sample, bin_zero. cbn [b_hi].
      assert (1 <= sep_len st2 (u, v, w)).
      { rewrite cell_dist by assumption. rewrite <- sqrt_1 at 1. apply sqrt_le_1_alt, IZR_le, H. }
      assert (10 <= Zfloor (sep_len st2 (u, v, w) / / 10))%Z by (apply Zfloor_lub; unfold Rdiv; rewrite Rinv_inv; lra). apply IZR_le in H1. lra. }
    cbn [filter]. rewrite P0, !P1 by (unfold bit; lia). reflexivity. }
  unfold mean_or. rewrite C. cbn [length Nat.eqb map]. rewrite rsum_cons, rsum_nil, Z0. cbn. field.
Qed.

(** The same random in two cells of the periodic mesh: the plain window does not change
    ([window_placement]), the corrected one does, because distances are measured from the
    corner of the mesh. *)
Theorem wide_angle_placement_refuted :
  forall P sj norm, sj 0%Z 0 = 1 -> norm <> 0 ->
  let window rand wa := compute_3pcf_window P sj (wigner_3j 0 0 0) st2 (fun _ => grid_cells (ngrid grid2)) 0 0 0 rand 1 norm wa true bin_zero bin_zero in
  let here := [at_cell 0 0 0] in let there := [at_cell 1 1 1] in
  sound st2 /\ all_handled st2 [] here /\ all_handled st2 [] there /\ moved_catalogue (st_mesh st2) (1, 1, 1)%Z here there /\
  window there None = window here None /\
  exists o o', window here (Some 2%Z) = Ok o /\ window there (Some 2%Z) = Ok o' /\ t_raw o' <> t_raw o.
Proof.
  intros P sj norm SJ HN window here there. pose proof sound2 as S. pose proof S as (V & _).
  assert (B0 : bit 0) by (unfold bit; lia). assert (B1 : bit 1) by (unfold bit; lia).
  assert (M : moved_catalogue (st_mesh st2) (1, 1, 1)%Z here there).
  { constructor; [|constructor]. split; [reflexivity|]. unfold moved, moved_axis. cbn. repeat split; try (exists 0%Z; field). }
  split; [exact S|]. split; [split; [intros vp []|now apply lone_handled]|]. split; [split; [intros vp []|now apply lone_handled]|]. split; [exact M|].
  split; [unfold window; apply (window_placement _ _ _ _ _ _ _ _ _ _ _ _ _ _ _ (1, 1, 1)%Z); try assumption; try reflexivity; now apply lone_handled|].
  assert (VC : validate_coupling (wigner_3j 0 0 0) = Ok tt).
  { unfold validate_coupling. pose proof weight_000 as X. unfold weight in X. rewrite (proj2 (Rltb_false _ _)); [reflexivity|].
    assert (Q : wigner_3j 0 0 0 (0, 0, 0)%Z * wigner_3j 0 0 0 (0, 0, 0)%Z = 1) by lra.
    unfold eps_coupling. set (q := wigner_3j 0 0 0 (0, 0, 0)%Z) in *. clearbody q. destruct (Rcase_abs q) as [N|N].
    - rewrite Rabs_left by exact N. nra.
    - rewrite Rabs_right by exact N. nra. }
  (* the raw statistic of one random *)
  assert (R : forall x, bit x -> exists o, window [at_cell x x x] (Some 2%Z) = Ok o /\
    t_raw o = RtoC (norm * (near_far x 0 ^ 9 + 3 * near_far x 0 ^ 6 * near_far x 1 ^ 3 + 3 / 2 * near_far x 0 ^ 3 * near_far x 1 ^ 6 + / 3 * near_far x 1 ^ 9))).
  { intros x Hx. unfold window, compute_3pcf_window, threepcf_entry. rewrite VC. cbn [bind]. eexists. split; [reflexivity|]. cbn [t_raw].
    rewrite !(proj2 (proj2 (shot_3pcf_exact P st2 (grid_cells (ngrid grid2)) _ _ _ 0 0 0 0 bin_zero (Permutation_refl _)))), zero_mean.
    rewrite term_loop_000, weight_coupling, weight_000. unfold mirrored_sum, mirror_of. cbn [is_zeros Z.eqb andb window_sources s_dn].
    change (ipow (0 + 0)) with (RtoC 1). change (vol_cell (st_mesh st2)) with 1.
    set (dn := transform st2 (ylm_wgtd_field1 P st2 1 0 0 [at_cell x x x])).
    assert (D : dn = fun k => (RtoC 1 * Cconj (wave (ngrid grid2) k (x, x, x)))%C).
    { apply functional_extensionality. intros k. unfold dn. rewrite window_transform by (try exact V; try reflexivity; now apply lone_handled).
      assert (A : all_handled st2 (map (scale_weight 1) [at_cell x x x]) []).
      { split; [|intros vp []]. intros vp [<-|[]]. eapply handled_pos; [|exact (lone_handled x x x Hx Hx Hx _ (or_introl eq_refl))]. reflexivity. }
      rewrite transform_objects by assumption. unfold objects. cbn [map app]. rewrite csum_cons. cbn [csum fold_right]. rewrite (proj1 (ylm_special P _)).
      rewrite single_ngp by (try reflexivity; try exact S; exact (proj1 A _ (or_introl eq_refl))).
      unfold part_of, weight_of, part_of. cbn [fst snd scale_weight at_cell p_w].
      replace (nearest (st_mesh st2) _) with (x, x, x); [change (st_mesh st2) with grid2; rewrite !RtoC_mult; ring|].
      unfold nearest, nearest_axis. cbn [st2 st_mesh grid2 ngrid boxsize p_pos ax0 ax1 ax2].
      rewrite (Zfloor_imp x) by (rewrite ?plus_IZR; split; lra). rewrite Z.mod_small by (destruct Hx; lia). reflexivity. }
    unfold bispec_component. change (ngrid (st_mesh st2)) with (ngrid grid2).
    rewrite (csum_map_ext _ (fun c => let '(u, v, w) := c in
      RtoC ((near_far x u * near_far x v * near_far x w) ^ 3 * (if (u + v + w =? 0)%Z then 1 else / IZR (u + v + w))))).
    - rewrite cells2. cbn [map]. rewrite !csum_cons. cbn [csum fold_right Z.add Z.eqb Pos.add Pos.succ]. rewrite !Cmult_0_l, !Cplus_0_r, !Cmult_1_l.
      rewrite <- ?RtoC_plus, <- ?RtoC_mult. f_equal. field.
    - intros [[u v] w] Hc. apply In_grid_cells in Hc. destruct Hc as (Hu & Hv & Hw). cbn [grid2 ngrid ax0 ax1 ax2] in Hu, Hv, Hw.
      assert (Bu : bit u) by (unfold bit; lia). assert (Bv : bit v) by (unfold bit; lia). assert (Bw : bit w) by (unfold bit; lia).
      rewrite !sjl_zero by exact SJ. unfold wide_angle_kernel. fold (sep_len st2 (u, v, w)). rewrite D, lone_field by assumption.
      rewrite cell_dist by assumption. rewrite Rmult_1_l. destruct (Z.eqb_spec (u + v + w) 0) as [E|N].
      + rewrite E, sqrt_0, (proj2 (Rltb_spec _ _)) by lra. rewrite <- !RtoC_mult. f_equal. ring.
      + assert (Q : 1 <= IZR (u + v + w)) by (apply IZR_le; unfold bit in *; lia).
        assert (1 <= sqrt (IZR (u + v + w))) by (rewrite <- sqrt_1 at 1; now apply sqrt_le_1_alt).
        rewrite (proj2 (Rltb_false _ _)) by lra. rewrite <- !RtoC_mult. f_equal.
        replace (powerRZ (sqrt (IZR (u + v + w))) (- (2))) with (/ IZR (u + v + w)); [ring|].
        cbn [Z.opp powerRZ]. change (Pos.to_nat 2) with 2%nat. cbn [pow]. rewrite Rmult_1_r, sqrt_sqrt by lra. reflexivity. }
  destruct (R 0%Z B0) as (o & E & T). destruct (R 1%Z B1) as (o' & E' & T'). exists o, o'. split; [exact E|]. split; [exact E'|].
  rewrite T, T'. unfold near_far. cbn [Z.eqb Pos.eqb]. intros Q. apply RtoC_inj in Q. apply Rmult_eq_reg_l in Q; [|exact HN].
  assert (PB : 3 < PI <= 4) by (pose proof PI2_3_2; pose proof PI_4; unfold PI2 in *; lra).
  set (p := (1 + PI / 2) / 2) in *. set (m := (1 - PI / 2) / 2) in *. assert (Hp : 5 / 4 <= p <= 3 / 2) by (unfold p; lra). assert (Hm : - (1 / 2) <= m <= - (1 / 4)) by (unfold m; lra).
  clearbody p m.
  set (A := p ^ 3). set (B := m ^ 3).
  assert (HA : 19 / 10 <= A <= 27 / 8) by (unfold A; nra). assert (HB : - (1 / 8) <= B <= 0) by (unfold B; nra).
  assert (X : (A - B) * (2 / 3 * (A ^ 2 + A * B + B ^ 2) + 3 / 2 * (A * B)) = 0).
  { unfold A, B. transitivity ((p ^ 9 + 3 * p ^ 6 * m ^ 3 + 3 / 2 * p ^ 3 * m ^ 6 + / 3 * m ^ 9) - (m ^ 9 + 3 * m ^ 6 * p ^ 3 + 3 / 2 * m ^ 3 * p ^ 6 + / 3 * p ^ 9)); [field|rewrite Q; ring]. }
  clearbody A B. apply Rmult_integral in X. destruct X as [X|X]; [lra|]. nra.
Qed.


(** Two objects between cells, moved by (1, 0, 3) cells on a mesh of four cells per side;
    the second leaves the box and comes back on the other side. *)
Definition st4_cic : settings := Settings CIC 2 true grid4 64.
Definition two_here : list ((R * R * R) * pdatum) := [((0, 0, 1), PDatum (T3 (5 / 4) 2 0) 1 1 1 2); ((0, 1, 0), PDatum (T3 0 (1 / 4) (5 / 4)) 1 1 1 3)].
Definition two_there : list ((R * R * R) * pdatum) := [((0, 0, 1), PDatum (T3 (9 / 4) 2 3) 1 1 1 2); ((0, 1, 0), PDatum (T3 1 (1 / 4) (1 / 4)) 1 1 1 3)].
Example placement_case :
  sound st4_cic /\ all_handled st4_cic two_here [] /\ all_handled st4_cic two_there [] /\ moved_catalogue (st_mesh st4_cic) (1, 0, 3)%Z two_here two_there /\
  forall P w ord b, compute_powspec P w st4_cic ord 1 1 2 two_there [] 1 b = compute_powspec P w st4_cic ord 1 1 2 two_here [] 1 b.
Proof.
  assert (S : sound st4_cic) by exact sound4.
  assert (H : all_handled st4_cic two_here []).
  { split; [|intros vp []]. intros vp [<-|[<-|[]]]; (split; [unfold inside_box, in_box; cbn; repeat split; lra|intros _;
      unfold shadow_handles, shadow_good, in_box, loc0, loc1, loc2; cbn; repeat split; try lra; try discriminate]). }
  assert (H' : all_handled st4_cic two_there []).
  { split; [|intros vp []]. intros vp [<-|[<-|[]]]; (split; [unfold inside_box, in_box; cbn; repeat split; lra|intros _;
      unfold shadow_handles, shadow_good, in_box, loc0, loc1, loc2; cbn; repeat split; try lra; try discriminate]). }
  assert (M : moved_catalogue (st_mesh st4_cic) (1, 0, 3)%Z two_here two_there).
  { constructor; [|constructor; [|constructor]]; (split; [reflexivity|]); unfold moved, moved_axis; cbn.
    - repeat split; exists 0%Z; field.
    - split; [exists 0%Z; field|]. split; [exists 0%Z; field|]. split; [exists 1%Z; field|reflexivity]. }
  split; [exact S|]. split; [exact H|]. split; [exact H'|]. split; [exact M|]. intros P w ord b.
  apply (powspec_placement P w st4_cic ord 1 1 2 two_here [] two_there [] 1 b (1, 0, 3)%Z); [exact (proj1 S)|exact H|exact H'|exact M|constructor].
Qed.

Print Assumptions single_moved.
Print Assumptions powspec_placement.
Print Assumptions corrfunc_placement.
Print Assumptions bispec_placement.
Print Assumptions threepcf_placement.
Print Assumptions box_placement.
Print Assumptions window_placement.
Print Assumptions wide_angle_changes_raw_only.
Print Assumptions wide_angle_order_zero.
Print Assumptions wide_angle_placement_refuted.
