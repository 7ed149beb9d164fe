(* Claims C71 and C72: two-point correlation functions as sums over pairs of particles. *)
From Coq Require Import Reals ZArith List Lia Lra Bool Permutation.
From Coquelicot Require Import Complex.
From Flocq Require Import Core.Raux.
From Verif Require Import Base ArrayModel ArrayProofs RSum MeshModel MeshIndexProps MeshProofs MeshProps MeshWindowProps
  BinVecModel BinVecProps CSum ThreePtModel WignerProps SphHarmModel SphHarmProps Dft3 CatModel NormModel FieldModel FieldProps.
Import ListNotations.
Open Scope R_scope.

(** ** Specification vocabulary *)

(** Every element of a list with the others, and the ordered pairs of two different
    elements (different places in the list, not different values). *)
Fixpoint picks {A} (l : list A) : list (A * list A) :=
  match l with
  | [] => []
  | a :: t => (a, t) :: map (fun '(x, r) => (x, a :: r)) (picks t)
  end.
Definition distinct_pairs {A} (l : list A) : list (A * A) :=
  flat_map (fun '(a, others) => map (pair a) others) (picks l).

(** The grid point nearest to a position in the periodic box. *)
Definition nearest_axis (n : Z) (l x : R) : Z := (Zfloor (x / (l / IZR n) + 1 / 2) mod n)%Z.
Definition nearest (g : mesh_params) (p : pdatum) : gcell :=
  (nearest_axis (ax0 (ngrid g)) (ax0 (boxsize g)) (ax0 (p_pos p)),
   nearest_axis (ax1 (ngrid g)) (ax1 (boxsize g)) (ax1 (p_pos p)),
   nearest_axis (ax2 (ngrid g)) (ax2 (boxsize g)) (ax2 (p_pos p))).

(** The grid points of [a] and [b] differ by [r] up to whole boxes. *)
Definition separated (g : mesh_params) (a b : pdatum) (r : gcell) : bool :=
  same_cell (ngrid g) (cell_sub (nearest g a) (nearest g b)) r.

(** ** Proof support *)
Lemma picks_perm {A} (l : list A) : forall a r, In (a, r) (picks l) -> Permutation (a :: r) l.
Proof.
  induction l as [|x l IH]; intros a r H; [destruct H|]. cbn [picks] in H. destruct H as [E|H].
  - injection E as -> ->. apply Permutation_refl.
  - apply in_map_iff in H. destruct H as ([y s] & E & H). injection E as -> <-.
    apply perm_trans with (x :: a :: s); [apply perm_swap|]. apply perm_skip. now apply IH.
Qed.
Lemma picks_fst {A} (l : list A) : map fst (picks l) = l.
Proof.
  induction l as [|x l IH]; [reflexivity|]. cbn [picks map fst]. f_equal. rewrite map_map. etransitivity; [|exact IH].
  apply map_ext. now intros [y s].
Qed.
Lemma csum_all_pairs {A} (f : A -> A -> C) (l : list A) :
  csum (map (fun a => csum (map (f a) l)) l) =
  (csum (map (fun ab => f (fst ab) (snd ab)) (distinct_pairs l)) + csum (map (fun a => f a a) l))%C.
Proof.
  unfold distinct_pairs. rewrite csum_flat_map.
  assert (X : forall h : A -> C, csum (map h l) = csum (map (fun ar => h (fst ar)) (picks l)))
    by (intros h; rewrite <- (map_map fst h), picks_fst; reflexivity).
  rewrite (X (fun a => csum (map (f a) l))), (X (fun a => f a a)), <- csum_map_plus. apply csum_map_ext. intros [a r] H. cbn [fst].
  rewrite map_map. cbn [fst snd]. rewrite (csum_perm _ (map (f a) (a :: r))).
  - cbn [map]. rewrite csum_cons. apply Cplus_comm.
  - apply Permutation_map, Permutation_sym, picks_perm. exact H.
Qed.

Lemma nearest_grid g p : valid g -> grid_cell (ngrid g) (nearest g p).
Proof. intros ((Hx & Hy & Hz) & _). unfold grid_cell, nearest, nearest_axis. repeat split; apply Z.mod_pos_bound; assumption. Qed.

Lemma ngp_mass n l x i : (0 < n)%Z -> 0 < l -> 0 <= x < l ->
  mass i (cells NGP n (grid_loc n l x)) = if (i =? nearest_axis n l x)%Z then 1 else 0.
Proof.
  intros Hn Hl Hx. pose proof (loc_range _ _ _ Hn Hx) as R. unfold nearest_axis.
  replace (x / (l / IZR n)) with (grid_loc n l x)
    by (unfold grid_loc; field; split; [apply not_0_IZR; lia|lra]).
  set (u := grid_loc n l x) in *. clearbody u. cbn [cells]. unfold cells_ngp, mass. cbn [map fst snd]. rewrite rsum_cons, rsum_nil, Rplus_0_r.
  rewrite Ztrunc_floor by lra. pose proof (Zfloor_lb u) as L. pose proof (Zfloor_ub u) as U.
  assert (F : (0 <= Zfloor u < n)%Z).
  { split; [apply Zfloor_lub; apply R|]. apply lt_IZR. lra. }
  assert (E : (if Rleb (1 / 2) (u - IZR (Zfloor u)) then cell_next n (Zfloor u) else Zfloor u) = (Zfloor (u + 1 / 2) mod n)%Z).
  { destruct (Rleb (1 / 2) (u - IZR (Zfloor u))) eqn:E.
    - apply Rleb_spec in E. rewrite (Zfloor_imp (Zfloor u + 1) (u + 1 / 2)) by (rewrite !plus_IZR; lra). unfold cell_next.
      destruct (Z.eqb_spec (Zfloor u) (n - 1)) as [->|N].
      + replace (n - 1 + 1)%Z with n by lia. now rewrite Z_mod_same_full.
      + rewrite Z.mod_small by lia. reflexivity.
    - assert (N : ~ 1 / 2 <= u - IZR (Zfloor u)) by (intros X; apply Rleb_spec in X; congruence).
      rewrite (Zfloor_imp (Zfloor u) (u + 1 / 2)) by (rewrite !plus_IZR; lra). now rewrite Z.mod_small. }
  rewrite E. now rewrite Z.eqb_sym.
Qed.
Lemma ngp_share g p c : valid g -> inside_box g p ->
  share cells grid_loc NGP g (p_pos p) c = if cell_eqb c (nearest g p) then 1 else 0.
Proof.
  intros ((Hx & Hy & Hz) & L0 & L1 & L2 & _) (B0 & B1 & B2). cbn [unit_particle pos] in *. destruct c as [[i j] k].
  unfold share. rewrite !ngp_mass by assumption. cbn [cell_eqb nearest].
  destruct (i =? _)%Z, (j =? _)%Z, (k =? _)%Z; cbn; ring.
Qed.

(** A field of points on the mesh. *)
Definition points (vc : R) (l : list (gcell * C)) (c : gcell) : C :=
  csum (map (fun xu => if cell_eqb c (fst xu) then snd xu * RtoC (/ vc) else RtoC 0)%C l).

Lemma points_correlation ng vc la lb r : grid_pos ng -> 0 < vc ->
  (forall xu, In xu la -> grid_cell ng (fst xu)) -> (forall xu, In xu lb -> grid_cell ng (fst xu)) ->
  (RtoC vc * total3 ng (fun x => points vc la (cell_mod ng (cell_add x r)) * Cconj (points vc lb x)))%C =
  (RtoC (/ vc) * csum (map (fun a => csum (map (fun b =>
     if same_cell ng (cell_sub (fst a) (fst b)) r then snd a * Cconj (snd b) else RtoC 0) lb)) la))%C.
Proof.
  intros G Hv HA HB.
  rewrite (total3_ext _ _ (fun x => csum (map (fun a => csum (map (fun b =>
     (if cell_eqb (cell_mod ng (cell_add x r)) (fst a) then snd a * RtoC (/ vc) else RtoC 0) *
     (if cell_eqb x (fst b) then Cconj (snd b) * RtoC (/ vc) else RtoC 0)) lb)) la))%C).
  - rewrite <- (csum_total3 ng). rewrite <- !csum_map_scal. apply csum_map_ext. intros a Ha.
    rewrite <- (csum_total3 ng). rewrite <- !csum_map_scal. apply csum_map_ext. intros b Hb.
    rewrite (total3_pick ng _ (fst b)).
    + destruct (cell_eqb_spec (fst b) (fst b)) as [_|]; [|congruence].
      assert (E : cell_eqb (cell_mod ng (cell_add (fst b) r)) (fst a) = same_cell ng (cell_sub (fst a) (fst b)) r).
      { rewrite <- (same_cell_grid ng) by (try (now apply cell_mod_grid); now apply HA).
        unfold same_cell. pose proof (HA a Ha) as GA. pose proof (HB b Hb) as GB. destruct (fst a) as [[i j] k], (fst b) as [[p q] s], r as [[u v] w], G as (G0 & G1 & G2).
        unfold cell_eqb, cell_mod, cell_sub, cell_add, cell0. rewrite !Zminus_mod_idemp_l.
        assert (X : forall n a b c, (0 < n)%Z -> (((b + c - a) mod n =? 0) = ((a - b - c) mod n =? 0))%Z).
        { intros n a0 b0 c0 Hn. replace (b0 + c0 - a0)%Z with (- (a0 - b0 - c0))%Z by lia.
          destruct (Z.eqb_spec ((a0 - b0 - c0) mod n) 0) as [E|N].
          - rewrite Z.mod_opp_l_z by lia. reflexivity.
          - rewrite Z.mod_opp_l_nz by lia. apply Z.eqb_neq. pose proof (Z.mod_pos_bound (a0 - b0 - c0) n Hn). lia. }
        now rewrite !X. }
      rewrite E. destruct (same_cell _ _ _); [|ring].
      replace (RtoC vc * (snd a * RtoC (/ vc) * (Cconj (snd b) * RtoC (/ vc))))%C
        with (RtoC (/ vc) * (snd a * Cconj (snd b)) * (RtoC vc * RtoC (/ vc)))%C by ring.
      rewrite <- (RtoC_mult vc), Rinv_r by lra. ring.
    + now apply HB.
    + intros x _ N. destruct (cell_eqb_spec x (fst b)); [contradiction|]. ring.
  - intros x _. unfold points at 1. rewrite Cmult_comm, <- csum_map_scal. apply csum_map_ext. intros a _.
    rewrite csum_map_scal. rewrite Cmult_comm. f_equal. unfold points. rewrite csum_conj, map_map. apply csum_map_ext. intros b _.
    destruct (cell_eqb x (fst b)); [now rewrite Cconj_mult, Cconj_RtoC|apply Cconj_RtoC].
Qed.

Lemma ngp_alias st c : st_scheme st = NGP -> st_interlace st = false -> alias_of st c = 1.
Proof.
  intros E I. destruct c as [[i j] k]. unfold alias_of. rewrite I, E. unfold calc_alias, alias_factor. ring.
Qed.

Lemma twopt_points st fa fb amp la lb r : sound st -> st_scheme st = NGP -> st_interlace st = false ->
  (forall xu, In xu la -> grid_cell (ngrid (st_mesh st)) (fst xu)) ->
  (forall xu, In xu lb -> grid_cell (ngrid (st_mesh st)) (fst xu)) ->
  (forall c, grid_cell (ngrid (st_mesh st)) c -> f_main fa c = points (vol_cell (st_mesh st)) la c) ->
  (forall c, grid_cell (ngrid (st_mesh st)) c -> f_main fb c = points (vol_cell (st_mesh st)) lb c) ->
  twopt_3d st (transform st fa) (transform st fb) amp r =
  (RtoC (/ vol_cell (st_mesh st)) *
   (csum (map (fun a => csum (map (fun b =>
     if same_cell (ngrid (st_mesh st)) (cell_sub (fst a) (fst b)) r then snd a * Cconj (snd b) else RtoC 0) lb)) la)
    - (if same_cell (ngrid (st_mesh st)) cell0 r then amp else RtoC 0)))%C.
Proof.
  intros S E I HA HB FA FB. pose proof S as (V & Hvol). pose proof (valid_grid _ V) as G. set (ng := ngrid (st_mesh st)) in *.
  set (vc := vol_cell (st_mesh st)) in *. assert (Hv : 0 < vc) by apply V. pose proof (mesh_size_pos ng G) as Hm.
  unfold twopt_3d. rewrite inverse_total. fold ng.
  rewrite (total3_ext _ _ (fun c => fourier ng vc (points vc la) c * Cconj (fourier ng vc (points vc lb) c) * wave ng c r
     + (- amp) * wave ng c r)%C).
  - rewrite total3_plus, total3_scal, fourier_correlation by exact G.
    rewrite (total3_ext _ (fun c => wave ng c r) (fun c => wave ng r c)) by (intros; apply wave_sym).
    rewrite wave_sum by exact G. rewrite Cmult_plus_distr_l.
    assert (X : (RtoC (/ st_vol st) * RtoC (vc * vc * mesh_size ng) = RtoC vc)%C).
    { rewrite <- RtoC_mult. f_equal. rewrite Hvol. fold ng vc. field. split; lra. }
    rewrite Cmult_assoc, X, points_correlation by assumption. unfold Cminus. rewrite Cmult_plus_distr_l. f_equal.
    replace (cell_eqb (cell_mod ng r) cell0) with (same_cell ng cell0 r).
    + destruct (same_cell ng cell0 r); [|ring].
      replace (RtoC (/ st_vol st) * (- amp * RtoC (mesh_size ng)))%C with ((RtoC (/ st_vol st) * RtoC (mesh_size ng)) * - amp)%C by ring.
      rewrite <- RtoC_mult. f_equal. f_equal. rewrite Hvol. fold ng vc. field. split; lra.
    + unfold same_cell. destruct r as [[u v] w]. destruct G as (G0 & G1 & G2). unfold cell_eqb, cell_mod, cell_sub, cell0.
      assert (Y : forall n c, (0 < n)%Z -> (((0 - c) mod n =? 0) = (c mod n =? 0))%Z).
      { intros n c Hn. destruct (Z.eqb_spec (c mod n) 0) as [E0|N].
        - replace (0 - c)%Z with (- c)%Z by lia. rewrite Z.mod_opp_l_z by lia. reflexivity.
        - replace (0 - c)%Z with (- c)%Z by lia. rewrite Z.mod_opp_l_nz by lia. apply Z.eqb_neq.
          pose proof (Z.mod_pos_bound c n Hn). lia. }
      now rewrite !Y.
  - intros c Hc. unfold pk_mode. rewrite sn_mode_flat, win_alias, ngp_alias by assumption. unfold transform. rewrite I. fold ng vc.
    rewrite (fourier_grid ng vc (f_main fa) (points vc la) c FA), (fourier_grid ng vc (f_main fb) (points vc lb) c FB).
    rewrite Rinv_1. ring.
Qed.

(** ** The objects of a survey measurement *)

(** Galaxies and random particles, with line of sight and scale of the weight. *)
Definition object := ((R * R * R) * pdatum * R)%type.
Definition los_of (o : object) : R * R * R := fst (fst o).
Definition part_of (o : object) : pdatum := snd (fst o).
Definition weight_of (o : object) : R := snd o * p_w (part_of o).
Definition objects (alpha : R) (data rand : list ((R * R * R) * pdatum)) : list object :=
  map (fun vp => (vp, 1)) data ++ map (fun vp => (vp, - alpha)) rand.

(** Sum over orders of the harmonics of two directions. *)
Definition ylm_pair (P : Z -> Z -> R -> R) (L : Z) (u v : R * R * R) : C :=
  csum (map (fun M => reduced_ylm P L M u * Cconj (reduced_ylm P L M v))%C (arange (- L) (L + 1))).

Definition objects_inside (g : mesh_params) (data rand : list ((R * R * R) * pdatum)) : Prop :=
  (forall vp, In vp data -> inside_box g (snd vp)) /\ (forall vp, In vp rand -> inside_box g (snd vp)).

(** ** Proof support *)
Lemma ngp_points P st l m ps : sound st -> st_scheme st = NGP ->
  (forall vp, In vp ps -> inside_box (st_mesh st) (snd vp)) -> forall c, grid_cell (ngrid (st_mesh st)) c ->
  f_main (assign_field st (map (ylm_particle P l m) ps)) c =
  points (vol_cell (st_mesh st)) (map (fun vp => (nearest (st_mesh st) (snd vp), reduced_ylm P l m (fst vp) * RtoC (p_w (snd vp)))%C) ps) c.
Proof.
  intros (V & _) E B c Hc. rewrite main_value; [|exact V| |exact Hc].
  - unfold points. rewrite !map_map. apply csum_map_ext. intros [v p] Hp. cbn [fst snd]. unfold ylm_particle at 2. cbn [pos].
    rewrite E, ngp_share by (try exact V; exact (B _ Hp)).
    assert (W : cweight (ylm_particle P l m (v, p)) = (reduced_ylm P l m v * RtoC (p_w p))%C).
    { unfold cweight, ylm_particle, RtoC, Cmult. cbn [w_re w_im fst snd]. f_equal; ring. }
    rewrite W. destruct (cell_eqb c (nearest (st_mesh st) p)).
    + f_equal. f_equal. unfold Rdiv. ring.
    + replace (0 / vol_cell (st_mesh st)) with 0 by (unfold Rdiv; ring). ring.
  - intros p Hp. apply in_map_iff in Hp. destruct Hp as ([v q] & <- & Hq). exact (B _ Hq).
Qed.
Lemma points_app vc l l' c : points vc (l ++ l') c = (points vc l c + points vc l' c)%C.
Proof. unfold points. now rewrite map_app, csum_app. Qed.

Lemma ngp_field P st alpha l m data rand : sound st -> st_scheme st = NGP -> objects_inside (st_mesh st) data rand ->
  forall c, grid_cell (ngrid (st_mesh st)) c ->
  f_main (ylm_wgtd_field P st alpha l m data rand) c =
  points (vol_cell (st_mesh st)) (map (fun o => (nearest (st_mesh st) (part_of o), RtoC (weight_of o) * reduced_ylm P l m (los_of o))%C)
    (objects alpha data rand)) c.
Proof.
  intros S E (B1 & B2) c Hc. unfold ylm_wgtd_field. cbn [f_main]. rewrite !ngp_points by assumption.
  unfold objects. rewrite map_app, points_app, !map_map. unfold Cminus. f_equal.
  - unfold points. rewrite !map_map. apply csum_map_ext. intros [v p] _. unfold weight_of, part_of, los_of. cbn [fst snd].
    destruct (cell_eqb _ _); [|reflexivity]. rewrite Rmult_1_l. ring.
  - unfold points. rewrite !map_map. rewrite <- csum_map_scal.
    replace (- csum (map (fun x => RtoC alpha * (if cell_eqb c (fst (nearest (st_mesh st) (snd x), reduced_ylm P l m (fst x) * RtoC (p_w (snd x)))%C)
        then snd (nearest (st_mesh st) (snd x), reduced_ylm P l m (fst x) * RtoC (p_w (snd x))) * RtoC (/ vol_cell (st_mesh st)) else RtoC 0))
      rand))%C with (RtoC (-1) * csum (map (fun x => RtoC alpha * (if cell_eqb c (nearest (st_mesh st) (snd x))
        then reduced_ylm P l m (fst x) * RtoC (p_w (snd x)) * RtoC (/ vol_cell (st_mesh st)) else RtoC 0)) rand))%C.
    + rewrite <- csum_map_scal. apply csum_map_ext. intros [v p] _. unfold weight_of, part_of, los_of. cbn [fst snd].
      destruct (cell_eqb _ _); [|ring]. replace (- alpha * p_w p) with (-1 * (alpha * p_w p)) by ring. rewrite !RtoC_mult. ring.
    + cbn [fst snd]. replace (RtoC (-1)) with (- RtoC 1)%C by (rewrite <- RtoC_opp; f_equal; lra). ring.
Qed.

Lemma shotnoise_objects P L M alpha data rand :
  ylm_wgtd_shotnoise P 2 L M alpha (map fst data) (map fst rand) (map snd data) (map snd rand) =
  csum (map (fun o => RtoC (weight_of o * weight_of o) * reduced_ylm P L M (los_of o))%C (objects alpha data rand)).
Proof.
  unfold ylm_wgtd_shotnoise, ylm_wgtd_sum, objects. rewrite map_app, csum_app.
  assert (X : forall s ps, csum (map (fun o => RtoC (weight_of o * weight_of o) * reduced_ylm P L M (los_of o))%C (map (fun vp => (vp, s)) ps)) =
    (RtoC (s ^ 2) * csum (map (fun '(v, p) => (reduced_ylm P L M v * RtoC (p_w p ^ 2))%C) (combine (map fst ps) (map snd ps))))%C).
  { intros s ps. induction ps as [|[v p] ps IH]; cbn [map combine]; [cbn; ring|].
    rewrite !csum_cons, IH. cbn [fst snd]. unfold weight_of, part_of, los_of. cbn [fst snd].
    replace (s * p_w p * (s * p_w p)) with (s ^ 2 * p_w p ^ 2) by ring. rewrite RtoC_mult. ring. }
  rewrite !X. replace (1 ^ 2) with 1 by ring. replace ((- alpha) ^ 2) with (alpha ^ 2) by ring. rewrite Cmult_1_l. reflexivity.
Qed.

Lemma csum_if_const {A} (b : bool) (f : A -> C) l :
  (if b then csum (map f l) else RtoC 0) = csum (map (fun a => if b then f a else RtoC 0) l).
Proof. destruct b; [reflexivity|]. symmetry. now apply csum_map_zero. Qed.

(** ** C71: survey correlation functions *)

(** The value for any list of objects. *)
Definition pair_value (P : Z -> Z -> R -> R) (st : settings) (L M : Z) (obs : list object) (r : gcell) : C :=
  (RtoC (/ vol_cell (st_mesh st)) *
   csum (map (fun ab => if separated (st_mesh st) (part_of (fst ab)) (part_of (snd ab)) r
     then RtoC (weight_of (fst ab) * weight_of (snd ab)) * reduced_ylm P L M (los_of (fst ab)) else RtoC 0)
     (distinct_pairs obs)))%C.

Lemma objects_pairs P st L M obs fa fb amp r : sound st -> st_scheme st = NGP -> st_interlace st = false ->
  (forall c, grid_cell (ngrid (st_mesh st)) c -> f_main fa c = points (vol_cell (st_mesh st))
     (map (fun o => (nearest (st_mesh st) (part_of o), RtoC (weight_of o) * reduced_ylm P L M (los_of o))%C) obs) c) ->
  (forall c, grid_cell (ngrid (st_mesh st)) c -> f_main fb c = points (vol_cell (st_mesh st))
     (map (fun o => (nearest (st_mesh st) (part_of o), RtoC (weight_of o) * reduced_ylm P 0 0 (los_of o))%C) obs) c) ->
  amp = csum (map (fun o => RtoC (weight_of o * weight_of o) * reduced_ylm P L M (los_of o))%C obs) ->
  twopt_3d st (transform st fa) (transform st fb) amp r = pair_value P st L M obs r.
Proof.
  intros S E I FA FB ->. pose proof S as (V & _).
  assert (GR : forall (f : object -> C) xu, In xu (map (fun o => (nearest (st_mesh st) (part_of o), f o)) obs) ->
    grid_cell (ngrid (st_mesh st)) (fst xu)).
  { intros f xu H. apply in_map_iff in H. destruct H as (o & <- & _). now apply nearest_grid. }
  rewrite (twopt_points st _ _ _ _ _ r S E I (GR _) (GR _) FA FB).
  unfold pair_value. f_equal. rewrite csum_if_const, map_map. cbn [fst snd].
  set (F := fun a b : object => if separated (st_mesh st) (part_of a) (part_of b) r
     then (RtoC (weight_of a * weight_of b) * reduced_ylm P L M (los_of a))%C else RtoC 0).
  rewrite (csum_map_ext _ (fun a => csum (map (F a) obs))).
  - rewrite csum_all_pairs.
    rewrite (csum_map_ext (fun a => F a a) (fun o => if same_cell (ngrid (st_mesh st)) cell0 r
       then (RtoC (weight_of o * weight_of o) * reduced_ylm P L M (los_of o))%C else RtoC 0)).
    + unfold F. ring.
    + intros o _. unfold F, separated. replace (cell_sub (nearest (st_mesh st) (part_of o)) (nearest (st_mesh st) (part_of o))) with cell0; [reflexivity|].
      destruct (nearest _ _) as [[i j] k]. unfold cell_sub, cell0. now rewrite !Z.sub_diag.
  - intros a _. rewrite map_map. apply csum_map_ext. intros b _. cbn [fst snd]. unfold F, separated.
    destruct (same_cell _ _ _); [|reflexivity]. rewrite (proj1 (ylm_special P _)), Cmult_1_r, Cconj_RtoC, RtoC_mult. ring.
Qed.

(** On the mesh of separations, the estimate with nearest-grid-point assignment and no
    interlacing is the sum over ordered pairs of different objects: the subtracted shot
    noise removes exactly the pairs of an object with itself. *)
Theorem corrfunc_mesh_pairs :
  forall P st alpha L M data rand r, sound st -> st_scheme st = NGP -> st_interlace st = false ->
  objects_inside (st_mesh st) data rand ->
  twopt_3d st (transform st (ylm_wgtd_field P st alpha L M data rand)) (transform st (ylm_wgtd_field P st alpha 0 0 data rand))
    (ylm_wgtd_shotnoise P 2 L M alpha (map fst data) (map fst rand) (map snd data) (map snd rand)) r =
  (RtoC (/ vol_cell (st_mesh st)) *
   csum (map (fun ab => if separated (st_mesh st) (part_of (fst ab)) (part_of (snd ab)) r
     then RtoC (weight_of (fst ab) * weight_of (snd ab)) * reduced_ylm P L M (los_of (fst ab)) else RtoC 0)
     (distinct_pairs (objects alpha data rand))))%C.
Proof.
  intros P st alpha L M data rand r S E I B.
  exact (objects_pairs P st L M (objects alpha data rand) _ _ _ r S E I
    (ngp_field P st alpha L M data rand S E B) (ngp_field P st alpha 0 0 data rand S E B) (shotnoise_objects P L M alpha data rand)).
Qed.

Lemma fact_pos_Z n : 0 < factZ n.
Proof. unfold factZ. apply lt_0_INR. apply lt_O_fact. Qed.

(** The coupling coefficients with the Wigner 3-j symbols of the Racah formula. *)
Lemma wigner_zero L m : (Z.abs m <= L)%Z -> wigner_3j L 0 L (m, 0, - m)%Z = sign (L + m) / sqrt (2 * IZR L + 1).
Proof.
  intros H. unfold wigner_3j.
  replace ((m + 0 + - m =? 0) && (Z.abs m <=? L) && (Z.abs 0 <=? 0) && (Z.abs (- m) <=? L) &&
     (Z.abs (L - 0) <=? L) && (L <=? L + 0))%Z with true
    by (symmetry; rewrite !andb_true_iff, Z.eqb_eq, !Z.leb_le, Z.abs_opp; lia).
  replace (L - 0 - - m)%Z with (L + m)%Z by lia. replace (L + 0 - L)%Z with 0%Z by lia.
  replace (L - 0 + L)%Z with (2 * L)%Z by lia. replace (- L + 0 + L)%Z with 0%Z by lia.
  replace (L + 0 + L + 1)%Z with (2 * L + 1)%Z by lia.
  change (0 + 0)%Z with 0%Z. change (0 - 0)%Z with 0%Z. change (0 + 1)%Z with 1%Z.
  replace (L + - m)%Z with (L - m)%Z by lia. replace (L - - m)%Z with (L + m)%Z by lia.
  change (arange 0 1) with [0%Z]. cbn [map]. rewrite rsum_cons, rsum_nil, Rplus_0_r.
  unfold racah_term. replace (L + 0 - L - 0)%Z with 0%Z by lia. replace (L - m - 0)%Z with (L - m)%Z by lia.
  replace (0 + 0 - 0)%Z with 0%Z by lia. replace (L - 0 + m + 0)%Z with (L + m)%Z by lia.
  replace (L - L - 0 + 0)%Z with 0%Z by lia. cbn [forallb map fold_right].
  replace (0 <=? L - m)%Z with true by (symmetry; apply Z.leb_le; lia).
  replace (0 <=? L + m)%Z with true by (symmetry; apply Z.leb_le; lia). change (0 <=? 0)%Z with true. cbn [andb].
  assert (F0 : factZ 0 = 1) by reflexivity. rewrite F0, sign_0.
  assert (Fp : 0 < factZ (L + m)) by apply fact_pos_Z. assert (Fm : 0 < factZ (L - m)) by apply fact_pos_Z.
  assert (F2 : 0 < factZ (2 * L)) by apply fact_pos_Z.
  assert (FS : factZ (2 * L + 1) = factZ (2 * L) * (2 * IZR L + 1)).
  { unfold factZ. replace (Z.to_nat (2 * L + 1)) with (S (Z.to_nat (2 * L))) by lia. rewrite fact_simpl, mult_INR, S_INR, INR_IZR_INZ, Z2Nat.id, mult_IZR by lia. ring. }
  assert (HL : 0 < 2 * IZR L + 1) by (assert (0 <= IZR L) by (apply IZR_le; lia); lra).
  rewrite FS. replace (1 * factZ (2 * L) * 1 / (factZ (2 * L) * (2 * IZR L + 1))) with (/ (2 * IZR L + 1)) by (field; lra).
  replace (factZ (L + m) * factZ (L - m) * 1 * 1 * factZ (L - m) * factZ (L + m)) with
    ((factZ (L + m) * factZ (L - m)) * (factZ (L + m) * factZ (L - m))) by ring.
  rewrite sqrt_square by (apply Rlt_le, Rmult_lt_0_compat; assumption). rewrite sqrt_inv.
  field. repeat split; try lra. apply Rgt_not_eq, sqrt_lt_R0. exact HL.
Qed.
Lemma coupling_wigner L m M : (0 <= L)%Z -> (- L <= M <= L)%Z ->
  coupling_2pt L L (wigner_3j L 0 L) m M = if (m =? - M)%Z then (2 * IZR L + 1) * sign M else 0.
Proof.
  intros HL HM. unfold coupling_2pt. destruct (Z.eqb_spec m (- M)) as [->|N].
  - pose proof (wigner_zero L 0 ltac:(lia)) as W0. change (- 0)%Z with 0%Z in W0. rewrite W0.
    pose proof (wigner_zero L (- M) ltac:(lia)) as W1. rewrite Z.opp_involutive in W1. rewrite W1.
    rewrite Z.add_0_r, sign_plus, sign_opp. rewrite mult_IZR, !plus_IZR, !mult_IZR.
    assert (P : 0 < 2 * IZR L + 1) by (assert (0 <= IZR L) by (apply IZR_le; lia); lra).
    pose proof (sqrt_sqrt _ (Rlt_le _ _ P)) as Q. pose proof (sqrt_lt_R0 _ P) as Q0. pose proof (sign_sqr L) as SL.
    set (q := sqrt _) in *. set (s := sign L) in *. rewrite <- Q.
    replace (q * q * (q * q) * (s / q) * (s * sign M / q)) with (q * q * (s * s) * sign M) by (field; lra). rewrite SL. ring.
  - unfold wigner_3j at 2. replace (m + 0 + M =? 0)%Z with false by (symmetry; apply Z.eqb_neq; lia). cbn [andb]. ring.
Qed.

(** With these symbols the double loop over orders is a single sum. *)
Lemma order_sum_wigner L v : (0 <= L)%Z ->
  order_sum L (wigner_3j L 0 L) v =
  (RtoC (2 * IZR L + 1) * csum (map (fun M => RtoC (sign M) * v M (- M)%Z) (arange (- L) (L + 1))))%C.
Proof.
  intros HL. rewrite order_sum_csum, <- csum_map_scal. apply csum_map_ext. intros M HM. apply In_arange in HM.
  rewrite (csum_pick _ _ (- M)%Z).
  - rewrite coupling_wigner, Z.eqb_refl by lia.
    replace (Rltb (Rabs ((2 * IZR L + 1) * sign M)) eps_coupling) with false; [rewrite RtoC_mult; ring|].
    symmetry. apply Rltb_false. assert (0 <= IZR L) by (apply IZR_le; lia). rewrite Rabs_mult.
    assert (E : Rabs (sign M) = 1) by (destruct (sign_cases M) as [-> | ->]; [apply Rabs_R1|rewrite Rabs_left; lra]).
    rewrite E, Rabs_pos_eq by lra. unfold eps_coupling. lra.
  - apply NoDup_arange.
  - apply In_arange. lia.
  - intros m Hm N. rewrite coupling_wigner by lia. destruct (Z.eqb_spec m (- M)); [contradiction|].
    rewrite Rabs_R0. replace (Rltb 0 eps_coupling) with true; [reflexivity|]. symmetry. apply Rltb_spec. unfold eps_coupling. lra.
Qed.

Lemma bin_mean_ext cells f g : (forall c, In c cells -> f c = g c) -> bin_mean_spec cells f = bin_mean_spec cells g.
Proof. intros H. unfold bin_mean_spec. f_equal. now apply csum_map_ext. Qed.
Lemma bin_mean_scal cells a f : bin_mean_spec cells (fun c => a * f c)%C = (a * bin_mean_spec cells f)%C.
Proof. unfold bin_mean_spec. rewrite csum_map_scal. ring. Qed.
Lemma bin_mean_sum {A} cells (f : A -> gcell -> C) l :
  csum (map (fun a => bin_mean_spec cells (f a)) l) = bin_mean_spec cells (fun c => csum (map (fun a => f a c) l)).
Proof.
  unfold bin_mean_spec. set (k := RtoC (/ _)). rewrite (csum_map_ext _ (fun a => k * csum (map (f a) cells))%C) by (intros; ring).
  rewrite csum_map_scal, csum_swap. ring.
Qed.

Definition sep_vec (st : settings) (c : gcell) : R * R * R := wavevector (ngrid (st_mesh st)) (dr_of (st_mesh st)) c.

Lemma orders_pairs P st L obs b ord fa fb amp : sound st -> st_scheme st = NGP -> st_interlace st = false -> (0 <= L)%Z ->
  (forall M m, Permutation (ord M m) (grid_cells (ngrid (st_mesh st)))) ->
  (forall M r, twopt_3d st (fa M) fb (amp M) r = pair_value P st L M obs r) ->
  order_sum L (wigner_3j L 0 L) (fun M m => s_stat (stats_config P st (ord M m) (fa M) fb (amp M) L m b)) =
  (RtoC ((2 * IZR L + 1) / vol_cell (st_mesh st)) *
   bin_mean_spec (sep_cells st b) (fun r =>
     csum (map (fun ab => if separated (st_mesh st) (part_of (fst ab)) (part_of (snd ab)) r
       then RtoC (weight_of (fst ab) * weight_of (snd ab)) * ylm_pair P L (los_of (fst ab)) (sep_vec st r) else RtoC 0)
       (distinct_pairs obs))))%C.
Proof.
  intros S E I HL HP T. rewrite order_sum_wigner by exact HL. unfold Rdiv.
  rewrite !RtoC_mult, <- !Cmult_assoc. f_equal.
  rewrite (csum_map_ext _ (fun M => bin_mean_spec (sep_cells st b) (fun r => RtoC (/ vol_cell (st_mesh st)) *
     csum (map (fun ab => if separated (st_mesh st) (part_of (fst ab)) (part_of (snd ab)) r
       then RtoC (weight_of (fst ab) * weight_of (snd ab)) *
         (reduced_ylm P L M (los_of (fst ab)) * Cconj (reduced_ylm P L M (sep_vec st r))) else RtoC 0)
       (distinct_pairs obs))))%C).
  - rewrite bin_mean_sum, <- bin_mean_scal. apply bin_mean_ext. intros r _. rewrite csum_map_scal. f_equal.
    rewrite csum_swap. apply csum_map_ext. intros ab _. destruct (separated _ _ _ _).
    + unfold ylm_pair. now rewrite <- csum_map_scal.
    + now apply csum_map_zero.
  - intros M _. rewrite (proj1 (stats_config_exact P st (ord M (- M)%Z) _ _ _ L (- M) b (HP M (- M)%Z))).
    rewrite <- bin_mean_scal. apply bin_mean_ext. intros r _. rewrite T. unfold pair_value.
    fold (sep_vec st r). rewrite ylm_opposite_order.
    set (K := csum (map _ (distinct_pairs obs))).
    replace (RtoC (sign M) * (RtoC (/ vol_cell (st_mesh st)) * K * (RtoC (sign M) * Cconj (reduced_ylm P L M (sep_vec st r)))))%C
    with ((RtoC (sign M) * RtoC (sign M)) * (RtoC (/ vol_cell (st_mesh st)) * (Cconj (reduced_ylm P L M (sep_vec st r)) * K)))%C by ring.
    rewrite <- (RtoC_mult (sign M)), sign_sqr, Cmult_1_l. f_equal. unfold K. rewrite <- csum_map_scal. apply csum_map_ext. intros ab _.
    destruct (separated _ _ _ _); ring.
Qed.

(** The measured multipole: mean over the separations of the bin of the weighted pairs at
    each of them, projected on the direction to the first object of the pair. *)
Theorem corrfunc_is_pair_sum :
  forall P st ord wd wr L data rand norm b, sound st -> st_scheme st = NGP -> st_interlace st = false -> (0 <= L)%Z ->
  objects_inside (st_mesh st) data rand ->
  (forall M m, Permutation (ord M m) (grid_cells (ngrid (st_mesh st)))) ->
  let out := compute_corrfunc P (wigner_3j L 0 L) st ord wd wr L data rand norm b in
  o_raw out =
  (RtoC norm * (RtoC ((2 * IZR L + 1) / vol_cell (st_mesh st)) *
   bin_mean_spec (sep_cells st b) (fun r =>
     csum (map (fun ab => if separated (st_mesh st) (part_of (fst ab)) (part_of (snd ab)) r
       then RtoC (weight_of (fst ab) * weight_of (snd ab)) * ylm_pair P L (los_of (fst ab)) (sep_vec st r) else RtoC 0)
       (distinct_pairs (objects (wd / wr) data rand))))))%C /\
  o_count out = INR (length (sep_cells st b)).
Proof.
  intros P st ord wd wr L data rand norm b S E I HL B HP out. split.
  - unfold out, compute_corrfunc. cbn [o_raw]. f_equal.
    apply (orders_pairs P st L (objects (wd / wr) data rand) b ord
      (fun M => transform st (ylm_wgtd_field P st (wd / wr) L M data rand)) _
      (fun M => ylm_wgtd_shotnoise P 2 L M (wd / wr) (map fst data) (map fst rand) (map snd data) (map snd rand)) S E I HL HP).
    intros M r. now apply corrfunc_mesh_pairs.
  - unfold out, compute_corrfunc. cbn [o_count]. apply (stats_config_exact P st (ord 0%Z 0%Z)). apply HP.
Qed.

(** The window correlation function: pairs of different random particles with weights
    scaled by alpha. *)
Theorem window_is_pair_sum :
  forall P st ord L rand alpha norm b, sound st -> st_scheme st = NGP -> st_interlace st = false -> (0 <= L)%Z ->
  (forall vp, In vp rand -> inside_box (st_mesh st) (snd vp)) ->
  (forall M m, Permutation (ord M m) (grid_cells (ngrid (st_mesh st)))) ->
  o_raw (compute_corrfunc_window P (wigner_3j L 0 L) st ord L rand alpha norm b) =
  (RtoC norm * (RtoC ((2 * IZR L + 1) / vol_cell (st_mesh st)) *
   bin_mean_spec (sep_cells st b) (fun r =>
     csum (map (fun ab => if separated (st_mesh st) (part_of (fst ab)) (part_of (snd ab)) r
       then RtoC (weight_of (fst ab) * weight_of (snd ab)) * ylm_pair P L (los_of (fst ab)) (sep_vec st r) else RtoC 0)
       (distinct_pairs (map (fun vp => (vp, alpha)) rand))))))%C.
Proof.
  intros P st ord L rand alpha norm b S E I HL B HP. unfold compute_corrfunc_window. cbn [o_raw]. f_equal.
  apply (orders_pairs P st L (map (fun vp => (vp, alpha)) rand) b ord
    (fun M => transform st (ylm_wgtd_field1 P st alpha L M rand)) _
    (fun M => ylm_wgtd_shotnoise1 P 2 L M alpha (map fst rand) (map snd rand)) S E I HL HP).
  intros M r.
  assert (FP : forall l m c, grid_cell (ngrid (st_mesh st)) c -> f_main (ylm_wgtd_field1 P st alpha l m rand) c =
    points (vol_cell (st_mesh st)) (map (fun o => (nearest (st_mesh st) (part_of o), RtoC (weight_of o) * reduced_ylm P l m (los_of o))%C)
      (map (fun vp => (vp, alpha)) rand)) c).
  { intros l m c Hc. unfold ylm_wgtd_field1. cbn [f_main]. rewrite ngp_points by assumption. unfold points. rewrite !map_map, <- csum_map_scal.
    apply csum_map_ext. intros [v p] _. unfold weight_of, part_of, los_of. cbn [fst snd]. destruct (cell_eqb _ _); [|ring].
    rewrite RtoC_mult. ring. }
  apply objects_pairs; try assumption.
  - apply FP.
  - apply FP.
  - unfold ylm_wgtd_shotnoise1, ylm_wgtd_sum. clear. induction rand as [|[v p] ps IH]; cbn [map combine]; [cbn; ring|].
    rewrite !csum_cons, <- IH. cbn [fst snd]. unfold weight_of, part_of, los_of. cbn [fst snd].
    replace (alpha * p_w p * (alpha * p_w p)) with (alpha ^ 2 * p_w p ^ 2) by ring. rewrite RtoC_mult. ring.
Qed.

(** ** C72: correlation functions in periodic boxes *)

(** Number of ordered pairs of different particles at separation [r]. *)
Definition pairs_at (g : mesh_params) (ps : list pdatum) (r : gcell) : nat :=
  length (filter (fun ab => separated g (fst ab) (snd ab) r) (distinct_pairs ps)).

Lemma csum_count {A} (p : A -> bool) l : csum (map (fun a => if p a then RtoC 1 else RtoC 0) l) = RtoC (INR (length (filter p l))).
Proof.
  induction l as [|a l IH]; [reflexivity|]. cbn [map filter]. rewrite csum_cons, IH. destruct (p a).
  - cbn [length]. now rewrite S_INR, RtoC_plus, Cplus_comm.
  - apply Cplus_0_l.
Qed.

Theorem box_corrfunc_mesh_pairs :
  forall st ps r, sound st -> st_scheme st = NGP -> st_interlace st = false ->
  (forall p, In p ps -> inside_box (st_mesh st) p) ->
  let dn := transform st (fluctuation_field st ps) in
  twopt_3d st dn dn (RtoC (INR (length ps))) r =
  RtoC (INR (pairs_at (st_mesh st) ps r) / vol_cell (st_mesh st) - INR (length ps) ^ 2 / st_vol st).
Proof.
  intros st ps r S E I B dn. pose proof S as (V & Hvol). pose proof (valid_grid _ V) as G.
  assert (C0 : grid_cell (ngrid (st_mesh st)) cell0) by (unfold grid_cell, cell0; destruct G as (? & ? & ?); lia).
  destruct (fluctuation_modes st ps S B (fun e => False_ind _ (eq_true_false_abs _ e I))) as [M0 Z0]. rewrite I in Z0. fold dn in M0, Z0.
  set (un := transform st (unweighted_field st ps)) in *.
  assert (U0 : un cell0 = RtoC (INR (length ps))).
  { unfold un, unweighted_field. rewrite zero_mode_is_total_weight.
    - clear. induction ps as [|p ps IH]; [reflexivity|]. cbn [map]. rewrite csum_cons, IH. cbn [length].
      rewrite S_INR. unfold cweight, unit_particle, RtoC, Cplus. cbn. f_equal; ring.
    - exact S.
    - intros p Hp. apply in_map_iff in Hp. destruct Hp as (q & <- & Hq). exact (B q Hq).
    - intros X. congruence. }
  assert (X : twopt_3d st dn dn (RtoC (INR (length ps))) r =
    (twopt_3d st un un (RtoC (INR (length ps))) r - RtoC (INR (length ps) ^ 2 / st_vol st))%C).
  { unfold twopt_3d. rewrite !inverse_total.
    rewrite (total3_ext _ (fun c => (pk_mode st dn dn c - sn_mode st (RtoC (INR (length ps))) c) * wave (ngrid (st_mesh st)) c r)%C
      (fun c => (pk_mode st un un c - sn_mode st (RtoC (INR (length ps))) c) * wave (ngrid (st_mesh st)) c r +
        (if cell_eqb c cell0 then RtoC (- INR (length ps) ^ 2) else RtoC 0))%C).
    - rewrite total3_plus, Cmult_plus_distr_l. unfold Cminus. f_equal. rewrite (total3_pick _ _ cell0).
      + replace (cell_eqb cell0 cell0) with true by reflexivity. rewrite <- RtoC_mult, <- RtoC_opp. f_equal. unfold Rdiv. ring.
      + exact C0.
      + intros c _ N. destruct (cell_eqb_spec c cell0); [contradiction|reflexivity].
    - intros c Hc. destruct (cell_eqb_spec c cell0) as [->|N].
      + unfold pk_mode. rewrite Z0, U0, win_0 by (try exact V; intros Y; congruence). rewrite wave_0, Cconj_RtoC, Rinv_1.
        replace (RtoC (- INR (length ps) ^ 2)) with (- (RtoC (INR (length ps)) * RtoC (INR (length ps))))%C
          by (rewrite <- RtoC_mult, <- RtoC_opp; f_equal; ring). rewrite !Cconj_RtoC. ring.
      + unfold pk_mode. rewrite M0 by assumption. ring. }
  rewrite X. clear X.
  assert (PT : forall c, grid_cell (ngrid (st_mesh st)) c -> f_main (unweighted_field st ps) c =
    points (vol_cell (st_mesh st)) (map (fun p => (nearest (st_mesh st) p, RtoC 1)) ps) c).
  { intros c Hc. unfold unweighted_field. rewrite main_value; [|exact V| |exact Hc].
    - unfold points. rewrite !map_map. apply csum_map_ext. intros p Hp. cbn [fst snd unit_particle pos].
      rewrite E, ngp_share by (try exact V; exact (B _ Hp)). change (cweight (unit_particle p)) with (RtoC 1).
      destruct (cell_eqb _ _).
      + f_equal. f_equal. unfold Rdiv. ring.
      + replace (0 / vol_cell (st_mesh st)) with 0 by (unfold Rdiv; ring). ring.
    - intros p Hp. apply in_map_iff in Hp. destruct Hp as (q & <- & Hq). exact (B q Hq). }
  assert (GR : forall xu, In xu (map (fun p => (nearest (st_mesh st) p, RtoC 1)) ps) -> grid_cell (ngrid (st_mesh st)) (fst xu)).
  { intros xu H. apply in_map_iff in H. destruct H as (p & <- & _). now apply nearest_grid. }
  unfold un. rewrite (twopt_points st _ _ _ _ _ r S E I GR GR PT PT). rewrite map_map. cbn [fst snd].
  set (F := fun a b : pdatum => if separated (st_mesh st) a b r then RtoC 1 else RtoC 0).
  rewrite (csum_map_ext _ (fun a => csum (map (F a) ps))).
  - rewrite csum_all_pairs. unfold F at 1. rewrite csum_count. fold (pairs_at (st_mesh st) ps r).
    rewrite (csum_map_ext (fun a => F a a) (fun o => if same_cell (ngrid (st_mesh st)) cell0 r then RtoC 1 else RtoC 0)).
    + rewrite <- csum_if_const.
      assert (N : csum (map (fun _ : pdatum => RtoC 1) ps) = RtoC (INR (length ps))).
      { clear. induction ps as [|p ps IH]; [reflexivity|]. cbn [map]. rewrite csum_cons, IH. cbn [length]. now rewrite S_INR, RtoC_plus, Cplus_comm. }
      rewrite N. rewrite RtoC_minus. unfold Rdiv. rewrite (RtoC_mult (INR (pairs_at _ _ _))). ring.
    + intros o _. unfold F, separated. replace (cell_sub (nearest (st_mesh st) o) (nearest (st_mesh st) o)) with cell0; [reflexivity|].
      destruct (nearest _ _) as [[i j] k]. unfold cell_sub, cell0. now rewrite !Z.sub_diag.
  - intros a _. rewrite map_map. apply csum_map_ext. intros b _. cbn [fst snd]. unfold F, separated.
    destruct (same_cell _ _ _); [|reflexivity]. rewrite Cconj_RtoC. ring.
Qed.

(** Monopole with the normalisation [V / N^2]: counted pairs over expected pairs, less
    one (the natural estimator); [npair] is the number of ordered pairs in the bin. *)
Theorem box_corrfunc_natural :
  forall P st order ps b, sound st -> st_scheme st = NGP -> st_interlace st = false ->
  (forall p, In p ps -> inside_box (st_mesh st) p) -> ps <> [] -> sep_cells st b <> [] ->
  Permutation order (grid_cells (ngrid (st_mesh st))) ->
  let npair := rsum (map (fun r => INR (pairs_at (st_mesh st) ps r)) (sep_cells st b)) in
  let expected := INR (length ps) ^ 2 * (INR (length (sep_cells st b)) / mesh_size (ngrid (st_mesh st))) in
  o_raw (compute_corrfunc_in_gpp_box P st order 0 ps (st_vol st / INR (length ps) ^ 2) b) = RtoC (npair / expected - 1).
Proof.
  intros P st order ps b S E I B N NB HP npair expected. pose proof S as (V & Hvol). pose proof (mesh_size_pos _ (valid_grid _ V)) as Hm.
  assert (Hv : 0 < vol_cell (st_mesh st)) by apply V.
  assert (Hn : 0 < INR (length ps)) by (apply lt_0_INR; destruct ps; [congruence|cbn; lia]).
  assert (Hb : 0 < INR (length (sep_cells st b))) by (apply lt_0_INR; destruct (sep_cells st b); [congruence|cbn; lia]).
  unfold compute_corrfunc_in_gpp_box. cbn [o_raw]. change (IZR (2 * 0 + 1)) with 1. rewrite Cmult_1_l.
  rewrite (proj1 (stats_config_exact P st order _ _ _ 0 0 b HP)).
  rewrite (bin_mean_ext _ _ (fun r => RtoC (INR (pairs_at (st_mesh st) ps r) / vol_cell (st_mesh st) - INR (length ps) ^ 2 / st_vol st)))
    by (intros r _; rewrite (proj1 (ylm_special P _)), Cmult_1_r; now apply box_corrfunc_mesh_pairs).
  unfold bin_mean_spec.
  assert (X : forall l, csum (map (fun r => RtoC (INR (pairs_at (st_mesh st) ps r) / vol_cell (st_mesh st) - INR (length ps) ^ 2 / st_vol st)) l) =
    RtoC (rsum (map (fun r => INR (pairs_at (st_mesh st) ps r)) l) / vol_cell (st_mesh st) - INR (length l) * (INR (length ps) ^ 2 / st_vol st))).
  { induction l as [|r l IH]; [cbn [map length]; rewrite rsum_nil; cbn [csum fold_right INR]; f_equal; unfold Rdiv; ring|].
    cbn [map]. rewrite csum_cons, IH, rsum_cons, <- RtoC_plus. cbn [length]. rewrite S_INR. f_equal. unfold Rdiv. ring. }
  rewrite X. fold npair. rewrite <- !RtoC_mult. f_equal. unfold expected. rewrite Hvol. field.
  repeat split; try lra.
Qed.

(** ** Cases *)
Definition st_ngp : settings := Settings NGP 1 false grid2 8.
Definition at_x (x w : R) : pdatum := PDatum (T3 x 0 0) 1 1 1 w.
Lemma nearest_at x w i : IZR i - 1 / 2 <= x < IZR i + 1 / 2 -> (0 <= i < 2)%Z -> nearest grid2 (at_x x w) = (i, 0, 0)%Z.
Proof.
  intros H Hi. unfold nearest, nearest_axis, at_x, grid2. cbn [ngrid boxsize p_pos ax0 ax1 ax2].
  rewrite (Zfloor_imp i) by (rewrite plus_IZR; lra). rewrite !(Zfloor_imp 0) by (cbn; lra).
  rewrite (Z.mod_small i) by lia. reflexivity.
Qed.

(** Two galaxies one cell apart in a box of two cells: two ordered pairs against the four
    expected. *)
Example natural_case :
  o_raw (compute_corrfunc_in_gpp_box legendre st_ngp (grid_cells (T3 2 2 2)%Z) 0 [at_x 0 1; at_x (5 / 4) 1] 2 wide) = RtoC (2 / 4 - 1) /\
  pairs_at grid2 [at_x 0 1; at_x (5 / 4) 1] (1, 0, 0)%Z = 2%nat /\ pairs_at grid2 [at_x 0 1; at_x (5 / 4) 1] (0, 0, 0)%Z = 0%nat.
Proof.
  assert (N0 : nearest grid2 (at_x 0 1) = (0, 0, 0)%Z) by (apply nearest_at; [lra|lia]).
  assert (N1 : nearest grid2 (at_x (5 / 4) 1) = (1, 0, 0)%Z) by (apply nearest_at; [lra|lia]).
  assert (PA : forall r, pairs_at grid2 [at_x 0 1; at_x (5 / 4) 1] r =
    ((if same_cell (T3 2 2 2)%Z (-1, 0, 0)%Z r then 1 else 0) + (if same_cell (T3 2 2 2)%Z (1, 0, 0)%Z r then 1 else 0))%nat).
  { intros r. unfold pairs_at, distinct_pairs. cbn [picks map flat_map app filter fst snd]. unfold separated. rewrite N0, N1.
    cbn [cell_sub Z.sub Z.add Z.opp]. change (ngrid grid2) with (T3 2 2 2)%Z. change (0 - 1)%Z with (-1)%Z.
    destruct (same_cell _ (-1, 0, 0)%Z r), (same_cell _ (1, 0, 0)%Z r); reflexivity. }
  split; [|split; rewrite PA; reflexivity].
  assert (AL : sep_cells st_ngp wide = grid_cells (T3 2 2 2)%Z).
  { unfold sep_cells. apply counted_all; [exact dr_pos|cbn; lra|]. intros c Hc. apply In_grid_cells in Hc.
    destruct (proj2 (wide_all false) c Hc). split; [split; [apply vec_mod_nonneg|assumption]|assumption]. }
  replace 2 with (st_vol st_ngp / INR (length [at_x 0 1; at_x (5 / 4) 1]) ^ 2) at 1 by (simpl; lra).
  rewrite box_corrfunc_natural.
  - rewrite AL. f_equal. f_equal.
    replace (rsum (map (fun r => INR (pairs_at (st_mesh st_ngp) [at_x 0 1; at_x (5 / 4) 1] r)) (grid_cells (T3 2 2 2)%Z))) with 2.
    + replace (INR (length (grid_cells (T3 2 2 2)%Z))) with 8 by (rewrite INR_IZR_INZ; reflexivity).
      replace (INR (length [at_x 0 1; at_x (5 / 4) 1])) with 2 by (rewrite INR_IZR_INZ; reflexivity).
      replace (mesh_size (ngrid (st_mesh st_ngp))) with 8 by reflexivity. field.
    + change (st_mesh st_ngp) with grid2. rewrite (map_ext _ _ (fun r => f_equal INR (PA r))).
      change (grid_cells (T3 2 2 2)%Z) with [(0,0,0);(0,0,1);(0,1,0);(0,1,1);(1,0,0);(1,0,1);(1,1,0);(1,1,1)]%Z.
      cbn. ring.
  - apply (st2_sound false).
  - reflexivity.
  - reflexivity.
  - intros p [<-|[<-|[]]]; unfold inside_box, in_box, at_x; cbn; repeat split; lra.
  - discriminate.
  - rewrite AL. discriminate.
  - apply Permutation_refl.
Qed.

Print Assumptions corrfunc_mesh_pairs.
Print Assumptions corrfunc_is_pair_sum.
Print Assumptions window_is_pair_sum.
Print Assumptions box_corrfunc_mesh_pairs.
Print Assumptions box_corrfunc_natural.
