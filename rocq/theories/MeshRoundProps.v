(* C132: particles put on the mesh with rounded arithmetic. *)
From Coq Require Import Reals ZArith List Lia Lra Psatz Bool.
From Flocq Require Import Core Relative.
From Verif Require Import Base ArrayModel ArrayProofs RSum ResampleModel ResampleProps BinRoundProps
  MeshModel MeshIndexProps MeshProofs MeshProps MeshRoundModel.
Import ListNotations.
Local Open Scope R_scope.

#[local] Existing Instance prec53.
#[local] Existing Instance validflx.

(* ------------------------------------------------------------------ *)
(* Vocabulary                                                          *)

(** A number of grid cells as `int` holds it, and one that is a power of two. *)
Definition grid_number (n : Z) : Prop := (0 < n < 2 ^ 31)%Z.
Definition power_of_two (n : Z) : Prop := exists k, (0 <= k)%Z /\ n = (2 ^ k)%Z.

(** A position in [0, L) away from the upper face by 2^-51 of the box, four
    units in the last place. *)
Definition off_the_face (L x : R) : Prop := x <= L * (1 - / 2251799813685248).

Definition all_axes (P : Z -> R -> R -> Prop) (g : mesh_params) (p : particle) : Prop :=
  P (ax0 (ngrid g)) (ax0 (boxsize g)) (ax0 (pos p)) /\
  P (ax1 (ngrid g)) (ax1 (boxsize g)) (ax1 (pos p)) /\
  P (ax2 (ngrid g)) (ax2 (boxsize g)) (ax2 (pos p)).

(* ------------------------------------------------------------------ *)
(* Rounding                                                            *)

Lemma next_below x L : float x -> float L -> 0 <= x -> x < L -> x + ulp radix2 (FLX_exp 53) x <= L.
Proof.
  intros Fx FL P H. rewrite <- succ_eq_pos by exact P. apply succ_le_lt; [typeclasses eauto|exact Fx|exact FL|exact H].
Qed.

Lemma product_error n x : (0 < n)%Z -> 0 < x ->
  fl (IZR n * x) <= IZR n * (x + ulp radix2 (FLX_exp 53) x).
Proof.
  intros N P. assert (N0 : 0 < IZR n) by (apply IZR_lt; exact N).
  assert (E := error_le_half_ulp radix2 (FLX_exp 53) (fun z => negb (Z.even z)) (IZR n * x)).
  fold ZnearestE in E. change (round radix2 (FLX_exp 53) ZnearestE (IZR n * x)) with (fl (IZR n * x)) in E.
  apply Rabs_le_inv in E.
  assert (U : ulp radix2 (FLX_exp 53) (IZR n * x) <= 2 * IZR n * ulp radix2 (FLX_exp 53) x).
  { rewrite !ulp_neq_0 by nra. unfold cexp, FLX_exp.
    assert (M : (mag radix2 (IZR n * x) <= mag radix2 (IZR n) + mag radix2 x)%Z) by (apply mag_mult; lra).
    apply Rle_trans with (bpow radix2 (mag radix2 (IZR n) + mag radix2 x - 53)); [apply bpow_le; lia|].
    replace (mag radix2 (IZR n) + mag radix2 x - 53)%Z
      with (1 + (mag radix2 (IZR n) - 1) + (mag radix2 x - 53))%Z by ring.
    rewrite !bpow_plus. apply Rmult_le_compat_r; [apply bpow_ge_0|].
    change (bpow radix2 1) with 2. apply Rmult_le_compat_l; [lra|].
    assert (B := bpow_mag_le radix2 (IZR n) ltac:(lra)). rewrite Rabs_pos_eq in B by lra.
    exact B. }
  lra.
Qed.

Lemma grid_float n : grid_number n -> float (IZR n).
Proof. intros H. apply float_Z. unfold grid_number in H. lia. Qed.

Lemma fl_nonneg x : 0 <= x -> 0 <= fl x.
Proof. intros H. exact (proj1 (fl_up x H)). Qed.

Lemma loc_zero n L : grid_loc_fl n L 0 = 0.
Proof.
  unfold grid_loc_fl. rewrite Rmult_0_r, (fl_id 0 float_0). unfold Rdiv. rewrite Rmult_0_l.
  exact (fl_id 0 float_0).
Qed.

(* ------------------------------------------------------------------ *)
(* C132: locations                                                     *)

(** A particle in the box is located on the grid or at its very end, never
    beyond. *)
Theorem loc_bounds n L x : grid_number n -> float L -> float x -> 0 <= x < L ->
  0 <= grid_loc_fl n L x <= IZR n.
Proof.
  intros G FL Fx [P H]. assert (N : 0 < IZR n) by (apply IZR_lt; apply G).
  split; unfold grid_loc_fl.
  - apply fl_nonneg. apply Rmult_le_pos; [apply fl_nonneg; nra|]. apply Rlt_le, Rinv_0_lt_compat. lra.
  - apply Rle_trans with (fl (IZR n)); [|rewrite fl_id by (now apply grid_float); lra]. apply fl_le.
    apply (Rmult_le_reg_r L); [lra|]. unfold Rdiv. rewrite Rmult_assoc, Rinv_l, Rmult_1_r by lra.
    destruct (Rle_lt_or_eq_dec 0 x P) as [P'|<-].
    + eapply Rle_trans; [apply product_error; [apply G|exact P']|].
      apply Rmult_le_compat_l; [lra|]. now apply next_below.
    + rewrite Rmult_0_r, (fl_id 0 float_0). nra.
Qed.

(** The location is that of exact arithmetic to within three units of
    rounding. *)
Theorem loc_error n L x : grid_number n -> 0 <= x -> 0 < L ->
  Rabs (grid_loc_fl n L x - grid_loc n L x) <= 3 * / 9007199254740992 * grid_loc n L x.
Proof.
  intros G P HL. assert (N : 0 < IZR n) by (apply IZR_lt; apply G).
  unfold grid_loc_fl, grid_loc. set (a := IZR n * x). assert (A : 0 <= a) by (unfold a; nra).
  assert (E1 := fl_err a). rewrite (Rabs_pos_eq a A) in E1. apply Rabs_le_inv in E1.
  assert (B : 0 <= fl a) by (now apply fl_nonneg).
  assert (IL : 0 < / L) by (now apply Rinv_0_lt_compat).
  assert (E2 := fl_err (fl a / L)). rewrite (Rabs_pos_eq (fl a / L)) in E2 by (apply Rmult_le_pos; lra).
  apply Rabs_le_inv in E2. unfold Rdiv in *.
  assert (U : uu = / 9007199254740992) by apply uu_val. assert (U0 : 0 < uu < / 4) by (rewrite U; lra).
  rewrite <- U.
  assert (C1 : fl a * / L <= a * / L + uu * (a * / L)) by nra.
  assert (C2 : a * / L - uu * (a * / L) <= fl a * / L) by nra.
  assert (D : 0 <= a * / L) by nra. generalize dependent (a * / L). intros q C1 C2 D.
  generalize dependent (fl a * / L). intros r E2 C1 C2.
  apply Rabs_le. assert (uu * uu * q <= uu * q) by nra. split; nra.
Qed.

(** It is on the grid for every position but those at the upper face ... *)
Theorem loc_inside n L x : grid_number n -> 0 < L -> 0 <= x -> off_the_face L x ->
  0 <= grid_loc_fl n L x < IZR n.
Proof.
  intros G HL P F. assert (N : 0 < IZR n) by (apply IZR_lt; apply G).
  assert (E := loc_error n L x G P HL). apply Rabs_le_inv in E.
  assert (IL : 0 < / L) by (now apply Rinv_0_lt_compat).
  assert (Q : 0 <= grid_loc n L x <= IZR n * (1 - / 2251799813685248)).
  { unfold grid_loc, off_the_face in *. split.
    - apply Rmult_le_pos; nra.
    - apply (Rmult_le_reg_r L); [lra|]. unfold Rdiv. rewrite Rmult_assoc, Rinv_l, Rmult_1_r by lra. nra. }
  split; nra.
Qed.

(** ... and for every position when the number of cells is a power of two. *)
Lemma quotient_below x L : float x -> float L -> 0 <= x < L -> fl (x / L) < 1.
Proof.
  intros Fx FL [P H].
  destruct (Rle_lt_or_eq_dec 0 x P) as [P'|<-].
  2:{ unfold Rdiv. rewrite Rmult_0_l, (fl_id 0 float_0). lra. }
  assert (U : x * (1 + uu) < L).
  { eapply Rlt_le_trans; [|apply (next_below x L); try assumption; lra].
    rewrite ulp_neq_0 by lra. unfold cexp, FLX_exp.
    assert (B := bpow_mag_gt radix2 x). rewrite Rabs_pos_eq in B by lra.
    unfold uu. unfold Z.sub. rewrite bpow_plus. assert (0 < bpow radix2 (-53)) by apply bpow_gt_0.
    change (- (53))%Z with (-53)%Z. nra. }
  assert (F1 : float (1 - uu)).
  { replace (1 - uu) with (IZR 9007199254740991 * bpow radix2 (-53)).
    - apply float_int. reflexivity.
    - fold uu. rewrite uu_val. lra. }
  apply Rle_lt_trans with (1 - uu); [|rewrite uu_val; lra].
  apply (round_N_le_midp radix2 (FLX_exp 53) (fun z => negb (Z.even z))); [exact F1|].
  rewrite succ_eq_pos by (rewrite uu_val; lra).
  assert (UL : ulp radix2 (FLX_exp 53) (1 - uu) = uu).
  { rewrite ulp_neq_0 by (rewrite uu_val; lra). unfold cexp. rewrite (mag_unique_pos radix2 _ 0); [reflexivity|].
    change (bpow radix2 (0 - 1)) with (/ 2). change (bpow radix2 0) with 1. rewrite uu_val. split; lra. }
  rewrite UL. assert (U0 : 0 < uu < / 4) by (rewrite uu_val; lra).
  apply (Rmult_lt_reg_r L); [lra|]. unfold Rdiv at 1. rewrite Rmult_assoc, Rinv_l, Rmult_1_r by lra.
  nra.
Qed.

Lemma fl_scale x e : fl (x * bpow radix2 e) = fl x * bpow radix2 e.
Proof.
  unfold fl, round, F2R, scaled_mantissa, cexp, FLX_exp. cbn [Fnum Fexp].
  destruct (Req_dec x 0) as [->|X].
  - rewrite !Rmult_0_l. replace (ZnearestE 0) with 0%Z by (symmetry; apply (Znearest_imp (fun z => negb (Z.even z)) 0 0); rewrite Rminus_0_r, Rabs_R0; lra). ring.
  - rewrite mag_mult_bpow by exact X.
    replace (x * bpow radix2 e * bpow radix2 (- (mag radix2 x + e - 53)))
      with (x * bpow radix2 (- (mag radix2 x - 53))).
    2:{ rewrite Rmult_assoc, <- bpow_plus. do 2 f_equal. ring. }
    rewrite Rmult_assoc, <- bpow_plus. do 2 f_equal. ring.
Qed.

Theorem loc_inside_power n L x : grid_number n -> power_of_two n -> float L -> float x -> 0 <= x < L ->
  0 <= grid_loc_fl n L x < IZR n.
Proof.
  intros G (k & K & E) FL Fx H. split; [now apply loc_bounds|].
  assert (B : IZR n = bpow radix2 k).
  { rewrite E. rewrite <- IZR_Zpower by exact K. reflexivity. }
  unfold grid_loc_fl. rewrite B, (Rmult_comm _ x), (fl_id (x * _)) by (now apply float_scale).
  replace (x * bpow radix2 k / L) with (x / L * bpow radix2 k) by (unfold Rdiv; ring).
  rewrite fl_scale. assert (Q := quotient_below x L Fx FL H). assert (0 < bpow radix2 k) by apply bpow_gt_0.
  nra.
Qed.

(* ------------------------------------------------------------------ *)
(* C132: the mesh                                                      *)

(** Positions and sizes are binary64 numbers, and along each axis the grid
    number is a power of two or the particle is off the upper face. *)
Definition placed (n : Z) (L x : R) : Prop :=
  grid_number n /\ float L /\ float x /\ 0 <= x < L /\ (power_of_two n \/ off_the_face L x).

Lemma placed_loc n L x : placed n L x -> 0 <= grid_loc_fl n L x < IZR n.
Proof.
  intros (G & FL & Fx & H & [K|K]); [now apply loc_inside_power|]. apply loc_inside; try assumption; lra.
Qed.

(** Then no weight is lost, in any scheme. *)
Theorem assign_fl_conserves sch g ps b : valid g ->
  (forall p, In p ps -> all_axes placed g p) ->
  mesh_total g (assign_main_fl sch g ps) b = rsum (map (part_weight b) ps).
Proof.
  intros V B. pose proof V as ((Hx & Hy & Hz) & L0 & L1 & L2 & Hv).
  unfold assign_main_fl. rewrite mesh_total_updates by exact Hv. rewrite rsum_flat_map.
  rewrite (rsum_map_ext _ (fun p => part_weight b p / vol_cell g)).
  - unfold Rdiv. rewrite rsum_map_scal_r. field. lra.
  - intros p Hp. destruct (B p Hp) as (B0 & B1 & B2). unfold updates_main_fl. rewrite particle_total by exact Hv.
    rewrite kept_all by (try assumption; apply cells_in; try assumption; now apply placed_loc).
    rewrite !cells_tot. ring.
Qed.

(** The mesh is that of exact arithmetic for particles moved along each axis
    by at most three units of rounding. *)
Definition moved (g : mesh_params) (p p' : particle) : Prop :=
  w_re p' = w_re p /\ w_im p' = w_im p /\
  Rabs (ax0 (pos p') - ax0 (pos p)) <= 3 * / 9007199254740992 * ax0 (pos p) /\
  Rabs (ax1 (pos p') - ax1 (pos p)) <= 3 * / 9007199254740992 * ax1 (pos p) /\
  Rabs (ax2 (pos p') - ax2 (pos p)) <= 3 * / 9007199254740992 * ax2 (pos p).

Lemma moved_axis n L x : placed n L x ->
  exists x', grid_loc n L x' = grid_loc_fl n L x /\ 0 <= x' < L /\
             Rabs (x' - x) <= 3 * / 9007199254740992 * x.
Proof.
  intros Pl. pose proof (placed_loc _ _ _ Pl) as Q. destruct Pl as (G & FL & Fx & H & _).
  assert (N : 0 < IZR n) by (apply IZR_lt; apply G).
  assert (E := loc_error n L x G ltac:(lra) ltac:(lra)). set (l := grid_loc_fl n L x) in *.
  exists (l * L / IZR n). split; [unfold grid_loc; field; split; lra|]. split.
  - split.
    + apply Rmult_le_pos; [nra|]. apply Rlt_le, Rinv_0_lt_compat, N.
    + apply (Rmult_lt_reg_r (IZR n)); [exact N|]. unfold Rdiv. rewrite Rmult_assoc, Rinv_l by lra. nra.
  - assert (X : l * L / IZR n - x = (l - grid_loc n L x) * (L / IZR n)) by (unfold grid_loc; field; split; lra).
    rewrite X, Rabs_mult. assert (S : 0 < L / IZR n) by (apply Rdiv_lt_0_compat; lra).
    rewrite (Rabs_pos_eq (L / IZR n)) by lra.
    replace (3 * / 9007199254740992 * x) with (3 * / 9007199254740992 * grid_loc n L x * (L / IZR n))
      by (unfold grid_loc; field; split; lra).
    apply Rmult_le_compat_r; [lra|exact E].
Qed.

Theorem assign_fl_moved sch g ps :
  (forall p, In p ps -> all_axes placed g p) ->
  exists ps', Forall2 (moved g) ps ps' /\ (forall p, In p ps' -> in_box g p) /\
              assign_main_fl sch g ps = assign_main sch g ps'.
Proof.
  intros B. unfold assign_main_fl, assign_main.
  assert (X : exists ps', Forall2 (moved g) ps ps' /\ (forall p, In p ps' -> in_box g p) /\
                flat_map (updates_main_fl sch g) ps = flat_map (updates_main sch g) ps').
  { induction ps as [|p ps IH].
    - exists []. split; [constructor|]. split; [intros p []|reflexivity].
    - destruct IH as (qs & F & I & E); [intros q Hq; apply B; now right|].
      destruct (B p (or_introl eq_refl)) as (B0 & B1 & B2).
      destruct (moved_axis _ _ _ B0) as (x & X0 & X1 & X2).
      destruct (moved_axis _ _ _ B1) as (y & Y0 & Y1 & Y2).
      destruct (moved_axis _ _ _ B2) as (z & Z0 & Z1 & Z2).
      exists (Particle (T3 x y z) (w_re p) (w_im p) :: qs). split; [|split].
      + constructor; [|exact F]. unfold moved. cbn. tauto.
      + intros q [<-|Hq]; [unfold in_box; cbn; tauto|now apply I].
      + cbn [flat_map]. rewrite E. f_equal. unfold updates_main_fl, updates_main. cbn [pos ax0 ax1 ax2].
        rewrite X0, Y0, Z0. reflexivity. }
  destruct X as (qs & F & I & E). exists qs. rewrite E. auto.
Qed.

(* ------------------------------------------------------------------ *)
(* At the upper face                                                   *)

Lemma fl_at v e m : bpow radix2 (e - 1) <= v < bpow radix2 e ->
  Rabs (v * bpow radix2 (53 - e) - IZR m) < / 2 -> fl v = IZR m * bpow radix2 (e - 53).
Proof.
  intros B H. unfold fl, round, F2R, scaled_mantissa, cexp, FLX_exp. cbn [Fnum Fexp].
  rewrite (mag_unique_pos radix2 v e B). replace (- (e - 53))%Z with (53 - e)%Z by ring.
  rewrite (Znearest_imp _ _ m H). reflexivity.
Qed.

(** Five cells in a box a little smaller than two, and the last number below
    its size. *)
Definition box5 : R := 9007199254740983 * / 4503599627370496.
Definition edge5 : R := 9007199254740982 * / 4503599627370496.

Lemma box5_float : float box5.
Proof. apply (float_int 9007199254740983 (-52)). reflexivity. Qed.
Lemma edge5_float : float edge5.
Proof. apply (float_int 9007199254740982 (-52)). reflexivity. Qed.

Lemma edge5_loc : grid_loc_fl 5 box5 edge5 = 5.
Proof.
  assert (B3 : bpow radix2 (4 - 1) = 8) by reflexivity. assert (B4 : bpow radix2 4 = 16) by reflexivity.
  assert (B2 : bpow radix2 (3 - 1) = 4) by reflexivity. assert (B8 : bpow radix2 3 = 8) by reflexivity.
  assert (P49 : bpow radix2 (53 - 4) = 562949953421312) by reflexivity.
  assert (M49 : bpow radix2 (4 - 53) = / 562949953421312) by reflexivity.
  assert (P50 : bpow radix2 (53 - 3) = 1125899906842624) by reflexivity.
  assert (M50 : bpow radix2 (3 - 53) = / 1125899906842624) by reflexivity.
  unfold grid_loc_fl.
  rewrite (fl_at (5 * edge5) 4 5629499534213114), M49.
  2:{ rewrite B3, B4. unfold edge5. split; lra. }
  2:{ rewrite P49. unfold edge5. apply Rabs_def1; lra. }
  rewrite (fl_at _ 3 5629499534213120), M50.
  - lra.
  - rewrite B2, B8. unfold box5. split; lra.
  - rewrite P50. unfold box5. apply Rabs_def1; lra.
Qed.

(** Decides tests of integers. *)
Ltac decide_ifs :=
  repeat match goal with
  | |- context[if ?b then _ else _] => let v := eval vm_compute in b in progress change b with v; cbv iota
  end.

Definition mesh5 : mesh_params := MeshParams (T3 5%Z 5%Z 5%Z) (T3 box5 box5 box5) 1.
Definition at_x : particle := Particle (T3 edge5 0 0) 1 0.
Definition at_z : particle := Particle (T3 0 0 edge5) 1 0.

(** C132 fails as stated: a particle in the box just below its upper face is
    lost along the first axis, and put into a cell of the wrong row along the
    last. *)
Theorem face_refuted :
  valid mesh5 /\ in_box mesh5 at_x /\ in_box mesh5 at_z /\ float box5 /\ float edge5 /\
  (forall sch, sch = NGP \/ sch = CIC -> mesh_total mesh5 (assign_main_fl sch mesh5 [at_x]) false = 0) /\
  assign_main_fl NGP mesh5 [at_z] (grid_index 5 5 0 1 0) false = 1 /\
  assign_main_fl NGP mesh5 [at_z] (grid_index 5 5 0 0 0) false = 0 /\
  assign_main NGP mesh5 [at_z] (grid_index 5 5 0 0 0) false = 1.
Proof.
  assert (BV : 0 < edge5 < box5) by (unfold edge5, box5; lra).
  assert (T5 : Ztrunc 5 = 5%Z) by apply Ztrunc_IZR.
  assert (T0 : Ztrunc 0 = 0%Z) by apply Ztrunc_IZR.
  assert (N5 : cells_ngp 5 5 = [(5%Z, 1)]).
  { unfold cells_ngp. rewrite T5. unfold Rleb. destruct (Rle_dec _ _); [lra|reflexivity]. }
  assert (N0 : cells_ngp 5 0 = [(0%Z, 1)]).
  { unfold cells_ngp. rewrite T0. unfold Rleb. destruct (Rle_dec _ _); [lra|reflexivity]. }
  assert (C5 : cells_cic 5 5 = [(5%Z, 1 - (5 - 5)); (6%Z, 5 - 5)]) by (unfold cells_cic; now rewrite T5).
  assert (C0 : cells_cic 5 0 = [(0%Z, 1 - (0 - 0)); (1%Z, 0 - 0)]) by (unfold cells_cic; now rewrite T0).
  assert (V : valid mesh5) by (unfold valid; cbn; repeat split; try lia; lra).
  split; [exact V|]. split; [unfold in_box; cbn; repeat split; lra|].
  split; [unfold in_box; cbn; repeat split; lra|].
  split; [exact box5_float|]. split; [exact edge5_float|]. split; [|split; [|split]].
  - intros sch S. unfold assign_main_fl. rewrite mesh_total_updates by (cbn; lra).
    cbn [flat_map]. rewrite app_nil_r. unfold updates_main_fl. rewrite particle_total by (cbn; lra).
    cbn [mesh5 at_x ngrid boxsize pos ax0 ax1 ax2]. rewrite edge5_loc, loc_zero.
    destruct S as [-> | ->]; cbn [cells].
    + rewrite N5, N0. unfold kept, rsum. cbn. decide_ifs. ring.
    + rewrite C5, C0. unfold kept, rsum. cbn. decide_ifs. ring.
  - unfold assign_main_fl. rewrite run_value. cbn [flat_map]. rewrite app_nil_r. unfold updates_main_fl.
    cbn [mesh5 at_z ngrid boxsize pos ax0 ax1 ax2]. rewrite edge5_loc, loc_zero.
    cbn [cells]. rewrite N5, N0. cbn. decide_ifs. unfold rsum, contrib. cbn. decide_ifs. lra.
  - unfold assign_main_fl. rewrite run_value. cbn [flat_map]. rewrite app_nil_r. unfold updates_main_fl.
    cbn [mesh5 at_z ngrid boxsize pos ax0 ax1 ax2]. rewrite edge5_loc, loc_zero.
    cbn [cells]. rewrite N5, N0. cbn. decide_ifs. unfold rsum, contrib. cbn. decide_ifs. lra.
  - unfold assign_main. rewrite run_value. cbn [flat_map]. rewrite app_nil_r. unfold updates_main.
    cbn [mesh5 at_z ngrid boxsize pos ax0 ax1 ax2].
    assert (G0 : grid_loc 5 box5 0 = 0) by (unfold grid_loc, Rdiv; ring).
    assert (G5 : 5 - / 2 <= grid_loc 5 box5 edge5 < 5).
    { unfold grid_loc. split.
      - apply (Rmult_le_reg_r box5); [lra|]. unfold Rdiv. rewrite Rmult_assoc, Rinv_l, Rmult_1_r by lra.
        unfold edge5, box5. lra.
      - apply (Rmult_lt_reg_r box5); [lra|]. unfold Rdiv. rewrite Rmult_assoc, Rinv_l, Rmult_1_r by lra.
        lra. }
    rewrite G0. cbn [cells]. rewrite N0.
    assert (E : cells_ngp 5 (grid_loc 5 box5 edge5) = [(0%Z, 1)]).
    { unfold cells_ngp. rewrite Ztrunc_floor by lra. rewrite (Zfloor_imp 4) by (cbn; lra).
      unfold Rleb. destruct (Rle_dec _ _); [reflexivity|cbn in *; lra]. }
    rewrite E. cbn. decide_ifs. unfold rsum, contrib. cbn. decide_ifs. lra.
Qed.

(* ------------------------------------------------------------------ *)
(* Wrapping                                                            *)

Lemma fmod_up x L : 0 < L -> 0 <= x -> 0 <= fmod x L < L.
Proof.
  intros HL P. unfold fmod.
  assert (Q : 0 <= x / L) by (apply Rmult_le_pos; [exact P|apply Rlt_le, Rinv_0_lt_compat, HL]).
  rewrite Ztrunc_floor by exact Q. assert (A := Zfloor_lb (x / L)). assert (B := Zfloor_ub (x / L)).
  assert (X : x = L * (x / L)) by (field; lra).
  set (q := x / L) in *. clearbody q. subst x. split; nra.
Qed.

Lemma fmod_down x L : 0 < L -> x < 0 -> - L < fmod x L <= 0.
Proof.
  intros HL P. unfold fmod.
  assert (Q : x / L <= 0).
  { assert (0 < / L) by (now apply Rinv_0_lt_compat). unfold Rdiv. nra. }
  rewrite Ztrunc_ceil by exact Q. assert (A := Zceil_ub (x / L)).
  assert (B : IZR (Zceil (x / L)) < x / L + 1).
  { unfold Zceil. rewrite opp_IZR. assert (C := Zfloor_ub (- (x / L))). lra. }
  assert (X : x = L * (x / L)) by (field; lra).
  set (q := x / L) in *. clearbody q. subst x. split; nra.
Qed.

(** `std::fmod` of numbers is a number, which is why it is exact. *)
Lemma fmod_float x L : float x -> float L -> 0 < L -> L <= x -> float (fmod x L).
Proof.
  intros Fx FL HL H. destruct (fmod_up x L HL ltac:(lra)) as (R0 & R1).
  set (e := cexp radix2 (FLX_exp 53) L). set (f := cexp radix2 (FLX_exp 53) x).
  assert (EF : (e <= f)%Z).
  { unfold e, f, cexp, FLX_exp. assert (mag radix2 L <= mag radix2 x)%Z by (apply mag_le; lra). lia. }
  assert (EL : exists m, (Z.abs m < 2 ^ 53)%Z /\ L = IZR m * bpow radix2 e).
  { destruct (FLX_format_generic radix2 53 L FL) as [[m0 e0] E0 A0].
    exists (Ztrunc (scaled_mantissa radix2 (FLX_exp 53) L)). split.
    - apply lt_IZR. rewrite abs_IZR. change (2 ^ 53)%Z with (Zpower radix2 53). rewrite IZR_Zpower by lia.
      rewrite <- (scaled_mantissa_generic radix2 (FLX_exp 53) L FL).
      assert (X := scaled_mantissa_lt_bpow radix2 (FLX_exp 53) L). fold e in X.
      eapply Rlt_le_trans; [exact X|]. apply bpow_le. unfold e, cexp, FLX_exp. lia.
    - exact FL. }
  assert (EX : exists m, x = IZR m * bpow radix2 e).
  { exists (Ztrunc (scaled_mantissa radix2 (FLX_exp 53) x) * 2 ^ (f - e))%Z.
    transitivity (F2R (Float radix2 (Ztrunc (scaled_mantissa radix2 (FLX_exp 53) x)) f)); [exact Fx|].
    unfold F2R. cbn [Fnum Fexp]. rewrite mult_IZR.
    change (2 ^ (f - e))%Z with (Zpower radix2 (f - e)). rewrite IZR_Zpower by lia.
    rewrite Rmult_assoc, <- bpow_plus. do 2 f_equal. ring. }
  destruct EL as (mL & AL & EL), EX as (mx & EX).
  assert (K : fmod x L = IZR (mx - mL * Ztrunc (x / L)) * bpow radix2 e).
  { unfold fmod. rewrite minus_IZR, mult_IZR. rewrite EX at 1. rewrite EL at 1. ring. }
  rewrite K. apply float_int. rewrite K in R0, R1. set (q := Ztrunc (x / L)) in *. clearbody q.
  rewrite EL in R1. assert (B := bpow_gt_0 radix2 e).
  apply Rmult_lt_reg_r in R1; [|exact B]. apply lt_IZR in R1.
  assert (S : 0 <= IZR (mx - mL * q)).
  { apply (Rmult_le_reg_r (bpow radix2 e)); [exact B|]. rewrite Rmult_0_l. exact R0. }
  apply le_IZR in S. lia.
Qed.

(** A wrapped coordinate is a number in the closed box, below its upper face
    unless it was negative; it is the coordinate plus a whole number of boxes,
    exactly unless it was negative, and to within rounding then. *)
Theorem wrap_bounds L x : float L -> float x -> 0 < L ->
  float (wrap_fl L x) /\ 0 <= wrap_fl L x <= L /\ (0 <= x -> wrap_fl L x < L) /\
  exists k, (0 <= x -> wrap_fl L x = x + IZR k * L) /\
            Rabs (wrap_fl L x - (x + IZR k * L)) <= / 9007199254740992 * L.
Proof.
  intros FL Fx HL. unfold wrap_fl, Rleb, Rltb. destruct (Rle_dec L x) as [A|A].
  - destruct (fmod_up x L HL ltac:(lra)) as (R0 & R1). split; [now apply fmod_float|].
    split; [lra|]. split; [intros _; exact R1|]. exists (- Ztrunc (x / L))%Z.
    assert (E : fmod x L = x + IZR (- Ztrunc (x / L)) * L) by (unfold fmod; rewrite opp_IZR; ring).
    split; [intros _; exact E|]. rewrite E, Rminus_diag_eq, Rabs_R0 by reflexivity. lra.
  - destruct (Rlt_dec x 0) as [B|B].
    + destruct (fmod_down x L HL B) as (R0 & R1). split; [apply fl_float|].
      split.
      { split; [apply fl_nonneg; lra|]. apply Rle_trans with (fl L); [apply fl_le; lra|]. rewrite fl_id by exact FL. lra. }
      split; [lra|]. exists (1 - Ztrunc (x / L))%Z. split; [lra|].
      replace (x + IZR (1 - Ztrunc (x / L)) * L) with (fmod x L + L) by (unfold fmod; rewrite minus_IZR; ring).
      assert (E := fl_err (fmod x L + L)). rewrite (Rabs_pos_eq (_ + _)) in E by lra.
      rewrite uu_val in E. lra.
    + split; [exact Fx|]. split; [lra|]. split; [lra|]. exists 0%Z. rewrite Rmult_0_l.
      split; [intros _; ring|]. replace (x - (x + 0)) with 0 by ring. rewrite Rabs_R0. lra.
Qed.

(** Wrapping and locating: a particle with coordinates that are not negative
    is on the grid after wrapping, if grid numbers are powers of two. *)
Theorem wrapped_inside n L x : grid_number n -> power_of_two n -> float L -> float x -> 0 < L -> 0 <= x ->
  0 <= grid_loc_fl n L (wrap_fl L x) < IZR n.
Proof.
  intros G K FL Fx HL P. destruct (wrap_bounds L x FL Fx HL) as (F & B & C & _).
  apply loc_inside_power; try assumption. split; [lra|now apply C].
Qed.

(** A particle just below zero is wrapped to the upper face itself, and is off
    the grid whatever the number of cells. *)
Theorem wrap_refuted : exists L x, float L /\ float x /\ 0 < L /\ x < 0 /\ wrap_fl L x = L /\
  forall n, grid_number n -> grid_loc_fl n L (wrap_fl L x) = IZR n.
Proof.
  exists 1, (- / 1152921504606846976).
  assert (F1 : float 1) by (apply (float_Z 1); reflexivity).
  assert (W : wrap_fl 1 (- / 1152921504606846976) = 1).
  { unfold wrap_fl, Rleb, Rltb. destruct (Rle_dec _ _); [lra|]. destruct (Rlt_dec _ _); [|lra].
    unfold fmod. rewrite Ztrunc_ceil by lra. rewrite (Zceil_imp 0) by (split; simpl; lra).
    rewrite Rmult_0_r, Rminus_0_r.
    rewrite (fl_at _ 0 9007199254740992).
    - change (bpow radix2 (0 - 53)) with (/ 9007199254740992). lra.
    - change (bpow radix2 (0 - 1)) with (/ 2). change (bpow radix2 0) with 1. split; lra.
    - change (bpow radix2 (53 - 0)) with 9007199254740992. apply Rabs_def1; lra. }
  split; [exact F1|]. split.
  { replace (- / 1152921504606846976) with (IZR (-1) * bpow radix2 (-60)) by (change (bpow radix2 (-60)) with (/ 1152921504606846976); lra). apply float_int. reflexivity. }
  split; [lra|]. split; [lra|]. split; [exact W|]. intros n G. rewrite W. unfold grid_loc_fl.
  rewrite Rmult_1_r. unfold Rdiv. rewrite Rinv_1, Rmult_1_r. assert (F := grid_float n G). now rewrite !(fl_id (IZR n) F).
Qed.

(* ------------------------------------------------------------------ *)
(* C132: the shadow mesh of interlacing                                *)

Lemma float_half : float (1 / 2).
Proof. replace (1 / 2) with (IZR 1 * bpow radix2 (-1)) by (change (bpow radix2 (-1)) with (/ 2); lra). now apply float_int. Qed.
Lemma float_past n : grid_number n -> float (IZR n + 1 / 2).
Proof.
  intros G. replace (IZR n + 1 / 2) with (IZR (2 * n + 1) * bpow radix2 (-1)).
  - apply float_int. unfold grid_number in G. lia.
  - rewrite plus_IZR, mult_IZR. change (bpow radix2 (-1)) with (/ 2). lra.
Qed.

(** Every particle in the box, even one lost from the main mesh, is located on
    the shadow mesh or at its very end, at the exact shifted location up to
    rounding and a whole turn. *)
Theorem shadow_bounds n L x : grid_number n -> float L -> float x -> 0 <= x < L ->
  0 <= grid_loc_shadow_fl n L x <= IZR n /\
  exists k, (k = 0 \/ k = 1)%Z /\
    Rabs (grid_loc_shadow_fl n L x - (grid_loc n L x + 1 / 2 - IZR k * IZR n))
      <= IZR n * / 1125899906842624.
Proof.
  intros G FL Fx H. destruct (loc_bounds n L x G FL Fx H) as [A B].
  pose proof (loc_error n L x G (proj1 H) ltac:(lra)) as E.
  assert (N : 1 <= IZR n) by (apply IZR_le; unfold grid_number in G; lia).
  assert (X : grid_loc n L x <= IZR n).
  { unfold grid_loc. apply (Rmult_le_reg_r L); [lra|]. unfold Rdiv.
    rewrite Rmult_assoc, Rinv_l, Rmult_1_r by lra. apply Rmult_le_compat_l; lra. }
  unfold grid_loc_shadow_fl. cbv zeta.
  set (l := grid_loc_fl n L x) in *. set (g := grid_loc n L x) in *.
  pose proof (fl_le (1 / 2) (l + 1 / 2) ltac:(lra)) as P1. rewrite (fl_id _ float_half) in P1.
  pose proof (fl_le (l + 1 / 2) (IZR n + 1 / 2) ltac:(lra)) as P2.
  rewrite (fl_id _ (float_past n G)) in P2.
  pose proof (fl_err (l + 1 / 2)) as F. rewrite uu_val, (Rabs_pos_eq (l + 1 / 2)) in F by lra.
  set (m := fl (l + 1 / 2)) in *.
  apply Rabs_le_inv in E, F.
  destruct (Rltb (IZR n) m) eqn:T.
  - apply Rltb_spec in T.
    pose proof (fl_nonneg (m - IZR n) ltac:(lra)) as Q1.
    pose proof (fl_le (m - IZR n) (1 / 2) ltac:(lra)) as Q2. rewrite (fl_id _ float_half) in Q2.
    pose proof (fl_err (m - IZR n)) as K. rewrite uu_val, (Rabs_pos_eq (m - IZR n)) in K by lra.
    apply Rabs_le_inv in K. split; [lra|]. exists 1%Z. split; [now right|].
    apply Rabs_le. split; lra.
  - assert (T' : m <= IZR n).
    { apply Rnot_lt_le. intros C. apply Rltb_spec in C. congruence. }
    split; [lra|]. exists 0%Z. split; [now left|]. apply Rabs_le. split; lra.
Qed.

(** It is on the grid unless within rounding of half a cell from the upper
    face. *)
Theorem shadow_inside n L x : grid_number n -> float L -> float x -> 0 <= x < L ->
  IZR n * / 1125899906842624 < Rabs (grid_loc n L x - (IZR n - 1 / 2)) ->
  grid_loc_shadow_fl n L x < IZR n.
Proof.
  intros G FL Fx H D. destruct (shadow_bounds n L x G FL Fx H) as [[_ B] (k & K & E)].
  assert (N : 1 <= IZR n) by (apply IZR_le; unfold grid_number in G; lia).
  destruct B as [B|B]; [exact B|]. exfalso. rewrite B in E. apply Rabs_le_inv in E.
  assert (X : 0 <= grid_loc n L x < IZR n).
  { unfold grid_loc. split.
    - apply Rmult_le_pos; [nra|]. apply Rlt_le, Rinv_0_lt_compat; lra.
    - apply (Rmult_lt_reg_r L); [lra|]. unfold Rdiv. rewrite Rmult_assoc, Rinv_l, Rmult_1_r by lra.
      apply Rmult_lt_compat_l; lra. }
  destruct K as [->| ->].
  - assert (Rabs (grid_loc n L x - (IZR n - 1 / 2)) <= IZR n * / 1125899906842624); [|lra].
    apply Rabs_le. split; lra.
  - lra.
Qed.

(** Then no weight is lost from the shadow mesh, in all schemes but TSC (whose
    shadow mesh is wrong in exact arithmetic too, C19). *)
Definition shadow_placed (n : Z) (L x : R) : Prop :=
  grid_number n /\ float L /\ float x /\ 0 <= x < L /\
  IZR n * / 1125899906842624 < Rabs (grid_loc n L x - (IZR n - 1 / 2)).

Theorem assign_shadow_fl_conserves sch g ps b : sch <> TSC -> valid g ->
  (forall p, In p ps -> all_axes shadow_placed g p) ->
  mesh_total g (assign_shadow_fl sch g ps) b = rsum (map (part_weight b) ps).
Proof.
  intros S V B. pose proof V as ((Hx & Hy & Hz) & L0 & L1 & L2 & Hv).
  assert (E : cells_shadow sch = cells sch) by (destruct sch; try reflexivity; now elim S).
  assert (Q : forall n L x, shadow_placed n L x -> 0 <= grid_loc_shadow_fl n L x < IZR n).
  { intros n L x (G & FL & Fx & H & D). split.
    - exact (proj1 (proj1 (shadow_bounds n L x G FL Fx H))).
    - now apply shadow_inside. }
  unfold assign_shadow_fl. rewrite mesh_total_updates by exact Hv. rewrite rsum_flat_map.
  rewrite (rsum_map_ext _ (fun p => part_weight b p / vol_cell g)).
  - unfold Rdiv. rewrite rsum_map_scal_r. field. lra.
  - intros p Hp. destruct (B p Hp) as (B0 & B1 & B2). unfold updates_shadow_fl. rewrite E, particle_total by exact Hv.
    rewrite kept_all by (try assumption; apply cells_in; try assumption; now apply Q).
    rewrite !cells_tot. ring.
Qed.

(** A particle in the middle of a box of 1000 with 4 cells is placed on both meshes. *)
Example shadow_case : shadow_placed 4 1000 500.
Proof.
  split; [unfold grid_number; lia|]. split; [apply (float_Z 1000); reflexivity|].
  split; [apply (float_Z 500); reflexivity|]. split; [lra|].
  unfold grid_loc. rewrite Rabs_left by lra. lra.
Qed.

(** A particle that exact arithmetic puts just past the start of the shadow
    mesh is located at its end, which is not a cell. *)
Theorem shadow_refuted : exists n L x, grid_number n /\ float L /\ float x /\ 0 <= x < L /\
  0 < grid_loc_shadow n L x < / 2 ^ 52 /\ grid_loc_shadow_fl n L x = IZR n.
Proof.
  exists 3%Z, 1, (7505999378950827 * / 9007199254740992).
  split; [unfold grid_number; lia|]. split; [apply (float_Z 1); reflexivity|].
  split; [apply (float_int 7505999378950827 (-53)); reflexivity|]. split; [lra|].
  set (x := 7505999378950827 * / 9007199254740992). split.
  - unfold grid_loc_shadow. cbv zeta.
    rewrite (proj2 (Rltb_spec 3 (3 * x / 1 + 1 / 2))); unfold x; lra.
  - assert (E : grid_loc_fl 3 1 x = 5 / 2).
    { assert (F : fl (3 * x) = 5 / 2).
      { assert (B : bpow radix2 (2 - 1) = 2) by reflexivity. assert (B' : bpow radix2 2 = 4) by reflexivity.
        assert (P : bpow radix2 (53 - 2) = 2251799813685248) by reflexivity.
        assert (M : bpow radix2 (2 - 53) = / 2251799813685248) by reflexivity.
        rewrite (fl_at (3 * x) 2 5629499534213120), M; [lra| |].
        - rewrite B, B'. unfold x. split; lra.
        - rewrite P. unfold x. apply Rabs_def1; lra. }
      unfold grid_loc_fl. rewrite F. replace (5 / 2 / 1) with (5 / 2) by field.
      apply fl_id. replace (5 / 2) with (IZR 5 * bpow radix2 (-1)) by (change (bpow radix2 (-1)) with (/ 2); lra). now apply float_int. }
    unfold grid_loc_shadow_fl. cbv zeta. rewrite E. replace (5 / 2 + 1 / 2) with (IZR 3) by lra.
    rewrite (fl_id _ (float_Z 3 eq_refl)).
    destruct (Rltb 3 3) eqn:T; [apply Rltb_spec in T; lra | reflexivity].
Qed.

(** Four cells in a box of size 1000: a particle just inside it is in the last
    cell, and one at 2500 is wrapped to 500. *)
Example placed_case : placed 4 1000 (1000 - / 8796093022208) /\
  0 <= grid_loc_fl 4 1000 (1000 - / 8796093022208) < 4 /\ wrap_fl 1000 2500 = 500.
Proof.
  assert (P : placed 4 1000 (1000 - / 8796093022208)).
  { split; [unfold grid_number; lia|]. split; [apply (float_Z 1000); reflexivity|]. split.
    - replace (1000 - / 8796093022208) with (IZR 8796093022207999 * bpow radix2 (-43)) by (change (bpow radix2 (-43)) with (/ 8796093022208); lra).
      apply float_int. reflexivity.
    - split; [lra|]. left. exists 2%Z. split; [lia|reflexivity]. }
  split; [exact P|]. split; [exact (placed_loc _ _ _ P)|].
  unfold wrap_fl, Rleb. destruct (Rle_dec _ _); [|lra]. unfold fmod.
  rewrite Ztrunc_floor by lra. rewrite (Zfloor_imp 2) by (split; simpl; lra). lra.
Qed.

Print Assumptions loc_bounds.
Print Assumptions loc_error.
Print Assumptions loc_inside.
Print Assumptions loc_inside_power.
Print Assumptions assign_fl_conserves.
Print Assumptions assign_fl_moved.
Print Assumptions face_refuted.
Print Assumptions wrap_bounds.
Print Assumptions wrapped_inside.
Print Assumptions wrap_refuted.
Print Assumptions shadow_bounds.
Print Assumptions shadow_inside.
Print Assumptions shadow_refuted.
Print Assumptions assign_shadow_fl_conserves.
