(* Claim C88: along the axes the aliasing function used with interlacing is the exact mean
   power of the interlaced assignment. *)
From Coq Require Import Reals ZArith List Lia Lra Bool.
From Coquelicot Require Import Coquelicot.
From Flocq Require Import Core.Raux.
From Verif Require Import Base ArrayModel ArrayProofs RSum MeshModel MeshIndexProps MeshProofs MeshProps MeshWindowProps MeshKernelProps FieldModel Dft3 FieldProps.
Import ListNotations.
Open Scope R_scope.

(** ** Vocabulary *)

(** Real and imaginary parts of the mode of angle [theta] per cell, of one unit object at [x] cells,
    sampled on the points u (main mesh) and on the points u - 1/2 (shadow mesh). *)
Definition half_re (sch : scheme) (theta : R) (lo hi : Z) (x : R) : R :=
  rsum (map (fun u => cos (theta * (IZR u - 1 / 2)) * spline sch (IZR u - 1 / 2 - x)) (arange lo hi)).
Definition half_im (sch : scheme) (theta : R) (lo hi : Z) (x : R) : R :=
  rsum (map (fun u => sin (theta * (IZR u - 1 / 2)) * spline sch (IZR u - 1 / 2 - x)) (arange lo hi)).

(** [v] is the squared modulus of the mean of the two, averaged over the sub-cell position. *)
Definition is_interlaced_power (sch : scheme) (theta : R) (v : R) : Prop :=
  forall lo hi, (lo <= -2)%Z -> (5 <= hi)%Z ->
  is_RInt (fun x => ((mode_re sch theta lo hi x + half_re sch theta lo hi x) / 2) ^ 2
                    + ((mode_im sch theta lo hi x + half_im sch theta lo hi x) / 2) ^ 2) 0 1 v.

(** ** Proof support *)
Lemma arange_pred (h : Z -> R) lo hi : map (fun u => h (u - 1)%Z) (arange lo hi) = map h (arange (lo - 1) (hi - 1)).
Proof.
  unfold arange. replace (hi - 1 - (lo - 1))%Z with (hi - lo)%Z by ring. rewrite !map_map. apply map_ext. intros i. f_equal. lia.
Qed.

Lemma half_low sch (h : R -> R) lo hi x :
  rsum (map (fun u => h (IZR u - 1 / 2) * spline sch (IZR u - 1 / 2 - x)) (arange lo hi)) =
  rsum (map (fun u => (fun u => h (IZR u - 1 / 2)) u * spline sch (IZR u - (x + 1 / 2))) (arange lo hi)).
Proof. f_equal. apply map_ext. intros u. f_equal. f_equal. ring. Qed.
Lemma half_high sch (h : R -> R) lo hi x :
  rsum (map (fun u => h (IZR u - 1 / 2) * spline sch (IZR u - 1 / 2 - x)) (arange lo hi)) =
  rsum (map (fun u => (fun u => h (IZR u + 1 / 2)) u * spline sch (IZR u - (x - 1 / 2))) (arange (lo - 1) (hi - 1))).
Proof.
  rewrite <- (arange_pred (fun u => (fun u => h (IZR u + 1 / 2)) u * spline sch (IZR u - (x - 1 / 2)))).
  f_equal. apply map_ext. intros u. cbv beta. rewrite minus_IZR. f_equal; f_equal; lra.
Qed.

(** Multiples of an angle. *)
Lemma multiples p : let c := cos p in let s := sin p in
  (cos (p * 2) = 2 * c * c - 1 /\ cos (p * 3) = 4 * c * c * c - 3 * c /\ cos (p * 4) = 8 * c * c * c * c - 8 * c * c + 1 /\
   cos (p * 5) = 16 * c * c * c * c * c - 20 * c * c * c + 5 * c) /\
  (sin (p * 2) = 2 * s * c /\ sin (p * 3) = s * (4 * c * c - 1) /\ sin (p * 4) = s * (8 * c * c * c - 4 * c) /\
   sin (p * 5) = s * (16 * c * c * c * c - 12 * c * c + 1)).
Proof.
  intros c s. assert (SC : s * s = 1 - c * c) by (pose proof (sin2_cos2 p) as E; unfold Rsqr in E; fold c s in E; lra).
  assert (C2 : cos (p * 2) = 2 * c * c - 1) by (rewrite Rmult_comm; apply cos_2a_cos).
  assert (S2 : sin (p * 2) = 2 * s * c) by (rewrite Rmult_comm; apply sin_2a).
  assert (C3 : cos (p * 3) = 4 * c * c * c - 3 * c).
  { replace (p * 3) with (p * 2 + p) by ring. rewrite cos_plus, C2, S2. fold c s. ring [SC]. }
  assert (S3 : sin (p * 3) = s * (4 * c * c - 1)).
  { replace (p * 3) with (p * 2 + p) by ring. rewrite sin_plus, C2, S2. fold c s. ring [SC]. }
  assert (C4 : cos (p * 4) = 8 * c * c * c * c - 8 * c * c + 1).
  { replace (p * 4) with (p * 3 + p) by ring. rewrite cos_plus, C3, S3. fold c s. ring [SC]. }
  assert (S4 : sin (p * 4) = s * (8 * c * c * c - 4 * c)).
  { replace (p * 4) with (p * 3 + p) by ring. rewrite sin_plus, C3, S3. fold c s. ring [SC]. }
  repeat split; try assumption.
  - replace (p * 5) with (p * 4 + p) by ring. rewrite cos_plus, C4, S4. fold c s. ring [SC].
  - replace (p * 5) with (p * 4 + p) by ring. rewrite sin_plus, C4, S4. fold c s. ring [SC].
Qed.

Lemma lin_int K a s lo hi v f : lo <= hi -> (forall x, lo < x < hi -> f x = K * peval a (2 * x + s)) ->
  K * ((pint_from a 0 (2 * hi + s) - pint_from a 0 (2 * lo + s)) / 2) = v -> is_RInt f lo hi v.
Proof.
  intros Hle E <-. apply (is_RInt_ext (fun x => K * peval a (2 * x + s))).
  - intros x. rewrite Rmin_left, Rmax_right by exact Hle. intros Hx. symmetry. now apply E.
  - apply @is_RInt_scal. replace ((pint_from a 0 (2 * hi + s) - pint_from a 0 (2 * lo + s)) / 2)
      with (scal (/ 2) (pint_from a 0 (2 * hi + s) - pint_from a 0 (2 * lo + s))) by (unfold scal; cbn; unfold mult; cbn; field).
    apply (is_RInt_ext (fun x => scal (/ 2) (scal 2 (peval a (2 * x + s))))).
    + intros x _. unfold scal; cbn; unfold mult; cbn. field.
    + apply @is_RInt_scal. apply (is_RInt_comp_lin (V := R_NormedModule) (peval a) 2 s lo hi). apply peval_int.
Qed.

Ltac angles E0 EM EM2 EM3 E1 E2 E3 E4 E5 :=
  repeat match goal with |- context [cos ?q] =>
    first [rewrite (proj1 (E0 q ltac:(simpl; field))) | rewrite (proj1 (EM q ltac:(simpl; field))) | rewrite (proj1 (EM2 q ltac:(simpl; field)))
          |rewrite (proj1 (EM3 q ltac:(simpl; field))) | rewrite (proj1 (E1 q ltac:(simpl; field))) | rewrite (proj1 (E2 q ltac:(simpl; field)))
          |rewrite (proj1 (E3 q ltac:(simpl; field))) | rewrite (proj1 (E4 q ltac:(simpl; field))) | rewrite (proj1 (E5 q ltac:(simpl; field)))] end;
  repeat match goal with |- context [sin ?q] =>
    first [rewrite (proj2 (E0 q ltac:(simpl; field))) | rewrite (proj2 (EM q ltac:(simpl; field))) | rewrite (proj2 (EM2 q ltac:(simpl; field)))
          |rewrite (proj2 (EM3 q ltac:(simpl; field))) | rewrite (proj2 (E1 q ltac:(simpl; field))) | rewrite (proj2 (E2 q ltac:(simpl; field)))
          |rewrite (proj2 (E3 q ltac:(simpl; field))) | rewrite (proj2 (E4 q ltac:(simpl; field))) | rewrite (proj2 (E5 q ltac:(simpl; field)))] end.

Lemma interlaced_power sch p : let c := cos p in
  is_interlaced_power sch (2 * p) (((1 + c) / 2) ^ scheme_order sch * alias_factor sch ((1 - c) / 2)).
Proof.
  intros c lo hi Hlo Hhi. destruct (multiples p) as ((C2 & C3 & C4 & C5) & (S2 & S3 & S4 & S5)). fold c in C2, C3, C4, C5, S2, S3, S4, S5. set (s := sin p) in *.
  assert (SC : s * s = 1 - c * c) by (pose proof (sin2_cos2 p) as E; unfold Rsqr in E; fold c s in E; lra).
  assert (E0 : forall q, q = 0 -> cos q = 1 /\ sin q = 0) by (intros q ->; split; [apply cos_0|apply sin_0]).
  assert (EM : forall q, q = - p -> cos q = c /\ sin q = - s) by (intros q ->; split; [apply cos_neg|apply sin_neg]).
  assert (EM2 : forall q, q = - (p * 2) -> cos q = 2 * c * c - 1 /\ sin q = - (2 * s * c)) by (intros q ->; rewrite cos_neg, sin_neg, C2, S2; now split).
  assert (EM3 : forall q, q = - (p * 3) -> cos q = 4 * c * c * c - 3 * c /\ sin q = - (s * (4 * c * c - 1))) by (intros q ->; rewrite cos_neg, sin_neg, C3, S3; now split).
  assert (E1 : forall q, q = p -> cos q = c /\ sin q = s) by (intros q ->; now split).
  assert (E2 : forall q, q = p * 2 -> cos q = 2 * c * c - 1 /\ sin q = 2 * s * c) by (intros q ->; now split).
  assert (E3 : forall q, q = p * 3 -> cos q = 4 * c * c * c - 3 * c /\ sin q = s * (4 * c * c - 1)) by (intros q ->; now split).
  assert (E4 : forall q, q = p * 4 -> cos q = 8 * c * c * c * c - 8 * c * c + 1 /\ sin q = s * (8 * c * c * c - 4 * c)) by (intros q ->; now split).
  assert (E5 : forall q, q = p * 5 -> cos q = 16 * c * c * c * c * c - 20 * c * c * c + 5 * c /\ sin q = s * (16 * c * c * c * c - 12 * c * c + 1)) by (intros q ->; now split).
  set (K := ((1 + c) / 2) ^ scheme_order sch).
  assert (LOW : forall x, 0 < x < 1 / 2 ->
    half_re sch (2 * p) lo hi x = rsum (map (fun u => (fun u => cos (2 * p * (IZR u - 1 / 2))) u * spline sch (IZR u - (x + 1 / 2))) (arange lo hi)) /\
    half_im sch (2 * p) lo hi x = rsum (map (fun u => (fun u => sin (2 * p * (IZR u - 1 / 2))) u * spline sch (IZR u - (x + 1 / 2))) (arange lo hi))).
  { intros x Hx. split; [exact (half_low sch (fun y => cos (2 * p * y)) lo hi x)|exact (half_low sch (fun y => sin (2 * p * y)) lo hi x)]. }
  assert (HIGH : forall x, 1 / 2 < x < 1 ->
    half_re sch (2 * p) lo hi x = rsum (map (fun u => (fun u => cos (2 * p * (IZR u + 1 / 2))) u * spline sch (IZR u - (x - 1 / 2))) (arange (lo - 1) (hi - 1))) /\
    half_im sch (2 * p) lo hi x = rsum (map (fun u => (fun u => sin (2 * p * (IZR u + 1 / 2))) u * spline sch (IZR u - (x - 1 / 2))) (arange (lo - 1) (hi - 1)))).
  { intros x Hx. split; [exact (half_high sch (fun y => cos (2 * p * y)) lo hi x)|exact (half_high sch (fun y => sin (2 * p * y)) lo hi x)]. }
  replace (K * alias_factor sch ((1 - c) / 2)) with (K * (alias_factor sch ((1 - c) / 2) / 2) + K * (alias_factor sch ((1 - c) / 2) / 2)) by field.
  clearbody c s.
  destruct sch; cbn [alias_factor scheme_order] in *.
  - apply (is_RInt_Chasles (V := R_NormedModule) _ 0 (1 / 2) 1).
    + apply (lin_int K [1] 0); [lra| |unfold K; cbn; field].
      intros x Hx. destruct (LOW x Hx) as [-> ->]. unfold mode_re, mode_im.
      rewrite !(MeshWindowProps.mode_cells NGP) by (lra || lia).
      destruct (Rle_dec (1 / 2) x); [lra|]. destruct (Rle_dec (1 / 2) (x + 1 / 2)); [|lra]. angles E0 EM EM2 EM3 E1 E2 E3 E4 E5. unfold K. cbn [peval]. field [SC].
    + apply (lin_int K [1] 0); [lra| |unfold K; cbn; field].
      intros x Hx. destruct (HIGH x Hx) as [-> ->]. unfold mode_re, mode_im.
      rewrite !(MeshWindowProps.mode_cells NGP) by (lra || lia).
      destruct (Rle_dec (1 / 2) x); [|lra]. destruct (Rle_dec (1 / 2) (x - 1 / 2)); [lra|]. angles E0 EM EM2 EM3 E1 E2 E3 E4 E5. unfold K. cbn [peval]. field [SC].
  - apply (is_RInt_Chasles (V := R_NormedModule) _ 0 (1 / 2) 1).
    + apply (lin_int K [(1 / 1) * c ^ 0; (-2 / 1) * c ^ 0 + (2 / 1) * c ^ 1; (2 / 1) * c ^ 0 + (-2 / 1) * c ^ 1] 0); [lra| |unfold K; cbn; field].
      intros x Hx. destruct (LOW x Hx) as [-> ->]. unfold mode_re, mode_im.
      rewrite !(MeshWindowProps.mode_cells CIC) by (lra || lia).
      angles E0 EM EM2 EM3 E1 E2 E3 E4 E5. unfold K. cbn [peval]. field [SC].
    + apply (lin_int K [(1 / 1) * c ^ 0; (-2 / 1) * c ^ 0 + (2 / 1) * c ^ 1; (2 / 1) * c ^ 0 + (-2 / 1) * c ^ 1] (-1)); [lra| |unfold K; cbn; field].
      intros x Hx. destruct (HIGH x Hx) as [-> ->]. unfold mode_re, mode_im.
      rewrite !(MeshWindowProps.mode_cells CIC) by (lra || lia).
      angles E0 EM EM2 EM3 E1 E2 E3 E4 E5. unfold K. cbn [peval]. field [SC].
  - apply (is_RInt_Chasles (V := R_NormedModule) _ 0 (1 / 2) 1).
    + apply (lin_int K [(9 / 16) * c ^ 0 + (3 / 8) * c ^ 1 + (1 / 16) * c ^ 2; 0; (-1 / 2) * c ^ 0 + (1 / 1) * c ^ 1 + (-1 / 2) * c ^ 2; 0; (1 / 1) * c ^ 0 + (-2 / 1) * c ^ 1 + (1 / 1) * c ^ 2] (- (1 / 2))); [lra| |unfold K; cbn; field].
      intros x Hx. destruct (LOW x Hx) as [-> ->]. unfold mode_re, mode_im.
      rewrite !(MeshWindowProps.mode_cells TSC) by (lra || lia).
      destruct (Rlt_dec x (1 / 2)); [|lra]. destruct (Rlt_dec (x + 1 / 2) (1 / 2)); [lra|]. angles E0 EM EM2 EM3 E1 E2 E3 E4 E5. unfold K. cbn [peval]. field [SC].
    + apply (lin_int K [(9 / 16) * c ^ 0 + (3 / 8) * c ^ 1 + (1 / 16) * c ^ 2; 0; (-1 / 2) * c ^ 0 + (1 / 1) * c ^ 1 + (-1 / 2) * c ^ 2; 0; (1 / 1) * c ^ 0 + (-2 / 1) * c ^ 1 + (1 / 1) * c ^ 2] (- (3 / 2))); [lra| |unfold K; cbn; field].
      intros x Hx. destruct (HIGH x Hx) as [-> ->]. unfold mode_re, mode_im.
      rewrite !(MeshWindowProps.mode_cells TSC) by (lra || lia).
      destruct (Rlt_dec x (1 / 2)); [lra|]. destruct (Rlt_dec (x - 1 / 2) (1 / 2)); [|lra]. angles E0 EM EM2 EM3 E1 E2 E3 E4 E5. unfold K. cbn [peval]. field [SC].
  - apply (is_RInt_Chasles (V := R_NormedModule) _ 0 (1 / 2) 1).
    + apply (lin_int K [(4 / 9) * c ^ 0 + (4 / 9) * c ^ 1 + (1 / 9) * c ^ 2; 0; (-1 / 3) * c ^ 0 + (2 / 3) * c ^ 1 + (-1 / 3) * c ^ 2; (4 / 9) * c ^ 0 + (-2 / 3) * c ^ 1 + (2 / 9) * c ^ 3; (1 / 3) * c ^ 0 + (-4 / 3) * c ^ 1 + (5 / 3) * c ^ 2 + (-2 / 3) * c ^ 3; (-2 / 3) * c ^ 0 + (2 / 1) * c ^ 1 + (-2 / 1) * c ^ 2 + (2 / 3) * c ^ 3; (2 / 9) * c ^ 0 + (-2 / 3) * c ^ 1 + (2 / 3) * c ^ 2 + (-2 / 9) * c ^ 3] 0); [lra| |unfold K; cbn; field].
      intros x Hx. destruct (LOW x Hx) as [-> ->]. unfold mode_re, mode_im.
      rewrite !(MeshWindowProps.mode_cells PCS) by (lra || lia).
      angles E0 EM EM2 EM3 E1 E2 E3 E4 E5. unfold K. cbn [peval]. field [SC].
    + apply (lin_int K [(4 / 9) * c ^ 0 + (4 / 9) * c ^ 1 + (1 / 9) * c ^ 2; 0; (-1 / 3) * c ^ 0 + (2 / 3) * c ^ 1 + (-1 / 3) * c ^ 2; (4 / 9) * c ^ 0 + (-2 / 3) * c ^ 1 + (2 / 9) * c ^ 3; (1 / 3) * c ^ 0 + (-4 / 3) * c ^ 1 + (5 / 3) * c ^ 2 + (-2 / 3) * c ^ 3; (-2 / 3) * c ^ 0 + (2 / 1) * c ^ 1 + (-2 / 1) * c ^ 2 + (2 / 3) * c ^ 3; (2 / 9) * c ^ 0 + (-2 / 3) * c ^ 1 + (2 / 3) * c ^ 2 + (-2 / 9) * c ^ 3] (-1)); [lra| |unfold K; cbn; field].
      intros x Hx. destruct (HIGH x Hx) as [-> ->]. unfold mode_re, mode_im.
      rewrite !(MeshWindowProps.mode_cells PCS) by (lra || lia).
      angles E0 EM EM2 EM3 E1 E2 E3 E4 E5. unfold K. cbn [peval]. field [SC].
Qed.

Lemma iso_axis u sch :
  let h := sqrt (u * u) / 2 in
  (cos h * cos h) ^ scheme_order sch * alias_factor sch (sin h * sin h) = ((1 + cos u) / 2) ^ scheme_order sch * alias_factor sch ((1 - cos u) / 2).
Proof.
  intros h. assert (E : cos (2 * h) = cos u).
  { unfold h. replace (2 * (sqrt (u * u) / 2)) with (sqrt (u * u)) by field. fold (Rsqr u). rewrite sqrt_Rsqr_abs.
    unfold Rabs. destruct (Rcase_abs u); [apply cos_neg|reflexivity]. }
  assert (A := cos_2a_cos h). assert (B := cos_2a_sin h). rewrite E in A, B.
  replace (cos h * cos h) with ((1 + cos u) / 2) by lra. now replace (sin h * sin h) with ((1 - cos u) / 2) by lra.
Qed.

(** ** C88 *)
Theorem alias_interlaced_axes :
  forall st i j k, st_interlace st = true -> st_order st = scheme_order (st_scheme st) -> two_cells st ->
  let ng := ngrid (st_mesh st) in let angle n m := 2 * PI * IZR (shift_index n m) / IZR n in
  is_interlaced_power (st_scheme st) (angle (ax0 ng) i) (alias_of st (i, 0, 0)%Z) /\
  is_interlaced_power (st_scheme st) (angle (ax1 ng) j) (alias_of st (0, j, 0)%Z) /\
  is_interlaced_power (st_scheme st) (angle (ax2 ng) k) (alias_of st (0, 0, k)%Z).
Proof.
  intros st i j k I O T ng angle. unfold two_cells in T. fold ng in T. destruct T as (T0 & T1 & T2).
  assert (Z0 : forall n, (2 <= n)%Z -> shift_index n 0 = 0%Z) by (intros n Hn; apply shift_0; lia).
  unfold alias_of. rewrite I, O. fold ng. unfold calc_alias_interlaced. rewrite !Z0 by lia.
  assert (F : forall h : R, match scheme_order (st_scheme st) with
            | 2%nat => 1 - 2 / 3 * (sin h * sin h) | 3%nat => 1 - sin h * sin h + 2 / 15 * (sin h * sin h) * (sin h * sin h)
            | 4%nat => 1 - 4 / 3 * (sin h * sin h) + 2 / 5 * (sin h * sin h) * (sin h * sin h) - 4 / 315 * (sin h * sin h) * (sin h * sin h) * (sin h * sin h)
            | _ => 1 end = alias_factor (st_scheme st) (sin h * sin h)) by (intros h; destruct (st_scheme st); reflexivity).
  assert (Q : forall n m, (2 <= n)%Z -> is_interlaced_power (st_scheme st) (angle n m)
    (let h := sqrt (PI * IZR (shift_index n m) / IZR n * (PI * IZR (shift_index n m) / IZR n)) / 2 in
     (cos h * cos h) ^ scheme_order (st_scheme st) * alias_factor (st_scheme st) (sin h * sin h))).
  { intros n m Hn. cbv zeta. rewrite iso_axis. unfold angle.
    replace (2 * PI * IZR (shift_index n m) / IZR n) with (2 * (PI * IZR (shift_index n m) / IZR n)) by (unfold Rdiv; ring). apply interlaced_power. }
  cbv zeta. rewrite !F. cbv zeta in Q.
  assert (ZZ : forall n, PI * 0 / IZR n = 0) by (intros; unfold Rdiv; ring). rewrite !ZZ.
  repeat split.
  - replace (_ + _ + _) with (PI * IZR (shift_index (ax0 ng) i) / IZR (ax0 ng) * (PI * IZR (shift_index (ax0 ng) i) / IZR (ax0 ng))) by ring. apply Q. lia.
  - replace (_ + _ + _) with (PI * IZR (shift_index (ax1 ng) j) / IZR (ax1 ng) * (PI * IZR (shift_index (ax1 ng) j) / IZR (ax1 ng))) by ring. apply Q. lia.
  - replace (_ + _ + _) with (PI * IZR (shift_index (ax2 ng) k) / IZR (ax2 ng) * (PI * IZR (shift_index (ax2 ng) k) / IZR (ax2 ng))) by ring. apply Q. lia.
Qed.

(** Interlaced CIC at the Nyquist mode: a sixth instead of a third. *)
Example alias_interlaced_case :
  let g := MeshParams (T3 4 8 2)%Z (T3 1 1 1) (/ 64) in
  alias_of (Settings CIC 2 true g 1) (2, 0, 0)%Z = 1 / 6.
Proof.
  intros g. unfold alias_of, calc_alias_interlaced. cbn [st_interlace st_mesh g ngrid ax0 ax1 ax2 st_order].
  change (shift_index 4 2) with (-2)%Z. change (shift_index 8 0) with 0%Z. change (shift_index 2 0) with 0%Z.
  replace (PI * -2 / 4 * (PI * -2 / 4) + PI * 0 / 8 * (PI * 0 / 8) + PI * 0 / 2 * (PI * 0 / 2)) with (Rsqr (PI / 2)) by (unfold Rsqr; field).
  rewrite sqrt_Rsqr by (pose proof PI_RGT_0; lra). replace (PI / 2 / 2) with (PI / 4) by field.
  assert (E := cos_2a_cos (PI / 4)). assert (F := cos_2a_sin (PI / 4)). replace (2 * (PI / 4)) with (PI / 2) in * by field. rewrite cos_PI2 in *.
  assert (A : cos (PI / 4) * cos (PI / 4) = 1 / 2) by lra. assert (B : sin (PI / 4) * sin (PI / 4) = 1 / 2) by lra.
  rewrite A, B. field.
Qed.

Print Assumptions alias_interlaced_axes.
