(* Claim C53: the compensation window is the Fourier transform of the assignment
   kernel. *)
From Coq Require Import Reals ZArith List Lia Lra Bool.
From Flocq Require Import Core.Raux.
From Coquelicot Require Import Coquelicot.
From Verif Require Import Base ArrayModel ArrayProofs RSum MeshModel MeshIndexProps MeshProofs MeshProps MeshWindowProps.
Import ListNotations.
Open Scope R_scope.

(** [v] is the Fourier transform of the (even) kernel at angle [w] per cell: the
    cosine integral over the support, the sine integral being zero. *)
Definition is_kernel_transform (sch : scheme) (w v : R) : Prop :=
  is_RInt (fun t => spline sch t * cos (w * t)) (-2) 2 v /\
  is_RInt (fun t => spline sch t * sin (w * t)) (-2) 2 0.

Definition cub (a0 a1 a2 a3 t : R) : R := a0 + a1 * t + a2 * t ^ 2 + a3 * t ^ 3.
Definition cubcos (a0 a1 a2 a3 w t : R) : R :=
  cub a0 a1 a2 a3 t * sin (w * t) / w + (a1 + 2 * a2 * t + 3 * a3 * t ^ 2) * cos (w * t) / w ^ 2
  - (2 * a2 + 6 * a3 * t) * sin (w * t) / w ^ 3 - 6 * a3 * cos (w * t) / w ^ 4.
Definition cubsin (a0 a1 a2 a3 w t : R) : R :=
  - cub a0 a1 a2 a3 t * cos (w * t) / w + (a1 + 2 * a2 * t + 3 * a3 * t ^ 2) * sin (w * t) / w ^ 2
  + (2 * a2 + 6 * a3 * t) * cos (w * t) / w ^ 3 - 6 * a3 * sin (w * t) / w ^ 4.

Lemma cubcos_int f a0 a1 a2 a3 w lo hi : w <> 0 -> lo <= hi -> (forall t, lo < t < hi -> f t = cub a0 a1 a2 a3 t) ->
  is_RInt (fun t => f t * cos (w * t)) lo hi (cubcos a0 a1 a2 a3 w hi - cubcos a0 a1 a2 a3 w lo).
Proof.
  intros Hw Hle E. apply (is_RInt_ext (fun t => cub a0 a1 a2 a3 t * cos (w * t))).
  - intros t. rewrite Rmin_left, Rmax_right by exact Hle. intros Ht. now rewrite E.
  - apply (is_RInt_derive (cubcos a0 a1 a2 a3 w)).
    + intros t _. unfold cubcos, cub. auto_derive; [trivial|]. field. exact Hw.
    + intros t _. apply (ex_derive_continuous (V := R_NormedModule)). unfold cub. auto_derive. trivial.
Qed.

Lemma cubsin_int f a0 a1 a2 a3 w lo hi : w <> 0 -> lo <= hi -> (forall t, lo < t < hi -> f t = cub a0 a1 a2 a3 t) ->
  is_RInt (fun t => f t * sin (w * t)) lo hi (cubsin a0 a1 a2 a3 w hi - cubsin a0 a1 a2 a3 w lo).
Proof.
  intros Hw Hle E. apply (is_RInt_ext (fun t => cub a0 a1 a2 a3 t * sin (w * t))).
  - intros t. rewrite Rmin_left, Rmax_right by exact Hle. intros Ht. now rewrite E.
  - apply (is_RInt_derive (cubsin a0 a1 a2 a3 w)).
    + intros t _. unfold cubsin, cub. auto_derive; [trivial|]. field. exact Hw.
    + intros t _. apply (ex_derive_continuous (V := R_NormedModule)). unfold cub. auto_derive. trivial.
Qed.

(** Chaining of pieces. *)
Lemma chasles f a b c u v w : is_RInt f a b u -> is_RInt f b c v -> w = u + v -> is_RInt f a c w.
Proof. intros H1 H2 ->. exact (is_RInt_Chasles (V := R_NormedModule) f a b c u v H1 H2). Qed.

Lemma sc2 x : sin x * sin x = 1 - cos x * cos x.
Proof. assert (E := sin2_cos2 x). unfold Rsqr in E. lra. Qed.

Ltac spl := intros t Ht; unfold spline, cub, Rabs;
  repeat destruct (Rcase_abs _); repeat destruct (Rle_dec _ _); repeat destruct (Rlt_dec _ _); try (exfalso; lra); try lra; try field.

Ltac spl2 := intros t Ht; unfold spline, Rabs; cbn [peval];
  repeat destruct (Rcase_abs _); repeat destruct (Rle_dec _ _); repeat destruct (Rlt_dec _ _); try (exfalso; lra); try lra; try field.

Ltac pts0 u :=
  unfold cubcos, cubsin, cub;
  replace (2 * u * 2) with (2 * (2 * u)) by ring; replace (2 * u * -2) with (- (2 * (2 * u))) by ring;
  replace (2 * u * 1) with (2 * u) by ring; replace (2 * u * -1) with (- (2 * u)) by ring;
  replace (2 * u * 0) with 0 by ring; replace (2 * u * (1 / 2)) with u by field;
  replace (2 * u * - (1 / 2)) with (- u) by field; replace (2 * u * (3 / 2)) with (2 * u + u) by field;
  replace (2 * u * - (3 / 2)) with (- (2 * u + u)) by field;
  rewrite ?sin_neg, ?cos_neg, ?sin_0, ?cos_0.
Ltac pts u c s := pts0 u; rewrite ?sin_plus, ?cos_plus, ?sin_2a, ?cos_2a, ?sin_2a, ?cos_2a;
  fold c; fold s.

(** sin(u)/u to the power of the scheme's order. *)
Theorem kernel_transform :
  forall sch u, u <> 0 ->
  is_kernel_transform sch (2 * u) ((sin u / u) ^ (match sch with NGP => 1 | CIC => 2 | TSC => 3 | PCS => 4 end)).
Proof.
  intros sch u Hu. assert (Hw : 2 * u <> 0) by lra.
  set (s := sin u). set (c := cos u). assert (SC : c * c = 1 - s * s) by (unfold s, c; rewrite sc2; ring).
  destruct sch; unfold is_kernel_transform.
  - split.
    + eapply chasles; [apply (cubcos_int _ 0 0 0 0) with (hi := - (1 / 2)); [exact Hw|lra|spl]| |].
      eapply chasles; [apply (cubcos_int _ 1 0 0 0) with (hi := 1 / 2); [exact Hw|lra|spl]| |].
      apply (cubcos_int _ 0 0 0 0); [exact Hw|lra|spl].
      reflexivity. pts u c s. field. exact Hu.
    + eapply chasles; [apply (cubsin_int _ 0 0 0 0) with (hi := - (1 / 2)); [exact Hw|lra|spl]| |].
      eapply chasles; [apply (cubsin_int _ 1 0 0 0) with (hi := 1 / 2); [exact Hw|lra|spl]| |].
      apply (cubsin_int _ 0 0 0 0); [exact Hw|lra|spl].
      reflexivity. pts u c s. field. exact Hu.
  - split.
    + eapply chasles; [apply (cubcos_int _ 0 0 0 0) with (hi := -1); [exact Hw|lra|spl]| |].
      eapply chasles; [apply (cubcos_int _ 1 1 0 0) with (hi := 0); [exact Hw|lra|spl]| |].
      eapply chasles; [apply (cubcos_int _ 1 (-1) 0 0) with (hi := 1); [exact Hw|lra|spl]| |].
      apply (cubcos_int _ 0 0 0 0); [exact Hw|lra|spl].
      reflexivity. reflexivity. pts u c s. rewrite !SC. field. exact Hu.
    + eapply chasles; [apply (cubsin_int _ 0 0 0 0) with (hi := -1); [exact Hw|lra|spl]| |].
      eapply chasles; [apply (cubsin_int _ 1 1 0 0) with (hi := 0); [exact Hw|lra|spl]| |].
      eapply chasles; [apply (cubsin_int _ 1 (-1) 0 0) with (hi := 1); [exact Hw|lra|spl]| |].
      apply (cubsin_int _ 0 0 0 0); [exact Hw|lra|spl].
      reflexivity. reflexivity. pts u c s. field. exact Hu.
  - split.
    + eapply chasles; [apply (cubcos_int _ 0 0 0 0) with (hi := - (3 / 2)); [exact Hw|lra|spl]| |].
      eapply chasles; [apply (cubcos_int _ (9 / 8) (3 / 2) (1 / 2) 0) with (hi := - (1 / 2)); [exact Hw|lra|spl]| |].
      eapply chasles; [apply (cubcos_int _ (3 / 4) 0 (-1) 0) with (hi := 1 / 2); [exact Hw|lra|spl]| |].
      eapply chasles; [apply (cubcos_int _ (9 / 8) (- (3 / 2)) (1 / 2) 0) with (hi := 3 / 2); [exact Hw|lra|spl]| |].
      apply (cubcos_int _ 0 0 0 0); [exact Hw|lra|spl].
      reflexivity. reflexivity. reflexivity. pts0 u.
      assert (E3 : sin (2 * u + u) = 3 * s - 4 * s ^ 3).
      { rewrite sin_plus, sin_2a, cos_2a_sin. fold s c. replace (2 * s * c * c) with (2 * s * (c * c)) by ring. rewrite SC. ring. }
      rewrite E3. fold s c. generalize (cos (2 * u + u)). intros c3. field. exact Hu.
    + eapply chasles; [apply (cubsin_int _ 0 0 0 0) with (hi := - (3 / 2)); [exact Hw|lra|spl]| |].
      eapply chasles; [apply (cubsin_int _ (9 / 8) (3 / 2) (1 / 2) 0) with (hi := - (1 / 2)); [exact Hw|lra|spl]| |].
      eapply chasles; [apply (cubsin_int _ (3 / 4) 0 (-1) 0) with (hi := 1 / 2); [exact Hw|lra|spl]| |].
      eapply chasles; [apply (cubsin_int _ (9 / 8) (- (3 / 2)) (1 / 2) 0) with (hi := 3 / 2); [exact Hw|lra|spl]| |].
      apply (cubsin_int _ 0 0 0 0); [exact Hw|lra|spl].
      reflexivity. reflexivity. reflexivity. pts u c s. field. exact Hu.
  - split.
    + eapply chasles; [apply (cubcos_int _ (4 / 3) 2 1 (1 / 6)) with (hi := -1); [exact Hw|lra|spl]| |].
      eapply chasles; [apply (cubcos_int _ (2 / 3) 0 (-1) (- (1 / 2))) with (hi := 0); [exact Hw|lra|spl]| |].
      eapply chasles; [apply (cubcos_int _ (2 / 3) 0 (-1) (1 / 2)) with (hi := 1); [exact Hw|lra|spl]| |].
      apply (cubcos_int _ (4 / 3) (-2) 1 (- (1 / 6))); [exact Hw|lra|spl].
      reflexivity. reflexivity. pts0 u.
      assert (E2 : cos (2 * u) = 1 - 2 * s ^ 2) by (rewrite cos_2a_sin; fold s; ring).
      assert (E4 : cos (2 * (2 * u)) = 1 - 8 * s ^ 2 * (1 - s ^ 2)).
      { rewrite cos_2a_sin, sin_2a. fold s c.
        replace (1 - 2 * (2 * s * c) * (2 * s * c)) with (1 - 8 * s ^ 2 * (c * c)) by ring. rewrite SC. ring. }
      rewrite E2, E4. generalize (sin (2 * (2 * u))) (sin (2 * u)). intros s4 s2. field. exact Hu.
    + eapply chasles; [apply (cubsin_int _ (4 / 3) 2 1 (1 / 6)) with (hi := -1); [exact Hw|lra|spl]| |].
      eapply chasles; [apply (cubsin_int _ (2 / 3) 0 (-1) (- (1 / 2))) with (hi := 0); [exact Hw|lra|spl]| |].
      eapply chasles; [apply (cubsin_int _ (2 / 3) 0 (-1) (1 / 2)) with (hi := 1); [exact Hw|lra|spl]| |].
      apply (cubsin_int _ (4 / 3) (-2) 1 (- (1 / 6))); [exact Hw|lra|spl].
      reflexivity. reflexivity. pts u c s. field. exact Hu.
Qed.

(** At zero frequency the transform is the total weight, one. *)
Theorem kernel_transform_zero : forall sch, is_kernel_transform sch 0 1.
Proof.
  assert (Z0 : forall f, is_RInt (fun t => f t * sin (0 * t)) (-2) 2 0).
  { intros f. apply (is_RInt_ext (fun _ => 0)).
    - intros t _. rewrite Rmult_0_l, sin_0. symmetry. apply Rmult_0_r.
    - generalize (is_RInt_const (V := R_NormedModule) (-2) 2 (0 : R)). unfold scal. simpl. unfold mult. simpl.
      rewrite Rmult_0_r. trivial. }
  assert (P : forall f a lo hi v, lo <= hi -> (forall t, lo < t < hi -> f t = peval a t) ->
    pint_from a 0 hi - pint_from a 0 lo = v -> is_RInt (fun t => f t * cos (0 * t)) lo hi v).
  { intros f a lo hi v Hle E Hv. apply (peval_RInt _ a); [exact Hle| |exact Hv].
    intros t Ht. rewrite Rmult_0_l, cos_0, Rmult_1_r. now apply E. }
  intros sch. split; [|apply Z0]. destruct sch.
  - eapply chasles; [apply (P _ [] (-2) (- (1 / 2)) 0); [lra|spl2|simpl; ring]| |].
    eapply chasles; [apply (P _ [1] (- (1 / 2)) (1 / 2) 1); [lra|spl2|simpl; field]| |].
    apply (P _ [] (1 / 2) 2 0); [lra|spl2|simpl; ring]. reflexivity. ring.
  - eapply chasles; [apply (P _ [] (-2) (-1) 0); [lra|spl2|simpl; ring]| |].
    eapply chasles; [apply (P _ [1; 1] (-1) 0 (1 / 2)); [lra|spl2|simpl; field]| |].
    eapply chasles; [apply (P _ [1; -1] 0 1 (1 / 2)); [lra|spl2|simpl; field]| |].
    apply (P _ [] 1 2 0); [lra|spl2|simpl; ring]. reflexivity. reflexivity. field.
  - eapply chasles; [apply (P _ [] (-2) (- (3 / 2)) 0); [lra|spl2|simpl; ring]| |].
    eapply chasles; [apply (P _ [9 / 8; 3 / 2; 1 / 2] (- (3 / 2)) (- (1 / 2)) (1 / 6)); [lra|spl2|simpl; field]| |].
    eapply chasles; [apply (P _ [3 / 4; 0; -1] (- (1 / 2)) (1 / 2) (2 / 3)); [lra|spl2|simpl; field]| |].
    eapply chasles; [apply (P _ [9 / 8; - (3 / 2); 1 / 2] (1 / 2) (3 / 2) (1 / 6)); [lra|spl2|simpl; field]| |].
    apply (P _ [] (3 / 2) 2 0); [lra|spl2|simpl; ring]. reflexivity. reflexivity. reflexivity. field.
  - eapply chasles; [apply (P _ [4 / 3; 2; 1; 1 / 6] (-2) (-1) (1 / 24)); [lra|spl2|simpl; field]| |].
    eapply chasles; [apply (P _ [2 / 3; 0; -1; - (1 / 2)] (-1) 0 (11 / 24)); [lra|spl2|simpl; field]| |].
    eapply chasles; [apply (P _ [2 / 3; 0; -1; 1 / 2] 0 1 (11 / 24)); [lra|spl2|simpl; field]| |].
    apply (P _ [4 / 3; -2; 1; - (1 / 6)] 1 2 (1 / 24)); [lra|spl2|simpl; field]. reflexivity. reflexivity. field.
Qed.

(** The order that goes with a scheme (parameters.cpp 659-683). *)
Definition scheme_order (sch : scheme) : nat := match sch with NGP => 1 | CIC => 2 | TSC => 3 | PCS => 4 end.

(** The window by which a mode is divided is the product over the axes of the kernel's
    transform at the mode's signed frequency. *)
Theorem window_is_kernel_transform :
  forall sch ng i j k, (0 < ax0 ng)%Z -> (0 < ax1 ng)%Z -> (0 < ax2 ng)%Z ->
  exists tx ty tz,
    is_kernel_transform sch (2 * PI * IZR (shift_index (ax0 ng) i) / IZR (ax0 ng)) tx /\
    is_kernel_transform sch (2 * PI * IZR (shift_index (ax1 ng) j) / IZR (ax1 ng)) ty /\
    is_kernel_transform sch (2 * PI * IZR (shift_index (ax2 ng) k) / IZR (ax2 ng)) tz /\
    window_direct ng i j k (scheme_order sch) = tx * ty * tz.
Proof.
  intros sch ng i j k Hx Hy Hz.
  assert (G : forall n s, (0 < n)%Z -> is_kernel_transform sch (2 * PI * IZR s / IZR n)
    ((if (s =? 0)%Z then 1 else sin (PI * IZR s / IZR n) / (PI * IZR s / IZR n)) ^ scheme_order sch)).
  { intros n s Hn. assert (P : 0 < IZR n) by (now apply IZR_lt). assert (Hp := PI_RGT_0).
    destruct (Z.eqb_spec s 0) as [->|D].
    - rewrite pow1. replace (2 * PI * 0 / IZR n) with 0 by (field; lra). apply kernel_transform_zero.
    - replace (2 * PI * IZR s / IZR n) with (2 * (PI * IZR s / IZR n)) by (field; lra). apply kernel_transform.
      apply Rmult_integral_contrapositive_currified; [|apply Rinv_neq_0_compat; lra].
      apply Rmult_integral_contrapositive_currified; [lra|]. intros E. apply eq_IZR_R0 in E. contradiction. }
  do 3 eexists. split; [now apply G|]. split; [now apply G|]. split; [now apply G|].
  unfold window_direct. cbv zeta. now rewrite !Rpow_mult_distr.
Qed.

Example kernel_case : is_kernel_transform CIC PI (4 / PI ^ 2).
Proof.
  assert (H := PI_RGT_0). assert (K := kernel_transform CIC (PI / 2) ltac:(lra)). cbn beta iota in K.
  replace (2 * (PI / 2)) with PI in K by field. rewrite sin_PI2 in K.
  replace (4 / PI ^ 2) with ((1 / (PI / 2)) ^ 2) by (field; lra). exact K.
Qed.

Print Assumptions kernel_transform.
Print Assumptions kernel_transform_zero.
Print Assumptions window_is_kernel_transform.

