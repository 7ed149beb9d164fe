(* C28, C29: grid numbers from a cutoff and parameter validation. *)
From Coq Require Import String Ascii List ZArith Reals Bool Lra Lia.
From Flocq Require Import Core.
From Verif Require Import Base StrModel StrProps Dec ArrayModel ArrayProofs
  MeshModel ParamModel.
Import ListNotations.
Local Open Scope string_scope.
Local Open Scope R_scope.

(* ------------------------------------------------------------------ *)
(** * C28: grid numbers from a cutoff *)

(** A grid of [n] cells over a side of length [len] resolves the cutoff: in
    Fourier space the Nyquist wavenumber is at least the cutoff, in
    configuration space twice the cell size is at most the cutoff. *)
Definition resolves (sp : string) (len cut : R) (n : Z) : Prop :=
  (sp = "fourier" /\ cut <= PI * IZR n / len) \/
  (sp = "config" /\ 2 * (len / IZR n) <= cut).

(** The least positive even grid number that resolves the cutoff. *)
Definition best_grid (sp : string) (len cut : R) (n : Z) : Prop :=
  (0 < n)%Z /\ Z.Even n /\ resolves sp len cut n /\
  forall m, (0 < m)%Z -> Z.Even m -> resolves sp len cut m -> (n <= m)%Z.

Lemma best_grid_unique sp len cut m n :
  best_grid sp len cut m -> best_grid sp len cut n -> m = n.
Proof.
  intros (P & E & R & M) (P' & E' & R' & M').
  apply Z.le_antisymm; [apply M | apply M']; assumption.
Qed.

Lemma even_up n : (0 < n)%Z ->
  Z.Even (n + Z.rem n 2) /\ (n <= n + Z.rem n 2)%Z /\
  forall m, Z.Even m -> (n <= m)%Z -> (n + Z.rem n 2 <= m)%Z.
Proof.
  intros P. rewrite Z.rem_mod_nonneg by lia.
  pose proof (Z.mod_pos_bound n 2 ltac:(lia)). pose proof (Z.div_mod n 2 ltac:(lia)).
  split; [exists (n / 2 + n mod 2)%Z; lia|]. split; [lia|].
  intros m (k & ->) L. lia.
Qed.

(** A threshold on real grid numbers and its least even integer. *)
Lemma best_of_ceil (x : R) (Q : Z -> Prop) :
  0 < x -> (forall n, (0 < n)%Z -> (Q n <-> x <= IZR n)) ->
  let n := Zceil x in
  (0 < n + Z.rem n 2)%Z /\ Z.Even (n + Z.rem n 2) /\ Q (n + Z.rem n 2)%Z /\
  forall m, (0 < m)%Z -> Z.Even m -> Q m -> (n + Z.rem n 2 <= m)%Z.
Proof.
  intros X QE n.
  assert (P : (0 < n)%Z).
  { apply lt_IZR. apply Rlt_le_trans with (1 := X), Zceil_ub. }
  destruct (even_up n P) as (E & L & M).
  split; [lia|]. split; [exact E|]. split.
  - apply QE; [lia|]. apply Rle_trans with (1 := Zceil_ub x). now apply IZR_le.
  - intros m Pm Em Qm. apply M; [exact Em|]. apply QE in Qm; [|exact Pm].
    now apply Zceil_glb.
Qed.

(** C28, C++ rule. *)
Theorem cutoff_axis_best sp len cut :
  0 < len -> 0 < cut -> In sp ["fourier"; "config"] ->
  exists n, cutoff_axis sp len cut = Ok n /\ best_grid sp len cut n.
Proof.
  intros HL HC [<-|[<-|[]]]; unfold cutoff_axis; cbn [String.eqb Ascii.eqb Bool.eqb].
  - eexists. split; [reflexivity|]. unfold best_grid.
    apply best_of_ceil.
    + apply Rmult_lt_0_compat; [nra|]. apply Rinv_0_lt_compat, PI_RGT_0.
    + intros n Pn. pose proof PI_RGT_0 as HP. unfold resolves.
      assert (EQ : cut <= PI * IZR n / len <-> len * cut / PI <= IZR n).
      { split; intros H.
        - apply Rmult_le_reg_r with PI; [exact HP|].
          replace (len * cut / PI * PI) with (cut * len) by (field; lra).
          apply Rmult_le_compat_r with (r := len) in H; [|lra].
          replace (PI * IZR n / len * len) with (IZR n * PI) in H by (field; lra). exact H.
        - apply Rmult_le_reg_r with len; [exact HL|].
          replace (PI * IZR n / len * len) with (IZR n * PI) by (field; lra).
          apply Rmult_le_compat_r with (r := PI) in H; [|lra].
          replace (len * cut / PI * PI) with (cut * len) in H by (field; lra). exact H. }
      rewrite <- EQ. split; [intros [[_ H]|[D _]]; [exact H|discriminate]|auto].
  - assert (E0 : Reqb cut 0 = false) by (apply Reqb_false; lra). rewrite E0.
    eexists. split; [reflexivity|]. unfold best_grid.
    apply best_of_ceil.
    + apply Rmult_lt_0_compat; [lra|]. now apply Rinv_0_lt_compat.
    + intros n Pn. unfold resolves. apply IZR_lt in Pn.
      assert (EQ : 2 * (len / IZR n) <= cut <-> 2 * len / cut <= IZR n).
      { split; intros H.
        - apply Rmult_le_reg_r with cut; [exact HC|].
          replace (2 * len / cut * cut) with (2 * len) by (field; lra).
          apply Rmult_le_compat_r with (r := IZR n) in H; [|lra].
          replace (2 * (len / IZR n) * IZR n) with (2 * len) in H by (field; lra). lra.
        - apply Rmult_le_reg_r with (IZR n); [exact Pn|].
          replace (2 * (len / IZR n) * IZR n) with (2 * len) by (field; lra).
          apply Rmult_le_compat_r with (r := cut) in H; [|lra].
          replace (2 * len / cut * cut) with (2 * len) in H by (field; lra). lra. }
      rewrite <- EQ. split; [intros [[D _]|[_ H]]; [discriminate|exact H]|auto].
Qed.

Lemma ceil_double x : 0 < x ->
  let n := Zceil (2 * x) in (n + Z.rem n 2 = 2 * Zceil x)%Z.
Proof.
  intros X n.
  assert (Pn : (0 < n)%Z) by (apply lt_IZR; apply Rlt_le_trans with (2 * x); [lra|apply Zceil_ub]).
  destruct (even_up n Pn) as (E & L & M).
  apply Z.le_antisymm.
  - apply M; [now exists (Zceil x)|]. apply Zceil_glb. rewrite mult_IZR.
    pose proof (Zceil_ub x). lra.
  - destruct E as (k & Ek). rewrite Ek. apply Z.mul_le_mono_nonneg_l; [lia|].
    apply Zceil_glb.
    assert (2 * x <= IZR (2 * k)).
    { rewrite <- Ek. apply Rle_trans with (1 := Zceil_ub _). now apply IZR_le. }
    rewrite mult_IZR in H. lra.
Qed.

(** C28: the Python and C++ rules agree. *)
Theorem cutoff_axis_python sp len cut :
  0 < len -> 0 < cut -> In sp ["fourier"; "config"] ->
  py_cutoff_axis sp len cut = cutoff_axis sp len cut.
Proof.
  intros HL HC [<-|[<-|[]]]; unfold py_cutoff_axis, cutoff_axis; cbn [String.eqb Ascii.eqb Bool.eqb].
  - rewrite Z.rem_mod_nonneg; [reflexivity| |lia]. apply Z.lt_le_incl, lt_IZR.
    apply Rlt_le_trans with (2 := Zceil_ub _).
    apply Rmult_lt_0_compat; [nra|]. apply Rinv_0_lt_compat, PI_RGT_0.
  - assert (E0 : Reqb cut 0 = false) by (apply Reqb_false; lra). rewrite E0. f_equal.
    replace (2 * len / cut) with (2 * (len / cut)) by (unfold Rdiv; ring).
    assert (X : 0 < len / cut) by (apply Rdiv_lt_0_compat; assumption).
    rewrite (ceil_double _ X).
    rewrite Z.mul_comm, Z.mod_mul by lia. lia.
Qed.

Definition on_axes {A B} (P : A -> B -> Prop) (t : triple A) (u : triple B) : Prop :=
  P (ax0 t) (ax0 u) /\ P (ax1 t) (ax1 u) /\ P (ax2 t) (ax2 u).

Definition all_axes {A} (P : A -> Prop) (t : triple A) : Prop :=
  P (ax0 t) /\ P (ax1 t) /\ P (ax2 t).

(** C28 for the three axes: both rules succeed, agree, and give the best
    grid on each axis. *)
Theorem cutoff_ngrid_best sp box cut :
  all_axes (fun len => 0 < len) box -> 0 < cut -> In sp ["fourier"; "config"] ->
  exists n, cutoff_ngrid sp box cut = Ok n /\ py_cutoff_ngrid sp box cut = Ok n /\
    on_axes (fun len k => best_grid sp len cut k) box n.
Proof.
  intros (H0 & H1 & H2) HC HS. unfold cutoff_ngrid, py_cutoff_ngrid, each_axis.
  rewrite !cutoff_axis_python by assumption.
  destruct (cutoff_axis_best sp (ax0 box) cut) as (n0 & -> & B0); auto.
  destruct (cutoff_axis_best sp (ax1 box) cut) as (n1 & -> & B1); auto.
  destruct (cutoff_axis_best sp (ax2 box) cut) as (n2 & -> & B2); auto.
  exists (T3 n0 n1 n2). split; [reflexivity|]. split; [reflexivity|].
  exact (conj B0 (conj B1 B2)).
Qed.

(** C28: the rule is exactly the best grid. *)
Theorem cutoff_axis_iff sp len cut n :
  0 < len -> 0 < cut -> In sp ["fourier"; "config"] ->
  (cutoff_axis sp len cut = Ok n <-> best_grid sp len cut n).
Proof.
  intros HL HC HS. destruct (cutoff_axis_best sp len cut HL HC HS) as (k & E & B).
  rewrite E. split.
  - now intros [= <-].
  - intros B'. f_equal. eapply best_grid_unique; eauto.
Qed.

Example cutoff_axis_case : cutoff_axis "config" 10 4 = Ok 6%Z /\
  py_cutoff_axis "config" 10 4 = Ok 6%Z.
Proof.
  assert (C : cutoff_axis "config" 10 4 = Ok 6%Z).
  { unfold cutoff_axis; cbn [String.eqb Ascii.eqb Bool.eqb].
    assert (E0 : Reqb 4 0 = false) by (apply Reqb_false; lra). rewrite E0.
    rewrite (Zceil_imp 5); [reflexivity|]. simpl. lra. }
  split; [exact C|]. rewrite cutoff_axis_python; [exact C|lra|lra|simpl; auto].
Qed.

(** C28 outside the positive range: a zero cutoff gives no grid at all in
    Fourier space and an undefined conversion in configuration space. *)
Theorem cutoff_zero len :
  cutoff_axis "fourier" len 0 = Ok 0%Z /\ cutoff_axis "config" len 0 = Err NotANumber.
Proof.
  unfold cutoff_axis; cbn [String.eqb Ascii.eqb Bool.eqb]. split.
  - replace (len * 0 / PI) with (IZR 0) by (unfold Rdiv; simpl; ring).
    now rewrite Zceil_IZR.
  - assert (E0 : Reqb 0 0 = true) by now apply Reqb_spec. now rewrite E0.
Qed.
