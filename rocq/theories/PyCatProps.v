(* Properties of the Python catalogue: C32-C35. *)
From Coq Require Import Reals ZArith List Lia Lra Bool.
From Flocq Require Import Core.
From Verif Require Import Base ArrayModel ArrayProofs RSum MeshModel MeshProofs CatModel CatProps PyCatModel.
Import ListNotations.
Open Scope R_scope.

(** ** Vocabulary *)

Definition col (i : axis) (c : pycat) : list R :=
  match i with AX => col_x c | AY => col_y c | AZ => col_z c end.

(** [lo] and [hi] are the least and greatest member. *)
Definition range_of (l : list R) (lo hi : R) : Prop :=
  In lo l /\ In hi l /\ forall x, In x l -> lo <= x <= hi.

Definition bounds_current (c : pycat) : Prop :=
  forall i, range_of (col i c) (fst (at_axis i (bounds c))) (snd (at_axis i (bounds c))) /\
            at_axis i (spans c) = snd (at_axis i (bounds c)) - fst (at_axis i (bounds c)).

Definition totals_current (c : pycat) : Prop :=
  ntotal c = length (col_x c) /\
  py_wtotal c = rsum (map (fun p => fst p * snd p) (combine (col_ws c) (col_wc c))) /\
  py_wstotal c = rsum (col_ws c).

Definition square (c : pycat) : Prop :=
  let n := length (col_x c) in
  length (col_y c) = n /\ length (col_z c) = n /\ length (col_nz c) = n /\
  length (col_ws c) = n /\ length (col_wc c) = n.

Definition py_in_step (c : pycat) : Prop := square c /\ bounds_current c /\ totals_current c.

(** The columns other than the coordinates, and the totals, are the same. *)
Definition same_rest (c c' : pycat) : Prop :=
  col_nz c' = col_nz c /\ col_ws c' = col_ws c /\ col_wc c' = col_wc c /\
  ntotal c' = ntotal c /\ py_wtotal c' = py_wtotal c /\ py_wstotal c' = py_wstotal c.

(** ** Bounds *)

Lemma range_unique l lo hi lo' hi' : range_of l lo hi -> range_of l lo' hi' -> lo = lo' /\ hi = hi'.
Proof.
  intros [A [B D]] [A' [B' D']]. assert (Q1 := D lo' A'). assert (Q2 := D' lo A). assert (Q3 := D hi' B').
  assert (Q4 := D' hi B). split; lra.
Qed.

Lemma fold_Rmin_spec l : forall x, (fold_left Rmin l x = x \/ In (fold_left Rmin l x) l) /\
  fold_left Rmin l x <= x /\ forall y, In y l -> fold_left Rmin l x <= y.
Proof.
  induction l as [|y l IH]; intros x; cbn [fold_left].
  - split; [left; reflexivity|]. split; [lra|]. intros ? [].
  - destruct (IH (Rmin x y)) as [A [B D]]. assert (M := Rmin_l x y). assert (M' := Rmin_r x y). split; [|split].
    + destruct A as [A|A]; [|right; right; exact A]. rewrite A. unfold Rmin. destruct (Rle_dec x y); [left; reflexivity|right; left; reflexivity].
    + lra.
    + intros z [<-|I]; [lra|apply D, I].
Qed.

Lemma fold_Rmax_spec l : forall x, (fold_left Rmax l x = x \/ In (fold_left Rmax l x) l) /\
  x <= fold_left Rmax l x /\ forall y, In y l -> y <= fold_left Rmax l x.
Proof.
  induction l as [|y l IH]; intros x; cbn [fold_left].
  - split; [left; reflexivity|]. split; [lra|]. intros ? [].
  - destruct (IH (Rmax x y)) as [A [B D]]. assert (M := Rmax_l x y). assert (M' := Rmax_r x y). split; [|split].
    + destruct A as [A|A]; [|right; right; exact A]. rewrite A. unfold Rmax. destruct (Rle_dec x y); [right; left; reflexivity|left; reflexivity].
    + lra.
    + intros z [<-|I]; [lra|apply D, I].
Qed.

Lemma bound_spec l : l <> [] -> exists lo hi, bound l = Ok (lo, hi) /\ range_of l lo hi.
Proof.
  intros N. destruct l as [|x l]; [congruence|]. unfold bound, col_min, col_max, bind. eexists _, _. split; [reflexivity|].
  destruct (fold_Rmin_spec l x) as [A [B D]]. destruct (fold_Rmax_spec l x) as [A' [B' D']].
  split; [|split].
  - destruct A as [->|A]; [left; reflexivity|right; exact A].
  - destruct A' as [->|A']; [left; reflexivity|right; exact A'].
  - intros y [<-|I]; [lra|]. split; [apply D, I|apply D', I].
Qed.

Lemma bound_empty : bound [] = Err ValueError. Proof. reflexivity. Qed.

Lemma range_nonempty l lo hi : range_of l lo hi -> l <> [].
Proof. intros [A _] ->. destruct A. Qed.

Lemma calc_bounds_run c : (forall i, col i c <> []) ->
  exists c', calc_bounds c = Ok c' /\ (forall i, col i c' = col i c) /\ same_rest c c' /\ bounds_current c'.
Proof.
  intros N. destruct (bound_spec (col_x c) (N AX)) as [x0 [x1 [Ex Rx]]].
  destruct (bound_spec (col_y c) (N AY)) as [y0 [y1 [Ey Ry]]].
  destruct (bound_spec (col_z c) (N AZ)) as [z0 [z1 [Ez Rz]]].
  unfold calc_bounds. rewrite Ex, Ey, Ez. cbn [bind]. eexists. split; [reflexivity|].
  split; [intros []; reflexivity|]. split; [repeat split|].
  intros []; cbn; split; (assumption || reflexivity).
Qed.

Lemma map_cols_col fx fy fz c i :
  col i (map_cols fx fy fz c) = map (match i with AX => fx | AY => fy | AZ => fz end) (col i c).
Proof. destruct i; reflexivity. Qed.

(** Moving a catalogue. *)
Lemma offset_cat_run d c : (forall i, col i c <> []) ->
  exists c', offset_cat d c = Ok c' /\ (forall i, col i c' = map (fun x => x - at_axis i d) (col i c)) /\
    same_rest c c' /\ bounds_current c'.
Proof.
  intros N. unfold offset_cat.
  destruct (calc_bounds_run (map_cols (fun x => x - ax0 d) (fun x => x - ax1 d) (fun x => x - ax2 d) c)) as [c' [E [C [S B]]]].
  { intros i. rewrite map_cols_col. apply map_nonempty, N. }
  exists c'. split; [exact E|]. split; [intros i; rewrite C, map_cols_col; destruct i; reflexivity|]. split; assumption.
Qed.

Lemma range_shift l lo hi d : range_of l lo hi -> range_of (map (fun x => x - d) l) (lo - d) (hi - d).
Proof.
  intros [A [B D]]. split; [apply (in_map (fun x => x - d)), A|]. split; [apply (in_map (fun x => x - d)), B|].
  intros x I. apply in_map_iff in I. destruct I as [y [<- I]]. specialize (D y I). lra.
Qed.

(** The new bounds after moving by [d] a catalogue with known coordinate range. *)
Lemma moved_bounds i d c c' lo hi : (forall i, col i c' = map (fun x => x - at_axis i d) (col i c)) -> bounds_current c' ->
  range_of (col i c) lo hi ->
  fst (at_axis i (bounds c')) = lo - at_axis i d /\ snd (at_axis i (bounds c')) = hi - at_axis i d.
Proof.
  intros C B Rg. destruct (B i) as [Q _]. apply (range_unique (col i c') _ _ _ _ Q). rewrite C. apply range_shift, Rg.
Qed.

(** ** C32: alignment in Python *)

(** [c'] is [c] with every coordinate on axis [i] reduced by [d i]. *)
Definition py_moved (d : axis -> R) (c c' : pycat) : Prop :=
  (forall i, col i c' = map (fun x => x - d i) (col i c)) /\ same_rest c c' /\ bounds_current c'.

Definition nonempty (c : pycat) : Prop := forall i, col i c <> [].

Lemma in_step_nonempty c : py_in_step c -> nonempty c.
Proof. intros [_ [B _]] i. eapply range_nonempty, (proj1 (B i)). Qed.

Lemma bounds_nonempty c : bounds_current c -> nonempty c.
Proof. intros B i. eapply range_nonempty, (proj1 (B i)). Qed.

Lemma pyupd_same s a c : pyupd s a c a = c.
Proof. unfold pyupd. rewrite Nat.eqb_refl. reflexivity. Qed.
Lemma pyupd_other s a c b : b <> a -> pyupd s a c b = s b.
Proof. unfold pyupd. intros N. apply Nat.eqb_neq in N. rewrite N. reflexivity. Qed.

Lemma offset_both_run a b d s : a <> b -> nonempty (s a) -> nonempty (s b) ->
  exists s', offset_both a (Some b) d s = Ok s' /\ py_moved (fun i => at_axis i d) (s a) (s' a) /\
    py_moved (fun i => at_axis i d) (s b) (s' b) /\ (forall c, c <> a -> c <> b -> s' c = s c).
Proof.
  intros N Na Nb. unfold offset_both, py_offset.
  destruct (offset_cat_run d (s a) Na) as [ca [Ea Fa]]. rewrite Ea. cbn [bind].
  rewrite pyupd_other by auto. destruct (offset_cat_run d (s b) Nb) as [cb [Eb Fb]]. rewrite Eb. cbn [bind].
  eexists. split; [reflexivity|]. rewrite pyupd_same. rewrite pyupd_other by auto. rewrite pyupd_same.
  split; [exact Fa|]. split; [exact Fb|]. intros c Ca Cb. rewrite !pyupd_other by auto. reflexivity.
Qed.

Lemma offset_self_run a d s : nonempty (s a) ->
  exists s', offset_both a None d s = Ok s' /\ py_moved (fun i => at_axis i d) (s a) (s' a) /\
    (forall c, c <> a -> s' c = s c).
Proof.
  intros Na. unfold offset_both, py_offset.
  destruct (offset_cat_run d (s a) Na) as [ca [Ea Fa]]. rewrite Ea. cbn [bind].
  eexists. split; [reflexivity|]. rewrite pyupd_same. split; [exact Fa|]. intros c Ca. apply pyupd_other, Ca.
Qed.

(** [centre] with a distinct reference whose bounds are current. *)
Theorem py_centre_aligns :
  forall s a b boxsize, a <> b -> nonempty (s a) -> bounds_current (s b) ->
  exists s' d, py_centre a boxsize (Some b) s = Ok s' /\ py_moved d (s a) (s' a) /\ py_moved d (s b) (s' b) /\
    (forall c, c <> a -> c <> b -> s' c = s c) /\
    forall i, (fst (at_axis i (bounds (s' b))) + snd (at_axis i (bounds (s' b)))) / 2 = at_axis i boxsize / 2.
Proof.
  intros s a b L N Na Bb. unfold py_centre. cbn [ref_or_self].
  set (o := tmap2 _ _ L). destruct (offset_both_run a b o s N Na (bounds_nonempty _ Bb)) as [s' [E [Ma [Mb Mc]]]].
  exists s', (fun i => at_axis i o). split; [exact E|]. split; [exact Ma|]. split; [exact Mb|]. split; [exact Mc|].
  intros i. destruct Mb as [C [_ B]]. destruct (moved_bounds i o (s b) (s' b) _ _ C B (proj1 (Bb i))) as [-> ->].
  unfold o. destruct i; cbn [at_axis tmap2 ax0 ax1 ax2]; lra.
Qed.

Theorem py_centre_self :
  forall s a boxsize, bounds_current (s a) ->
  exists s' d, py_centre a boxsize None s = Ok s' /\ py_moved d (s a) (s' a) /\
    (forall c, c <> a -> s' c = s c) /\
    forall i, (fst (at_axis i (bounds (s' a))) + snd (at_axis i (bounds (s' a)))) / 2 = at_axis i boxsize / 2.
Proof.
  intros s a L Ba. unfold py_centre. cbn [ref_or_self].
  set (o := tmap2 _ _ L). destruct (offset_self_run a o s (bounds_nonempty _ Ba)) as [s' [E [Ma Mc]]].
  exists s', (fun i => at_axis i o). split; [exact E|]. split; [exact Ma|]. split; [exact Mc|].
  intros i. destruct Ma as [C [_ B]]. destruct (moved_bounds i o (s a) (s' a) _ _ C B (proj1 (Ba i))) as [-> ->].
  unfold o. destruct i; cbn [at_axis tmap2 ax0 ax1 ax2]; lra.
Qed.

(** [pad]: the least reference coordinate is the padding; conflicting or missing arguments. *)
Theorem py_pad_aligns :
  forall s a b boxsize ngrid p, a <> b -> nonempty (s a) -> bounds_current (s b) ->
  (exists s' d, py_pad a boxsize ngrid (Some p) None (Some b) s = Ok s' /\
    py_moved d (s a) (s' a) /\ py_moved d (s b) (s' b) /\ (forall c, c <> a -> c <> b -> s' c = s c) /\
    forall i, fst (at_axis i (bounds (s' b))) = at_axis i p * at_axis i boxsize) /\
  (forall n, ngrid = Some n ->
   exists s' d, py_pad a boxsize ngrid None (Some p) (Some b) s = Ok s' /\
    py_moved d (s a) (s' a) /\ py_moved d (s b) (s' b) /\ (forall c, c <> a -> c <> b -> s' c = s c) /\
    forall i, fst (at_axis i (bounds (s' b))) = at_axis i p * (at_axis i boxsize / IZR (at_axis i n))) /\
  (forall q, py_pad a boxsize ngrid (Some p) (Some q) (Some b) s = Err ValueError) /\
  py_pad a boxsize ngrid None None (Some b) s = Ok s.
Proof.
  intros s a b L ng p N Na Bb. split; [|split; [|split; [reflexivity|reflexivity]]].
  - unfold py_pad. cbn [ref_or_self]. set (o := tsub _ _).
    destruct (offset_both_run a b o s N Na (bounds_nonempty _ Bb)) as [s' [E [Ma [Mb Mc]]]].
    exists s', (fun i => at_axis i o). split; [exact E|]. split; [exact Ma|]. split; [exact Mb|]. split; [exact Mc|].
    intros i. destruct Mb as [C [_ B]]. destruct (moved_bounds i o (s b) (s' b) _ _ C B (proj1 (Bb i))) as [-> _].
    unfold o. destruct i; cbn [at_axis tsub tmap tmap2 ax0 ax1 ax2]; lra.
  - intros n ->. unfold py_pad. cbn [ref_or_self]. set (o := tsub _ _).
    destruct (offset_both_run a b o s N Na (bounds_nonempty _ Bb)) as [s' [E [Ma [Mb Mc]]]].
    exists s', (fun i => at_axis i o). split; [exact E|]. split; [exact Ma|]. split; [exact Mb|]. split; [exact Mc|].
    intros i. destruct Mb as [C [_ B]]. destruct (moved_bounds i o (s b) (s' b) _ _ C B (proj1 (Bb i))) as [-> _].
    unfold o. destruct i; cbn [at_axis tsub tmap tmap2 ax0 ax1 ax2]; lra.
Qed.

(** ** C34: histories *)

Theorem py_new_spec :
  forall x y z nz ws wc,
  let n := length x in
  let fits v := match v with Scalar _ => True | Array l => length l = n end in
  let nz' := match nz with Some v => v | None => Scalar 0 end in
  (x <> [] -> fits y -> fits z -> fits nz' -> fits ws -> fits wc ->
   exists c, py_new x y z nz ws wc = Ok c /\ py_in_step c /\ col_x c = x) /\
  (forall c, py_new x y z nz ws wc = Ok c -> x <> [] /\ fits y /\ fits z /\ fits nz' /\ fits ws /\ fits wc /\ py_in_step c).
Proof.
  intros x y z nz ws wc n fits nz'.
  assert (Col : forall v, (fits v -> exists l, column n v = Ok l /\ length l = n) /\ (forall l, column n v = Ok l -> fits v /\ length l = n)).
  { intros [r|l]; unfold column, fits; split.
    - intros _. eexists. split; [reflexivity|apply repeat_length].
    - intros l E. injection E as <-. split; [exact I|apply repeat_length].
    - intros E. rewrite E, Nat.eqb_refl. eauto.
    - intros l' E. destruct (Nat.eqb (length l) n) eqn:Q; [|discriminate]. apply Nat.eqb_eq in Q. injection E as <-. auto. }
  assert (Mul : forall u v, mul_cols u v = map (fun p => fst p * snd p) (combine u v)).
  { induction u as [|p u IH]; intros [|q v]; try reflexivity. cbn. rewrite IH. reflexivity. }
  assert (Build : forall y z nz ws wc, x <> [] -> length y = n -> length z = n -> length nz = n -> length ws = n -> length wc = n ->
    exists c, (c <- calc_bounds (PyCat x y z nz ws wc (T3 (0, 0) (0, 0) (0, 0)) (T3 0 0 0) 0 0 0) ;;
      Ok (PyCat (col_x c) (col_y c) (col_z c) (col_nz c) (col_ws c) (col_wc c) (bounds c) (spans c)
            n (rsum (mul_cols ws wc)) (rsum ws))) = Ok c /\ py_in_step c /\ col_x c = x).
  { clear y z nz nz' ws wc. intros y z nz ws wc Nx Hy Hz Hn Hs Hc.
    assert (Pos : (0 < n)%nat) by (unfold n; destruct x; [congruence|cbn; lia]).
    destruct (calc_bounds_run (PyCat x y z nz ws wc (T3 (0, 0) (0, 0) (0, 0)) (T3 0 0 0) 0 0 0)) as [c [E [C [S B]]]].
    { intros i W. destruct i; cbn in W; rewrite W in *; cbn in *; try lia; congruence. }
    rewrite E. cbn [bind]. eexists. split; [reflexivity|].
    destruct S as [S1 [S2 [S3 _]]]. cbn in S1, S2, S3.
    assert (Cx := C AX). assert (Cy := C AY). assert (Cz := C AZ). cbn in Cx, Cy, Cz.
    split; [|cbn; exact Cx]. split; [|split].
    - unfold square. cbn. rewrite Cx, Cy, Cz, S1, S2, S3. fold n. auto.
    - intros i. specialize (B i). destruct i; cbn in *; exact B.
    - unfold totals_current. cbn. rewrite Cx, S2, S3, Mul. auto. }
  split.
  - intros Nx Fy Fz Fn Fs Fc. unfold py_new. fold n. fold nz'.
    destruct (proj1 (Col y) Fy) as [ly [-> Ly]]. destruct (proj1 (Col z) Fz) as [lz [-> Lz]].
    destruct (proj1 (Col nz') Fn) as [ln [-> Ln]]. destruct (proj1 (Col ws) Fs) as [ls [-> Ls]].
    destruct (proj1 (Col wc) Fc) as [lc [-> Lc]]. cbn [bind]. apply Build; assumption.
  - intros c. unfold py_new. fold n. fold nz'.
    destruct (column n y) as [ly|] eqn:Ey; [|discriminate]. destruct (column n z) as [lz|] eqn:Ez; [|discriminate].
    destruct (column n nz') as [ln|] eqn:En; [|discriminate]. destruct (column n ws) as [ls|] eqn:Es; [|discriminate].
    destruct (column n wc) as [lc|] eqn:Ec; [|discriminate]. cbn [bind]. intros E.
    destruct (proj2 (Col y) ly Ey) as [Fy Ly]. destruct (proj2 (Col z) lz Ez) as [Fz Lz].
    destruct (proj2 (Col nz') ln En) as [Fn Ln]. destruct (proj2 (Col ws) ls Es) as [Fs Ls].
    destruct (proj2 (Col wc) lc Ec) as [Fc Lc].
    assert (Nx : x <> []). { intros ->. cbn in E. discriminate. }
    destruct (Build ly lz ln ls lc Nx Ly Lz Ln Ls Lc) as [c' [E' [St _]]]. rewrite E' in E. injection E as <-.
    repeat (split; [assumption|]). exact St.
Qed.

Inductive py_op : Type :=
| PyOffset (a : nat) (d : triple R)
| PyCentring (a : nat) (L : triple R) (ref : option nat)
| PyPadding (a : nat) (L : triple R) (n : option (triple Z)) (bp gp : option (triple R)) (ref : option nat)
| PyPeriodise (a : nat) (L : triple R)
| PyDensity (a : nat) (v : option R) (L : option (triple R))
| PySet (a : nat) (k : colname) (v : colarg).

Definition run_pyop (o : py_op) (s : pystore) : res pystore :=
  match o with
  | PyOffset a d => py_offset a d s
  | PyCentring a L ref => py_centre a L ref s
  | PyPadding a L n bp gp ref => py_pad a L n bp gp ref s
  | PyPeriodise a L => py_periodise a L s
  | PyDensity a v L => c <- mean_density (s a) v L ;; Ok (pyupd s a c)
  | PySet a k v => c <- py_setitem (s a) k v ;; Ok (pyupd s a c)
  end.

(** Operations that do not assign a coordinate or weight column. *)
Definition tracked (k : colname) : bool := match k with NNz | NOther => false | _ => true end.
Definition no_assign (o : py_op) : Prop := match o with PySet _ k _ => tracked k = false | _ => True end.

Inductive py_reached (allowed : py_op -> Prop) : pystore -> Prop :=
| py_reached_new s : (forall a, exists x y z nz ws wc, py_new x y z nz ws wc = Ok (s a)) -> py_reached allowed s
| py_reached_op s o s' : py_reached allowed s -> allowed o -> run_pyop o s = Ok s' -> py_reached allowed s'.

Lemma moved_in_step c c' d : py_in_step c -> py_moved d c c' -> py_in_step c'.
Proof.
  intros [Q [_ T]] [C [[S1 [S2 [S3 [S4 [S5 S6]]]]] B]].
  assert (Cx := C AX). assert (Cy := C AY). assert (Cz := C AZ). cbn in Cx, Cy, Cz.
  split; [|split; [exact B|]].
  - unfold square in *. rewrite Cx, Cy, Cz, S1, S2, S3, !map_length. exact Q.
  - unfold totals_current in *. rewrite S2, S3, S4, S5, S6, Cx, map_length. exact T.
Qed.

Lemma offset_in_step a d s s' : (forall b, py_in_step (s b)) -> py_offset a d s = Ok s' -> forall b, py_in_step (s' b).
Proof.
  intros St E b. unfold py_offset in E. destruct (offset_cat_run d (s a) (in_step_nonempty _ (St a))) as [c [Ec F]].
  rewrite Ec in E. cbn [bind] in E. injection E as <-. unfold pyupd. destruct (Nat.eqb b a); [|apply St].
  apply (moved_in_step (s a) c (fun i => at_axis i d)); [apply St|exact F].
Qed.

Lemma offset_both_in_step a ref d s s' : (forall b, py_in_step (s b)) -> offset_both a ref d s = Ok s' -> forall b, py_in_step (s' b).
Proof.
  intros St E. unfold offset_both in E. destruct (py_offset a d s) as [s1|] eqn:E1; [|discriminate]. cbn [bind] in E.
  assert (S1 := offset_in_step a d s s1 St E1). destruct ref as [r|]; [|injection E as <-; exact S1].
  exact (offset_in_step r d s1 s' S1 E).
Qed.

Lemma setitem_in_step c k v c' : py_in_step c -> tracked k = false -> py_setitem c k v = Ok c' -> py_in_step c'.
Proof.
  intros [Q [B T]] K E. unfold py_setitem in E. destruct (column (length (col_x c)) v) as [l|] eqn:L; [|discriminate].
  cbn [bind] in E. injection E as <-. destruct k; try discriminate.
  - split; [|split; [exact B|exact T]]. unfold square in *. cbn in *.
    assert (length l = length (col_x c)).
    { destruct v as [r|l']; cbn in L.
      - injection L as <-. apply repeat_length.
      - destruct (Nat.eqb (length l') (length (col_x c))) eqn:P; [|discriminate]. apply Nat.eqb_eq in P. injection L as <-. exact P. }
    tauto.
  - split; [exact Q|]. split; [exact B|exact T].
Qed.

(** Without assignments to coordinate or weight columns, every catalogue stays in step. *)
Theorem py_catalogues_in_step : forall s, py_reached no_assign s -> forall a, py_in_step (s a).
Proof.
  intros s H. induction H as [s New|s o s' H IH Al E].
  - intros a. destruct (New a) as [x [y [z [nz [ws [wc E]]]]]].
    apply (proj2 (py_new_spec x y z nz ws wc)) in E. tauto.
  - destruct o as [a d|a L ref|a L n bp gp ref|a L|a v L|a k v]; cbn [run_pyop] in E.
    + apply (offset_in_step a d s s' IH E).
    + unfold py_centre in E. apply (offset_both_in_step _ _ _ s s' IH E).
    + unfold py_pad in E. destruct bp as [p|], gp as [q|]; try discriminate.
      * apply (offset_both_in_step _ _ _ s s' IH E).
      * destruct n; [|discriminate]. apply (offset_both_in_step _ _ _ s s' IH E).
      * injection E as <-. exact IH.
    + unfold py_periodise, periodise_cat in E.
      destruct (calc_bounds_run (map_cols (periodise_coord (ax0 (bounds (s a))) (ax0 L)) (periodise_coord (ax1 (bounds (s a))) (ax1 L))
        (periodise_coord (ax2 (bounds (s a))) (ax2 L)) (s a))) as [c [Ec [C [S B]]]].
      { intros i. rewrite map_cols_col. apply map_nonempty, (in_step_nonempty _ (IH a)). }
      rewrite Ec in E. cbn [bind] in E. injection E as <-. intros b. unfold pyupd. destruct (Nat.eqb b a); [|apply IH].
      destruct (IH a) as [Q [_ T]]. destruct S as [S1 [S2 [S3 [S4 [S5 S6]]]]].
      assert (Cx := C AX). assert (Cy := C AY). assert (Cz := C AZ). cbn in Cx, Cy, Cz, S1, S2, S3, S4, S5, S6.
      split; [|split; [exact B|]].
      * unfold square in *. rewrite Cx, Cy, Cz, S1, S2, S3, !map_length. exact Q.
      * unfold totals_current in *. rewrite S2, S3, S4, S5, S6, Cx, map_length. exact T.
    + destruct (mean_density (s a) v L) as [c|] eqn:M; [|discriminate]. cbn [bind] in E. injection E as <-.
      intros b. unfold pyupd. destruct (Nat.eqb b a); [|apply IH].
      assert (X : exists w, py_setitem (s a) NNz w = Ok c).
      { unfold mean_density in M. cbv zeta in M. destruct v as [v|]; [destruct (Reqb v 0)|]; try destruct L as [l|]; try discriminate;
          match type of M with (if ?b then _ else _) = _ => destruct b; [discriminate|] | _ => idtac end; eauto. }
      destruct X as [w X]. exact (setitem_in_step (s a) NNz w c (IH a) eq_refl X).
    + destruct (py_setitem (s a) k v) as [c|] eqn:M; [|discriminate]. cbn [bind] in E. injection E as <-.
      intros b. unfold pyupd. destruct (Nat.eqb b a); [|apply IH]. exact (setitem_in_step (s a) k v c (IH a) Al M).
Qed.

(** Assigning a column leaves the attributes behind: after [cat['x'] = ...] the bounds
    are not those of the column, after [cat['ws'] = ...] the total weights are not. *)
Theorem setitem_stale_refuted :
  exists s s' s'', py_reached (fun _ => True) s /\
    run_pyop (PySet 0 NX (Array [5; 6])) s = Ok s' /\ run_pyop (PySet 0 NWs (Scalar 2)) s = Ok s'' /\
    ~ bounds_current (s' 0%nat) /\ ~ totals_current (s'' 0%nat).
Proof.
  destruct (proj1 (py_new_spec [0; 1] (Scalar 0) (Scalar 0) None (Scalar 1) (Scalar 1))) as [c [E [[Q [B T]] Cx]]];
    try exact I; try congruence.
  assert (Cs : col_ws c = [1; 1] /\ col_wc c = [1; 1]) by (cbn in E; injection E as <-; auto).
  destruct Cs as [Cs Cc].
  exists (fun _ => c). eexists _, _. split; [|split; [|split; [|split]]].
  - apply py_reached_new. intros a. eauto 10.
  - cbn [run_pyop]. unfold py_setitem. rewrite Cx. cbn [column length Nat.eqb bind]. reflexivity.
  - cbn [run_pyop]. unfold py_setitem. rewrite Cx. cbn [column length bind]. reflexivity.
  - rewrite pyupd_same. intros W. destruct (W AX) as [[I _] _]. cbn in I.
    destruct (B AX) as [[_ [_ F]] _]. cbn in F. rewrite Cx in F. specialize (F 0 (or_introl eq_refl)). lra.
  - rewrite pyupd_same. intros [_ [_ W]]. cbn in W. destruct T as [_ [_ T]]. rewrite T, Cs in W. cbn in W. lra.
Qed.

(** What an assignment does keep: no operation other than construction changes the
    totals, and every coordinate operation makes the bounds current again. *)
Theorem coordinate_ops_refresh :
  forall s s' a, nonempty (s a) ->
  ((exists d, py_offset a d s = Ok s') \/ (exists L, py_centre a L None s = Ok s') \/ (exists L, py_periodise a L s = Ok s')) ->
  bounds_current (s' a) /\ same_rest (s a) (s' a) /\ forall b, b <> a -> s' b = s b.
Proof.
  assert (Off : forall s s' a d, nonempty (s a) -> py_offset a d s = Ok s' ->
    bounds_current (s' a) /\ same_rest (s a) (s' a) /\ forall b, b <> a -> s' b = s b).
  { intros s s' a d N E. unfold py_offset in E. destruct (offset_cat_run d (s a) N) as [c [Ec [_ [S B]]]].
    rewrite Ec in E. injection E as <-. rewrite pyupd_same. split; [exact B|]. split; [exact S|]. intros b. apply pyupd_other. }
  intros s s' a N [[d E]|[[L E]|[L E]]].
  - apply (Off s s' a d N E).
  - unfold py_centre, offset_both in E. destruct (py_offset a _ s) as [s1|] eqn:E1; [|discriminate].
    injection E as <-. eapply Off; eassumption.
  - unfold py_periodise, periodise_cat in E.
    destruct (calc_bounds_run (map_cols (periodise_coord (ax0 (bounds (s a))) (ax0 L)) (periodise_coord (ax1 (bounds (s a))) (ax1 L))
      (periodise_coord (ax2 (bounds (s a))) (ax2 L)) (s a))) as [c [Ec [C [S B]]]].
    { intros i. rewrite map_cols_col. apply map_nonempty, N. }
    rewrite Ec in E. injection E as <-. rewrite pyupd_same. split; [exact B|]. split; [exact S|]. intros b. apply pyupd_other.
Qed.

(** ** C32 in Python: where it fails *)

Definition line_cat (xs : list R) : res pycat := py_new xs (Scalar 0) (Scalar 0) None (Scalar 1) (Scalar 1).

Lemma line_cat_ok x xs : exists c, line_cat (x :: xs) = Ok c /\ py_in_step c /\ col_x c = x :: xs.
Proof. apply (proj1 (py_new_spec (x :: xs) (Scalar 0) (Scalar 0) None (Scalar 1) (Scalar 1))); try exact I. congruence. Qed.

(** After assigning [x], centring uses the old bounds: the midpoint is not the box centre. *)
Theorem stale_centre_refuted :
  exists s s', py_reached (fun _ => True) s /\ py_centre 0 (T3 10 10 10) None s = Ok s' /\
    (fst (at_axis AX (bounds (s' 0%nat))) + snd (at_axis AX (bounds (s' 0%nat)))) / 2 <> 10 / 2.
Proof.
  destruct (line_cat_ok 0 [1]) as [c [E [[Q [B T]] Cx]]].
  destruct (py_setitem c NX (Array [5; 6])) as [c1|] eqn:E1.
  2:{ unfold py_setitem in E1. rewrite Cx in E1. cbn in E1. discriminate. }
  assert (F : col_x c1 = [5; 6] /\ col_y c1 = col_y c /\ col_z c1 = col_z c /\ bounds c1 = bounds c).
  { unfold py_setitem in E1. rewrite Cx in E1. cbn in E1. injection E1 as <-. auto. }
  destruct F as [Fx [Fy [Fz Fb]]].
  set (s := pyupd (fun _ => c) 0 c1).
  assert (N : nonempty (s 0%nat)).
  { unfold s. rewrite pyupd_same. assert (Nc := bounds_nonempty _ B). intros []; cbn [col].
    - rewrite Fx. congruence. - rewrite Fy. apply (Nc AY). - rewrite Fz. apply (Nc AZ). }
  exists s. destruct (offset_self_run 0 (tmap2 (fun b l => (fst b + snd b) / 2 - l / 2) (bounds c1) (T3 10 10 10)) s N) as [s' [Es [M _]]].
  exists s'. split; [|split].
  - apply (py_reached_op _ (fun _ => c) (PySet 0 NX (Array [5; 6]))).
    + apply py_reached_new. intros a. unfold line_cat in E. eauto 10.
    + exact I.
    + cbn [run_pyop]. rewrite E1. reflexivity.
  - rewrite <- Es. unfold py_centre. cbn [ref_or_self]. unfold s at 1. rewrite pyupd_same. reflexivity.
  - destruct M as [C [_ B']].
    assert (R0 : range_of (col_x c) 0 1).
    { rewrite Cx. split; [left; reflexivity|]. split; [right; left; reflexivity|]. intros x [<-|[<-|[]]]; lra. }
    destruct (range_unique _ _ _ _ _ (proj1 (B AX)) R0) as [Q1 Q2].
    assert (R1 : range_of (col AX (s 0%nat)) 5 6).
    { unfold s. rewrite pyupd_same. cbn [col]. rewrite Fx. split; [left; reflexivity|]. split; [right; left; reflexivity|].
      intros x [<-|[<-|[]]]; lra. }
    destruct (moved_bounds AX _ _ _ 5 6 C B' R1) as [-> ->].
    rewrite Fb. unfold tmap2. cbn [at_axis ax0] in *. rewrite Q1, Q2. lra.
Qed.

(** A catalogue given as its own reference is moved twice. *)
Theorem py_centre_alias_refuted :
  exists s s', py_reached no_assign s /\ py_centre 0 (T3 10 10 10) (Some 0%nat) s = Ok s' /\
    (fst (at_axis AX (bounds (s' 0%nat))) + snd (at_axis AX (bounds (s' 0%nat)))) / 2 <> 10 / 2.
Proof.
  destruct (line_cat_ok 0 [1]) as [c [E [[Q [B T]] Cx]]].
  set (s := fun _ : nat => c). set (o := tmap2 (fun b l => (fst b + snd b) / 2 - l / 2) (bounds c) (T3 10 10 10)).
  assert (N := bounds_nonempty _ B).
  destruct (offset_cat_run o c N) as [c1 [E1 [C1 [_ B1]]]].
  destruct (offset_cat_run o c1 (bounds_nonempty _ B1)) as [c2 [E2 [C2 [_ B2]]]].
  exists s, (pyupd (pyupd s 0 c1) 0 c2). split; [|split].
  - apply py_reached_new. intros a. unfold line_cat in E. eauto 10.
  - change (py_centre 0 (T3 10 10 10) (Some 0%nat) s) with (offset_both 0 (Some 0%nat) o s).
    unfold offset_both, py_offset. change (s 0%nat) with c. rewrite E1. cbn [bind]. rewrite pyupd_same, E2. reflexivity.
  - rewrite pyupd_same.
    assert (R0 : range_of (col_x c) 0 1).
    { rewrite Cx. split; [left; reflexivity|]. split; [right; left; reflexivity|]. intros x [<-|[<-|[]]]; lra. }
    destruct (range_unique _ _ _ _ _ (proj1 (B AX)) R0) as [Q1 Q2].
    destruct (moved_bounds AX o c c1 0 1 C1 B1 R0) as [P1 P2].
    destruct (moved_bounds AX o c1 c2 _ _ C2 B2 (proj1 (B1 AX))) as [-> ->]. rewrite P1, P2.
    unfold o, tmap2. cbn [at_axis ax0] in *. rewrite Q1, Q2. lra.
Qed.

(** ** C33: wrapping in Python *)

Lemma pymod_range x y : 0 < y -> 0 <= pymod x y < y.
Proof.
  intros P. unfold pymod. assert (A := Zfloor_lb (x / y)). assert (B := Zfloor_ub (x / y)).
  assert (E : x = y * (x / y)) by (field; lra).
  assert (y * IZR (Zfloor (x / y)) <= y * (x / y)) by (apply Rmult_le_compat_l; lra).
  assert (y * (x / y) < y * (IZR (Zfloor (x / y)) + 1)) by (apply Rmult_lt_compat_l; lra). lra.
Qed.

Lemma pymod_small x y : 0 < y -> 0 <= x < y -> pymod x y = x.
Proof.
  intros P Q. unfold pymod. rewrite (Zfloor_imp 0); [rewrite Rmult_0_r; lra|].
  cbn. split; [apply Rmult_le_pos; [lra|left; apply Rinv_0_lt_compat, P]|].
  apply (Rmult_lt_reg_r y); [exact P|]. replace (x / y * y) with x by (field; lra). lra.
Qed.

(** In real arithmetic each coordinate ends in [[0, L)], moved by the recentring and a
    whole number of box lengths; when the extent is less than the box it is exactly
    the centred catalogue. *)
Theorem py_periodise_wraps :
  forall s a boxsize, (forall i, 0 < at_axis i boxsize) -> bounds_current (s a) ->
  let mid i := (fst (at_axis i (bounds (s a))) + snd (at_axis i (bounds (s a)))) / 2 in
  exists s', py_periodise a boxsize s = Ok s' /\ same_rest (s a) (s' a) /\ bounds_current (s' a) /\
    (forall c, c <> a -> s' c = s c) /\
    forall i, exists f, col i (s' a) = map f (col i (s a)) /\
      (forall x, 0 <= f x < at_axis i boxsize) /\
      (forall x, exists k : Z, f x = x + (at_axis i boxsize / 2 - mid i) + IZR k * at_axis i boxsize) /\
      (at_axis i (spans (s a)) < at_axis i boxsize ->
       forall x, In x (col i (s a)) -> f x = x + (at_axis i boxsize / 2 - mid i)).
Proof.
  intros s a L P B mid. unfold py_periodise, periodise_cat.
  destruct (calc_bounds_run (map_cols (periodise_coord (ax0 (bounds (s a))) (ax0 L)) (periodise_coord (ax1 (bounds (s a))) (ax1 L))
    (periodise_coord (ax2 (bounds (s a))) (ax2 L)) (s a))) as [c [Ec [C [S B']]]].
  { intros i. rewrite map_cols_col. apply map_nonempty, (bounds_nonempty _ B). }
  rewrite Ec. cbn [bind]. eexists. split; [reflexivity|]. rewrite pyupd_same. split; [exact S|]. split; [exact B'|].
  split; [intros b; apply pyupd_other|].
  intros i. exists (periodise_coord (at_axis i (bounds (s a))) (at_axis i L)). split; [|split; [|split]].
  - rewrite C, map_cols_col. destruct i; reflexivity.
  - intros x. apply pymod_range, P.
  - intros x. unfold periodise_coord, pymod. match goal with |- context [Zfloor ?e] => exists (- Zfloor e)%Z; set (q := Zfloor e) end.
    rewrite opp_IZR. unfold mid. lra.
  - intros Sm x I. unfold periodise_coord. destruct (B i) as [[_ [_ F]] G]. specialize (F x I). rewrite G in Sm.
    rewrite pymod_small; [unfold mid; lra|apply P|]. lra.
Qed.

(** A catalogue exactly as wide as the box: the largest coordinate goes to zero. *)
Theorem py_periodise_full_width :
  forall lo hi L, 0 < L -> hi - lo = L -> periodise_coord (lo, hi) L hi = 0 /\ periodise_coord (lo, hi) L lo = 0.
Proof.
  intros lo hi L P E. unfold periodise_coord. cbn [fst snd]. split.
  - replace (hi + L / 2 - (hi + lo) / 2) with L by lra. unfold pymod. replace (L / L) with 1 by (field; lra).
    rewrite (Zfloor_IZR 1). lra.
  - replace (lo + L / 2 - (hi + lo) / 2) with 0 by lra. rewrite pymod_small; lra.
Qed.

Lemma rnd64_exact m e : (Z.abs m < 2 ^ 53)%Z -> (-1074 <= e)%Z -> rnd64 (IZR m * bpow radix2 e) = IZR m * bpow radix2 e.
Proof.
  intros M Ee. unfold rnd64. apply round_generic; [apply valid_rnd_N|].
  apply generic_format_FLT. exists (Float radix2 m e); [reflexivity|exact M|exact Ee].
Qed.

Lemma bp54 : bpow radix2 (-54) = / 18014398509481984. Proof. reflexivity. Qed.
Lemma bp55 : bpow radix2 (-55) = / 36028797018963968. Proof. reflexivity. Qed.

Lemma rnd64_near_one : rnd64 (1 - bpow radix2 (-55)) = 1.
Proof.
  unfold rnd64, round, scaled_mantissa, cexp. rewrite (mag_unique_pos radix2 _ 0).
  2:{ rewrite bp55. cbn. lra. }
  change (FLT_exp (-1074) 53 0) with (-53)%Z. unfold F2R. cbn [Fnum Fexp].
  rewrite (Znearest_imp _ _ 9007199254740992).
  - cbn. lra.
  - rewrite bp55. cbn. apply Rabs_def1; lra.
Qed.

(** In binary64 a coordinate can end exactly at the box size: the least coordinate of a
    catalogue whose computed extent equals the box, so that no warning is given. *)
Theorem py_periodise_range64_refuted :
  exists lo hi L, 0 < L /\ rnd64 lo = lo /\ rnd64 hi = hi /\ rnd64 L = L /\ lo < hi /\
    rnd64 (hi - lo) <= L /\ periodise_coord64 (lo, hi) L lo = L.
Proof.
  assert (X1 := rnd64_exact (-9007199254740991) (-54) ltac:(lia) ltac:(lia)).
  assert (X2 := rnd64_exact 9007199254740994 (-54)).
  assert (X3 := rnd64_exact 1 0 ltac:(lia) ltac:(lia)).
  assert (X4 := rnd64_exact 3 (-54) ltac:(lia) ltac:(lia)).
  assert (X5 := rnd64_exact 3 (-55) ltac:(lia) ltac:(lia)).
  assert (X6 := rnd64_exact 1 (-54) ltac:(lia) ltac:(lia)).
  assert (X7 := rnd64_exact (-1) (-55) ltac:(lia) ltac:(lia)).
  assert (X8 := rnd64_exact 1 (-1) ltac:(lia) ltac:(lia)).
  assert (X9 := rnd64_exact 4503599627370497 (-53) ltac:(lia) ltac:(lia)). clear X2.
  change (bpow radix2 (-53)) with (/ 9007199254740992) in X9. change (bpow radix2 0) with 1 in X3.
  change (bpow radix2 (-1)) with (/ 2) in X8. rewrite bp54 in X1, X4, X6. rewrite bp55 in X5, X7.
  set (lo := IZR (-9007199254740991) * / 18014398509481984) in *.
  set (hi := IZR 4503599627370497 * / 9007199254740992) in *.
  exists lo, hi, 1. split; [lra|]. split; [exact X1|]. split; [exact X9|].
  split; [rewrite Rmult_1_r in X3; exact X3|]. split; [unfold lo, hi; lra|]. split.
  - unfold rnd64, round, scaled_mantissa, cexp. rewrite (mag_unique_pos radix2 _ 1).
    2:{ unfold lo, hi. cbn. lra. }
    change (FLT_exp (-1074) 53 1) with (-52)%Z. unfold F2R. cbn [Fnum Fexp].
    rewrite (Znearest_imp _ _ 4503599627370496).
    + cbn. lra.
    + unfold lo, hi. cbn. apply Rabs_def1; lra.
  - unfold periodise_coord64. cbn [fst snd].
    replace (1 / 2) with (1 * / 2) by lra. rewrite X8.
    replace (hi + lo) with (3 * / 18014398509481984) by (unfold hi, lo; lra). rewrite X4.
    replace (3 * / 18014398509481984 / 2) with (3 * / 36028797018963968) by lra. rewrite X5.
    replace (lo + 1 * / 2) with (1 * / 18014398509481984) by (unfold lo; lra). rewrite X6.
    replace (1 * / 18014398509481984 - 3 * / 36028797018963968) with (-1 * / 36028797018963968) by lra. rewrite X7.
    unfold npmod64. replace (fmod (-1 * / 36028797018963968) 1) with (-1 * / 36028797018963968).
    + replace (Rltb (-1 * / 36028797018963968) 0) with true by (symmetry; apply Rltb_spec; lra).
      replace (-1 * / 36028797018963968 + 1) with (1 - bpow radix2 (-55)) by (rewrite bp55; lra). apply rnd64_near_one.
    + unfold fmod. replace (-1 * / 36028797018963968 / 1) with (- (1 * / 36028797018963968)) by field.
      rewrite Ztrunc_opp, Ztrunc_floor by lra. rewrite (Zfloor_imp 0) by (cbn; lra). cbn. lra.
Qed.

(** ** C35: lines of sight *)

Definition norm2 (v : R * R * R) : R := let '(x, y, z) := v in x * x + y * y + z * z.

Theorem los_unit :
  forall x y z, let '(u, v, w) := los_of x y z in
  ((x, y, z) <> (0, 0, 0) ->
   norm2 (u, v, w) = 1 /\ exists r, 0 < r /\ x = r * u /\ y = r * v /\ z = r * w) /\
  ((x, y, z) = (0, 0, 0) -> (u, v, w) = (0, 0, 0)).
Proof.
  intros x y z. unfold los_of. set (n := sqrt (x ^ 2 + y ^ 2 + z ^ 2)).
  assert (X := pow2_ge_0 x). assert (Y := pow2_ge_0 y). assert (Z := pow2_ge_0 z).
  split.
  - intros N. assert (P : 0 < x ^ 2 + y ^ 2 + z ^ 2).
    { destruct (Rtotal_order 0 (x ^ 2 + y ^ 2 + z ^ 2)) as [H|[H|H]]; [exact H| |lra]. exfalso. apply N.
      assert (Hx : x ^ 2 = 0) by lra. assert (Hy : y ^ 2 = 0) by lra. assert (Hz : z ^ 2 = 0) by lra.
      assert (forall t, t ^ 2 = 0 -> t = 0) by (intros t Ht; apply Rsqr_0_uniq; unfold Rsqr; lra).
      rewrite (H0 x Hx), (H0 y Hy), (H0 z Hz). reflexivity. }
    assert (Pn : 0 < n) by (apply sqrt_lt_R0, P).
    assert (Sq : n * n = x ^ 2 + y ^ 2 + z ^ 2) by (apply sqrt_sqrt; lra).
    destruct (Reqb n 0) eqn:E; [apply Reqb_spec in E; lra|]. split.
    + unfold norm2. replace (x / n * (x / n) + y / n * (y / n) + z / n * (z / n)) with ((x ^ 2 + y ^ 2 + z ^ 2) / (n * n)) by (field; lra).
      rewrite <- Sq. field. lra.
    + exists n. split; [exact Pn|]. repeat split; field; lra.
  - intros E. injection E as -> -> ->. unfold Rdiv. rewrite !Rmult_0_l. reflexivity.
Qed.

Lemma zip3_nth x : forall y z i, length y = length x -> length z = length x -> (i < length x)%nat ->
  nth_error (zip3 x y z) i = Some (nth i x 0, nth i y 0, nth i z 0).
Proof.
  induction x as [|a x IH]; intros [|b y] [|c z] i Hy Hz Hi; cbn in *; try lia; try discriminate.
  destruct i as [|i]; [reflexivity|]. cbn. apply IH; lia.
Qed.

Lemma zip3_length x : forall y z, length y = length x -> length z = length x -> length (zip3 x y z) = length x.
Proof. induction x as [|a x IH]; intros [|b y] [|c z] Hy Hz; cbn in *; try lia; try discriminate. rewrite IH; lia. Qed.

Theorem compute_los_spec :
  forall c, square c -> length (compute_los c) = length (col_x c) /\
  forall i, (i < length (col_x c))%nat ->
    exists v, nth_error (compute_los c) i = Some v /\
      let p := (nth i (col_x c) 0, nth i (col_y c) 0, nth i (col_z c) 0) in
      (p = (0, 0, 0) -> v = (0, 0, 0)) /\
      (p <> (0, 0, 0) -> norm2 v = 1 /\ exists r, 0 < r /\ p = (r * fst (fst v), r * snd (fst v), r * snd v)).
Proof.
  intros c [Hy [Hz _]]. unfold compute_los. split; [rewrite map_length; apply zip3_length; assumption|].
  intros i Hi. rewrite nth_error_map, zip3_nth by assumption. cbn [option_map].
  set (x := nth i (col_x c) 0). set (y := nth i (col_y c) 0). set (z := nth i (col_z c) 0).
  assert (U := los_unit x y z). destruct (los_of x y z) as [[u v] w]. eexists. split; [reflexivity|]. cbn [fst snd].
  destruct U as [U1 U2]. split; [exact U2|]. intros N. destruct (U1 N) as [A [r [Pr [-> [-> ->]]]]]. split; [exact A|]. eauto.
Qed.

(** *** Repeated measurements *)

Definition los_of_run (r : list (R * R * R) * list (R * R * R) * pystore) := fst r.
Definition after_run (r : list (R * R * R) * list (R * R * R) * pystore) := snd r.

Lemma moved_zero c c' d : (forall i, d i = 0) -> py_moved d c c' -> forall i, col i c' = col i c.
Proof.
  intros Z [C _] i. rewrite C. rewrite <- (map_id (col i c)) at 2. apply map_ext. intros x. rewrite Z. lra.
Qed.

Lemma same_cols_los c c' : (forall i, col i c' = col i c) -> compute_los c' = compute_los c.
Proof. intros C. unfold compute_los. rewrite (C AX : col_x c' = col_x c), (C AY : col_y c' = col_y c), (C AZ : col_z c' = col_z c). reflexivity. Qed.

(** A second alignment with the same settings moves nothing, so from the second
    measurement on the positions, and the lines of sight taken from them, stay. *)
Lemma moved_current d c c' : py_moved d c c' -> bounds_current c'.
Proof. intros [_ [_ B]]. exact B. Qed.

Definition same_positions (s s' : pystore) : Prop := forall c i, col i (s' c) = col i (s c).

Theorem alignment_idempotent :
  forall s a b ld lr ld' lr' al boxsize ngrid r, a <> b -> bounds_current (s a) -> bounds_current (s b) ->
  survey_setup a b ld lr al boxsize ngrid s = Ok r ->
  exists r', survey_setup a b ld' lr' al boxsize ngrid (after_run r) = Ok r' /\
    same_positions (after_run r) (after_run r').
Proof.
  intros s a b ld lr ld' lr' al L n r N Ba Bb E. unfold survey_setup in *.
  destruct al as [|f|f|].
  - destruct (py_centre_aligns s a b L N (bounds_nonempty _ Ba) Bb) as [s1 [d1 [E1 [Ma [Mb [_ P1]]]]]].
    rewrite E1 in E. injection E as <-. unfold after_run. cbn [snd bind].
    set (o := tmap2 (fun p l => (fst p + snd p) / 2 - l / 2) (bounds (s1 b)) L).
    destruct (offset_both_run a b o s1 N (bounds_nonempty _ (moved_current _ _ _ Ma)) (bounds_nonempty _ (moved_current _ _ _ Mb)))
      as [s2 [E2 [Ma2 [Mb2 O2]]]].
    change (py_centre a L (Some b) s1) with (offset_both a (Some b) o s1). rewrite E2. eexists. split; [reflexivity|]. cbn [snd].
    assert (Z : forall i, at_axis i o = 0).
    { intros i. specialize (P1 i). unfold o. destruct i; cbn [at_axis tmap2 ax0 ax1 ax2] in *; lra. }
    intros c i. destruct (Nat.eq_dec c a) as [->|Ca]; [apply (moved_zero _ _ _ Z Ma2)|].
    destruct (Nat.eq_dec c b) as [->|Cb]; [apply (moved_zero _ _ _ Z Mb2)|]. rewrite O2 by assumption. reflexivity.
  - destruct (proj1 (py_pad_aligns s a b L None (T3 f f f) N (bounds_nonempty _ Ba) Bb)) as [s1 [d1 [E1 [Ma [Mb [_ P1]]]]]].
    rewrite E1 in E. injection E as <-. unfold after_run. cbn [snd bind].
    destruct (proj1 (py_pad_aligns s1 a b L None (T3 f f f) N (bounds_nonempty _ (moved_current _ _ _ Ma)) (moved_current _ _ _ Mb)))
      as [s2 [d2 [E2 [Ma2 [Mb2 [O2 P2]]]]]].
    rewrite E2. eexists. split; [reflexivity|]. cbn [snd].
    assert (Z : forall i, d2 i = 0).
    { intros i. specialize (P1 i). specialize (P2 i). destruct Mb2 as [C2 [_ B2]].
      assert (Q := range_shift _ _ _ (d2 i) (proj1 (moved_current _ _ _ Mb i))). rewrite <- C2 in Q.
      destruct (range_unique _ _ _ _ _ Q (proj1 (B2 i))) as [Q1 _]. lra. }
    intros c i. destruct (Nat.eq_dec c a) as [->|Ca]; [apply (moved_zero _ _ _ Z Ma2)|].
    destruct (Nat.eq_dec c b) as [->|Cb]; [apply (moved_zero _ _ _ Z Mb2)|]. rewrite O2 by assumption. reflexivity.
  - destruct (proj1 (proj2 (py_pad_aligns s a b L (Some n) (T3 f f f) N (bounds_nonempty _ Ba) Bb)) n eq_refl) as [s1 [d1 [E1 [Ma [Mb [_ P1]]]]]].
    rewrite E1 in E. injection E as <-. unfold after_run. cbn [snd bind].
    destruct (proj1 (proj2 (py_pad_aligns s1 a b L (Some n) (T3 f f f) N (bounds_nonempty _ (moved_current _ _ _ Ma)) (moved_current _ _ _ Mb))) n eq_refl)
      as [s2 [d2 [E2 [Ma2 [Mb2 [O2 P2]]]]]].
    rewrite E2. eexists. split; [reflexivity|]. cbn [snd].
    assert (Z : forall i, d2 i = 0).
    { intros i. specialize (P1 i). specialize (P2 i). destruct Mb2 as [C2 [_ B2]].
      assert (Q := range_shift _ _ _ (d2 i) (proj1 (moved_current _ _ _ Mb i))). rewrite <- C2 in Q.
      destruct (range_unique _ _ _ _ _ Q (proj1 (B2 i))) as [Q1 _]. lra. }
    intros c i. destruct (Nat.eq_dec c a) as [->|Ca]; [apply (moved_zero _ _ _ Z Ma2)|].
    destruct (Nat.eq_dec c b) as [->|Cb]; [apply (moved_zero _ _ _ Z Mb2)|]. rewrite O2 by assumption. reflexivity.
  - injection E as <-. cbn. eexists. split; [reflexivity|]. intros c i. reflexivity.
Qed.

(** The lines of sight are the same in a second measurement when both are supplied or
    no alignment is done; and in every case from the second measurement on. *)
Theorem los_repeat :
  forall s a b ld lr al boxsize ngrid r1 r2 r3, a <> b -> bounds_current (s a) -> bounds_current (s b) ->
  survey_setup a b ld lr al boxsize ngrid s = Ok r1 ->
  survey_setup a b ld lr al boxsize ngrid (after_run r1) = Ok r2 ->
  survey_setup a b ld lr al boxsize ngrid (after_run r2) = Ok r3 ->
  ((ld <> None /\ lr <> None) \/ al = PyNone -> los_of_run r2 = los_of_run r1) /\
  los_of_run r3 = los_of_run r2.
Proof.
  intros s a b ld lr al L n r1 r2 r3 N Ba Bb E1 E2 E3.
  destruct (alignment_idempotent s a b ld lr ld lr al L n r1 N Ba Bb E1) as [r2' [E2' SP]].
  rewrite E2 in E2'. injection E2' as <-.
  assert (Form : forall s r, survey_setup a b ld lr al L n s = Ok r ->
    los_of_run r = (match ld with Some l => l | None => compute_los (s a) end, match lr with Some l => l | None => compute_los (s b) end)).
  { intros t r E. unfold survey_setup in E. destruct (match al with PyCentre => _ | PyPadBox _ => _ | PyPadGrid _ => _ | PyNone => _ end); [|discriminate].
    injection E as <-. reflexivity. }
  split.
  - intros H. rewrite (Form _ _ E2), (Form _ _ E1). destruct H as [[Hd Hr]| ->].
    + destruct ld, lr; congruence.
    + unfold survey_setup in E1. injection E1 as <-. reflexivity.
  - rewrite (Form _ _ E3), (Form _ _ E2). rewrite (same_cols_los _ _ (SP a)), (same_cols_los _ _ (SP b)). reflexivity.
Qed.

(** Without supplied lines of sight the second measurement uses different ones. *)
Theorem los_repeat_refuted :
  exists s r1 r2, py_reached no_assign s /\
    survey_setup 0 1 None None PyCentre (T3 10 10 10) (T3 4 4 4)%Z s = Ok r1 /\
    survey_setup 0 1 None None PyCentre (T3 10 10 10) (T3 4 4 4)%Z (after_run r1) = Ok r2 /\
    los_of_run r2 <> los_of_run r1.
Proof.
  destruct (line_cat_ok 1 []) as [c [E [[Q [B T]] Cx]]].
  assert (Cyz : col_y c = [0] /\ col_z c = [0]) by (unfold line_cat in E; cbn in E; injection E as <-; auto).
  destruct Cyz as [Cy Cz]. set (s := fun _ : nat => c).
  destruct (py_centre_aligns s 0 1 (T3 10 10 10) (Nat.neq_0_succ 0) (bounds_nonempty _ B) B) as [s1 [d1 [E1 [Ma [Mb [_ P1]]]]]].
  destruct (survey_setup 0 1 None None PyCentre (T3 10 10 10) (T3 4 4 4)%Z s) as [r1|e] eqn:R1.
  2:{ unfold survey_setup in R1. rewrite E1 in R1. discriminate. }
  destruct (alignment_idempotent s 0 1 None None None None PyCentre _ _ r1 (Nat.neq_0_succ 0) B B R1) as [r2 [R2 SP]].
  exists s, r1, r2. split; [|split; [exact R1|split; [exact R2|]]].
  { apply py_reached_new. intros a. unfold line_cat in E. eauto 10. }
  unfold survey_setup in R1, R2. rewrite E1 in R1. cbn [bind] in R1. injection R1 as <-. unfold after_run in R2. cbn [snd] in R2.
  destruct (py_centre 0 _ (Some 1%nat) s1) as [s2|]; [|discriminate]. injection R2 as <-.
  unfold los_of_run. cbn [fst]. intros W. assert (W0 : compute_los (s1 0%nat) = compute_los c) by (exact (f_equal fst W)). clear W.
  assert (Y : col_y (s1 0%nat) = [5]).
  { destruct Ma as [C _]. specialize (C AY). cbn [col] in C. unfold s in C. rewrite Cy in C. cbn in C. rewrite C. f_equal.
    destruct Mb as [Cb [_ Bb]]. specialize (P1 AY). specialize (Cb AY). cbn [col] in Cb. unfold s in Cb. rewrite Cy in Cb.
    assert (R0 : range_of (col AY (s1 1%nat)) (0 - d1 AY) (0 - d1 AY)).
    { cbn [col]. rewrite Cb. cbn [map]. split; [left; reflexivity|]. split; [left; reflexivity|]. intros x [<-|[]]. lra. }
    destruct (range_unique _ _ _ _ _ (proj1 (Bb AY)) R0) as [Q1 Q2]. rewrite Q1, Q2 in P1. cbn [at_axis ax1] in P1. lra. }
  assert (X : exists x z, col_x (s1 0%nat) = [x] /\ col_z (s1 0%nat) = [z]).
  { destruct Ma as [C _]. assert (C' := C AZ). specialize (C AX). cbn [col] in C, C'. unfold s in C, C'. rewrite Cx in C. rewrite Cz in C'.
    cbn in C, C'. eauto. }
  destruct X as [x [z [X Z]]]. unfold compute_los in W0. rewrite X, Y, Z, Cx, Cy, Cz in W0. cbn [zip3 map] in W0.
  assert (U := los_unit x 5 z). assert (W1 : los_of x 5 z = los_of 1 0 0) by congruence. clear W0.
  rewrite W1 in U. unfold los_of in U. destruct U as [U _].
  destruct U as [_ [r [_ [_ [U _]]]]]; [intros F; injection F; lra|].
  replace (0 / (if Reqb (sqrt (1 ^ 2 + 0 ^ 2 + 0 ^ 2)) 0 then 1 else sqrt (1 ^ 2 + 0 ^ 2 + 0 ^ 2))) with 0 in U by (unfold Rdiv; lra).
  lra.
Qed.

(** Non-vacuity: a catalogue of two particles is constructed, in step, and its bounds
    and totals have the expected values. *)
Example py_cat_case :
  exists c, py_new [1; 3] (Array [2; 0]) (Scalar 0) None (Array [1; 2]) (Scalar 3) = Ok c /\
    py_in_step c /\ at_axis AX (bounds c) = (1, 3) /\ at_axis AY (spans c) = 2 /\ ntotal c = 2%nat /\
    py_wtotal c = 9 /\ py_wstotal c = 3.
Proof.
  destruct (proj1 (py_new_spec [1; 3] (Array [2; 0]) (Scalar 0) None (Array [1; 2]) (Scalar 3))) as [c [E [St Cx]]];
    try exact I; try reflexivity; try congruence.
  exists c. split; [exact E|]. split; [exact St|]. unfold py_new in E. cbn in E. injection E as <-. cbn.
  unfold Rmin, Rmax. repeat destruct (Rle_dec _ _); try lra. repeat split; lra.
Qed.

Print Assumptions py_centre_aligns.
Print Assumptions py_centre_self.
Print Assumptions py_pad_aligns.
Print Assumptions py_new_spec.
Print Assumptions py_catalogues_in_step.
Print Assumptions setitem_stale_refuted.
Print Assumptions coordinate_ops_refresh.
Print Assumptions stale_centre_refuted.
Print Assumptions py_centre_alias_refuted.
Print Assumptions py_periodise_wraps.
Print Assumptions py_periodise_full_width.
Print Assumptions py_periodise_range64_refuted.
Print Assumptions los_unit.
Print Assumptions compute_los_spec.
Print Assumptions alignment_idempotent.
Print Assumptions los_repeat.
Print Assumptions los_repeat_refuted.
