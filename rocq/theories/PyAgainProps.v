(** Measurements repeated with the same catalogue objects. *)
From Coq Require Import String Ascii List Arith ZArith Reals Bool Lia Lra FunctionalExtensionality.
From Flocq Require Import Core.Raux.
From Verif Require Import Base StrModel StrProps Dec ArrayModel ArrayProofs
  MeshModel CatModel CatProps PyCatModel PyCatProps ParamModel ParamProps ParamValProps ParamFixProps.
From Verif Require Import PyParamModel PyParamProofs PyParamProps PyAmalgModel PyAmalgProps.
From Verif Require Import PyRunModel PyRunProps PyBoxProps PyWinProps PyLetterProps PyGivenProps.
From Verif Require ParamFileModel MainModel MainProps NormProps BinningModel LoadModel LoadProps ParamEnvProps.
Import ListNotations.
Local Open Scope R_scope.
Local Open Scope nat_scope.
Local Open Scope string_scope.

(* ------------------------------------------------------------------ *)
(** * C109: measuring again *)

(** ** Boxes *)

Lemma any_repeat v n : v <> 0%R -> (0 < n)%nat -> any (repeat v n) = true.
Proof. intros V N. destruct n; [lia|]. unfold any. cbn [repeat existsb]. replace (Reqb v 0) with false by (symmetry; now apply Reqb_false). reflexivity. Qed.

Lemma any_density L c : (forall i, (0 < at_axis i L)%R) -> col_x c <> [] -> any (density L c) = true.
Proof.
  intros P N. unfold density. destruct (any (col_nz c)) eqn:A; [exact A|].
  assert (LN : (0 < length (col_x c))%nat) by (destruct (col_x c); [congruence|cbn; lia]).
  apply any_repeat; [|exact LN]. apply Rgt_not_eq.
  pose proof (P AX) as P0. pose proof (P AY) as P1. pose proof (P AZ) as P2. cbn [at_axis] in P0, P1, P2.
  apply Rdiv_lt_0_compat; [now apply lt_0_INR|]. apply Rmult_lt_0_compat; [apply Rmult_lt_0_compat|]; assumption.
Qed.

(** The catalogue as a box measurement leaves it. *)
Record left_by (L : triple R) (c c' : pycat) : Prop := {
  l_x : col_x c' = map (periodise_coord (ax0 (bounds c)) (ax0 L)) (col_x c);
  l_y : col_y c' = map (periodise_coord (ax1 (bounds c)) (ax1 L)) (col_y c);
  l_z : col_z c' = map (periodise_coord (ax2 (bounds c)) (ax2 L)) (col_z c);
  l_nz : col_nz c' = density L c;
  l_ws : col_ws c' = col_ws c;
  l_wc : col_wc c' = col_wc c;
  l_step : py_in_step c'
}.

Lemma box_left fuel e three st name a d s x L n :
  box fuel e three st name a d s = Returns x -> py_in_step (s d) ->
  boxed (used x) = Returns (L, n) -> (forall i, (0 < at_axis i L)%R) ->
  left_by L (s d) (after x d) /\ from_data (called x) = Some (rows (after x d), []) /\
  (forall c, c <> d -> after x c = s c).
Proof.
  intros H ((Q1 & Q2 & Q3 & Q4 & Q5) & B & T) LN P.
  unfold box in H. apply andthen_returns in H as (q & PR & H). apply andthen_returns in H as (u & CT & H).
  apply andthen_returns in H as (b & BO & H). apply andthen_returns in H as (ln & LN' & H).
  apply andthen_returns in H as (s1 & PE & H). apply andthen_returns in H as (s2 & DE & H).
  apply andthen_returns in H as (cd & CD & H). cbv zeta in H.
  apply andthen_returns in H as (part & PN & H). apply andthen_returns in H as (mesh & MN & H).
  apply andthen_returns in H as (f & FO & H). injection H as <-. cbn [called factors used after from_data] in *.
  rewrite LN in LN'. injection LN' as <-. cbn [fst] in PE, DE. apply python_returns in PE.
  destruct (periodise_run L d s B) as (c & E & CX & CY & CZ & (R1 & R2 & R3 & R4 & R5 & R6) & B').
  rewrite PE in E. injection E as ->. rewrite !pyupd_same in DE.
  assert (SC : py_in_step c).
  { split; [unfold square; rewrite CX, CY, CZ, R1, R2, R3, !map_length; auto|]. split; [exact B'|].
    destruct T as (T1 & T2 & T3). split; [rewrite R4, T1, CX, map_length; reflexivity|]. rewrite R5, R6, R2, R3. auto. }
  assert (G : left_by L (s d) (s2 d) /\ (forall k, k <> d -> s2 k = s k)).
  { destruct (any (col_nz c)) eqn:A.
    - injection DE as <-. rewrite pyupd_same. split; [|intros k N; now apply pyupd_other].
      split; try assumption. unfold density. rewrite <- R1, A. reflexivity.
    - unfold mean_density in DE. set (V := (ax0 L * ax1 L * ax2 L)%R) in *.
      assert (NV : V <> 0%R).
      { apply Rgt_not_eq. unfold V. pose proof (P AX). pose proof (P AY). pose proof (P AZ). cbn [CatProps.at_axis] in *.
        apply Rmult_lt_0_compat; [apply Rmult_lt_0_compat|]; assumption. }
      replace (Reqb V 0) with false in DE by (symmetry; now apply Reqb_false).
      unfold py_setitem in DE. cbn [column bind python andthen] in DE. injection DE as <-.
      rewrite pyupd_same. split; [|intros k N; rewrite !pyupd_other by exact N; reflexivity].
      split; cbn [col_x col_y col_z col_nz col_ws col_wc]; try assumption.
      + unfold density. rewrite <- R1, A. fold V. rewrite CX, map_length, R4. destruct T as (-> & _). reflexivity.
      + destruct SC as ((U1 & U2 & U3 & U4 & U5) & UB & UT). split; [|split; [exact UB|exact UT]].
        unfold square. cbn [col_x col_y col_z col_nz col_ws col_wc]. rewrite repeat_length. auto. }
  destruct G as (G & O). split; [exact G|]. split; [|exact O].
  destruct (l_step _ _ _ G) as (SQ & BC & _). pose proof (bounds_nonempty _ BC) as NE.
  rewrite (converted_canon _ SQ NE) in CD. injection CD as <-.
  rewrite (MainProps.particles_has _ _ (canon_has _ (rows_ne _ SQ NE))). reflexivity.
Qed.

(** A second box measurement, in any box, works with the densities of the
    first: the catalogue's own, or the mean density of the first box. *)
Theorem box_density_stays fuel e three st name a fuel' e' three' st' name' a' d s x x' L n L' n' :
  box fuel e three st name a d s = Returns x -> py_in_step (s d) ->
  boxed (used x) = Returns (L, n) -> (forall i, (0 < at_axis i L)%R) ->
  box fuel' e' three' st' name' a' d (after x) = Returns x' ->
  boxed (used x') = Returns (L', n') -> (forall i, (0 < at_axis i L')%R) ->
  col_nz (after x' d) = density L (s d) /\ col_ws (after x' d) = col_ws (s d) /\ col_wc (after x' d) = col_wc (s d).
Proof.
  intros H St LN P H' LN' P'.
  destruct (box_left _ _ _ _ _ _ _ _ _ _ _ H St LN P) as (G & _ & _).
  destruct (box_left _ _ _ _ _ _ _ _ _ _ _ H' (l_step _ _ _ G) LN' P') as (G' & _ & _).
  rewrite (l_nz _ _ _ G'), (l_ws _ _ _ G'), (l_wc _ _ _ G'), (l_ws _ _ _ G), (l_wc _ _ _ G). split; [|auto].
  unfold density at 1. rewrite (l_nz _ _ _ G), any_density; [reflexivity|exact P|].
  destruct St as (_ & B & _). exact (bounds_nonempty _ B AX).
Qed.

(** In the same box the particles of a second measurement are those of the
    first further by one displacement, up to whole boxes. *)
Theorem box_again fuel e three st name a fuel' e' three' st' name' a' d s x x' L n n' :
  box fuel e three st name a d s = Returns x -> py_in_step (s d) ->
  boxed (used x) = Returns (L, n) -> (forall i, (0 < at_axis i L)%R) ->
  box fuel' e' three' st' name' a' d (after x) = Returns x' -> boxed (used x') = Returns (L, n') ->
  exists ps ps', from_data (called x) = Some (ps, []) /\ from_data (called x') = Some (ps', []) /\
    Forall2 (displaced L (to_middle L (after x d))) ps ps'.
Proof.
  intros H St LN P H' LN'.
  destruct (box_left _ _ _ _ _ _ _ _ _ _ _ H St LN P) as (G & F & _).
  destruct (box_left _ _ _ _ _ _ _ _ _ _ _ H' (l_step _ _ _ G) LN' P) as (G' & F' & _).
  exists (rows (after x d)), (rows (after x' d)). split; [exact F|]. split; [exact F'|].
  assert (NZ : col_nz (after x' d) = col_nz (after x d)).
  { rewrite (l_nz _ _ _ G'). unfold density at 1. rewrite (l_nz _ _ _ G), any_density; [reflexivity|exact P|].
    destruct St as (_ & B & _). exact (bounds_nonempty _ B AX). }
  assert (RW : rows (after x' d) = map (per L (bounds (after x d))) (rows (after x d))).
  { unfold rows. rewrite (l_x _ _ _ G'), (l_y _ _ _ G'), (l_z _ _ _ G'), NZ, (l_ws _ _ _ G'), (l_wc _ _ _ G'). apply zip_per. }
  rewrite RW. pose proof (per_centred L (after x d) (rows (after x d)) P) as C. clear - C.
  revert C. generalize (map (per L (bounds (after x d))) (rows (after x d))). generalize (rows (after x d)).
  induction 1 as [|p p' ps ps' (A & K) C IH]; constructor; [|exact IH]. split; [exact A|].
  intros i. destruct (K i) as (_ & k & E). exists k. exact E.
Qed.

(** A catalogue narrower than the box stays where the first measurement put
    it: the request of a second one has the same particles. *)
Lemma per_middle b L x : (0 < L)%R -> (fst b <= x <= snd b)%R -> (snd b - fst b < L)%R ->
  periodise_coord b L x = (x + (L / 2 - (fst b + snd b) / 2))%R.
Proof.
  intros P I W. unfold periodise_coord.
  replace (x + L / 2 - (snd b + fst b) / 2)%R with (x + (L / 2 - (fst b + snd b) / 2))%R by lra.
  unfold pymod. rewrite (Zfloor_imp 0); [ring|].
  cbn [Z.add IZR]. split; [apply Rmult_le_pos; [lra|left; now apply Rinv_0_lt_compat]|].
  apply (Rmult_lt_reg_r L); [exact P|]. unfold Rdiv. rewrite Rmult_assoc, Rinv_l by lra. lra.
Qed.

Definition narrower (c : pycat) (L : triple R) : Prop :=
  forall i, (snd (at_axis i (bounds c)) - fst (at_axis i (bounds c)) < at_axis i L)%R.

Lemma per_range c L i : bounds_current c -> (0 < at_axis i L)%R ->
  (snd (at_axis i (bounds c)) - fst (at_axis i (bounds c)) < at_axis i L)%R ->
  map (periodise_coord (at_axis i (bounds c)) (at_axis i L)) (col i c) =
  map (fun x => x - - to_middle L c i)%R (col i c).
Proof.
  intros B P W. destruct (B i) as ((_ & _ & R) & _). apply map_ext_in. intros x I. rewrite (per_middle _ _ _ P (R x I) W).
  unfold to_middle. lra.
Qed.

Lemma left_axis L c c' i : left_by L c c' -> col i c' = map (periodise_coord (at_axis i (bounds c)) (at_axis i L)) (col i c).
Proof. intros G. destruct i; cbn [col at_axis]; [apply (l_x _ _ _ G)|apply (l_y _ _ _ G)|apply (l_z _ _ _ G)]. Qed.

Lemma left_middle L c c' : left_by L c c' -> bounds_current c -> (forall i, (0 < at_axis i L)%R) -> narrower c L ->
  narrower c' L /\ forall i, to_middle L c' i = 0%R.
Proof.
  intros G B P W.
  assert (K : forall i, fst (at_axis i (bounds c')) = (fst (at_axis i (bounds c)) - - to_middle L c i)%R /\
                        snd (at_axis i (bounds c')) = (snd (at_axis i (bounds c)) - - to_middle L c i)%R).
  { intros i. destruct (l_step _ _ _ G) as (_ & B' & _). destruct (B' i) as (R' & _). destruct (B i) as (R & _).
    apply (range_unique _ _ _ _ _ R'). rewrite (left_axis _ _ _ i G), (per_range _ _ _ B (P i) (W i)). now apply range_shift. }
  split; intros i; destruct (K i) as (K1 & K2).
  - rewrite K1, K2. specialize (W i). lra.
  - unfold to_middle at 1. rewrite K1, K2. unfold to_middle. lra.
Qed.

Theorem box_again_same fuel e three st name a fuel' e' three' st' name' a' d s x x' L n n' :
  box fuel e three st name a d s = Returns x -> py_in_step (s d) ->
  boxed (used x) = Returns (L, n) -> (forall i, (0 < at_axis i L)%R) -> narrower (s d) L ->
  box fuel' e' three' st' name' a' d (after x) = Returns x' -> boxed (used x') = Returns (L, n') ->
  from_data (called x') = from_data (called x).
Proof.
  intros H St LN P W H' LN'.
  destruct (box_left _ _ _ _ _ _ _ _ _ _ _ H St LN P) as (G & F & _).
  destruct (box_left _ _ _ _ _ _ _ _ _ _ _ H' (l_step _ _ _ G) LN' P) as (G' & F' & _).
  rewrite F, F'. f_equal. f_equal.
  assert (B : bounds_current (s d)) by apply St. assert (B' : bounds_current (after x d)) by apply (l_step _ _ _ G).
  destruct (left_middle _ _ _ G B P W) as (W' & M).
  assert (C : forall i, col i (after x' d) = col i (after x d)).
  { intros i. rewrite (left_axis _ _ _ i G'), (per_range _ _ _ B' (P i) (W' i)).
    rewrite <- (map_id (col i (after x d))) at 2. apply map_ext. intros y. rewrite M. lra. }
  pose proof (C AX) as C0. pose proof (C AY) as C1. pose proof (C AZ) as C2. cbn [col] in C0, C1, C2.
  unfold rows. rewrite C0, C1, C2, (l_nz _ _ _ G'), (l_ws _ _ _ G'), (l_wc _ _ _ G').
  unfold density. rewrite (l_nz _ _ _ G), any_density; [reflexivity|exact P|exact (bounds_nonempty _ B AX)].
Qed.

(** ** Boxes narrower than the catalogue, and boxes of another size *)

Definition bdemo (side : pyval) : dict := dset "boxsize" (PyParamProps.axes side side side) (rdemo "powspec").

Lemma prepared_side l : In l [1000%R; 2000%R] -> exists s q,
  built (construct 0 demo_env (bdemo (VNum l))) s /\
  prepared 0 demo_env false "sim" "powspec" (with_set s) = Returns q /\ spelled q /\
  unset q "boxsize" = false /\ ParamModel.binning (msr (cpp q)) = "lin" /\
  boxsize (smp (cpp q)) = T3 l l l /\
  volume (smp (cpp q)) = (l * l * l)%R /\
  norm_convention (msr (cpp q)) = "particle".
Proof.
  intros [<-|[<-|[]]];
  (eexists; eexists; split; [now_built|]; split;
  [rewrite prepared_set; unfold types; apply python_returns; unfold update; cbn [dupdate entries cpp bar]; run
  |split; [|repeat split]; split; try reflexivity; [eexists; split; [reflexivity|discriminate]|eexists; eexists; reflexivity]]).
Qed.

Lemma measured_side l : In l [1000%R; 2000%R] -> exists s,
  built (construct 0 demo_env (bdemo (VNum l))) s /\
  forall cs, py_in_step (cs 0) -> MainProps.total 2 (particles_in (T3 l l l) (cs 0)) <> 0%R ->
  exists x n, compute_powspec_in_gpp_box 0 demo_env (with_set s) 0 cs = Returns x /\
    boxed (used x) = Returns (T3 l l l, n).
Proof.
  intros I. destruct (prepared_side l I) as (s & q & BU & PR & SP & UB & BL & BX & VO & NC).
  exists s. split; [exact BU|]. intros cs St TO.
  pose proof (prepared_facts _ _ _ _ _ _ _ PR) as PF.
  destruct (parsed_settled _ _ _ _ PF ltac:(cbn; tauto) ltac:(cbn; tauto)) as (_ & CK & ST).
  destruct (bins_made _ _ _ _ PF (sp_bin _ SP) (sp_range _ SP) ST) as (b & BM).
  { rewrite BL. cbn; auto. } { rewrite BL. intros (Q & _). discriminate Q. }
  assert (VP : (0 < volume (smp (cpp q)))%R) by (rewrite VO; destruct I as [<-|[<-|[]]]; lra).
  pose proof (boxed_made _ _ _ _ PF (sp_grid _ SP) ST UB VP) as LN. rewrite BX in LN.
  assert (PL : forall i, (0 < at_axis i (T3 l l l))%R) by (destruct I as [<-|[<-|[]]]; intros []; cbn; lra).
  destruct (box_outcome 0 demo_env false MainModel.Powspec "powspec" (with_set s) 0 cs q b _ _ _
              ltac:(cbn; auto) PR ltac:(unfold bins_of; exact BM) LN PL St (sp_norm _ SP) TO) as (OK & _).
  destruct OK as (x & ps1 & BX1 & UX & _). { eexists. split; [reflexivity|]. rewrite NC. cbn. auto. }
  exists x. eexists. split; [exact BX1|]. rewrite UX. exact LN.
Qed.

Lemma pymod_at x y r k : (0 < y)%R -> (0 <= r < y)%R -> (x = r + y * IZR k)%R -> pymod x y = r.
Proof.
  intros P I ->. unfold pymod. rewrite (Zfloor_imp k); [ring|].
  rewrite plus_IZR. replace ((r + y * IZR k) / y)%R with (r / y + IZR k)%R by (field; lra).
  assert (0 <= r / y)%R by (apply Rmult_le_pos; [lra|left; now apply Rinv_0_lt_compat]).
  assert (r / y < 1)%R by (apply (Rmult_lt_reg_r y); [exact P|]; unfold Rdiv; rewrite Rmult_assoc, Rinv_l by lra; lra).
  lra.
Qed.

Definition wide_cat : pycat :=
  PyCat [0; 100; 1300]%R [0; 0; 0]%R [0; 0; 0]%R [1; 1; 1]%R [1; 1; 1]%R [1; 1; 1]%R
    (T3 (0, 1300) (0, 0) (0, 0))%R (T3 (1300 - 0) (0 - 0) (0 - 0))%R 3 3 3.

Lemma wide_cat_step : py_in_step wide_cat.
Proof.
  split; [repeat split|]. split; [|repeat split; cbn; lra].
  intros i. unfold range_of. destruct i; cbn; (split; [split; [auto|split; [auto|intros x K; decompose [or] K; try contradiction; subst; lra]]|reflexivity]).
Qed.

(** Measured twice in a box smaller than their extent, the particles are in
    other places the second time. *)
Theorem box_again_refuted : exists s x x' ps ps',
  built (construct 0 demo_env (bdemo (VNum 1000))) s /\
  compute_powspec_in_gpp_box 0 demo_env (with_set s) 0 (fun _ => wide_cat) = Returns x /\
  compute_powspec_in_gpp_box 0 demo_env (with_set s) 0 (after x) = Returns x' /\
  from_data (called x) = Some (ps, []) /\ from_data (called x') = Some (ps', []) /\
  map (fun p => ax0 (p_pos p)) ps = [850; 950; 150]%R /\ map (fun p => ax0 (p_pos p)) ps' = [800; 900; 100]%R.
Proof.
  destruct (measured_side 1000%R ltac:(cbn; auto)) as (s & BU & RUN). exists s.
  set (L := T3 1000%R 1000%R 1000%R) in *.
  assert (PL : forall i, (0 < at_axis i L)%R) by (intros []; cbn; lra).
  assert (A1 : any [1; 1; 1]%R = true).
  { unfold any. cbn [existsb]. replace (Reqb 1 0) with false by (symmetry; apply Reqb_false; lra). reflexivity. }
  destruct (RUN (fun _ => wide_cat) wide_cat_step) as (x & n & X & LN).
  { unfold particles_in, density. cbn [wide_cat col_nz]. rewrite A1. unfold MainProps.total, rsum. cbn. lra. }
  destruct (box_left _ _ _ _ _ _ _ _ _ _ _ X wide_cat_step LN PL) as (G & F & _).
  assert (CX : col_x (after x 0) = [850; 950; 150]%R).
  { rewrite (l_x _ _ _ G). cbn [wide_cat bounds col_x ax0 L map]. unfold periodise_coord. cbn [fst snd].
    rewrite (pymod_at _ _ 850 (-1)%Z), (pymod_at _ _ 950 (-1)%Z), (pymod_at _ _ 150 1%Z) by lra. reflexivity. }
  assert (CN : col_nz (after x 0) = [1; 1; 1]%R) by (rewrite (l_nz _ _ _ G); unfold density; cbn [wide_cat col_nz]; now rewrite A1).
  pose proof (l_step _ _ _ G) as St. assert (B : at_axis AX (bounds (after x 0)) = (150, 950)%R).
  { destruct St as (_ & B & _). destruct (B AX) as (R & _).
    assert (R' : range_of (col AX (after x 0)) 150%R 950%R).
    { cbn [col]. rewrite CX. unfold range_of. cbn. split; [auto|]. split; [auto|]. intros y K; decompose [or] K; try contradiction; subst; lra. }
    destruct (range_unique _ _ _ _ _ R R') as (E1 & E2). rewrite (surjective_pairing (at_axis AX _)), E1, E2. reflexivity. }
  destruct (RUN (after x) St) as (x' & n' & X' & LN').
  { unfold particles_in, density. rewrite CN, A1, CX, (l_ws _ _ _ G), (l_wc _ _ _ G), (l_y _ _ _ G), (l_z _ _ _ G).
    cbn [wide_cat col_ws col_wc col_y col_z map]. unfold MainProps.total, rsum. cbn. lra. }
  destruct (box_left _ _ _ _ _ _ _ _ _ _ _ X' St LN' PL) as (G' & F' & _).
  assert (CX' : col_x (after x' 0) = [800; 900; 100]%R).
  { rewrite (l_x _ _ _ G'), CX. cbn [at_axis] in B. rewrite B. cbn [ax0 L map]. unfold periodise_coord. cbn [fst snd].
    rewrite (pymod_at _ _ 800 0%Z), (pymod_at _ _ 900 0%Z), (pymod_at _ _ 100 0%Z) by lra. reflexivity. }
  exists x, x', (rows (after x 0)), (rows (after x' 0)). split; [exact BU|]. split; [exact X|]. split; [exact X'|].
  split; [exact F|]. split; [exact F'|]. pose proof (l_step _ _ _ G') as St'.
  pose proof (rows_pick _ (proj1 St) AX) as K. pose proof (rows_pick _ (proj1 St') AX) as K'.
  cbn [col] in K, K'. rewrite CX in K. rewrite CX' in K'. split; [exact K|exact K'].
Qed.

Definition bare_cat : pycat :=
  PyCat [1%R] [2%R] [3%R] [0%R] [1%R] [1%R] (T3 (1, 1) (2, 2) (3, 3))%R (T3 (1 - 1) (2 - 2) (3 - 3))%R 1 (1 * 1 + 0) (1 + 0).

Lemma bare_cat_step : py_in_step bare_cat.
Proof.
  split; [repeat split|]. split; [|repeat split; cbn; lra].
  intros i. unfold range_of. destruct i; cbn; (split; [split; [now left|split; [now left|intros x [<-|[]]; lra]]|reflexivity]).
Qed.

Lemma density_bare l : density (T3 l l l) bare_cat = [1 / (l * l * l)]%R.
Proof.
  unfold density, any. cbn [bare_cat col_nz existsb]. replace (Reqb 0 0) with true by (symmetry; now apply Reqb_spec). reflexivity.
Qed.

(** A catalogue without densities, measured in a box of side 1000 and then in
    one of side 2000: the density of the first box is kept, eight times the
    one a fresh copy of the catalogue has in the second. *)
Theorem box_density_refuted : exists s s' x x' y ps' qs,
  built (construct 0 demo_env (bdemo (VNum 1000))) s /\ built (construct 0 demo_env (bdemo (VNum 2000))) s' /\
  compute_powspec_in_gpp_box 0 demo_env (with_set s) 0 (fun _ => bare_cat) = Returns x /\
  compute_powspec_in_gpp_box 0 demo_env (with_set s') 0 (after x) = Returns x' /\
  compute_powspec_in_gpp_box 0 demo_env (with_set s') 0 (fun _ => bare_cat) = Returns y /\
  from_data (called x') = Some (ps', []) /\ from_data (called y) = Some (qs, []) /\
  map p_nz ps' = [/ 1000000000]%R /\ map p_nz qs = [/ 8000000000]%R.
Proof.
  destruct (measured_side 1000%R ltac:(cbn; auto)) as (s & BU & RUN). destruct (measured_side 2000%R ltac:(cbn; auto)) as (s' & BU' & RUN').
  exists s, s'.
  assert (PL : forall i, (0 < at_axis i (T3 1000 1000 1000)%R)%R) by (intros []; cbn; lra).
  assert (PL' : forall i, (0 < at_axis i (T3 2000 2000 2000)%R)%R) by (intros []; cbn; lra).
  assert (TO : forall l, (0 < l)%R -> MainProps.total 2 (particles_in (T3 l l l) bare_cat) <> 0%R).
  { intros l P. unfold particles_in. rewrite density_bare. unfold MainProps.total, rsum. cbn. 
    assert (0 < 1 / (l * l * l))%R by (apply Rdiv_lt_0_compat; [lra|]; repeat apply Rmult_lt_0_compat; lra). lra. }
  destruct (RUN (fun _ => bare_cat) bare_cat_step (TO 1000%R ltac:(lra))) as (x & n & X & LN).
  destruct (RUN' (fun _ => bare_cat) bare_cat_step (TO 2000%R ltac:(lra))) as (y & m & Y & LM).
  destruct (box_left _ _ _ _ _ _ _ _ _ _ _ X bare_cat_step LN PL) as (G & F & _).
  destruct (box_left _ _ _ _ _ _ _ _ _ _ _ Y bare_cat_step LM PL') as (H & E & _).
  pose proof (l_step _ _ _ G) as St.
  assert (D : density (T3 2000 2000 2000)%R (after x 0) = [1 / (1000 * 1000 * 1000)]%R).
  { unfold density. rewrite (l_nz _ _ _ G), any_density; [apply density_bare|exact PL|discriminate]. }
  destruct (RUN' (after x) St) as (x' & n' & X' & LN').
  { unfold particles_in. rewrite D, (l_x _ _ _ G), (l_y _ _ _ G), (l_z _ _ _ G), (l_ws _ _ _ G), (l_wc _ _ _ G).
    cbn [bare_cat col_x col_y col_z col_ws col_wc map]. unfold MainProps.total, rsum. cbn. lra. }
  destruct (box_left _ _ _ _ _ _ _ _ _ _ _ X' St LN' PL') as (G' & F' & _).
  exists x, x', y, (rows (after x' 0)), (rows (after y 0)). repeat (split; [assumption|]). split.
  - unfold rows. rewrite (l_nz _ _ _ G'), D, (l_x _ _ _ G'), (l_y _ _ _ G'), (l_z _ _ _ G'), (l_ws _ _ _ G'), (l_wc _ _ _ G'),
      (l_x _ _ _ G), (l_y _ _ _ G), (l_z _ _ _ G), (l_ws _ _ _ G), (l_wc _ _ _ G).
    cbn [bare_cat col_x col_y col_z col_ws col_wc map zip_columns p_nz]. f_equal. field.
  - unfold rows. rewrite (l_nz _ _ _ H), density_bare, (l_x _ _ _ H), (l_y _ _ _ H), (l_z _ _ _ H), (l_ws _ _ _ H), (l_wc _ _ _ H).
    cbn [bare_cat col_x col_y col_z col_ws col_wc map zip_columns p_nz]. f_equal. field.
Qed.

(** ** Surveys *)

Lemma same_rows c c' : (forall i, col i c' = col i c) -> same_rest c c' -> rows c' = rows c.
Proof.
  intros C (E1 & E2 & E3 & _). pose proof (C AX) as C0. pose proof (C AY) as C1. pose proof (C AZ) as C2. cbn [col] in *.
  unfold rows. now rewrite C0, C1, C2, E1, E2, E3.
Qed.

Lemma shifted_step c c' o : py_in_step c -> current c' -> same_rest c c' -> rows c' = map (shift_pos o) (rows c) -> py_in_step c'.
Proof.
  intros ((Q1 & Q2 & Q3 & Q4 & Q5) & _ & T1 & T2 & T3) (S & B & W) (E1 & E2 & E3 & E4 & E5 & E6) RW.
  split; [exact S|]. split; [exact B|]. destruct S as (U1 & U2 & U3 & U4 & U5).
  assert (LX : length (col_x c') = length (col_x c)).
  { apply (f_equal (@length _)) in RW. rewrite map_length in RW. unfold rows in RW. rewrite !zip_length in RW by congruence. exact RW. }
  split; [rewrite E4, LX; exact T1|]. rewrite E5, E6, E2, E3. auto.
Qed.

(** Measuring a survey again with the same arguments: it returns too, the
    particles stay where the first measurement put them, and everything except
    lines of sight not given is the same. *)
Theorem survey_again fuel e three st name a d r s x :
  d <> r -> py_in_step (s d) -> py_in_step (s r) ->
  survey fuel e three st name a d r s = Returns x ->
  py_in_step (after x d) /\ py_in_step (after x r) /\
  exists x', survey fuel e three st name a d r (after x) = Returns x' /\
    same_positions (after x) (after x') /\
    used x' = used x /\ factors x' = factors x /\ factor (called x') = factor (called x) /\
    bin (called x') = bin (called x) /\ par (called x') = par (called x) /\
    from_data (called x') = Some (rows (after x d), match los_data a with Some l => l | None => compute_los (after x d) end) /\
    from_rand (called x') = Some (rows (after x r), match los_rand a with Some l => l | None => compute_los (after x r) end).
Proof.
  intros N Sd Sr H. destruct (survey_particles _ _ _ _ _ _ _ _ _ _ N Sd Sr H) as ((l1 & F1) & (l2 & F2) & _).
  unfold survey in H. apply andthen_returns in H as (q & PR & H). apply andthen_returns in H as (u & CT & H).
  apply andthen_returns in H as (b & BO & H). apply andthen_returns in H as (ln & LN & H).
  apply andthen_returns in H as (al & AL & H). apply andthen_returns in H as (y & SU & H).
  destruct y as [[ld lr] s']. apply andthen_returns in H as (cd & CD & H). apply andthen_returns in H as (cr & CR & H).
  destruct (Reqb (py_wstotal (s' r)) 0) eqn:WZ; [discriminate|]. cbv zeta in H.
  apply andthen_returns in H as (part & PN & H). apply andthen_returns in H as (mesh & MN & H).
  apply andthen_returns in H as (m & MM & H). apply andthen_returns in H as (f & FO & H).
  apply andthen_returns in H as (pd & PD & H). apply andthen_returns in H as (pr & PRr & H).
  injection H as <-. cbn [called factors used after from_data from_rand bin par stat in_box contrast factor] in *.
  injection F1 as ->. injection F2 as ->.
  apply python_returns in SU.
  destruct (setup_shift _ _ _ _ _ _ _ _ _ _ _ N (in_step_current _ Sd) (in_step_current _ Sr) SU) as (o & RD & RR & Cd & Cr & SR).
  pose proof (shifted_step _ _ _ Sd Cd (SR d (or_introl eq_refl)) RD) as Sd'.
  pose proof (shifted_step _ _ _ Sr Cr (SR r (or_intror eq_refl)) RR) as Sr'.
  split; [exact Sd'|]. split; [exact Sr'|].
  destruct (alignment_idempotent _ _ _ _ _ (los_data a) (los_rand a) _ _ _ _ N (proj1 (proj2 Sd)) (proj1 (proj2 Sr)) SU) as (y & SU2 & SP).
  unfold after_run in SU2, SP. cbn [snd] in SU2, SP. destruct y as [[ld2 lr2] s2]. cbn [snd] in SP.
  destruct (setup_shift _ _ _ _ _ _ _ _ _ _ _ N Cd Cr SU2) as (o2 & _ & _ & Cd2 & Cr2 & SR2).
  assert (EL : ld2 = match los_data a with Some l => l | None => compute_los (s' d) end /\
               lr2 = match los_rand a with Some l => l | None => compute_los (s' r) end).
  { unfold survey_setup in SU2. apply bind_ok_iff in SU2 as (s3 & _ & SU2). injection SU2 as <- <- _. auto. }
  destruct EL as (EL1 & EL2).
  assert (EL : ld = match los_data a with Some l => l | None => compute_los (s d) end /\
               lr = match los_rand a with Some l => l | None => compute_los (s r) end).
  { unfold survey_setup in SU. apply bind_ok_iff in SU as (s3 & _ & SU). injection SU as <- <- _. auto. }
  destruct EL as (EL3 & EL4).
  pose proof (same_rows _ _ (SP d) (SR2 d (or_introl eq_refl))) as RD2.
  pose proof (same_rows _ _ (SP r) (SR2 r (or_intror eq_refl))) as RR2.
  assert (CD2 : converted (s2 d) = Returns cd).
  { rewrite (converted_canon _ (proj1 Cd2) (bounds_nonempty _ (proj1 (proj2 Cd2)))), RD2, <- CD.
    symmetry. apply converted_canon; [apply Cd|apply bounds_nonempty, Cd]. }
  assert (CR2 : converted (s2 r) = Returns cr).
  { rewrite (converted_canon _ (proj1 Cr2) (bounds_nonempty _ (proj1 (proj2 Cr2)))), RR2, <- CR.
    symmetry. apply converted_canon; [apply Cr|apply bounds_nonempty, Cr]. }
  destruct (SR2 d (or_introl eq_refl)) as (_ & _ & _ & _ & _ & WD). destruct (SR2 r (or_intror eq_refl)) as (_ & _ & _ & _ & _ & WR).
  assert (P1 : with_los (fst m 0%nat) ld2 = Returns (rows (s' d), ld2)).
  { unfold with_los in PD |- *. cbv zeta in PD |- *. destruct (length ld <? _)%nat eqn:L1 in PD; [discriminate|]. injection PD as EP _. rewrite EP in *.
    replace (length ld2 <? _)%nat with false; [reflexivity|]. symmetry. apply Nat.ltb_ge. apply Nat.ltb_ge in L1.
    rewrite EL1. rewrite EL3 in L1. destruct (los_data a); [exact L1|]. rewrite los_length by apply Cd. lia. }
  assert (P2 : with_los (fst m 1%nat) lr2 = Returns (rows (s' r), lr2)).
  { unfold with_los in PRr |- *. cbv zeta in PRr |- *. destruct (length lr <? _)%nat eqn:L1 in PRr; [discriminate|]. injection PRr as EP _. rewrite EP in *.
    replace (length lr2 <? _)%nat with false; [reflexivity|]. symmetry. apply Nat.ltb_ge. apply Nat.ltb_ge in L1.
    rewrite EL2. rewrite EL4 in L1. destruct (los_rand a); [exact L1|]. rewrite los_length by apply Cr. lia. }
  eexists. split.
  - unfold survey. rewrite PR. cbn [andthen]. rewrite CT. cbn [andthen]. rewrite BO. cbn [andthen]. rewrite LN. cbn [andthen].
    rewrite AL. cbn [andthen]. rewrite SU2. cbn [python andthen]. rewrite CD2. cbn [andthen]. rewrite CR2. cbn [andthen].
    rewrite WD, WR, WZ. cbv zeta. rewrite PN. cbn [andthen]. rewrite MN. cbn [andthen]. rewrite MM. cbn [andthen].
    rewrite FO. cbn [andthen]. rewrite P1. cbn [andthen]. rewrite P2. cbn [andthen]. reflexivity.
  - cbn [called factors used after from_data from_rand bin par stat in_box contrast factor].
    rewrite EL1, EL2. repeat (split; [first [exact SP|reflexivity]|]). reflexivity.
Qed.

(** With both lists of lines of sight given, every repetition is the same
    request; otherwise it is from the second measurement on. *)
Corollary survey_again_given fuel e three st name a d r s x ld lr :
  d <> r -> py_in_step (s d) -> py_in_step (s r) ->
  los_data a = Some ld -> los_rand a = Some lr ->
  survey fuel e three st name a d r s = Returns x ->
  exists x', survey fuel e three st name a d r (after x) = Returns x' /\ called x' = called x.
Proof.
  intros N Sd Sr E1 E2 H.
  destruct (survey_again _ _ _ _ _ _ _ _ _ _ N Sd Sr H) as (Sd' & Sr' & x' & H' & _ & _ & _ & FF & BB & PP & D & R0).
  exists x'. split; [exact H'|].
  destruct (survey_given _ _ _ _ _ _ _ _ _ _ N Sd Sr H) as (G1 & G2 & _ & _ & _ & G3 & G4 & _).
  destruct (survey_given _ _ _ _ _ _ _ _ _ _ N Sd' Sr' H') as (_ & _ & _ & _ & _ & K3 & K4 & _).
  destruct (survey_parts _ _ _ _ _ _ _ _ _ _ N Sd Sr H) as (b & _ & _ & _ & _ & _ & C1 & _).
  destruct (survey_parts _ _ _ _ _ _ _ _ _ _ N Sd' Sr' H') as (b' & _ & _ & _ & _ & _ & C2 & _).
  rewrite E1 in D. rewrite E2 in R0. destruct (G1 _ E1) as (G1' & _). destruct (G2 _ E2) as (G2' & _).
  destruct (called x) as [f1 f2 f3 f4 f5 f6 f7 f8], (called x') as [g1 g2 g3 g4 g5 g6 g7 g8].
  cbn [stat from_data from_rand in_box par bin contrast factor] in *. congruence.
Qed.

Corollary survey_settles fuel e three st name a d r s x :
  d <> r -> py_in_step (s d) -> py_in_step (s r) ->
  survey fuel e three st name a d r s = Returns x ->
  exists x' x'', survey fuel e three st name a d r (after x) = Returns x' /\
    survey fuel e three st name a d r (after x') = Returns x'' /\ called x'' = called x'.
Proof.
  intros N Sd Sr H.
  destruct (survey_again _ _ _ _ _ _ _ _ _ _ N Sd Sr H) as (Sd' & Sr' & x' & H' & SP & _ & _ & _ & _ & _ & D & R0).
  destruct (survey_again _ _ _ _ _ _ _ _ _ _ N Sd' Sr' H') as (Sd'' & Sr'' & x'' & H'' & _ & _ & _ & FF & BB & PP & D' & R0').
  exists x', x''. split; [exact H'|]. split; [exact H''|].
  destruct (survey_parts _ _ _ _ _ _ _ _ _ _ N Sd' Sr' H') as (b & _ & _ & _ & G3 & G4 & C1 & _ & _ & l1 & l2 & P1 & P2 & _).
  destruct (survey_parts _ _ _ _ _ _ _ _ _ _ N Sd'' Sr'' H'') as (b' & _ & _ & _ & K3 & K4 & C2 & _).
  rewrite (same_cols_los _ _ (SP d)) in D'. rewrite (same_cols_los _ _ (SP r)) in R0'.
  rewrite D in P1. injection P1 as P1 _. rewrite R0 in P2. injection P2 as P2 _. rewrite <- P1 in D'. rewrite <- P2 in R0'.
  destruct (called x') as [f1 f2 f3 f4 f5 f6 f7 f8], (called x'') as [g1 g2 g3 g4 g5 g6 g7 g8].
  cbn [stat from_data from_rand in_box par bin contrast factor] in *. congruence.
Qed.

(** Without them the first two differ: one particle in each catalogue, centred
    in the box, is then seen along the diagonal. *)
Theorem survey_again_refuted : exists s cs x x' l l',
  built (construct 0 demo_env (cdemo "centre")) s /\ py_in_step (cs 0) /\ py_in_step (cs 1) /\
  compute_bispec 0 demo_env (with_set s) 0 1 cs = Returns x /\
  compute_bispec 0 demo_env (with_set s) 0 1 (after x) = Returns x' /\
  from_data (called x) = Some (rows (after x 0), l) /\ from_data (called x') = Some (rows (after x 0), l') /\ l <> l'.
Proof.
  destruct prepared_letters as (s0 & s' & u & u' & BU & BU' & CP & PR & PR' & CQ & SP' & AL & AC & BN & RG & GR & NM & UB & UB' & BL & BX & VO & DF & RF & NC).
  assert (VO' : volume (smp (cpp u)) = 1000000000%R) by (rewrite VO; lra). clear VO.
  destruct (one_loaded (standalone (lib demo_env)) (cpp u) "a.dat" ltac:(cbn; auto) VO') as (c0 & L0 & S0 & N0 & W0 & T0 & CX & CY & CZ & CN & CS & CC).
  destruct (one_loaded (standalone (lib demo_env)) (cpp u) "b.dat" ltac:(cbn; auto) VO') as (c1 & L1 & S1 & N1 & W1 & T1 & DX & DY & DZ & _).
  set (cs := fun a : nat => match a with 0 => c0 | _ => c1 end).
  assert (AL' : alignment_of u' = Returns PyCentre).
  { unfold alignment_of. rewrite (entry_is _ _ _ (sp_align _ SP')). rewrite <- CQ, AC. reflexivity. }
  destruct (survey_own 0 demo_env true MainModel.Bispec "bispec" (with_set s') 0 1 cs u' PyCentre) as (x & SX & UX & ld & lr & SU);
    try reflexivity; try assumption.
  { cbn; auto. } { discriminate. } { exact (sp_bin _ SP'). } { exact (sp_range _ SP'). } { exact (sp_grid _ SP'). }
  { eexists. split; [exact (sp_norm _ SP')|]. rewrite <- CQ, NC. cbn; auto. }
  { rewrite <- CQ, BL. cbn; auto. } { rewrite <- CQ, BL. intros (Q & _). discriminate Q. }
  { rewrite <- CQ, VO'. lra. } { cbn [cs]. rewrite W1. lra. } { cbn [cs]. rewrite T1. apply Rgt_not_eq. lra. } { discriminate. }
  assert (NQ : 0 <> 1) by discriminate.
  destruct (survey_again _ _ _ _ _ _ _ _ _ _ NQ (S0 : py_in_step (cs 0)) (S1 : py_in_step (cs 1)) SX) as (Sd' & Sr' & x' & H' & _ & _ & _ & _ & _ & _ & D & _).
  destruct (survey_given _ _ _ _ _ _ _ _ _ _ NQ (S0 : py_in_step (cs 0)) (S1 : py_in_step (cs 1)) SX) as (_ & _ & G & _).
  specialize (G eq_refl). cbn [with_set los_data] in D.
  assert (CO : col_x (after x 0) = [500%R] /\ col_y (after x 0) = [500%R] /\ col_z (after x 0) = [500%R]).
  { unfold survey_setup, py_centre in SU. cbn [ref_or_self] in SU. rewrite <- CQ, BX in SU. cbn [cs] in SU.
    rewrite (one_bounds c1 S1 DX DY DZ) in SU. cbn [tmap2 fst snd ax0 ax1 ax2] in SU.
    match type of SU with context [offset_both 0 (Some 1) ?o cs] => set (of := o) in *;
      destruct (offset_both_run 0 1 of cs ltac:(discriminate) (in_step_nonempty _ S0) (in_step_nonempty _ S1)) as (s1 & E1 & (Md & _) & _) end.
    rewrite E1 in SU. cbn [bind] in SU. injection SU as _ _ <-.
    pose proof (Md AX) as M0. pose proof (Md AY) as M1. pose proof (Md AZ) as M2. cbn [col cs] in M0, M1, M2.
    rewrite CX in M0. rewrite CY in M1. rewrite CZ in M2. subst of. unfold tmap2 in M0, M1, M2. cbn [map at_axis ax0 ax1 ax2 fst snd] in M0, M1, M2.
    rewrite M0, M1, M2. repeat split; f_equal; lra. }
  destruct CO as (O1 & O2 & O3).
  exists s', cs, x, x', (compute_los c0), (compute_los (after x 0)).
  repeat (split; [first [assumption|exact S0|exact S1]|]).
  unfold compute_los. rewrite CX, CY, CZ, O1, O2, O3. cbn [zip3 map]. unfold los_of.
  set (n := if Reqb _ 0 then 1%R else _). set (m := if Reqb _ 0 then 1%R else _).
  assert (P : n <> 0%R). { unfold n. destruct (Reqb _ 0) eqn:Z; [lra|]. now apply Reqb_false in Z. }
  clearbody n m. intros Q. injection Q as Q1 Q2 _. assert (K : (1 / n = 2 / n)%R) by congruence.
  apply (f_equal (fun y => y * n)%R) in K. unfold Rdiv in K. rewrite !Rmult_assoc, Rinv_l in K by exact P. lra.
Qed.

(** ** Windows *)

Lemma window_left fuel e three a r s x L :
  window fuel e three a r s = Returns x -> py_in_step (s r) ->
  box_of (used x) = Returns L -> (forall i, (0 < at_axis i L)%R) -> narrower (s r) L ->
  (forall i, col i (after x r) = map (fun y => y - - to_middle L (s r) i)%R (col i (s r))) /\
  same_rest (s r) (after x r) /\ py_in_step (after x r) /\
  from_rand (called x) = Some (rows (after x r), match los_rand a with Some l => l | None => compute_los (s r) end).
Proof.
  intros H St LX P W. unfold window in H. cbv zeta in H. apply andthen_returns in H as (q & PR & H).
  apply andthen_returns in H as (b & BO & H). destruct (unset q "boxsize"); [discriminate|].
  apply andthen_returns in H as (l & LN & H). destruct (negb _); [discriminate|].
  apply andthen_returns in H as (s1 & S1 & H). apply andthen_returns in H as (s2 & S2 & H).
  apply andthen_returns in H as (cr & CR & H).
  apply andthen_returns in H as (part & PN & H). apply andthen_returns in H as (mesh & MN & H).
  apply andthen_returns in H as (f & FO & H). apply andthen_returns in H as (pr & PD & H). injection H as <-.
  cbn [called used after from_rand] in *. rewrite LX in LN. injection LN as <-. apply python_returns in S1, S2.
  pose proof (in_step_current _ St) as Cr.
  unfold py_centre in S1. cbn [ref_or_self] in S1.
  set (o := tmap2 (fun b l => ((fst b + snd b) / 2 - l / 2)%R) (bounds (s r)) L) in *.
  assert (EO : forall i, at_axis i o = (- to_middle L (s r) i)%R).
  { intros i. unfold o, to_middle, tmap2. destruct i; cbn [at_axis ax0 ax1 ax2]; lra. }
  destruct (offset_self_run r o s (bounds_nonempty _ (proj1 (proj2 Cr)))) as (s1' & E1 & M & _). rewrite S1 in E1. injection E1 as <-.
  destruct (moved_current' o _ _ Cr M) as (C' & R1). destruct M as (MC & MS & MB).
  pose proof (shifted_step _ _ _ St C' MS R1) as St1.
  assert (K : forall i, fst (at_axis i (bounds (s1 r))) = (fst (at_axis i (bounds (s r))) - - to_middle L (s r) i)%R /\
                        snd (at_axis i (bounds (s1 r))) = (snd (at_axis i (bounds (s r))) - - to_middle L (s r) i)%R).
  { intros i. destruct (MB i) as (R' & _). destruct (proj1 (proj2 Cr) i) as (R & _).
    apply (range_unique _ _ _ _ _ R'). rewrite (MC i). unfold on_axes. rewrite EO. now apply range_shift. }
  assert (W1 : narrower (s1 r) L) by (intros i; destruct (K i) as (-> & ->); specialize (W i); lra).
  assert (M1 : forall i, to_middle L (s1 r) i = 0%R) by (intros i; unfold to_middle at 1; destruct (K i) as (-> & ->); unfold to_middle; lra).
  destruct (periodise_run L r s1 MB) as (c & E2 & CX & CY & CZ & SC & B').
  rewrite S2 in E2. injection E2 as ->. rewrite pyupd_same in *.
  assert (CC : forall i, col i c = col i (s1 r)).
  { intros i. transitivity (map (fun y => y - - to_middle L (s1 r) i)%R (col i (s1 r))).
    - rewrite <- (per_range _ _ _ MB (P i) (W1 i)). destruct i; cbn [col at_axis]; assumption.
    - rewrite <- (map_id (col i (s1 r))) at 2. apply map_ext. intros y. rewrite M1. lra. }
  assert (SS : same_rest (s r) c).
  { destruct SC as (A1 & A2 & A3 & A4 & A5 & A6), MS as (D1 & D2 & D3 & D4 & D5 & D6). repeat split; congruence. }
  assert (Sc : py_in_step c).
  { pose proof (CC AX) as C0. pose proof (CC AY) as C1. pose proof (CC AZ) as C2. cbn [col] in C0, C1, C2.
    destruct St1 as ((Q1 & Q2 & Q3 & Q4 & Q5) & _ & T1 & T2 & T3). destruct SC as (A1 & A2 & A3 & A4 & A5 & A6).
    split; [unfold square; rewrite C0, C1, C2, A1, A2, A3; auto|]. split; [exact B'|].
    unfold totals_current. rewrite C0, A2, A3, A4, A5, A6. auto. }
  split; [intros i; rewrite CC, MC; unfold on_axes; now rewrite EO|]. split; [exact SS|]. split; [exact Sc|].
  destruct Sc as (SQ & BC & _). rewrite (converted_canon _ SQ (bounds_nonempty _ BC)) in CR. injection CR as <-.
  unfold with_los in PD. cbv zeta in PD. destruct (_ <? _)%nat in PD; [discriminate|]. injection PD as <-.
  rewrite (MainProps.particles_has _ _ (canon_has _ (rows_ne _ SQ (bounds_nonempty _ BC)))). reflexivity.
Qed.

(** A window measured again in the same box, wider than the catalogue: the same
    particles; the same lines of sight if they are given, otherwise those of the
    positions the first measurement left. *)
Theorem window_again fuel e three a fuel' e' three' a' r s x x' L :
  window fuel e three a r s = Returns x -> py_in_step (s r) ->
  box_of (used x) = Returns L -> (forall i, (0 < at_axis i L)%R) -> narrower (s r) L ->
  window fuel' e' three' a' r (after x) = Returns x' -> box_of (used x') = Returns L ->
  from_rand (called x') = Some (rows (after x r), match los_rand a' with Some l => l | None => compute_los (after x r) end) /\
  from_rand (called x) = Some (rows (after x r), match los_rand a with Some l => l | None => compute_los (s r) end).
Proof.
  intros H St LN P W H' LN'.
  destruct (window_left _ _ _ _ _ _ _ _ H St LN P W) as (C & S & St' & F).
  assert (K : forall i, fst (at_axis i (bounds (after x r))) = (fst (at_axis i (bounds (s r))) - - to_middle L (s r) i)%R /\
                        snd (at_axis i (bounds (after x r))) = (snd (at_axis i (bounds (s r))) - - to_middle L (s r) i)%R).
  { intros i. destruct (proj1 (proj2 St') i) as (R' & _). destruct (proj1 (proj2 St) i) as (R & _).
    apply (range_unique _ _ _ _ _ R'). rewrite C. now apply range_shift. }
  assert (W1 : narrower (after x r) L) by (intros i; destruct (K i) as (-> & ->); specialize (W i); lra).
  destruct (window_left _ _ _ _ _ _ _ _ H' St' LN' P W1) as (C' & S' & _ & F').
  split; [|exact F]. rewrite F'. f_equal. f_equal. apply same_rows; [|exact S'].
  intros i. rewrite C'. rewrite <- (map_id (col i (after x r))) at 2. apply map_ext. intros y.
  unfold to_middle at 1. destruct (K i) as (-> & ->). unfold to_middle. lra.
Qed.

Print Assumptions box_density_stays.
Print Assumptions box_again.
Print Assumptions box_again_same.
Print Assumptions box_again_refuted.
Print Assumptions box_density_refuted.
Print Assumptions survey_again.
Print Assumptions survey_again_given.
Print Assumptions survey_settles.
Print Assumptions survey_again_refuted.
Print Assumptions window_again.
