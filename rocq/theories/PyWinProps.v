(** Window functions measured from Python and by the program. *)
From Coq Require Import String Ascii List Arith ZArith Reals Bool Lia Lra FunctionalExtensionality.
From Flocq Require Import Core.Raux.
From Verif Require Import Base StrModel StrProps Dec ArrayModel ArrayProofs
  MeshModel CatModel CatProps PyCatModel PyCatProps ParamModel ParamProps ParamValProps ParamFixProps.
From Verif Require Import PyParamModel PyParamProofs PyParamProps PyAmalgModel PyAmalgProps.
From Verif Require Import PyRunModel PyRunProps PyBoxProps.
From Verif Require ParamFileModel MainModel MainProps NormProps BinningModel BinningProps NormModel LoadModel LoadProps FieldModel FieldProps PowProps BispecModel TranslateProps.
Import ListNotations.
Local Open Scope R_scope.
Local Open Scope nat_scope.
Local Open Scope string_scope.

(* ------------------------------------------------------------------ *)
(** * C106: a window function measured from Python and by the program *)

(** Coordinates of the centred catalogue that lie a whole number of boxes
    below the origin. *)
Definition stray (L : triple R) (c : pycat) (p : pdatum) (i : axis) : Prop :=
  exists k : Z, (1 <= k)%Z /\
    (at_axis i (p_pos p) + (at_axis i L / 2 - (fst (at_axis i (bounds c)) + snd (at_axis i (bounds c))) / 2)
     = - IZR k * at_axis i L)%R.

Lemma pymod_whole x L : exists k : Z, (pymod x L = x + IZR k * L)%R.
Proof. unfold pymod. exists (- Zfloor (x / L))%Z. rewrite opp_IZR. ring. Qed.

Lemma wrap_pymod L x : (0 < L)%R -> (forall k : Z, (1 <= k)%Z -> x <> (- IZR k * L)%R) -> wrap_coord L x = pymod x L.
Proof.
  intros P N. destruct (wrap_coord_range L x P) as ((A & B) & (k & E) & _ & W).
  destruct (pymod_range x L P) as (C & D). destruct (pymod_whole x L) as (m & F).
  assert (B' : (wrap_coord L x < L)%R).
  { destruct (Rle_lt_or_eq_dec _ _ B) as [Q|Q]; [exact Q|]. apply W in Q as (j & J & Q). now destruct (N j J). }
  assert (G : (wrap_coord L x - pymod x L = IZR (k - m) * L)%R) by (rewrite E, F, minus_IZR; ring).
  assert (H : (-1 < k - m < 1)%Z).
  { split; apply lt_IZR; apply (Rmult_lt_reg_r L); try exact P; lra. }
  replace (k - m)%Z with 0%Z in G by lia. lra.
Qed.

Definition wrapper (L : triple R) (p : pdatum) : pdatum :=
  PDatum (tmap2 wrap_coord L (p_pos p)) (p_nz p) (p_ws p) (p_wc p) (p_w p).

(** Where the middle of the catalogue is the middle of the box, periodising
    moves by whole boxes only. *)
Lemma per_wrapper L b p : (forall i, (0 < at_axis i L)%R) ->
  (forall i, (fst (at_axis i b) + snd (at_axis i b)) / 2 = at_axis i L / 2)%R ->
  (forall i k, (1 <= k)%Z -> at_axis i (p_pos p) <> (- IZR k * at_axis i L)%R) ->
  per L b p = wrapper L p.
Proof.
  intros P M S. unfold per, wrapper, tmap2. pose proof (M AX) as MX. pose proof (M AY) as MY. pose proof (M AZ) as MZ.
  pose proof (S AX) as SX. pose proof (S AY) as SY. pose proof (S AZ) as SZ. pose proof (P AX) as PX. pose proof (P AY) as PY. pose proof (P AZ) as PZ.
  cbn [at_axis] in *. rewrite !wrap_pymod by assumption. unfold periodise_coord. repeat f_equal; lra.
Qed.

Lemma window_positions L r s s1 s2 : (forall i, (0 < at_axis i L)%R) -> py_in_step (s r) ->
  (forall p i, In p (rows (s r)) -> ~ stray L (s r) p i) ->
  py_centre r L None s = Ok s1 -> py_periodise r L s1 = Ok s2 ->
  let o := tmap2 (fun m l => (m - l / 2)%R) (tmap2 (fun lo hi => ((lo + hi) / 2)%R) (pos_min (canon (rows (s r)))) (pos_max (canon (rows (s r))))) L in
  rows (s1 r) = map (shift_pos o) (rows (s r)) /\ rows (s2 r) = map (wrapper L) (rows (s1 r)) /\ square (s2 r) /\ nonempty (s2 r).
Proof.
  intros P St NS C1 C2 o. pose proof (in_step_current _ St) as Cr.
  unfold py_centre in C1. cbn [ref_or_self] in C1.
  set (o' := tmap2 (fun b l => ((fst b + snd b) / 2 - l / 2)%R) (bounds (s r)) L) in *.
  pose proof (bounds_canon (s r) (proj1 Cr) (proj1 (proj2 Cr))) as BC.
  assert (EO : o = o').
  { unfold o, o', tmap2. pose proof (BC AX) as (X1 & X2). pose proof (BC AY) as (Y1 & Y2). pose proof (BC AZ) as (Z1 & Z2).
    cbn [CatProps.at_axis] in X1, X2, Y1, Y2, Z1, Z2. cbn [ax0 ax1 ax2]. now rewrite X1, X2, Y1, Y2, Z1, Z2. }
  rewrite EO. clear EO o.
  destruct (offset_self_run r o' s (bounds_nonempty _ (proj1 (proj2 Cr)))) as (s1' & E1 & M & _). rewrite C1 in E1. injection E1 as <-.
  destruct (moved_current' o' _ _ Cr M) as (C' & R1).
  destruct (py_centre_self s r L (proj1 (proj2 Cr))) as (s1' & d & E1 & _ & _ & MID).
  unfold py_centre in E1. cbn [ref_or_self] in E1. fold o' in E1. rewrite C1 in E1. injection E1 as <-.
  split; [exact R1|].
  destruct (periodise_run L r s1 (proj1 (proj2 C'))) as (c & E2 & CX & CY & CZ & (T1 & T2 & T3' & _) & B').
  rewrite C2 in E2. injection E2 as ->. rewrite pyupd_same.
  destruct C' as ((Q1 & Q2 & Q3 & Q4 & Q5) & BB & _).
  split; [|split; [|exact (bounds_nonempty _ B')]].
  - transitivity (map (per L (bounds (s1 r))) (rows (s1 r))).
    { unfold rows. rewrite CX, CY, CZ, T1, T2, T3'. apply zip_per. }
    apply map_ext_in. intros p I. apply per_wrapper; [exact P|exact MID|].
    intros i k K E. rewrite R1 in I. apply in_map_iff in I as (p0 & <- & I). apply (NS p0 i I). exists k. split; [exact K|].
    rewrite <- E. unfold o', shift_pos, tsub, tmap2. destruct i; cbn [at_axis p_pos ax0 ax1 ax2]; lra.
  - unfold square. rewrite CX, CY, CZ, T1, T2, T3', !map_length. auto.
Qed.

(** The program's steps on the same particles. *)
Lemma window_aligned c0 ps L : ps <> [] -> (forall i, (0 < at_axis i L)%R) ->
  let o := tmap2 (fun m l => (m - l / 2)%R) (tmap2 (fun lo hi => ((lo + hi) / 2)%R) (pos_min (canon ps)) (pos_max (canon ps))) L in
  (centre_in_box1 1 L ;> offset_coords_for_periodicity 1 L) (both c0 (canon ps)) =
    (both c0 (canon (map (wrapper L) (map (shift_pos o) ps))), Ok tt).
Proof.
  intros N P o. set (st := both c0 (canon ps)).
  assert (H : CatProps.has (st 1) ps) by now apply canon_has.
  destruct (align_single st 1 ps (fun c => tmap2 (fun m l => (m - l / 2)%R) (tmap2 (fun lo hi => ((lo + hi) / 2)%R) (pos_min c) (pos_max c)) L) H)
    as (s1 & E1 & F1 & O1).
  change (st 1) with (canon ps) in F1. rewrite canon_refresh in F1 by exact N. fold o in F1. rewrite shifted_canon in F1 by exact N.
  assert (N1 : map (shift_pos o) ps <> []) by now apply map_nonempty.
  assert (H1 : CatProps.has (s1 1) (map (shift_pos o) ps)) by (rewrite F1; now apply canon_has).
  destruct (periodicity_run s1 1 L _ H1) as (s2 & E2 & F2).
  assert (EC : centre_in_box1 1 L st = (s1, Ok tt)) by exact E1.
  unfold CatModel.andthen. rewrite EC, E2. f_equal. apply functional_extensionality. intros b. rewrite F2. cbn [Nat.eqb].
  destruct b as [|[|b]]; cbn [Nat.eqb both].
  - rewrite O1 by discriminate. reflexivity.
  - rewrite F1. fold (wrapper L). change (fun p => PDatum (tmap2 wrap_coord L (p_pos p)) (p_nz p) (p_ws p) (p_wc p) (p_w p)) with (wrapper L).
    set (q := map (shift_pos o) ps) in *. assert (N2 : map (wrapper L) q <> []) by now apply map_nonempty.
    apply canon_unique.
    + split; [|exact N2]. now apply refresh_pdata.
    + destruct (refresh_weights (canon q) (map (wrapper L) q)) as [-> _]. destruct (canon_weights q) as [-> _]. f_equal. rewrite map_map. now apply map_ext.
    + destruct (refresh_weights (canon q) (map (wrapper L) q)) as [_ ->]. destruct (canon_weights q) as [_ ->]. f_equal. rewrite map_map. now apply map_ext.
    + now apply refresh_current.
  - rewrite O1 by discriminate. reflexivity.
Qed.

(** The window is that of the program, where both centre the catalogue and
    none of its coordinates is stray. *)
Theorem window_as_program fuel e w p three a r s x cs :
  orders a = None -> los_rand a = None -> PyRunModel.binning a = None ->
  py_in_step (s r) -> window fuel e three a r s = Returns x ->
  spelled (used x) -> In (ParamModel.binning (msr (cpp (used x)))) ["lin"; "log"] ->
  alignment (smp (cpp (used x))) = "centre" ->
  ParamFileModel.core p = cpp (used x) -> MainModel.bld w = standalone (lib e) ->
  let L := boxsize (smp (cpp (used x))) in
  (forall i, (0 < at_axis i L)%R) ->
  (forall p i, In p (rows (s r)) -> ~ stray L (s r) p i) ->
  MainModel.catalogues w p = MainModel.Go cs -> MainModel.particles (cs 1) = rows (s r) ->
  exists g q path, MainModel.session w p = MainModel.Go g /\
    MainModel.measured g = Some (q, path) /\ same_request (called x) q /\
    MainModel.n_part (MainModel.printed_norms g) = n_part (factors x) /\
    MainModel.n_mesh (MainModel.printed_norms g) = n_mesh (factors x).
Proof.
  intros OA LR BI St H SP BL AL CO BW L0 PL NS CA P1.
  unfold window in H. rewrite OA, LR in H. cbv zeta in H.
  set (name := if three then "3pcf-win" else "2pcf-win") in *.
  apply andthen_returns in H as (q & PR & H). apply andthen_returns in H as (b & BO & H).
  destruct (unset q "boxsize") eqn:UB; [discriminate|]. apply andthen_returns in H as (l & LB & H).
  destruct (PyRunModel.has_volume (cpp q)) eqn:HV; [cbn [negb] in H|discriminate].
  apply andthen_returns in H as (s1 & C1 & H). apply andthen_returns in H as (s2 & C2 & H).
  apply andthen_returns in H as (cr & CR & H).
  apply andthen_returns in H as (part & PN & H). apply andthen_returns in H as (mesh & MN & H).
  apply andthen_returns in H as (f & FO & H). apply andthen_returns in H as (pr & LS & H).
  injection H as <-. cbn [called factors used] in *.
  pose proof (prepared_facts _ _ _ _ _ _ _ PR) as PF.
  assert (LO : lower name = name) by (unfold name; now destruct three).
  assert (KN : In name (map fst statistics)) by (unfold name; destruct three; cbn; tauto).
  destruct (parsed_settled _ _ _ _ PF ltac:(cbn; tauto) ltac:(now rewrite LO)) as (KK & CK & ST).
  rewrite (pr_box _ _ _ _ PF UB) in LB. injection LB as <-. fold L0 in C1, C2.
  apply python_returns in C1, C2.
  destruct (window_positions L0 r s s1 s2 PL St NS C1 C2) as (R1 & R2 & SQ & NE).
  rewrite (converted_canon _ SQ NE) in CR. injection CR as <-.
  assert (N0 : rows (s r) <> []) by (apply rows_ne; [apply St|apply bounds_nonempty, St]).
  assert (KD : MainModel.kind p = "random").
  { unfold MainModel.kind. rewrite CO, (proj2 (pr_ct _ _ _ _ PF)). reflexivity. }
  assert (STP : statistic_type (msr (cpp q)) = name) by (rewrite (proj2 (pr_st _ _ _ _ PF)); exact LO).
  assert (CS : cs = both catalogue_new (canon (rows (s r)))).
  { unfold MainModel.catalogues, MainModel.load_if in CA. rewrite KD in CA.
    change (MainModel.flag_data "random") with false in CA. change (MainModel.flag_rand "random") with true in CA. cbv iota in CA.
    cbn [MainModel.andthen] in CA.
    destruct (MainModel.load _ _ _) as [|c1] eqn:E1 in CA; cbn [MainModel.andthen] in CA; [discriminate|].
    injection CA as <-. apply load_canon in E1. rewrite P1 in E1. now rewrite E1. }
  assert (BN : MainModel.bins p = MainModel.Go (Some (vectors_of (BinningModel.p_cpp b)))).
  { unfold bins_of in BO. rewrite BI in BO. exact (bins_same _ _ _ _ _ _ PF SP ST CO BL BO). }
  assert (SZ : MainModel.sized w p cs = MainModel.Go p).
  { unfold MainModel.sized. cbv zeta. rewrite KD, CO. change (MainModel.flag_data "random") with false; change (MainModel.flag_rand "random") with true; cbn [orb]; cbv iota.
    unfold PyRunModel.has_volume in HV. apply andb_true_iff in HV as [HV _]. apply Rltb_spec in HV.
    destruct (Reqb (volume (smp (cpp q))) 0) eqn:Z; [|reflexivity]. apply Reqb_spec in Z. rewrite Z in HV. lra. }
  assert (HV' : MainModel.has_volume p = true).
  { unfold MainModel.has_volume. cbv zeta. rewrite CO. unfold PyRunModel.has_volume in HV. now rewrite HV. }
  assert (AA : MainModel.aligned "random" (smp (cpp q)) (both catalogue_new (canon (rows (s r)))) = (both catalogue_new (canon (rows (s2 r))), Ok tt)).
  { unfold MainModel.aligned. cbv zeta. cbn [String.eqb Ascii.eqb Bool.eqb]. rewrite AL. cbn [String.eqb Ascii.eqb Bool.eqb].
    fold L0. rewrite R2, R1. exact (window_aligned catalogue_new (rows (s r)) L0 N0 PL). }
  assert (NP : npoint (msr (cpp q)) = if three then "3pt" else "2pt").
  { pose proof (MainProps.s_stat _ ST) as SS. rewrite STP in SS. unfold name in SS. cbn [In statistics] in SS. clear - SS.
    destruct three; decompose [or] SS; try contradiction; try discriminate;
      match goal with K : (_, _) = (_, _) |- _ => injection K as <- _ end; reflexivity. }
  set (nm := {| MainModel.n_part := part; MainModel.n_mesh := mesh; MainModel.n_meshes := Some 0%R |}).
  assert (NO : MainModel.norms_of w p 1 (both catalogue_new (canon (rows (s2 r)))) =
    MainModel.Go (both catalogue_new (canon (rows (s2 r))), nm)).
  { unfold MainModel.norms_of. cbv zeta. rewrite KD, CO. change (MainModel.flag_rand "random") with true. cbv iota.
    unfold part_norm in PN. apply wrapped_number in PN. unfold mesh_norm in MN. apply bare_number in MN. cbn [both].
    rewrite NP. destruct three; cbn [String.eqb Ascii.eqb Bool.eqb]; rewrite PN; cbn [MainModel.andthen]; rewrite MN; reflexivity. }
  assert (FA : MainModel.factor_of (msr (cpp q)) nm = f).
  { unfold factor_of in FO. rewrite (entry_is _ _ _ (sp_norm _ SP)) in FO. cbn [andthen is_text] in FO.
    unfold MainModel.factor_of, nm. cbn [MainModel.n_part MainModel.n_mesh MainModel.n_meshes n_part n_mesh n_meshes] in *.
    pose proof (MainProps.s_norm _ ST) as SN. cbn [In] in SN. rewrite NP.
    replace ((if three then "3pt" else "2pt") =? "none") with false by now destruct three.
    clear - SN FO.
    decompose [or] SN; try contradiction; match goal with K : _ = norm_convention _ |- _ => rewrite <- K in * end;
      cbn [String.eqb Ascii.eqb Bool.eqb andb] in *; try (injection FO as <-; reflexivity). discriminate FO. }
  assert (SV : exists path, MainModel.save_path p = Some path).
  { unfold MainModel.save_path, MainModel.base_name. cbv zeta. rewrite CO, STP.
    pose proof (MainProps.s_form _ ST) as SF. unfold name. clear - SF.
    destruct three; cbn [String.eqb Ascii.eqb Bool.eqb]; try (eexists; reflexivity);
      unfold MainModel.form_name; cbn [In] in SF; decompose [or] SF; try contradiction;
      match goal with K : _ = ParamModel.form _ |- _ => rewrite <- K end; eexists; reflexivity. }
  destruct SV as (path & SV).
  assert (ES : MainModel.statistic_of name = Some (if three then MainModel.ThreePcfWindow false else MainModel.CorrfuncWindow))
    by (unfold name; now destruct three).
  unfold MainModel.session. rewrite CA. cbn [MainModel.andthen]. rewrite BN. cbn [MainModel.andthen].
  rewrite SZ. cbn [MainModel.andthen]. rewrite HV'. cbn [negb]. rewrite CS. unfold MainModel.run_act. rewrite KD, CO, AA.
  cbn [MainModel.andthen fst]. change (MainModel.alpha_of "random" (both catalogue_new (canon (rows (s2 r))))) with (Some 1%R). cbv iota.
  rewrite NO. cbn [MainModel.andthen fst snd]. rewrite FA.
  unfold MainModel.measure. rewrite CO, STP, ES. cbv zeta.
  replace (MainModel.is_window _) with true by now destruct three. cbn [MainModel.andthen].
  rewrite SV. cbn [MainModel.andthen].
  eexists _, _, path. split; [reflexivity|]. cbn [MainModel.measured MainModel.printed_norms]. split; [reflexivity|].
  split; [|repeat split].
  apply with_los_inv in LS. subst pr.
  constructor; cbn [MainModel.stat MainModel.from_data MainModel.from_rand MainModel.in_box MainModel.par MainModel.bin MainModel.contrast MainModel.factor
    stat from_data from_rand in_box par bin contrast factor option_map]; try reflexivity.
  - unfold with_vectors. cbn [fst snd both]. now rewrite los_rows by apply St.
  - exact CO.
Qed.

(** A catalogue less than three boxes wide has no stray coordinate. *)
Lemma narrow L c : py_in_step c -> (forall i, (0 < at_axis i L)%R) ->
  (forall i, (snd (at_axis i (bounds c)) - fst (at_axis i (bounds c)) < 3 * at_axis i L)%R) ->
  forall p i, In p (rows c) -> ~ stray L c p i.
Proof.
  intros (SQ & B & _) P W p i I (k & K & E).
  destruct (B i) as ((_ & _ & R) & _).
  assert (IC : In (at_axis i (p_pos p)) (col i c)).
  { rewrite <- (rows_pick c SQ i). unfold axis_of. apply in_map_iff. now exists p. }
  specialize (R _ IC). specialize (W i). specialize (P i). apply IZR_le in K.
  assert (1 * at_axis i L <= IZR k * at_axis i L)%R by (apply Rmult_le_compat_r; lra). lra.
Qed.

Lemma window_centred L r s s1 s2 : (forall i, (0 < at_axis i L)%R) -> py_in_step (s r) ->
  py_centre r L None s = Ok s1 -> py_periodise r L s1 = Ok s2 ->
  Forall2 (centred L (s r)) (rows (s r)) (rows (s2 r)) /\ square (s2 r) /\ nonempty (s2 r).
Proof.
  intros P St C1 C2. pose proof (in_step_current _ St) as Cr.
  unfold py_centre in C1. cbn [ref_or_self] in C1.
  set (o' := tmap2 (fun b l => ((fst b + snd b) / 2 - l / 2)%R) (bounds (s r)) L) in *.
  destruct (offset_self_run r o' s (bounds_nonempty _ (proj1 (proj2 Cr)))) as (s1' & E1 & M & _). rewrite C1 in E1. injection E1 as <-.
  destruct (moved_current' o' _ _ Cr M) as (C' & R1).
  destruct (py_centre_self s r L (proj1 (proj2 Cr))) as (s1' & d & E1 & _ & _ & MID).
  unfold py_centre in E1. cbn [ref_or_self] in E1. fold o' in E1. rewrite C1 in E1. injection E1 as <-.
  destruct (periodise_run L r s1 (proj1 (proj2 C'))) as (c & E2 & CX & CY & CZ & (T1 & T2 & T3' & _) & B').
  rewrite C2 in E2. injection E2 as ->. rewrite pyupd_same.
  destruct C' as ((Q1 & Q2 & Q3 & Q4 & Q5) & BB & _).
  split; [|split; [|exact (bounds_nonempty _ B')]].
  - replace (rows c) with (map (per L (bounds (s1 r))) (rows (s1 r))) by (unfold rows; rewrite CX, CY, CZ, T1, T2, T3'; symmetry; apply zip_per).
    rewrite R1. generalize (rows (s r)). intros ps. induction ps as [|p ps IH]; cbn [map]; constructor; [|exact IH]. split; [repeat split|].
    pose proof (per_centred L (s1 r) [shift_pos o' p] P) as PC. cbn [map] in PC. inversion PC as [|? ? ? ? (_ & W) _]; subst.
    intros i. destruct (W i) as (V & k & E). split; [exact V|]. exists k. rewrite E, MID. unfold o', shift_pos, tsub, tmap2.
    destruct i; cbn [at_axis p_pos ax0 ax1 ax2]; lra.
  - unfold square. rewrite CX, CY, CZ, T1, T2, T3', !map_length. auto.
Qed.

(** The padding asked for. *)
Definition padding (t : ParamModel.sampling) (i : axis) : R :=
  (padfactor t * (if padscale t =? "grid" then at_axis i (boxsize t) / IZR (at_axis i (ngrid t)) else at_axis i (boxsize t)))%R.

Lemma padded_run t ps : alignment t = "pad" -> In (padscale t) ["box"; "grid"] -> ps <> [] ->
  exists o, MainModel.aligned "random" t (both catalogue_new (canon ps)) = (both catalogue_new (canon (map (shift_pos o) ps)), Ok tt) /\
    forall i, exists hi, extremes i (map (shift_pos o) ps) (padding t i) hi.
Proof.
  intros A S N. unfold MainModel.aligned. cbv zeta. cbn [String.eqb Ascii.eqb Bool.eqb]. rewrite A. cbn [String.eqb Ascii.eqb Bool.eqb].
  set (st := both catalogue_new (canon ps)). assert (H : CatProps.has (st 1) ps) by now apply canon_has.
  assert (G : forall v : catalogue -> triple R, (forall i, at_axis i (v (canon ps)) = at_axis i (pos_min (canon ps)) - padding t i)%R -> exists o,
    (calc_pos_extents 1 ;> (do c <- get 1; offset_coords 1 (v c))) st = (both catalogue_new (canon (map (shift_pos o) ps)), Ok tt) /\
    forall i, exists hi, extremes i (map (shift_pos o) ps) (padding t i) hi).
  { intros v V. destruct (align_single st 1 ps v H) as (s1 & E1 & F1 & O1).
    change (st 1) with (canon ps) in F1. rewrite canon_refresh in F1 by exact N. rewrite shifted_canon in F1 by exact N.
    exists (v (canon ps)). split.
    - rewrite E1. f_equal. apply both_eq; [rewrite O1 by discriminate; reflexivity|exact F1|].
      intros a A0 A1. rewrite O1 by exact A1. now destruct a as [|[|a]].
    - intros i. pose proof (refresh_extremes i (canon ps) ps N) as ((p1 & I1 & X1) & (p2 & I2 & X2) & X3). rewrite canon_refresh in X1, X2, X3 by exact N.
      exists (at_axis i (pos_max (canon ps)) - at_axis i (v (canon ps)))%R.
      assert (SH : forall p, at_axis i (p_pos (shift_pos (v (canon ps)) p)) = (at_axis i (p_pos p) - at_axis i (v (canon ps)))%R)
        by (intros p; unfold shift_pos, tsub, tmap2; destruct i; reflexivity).
      split; [|split].
      + exists (shift_pos (v (canon ps)) p1). split; [now apply in_map|]. rewrite SH, X1, V. ring.
      + exists (shift_pos (v (canon ps)) p2). split; [now apply in_map|]. rewrite SH, X2. ring.
      + intros p I. apply in_map_iff in I as (p0 & <- & I). specialize (X3 p0 I). rewrite SH. specialize (V i). lra. }
  unfold padding in *. destruct S as [S|[S|[]]]; rewrite <- S in *; cbn [String.eqb Ascii.eqb Bool.eqb] in *.
  - apply (G (fun c => tsub (pos_min c) (tmap2 Rmult (T3 (padfactor t) (padfactor t) (padfactor t)) (boxsize t)))).
    intros []; reflexivity.
  - apply (G (fun c => tsub (pos_min c) (grid_pad (boxsize t) (ngrid t) (T3 (padfactor t) (padfactor t) (padfactor t))))).
    intros []; unfold grid_pad, tsub, tmap2; cbn [at_axis ax0 ax1 ax2]; unfold Rdiv; ring.
Qed.

(** Where padding is asked for, the program pads and Python centres all the same. *)
Theorem window_padded fuel e w p three a r s x cs :
  orders a = None -> los_rand a = None -> PyRunModel.binning a = None ->
  py_in_step (s r) -> window fuel e three a r s = Returns x ->
  spelled (used x) -> In (ParamModel.binning (msr (cpp (used x)))) ["lin"; "log"] ->
  alignment (smp (cpp (used x))) = "pad" ->
  ParamFileModel.core p = cpp (used x) -> MainModel.bld w = standalone (lib e) ->
  let L := boxsize (smp (cpp (used x))) in
  (forall i, (0 < at_axis i L)%R) ->
  MainModel.catalogues w p = MainModel.Go cs -> MainModel.particles (cs 1) = rows (s r) ->
  exists g q path ps ps' los o, MainModel.session w p = MainModel.Go g /\
    MainModel.measured g = Some (q, path) /\ MainModel.stat q = stat (called x) /\
    ParamFileModel.core (MainModel.par q) = par (called x) /\ MainModel.bin q = Some (vectors_of (bin (called x))) /\
    MainModel.n_part (MainModel.printed_norms g) = n_part (factors x) /\
    MainModel.from_rand q = Some (ps, los) /\ option_map with_vectors (from_rand (called x)) = Some (ps', los) /\
    ps = map (shift_pos o) (rows (s r)) /\ (forall i, exists hi, extremes i ps (padding (smp (cpp (used x))) i) hi) /\
    Forall2 (centred L (s r)) (rows (s r)) ps'.
Proof.
  intros OA LR BI St H SP BL AL CO BW L0 PL CA P1.
  unfold window in H. rewrite OA, LR in H. cbv zeta in H.
  set (name := if three then "3pcf-win" else "2pcf-win") in *.
  apply andthen_returns in H as (q & PR & H). apply andthen_returns in H as (b & BO & H).
  destruct (unset q "boxsize") eqn:UB; [discriminate|]. apply andthen_returns in H as (l & LB & H).
  destruct (PyRunModel.has_volume (cpp q)) eqn:HV; [cbn [negb] in H|discriminate].
  apply andthen_returns in H as (s1 & C1 & H). apply andthen_returns in H as (s2 & C2 & H).
  apply andthen_returns in H as (cr & CR & H).
  apply andthen_returns in H as (part & PN & H). apply andthen_returns in H as (mesh & MN & H).
  apply andthen_returns in H as (f & FO & H). apply andthen_returns in H as (pr & LS & H).
  injection H as <-. cbn [called factors used] in *.
  pose proof (prepared_facts _ _ _ _ _ _ _ PR) as PF.
  assert (LO : lower name = name) by (unfold name; now destruct three).
  assert (KN : In name (map fst statistics)) by (unfold name; destruct three; cbn; tauto).
  destruct (parsed_settled _ _ _ _ PF ltac:(cbn; tauto) ltac:(now rewrite LO)) as (KK & CK & ST).
  rewrite (pr_box _ _ _ _ PF UB) in LB. injection LB as <-. fold L0 in C1, C2.
  apply python_returns in C1, C2.
  destruct (window_centred L0 r s s1 s2 PL St C1 C2) as (FC & SQ & NE).
  rewrite (converted_canon _ SQ NE) in CR. injection CR as <-.
  assert (N0 : rows (s r) <> []) by (apply rows_ne; [apply St|apply bounds_nonempty, St]).
  assert (KD : MainModel.kind p = "random").
  { unfold MainModel.kind. rewrite CO, (proj2 (pr_ct _ _ _ _ PF)). reflexivity. }
  assert (STP : statistic_type (msr (cpp q)) = name) by (rewrite (proj2 (pr_st _ _ _ _ PF)); exact LO).
  assert (CS : cs = both catalogue_new (canon (rows (s r)))).
  { unfold MainModel.catalogues, MainModel.load_if in CA. rewrite KD in CA.
    change (MainModel.flag_data "random") with false in CA. change (MainModel.flag_rand "random") with true in CA. cbv iota in CA.
    cbn [MainModel.andthen] in CA.
    destruct (MainModel.load _ _ _) as [|c1] eqn:E1 in CA; cbn [MainModel.andthen] in CA; [discriminate|].
    injection CA as <-. apply load_canon in E1. rewrite P1 in E1. now rewrite E1. }
  assert (BN : MainModel.bins p = MainModel.Go (Some (vectors_of (BinningModel.p_cpp b)))).
  { unfold bins_of in BO. rewrite BI in BO. exact (bins_same _ _ _ _ _ _ PF SP ST CO BL BO). }
  assert (SZ : MainModel.sized w p cs = MainModel.Go p).
  { unfold MainModel.sized. cbv zeta. rewrite KD, CO. change (MainModel.flag_data "random") with false; change (MainModel.flag_rand "random") with true; cbn [orb]; cbv iota.
    unfold PyRunModel.has_volume in HV. apply andb_true_iff in HV as [HV _]. apply Rltb_spec in HV.
    destruct (Reqb (volume (smp (cpp q))) 0) eqn:Z; [|reflexivity]. apply Reqb_spec in Z. rewrite Z in HV. lra. }
  assert (HV' : MainModel.has_volume p = true).
  { unfold MainModel.has_volume. cbv zeta. rewrite CO. unfold PyRunModel.has_volume in HV. now rewrite HV. }
  destruct (padded_run (smp (cpp q)) (rows (s r)) AL (MainProps.s_pad _ ST) N0) as (o & AA & EX).
  set (ps := map (shift_pos o) (rows (s r))) in *. assert (N1 : ps <> []) by now apply map_nonempty.
  assert (NP : npoint (msr (cpp q)) = if three then "3pt" else "2pt").
  { pose proof (MainProps.s_stat _ ST) as SS. rewrite STP in SS. unfold name in SS. cbn [In statistics] in SS. clear - SS.
    destruct three; decompose [or] SS; try contradiction; try discriminate;
      match goal with K : (_, _) = (_, _) |- _ => injection K as <- _ end; reflexivity. }
  pose proof (rows_ne _ SQ NE) as N2.
  assert (AK : Forall2 MainProps.alike (rows (s r)) ps).
  { unfold ps. generalize (rows (s r)). intros l. induction l; cbn [map]; constructor; [repeat split|assumption]. }
  assert (AK' : Forall2 MainProps.alike (rows (s r)) (rows (s2 r))).
  { clear - FC. induction FC as [|u1 u2 us1 us2 (W & A) F IH]; constructor; [exact W|exact IH]. }
  set (k := if three then 3 else 2).
  assert (KI : In k [2; 3]) by (unfold k; destruct three; cbn; auto).
  assert (TO : MainProps.total k ps = MainProps.total k (rows (s2 r))).
  { rewrite (MainProps.alike_total _ _ _ AK), (MainProps.alike_total _ _ _ AK'). reflexivity. }
  assert (PQ : MainProps.total k (rows (s2 r)) <> 0%R /\ MainProps.reciprocal part (1 * MainProps.total k (rows (s2 r)))).
  { unfold part_norm in PN. apply wrapped_number in PN. unfold k in *.
    destruct three; [exact (MainProps.number_recip 3 _ (canon (rows (s2 r))) 1 part KI (proj1 (canon_has _ N2)) PN)
                    |exact (MainProps.number_recip 2 _ (canon (rows (s2 r))) 1 part KI (proj1 (canon_has _ N2)) PN)]. }
  assert (PP : exists y, MainModel.number (if (k =? 2)%nat then NormModel.powspec_norm_particles (canon ps) 1 else NormModel.bispec_norm_particles (canon ps) 1) = MainModel.Go y).
  { apply (MainProps.number_part_runs k _ ps 1 KI (proj1 (canon_has _ N1))). rewrite TO. apply PQ. }
  destruct PP as (part' & PP). pose proof (MainProps.number_recip k ps (canon ps) 1 part' KI (proj1 (canon_has _ N1)) PP) as (_ & PQ').
  assert (EP : part' = part).
  { rewrite TO in PQ'. destruct PQ as (Z & PQ). clear - Z PQ PQ'. rewrite Rmult_1_l in PQ, PQ'.
    destruct part as [v|], part' as [v'|]; cbn [MainProps.reciprocal] in *; try (now destruct Z).
    apply f_equal, (Rmult_eq_reg_r (MainProps.total k (rows (s2 r)))); [congruence|exact Z]. }
  subst part'.
  destruct (MainProps.number_mesh_runs k (MainModel.assignment_of (assignment (smp (cpp q)))) (MainModel.mesh_of (smp (cpp q))) (canon ps) 1) as (mesh' & MM).
  set (nm := {| MainModel.n_part := part; MainModel.n_mesh := mesh'; MainModel.n_meshes := Some 0%R |}).
  assert (NO : MainModel.norms_of w p 1 (both catalogue_new (canon ps)) = MainModel.Go (both catalogue_new (canon ps), nm)).
  { unfold MainModel.norms_of. cbv zeta. rewrite KD, CO. change (MainModel.flag_rand "random") with true. cbv iota. cbn [both].
    rewrite NP. unfold k in PP, MM. destruct three; cbn [String.eqb Ascii.eqb Bool.eqb Nat.eqb] in *; rewrite PP; cbn [MainModel.andthen]; rewrite MM; reflexivity. }
  assert (SV : exists path, MainModel.save_path p = Some path).
  { unfold MainModel.save_path, MainModel.base_name. cbv zeta. rewrite CO, STP.
    pose proof (MainProps.s_form _ ST) as SF. unfold name. clear - SF.
    destruct three; cbn [String.eqb Ascii.eqb Bool.eqb]; try (eexists; reflexivity);
      unfold MainModel.form_name; cbn [In] in SF; decompose [or] SF; try contradiction;
      match goal with K : _ = ParamModel.form _ |- _ => rewrite <- K end; eexists; reflexivity. }
  destruct SV as (path & SV).
  assert (ES : MainModel.statistic_of name = Some (if three then MainModel.ThreePcfWindow false else MainModel.CorrfuncWindow))
    by (unfold name; now destruct three).
  unfold MainModel.session. rewrite CA. cbn [MainModel.andthen]. rewrite BN. cbn [MainModel.andthen].
  rewrite SZ. cbn [MainModel.andthen]. rewrite HV'. cbn [negb]. rewrite CS. unfold MainModel.run_act. rewrite KD, CO, AA.
  cbn [MainModel.andthen fst]. change (MainModel.alpha_of "random" (both catalogue_new (canon ps))) with (Some 1%R). cbv iota.
  rewrite NO. cbn [MainModel.andthen fst snd].
  unfold MainModel.measure. rewrite CO, STP, ES. cbv zeta.
  replace (MainModel.is_window _) with true by now destruct three. cbn [MainModel.andthen].
  rewrite SV. cbn [MainModel.andthen].
  apply with_los_inv in LS. subst pr.
  eexists _, _, path, ps, (rows (s2 r)), _, o. split; [reflexivity|]. cbn [MainModel.measured MainModel.printed_norms]. split; [reflexivity|].
  cbn [MainModel.stat MainModel.from_rand MainModel.par MainModel.bin stat from_rand par bin option_map].
  split; [reflexivity|]. split; [exact CO|]. split; [reflexivity|]. split; [reflexivity|].
  split. { cbn [both]. rewrite (MainProps.particles_has _ _ (canon_has _ N1)). reflexivity. }
  split. { unfold with_vectors. cbn [fst snd both]. rewrite los_rows by apply St. rewrite (MainProps.particles_has _ _ (canon_has _ N2)). reflexivity. }
  split; [reflexivity|]. split; [exact EX|exact FC].
Qed.

(** Which window measurements return. *)
Theorem window_outcome fuel e three a r s q b v :
  los_rand a = None -> prepared fuel e three "random" (if three then "3pcf-win" else "2pcf-win") a = Returns q ->
  bins_of a q = Returns b -> unset q "boxsize" = false ->
  (0 < volume (smp (cpp q)))%R -> (forall i, (0 < at_axis i (boxsize (smp (cpp q))))%R) ->
  py_in_step (s r) -> dget "norm_convention" (entries q) = Some v ->
  let k := if three then 3 else 2 in let L := boxsize (smp (cpp q)) in
  MainProps.total k (rows (s r)) <> 0%R ->
  ((exists t, v = VStr t /\ In t box_conventions) -> exists x ps,
     window fuel e three a r s = Returns x /\ used x = q /\ Forall2 (centred L (s r)) (rows (s r)) ps /\
     from_rand (called x) = Some (ps, compute_los (s r)) /\ from_data (called x) = None /\ in_box (called x) = false /\
     stat (called x) = (if three then MainModel.ThreePcfWindow (match orders a with Some _ => true | None => false end) else MainModel.CorrfuncWindow) /\
     par (called x) = cpp q /\ bin (called x) = BinningModel.p_cpp b /\
     MainProps.reciprocal (n_part (factors x)) (MainProps.total k (rows (s r))) /\
     MainProps.reciprocal (n_mesh (factors x)) (MainProps.mesh_total k (smp (cpp q)) ps) /\
     factor (called x) = (if is_text v "none" then Some 1%R else if is_text v "particle" then n_part (factors x)
                          else n_mesh (factors x))) /\
  (~ (exists t, v = VStr t /\ In t box_conventions) -> window fuel e three a r s = Raises NameError).
Proof.
  intros LR PR BO UB VP P St NC k L TO.
  pose proof (prepared_facts _ _ _ _ _ _ _ PR) as PF.
  pose proof (in_step_current _ St) as Cr.
  destruct (py_centre_self s r L (proj1 (proj2 Cr))) as (s1 & d & E1 & (_ & _ & BB) & _).
  destruct (periodise_run L r s1 BB) as (c & E2 & _).
  destruct (window_centred L r s s1 _ P St E1 E2) as (FC & SQ & NE).
  set (s2 := pyupd s1 r c) in *.
  pose proof (rows_ne _ SQ NE) as NR. pose proof (canon_has _ NR) as H.
  set (ps := rows (s2 r)) in *.
  assert (AK : Forall2 MainProps.alike (rows (s r)) ps).
  { clear - FC. induction FC as [|u1 u2 us1 us2 (W & A) F IH]; constructor; [exact W|exact IH]. }
  assert (TO' : MainProps.total k ps <> 0%R) by (rewrite (MainProps.alike_total _ _ _ AK); exact TO).
  assert (KI : In k [2; 3]) by (unfold k; destruct three; cbn; auto).
  assert (PN : exists x, part_norm three (canon ps) 1 = Returns x).
  { unfold part_norm. apply numbered_wrapped. unfold k in TO'. destruct three.
    - exact (MainProps.number_part_runs 3 _ _ 1 (or_intror (or_introl eq_refl)) (proj1 H) TO').
    - exact (MainProps.number_part_runs 2 _ _ 1 (or_introl eq_refl) (proj1 H) TO'). }
  assert (MN : exists x, mesh_norm three (cpp q) (canon ps) 1 = Returns x).
  { unfold mesh_norm. cbv zeta. apply numbered_bare. apply MainProps.number_mesh_runs. }
  destruct PN as (part & PN). destruct MN as (mesh & MN).
  assert (LN : length (compute_los (s r)) = length ps).
  { rewrite (los_length _ (proj1 St)). clear - AK. induction AK; cbn [length]; congruence. }
  destruct (parsed_settled _ _ _ _ PF ltac:(cbn; tauto) ltac:(destruct three; cbn; tauto)) as (_ & _ & ST).
  assert (HV : PyRunModel.has_volume (cpp q) = true).
  { unfold PyRunModel.has_volume. apply andb_true_iff. split; [now apply Rltb_spec|]. apply Z.ltb_lt.
    now apply (MainProps.s_grid _ ST). }
  assert (X : window fuel e three a r s =
    (f <~ factor_of false q {| n_part := part; n_mesh := mesh; n_meshes := Some 0%R |} ;;
     Returns {| called := {| stat := if three then MainModel.ThreePcfWindow (match orders a with Some _ => true | None => false end) else MainModel.CorrfuncWindow;
                          from_data := None; from_rand := Some (ps, compute_los (s r)); in_box := false; par := cpp q;
                          bin := BinningModel.p_cpp b; contrast := Some 1%R; factor := f |};
             factors := {| n_part := part; n_mesh := mesh; n_meshes := Some 0%R |}; used := q; after := s2 |})).
  { unfold window. cbv zeta. rewrite PR. cbn [andthen]. rewrite BO. cbn [andthen]. rewrite UB, (pr_box _ _ _ _ PF UB). cbn [andthen].
    rewrite HV. cbn [negb]. fold L. rewrite E1. cbn [python andthen]. rewrite E2. cbn [python andthen]. fold s2.
    rewrite (converted_canon _ SQ NE). fold ps. cbn [andthen]. rewrite PN. cbn [andthen]. rewrite MN. cbn [andthen].
    destruct (factor_of _ _ _); try reflexivity. cbn [andthen]. unfold with_los. cbv zeta. rewrite LR, (MainProps.particles_has _ _ H).
    rewrite LN, Nat.ltb_irrefl. reflexivity. }
  rewrite X. unfold factor_of. rewrite (entry_is _ _ _ NC). cbn [andthen]. clear X.
  split.
  - intros (t & -> & I). cbn [is_text andb].
    assert (F : (if t =? "none" then Returns (Some 1%R) else if t =? "particle" then Returns part else if t =? "mesh" then Returns mesh else Raises NameError) =
      Returns (if t =? "none" then Some 1%R else if t =? "particle" then part else mesh)).
    { destruct I as [<-|[<-|[<-|[]]]]; reflexivity. }
    cbn [n_part n_mesh]. rewrite F. cbn [andthen]. eexists. exists ps. split; [reflexivity|].
    cbn [used called factors from_data from_rand in_box stat par bin factor n_part n_mesh].
    split; [reflexivity|]. split; [exact FC|]. do 6 (split; [reflexivity|]).
    split; [|split; [|reflexivity]].
    + unfold part_norm in PN. apply wrapped_number in PN.
      assert (Q : MainProps.reciprocal part (1 * MainProps.total k ps)).
      { unfold k in *. destruct three; [exact (proj2 (MainProps.number_recip 3 ps (canon ps) 1 part KI (proj1 H) PN))
                                       |exact (proj2 (MainProps.number_recip 2 ps (canon ps) 1 part KI (proj1 H) PN))]. }
      rewrite Rmult_1_l, (MainProps.alike_total _ _ _ AK) in Q. exact Q.
    + unfold mesh_norm in MN. cbv zeta in MN. apply bare_number in MN. apply MainProps.number_mesh in MN.
      rewrite pow1, Rmult_1_l, (MainProps.particles_has _ _ H) in MN. exact MN.
  - intros N. destruct v; try reflexivity. cbn [is_text andb].
    destruct (String.eqb_spec s0 "none") as [->|]; [exfalso; apply N; eexists; split; [reflexivity|cbn; auto]|].
    destruct (String.eqb_spec s0 "particle") as [->|]; [exfalso; apply N; eexists; split; [reflexivity|cbn; auto]|].
    destruct (String.eqb_spec s0 "mesh") as [->|]; [exfalso; apply N; eexists; split; [reflexivity|cbn; auto]|]. reflexivity.
Qed.

(** Measurements of a window with one random. *)
Definition wdemo (align : string) : dict :=
  dset "alignment" (VStr align) (dset "padfactor" (VNum (1 / 10)) (dset "catalogue_type" (VStr "random") (rdemo "3pcf-win"))).

(** Running a set with padding. *)
Lemma run_padded fuel e c b d d1 p pb h :
  parse_pre e c b d = (d1, Ok (p, pb)) -> val_head (lib e) true p = Ok h ->
  (0 <? cells (ngrid (smp p)))%Z = true -> expand (smp p) = 1%R ->
  padscale (smp h) = "box" -> padfactor (smp h) = (1 * / 10)%R ->
  bin_min (msr h) = 1%R -> bin_max (msr h) = 2%R ->
  parse fuel e c b d =
  (if (2 <=? num_bins (msr h))%Z && (idx_bin (msr h) =? 0)%Z && (ParamModel.binning (msr h) =? "lin")
   then bindM (m_fetch (tail_result h) pb) (fun _ => retM (tail_result h, pb))
   else fun d => parse fuel e c b d) (if (2 <=? num_bins (msr h))%Z && (idx_bin (msr h) =? 0)%Z
     && (ParamModel.binning (msr h) =? "lin") then d1 else d).
Proof.
  intros P H C E A A' B1 B2. destruct (_ && _) eqn:K; [|reflexivity].
  apply andb_true_iff in K as [K K3]. apply andb_true_iff in K as [K1 K2].
  apply Z.leb_le in K1. apply Z.eqb_eq in K2. apply String.eqb_eq in K3. apply Z.ltb_lt in C.
  assert (V : validate fuel (lib e) true p = Ok (tail_result h)).
  { rewrite (validate_direct fuel (lib e) true p h H);
      [|now right|intros _; rewrite E; lra|intros; lia].
    unfold val_tail, val_pad.
    rewrite A, A'. replace (Rltb (1 * / 10) 0) with false by (symmetry; apply Rltb_false; lra).
    replace (Rleb 1 (1 * / 10)) with false by (symmetry; apply Rleb_false; lra). cbn [String.eqb Ascii.eqb Bool.eqb andb].
    replace (if _ =? "pad" then Ok tt else Ok tt) with (Ok tt) by now destruct (_ =? "pad"). cbn [bind].
    assert (X : val_bins (msr h) = Ok tt).
    { apply bins_ok. rewrite B1, B2, K2, K3. split; [lra|]. split; [exact K1|].
      split; [cbn; intuition discriminate|]. split; [lia|]. intros; lia. }
    rewrite X. reflexivity. }
  unfold parse. unfold bindM at 1. rewrite P. cbn [fst snd].
  unfold bindM at 1, readM, cpp_validate. rewrite V. reflexivity.
Qed.

Ltac run_pad := cbn [dupdate]; erewrite run_padded; [|lazy -[Rmult IZR]; reflexivity
  |lazy -[Rmult IZR]; reflexivity|reflexivity|reflexivity|reflexivity|reflexivity|reflexivity|reflexivity];
  lazy -[Rmult IZR]; reflexivity.

Lemma prepared_window align : In align ["centre"; "pad"] -> exists s q,
  built (construct 0 demo_env (wdemo align)) s /\
  prepared 0 demo_env true "random" "3pcf-win" (with_set s) = Returns q /\ spelled q /\
  unset q "boxsize" = false /\ ParamModel.binning (msr (cpp q)) = "lin" /\
  boxsize (smp (cpp q)) = T3 1000%R 1000%R 1000%R /\
  volume (smp (cpp q)) = (1000 * 1000 * 1000)%R /\ rand_file (pths (cpp q)) = "b.dat" /\
  norm_convention (msr (cpp q)) = "particle" /\ alignment (smp (cpp q)) = align /\
  padscale (smp (cpp q)) = "box" /\ padfactor (smp (cpp q)) = (1 / 10)%R.
Proof.
  intros [<-|[<-|[]]];
  (eexists; eexists; split; [unfold built, construct, setitem, update; cbn [dupdate entries cpp bar]; run_pad|]; split;
   [rewrite prepared_set; unfold types; apply python_returns; unfold update; cbn [dupdate entries cpp bar]; run_pad
   |split; [|repeat split]; split; try reflexivity; [eexists; split; [reflexivity|discriminate]|eexists; eexists; reflexivity]]).
Qed.

(** The middle of the box from Python, the padding in the program. *)
Theorem window_alignment_refuted : exists s c x w p g q path,
  built (construct 0 demo_env (wdemo "pad")) s /\
  compute_3pcf_window 0 demo_env (with_set s) 1 (fun _ => c) = Returns x /\
  MainModel.session w p = MainModel.Go g /\ MainModel.measured g = Some (q, path) /\
  ParamFileModel.core (MainModel.par q) = par (called x) /\
  exists u u' l l', MainModel.from_rand q = Some ([u], l) /\ from_rand (called x) = Some ([u'], l') /\
    p_pos u = T3 100%R 100%R 100%R /\ p_pos u' = T3 500%R 500%R 500%R.
Proof.
  destruct (prepared_window "pad") as (s & q & BU & PR & SP & UB & BL & BX & VO & DF & NC & AL & PS & PFA); [cbn; auto|].
  assert (VO' : volume (smp (cpp q)) = 1000000000%R) by (rewrite VO; lra).
  destruct (one_loaded (standalone (lib demo_env)) (cpp q) "b.dat" ltac:(cbn; auto) VO')
    as (c & LD & St & NE & _ & TO & CX & CY & CZ & CN & CS & CC).
  set (w := one_file (standalone (lib demo_env))) in *. set (p := ParamEnvProps.full (cpp q)) in *.
  pose proof (prepared_facts _ _ _ _ _ _ _ PR) as PF.
  destruct (parsed_settled _ _ _ _ PF ltac:(cbn; tauto) ltac:(cbn; tauto)) as (_ & CK & ST).
  destruct (bins_made _ _ _ _ PF (sp_bin _ SP) (sp_range _ SP) ST) as (b & BM).
  { rewrite BL. cbn; auto. } { rewrite BL. intros (Q & _). discriminate Q. }
  set (L := T3 1000%R 1000%R 1000%R) in *.
  assert (PL : forall i, (0 < at_axis i L)%R) by (intros []; cbn; lra).
  destruct (window_outcome 0 demo_env true (with_set s) 1 (fun _ => c) q b _
              eq_refl PR ltac:(unfold bins_of; exact BM) UB ltac:(rewrite VO; lra) ltac:(now rewrite BX) St (sp_norm _ SP)) as (OK & _).
  { rewrite TO. apply Rgt_not_eq. lra. }
  destruct OK as (x & ps1 & BX1 & UX & FC & FD & _). { eexists. split; [reflexivity|]. rewrite NC. cbn. auto. }
  assert (KD : MainModel.kind p = "random") by exact (proj2 (pr_ct _ _ _ _ PF)).
  assert (CT : exists k, MainModel.catalogues w p = MainModel.Go k /\ k 1 = canon (rows c)).
  { unfold MainModel.catalogues, MainModel.load_if. rewrite KD.
    change (MainModel.flag_data "random") with false. change (MainModel.flag_rand "random") with true. cbv zeta iota.
    change (ParamFileModel.core p) with (cpp q). cbn [MainModel.andthen]. rewrite DF, LD. cbn [MainModel.andthen].
    eexists. split; reflexivity. }
  destruct CT as (k & CT & K1).
  destruct (window_padded 0 demo_env w p true (with_set s) 1 (fun _ => c) x k)
    as (g & r & path & ps & ps' & los & o & G & M & _ & PA & _ & _ & F1 & F2 & SH & EX & CE);
    try reflexivity; try assumption; try (rewrite UX; assumption); try (rewrite UX; reflexivity).
  { rewrite UX, BL. cbn; auto. } { rewrite UX, BX. exact PL. }
  { rewrite K1. apply MainProps.particles_has, canon_has, NE. }
  exists s, c, x, w, p, g, r, path. repeat (split; [assumption|]).
  rewrite FD in F2. cbn [option_map with_vectors fst snd] in F2. injection F2 as -> _.
  assert (RC : rows c = [PDatum (T3 1 2 3) (/ 1000000000) 1 1 (1 * 1)]%R) by (unfold rows; rewrite CX, CY, CZ, CN, CS, CC; reflexivity).
  rewrite UX, BX in CE. rewrite UX in EX. fold L in CE. cbn beta in SH, CE. rewrite RC in SH, CE. cbn [map] in SH.
  inversion CE as [|? u' ? us' (_ & W') FN']; subst. inversion FN'; subst.
  eexists. exists u'. eexists. eexists. split; [exact F1|]. split; [exact FD|].
  split.
  - set (u := shift_pos o _) in *.
    assert (PU : forall i, at_axis i (p_pos u) = 100%R).
    { intros i. destruct (EX i) as (hi & (u0 & [<-|[]] & E0) & _). rewrite E0. unfold padding. rewrite PS, PFA, BX. destruct i; cbn; lra. }
    pose proof (PU AX) as X0. pose proof (PU AY) as X1. pose proof (PU AZ) as X2. clearbody u. destruct u as [[x0 x1 x2] ? ? ? ?].
    cbn [at_axis p_pos ax0 ax1 ax2] in *. now subst.
  - assert (BD : bounds c = T3 (1, 1)%R (2, 2)%R (3, 3)%R).
    { destruct St as (_ & B & _). pose proof (B AX) as B0. pose proof (B AY) as B1. pose proof (B AZ) as B2.
      unfold range_of in B0, B1, B2. cbn [col at_axis] in B0, B1, B2. rewrite CX in B0. rewrite CY in B1. rewrite CZ in B2.
      destruct (bounds c) as [[a0 a1] [a2 a3] [a4 a5]]. cbn [ax0 ax1 ax2 fst snd In] in *.
      destruct B0 as (([<-|[]] & [<-|[]] & _) & _), B1 as (([<-|[]] & [<-|[]] & _) & _), B2 as (([<-|[]] & [<-|[]] & _) & _). reflexivity. }
    cbn beta in W'. rewrite BD in W'. destruct u' as [[y0 y1 y2] ? ? ? ?].
    pose proof (W' AX) as (B0 & m0 & G0). pose proof (W' AY) as (B1 & m1 & G1). pose proof (W' AZ) as (B2 & m2 & G2).
    cbn [at_axis ax0 ax1 ax2 p_pos fst snd L] in *.
    apply stays in G0; [|lra|lra]. apply stays in G1; [|lra|lra]. apply stays in G2; [|lra|lra].
    subst. f_equal; lra.
Qed.

(** One random, centred by both. *)
Example window_case : exists s c x w p g q path,
  built (construct 0 demo_env (wdemo "centre")) s /\
  compute_3pcf_window 0 demo_env (with_set s) 1 (fun _ => c) = Returns x /\
  MainModel.session w p = MainModel.Go g /\ MainModel.measured g = Some (q, path) /\ same_request (called x) q.
Proof.
  destruct (prepared_window "centre") as (s & q & BU & PR & SP & UB & BL & BX & VO & DF & NC & AL & _); [cbn; auto|].
  assert (VO' : volume (smp (cpp q)) = 1000000000%R) by (rewrite VO; lra).
  destruct (one_loaded (standalone (lib demo_env)) (cpp q) "b.dat" ltac:(cbn; auto) VO')
    as (c & LD & St & NE & _ & TO & CX & CY & CZ & CN & CS & CC).
  set (w := one_file (standalone (lib demo_env))) in *. set (p := ParamEnvProps.full (cpp q)) in *.
  pose proof (prepared_facts _ _ _ _ _ _ _ PR) as PF.
  destruct (parsed_settled _ _ _ _ PF ltac:(cbn; tauto) ltac:(cbn; tauto)) as (_ & CK & ST).
  destruct (bins_made _ _ _ _ PF (sp_bin _ SP) (sp_range _ SP) ST) as (b & BM).
  { rewrite BL. cbn; auto. } { rewrite BL. intros (Q & _). discriminate Q. }
  set (L := T3 1000%R 1000%R 1000%R) in *.
  assert (PL : forall i, (0 < at_axis i L)%R) by (intros []; cbn; lra).
  destruct (window_outcome 0 demo_env true (with_set s) 1 (fun _ => c) q b _
              eq_refl PR ltac:(unfold bins_of; exact BM) UB ltac:(rewrite VO; lra) ltac:(now rewrite BX) St (sp_norm _ SP)) as (OK & _).
  { rewrite TO. apply Rgt_not_eq. lra. }
  destruct OK as (x & ps1 & BX1 & UX & FC & FD & _). { eexists. split; [reflexivity|]. rewrite NC. cbn. auto. }
  assert (KD : MainModel.kind p = "random") by exact (proj2 (pr_ct _ _ _ _ PF)).
  assert (CT : exists k, MainModel.catalogues w p = MainModel.Go k /\ k 1 = canon (rows c)).
  { unfold MainModel.catalogues, MainModel.load_if. rewrite KD.
    change (MainModel.flag_data "random") with false. change (MainModel.flag_rand "random") with true. cbv zeta iota.
    change (ParamFileModel.core p) with (cpp q). cbn [MainModel.andthen]. rewrite DF, LD. cbn [MainModel.andthen].
    eexists. split; reflexivity. }
  destruct CT as (k & CT & K1).
  destruct (window_as_program 0 demo_env w p true (with_set s) 1 (fun _ => c) x k)
    as (g & r & path & G & M & SR & _);
    try reflexivity; try assumption; try (rewrite UX; assumption); try (rewrite UX; reflexivity).
  { rewrite UX, BL. cbn; auto. } { rewrite UX, BX. exact PL. }
  { rewrite UX, BX. apply narrow; [exact St|exact PL|]. destruct St as (_ & B & _).
    intros i. destruct (B i) as (R & _). unfold range_of in R. unfold col in R. rewrite CX, CY, CZ in R.
    destruct i; cbn in R |- *; destruct R as ([R1|[]] & [R2|[]] & _); rewrite <- R1, <- R2; lra. }
  { rewrite K1. apply MainProps.particles_has, canon_has, NE. }
  exists s, c, x, w, p, g, r, path. auto.
Qed.

(** A stray coordinate is put at one end of the box by Python and at the other
    by the program. *)
Theorem stray_apart L x k : (0 < L)%R -> (1 <= k)%Z -> x = (- IZR k * L)%R -> pymod x L = 0%R /\ wrap_coord L x = L.
Proof.
  intros P K E. split.
  - unfold pymod. rewrite E. replace (- IZR k * L / L)%R with (IZR (- k)) by (rewrite opp_IZR; field; lra).
    rewrite Zfloor_IZR, opp_IZR. ring.
  - apply (wrap_coord_range L x P). eauto.
Qed.

(** Asked for wide-angle terms, the Python function measures them under the
    name of the plain window function. *)
Theorem wide_angle_name fuel e a r s x o : orders a = Some o -> compute_3pcf_window fuel e a r s = Returns x ->
  stat (called x) = MainModel.ThreePcfWindow true /\ statistic_type (msr (par (called x))) = "3pcf-win" /\
  MainModel.statistic_of (statistic_type (msr (par (called x)))) = Some (MainModel.ThreePcfWindow false).
Proof.
  intros O H. unfold compute_3pcf_window, window in H. rewrite O in H. cbv zeta in H.
  apply andthen_returns in H as (q & PR & H). apply andthen_returns in H as (b & _ & H).
  destruct (unset q "boxsize"); [discriminate|]. apply andthen_returns in H as (l & _ & H).
  destruct (negb _); [discriminate|].
  apply andthen_returns in H as (s1 & _ & H). apply andthen_returns in H as (s2 & _ & H).
  apply andthen_returns in H as (cr & _ & H). apply andthen_returns in H as (part & _ & H). apply andthen_returns in H as (mesh & _ & H).
  apply andthen_returns in H as (f & _ & H). apply andthen_returns in H as (pr & _ & H). injection H as <-. cbn [called stat par].
  split; [reflexivity|]. rewrite (proj2 (pr_st _ _ _ _ (prepared_facts _ _ _ _ _ _ _ PR))). split; reflexivity.
Qed.

Print Assumptions window_as_program.
Print Assumptions window_padded.
Print Assumptions window_outcome.
Print Assumptions window_alignment_refuted.
Print Assumptions window_case.
Print Assumptions stray_apart.
Print Assumptions wide_angle_name.
