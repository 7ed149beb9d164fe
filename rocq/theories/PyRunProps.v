(* C104-C109: the Python measurement functions (twopt.py, threept.py). *)
From Coq Require Import String Ascii List Arith ZArith Reals Bool Lia Lra FunctionalExtensionality.
From Verif Require Import Base StrModel StrProps Dec ArrayModel ArrayProofs
  MeshModel CatModel CatProps PyCatModel PyCatProps ParamModel ParamProps ParamValProps ParamFixProps.
From Verif Require Import PyParamModel PyParamProofs PyParamProps PyAmalgModel PyAmalgProps.
From Verif Require Import PyRunModel.
From Verif Require ParamFileModel MainModel MainProps NormProps BinningModel BinningProps NormModel LoadModel LoadProps.
Import ListNotations.
Local Open Scope R_scope.
Local Open Scope nat_scope.
Local Open Scope string_scope.

Notation andthen := PyRunModel.andthen.

Lemma andthen_returns {A B} (x : ends A) (f : A -> ends B) b :
  andthen x f = Returns b <-> exists a, x = Returns a /\ f a = Returns b.
Proof.
  destruct x; cbn [andthen]; split; try discriminate; try (intros (? & K & _); discriminate).
  - intros H. eauto.
  - intros (a' & K & H). now injection K as ->.
Qed.

Lemma python_returns {A} (r : res A) a : python r = Returns a <-> r = Ok a.
Proof. destruct r as [x|x]; cbn; [|destruct x]; split; intros H; try discriminate; congruence. Qed.
Lemma wrapped_returns {A} (r : res A) a : PyRunModel.wrapped r = Returns a <-> r = Ok a.
Proof. destruct r as [x|x]; cbn; [|destruct x]; split; intros H; try discriminate; congruence. Qed.
Lemma bare_returns {A} (r : res A) a : bare r = Returns a <-> r = Ok a.
Proof. destruct r as [x|x]; cbn; [|destruct x]; split; intros H; try discriminate; congruence. Qed.

Ltac invr H :=
  repeat match type of H with
  | andthen _ _ = Returns _ => apply andthen_returns in H as (? & ? & H)
  end.

(* ------------------------------------------------------------------ *)
(** * The parameter set a measurement uses *)

Lemma prepared_parsed fuel e three ct st a s : prepared fuel e three ct st a = Returns s ->
  exists c b d, parse fuel e c b d = (entries s, Ok (cpp s, bar s)) /\
    dget "catalogue_type" d = Some (VStr ct) /\ dget "statistic_type" d = Some (VStr st).
Proof.
  unfold prepared. destruct (paramset a) as [s0|].
  - destruct (amalgamate_set _ _ _ _ _ _) as [o [[]|x]] eqn:E; [|intros H; apply python_returns in H; discriminate].
    intros H. apply python_returns in H. revert E. unfold amalgamate_set.
    destruct (overrides _ _ _ _ _) as [[o1 df] [[]|x]]; [|discriminate].
    destruct o1 as [d1 [[q pb]|x]]; [|discriminate].
    cbv zeta. intros K. injection K as K1 K2.
    unfold update in K1. cbn [cpp bar entries] in K1.
    destruct o as [d2 [[q2 pb2]|x]]; [|discriminate]. cbn in H. injection H as <-. cbn [entries cpp bar].
    exists q, pb, (dupdate (types ct st) d1). split; [exact K1|].
    unfold types. cbn [dupdate]. split.
    + rewrite dget_dset_other by discriminate. apply dget_dset_same.
    + apply dget_dset_same.
  - intros H. apply andthen_returns in H as (o & H1 & H2). apply python_returns in H1, H2.
    unfold measure_new in H1. destruct (amalgamate_new _ _ _ _) as [[d df]|x] eqn:E; cbn [bind] in H1; [|discriminate].
    injection H1 as H1. cbn [fst] in H1. unfold construct in H1.
    destruct o as [d2 [[q2 pb2]|x]]; [|discriminate]. cbn in H2. injection H2 as <-. cbn [entries cpp bar].
    exists cpp_default, "false", d. split; [exact H1|].
    unfold amalgamate_new in E. destruct (enough three (sampling a) (margs_of a)); [|discriminate].
    destruct (overrides plain _ _ _ _) as [[d3 df3] [[]|x]]; [|discriminate]. injection E as <- _.
    unfold types. cbn [dupdate]. split.
    + rewrite dget_dset_other by discriminate. apply dget_dset_same.
    + apply dget_dset_same.
Qed.

(** What its entries and its C++ side have in common. *)
Record parsed (e : pyenv) (ct st : string) (s : pset) : Prop := {
  pr_checked : MainProps.checked (lib e) (cpp s);
  pr_ct : dget "catalogue_type" (entries s) = Some (VStr ct) /\ catalogue_type (msr (cpp s)) = lower ct;
  pr_st : dget "statistic_type" (entries s) = Some (VStr st) /\ statistic_type (msr (cpp s)) = lower st;
  pr_box : unset s "boxsize" = false -> box_of s = Returns (boxsize (smp (cpp s)));
  pr_expand : forall v, dget "expand" (entries s) = Some v -> v <> VNone -> to_float v = Ok (expand (smp (cpp s)));
  pr_align : forall v, dget "alignment" (entries s) = Some v -> v <> VNone ->
    exists t, v = VStr t /\ alignment (smp (cpp s)) = lower t;
  pr_scale : forall v, dget "padscale" (entries s) = Some v -> v <> VNone ->
    exists t, v = VStr t /\ padscale (smp (cpp s)) = lower t;
  pr_factor : forall v, dget "padfactor" (entries s) = Some v -> v <> VNone ->
    to_float v = Ok (padfactor (smp (cpp s)));
  pr_norm : forall v, dget "norm_convention" (entries s) = Some v -> v <> VNone ->
    exists t, v = VStr t /\ norm_convention (msr (cpp s)) = lower t;
  pr_binning : forall v, dget "binning" (entries s) = Some v -> v <> VNone ->
    exists t, v = VStr t /\ ParamModel.binning (msr (cpp s)) = lower t;
  pr_space : dget "space" (entries s) = Some (VStr (space (msr (cpp s))));
  pr_range : exists a b rest, dget "range" (entries s) = Some (VList (a :: b :: rest)) /\
    to_float a = Ok (bin_min (msr (cpp s))) /\ to_float b = Ok (bin_max (msr (cpp s)));
  pr_num : exists v, dget "num_bins" (entries s) = Some v /\ to_int v = Ok (num_bins (msr (cpp s)))
}.

Lemma triple_old {A} (f : pyval -> res A) d k o o' :
  existsb is_none (values d k) = false -> r_triple f d k o = r_triple f d k o'.
Proof.
  unfold values, r_triple. destruct (dget k d) as [[]|]; try reflexivity. now intros ->.
Qed.

Lemma parse_parsed fuel e c b d s ct st :
  parse fuel e c b d = (entries s, Ok (cpp s, bar s)) ->
  dget "catalogue_type" d = Some (VStr ct) -> dget "statistic_type" d = Some (VStr st) ->
  parsed e ct st s.
Proof.
  intros H CT ST. pose proof (parse_agree _ _ _ _ _ _ _ H) as AG.
  apply parse_ok in H as (d1 & p & P & V & F).
  assert (FA := writes_fetch (cpp s) (bar s) d1). rewrite F in FA. cbn [fst] in FA.
  apply pre_inv in P as ([] & _ & _).
  assert (GG : forall j x, ~ In j fetched -> dget j (entries s) = Some x -> dget j d1 = Some x).
  { intros j x N. now rewrite <- (FA j N). }
  assert (VO := validate_outcome _ _ _ _ _ V). destruct VO as (U & _).
  destruct U as (u1&u2&u3&u4&u5&u6&u7&u8&u9&u10&u11&u12&u13&u14&u15&u16&u17&u18&u19&u20).
  assert (L : forall key o x v, ~ In key fetched -> r_lower d1 key o = Ok x ->
              dget key (entries s) = Some v -> v <> VNone -> exists t, v = VStr t /\ x = lower t).
  { intros key o x v N R E NV. apply GG in E; [|exact N]. unfold r_lower in R. rewrite E in R.
    destruct v; try discriminate; [contradiction|]. injection R as <-. eauto. }
  assert (CT' : dget "catalogue_type" (entries s) = Some (VStr ct)) by (rewrite AG by notin; exact CT).
  assert (ST' : dget "statistic_type" (entries s) = Some (VStr st)) by (rewrite AG by notin; exact ST).
  constructor.
  - do 3 eexists. exact V.
  - split; [exact CT'|]. rewrite u8. destruct (L "catalogue_type" _ _ _ ltac:(notin) rd_ctype CT' ltac:(discriminate)) as (t & E & ->).
    now injection E as ->.
  - split; [exact ST'|]. rewrite u9. destruct (L "statistic_type" _ _ _ ltac:(notin) rd_stype ST' ltac:(discriminate)) as (t & E & ->).
    now injection E as ->.
  - intros B. unfold box_of, PyRunModel.axes. apply python_returns. rewrite u1, <- rd_box.
    rewrite (triple_ext to_float d1 (entries s) "boxsize") by (apply FA; notin).
    apply triple_old. unfold unset in B. rewrite (values_ext d1 (entries s)) in B by (apply FA; notin). exact B.
  - intros v E N. apply GG in E; [|notin]. rewrite u2, <- rd_expand. unfold r_float. rewrite E.
    destruct v; try reflexivity. contradiction.
  - intros v E N. rewrite u4. eapply L; eauto. notin.
  - intros v E N. rewrite u5. eapply L; eauto. notin.
  - intros v E N. apply GG in E; [|notin]. rewrite u6, <- rd_padfactor. unfold r_float. rewrite E.
    destruct v; try reflexivity. contradiction.
  - intros v E N. rewrite u14. eapply L; eauto. notin.
  - intros v E N. rewrite u15. eapply L; eauto. notin.
  - apply fetch_ok in F as []. assumption.
  - unfold r_range in rd_range. destruct (dget "range" d1) as [v|] eqn:E; [|discriminate].
    destruct v as [| | | | |l|]; try discriminate. destruct (existsb is_none l); [discriminate|].
    destruct l as [|x [|y l]]; try discriminate.
    destruct (to_float x) as [fx|] eqn:EX; cbn [bind] in rd_range; [|discriminate].
    destruct (to_float y) as [fy|] eqn:EY; cbn [bind] in rd_range; [|discriminate].
    injection rd_range as E1 E2. exists x, y, l. rewrite (FA "range") by notin.
    rewrite u16, u17, <- E1, <- E2. auto.
  - unfold r_num_bins in rd_num_bins. destruct (dget "num_bins" d1) as [v|] eqn:E; [|discriminate].
    exists v. rewrite (FA "num_bins") by notin. split; [exact E|]. rewrite u18.
    destruct v; try discriminate; rewrite <- rd_num_bins; reflexivity.
Qed.

Lemma prepared_facts fuel e three ct st a s : prepared fuel e three ct st a = Returns s -> parsed e ct st s.
Proof. intros H. apply prepared_parsed in H as (c & b & d & P & A & B). eapply parse_parsed; eauto. Qed.

(* ------------------------------------------------------------------ *)
(** * C107: settings a parameter set accepts and a measurement does not take *)

Lemma types_pass e ct st s l : parsed e ct st s -> In st l -> checked_types ct l s = Returns tt.
Proof.
  intros P I. unfold checked_types, entry, getitem.
  rewrite (proj1 (pr_ct _ _ _ _ P)), (proj1 (pr_st _ _ _ _ P)). cbn [python andthen is_text].
  rewrite String.eqb_refl. cbn [negb]. destruct (existsb _ _) eqn:E; [reflexivity|exfalso].
  assert (X : existsb (is_text (VStr st)) l = true).
  { apply existsb_exists. exists st. split; [exact I|]. cbn [is_text]. apply String.eqb_refl. }
  congruence.
Qed.

(** The public survey and box measurements, by number of points and names. *)
Definition two_or_three (three : bool) (st : string) : Prop :=
  In st (if three then ["bispec"; "3pcf"] else ["powspec"; "2pcf"]).

(** A measurement that returns had a box size: the documented sizing of an
    unset box from the catalogue and the expansion factor never happens. *)
Theorem box_must_be_given fuel e three st name a s d x :
  ((exists r, survey fuel e three st name a d r s = Returns x) \/
   box fuel e three st name a d s = Returns x \/
   window fuel e three a d s = Returns x) ->
  forall b, dget "boxsize" (entries (used x)) = Some (VDict b) ->
  forall ax v, In (ax, v) b -> v <> VNone.
Proof.
  intros H.
  assert (U : unset (used x) "boxsize" = false).
  { assert (BX : forall p ln, boxed p = Returns ln -> unset p "boxsize" = false).
    { intros p ln B. unfold boxed in B. apply andthen_returns in B as (u & B & _). unfold box_given in B.
      destruct (unset p "boxsize"); [|reflexivity]. apply andthen_returns in B as (v & _ & B).
      destruct v; discriminate. }
    destruct H as [(r & H)|[H|H]]; unfold survey, box, window in H.
    - invr H. repeat match goal with K : _ * _ |- _ => destruct K end.
      invr H. destruct (Reqb _ _); [discriminate|]. invr H. injection H as <-. cbn [used]. eauto.
    - invr H. injection H as <-. cbn [used]. eauto.
    - cbv zeta in H. apply andthen_returns in H as (p & _ & H). apply andthen_returns in H as (b & _ & H).
      destruct (unset p "boxsize") eqn:E; [discriminate|]. invr H. destruct (negb _); [discriminate|].
      invr H. injection H as <-. exact E. }
  intros b E ax v I N. unfold unset, values in U. rewrite E in U.
  assert (X : existsb is_none (map snd b) = true).
  { apply existsb_exists. exists v. split; [apply (in_map snd) in I; exact I|]. now rewrite N. }
  congruence.
Qed.

(** What it does instead: whatever the catalogues and the expansion factor,
    it raises. *)
Theorem unset_box_raises fuel e three st name a s d r p b :
  two_or_three three name ->
  (prepared fuel e three "survey" name a = Returns p -> bins_of a p = Returns b ->
   unset p "boxsize" = true -> forall v, dget "expand" (entries p) = Some v ->
   survey fuel e three st name a d r s =
     Raises match v with VInt _ | VBool _ => ValueError | _ => TypeError end) /\
  (prepared fuel e three "sim" name a = Returns p -> bins_of a p = Returns b ->
   unset p "boxsize" = true -> forall v, dget "expand" (entries p) = Some v ->
   box fuel e three st name a d s =
     Raises match v with VInt _ | VBool _ => ValueError | _ => TypeError end) /\
  (prepared fuel e three "random" (if three then "3pcf-win" else "2pcf-win") a = Returns p ->
   bins_of a p = Returns b -> unset p "boxsize" = true ->
   window fuel e three a d s = Raises TypeError).
Proof.
  intros N. split; [|split]; intros P B U.
  - intros v E. unfold survey. rewrite P. cbn [andthen].
    rewrite (types_pass e _ _ _ _ (prepared_facts _ _ _ _ _ _ _ P) N). cbn [andthen]. rewrite B.
    cbn [andthen]. unfold boxed, box_given. rewrite U. unfold entry, getitem. rewrite E.
    cbn [python andthen]. now destruct v.
  - intros v E. unfold box. rewrite P. cbn [andthen].
    rewrite (types_pass e _ _ _ _ (prepared_facts _ _ _ _ _ _ _ P) N). cbn [andthen]. rewrite B.
    cbn [andthen]. unfold boxed, box_given. rewrite U. unfold entry, getitem. rewrite E.
    cbn [python andthen]. now destruct v.
  - unfold window. cbv zeta. rewrite P. cbn [andthen]. rewrite B. cbn [andthen]. now rewrite U.
Qed.

(** A call with a parameter set and nothing else. *)
Definition with_set (s : pset) : args :=
  {| sampling := None; degree := None; degrees := None; orders := None; PyRunModel.binning := None;
     PyRunModel.form := None; index := None; paramset := Some s; los_data := None; los_rand := None |}.

Lemma prepared_set fuel e three ct st s :
  prepared fuel e three ct st (with_set s) = python (as_pset (update fuel e (types ct st) s)).
Proof.
  unfold prepared, with_set. cbn [paramset sampling]. unfold amalgamate_set.
  rewrite overrides_none. 
  unfold overrides, modify_sampling, modify_measurement, check_defaults, override, has.
  cbn. destruct s as [en q pb]. cbn [entries cpp bar].
  rewrite !andb_false_r. cbn [PyParamModel.andthen].
  destruct (update fuel e _ _) as [d [[q' pb']|x]]; cbn [snd]; [reflexivity|].
  destruct x; reflexivity.
Qed.

(* ------------------------------------------------------------------ *)
(** * Catalogues on both sides *)

(** The particles a Python catalogue stands for. *)
Definition rows (c : pycat) : list pdatum :=
  zip_columns (col_x c) (col_y c) (col_z c) (col_nz c) (col_ws c) (col_wc c).

(** The C++ catalogue determined by its particles. *)
Definition canon (ps : list pdatum) : catalogue :=
  refresh (Catalogue None (rsum (map p_w ps)) (rsum (map p_ws ps)) (T3 0%R 0%R 0%R) (T3 0%R 0%R 0%R) (T3 0%R 0%R 0%R)) ps.

Lemma canon_has ps : ps <> [] -> CatProps.has (canon ps) ps.
Proof. apply refresh_has. Qed.

Lemma canon_weights ps : wtotal (canon ps) = rsum (map p_w ps) /\ wstotal (canon ps) = rsum (map p_ws ps).
Proof. unfold canon. now destruct (refresh_weights (Catalogue None (rsum (map p_w ps)) (rsum (map p_ws ps)) (T3 0%R 0%R 0%R) (T3 0%R 0%R 0%R) (T3 0%R 0%R 0%R)) ps) as [-> ->]. Qed.

Lemma triple_axes {A} (t u : triple A) : (forall i, at_axis i t = at_axis i u) -> t = u.
Proof. intros H. destruct t as [t0 t1 t2], u as [u0 u1 u2]. f_equal; [exact (H AX)|exact (H AY)|exact (H AZ)]. Qed.

Lemma canon_unique c ps : CatProps.has c ps -> wtotal c = rsum (map p_w ps) -> wstotal c = rsum (map p_ws ps) ->
  extents_current c -> c = canon ps.
Proof.
  intros [P N] W WS E. destruct (canon_has ps N) as [P' _]. destruct (canon_weights ps) as [W' WS'].
  pose proof (refresh_current (Catalogue None (rsum (map p_w ps)) (rsum (map p_ws ps)) (T3 0%R 0%R 0%R) (T3 0%R 0%R 0%R) (T3 0%R 0%R 0%R)) ps N : extents_current (canon ps)) as E'.
  unfold extents_current in E, E'. rewrite P in E. rewrite P' in E'.
  assert (M : pos_min c = pos_min (canon ps)).
  { apply triple_axes. intros i. destruct (E i) as [E1 _], (E' i) as [E1' _]. exact (proj1 (extremes_unique _ _ _ _ _ _ E1 E1')). }
  assert (X : pos_max c = pos_max (canon ps)).
  { apply triple_axes. intros i. destruct (E i) as [E1 _], (E' i) as [E1' _]. exact (proj2 (extremes_unique _ _ _ _ _ _ E1 E1')). }
  assert (S : pos_span c = pos_span (canon ps)).
  { apply triple_axes. intros i. destruct (E i) as [_ ->], (E' i) as [_ ->]. now rewrite M, X. }
  destruct c as [pd w ws lo hi sp]. cbn [pdata wtotal wstotal pos_min pos_max pos_span] in *.
  destruct (canon ps) as [pd' w' ws' lo' hi' sp']. cbn [pdata wtotal wstotal pos_min pos_max pos_span] in *.
  congruence.
Qed.

Lemma rows_ne c : square c -> nonempty c -> rows c <> [].
Proof.
  intros (Q1 & Q2 & Q3 & Q4 & Q5) N Z. apply (f_equal (@length _)) in Z. unfold rows in Z.
  rewrite zip_length in Z by congruence. apply (N AX). cbn [col]. now apply length_zero_iff_nil.
Qed.

Lemma rows_pick c : square c -> forall i, axis_of (at_axis i) (rows c) = col i c.
Proof.
  intros (Q1 & Q2 & Q3 & Q4 & Q5). unfold rows.
  destruct c as [x y z nz ws wc bo sp n w1 w2]. cbn [col_x col_y col_z col_nz col_ws col_wc] in *.
  assert (H : forall i, axis_of (at_axis i) (zip_columns x y z nz ws wc) = match i with AX => x | AY => y | AZ => z end).
  2:{ intros i. rewrite H. now destruct i. }
  clear bo sp n w1 w2. revert y z nz ws wc Q1 Q2 Q3 Q4 Q5.
  induction x as [|x0 x IH]; intros [|y0 y] [|z0 z] [|n0 nz] [|s0 ws] [|c0 wc]; cbn [length]; intros; try discriminate.
  - now destruct i.
  - cbn [zip_columns axis_of map]. specialize (IH y z nz ws wc ltac:(lia) ltac:(lia) ltac:(lia) ltac:(lia) ltac:(lia) i).
    unfold axis_of in *. rewrite IH. now destruct i.
Qed.

Lemma rows_ws c : square c -> map p_ws (rows c) = col_ws c.
Proof.
  intros (Q1 & Q2 & Q3 & Q4 & Q5). unfold rows.
  destruct c as [x y z nz ws wc bo sp n w1 w2]. cbn [col col_x col_y col_z col_nz col_ws col_wc] in *. clear bo sp n w1 w2.
  revert y z nz ws wc Q1 Q2 Q3 Q4 Q5.
  induction x as [|x0 x IH]; intros [|y0 y] [|z0 z] [|n0 nz] [|s0 ws] [|c0 wc]; cbn [length]; intros; try discriminate; [reflexivity|].
  cbn [zip_columns map p_ws]. f_equal. apply IH; lia.
Qed.

Lemma rows_moved d c c' : square c -> py_moved (CatProps.on_axes d) c c' -> rows c' = map (shift_pos d) (rows c) /\ square c'.
Proof.
  intros (Q1 & Q2 & Q3 & Q4 & Q5) (M & (E4 & E5 & E6 & _) & _). unfold rows.
  pose proof (M AX) as EX. pose proof (M AY) as EY. pose proof (M AZ) as EZ. cbn [col CatProps.on_axes] in EX, EY, EZ.
  unfold square. rewrite EX, EY, EZ, E4, E5, E6, !map_length. split; [|auto].
  clear - Q1 Q2 Q3 Q4 Q5.
  destruct c as [x y z nz ws wc bo sp n w1 w2]. cbn [col col_x col_y col_z col_nz col_ws col_wc] in *. clear bo sp n w1 w2.
  revert y z nz ws wc Q1 Q2 Q3 Q4 Q5.
  induction x as [|x0 x IH]; intros [|y0 y] [|z0 z] [|n0 nz] [|s0 ws] [|c0 wc]; cbn [length]; intros; try discriminate; [reflexivity|].
  cbn [zip_columns map]. f_equal. apply IH; lia.
Qed.

Lemma converted_canon c : square c -> nonempty c -> converted c = Returns (canon (rows c)).
Proof.
  intros S N. pose proof S as (Q1 & Q2 & Q3 & Q4 & Q5). unfold converted.
  assert (L : 0 < length (col_x c)).
  { specialize (N AX). cbn [col] in N. destruct (col_x c); [contradiction|cbn; lia]. }
  destruct (proj1 (load_particle_data_spec (fun _ => catalogue_new) 0 (col_x c) (col_y c) (col_z c)
    (col_nz c) (col_ws c) (col_wc c)) ltac:(repeat split; assumption)) as (s' & ps & E & H & _ & _ & W & WS & EX & _).
  rewrite E. f_equal.
  assert (P : pdata (s' 0) = Some (rows c)).
  { revert E. unfold load_particle_data. rewrite Q1, Q2, Q3, Q4, Q5, !Nat.eqb_refl. cbn [andb negb].
    replace (Nat.eqb _ 0) with false by (symmetry; apply Nat.eqb_neq; lia).
    unfold set_pdata, calc_total_weights, calc_pos_extents, CatModel.andthen, get, put, upd.
    cbn -[zip_columns rsum map run_min run_max axis_of]. fold (rows c).
    destruct (rows c) as [|r0 rs] eqn:R; [now apply rows_ne in R|].
    cbn -[rsum map run_min run_max axis_of]. intros E. now injection E as <-. }
  destruct H as [H1 H2]. assert (ps = rows c) as -> by congruence.
  apply canon_unique; [split|..]; assumption.
Qed.

Lemma shifted_canon d ps : ps <> [] -> shifted d (canon ps) ps = canon (map (shift_pos d) ps).
Proof.
  intros N. apply canon_unique.
  - now apply shifted_has.
  - unfold shifted. destruct (refresh_weights (canon ps) (map (shift_pos d) ps)) as [-> _].
    destruct (canon_weights ps) as [-> _]. f_equal. rewrite map_map. now apply map_ext.
  - unfold shifted. destruct (refresh_weights (canon ps) (map (shift_pos d) ps)) as [_ ->].
    destruct (canon_weights ps) as [_ ->]. f_equal. rewrite map_map. now apply map_ext.
  - apply refresh_current. now apply map_nonempty.
Qed.

(** Their bounds are the same numbers. *)
Lemma bounds_canon c : square c -> bounds_current c -> forall i,
  at_axis i (pos_min (canon (rows c))) = fst (at_axis i (bounds c)) /\
  at_axis i (pos_max (canon (rows c))) = snd (at_axis i (bounds c)).
Proof.
  intros S B i. destruct (B i) as [Rg _].
  pose proof (rows_ne c S (bounds_nonempty _ B)) as N.
  pose proof (refresh_extremes i (Catalogue None (rsum (map p_w (rows c))) (rsum (map p_ws (rows c))) (T3 0%R 0%R 0%R) (T3 0%R 0%R 0%R) (T3 0%R 0%R 0%R)) (rows c) N) as E.
  fold (canon (rows c)) in E. destruct E as ((p & I1 & E1) & (q & I2 & E2) & E3).
  assert (X : range_of (col i c) (at_axis i (pos_min (canon (rows c)))) (at_axis i (pos_max (canon (rows c))))).
  { rewrite <- (rows_pick c S i).
    split; [rewrite <- E1; apply at_axis_In, I1|]. split; [rewrite <- E2; apply at_axis_In, I2|].
    intros x I. unfold axis_of in I. apply in_map_iff in I as (u & <- & I). exact (E3 u I). }
  exact (range_unique _ _ _ _ _ X Rg).
Qed.

Lemma canon_refresh ps : ps <> [] -> refresh (canon ps) ps = canon ps.
Proof. intros N. apply refresh_ext; [apply canon_weights..|exact N]. Qed.

(** What is known of a catalogue that is in step, and of where a shift puts it. *)
Definition current (c : pycat) : Prop := square c /\ bounds_current c /\ py_wstotal c = rsum (col_ws c).

Lemma in_step_current c : py_in_step c -> current c.
Proof. intros (A & B & _ & _ & D). split; [exact A|]. split; assumption. Qed.

Lemma moved_current' d c c' : current c -> py_moved (CatProps.on_axes d) c c' -> current c' /\ rows c' = map (shift_pos d) (rows c).
Proof.
  intros (S & B & W) M. destruct (rows_moved d c c' S M) as [E S']. split; [|exact E].
  destruct M as (_ & (_ & E5 & _ & _ & _ & E9) & B'). split; [exact S'|]. split; [exact B'|]. congruence.
Qed.

Lemma both_eq s d r : s 0 = d -> s 1 = r -> (forall a, a <> 0 -> a <> 1 -> s a = catalogue_new) -> s = both d r.
Proof.
  intros A B C. apply functional_extensionality. intros [|[|a]]; cbn [both]; [exact A|exact B|].
  apply C; discriminate.
Qed.

(** Shifting both catalogues by a vector taken from the reference. *)
Lemma align_same s s' d r (v : catalogue -> triple R) o : d <> r -> current (s d) -> current (s r) ->
  v (canon (rows (s r))) = o -> offset_both d (Some r) o s = Ok s' ->
  current (s' d) /\ current (s' r) /\
  (calc_pos_extents 0 ;> (calc_pos_extents 1 ;>
    (do c <- get 1; (offset_coords 1 (v c) ;> offset_coords 0 (v c)))))
    (both (canon (rows (s d))) (canon (rows (s r)))) =
  (both (canon (rows (s' d))) (canon (rows (s' r))), Ok tt) /\
  (calc_pos_extents 1 ;>
    (do c <- get 1; (offset_coords 1 (v c) ;> offset_coords 0 (v c))))
    (both (canon (rows (s d))) (canon (rows (s r)))) =
  (both (canon (rows (s' d))) (canon (rows (s' r))), Ok tt).
Proof.
  intros N Cd Cr V E.
  pose proof (bounds_nonempty _ (proj1 (proj2 Cd))) as Nd. pose proof (bounds_nonempty _ (proj1 (proj2 Cr))) as Nr.
  pose proof (rows_ne _ (proj1 Cd) Nd) as Rd. pose proof (rows_ne _ (proj1 Cr) Nr) as Rr.
  destruct (offset_both_run d r o s N Nd Nr) as (s1 & E1 & Md & Mr & _). rewrite E in E1. injection E1 as <-.
  destruct (moved_current' o _ _ Cd Md) as [Cd' Ed]. destruct (moved_current' o _ _ Cr Mr) as [Cr' Er].
  split; [exact Cd'|]. split; [exact Cr'|]. rewrite Ed, Er, <- !shifted_canon by assumption.
  set (st := both _ _).
  assert (H0 : CatProps.has (st 0) (rows (s d))) by now apply canon_has.
  assert (H1 : CatProps.has (st 1) (rows (s r))) by now apply canon_has.
  split.
  - destruct (align_general st 0 1 _ _ v ltac:(discriminate) H0 H1) as (s2 & R2 & B2 & A2 & (_ & _ & _ & _ & _ & F2)).
    rewrite R2. f_equal. cbn [st both] in A2, B2. rewrite canon_refresh in A2, B2 by assumption. rewrite V in A2, B2.
    apply both_eq; [exact A2|exact B2|]. intros a Na Nb. rewrite F2 by assumption. now destruct a as [|[|a]].
  - destruct (align_general1 st 0 1 _ _ v ltac:(discriminate) H0 H1) as (s2 & R2 & B2 & A2 & (_ & _ & _ & _ & _ & F2)).
    rewrite R2. f_equal. cbn [st both] in A2, B2. rewrite canon_refresh in A2, B2 by assumption. rewrite V in A2, B2.
    apply both_eq; [exact A2|exact B2|]. intros a Na Nb. rewrite F2 by assumption. now destruct a as [|[|a]].
Qed.

(* ------------------------------------------------------------------ *)
(** * Parameters on both sides *)

(** The same build as a program of its own. *)
Definition standalone (b : build) : build :=
  {| extcall := false; gpu := gpu b; fftw_omp := fftw_omp b; environ := environ b |}.

Definition known (p : params) : Prop :=
  In (catalogue_type (msr p)) ["survey"; "random"; "sim"; "none"] /\
  In (statistic_type (msr p)) (map fst statistics).

Lemma head_standalone b init p : known p -> val_head b init p = val_head (standalone b) init p.
Proof.
  intros (C & S). unfold val_head.
  assert (E1 : forall pa, val_files b init (catalogue_type (msr p)) pa = val_files (standalone b) init (catalogue_type (msr p)) pa).
  { intros pa. unfold val_files. destruct C as [<-|[<-|[<-|[<-|[]]]]]; reflexivity. }
  assert (E2 : val_statistic b (msr p) = val_statistic (standalone b) (msr p)).
  { unfold val_statistic. f_equal. unfold val_kind. clear - S.
    cbn in S. destruct S as [<-|[<-|[<-|[<-|[<-|[<-|[<-|[<-|[<-|[]]]]]]]]]]; reflexivity. }
  change (val_dirs (standalone b) init (pths p)) with (val_dirs b init (pths p)). cbv zeta.
  rewrite E1, E2. reflexivity.
Qed.

Lemma head_known b init p q : val_head b init p = Ok q -> known p -> known q.
Proof.
  intros H (C & S). destruct (head_vals _ _ _ _ H) as (U & _). unfold untouched in U.
  destruct U as (_ & _ & _ & _ & _ & _ & _ & Ec & Et & _). unfold known. now rewrite Ec, Et.
Qed.

Lemma validate_standalone fuel b init p : known p -> validate fuel b init p = validate fuel (standalone b) init p.
Proof.
  revert init p. induction fuel as [|f IH]; intros init p K; rewrite !validate_eq, <- (head_standalone b init p K);
    (destruct (val_head b init p) as [q|x] eqn:E; cbn [bind]; [|reflexivity]); [reflexivity|].
  pose proof (head_known _ _ _ _ E K) as KQ. cbv zeta.
  destruct (_ && _); [reflexivity|]. destruct (_ <=? _)%Z; [|reflexivity]. destruct (Rltb _ 0); [reflexivity|].
  destruct (Rltb _ _); [|reflexivity]. destruct (cutoff_ngrid _ _ _) as [n|x]; cbn [bind]; [|reflexivity].
  rewrite IH; [reflexivity|exact KQ].
Qed.

Lemma checked_standalone b p : known p -> MainProps.checked b p -> MainProps.checked (standalone b) p.
Proof.
  intros K (fuel & init & p0 & H). exists fuel, init, p0. rewrite <- validate_standalone; [exact H|].
  destruct (validate_outcome _ _ _ _ _ H) as (U & _).
  destruct U as (_ & _ & _ & _ & _ & _ & _ & Ec & Et & _). unfold known in *. now rewrite <- Ec, <- Et.
Qed.

Lemma norm_params_standalone fuel b side n a p : known p ->
  norm_params fuel b side n a p = norm_params fuel (standalone b) side n a p.
Proof. intros K. unfold norm_params. apply validate_standalone. exact K. Qed.

(** A run's parameters are as settled as the program's. *)
Lemma parsed_settled e ct st s : parsed e ct st s ->
  In (lower ct) ["survey"; "random"; "sim"; "none"] -> In (lower st) (map fst statistics) ->
  known (cpp s) /\ MainProps.checked (standalone (lib e)) (cpp s) /\ MainProps.settled (cpp s).
Proof.
  intros P C S.
  assert (K : known (cpp s)) by (unfold known; now rewrite (proj2 (pr_ct _ _ _ _ P)), (proj2 (pr_st _ _ _ _ P))).
  split; [exact K|]. pose proof (checked_standalone _ _ K (pr_checked _ _ _ _ P)) as X.
  split; [exact X|]. now apply MainProps.checked_settled with (2 := X).
Qed.

(* ------------------------------------------------------------------ *)
(** * C104: a survey measured from Python and by the program *)

(** The entries read by the measurement functions say what the C++ side was
    set to: the same letters, nothing left unset, two numbers for the range,
    and grid numbers not overwritten by the C++ side. *)
Record spelled (s : pset) : Prop := {
  sp_align : dget "alignment" (entries s) = Some (VStr (alignment (smp (cpp s))));
  sp_scale : dget "padscale" (entries s) = Some (VStr (padscale (smp (cpp s))));
  sp_factor : exists v, dget "padfactor" (entries s) = Some v /\ v <> VNone;
  sp_norm : dget "norm_convention" (entries s) = Some (VStr (norm_convention (msr (cpp s))));
  sp_bin : dget "binning" (entries s) = Some (VStr (ParamModel.binning (msr (cpp s))));
  sp_range : exists a b, dget "range" (entries s) = Some (VList [a; b]);
  sp_grid : grid_of s = Returns (ngrid (smp (cpp s)))
}.

Lemma entry_is s k v : dget k (entries s) = Some v -> entry s k = Returns v.
Proof. unfold entry, getitem. now intros ->. Qed.

Lemma boxed_is e ct st s ln : parsed e ct st s -> spelled s -> boxed s = Returns ln ->
  ln = (boxsize (smp (cpp s)), ngrid (smp (cpp s))) /\ PyRunModel.has_volume (cpp s) = true.
Proof.
  intros P S H. unfold boxed in H. apply andthen_returns in H as (u & B & H).
  assert (U : unset s "boxsize" = false).
  { unfold box_given in B. destruct (unset s "boxsize"); [|reflexivity].
    apply andthen_returns in B as (v & _ & B). destruct v; discriminate. }
  destruct (unset s "ngrid"); [discriminate|]. apply andthen_returns in H as (l & E1 & H).
  apply andthen_returns in H as (n & E2 & H). rewrite (pr_box _ _ _ _ P U) in E1. rewrite (sp_grid _ S) in E2.
  destruct (PyRunModel.has_volume _); [|discriminate]. injection H as <-. injection E1 as <-. injection E2 as <-. auto.
Qed.

Lemma setup_los d r ld lr al L n s ld' lr' s' : survey_setup d r ld lr al L n s = Ok (ld', lr', s') ->
  ld' = match ld with Some l => l | None => compute_los (s d) end /\
  lr' = match lr with Some l => l | None => compute_los (s r) end.
Proof.
  unfold survey_setup. destruct (match al with PyCentre => _ | PyPadBox _ => _ | PyPadGrid _ => _ | PyNone => _ end);
    cbn [bind]; [|discriminate]. intros K. injection K as <- <- _. auto.
Qed.

Lemma aligned_same e st s al d r ld lr cs ld' lr' cs' : parsed e "survey" st s -> spelled s ->
  MainProps.settled (cpp s) ->
  alignment_of s = Returns al -> d <> r -> current (cs d) -> current (cs r) ->
  survey_setup d r ld lr al (boxsize (smp (cpp s))) (ngrid (smp (cpp s))) cs = Ok (ld', lr', cs') ->
  current (cs' d) /\ current (cs' r) /\
  MainModel.aligned "survey" (smp (cpp s)) (both (canon (rows (cs d))) (canon (rows (cs r)))) =
    (both (canon (rows (cs' d))) (canon (rows (cs' r))), Ok tt).
Proof.
  intros P S ST A N Cd Cr H.
  unfold survey_setup in H. apply bind_ok_iff in H as (cs1 & X & H). injection H as _ _ ->.
  pose proof (bounds_canon (cs r) (proj1 Cr) (proj1 (proj2 Cr))) as BC.
  pose proof (BC AX) as (X1 & X2). pose proof (BC AY) as (Y1 & Y2). pose proof (BC AZ) as (Z1 & Z2).
  cbn [CatProps.at_axis] in X1, X2, Y1, Y2, Z1, Z2. clear BC.
  unfold alignment_of in A. rewrite (entry_is _ _ _ (sp_align _ S)) in A. cbn [andthen is_text] in A.
  unfold MainModel.aligned. cbv zeta. cbn [String.eqb Ascii.eqb Bool.eqb].
  pose proof (MainProps.s_align _ ST) as SA. pose proof (MainProps.s_pad _ ST) as SP.
  destruct SA as [SA|[SA|[]]]; rewrite <- SA in A |- *; cbn [String.eqb Ascii.eqb Bool.eqb] in A |- *.
  - injection A as <-. unfold py_centre in X. cbn [ref_or_self] in X.
    edestruct (align_same cs cs' d r (fun c => tmap2 (fun m L => (m - L / 2)%R)
      (tmap2 (fun lo hi => ((lo + hi) / 2)%R) (pos_min c) (pos_max c)) (boxsize (smp (cpp s))))) as (Q1 & Q2 & Q3 & _);
      [exact N|exact Cd|exact Cr| |exact X|auto].
    unfold tmap2. cbn [ax0 ax1 ax2]. now rewrite X1, X2, Y1, Y2, Z1, Z2.
  - rewrite (entry_is _ _ _ (sp_scale _ S)) in A. cbn [andthen is_text] in A.
    destruct (sp_factor _ S) as (v & EV & NV). rewrite (entry_is _ _ _ EV) in A. cbn [andthen] in A.
    pose proof (pr_factor _ _ _ _ P v EV NV) as FV.
    assert (PO : forall make, pad_of make v = Returns (make (padfactor (smp (cpp s))))).
    { intros make. unfold pad_of. rewrite FV. destruct v; [contradiction|reflexivity..]. }
    rewrite !PO in A. clear PO.
    destruct SP as [SP|[SP|[]]]; rewrite <- SP in A |- *; cbn [String.eqb Ascii.eqb Bool.eqb] in A |- *; injection A as <-.
    + unfold py_pad in X. cbn [ref_or_self] in X.
      edestruct (align_same cs cs' d r (fun c => tsub (pos_min c) (tmap2 Rmult (T3 (padfactor (smp (cpp s))) (padfactor (smp (cpp s))) (padfactor (smp (cpp s)))) (boxsize (smp (cpp s)))))) as (Q1 & Q2 & Q3 & _);
      [exact N|exact Cd|exact Cr| |exact X|auto].
      unfold tsub, tmap, tmap2. cbn [ax0 ax1 ax2]. now rewrite X1, Y1, Z1.
    + unfold py_pad in X. cbn [ref_or_self] in X.
      edestruct (align_same cs cs' d r (fun c => tsub (pos_min c) (grid_pad (boxsize (smp (cpp s))) (ngrid (smp (cpp s))) (T3 (padfactor (smp (cpp s))) (padfactor (smp (cpp s))) (padfactor (smp (cpp s))))))) as (Q1 & Q2 & _ & Q3);
      [exact N|exact Cd|exact Cr| |exact X|auto].
      unfold grid_pad, tsub, tmap, tmap2. cbn [ax0 ax1 ax2]. rewrite X1, Y1, Z1. unfold Rdiv. now rewrite !Rmult_assoc.
Qed.

(** The three vectors of a binning object. *)
Definition vectors_of (b : BinningModel.cpp_binning) : BinningModel.bins :=
  (BinningModel.c_edges b, BinningModel.c_centres b, BinningModel.c_widths b).

Lemma bins_same e ct st s b p : parsed e ct st s -> spelled s -> MainProps.settled (cpp s) ->
  ParamFileModel.core p = cpp s -> In (ParamModel.binning (msr (cpp s))) ["lin"; "log"] ->
  from_parameter_set s = Returns b ->
  MainModel.bins p = MainModel.Go (Some (vectors_of (BinningModel.p_cpp b))).
Proof.
  intros P S ST C L H. unfold from_parameter_set in H.
  rewrite (entry_is _ _ _ (pr_space _ _ _ _ P)) in H. cbn [andthen is_text] in H.
  destruct (negb _); [discriminate|].
  rewrite (entry_is _ _ _ (sp_bin _ S)) in H. cbn [andthen] in H.
  destruct (sp_range _ S) as (x & y & R). destruct (pr_range _ _ _ _ P) as (x' & y' & rest & R' & X1 & X2).
  rewrite R in R'. injection R' as <- <- <-. rewrite (entry_is _ _ _ R) in H. cbn [andthen last] in H.
  destruct (pr_num _ _ _ _ P) as (v & V & XV). rewrite (entry_is _ _ _ V) in H. cbn [andthen] in H.
  unfold to_double, to_cint in H. rewrite X1, X2, XV in H. cbn [python andthen] in H.
  unfold MainModel.bins. cbv zeta. rewrite C.
  set (bi := ParamModel.binning (msr (cpp s))) in *.
  set (sp := MainModel.space_of (space (msr (cpp s)))) in *.
  set (lo := bin_min (msr (cpp s))) in *. set (hi := bin_max (msr (cpp s))) in *. set (n := num_bins (msr (cpp s))) in *.
  assert (NC : (bi =? "custom") = false /\ MainModel.padded bi = false /\
    (forall c, BinningModel.c_scheme c = MainModel.scheme_of bi ->
       BinningModel.compute_bins c = match MainModel.scheme_of bi with
         | BinningModel.Lin => Ok (BinningModel.lin_bins (BinningModel.c_min c) (BinningModel.c_max c) (BinningModel.c_num c))
         | _ => BinningModel.log_bins (BinningModel.c_min c) (BinningModel.c_max c) (BinningModel.c_num c)
         end)).
  { clear - L. destruct L as [<-|[<-|[]]]; (split; [reflexivity|split; [reflexivity|]]); intros c E;
      unfold BinningModel.compute_bins; rewrite E; reflexivity. }
  destruct NC as (-> & -> & NC). cbn [andb].
  rewrite (NC (BinningModel.cpp_ctor_params sp (MainModel.scheme_of bi) lo hi n _ _) eq_refl). cbn [BinningModel.cpp_ctor_params BinningModel.c_min BinningModel.c_max BinningModel.c_num].
  unfold BinningModel.py_set_bins in H. destruct (BinningModel.cpp_set_bins _ lo hi n) as [c t] eqn:E.
  unfold BinningModel.cpp_set_bins in E. cbn [BinningModel.py_new BinningModel.p_cpp BinningModel.cpp_ctor BinningModel.c_space
    BinningModel.c_scheme BinningModel.c_edges BinningModel.c_centres BinningModel.c_widths BinningModel.c_pad_fourier BinningModel.c_pad_config] in E.
  destruct t as [t|]; [exfalso; destruct t; discriminate|]. injection H as <-.
  destruct (Rltb lo 0); [discriminate|]. destruct (n <=? 0)%Z; [discriminate|].
  unfold BinningModel.cpp_set_bins0 in E. rewrite NC in E by reflexivity.
  cbn [BinningModel.c_min BinningModel.c_max BinningModel.c_num] in E.
  destruct (match MainModel.scheme_of bi with BinningModel.Lin => _ | _ => _ end) as [[[ee cc] ww]|xx]; [|discriminate].
  injection E as <-. reflexivity.
Qed.

(** Numbers computed by the C++ functions. *)
Lemma wrapped_number r x : PyRunModel.wrapped (double r) = Returns x -> MainModel.number r = MainModel.Go x.
Proof. intros H. apply wrapped_returns in H. destruct r as [y|y]; cbn in H |- *; [now injection H as <-|]. destruct y; try discriminate. now injection H as <-. Qed.
Lemma bare_number r x : bare (double r) = Returns x -> MainModel.number r = MainModel.Go x.
Proof. intros H. apply bare_returns in H. destruct r as [y|y]; cbn in H |- *; [now injection H as <-|]. destruct y; try discriminate. now injection H as <-. Qed.

Lemma mixed_same fuel b w p a s m : known (ParamFileModel.core p) -> MainModel.bld w = standalone b ->
  MainModel.fuel w = fuel ->
  mixed_norm fuel b (ParamFileModel.core p) a s = Returns m -> MainModel.meshes_norm w p a s = MainModel.Go m.
Proof.
  intros K B F H. unfold mixed_norm in H. unfold MainModel.meshes_norm.
  destruct (NormModel.norm_box _ _ _ _) as [n side]. rewrite B, F, <- norm_params_standalone by exact K.
  apply andthen_returns in H as (q & Q & H). apply bare_returns in Q. rewrite Q. cbn [MainModel.uncaught MainModel.andthen].
  cbv zeta in H |- *. unfold MainModel.run_act.
  destruct (NormModel.mixed_norm _ _ _ _ _ _ _ s) as [s2 [x|x]]; [|apply bare_returns in H; discriminate].
  apply andthen_returns in H as (y & Y & H). injection H as <-. cbn [MainModel.andthen fst snd].
  now rewrite (bare_number _ _ Y).
Qed.

(** The same request, from the two sides. *)
Definition vector (v : R * R * R) : triple R := let '(x, y, z) := v in T3 x y z.
Definition with_vectors (g : list pdatum * list (R * R * R)) : list pdatum * list (triple R) :=
  (fst g, map vector (snd g)).

Record same_request (c : call) (r : MainModel.request) : Prop := {
  q_stat : MainModel.stat r = stat c;
  q_data : MainModel.from_data r = option_map with_vectors (from_data c);
  q_rand : MainModel.from_rand r = option_map with_vectors (from_rand c);
  q_box : MainModel.in_box r = in_box c;
  q_par : ParamFileModel.core (MainModel.par r) = par c;
  q_bin : MainModel.bin r = Some (vectors_of (bin c));
  q_contrast : MainModel.contrast r = contrast c;
  q_factor : MainModel.factor r = factor c
}.

Lemma los_rows c : square c -> MainModel.lines_of_sight (canon (rows c)) = map vector (compute_los c).
Proof.
  intros S. destruct (rows c) as [|r0 rs] eqn:E.
  - assert (Z : length (col_x c) = 0).
    { pose proof S as (Q1 & Q2 & Q3 & Q4 & Q5). apply (f_equal (@length _)) in E. unfold rows in E.
      rewrite zip_length in E by congruence. exact E. }
    unfold compute_los. destruct (col_x c); [reflexivity|discriminate].
  - rewrite <- E. assert (N : rows c <> []) by congruence. clear r0 rs E.
    unfold MainModel.lines_of_sight. rewrite (MainProps.particles_has _ _ (canon_has _ N)). clear N.
    destruct S as (Q1 & Q2 & Q3 & Q4 & Q5). unfold rows, compute_los.
    destruct c as [x y z nz ws wc bo sp n w1 w2]. cbn [col_x col_y col_z col_nz col_ws col_wc] in *. clear bo sp n w1 w2.
    revert y z nz ws wc Q1 Q2 Q3 Q4 Q5.
    induction x as [|x0 x IH]; intros [|y0 y] [|z0 z] [|n0 nz] [|s0 ws] [|c0 wc]; cbn [length]; intros; try discriminate; [reflexivity|].
    cbn [zip_columns zip3 map]. f_equal; [|apply (IH y z nz ws wc); lia].
    unfold MainModel.line_of_sight, MainModel.magnitude, los_of, vector. cbn [p_pos ax0 ax1 ax2].
    now replace (x0 ^ 2 + y0 ^ 2 + z0 ^ 2)%R with (x0 * x0 + y0 * y0 + z0 * z0)%R by ring.
Qed.

Lemma with_los_inv c l g : with_los c l = Returns g -> g = (MainModel.particles c, l).
Proof. unfold with_los. cbv zeta. destruct (_ <? _)%nat; [discriminate|]. intros H. now injection H as <-. Qed.

Lemma statistic_clustering three name st : two_or_three three name -> MainModel.statistic_of name = Some st ->
  MainModel.is_window st = false /\ lower name = name /\ In name (map fst statistics).
Proof.
  unfold two_or_three. intros I E. destruct three; (destruct I as [<-|[<-|[]]]; injection E as <-; (split; [reflexivity|split; [reflexivity|cbn; tauto]])).
Qed.

Lemma npoint_named three name np sp : two_or_three three name -> In (name, (np, sp)) statistics -> np = if three then "3pt" else "2pt".
Proof.
  unfold two_or_three. cbn [In statistics]. intros TT SS.
  destruct three; destruct TT as [<-|[<-|[]]]; decompose [or] SS; try contradiction; try discriminate;
    match goal with K : (_, _) = (_, _) |- _ => injection K as <- _ end; reflexivity.
Qed.

Lemma load_canon w p file c : MainModel.load w p file = MainModel.Go c -> c = canon (MainModel.particles c).
Proof.
  unfold MainModel.load. destruct (negb _); [discriminate|].
  cbv zeta. unfold LoadModel.load_catalogue_file.
  cbn [LoadModel.fresh LoadModel.source LoadModel.body String.eqb negb].
  destruct (_ || _); [discriminate|].
  destruct (LoadModel.open_all _ _) as [texts|e]; [|destruct e; discriminate].
  unfold LoadModel.read_texts. set (n := length _).
  destruct (n =? 0)%nat eqn:N; [discriminate|].
  destruct (sequence _) as [ps|e] eqn:S; [|destruct e; discriminate].
  assert (L : length ps = n).
  { unfold n. rewrite (MainProps.sequence_length _ _ S). apply map_length. }
  assert (NE : ps <> []).
  { intros ->. apply Nat.eqb_neq in N. cbn in L. congruence. }
  destruct (LoadProps.fill_catalogue catalogue_new ps NE) as (s' & E & P1 & P2 & P3 & P4).
  rewrite E. cbn [fst snd LoadModel.body]. intros K. injection K as <-.
  rewrite (MainProps.particles_has _ _ (conj P1 NE)). now apply canon_unique.
Qed.

(** A survey measured from Python is measured alike by the program given the
    same parameters and particles. *)
Theorem survey_as_program fuel e w p three st name a d r s x cs :
  two_or_three three name -> MainModel.statistic_of name = Some st ->
  los_data a = None -> los_rand a = None -> PyRunModel.binning a = None ->
  d <> r -> py_in_step (s d) -> py_in_step (s r) ->
  survey fuel e three st name a d r s = Returns x ->
  spelled (used x) -> In (ParamModel.binning (msr (cpp (used x)))) ["lin"; "log"] ->
  ParamFileModel.core p = cpp (used x) ->
  MainModel.bld w = standalone (lib e) -> MainModel.fuel w = fuel ->
  MainModel.catalogues w p = MainModel.Go cs ->
  MainModel.particles (cs 0) = rows (s d) -> MainModel.particles (cs 1) = rows (s r) ->
  exists g q path, MainModel.session w p = MainModel.Go g /\
    MainModel.measured g = Some (q, path) /\ same_request (called x) q /\
    MainModel.n_part (MainModel.printed_norms g) = n_part (factors x) /\
    MainModel.n_mesh (MainModel.printed_norms g) = n_mesh (factors x) /\
    MainModel.n_meshes (MainModel.printed_norms g) = n_meshes (factors x).
Proof.
  intros TT ES LD LR BI N Sd Sr H SP BL CO BW FW CA P0 P1.
  unfold survey in H. apply andthen_returns in H as (q & PR & H). apply andthen_returns in H as (u & CT & H).
  apply andthen_returns in H as (b & BO & H). apply andthen_returns in H as (ln & LN & H).
  apply andthen_returns in H as (al & AL & H). apply andthen_returns in H as (y & SU & H).
  destruct y as [[ld lr] s']. apply andthen_returns in H as (cd & CD & H). apply andthen_returns in H as (cr & CR & H).
  destruct (Reqb (py_wstotal (s' r)) 0) eqn:WZ; [discriminate|]. cbv zeta in H.
  apply andthen_returns in H as (part & PN & H). apply andthen_returns in H as (mesh & MN & H).
  apply andthen_returns in H as (m & MM & H). apply andthen_returns in H as (f & FO & H).
  apply andthen_returns in H as (pd & PD & H). apply andthen_returns in H as (pr & PRr & H).
  injection H as <-. cbn [called factors used] in *.
  pose proof (prepared_facts _ _ _ _ _ _ _ PR) as PF.
  destruct (statistic_clustering _ _ _ TT ES) as (IW & LO & KN).
  destruct (parsed_settled _ _ _ _ PF ltac:(cbn; tauto) ltac:(now rewrite LO)) as (KK & CK & ST).
  destruct (boxed_is _ _ _ _ _ PF SP LN) as (-> & HV). cbn [fst snd] in SU.
  apply python_returns in SU. pose proof (setup_los _ _ _ _ _ _ _ _ _ _ _ SU) as (-> & ->). rewrite LD, LR in *.
  pose proof (in_step_current _ Sd) as Cd. pose proof (in_step_current _ Sr) as Cr.
  destruct (aligned_same _ _ _ _ _ _ _ _ _ _ _ _ PF SP ST AL N Cd Cr SU) as (Cd' & Cr' & AS).
  rewrite (converted_canon _ (proj1 Cd') (bounds_nonempty _ (proj1 (proj2 Cd')))) in CD. injection CD as <-.
  rewrite (converted_canon _ (proj1 Cr') (bounds_nonempty _ (proj1 (proj2 Cr')))) in CR. injection CR as <-.
  (* the program *)
  assert (KD : MainModel.kind p = "survey") by (unfold MainModel.kind; rewrite CO; exact (proj2 (pr_ct _ _ _ _ PF))).
  assert (STP : statistic_type (msr (cpp q)) = name) by (rewrite (proj2 (pr_st _ _ _ _ PF)); exact LO).
  assert (CS : cs = both (canon (rows (s d))) (canon (rows (s r)))).
  { unfold MainModel.catalogues, MainModel.load_if in CA. rewrite KD in CA.
    change (MainModel.flag_data "survey") with true in CA. change (MainModel.flag_rand "survey") with true in CA. cbv iota in CA.
    destruct (MainModel.load _ _ _) as [|c0] eqn:E0 in CA; cbn [MainModel.andthen] in CA; [discriminate|].
    destruct (MainModel.load _ _ _) as [|c1] eqn:E1 in CA; cbn [MainModel.andthen] in CA; [discriminate|].
    injection CA as <-. apply load_canon in E0, E1. rewrite P0 in E0. rewrite P1 in E1. now rewrite E0, E1. }
  assert (BN : MainModel.bins p = MainModel.Go (Some (vectors_of (BinningModel.p_cpp b)))).
  { unfold bins_of in BO. rewrite BI in BO. exact (bins_same _ _ _ _ _ _ PF SP ST CO BL BO). }
  assert (SZ : MainModel.sized w p cs = MainModel.Go p).
  { unfold MainModel.sized. cbv zeta. rewrite KD, CO. cbn [MainModel.flag_data orb String.eqb Ascii.eqb Bool.eqb].
    change (MainModel.flag_data "survey") with true; cbn [orb]; cbv iota.
    unfold PyRunModel.has_volume in HV. apply andb_true_iff in HV as [HV _]. apply Rltb_spec in HV.
    destruct (Reqb (volume (smp (cpp q))) 0) eqn:Z; [|reflexivity]. apply Reqb_spec in Z. rewrite Z in HV. lra. }
  assert (HV' : MainModel.has_volume p = true).
  { unfold MainModel.has_volume. cbv zeta. rewrite CO. unfold PyRunModel.has_volume in HV. now rewrite HV. }
  set (al0 := (py_wstotal (s' d) / py_wstotal (s' r))%R) in *.
  assert (AO : MainModel.alpha_of "survey" (both (canon (rows (s' d))) (canon (rows (s' r)))) = Some al0).
  { unfold MainModel.alpha_of. change (MainModel.flag_data "survey" && MainModel.flag_rand "survey") with true. cbv iota.
    cbn [both]. destruct (canon_weights (rows (s' d))) as [_ ->]. destruct (canon_weights (rows (s' r))) as [_ ->].
    rewrite !rows_ws by apply Cd' || apply Cr'. rewrite <- (proj2 (proj2 Cd')), <- (proj2 (proj2 Cr')), WZ. reflexivity. }
  assert (NP : npoint (msr (cpp q)) = if three then "3pt" else "2pt").
  { pose proof (MainProps.s_stat _ ST) as SS. rewrite STP in SS. exact (npoint_named _ _ _ _ TT SS). }
  assert (NO : MainModel.norms_of w p al0 (both (canon (rows (s' d))) (canon (rows (s' r)))) =
    MainModel.Go (fst m, {| MainModel.n_part := part; MainModel.n_mesh := mesh; MainModel.n_meshes := snd m |})).
  { unfold MainModel.norms_of. cbv zeta. rewrite KD, CO. change (MainModel.flag_rand "survey") with true. cbv iota.
    unfold part_norm in PN. apply wrapped_number in PN. unfold mesh_norm in MN. apply bare_number in MN. cbn [both].
    rewrite NP. destruct three; cbn [String.eqb Ascii.eqb Bool.eqb]; rewrite PN; cbn [MainModel.andthen]; rewrite MN; cbn [MainModel.andthen].
    - injection MM as <-. reflexivity.
    - rewrite <- CO in MM, KK. rewrite (mixed_same _ _ _ _ _ _ _ KK BW FW MM). reflexivity. }
  assert (FA : MainModel.factor_of (msr (ParamFileModel.core p)) {| MainModel.n_part := part; MainModel.n_mesh := mesh; MainModel.n_meshes := snd m |} = f).
  { rewrite CO. unfold factor_of in FO. rewrite (entry_is _ _ _ (sp_norm _ SP)) in FO. cbn [andthen] in FO.
    unfold MainModel.factor_of. cbn [MainModel.n_part MainModel.n_mesh MainModel.n_meshes n_part n_mesh n_meshes is_text] in *.
    pose proof (MainProps.s_norm _ ST) as SN. cbn [In] in SN. rewrite NP.
    replace ((if three then "3pt" else "2pt") =? "none") with false by now destruct three.
    clear - SN FO.
    decompose [or] SN; try contradiction; match goal with K : _ = norm_convention _ |- _ => rewrite <- K in * end;
      cbn [String.eqb Ascii.eqb Bool.eqb andb] in *; try (injection FO as <-; reflexivity). }
  assert (SV : exists path, MainModel.save_path p = Some path).
  { unfold MainModel.save_path, MainModel.base_name. cbv zeta. rewrite CO, STP.
    pose proof (MainProps.s_form _ ST) as SF. unfold two_or_three in TT. clear - SF TT.
    destruct three; destruct TT as [<-|[<-|[]]]; cbn [String.eqb Ascii.eqb Bool.eqb]; try (eexists; reflexivity);
      unfold MainModel.form_name; cbn [In] in SF; decompose [or] SF; try contradiction;
      match goal with K : _ = ParamModel.form _ |- _ => rewrite <- K end; eexists; reflexivity. }
  destruct SV as (path & SV).
  unfold MainModel.session. rewrite CA. cbn [MainModel.andthen]. rewrite BN. cbn [MainModel.andthen].
  rewrite SZ. cbn [MainModel.andthen]. rewrite HV'. cbn [negb]. rewrite CS. unfold MainModel.run_act. rewrite KD, CO, AS.
  cbn [MainModel.andthen fst]. rewrite AO, NO. cbn [MainModel.andthen fst snd]. rewrite <- CO, FA.
  unfold MainModel.measure. rewrite CO, STP, ES. cbv zeta. rewrite IW, KD. cbn [String.eqb Ascii.eqb Bool.eqb MainModel.andthen].
  rewrite SV. cbn [MainModel.andthen].
  eexists _, _, path. split; [reflexivity|]. cbn [MainModel.measured MainModel.printed_norms]. split; [reflexivity|].
  split; [|repeat split].
  apply with_los_inv in PD, PRr. subst pd pr.
  constructor; cbn [MainModel.stat MainModel.from_data MainModel.from_rand MainModel.in_box MainModel.par MainModel.bin MainModel.contrast MainModel.factor
    stat from_data from_rand in_box par bin contrast factor option_map]; try reflexivity.
  - unfold with_vectors. cbn [fst snd both]. now rewrite los_rows by apply Cd.
  - unfold with_vectors. cbn [fst snd both]. now rewrite los_rows by apply Cr.
  - exact CO.
Qed.

Lemma numbered_wrapped r : (exists y, MainModel.number r = MainModel.Go y) -> exists y, PyRunModel.wrapped (double r) = Returns y.
Proof. intros (y & H). destruct r as [x|x]; [eexists; reflexivity|]. destruct x; try discriminate. eexists; reflexivity. Qed.
Lemma numbered_bare r : (exists y, MainModel.number r = MainModel.Go y) -> exists y, bare (double r) = Returns y.
Proof. intros (y & H). destruct r as [x|x]; [eexists; reflexivity|]. destruct x; try discriminate. eexists; reflexivity. Qed.

Lemma space_named st np sp : In (st, (np, sp)) statistics -> sp = "fourier" \/ sp = "config".
Proof. cbn [In statistics]. intros H. decompose [or] H; try contradiction; match goal with K : (_, _) = (_, _) |- _ => injection K as _ _ <- end; auto. Qed.

Lemma bins_made e ct st s : parsed e ct st s ->
  dget "binning" (entries s) = Some (VStr (ParamModel.binning (msr (cpp s)))) ->
  (exists a b, dget "range" (entries s) = Some (VList [a; b])) -> MainProps.settled (cpp s) ->
  In (ParamModel.binning (msr (cpp s))) ["lin"; "log"] ->
  ~ (ParamModel.binning (msr (cpp s)) = "log" /\ bin_min (msr (cpp s)) = 0%R) ->
  exists b, from_parameter_set s = Returns b.
Proof.
  intros P SB SR ST L Z. unfold from_parameter_set.
  rewrite (entry_is _ _ _ (pr_space _ _ _ _ P)). cbn [andthen is_text].
  pose proof (space_named _ _ _ (MainProps.s_stat _ ST)) as SS.
  replace (_ || _) with true by (destruct SS as [->| ->]; reflexivity). cbn [negb].
  rewrite (entry_is _ _ _ SB). cbn [andthen].
  destruct SR as (x & y & R). destruct (pr_range _ _ _ _ P) as (x' & y' & rest & R' & X1 & X2).
  rewrite R in R'. injection R' as <- <- <-. rewrite (entry_is _ _ _ R). cbn [andthen last].
  destruct (pr_num _ _ _ _ P) as (v & V & XV). rewrite (entry_is _ _ _ V). cbn [andthen].
  unfold to_double, to_cint. rewrite X1, X2, XV. cbn [python andthen].
  pose proof (MainProps.s_range _ ST) as (R1 & R2). pose proof (MainProps.s_num _ ST) as N.
  unfold BinningModel.py_set_bins, BinningModel.cpp_set_bins.
  replace (Rltb _ 0) with false by (symmetry; apply Rltb_false; lra).
  replace (_ <=? 0)%Z with false by (symmetry; apply Z.leb_gt; lia).
  unfold BinningModel.cpp_set_bins0, BinningModel.compute_bins.
  cbn [BinningModel.py_new BinningModel.p_cpp BinningModel.cpp_ctor BinningModel.c_scheme BinningModel.c_min BinningModel.c_max BinningModel.c_num].
  destruct L as [L|[L|[]]]; rewrite <- L in *; unfold MainModel.scheme_of; cbn [String.eqb Ascii.eqb Bool.eqb].
  - destruct (BinningModel.lin_bins _ _ _) as [[? ?] ?]. eexists; reflexivity.
  - unfold BinningModel.log_bins.
    assert (NZ : bin_min (msr (cpp s)) <> 0%R) by (intros Q; apply Z; auto).
    assert (R0 : (0 < bin_min (msr (cpp s)))%R) by (destruct R1 as [R1|R1]; [exact R1|congruence]).
    replace (Reqb (bin_min (msr (cpp s))) 0) with false by (symmetry; now apply Reqb_false).
    replace (Rleb (bin_min (msr (cpp s))) 0) with false by (symmetry; apply Rleb_false; lra).
    replace (Rleb (bin_max (msr (cpp s))) 0) with false by (symmetry; apply Rleb_false; lra).
    cbn [orb]. eexists; reflexivity.
Qed.

Lemma boxed_made e ct st s : parsed e ct st s -> grid_of s = Returns (ngrid (smp (cpp s))) -> MainProps.settled (cpp s) ->
  unset s "boxsize" = false -> (0 < volume (smp (cpp s)))%R ->
  boxed s = Returns (boxsize (smp (cpp s)), ngrid (smp (cpp s))).
Proof.
  intros P S ST U V. unfold boxed, box_given. rewrite U. cbn [andthen].
  pose proof (MainProps.s_grid _ ST V) as G. pose proof (MainProps.s_mesh _ ST) as M.
  assert (NU : unset s "ngrid" = false).
  { destruct (unset s "ngrid") eqn:E; [exfalso|reflexivity].
    pose proof S as SG. unfold grid_of, PyRunModel.axes in SG. apply python_returns in SG.
    unfold unset, values in E. unfold r_triple in SG. destruct (dget "ngrid" (entries s)) as [[]|]; try discriminate.
    rewrite E in SG. injection SG as SG. rewrite M, <- SG in G. unfold cells in G. cbn in G. lia. }
  rewrite NU, (pr_box _ _ _ _ P U), S. cbn [andthen].
  unfold PyRunModel.has_volume. replace (Rltb 0 _) with true by (symmetry; now apply Rltb_spec).
  replace (0 <? _)%Z with true by (symmetry; now apply Z.ltb_lt). reflexivity.
Qed.

Lemma setup_runs e st s d r cs : parsed e "survey" st s -> spelled s -> MainProps.settled (cpp s) ->
  d <> r -> current (cs d) -> current (cs r) -> exists al, alignment_of s = Returns al /\ exists y,
    survey_setup d r None None al (boxsize (smp (cpp s))) (ngrid (smp (cpp s))) cs = Ok y.
Proof.
  intros P S ST N Cd Cr.
  pose proof (bounds_nonempty _ (proj1 (proj2 Cd))) as Nd. pose proof (bounds_nonempty _ (proj1 (proj2 Cr))) as Nr.
  unfold alignment_of. rewrite (entry_is _ _ _ (sp_align _ S)). cbn [andthen is_text].
  pose proof (MainProps.s_align _ ST) as SA. pose proof (MainProps.s_pad _ ST) as SP.
  destruct SA as [SA|[SA|[]]]; rewrite <- SA; cbn [String.eqb Ascii.eqb Bool.eqb].
  - eexists. split; [reflexivity|]. unfold survey_setup, py_centre. cbn [ref_or_self].
    match goal with |- context [offset_both d (Some r) ?o cs] => destruct (offset_both_run d r o cs N Nd Nr) as (s1 & E1 & _) end.
    rewrite E1. eexists; reflexivity.
  - rewrite (entry_is _ _ _ (sp_scale _ S)). cbn [andthen is_text].
    destruct (sp_factor _ S) as (v & EV & NV). rewrite (entry_is _ _ _ EV). cbn [andthen].
    pose proof (pr_factor _ _ _ _ P v EV NV) as FV.
    assert (PO : forall make, pad_of make v = Returns (make (padfactor (smp (cpp s))))).
    { intros make. unfold pad_of. rewrite FV. destruct v; [contradiction|reflexivity..]. }
    rewrite !PO. clear PO.
    destruct SP as [SP|[SP|[]]]; rewrite <- SP; cbn [String.eqb Ascii.eqb Bool.eqb];
      (eexists; split; [reflexivity|]; unfold survey_setup, py_pad; cbn [ref_or_self];
       match goal with |- context [offset_both d (Some r) ?o cs] => destruct (offset_both_run d r o cs N Nd Nr) as (s1 & E1 & _) end;
       rewrite E1; eexists; reflexivity).
Qed.

Lemma los_length c : square c -> length (compute_los c) = length (rows c).
Proof.
  intros (Q1 & Q2 & Q3 & Q4 & Q5). unfold rows. rewrite zip_length by congruence.
  unfold compute_los. rewrite map_length. unfold square in *.
  destruct c as [x y z nz ws wc bo sp n w1 w2]. cbn [col_x col_y col_z col_nz col_ws col_wc] in *.
  clear - Q1 Q2. revert y z Q1 Q2. induction x as [|x0 x IH]; intros [|y0 y] [|z0 z]; cbn [length]; intros; try discriminate; [reflexivity|].
  cbn [zip3 length]. f_equal. apply IH; lia.
Qed.

Lemma shift_zero ps : map (shift_pos (T3 0 0 0)%R) ps = ps.
Proof.
  rewrite <- (map_id ps) at 2. apply map_ext. intros [[x y z] nz ws wc w]. unfold shift_pos, tsub, tmap2.
  cbn [p_pos p_nz p_ws p_wc p_w ax0 ax1 ax2]. now rewrite !Rminus_0_r.
Qed.

Lemma setup_shift d r ld lr al L n cs ld' lr' cs' : d <> r -> current (cs d) -> current (cs r) ->
  survey_setup d r ld lr al L n cs = Ok (ld', lr', cs') -> exists o,
    rows (cs' d) = map (shift_pos o) (rows (cs d)) /\ rows (cs' r) = map (shift_pos o) (rows (cs r)) /\
    current (cs' d) /\ current (cs' r) /\
    (forall c, c = d \/ c = r -> same_rest (cs c) (cs' c)).
Proof.
  intros N Cd Cr H. unfold survey_setup in H. apply bind_ok_iff in H as (cs1 & X & H). injection H as _ _ ->.
  pose proof (bounds_nonempty _ (proj1 (proj2 Cd))) as Nd. pose proof (bounds_nonempty _ (proj1 (proj2 Cr))) as Nr.
  assert (K : forall o, offset_both d (Some r) o cs = Ok cs' -> exists o,
    rows (cs' d) = map (shift_pos o) (rows (cs d)) /\ rows (cs' r) = map (shift_pos o) (rows (cs r)) /\
    current (cs' d) /\ current (cs' r) /\
    (forall c, c = d \/ c = r -> same_rest (cs c) (cs' c))).
  { intros o E. destruct (offset_both_run d r o cs N Nd Nr) as (s1 & E1 & Md & Mr & _). rewrite E in E1. injection E1 as <-.
    destruct (moved_current' o _ _ Cd Md) as [Cd' Ed]. destruct (moved_current' o _ _ Cr Mr) as [Cr' Er].
    exists o. split; [exact Ed|]. split; [exact Er|]. split; [exact Cd'|]. split; [exact Cr'|].
    intros c [->| ->]; [apply Md|apply Mr]. }
  destruct al; unfold py_centre, py_pad in X; cbn [ref_or_self] in X; try exact (K _ X).
  injection X as <-. exists (T3 0 0 0)%R. rewrite !shift_zero.
  split; [reflexivity|]. split; [reflexivity|]. split; [exact Cd|]. split; [exact Cr|]. intros c _. repeat split.
Qed.

Lemma alike_shift o ps : Forall2 MainProps.alike ps (map (shift_pos o) ps).
Proof. induction ps as [|p ps IH]; constructor; [repeat split|exact IH]. Qed.

Lemma setup_any d r ld lr al L n cs : d <> r -> current (cs d) -> current (cs r) ->
  exists y, survey_setup d r ld lr al L n cs = Ok y.
Proof.
  intros N Cd Cr.
  pose proof (bounds_nonempty _ (proj1 (proj2 Cd))) as Nd. pose proof (bounds_nonempty _ (proj1 (proj2 Cr))) as Nr.
  unfold survey_setup, py_centre, py_pad. cbn [ref_or_self].
  destruct al; try (match goal with |- context [offset_both d (Some r) ?o cs] => destruct (offset_both_run d r o cs N Nd Nr) as (s1 & E1 & _) end;
    rewrite E1); eexists; reflexivity.
Qed.

(** Everything before the lines of sight are handed over. *)
Lemma survey_upto fuel e three st name a d r s q al :
  two_or_three three name -> MainModel.statistic_of name = Some st ->
  PyRunModel.binning a = None ->
  d <> r -> py_in_step (s d) -> py_in_step (s r) ->
  prepared fuel e three "survey" name a = Returns q -> alignment_of q = Returns al ->
  dget "binning" (entries q) = Some (VStr (ParamModel.binning (msr (cpp q)))) ->
  (exists a b, dget "range" (entries q) = Some (VList [a; b])) ->
  grid_of q = Returns (ngrid (smp (cpp q))) ->
  (exists t, dget "norm_convention" (entries q) = Some (VStr t) /\ In t ["none"; "particle"; "mesh"; "mesh-mixed"]) ->
  In (ParamModel.binning (msr (cpp q))) ["lin"; "log"] ->
  ~ (ParamModel.binning (msr (cpp q)) = "log" /\ bin_min (msr (cpp q)) = 0%R) ->
  unset q "boxsize" = false -> (0 < volume (smp (cpp q)))%R ->
  rsum (col_ws (s r)) <> 0%R -> MainProps.total (if three then 3 else 2) (rows (s r)) <> 0%R ->
  (three = false -> forall side n, exists q', norm_params fuel (lib e) side n "cic" (cpp q) = Ok q') ->
  let ld := match los_data a with Some l => l | None => compute_los (s d) end in
  let lr := match los_rand a with Some l => l | None => compute_los (s r) end in
  exists s' n f b, survey_setup d r (los_data a) (los_rand a) al (boxsize (smp (cpp q))) (ngrid (smp (cpp q))) s = Ok (ld, lr, s') /\
    rows (s' d) <> [] /\ rows (s' r) <> [] /\
    length (rows (s' d)) = length (rows (s d)) /\ length (rows (s' r)) = length (rows (s r)) /\
    survey fuel e three st name a d r s =
      (pd <~ with_los (canon (rows (s' d))) ld ;; pr <~ with_los (canon (rows (s' r))) lr ;;
       Returns {| called := {| stat := st; from_data := Some pd; from_rand := Some pr; in_box := false;
                               par := cpp q; bin := BinningModel.p_cpp b; contrast := None; factor := f |};
                  factors := n; used := q; after := s' |}).
Proof.
  intros TT ES BI N Sd Sr PR AL SB SR0 SG (tn & SN0 & SN) BL NL UB V WS TO NQ.
  pose proof (prepared_facts _ _ _ _ _ _ _ PR) as PF.
  destruct (statistic_clustering _ _ _ TT ES) as (IW & LO & KN).
  destruct (parsed_settled _ _ _ _ PF ltac:(cbn; tauto) ltac:(now rewrite LO)) as (KK & CK & ST).
  pose proof (in_step_current _ Sd) as Cd. pose proof (in_step_current _ Sr) as Cr.
  destruct (bins_made _ _ _ _ PF SB SR0 ST BL NL) as (b & BM).
  destruct (setup_any d r (los_data a) (los_rand a) al (boxsize (smp (cpp q))) (ngrid (smp (cpp q))) s N Cd Cr) as (y & SU).
  intros ld lr. destruct y as [[ld0 lr0] s'].
  pose proof (setup_los _ _ _ _ _ _ _ _ _ _ _ SU) as (E1 & E2). fold ld in E1. fold lr in E2. subst ld0 lr0.
  unfold survey. rewrite PR. cbn [andthen]. rewrite (types_pass _ _ _ _ _ PF TT). cbn [andthen].
  unfold bins_of. rewrite BI, BM. cbn [andthen]. rewrite (boxed_made _ _ _ _ PF SG ST UB V). cbn [andthen fst snd].
  rewrite AL. cbn [andthen]. rewrite SU. cbn [python andthen].
  destruct (setup_shift _ _ _ _ _ _ _ _ _ _ _ N Cd Cr SU) as (o & RD & RR & Cd' & Cr' & SR).
  pose proof (rows_ne _ (proj1 Cd') (bounds_nonempty _ (proj1 (proj2 Cd')))) as NEd.
  pose proof (rows_ne _ (proj1 Cr') (bounds_nonempty _ (proj1 (proj2 Cr')))) as NEr.
  rewrite (converted_canon _ (proj1 Cd') (bounds_nonempty _ (proj1 (proj2 Cd')))). cbn [andthen].
  rewrite (converted_canon _ (proj1 Cr') (bounds_nonempty _ (proj1 (proj2 Cr')))). cbn [andthen].
  assert (WZ : py_wstotal (s' r) = rsum (col_ws (s r))).
  { rewrite (proj2 (proj2 Cr')). destruct (SR r (or_intror eq_refl)) as (_ & -> & _). reflexivity. }
  replace (Reqb (py_wstotal (s' r)) 0) with false by (symmetry; rewrite WZ; now apply Reqb_false).
  cbv zeta. set (al0 := (_ / _)%R).
  pose proof (canon_has _ NEd) as Hd. pose proof (canon_has _ NEr) as Hr.
  assert (TO' : MainProps.total (if three then 3 else 2) (rows (s' r)) <> 0%R).
  { rewrite RR, (MainProps.alike_total _ _ _ (alike_shift o (rows (s r)))). exact TO. }
  assert (PN : exists x, part_norm three (canon (rows (s' r))) al0 = Returns x).
  { unfold part_norm. apply numbered_wrapped. destruct three.
    - exact (MainProps.number_part_runs 3 _ _ al0 (or_intror (or_introl eq_refl)) (proj1 Hr) TO').
    - exact (MainProps.number_part_runs 2 _ _ al0 (or_introl eq_refl) (proj1 Hr) TO'). }
  assert (MN : exists x, mesh_norm three (cpp q) (canon (rows (s' r))) al0 = Returns x).
  { unfold mesh_norm. cbv zeta. apply numbered_bare. apply MainProps.number_mesh_runs. }
  destruct PN as (part & PN). destruct MN as (mesh & MN). rewrite PN. cbn [andthen]. rewrite MN. cbn [andthen].
  assert (MM : exists x, (if three then Returns (both (canon (rows (s' d))) (canon (rows (s' r))), Some 0%R)
        else mixed_norm fuel (lib e) (cpp q) al0 (both (canon (rows (s' d))) (canon (rows (s' r))))) =
        Returns (both (canon (rows (s' d))) (canon (rows (s' r))), x)).
  { destruct three; [eexists; reflexivity|]. unfold mixed_norm. destruct (NormModel.norm_box _ _ _ _) as [n side].
    destruct (NQ eq_refl side n) as (q' & ->). cbn [bare andthen]. cbv zeta.
    edestruct (NormProps.mixed_norm_run (both (canon (rows (s' d))) (canon (rows (s' r)))) 0 1) as (s2 & -> & SE);
      [discriminate|exact Hd|exact Hr|now apply refresh_current|now apply refresh_current|].
    match goal with |- context [bare (double (NormModel.recip ?v))] => destruct (numbered_bare _ (MainProps.number_recip_runs v)) as (z & ->) end.
    cbn [andthen]. exists z. f_equal. f_equal. apply functional_extensionality. exact SE. }
  destruct MM as (m & ->). cbn [andthen fst snd both].
  assert (FO : exists f, factor_of true q {| n_part := part; n_mesh := mesh; n_meshes := m |} = Returns f).
  { unfold factor_of. rewrite (entry_is _ _ _ SN0). cbn [andthen is_text].
    destruct SN as [<-|[<-|[<-|[<-|[]]]]]; cbn [String.eqb Ascii.eqb Bool.eqb andb]; eexists; reflexivity. }
  destruct FO as (f & ->). cbn [andthen].
  do 4 eexists. split; [reflexivity|]. split; [exact NEd|]. split; [exact NEr|].
  split; [rewrite RD; apply map_length|]. split; [rewrite RR; apply map_length|]. reflexivity.
Qed.

(** Which survey measurements return: with an alignment that is understood or
    passed over, bins that can be made, a box, random weights and a
    normalisation sum that are not zero, a convention in lower case, and for
    two-point statistics a normalisation box that validates. *)
Theorem survey_runs fuel e three st name a d r s q al :
  two_or_three three name -> MainModel.statistic_of name = Some st ->
  PyRunModel.binning a = None ->
  d <> r -> py_in_step (s d) -> py_in_step (s r) ->
  prepared fuel e three "survey" name a = Returns q -> alignment_of q = Returns al ->
  dget "binning" (entries q) = Some (VStr (ParamModel.binning (msr (cpp q)))) ->
  (exists a b, dget "range" (entries q) = Some (VList [a; b])) ->
  grid_of q = Returns (ngrid (smp (cpp q))) ->
  (exists t, dget "norm_convention" (entries q) = Some (VStr t) /\ In t ["none"; "particle"; "mesh"; "mesh-mixed"]) ->
  In (ParamModel.binning (msr (cpp q))) ["lin"; "log"] ->
  ~ (ParamModel.binning (msr (cpp q)) = "log" /\ bin_min (msr (cpp q)) = 0%R) ->
  unset q "boxsize" = false -> (0 < volume (smp (cpp q)))%R ->
  rsum (col_ws (s r)) <> 0%R -> MainProps.total (if three then 3 else 2) (rows (s r)) <> 0%R ->
  (three = false -> forall side n, exists q', norm_params fuel (lib e) side n "cic" (cpp q) = Ok q') ->
  let ld := match los_data a with Some l => l | None => compute_los (s d) end in
  let lr := match los_rand a with Some l => l | None => compute_los (s r) end in
  (length (rows (s d)) <= length ld -> length (rows (s r)) <= length lr ->
   exists x, survey fuel e three st name a d r s = Returns x /\ used x = q /\
     survey_setup d r (los_data a) (los_rand a) al (boxsize (smp (cpp q))) (ngrid (smp (cpp q))) s = Ok (ld, lr, after x)) /\
  (length ld < length (rows (s d)) \/ length lr < length (rows (s r)) ->
   survey fuel e three st name a d r s = Undefined).
Proof.
  intros TT ES BI N Sd Sr PR AL SB SR0 SG SN BL NL UB V WS TO NQ ld lr.
  destruct (survey_upto fuel e three st name a d r s q al TT ES BI N Sd Sr PR AL SB SR0 SG SN BL NL UB V WS TO NQ)
    as (s' & n & f & b & SU & NEd & NEr & Ld & Lr & ->). fold ld lr in SU |- *.
  unfold with_los. cbv zeta. rewrite (MainProps.particles_has _ _ (canon_has _ NEd)), (MainProps.particles_has _ _ (canon_has _ NEr)), Ld, Lr.
  split.
  - intros L1 L2. apply Nat.ltb_ge in L1, L2. rewrite L1, L2. cbn [andthen]. eexists. split; [reflexivity|]. split; [reflexivity|exact SU].
  - intros L. destruct (length ld <? _)%nat eqn:L1; [reflexivity|]. cbn [andthen]. apply Nat.ltb_ge in L1.
    destruct (length lr <? _)%nat eqn:L2; [reflexivity|]. apply Nat.ltb_ge in L2. lia.
Qed.

(** With the catalogues' own lines of sight. *)
Corollary survey_own fuel e three st name a d r s q al :
  two_or_three three name -> MainModel.statistic_of name = Some st ->
  los_data a = None -> los_rand a = None -> PyRunModel.binning a = None ->
  d <> r -> py_in_step (s d) -> py_in_step (s r) ->
  prepared fuel e three "survey" name a = Returns q -> alignment_of q = Returns al ->
  dget "binning" (entries q) = Some (VStr (ParamModel.binning (msr (cpp q)))) ->
  (exists a b, dget "range" (entries q) = Some (VList [a; b])) ->
  grid_of q = Returns (ngrid (smp (cpp q))) ->
  (exists t, dget "norm_convention" (entries q) = Some (VStr t) /\ In t ["none"; "particle"; "mesh"; "mesh-mixed"]) ->
  In (ParamModel.binning (msr (cpp q))) ["lin"; "log"] ->
  ~ (ParamModel.binning (msr (cpp q)) = "log" /\ bin_min (msr (cpp q)) = 0%R) ->
  unset q "boxsize" = false -> (0 < volume (smp (cpp q)))%R ->
  rsum (col_ws (s r)) <> 0%R -> MainProps.total (if three then 3 else 2) (rows (s r)) <> 0%R ->
  (three = false -> forall side n, exists q', norm_params fuel (lib e) side n "cic" (cpp q) = Ok q') ->
  exists x, survey fuel e three st name a d r s = Returns x /\ used x = q /\
    exists ld lr, survey_setup d r None None al (boxsize (smp (cpp q))) (ngrid (smp (cpp q))) s = Ok (ld, lr, after x).
Proof.
  intros TT ES LD LR BI N Sd Sr PR AL SB SR0 SG SN BL NL UB V WS TO NQ.
  pose proof (survey_runs fuel e three st name a d r s q al TT ES BI N Sd Sr PR AL SB SR0 SG SN BL NL UB V WS TO NQ) as K.
  cbv zeta in K. destruct K as (K & _). rewrite LD, LR in K.
  destruct K as (x & SX & UX & SU); [rewrite los_length by apply in_step_current, Sd; lia|rewrite los_length by apply in_step_current, Sr; lia|].
  eauto 6.
Qed.

(** In particular those whose entries are spelled as the C++ side has them. *)
Theorem survey_completes fuel e three st name a d r s q :
  two_or_three three name -> MainModel.statistic_of name = Some st ->
  los_data a = None -> los_rand a = None -> PyRunModel.binning a = None ->
  d <> r -> py_in_step (s d) -> py_in_step (s r) ->
  prepared fuel e three "survey" name a = Returns q -> spelled q ->
  In (ParamModel.binning (msr (cpp q))) ["lin"; "log"] ->
  ~ (ParamModel.binning (msr (cpp q)) = "log" /\ bin_min (msr (cpp q)) = 0%R) ->
  unset q "boxsize" = false -> (0 < volume (smp (cpp q)))%R ->
  rsum (col_ws (s r)) <> 0%R -> MainProps.total (if three then 3 else 2) (rows (s r)) <> 0%R ->
  (three = false -> forall side n, exists q', norm_params fuel (lib e) side n "cic" (cpp q) = Ok q') ->
  exists x, survey fuel e three st name a d r s = Returns x /\ used x = q.
Proof.
  intros TT ES LD LR BI N Sd Sr PR SP BL NL UB V WS TO NQ.
  pose proof (prepared_facts _ _ _ _ _ _ _ PR) as PF.
  destruct (statistic_clustering _ _ _ TT ES) as (IW & LO & KN).
  destruct (parsed_settled _ _ _ _ PF ltac:(cbn; tauto) ltac:(now rewrite LO)) as (KK & CK & ST).
  destruct (setup_runs _ _ _ d r s PF SP ST N (in_step_current _ Sd) (in_step_current _ Sr)) as (al & AL & _).
  destruct (survey_own fuel e three st name a d r s q al TT ES LD LR BI N Sd Sr PR AL (sp_bin _ SP) (sp_range _ SP) (sp_grid _ SP)
    (ex_intro _ _ (conj (sp_norm _ SP) (MainProps.s_norm _ ST))) BL NL UB V WS TO NQ) as (x & SX & UX & _).
  eauto.
Qed.

(** Measurements with a parameter set naming everything they read. *)
Definition rdemo (st : string) : dict :=
  dset "files" (VDict [("data_catalogue", VStr "a.dat"); ("rand_catalogue", VStr "b.dat")])
    (dset "alignment" (VStr "centre") (dset "padscale" (VStr "box") (dset "padfactor" (VNum 0)
      (dset "norm_convention" (VStr "particle") (dset "binning" (VStr "lin") (dset "expand" (VNum 1)
        (pdemo st (VBool false) (PyParamProps.axes side side side) 10))))))).

Lemma prepared_demo : exists s q,
  built (construct 0 demo_env (rdemo "bispec")) s /\
  prepared 0 demo_env true "survey" "bispec" (with_set s) = Returns q /\ spelled q /\
  unset q "boxsize" = false /\ ParamModel.binning (msr (cpp q)) = "lin" /\
  volume (smp (cpp q)) = (1000 * 1000 * 1000)%R /\
  data_file (pths (cpp q)) = "a.dat" /\ rand_file (pths (cpp q)) = "b.dat" /\
  norm_convention (msr (cpp q)) = "particle".
Proof.
  eexists. eexists. split; [now_built|]. split.
  - rewrite prepared_set. unfold types. apply python_returns. unfold update. cbn [dupdate entries cpp bar]. run.
  - split; [|repeat split]. split; try reflexivity; [eexists; split; [reflexivity|discriminate]|eexists; eexists; reflexivity].
Qed.

Definition one_file (b : build) : MainModel.world :=
  {| MainModel.disk := fun _ => Some (LoadProps.ended ["1 2 3"]); MainModel.bld := b;
     MainModel.mem := {| ParamFileModel.words_of := fun _ => ""; ParamFileModel.num_of := fun _ => 0%R; ParamFileModel.int_of := fun _ => 0%Z |};
     MainModel.blank := ParamEnvProps.full ParamEnvProps.saving; MainModel.fuel := 0 |}.

Lemma one_loaded b q file : In file ["a.dat"; "b.dat"] -> volume (smp q) = 1000000000%R ->
  exists c, MainModel.load (one_file b) (ParamEnvProps.full q) file = MainModel.Go (canon (rows c)) /\
    py_in_step c /\ rows c <> [] /\ rsum (col_ws c) = 1%R /\
    MainProps.total 3 (rows c) = ((/ 1000000000) ^ 2)%R /\
    col_x c = [1%R] /\ col_y c = [2%R] /\ col_z c = [3%R] /\ col_nz c = [(/ 1000000000)%R] /\ col_ws c = [1%R] /\ col_wc c = [1%R].
Proof.
  intros F VO.
  destruct (LoadProps.load_rows (MainModel.disk (one_file b)) file ["x"; "y"; "z"] (volume (smp q)) LoadModel.fresh
              [LoadProps.ended ["1 2 3"]] [["1 2 3"]] [[1; 2; 3]%R]) as (c' & ps & nz0 & E & _ & PD & MN & FP & W & WS & EC).
  { reflexivity. } { destruct F as [<-|[<-|[]]]; split; reflexivity. } { now apply LoadProps.names_ok. }
  { unfold LoadProps.files. destruct F as [<-|[<-|[]]]; (constructor; [reflexivity|constructor]). }
  { constructor; [now apply LoadProps.ended_holds|constructor]. }
  { apply LoadProps.rows_data; [|exact LoadProps.one_two_three|constructor]. intros [Q|(r & Q)]; discriminate Q. }
  { discriminate. } { repeat constructor. } { cbn; auto. } { cbn; auto. } { cbn; auto. }
  inversion FP as [|row u rows0 us IP FQ]; subst. inversion FQ; subst. clear FP FQ.
  destruct IP as (IX & IY & IZ & (_ & NZ) & (_ & WS1) & (_ & WC1) & PW).
  assert (X : forall k, In k ["nz"; "ws"; "wc"] -> ~ In k ["x"; "y"; "z"]).
  { intros k [<-|[<-|[<-|[]]]] [Q|[Q|[Q|[]]]]; discriminate Q. }
  specialize (NZ (X "nz" ltac:(cbn; auto))). specialize (WS1 (X "ws" ltac:(cbn; auto))). specialize (WC1 (X "wc" ltac:(cbn; auto))).
  rewrite VO in MN. destruct MN as [(_ & MN)|(MN & _)]; [|lra]. cbn [length INR] in MN.
  destruct u as [[ux uy uz] unz uws uwc uw]. cbn [p_nz p_ws p_wc p_w] in NZ, WS1, WC1, PW. subst unz uws uwc uw.
  destruct (proj1 (py_new_spec [ux] (Scalar uy) (Scalar uz) (Some (Scalar nz0)) (Scalar 1) (Scalar 1))) as (c & EC' & St & _);
    try exact I; try congruence.
  assert (RC : rows c = [PDatum (T3 ux uy uz) nz0 1 1 (1 * 1)]).
  { unfold py_new in EC'. cbn in EC'. injection EC' as <-. reflexivity. }
  assert (CW : col_ws c = [1%R]).
  { unfold py_new in EC'. cbn in EC'. injection EC' as <-. reflexivity. }
  exists c. split.
  { unfold MainModel.load. replace (if_filepath_is_set file) with true by (destruct F as [<-|[<-|[]]]; reflexivity).
    cbn [negb]. cbv zeta. change (ParamFileModel.catalogue_columns (ParamEnvProps.full q)) with (LoadProps.commas ["x"; "y"; "z"]).
    change (ParamFileModel.core (ParamEnvProps.full q)) with q. rewrite E. cbn [fst snd]. f_equal. rewrite RC. apply canon_unique; [split; [exact PD|discriminate]|exact W|exact WS|exact EC]. }
  split; [exact St|]. rewrite RC, CW. split; [discriminate|]. split; [cbn; lra|].
  assert (E0 : nz0 = (/ 1000000000)%R) by lra. split.
  { unfold MainProps.total, rsum. cbn [map fold_right Nat.sub p_nz p_ws p_wc]. rewrite E0. ring. }
  assert (GX : ux = 1%R /\ uy = 2%R /\ uz = 3%R).
  { assert (CO : forall (n : string) (u v0 v1 v2 : R), LoadProps.column n ["x"; "y"; "z"] [v0; v1; v2] u ->
      u = (if n =? "x" then v0 else if n =? "y" then v1 else v2)).
    { clear. intros n u v0 v1 v2 (a & b & r & t & E & N & F & G).
      destruct a as [|a0 [|a1 [|a2 [|a3 a]]]]; injection E; intros; subst; try discriminate;
        destruct r as [|r0 [|r1 [|r2 r]]]; try discriminate; injection F; intros; subst; reflexivity. }
    pose proof (CO _ _ _ _ _ IX) as G0. pose proof (CO _ _ _ _ _ IY) as G1. pose proof (CO _ _ _ _ _ IZ) as G2. auto. }
  destruct GX as (-> & -> & ->). unfold py_new in EC'. cbn in EC'. injection EC' as <-. cbn. rewrite E0. repeat split.
Qed.

(** One particle in each catalogue, measured from Python and by the program:
    one request. *)
Example survey_case : exists s cs x w p g q path,
  built (construct 0 demo_env (rdemo "bispec")) s /\
  compute_bispec 0 demo_env (with_set s) 0 1 cs = Returns x /\
  MainModel.session w p = MainModel.Go g /\ MainModel.measured g = Some (q, path) /\
  same_request (called x) q /\ exists v, MainModel.factor q = Some v /\ (v * (/ 1000000000) ^ 2 = 1)%R.
Proof.
  destruct prepared_demo as (s & u & BU & PR & SP & UB & BL & VO & DF & RF & NC).
  assert (VO' : volume (smp (cpp u)) = 1000000000%R) by (rewrite VO; lra). clear VO.
  destruct (one_loaded (standalone (lib demo_env)) (cpp u) "a.dat" ltac:(cbn; auto) VO') as (c0 & L0 & S0 & N0 & W0 & T0 & _).
  destruct (one_loaded (standalone (lib demo_env)) (cpp u) "b.dat" ltac:(cbn; auto) VO') as (c1 & L1 & S1 & N1 & W1 & T1 & _).
  set (w := one_file (standalone (lib demo_env))) in *. set (p := ParamEnvProps.full (cpp u)) in *.
  set (cs := fun a : nat => match a with 0 => c0 | _ => c1 end).
  destruct (survey_completes 0 demo_env true MainModel.Bispec "bispec" (with_set s) 0 1 cs u) as (x & SX & UX);
    try reflexivity; try assumption.
  { cbn; auto. } { discriminate. } { rewrite BL. cbn; auto. } { rewrite BL. intros (Q & _). discriminate Q. }
  { rewrite VO'. lra. } { cbn [cs]. rewrite W1. lra. } { cbn [cs]. rewrite T1. apply Rgt_not_eq. lra. } { discriminate. }
  assert (PF := prepared_facts _ _ _ _ _ _ _ PR).
  assert (KD : MainModel.kind p = "survey") by exact (proj2 (pr_ct _ _ _ _ PF)).
  assert (CT : exists k, MainModel.catalogues w p = MainModel.Go k /\ k 0 = canon (rows c0) /\ k 1 = canon (rows c1)).
  { unfold MainModel.catalogues, MainModel.load_if. rewrite KD.
    change (MainModel.flag_data "survey") with true. change (MainModel.flag_rand "survey") with true. cbv zeta iota.
    change (ParamFileModel.core p) with (cpp u). rewrite DF, RF, L0. cbn [MainModel.andthen]. rewrite L1. cbn [MainModel.andthen].
    eexists. split; [reflexivity|]. split; reflexivity. }
  destruct CT as (k & CT & K0 & K1).
  destruct (survey_as_program 0 demo_env w p true MainModel.Bispec "bispec" (with_set s) 0 1 cs x k) as (g & q & path & G & M & SR & _);
    try reflexivity; try assumption.
  { cbn; auto. } { discriminate. } { now rewrite UX. } { rewrite UX, BL. cbn; auto. } { now rewrite UX. }
  { rewrite K0. apply MainProps.particles_has, canon_has, N0. } { rewrite K1. apply MainProps.particles_has, canon_has, N1. }
  exists s, cs, x, w, p, g, q, path. repeat (split; [assumption|]).
  assert (X : extcall (MainModel.bld w) = false) by reflexivity.
  destruct (parsed_settled _ _ _ _ PF ltac:(cbn; tauto) ltac:(cbn; tauto)) as (_ & CK & ST).
  assert (NP : npoint (msr (cpp u)) = "3pt").
  { pose proof (MainProps.s_stat _ ST) as SS. rewrite (proj2 (pr_st _ _ _ _ PF)) in SS. exact (npoint_named true "bispec" _ _ ltac:(cbn; auto) SS). }
  destruct (MainProps.run_factor w p g q path X CK G) as (k' & a3 & ps3 & los & C3 & SH & _ & F).
  { change (ParamFileModel.core p) with (cpp u). rewrite NP. discriminate. } { exact M. }
  rewrite CT in C3. injection C3 as <-. change (ParamFileModel.core p) with (cpp u) in F. rewrite NC in F.
  unfold MainProps.points, MainProps.normaliser in F. change (ParamFileModel.core p) with (cpp u) in F.
  unfold MainProps.share in SH. rewrite NP, KD in F. rewrite KD in SH. cbn [String.eqb Ascii.eqb Bool.eqb] in F, SH. cbv zeta in SH.
  rewrite K0, K1, !(MainProps.particles_has _ _ (canon_has _ N0)), !(MainProps.particles_has _ _ (canon_has _ N1)) in SH.
  rewrite K1, !(MainProps.particles_has _ _ (canon_has _ N1)), T1 in F.
  rewrite (rows_ws c0) in SH by apply S0. rewrite (rows_ws c1) in SH by apply S1. rewrite W0, W1 in SH. destruct SH as (_ & SH).
  assert (A1 : a3 = 1%R) by lra. subst a3. rewrite Rmult_1_l in F.
  destruct (MainModel.factor q) as [v|]; cbn [MainProps.reciprocal] in F; [eauto|exfalso; revert F; apply Rgt_not_eq; lra].
Qed.

Print Assumptions box_must_be_given.
Print Assumptions unset_box_raises.
Print Assumptions survey_as_program.
Print Assumptions survey_runs.
Print Assumptions survey_completes.
Print Assumptions survey_case.
