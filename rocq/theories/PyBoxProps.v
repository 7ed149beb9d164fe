(* C105-C107: box and window measurements from Python and by the program. *)
From Coq Require Import String Ascii List Arith ZArith Reals Bool Lia Lra FunctionalExtensionality.
From Verif Require Import Base StrModel StrProps Dec ArrayModel ArrayProofs
  MeshModel CatModel CatProps PyCatModel PyCatProps ParamModel ParamProps ParamValProps ParamFixProps.
From Verif Require Import PyParamModel PyParamProofs PyParamProps PyAmalgModel PyAmalgProps.
From Verif Require Import PyRunModel PyRunProps.
From Verif Require ParamFileModel MainModel MainProps NormProps BinningModel BinningProps NormModel LoadModel LoadProps FieldModel FieldProps PowProps BispecModel TranslateProps.
Import ListNotations.
Local Open Scope R_scope.
Local Open Scope nat_scope.
Local Open Scope string_scope.

(* ------------------------------------------------------------------ *)
(** * The particles of a box measurement *)

(** The densities used: the catalogue's, or its mean in the box if it has none. *)
Definition density (L : triple R) (c : pycat) : list R :=
  if any (col_nz c) then col_nz c
  else repeat (INR (length (col_x c)) / (ax0 L * ax1 L * ax2 L))%R (length (col_x c)).

Definition particles_in (L : triple R) (c : pycat) : list pdatum :=
  zip_columns (col_x c) (col_y c) (col_z c) (density L c) (col_ws c) (col_wc c).

Definition per (L : triple R) (b : triple (R * R)) (p : pdatum) : pdatum :=
  PDatum (T3 (periodise_coord (ax0 b) (ax0 L) (ax0 (p_pos p)))
             (periodise_coord (ax1 b) (ax1 L) (ax1 (p_pos p)))
             (periodise_coord (ax2 b) (ax2 L) (ax2 (p_pos p))))
         (p_nz p) (p_ws p) (p_wc p) (p_w p).

Lemma zip_per L b x y z nz ws wc :
  zip_columns (map (periodise_coord (ax0 b) (ax0 L)) x) (map (periodise_coord (ax1 b) (ax1 L)) y)
    (map (periodise_coord (ax2 b) (ax2 L)) z) nz ws wc = map (per L b) (zip_columns x y z nz ws wc).
Proof.
  revert y z nz ws wc. induction x as [|x0 x IH]; intros [|y0 y] [|z0 z] [|n0 nz] [|s0 ws] [|c0 wc]; try reflexivity.
  cbn [map zip_columns]. rewrite IH. reflexivity.
Qed.

Lemma periodise_run L d s : bounds_current (s d) -> exists c, py_periodise d L s = Ok (pyupd s d c) /\
  col_x c = map (periodise_coord (ax0 (bounds (s d))) (ax0 L)) (col_x (s d)) /\
  col_y c = map (periodise_coord (ax1 (bounds (s d))) (ax1 L)) (col_y (s d)) /\
  col_z c = map (periodise_coord (ax2 (bounds (s d))) (ax2 L)) (col_z (s d)) /\
  same_rest (s d) c /\ bounds_current c.
Proof.
  intros B. unfold py_periodise, periodise_cat.
  destruct (calc_bounds_run (map_cols (periodise_coord (ax0 (bounds (s d))) (ax0 L)) (periodise_coord (ax1 (bounds (s d))) (ax1 L))
    (periodise_coord (ax2 (bounds (s d))) (ax2 L)) (s d))) as (c & Ec & C & S & B').
  { intros i. rewrite map_cols_col. apply map_nonempty, (bounds_nonempty _ B). }
  rewrite Ec. cbn [bind]. exists c. split; [reflexivity|].
  pose proof (C AX) as CX. pose proof (C AY) as CY. pose proof (C AZ) as CZ. cbn [col map_cols col_x col_y col_z] in CX, CY, CZ.
  repeat (split; [assumption|]). exact B'.
Qed.

Lemma box_positions L d s : (forall i, (0 < at_axis i L)%R) -> py_in_step (s d) ->
  exists s1, py_periodise d L s = Ok s1 /\
  exists s2, (if any (col_nz (s1 d)) then Returns s1
              else c <~ python (mean_density (s1 d) None (Some L)) ;; Returns (pyupd s1 d c)) = Returns s2 /\
    rows (s2 d) = map (per L (bounds (s d))) (particles_in L (s d)) /\ square (s2 d) /\ nonempty (s2 d) /\
    (forall c, c <> d -> s2 c = s c).
Proof.
  intros P ((Q1 & Q2 & Q3 & Q4 & Q5) & B & T).
  destruct (periodise_run L d s B) as (c & E & CX & CY & CZ & (R1 & R2 & R3 & R4 & R5 & R6) & B').
  exists (pyupd s d c). split; [exact E|]. rewrite pyupd_same.
  assert (NE : nonempty c) by exact (bounds_nonempty _ B').
  destruct (any (col_nz c)) eqn:A.
  - exists (pyupd s d c). split; [reflexivity|]. rewrite pyupd_same.
    assert (D : density L (s d) = col_nz (s d)) by (unfold density; rewrite <- R1, A; reflexivity).
    unfold rows, particles_in. rewrite D, CX, CY, CZ, R1, R2, R3. split; [apply zip_per|].
    split; [|split; [exact NE|intros k N; now apply pyupd_other]].
    unfold square. rewrite CX, CY, CZ, R1, R2, R3, !map_length. auto.
  - unfold mean_density. set (V := (ax0 L * ax1 L * ax2 L)%R).
    assert (NV : V <> 0%R).
    { apply Rgt_not_eq. unfold V. pose proof (P AX). pose proof (P AY). pose proof (P AZ). cbn [CatProps.at_axis] in *.
      apply Rmult_lt_0_compat; [apply Rmult_lt_0_compat|]; assumption. }
    replace (Reqb V 0) with false by (symmetry; now apply Reqb_false).
    unfold py_setitem. cbn [column bind python andthen]. eexists. split; [reflexivity|]. rewrite pyupd_same.
    assert (D : density L (s d) = repeat (INR (ntotal c) / V)%R (length (col_x c))).
    { unfold density. rewrite <- R1, A, CX, map_length, R4. destruct T as (-> & _). reflexivity. }
    split; [|split; [|split; [exact NE|intros k N; rewrite !pyupd_other by exact N; reflexivity]]].
    + unfold rows, particles_in. cbn [col_x col_y col_z col_nz col_ws col_wc]. rewrite D, CX, CY, CZ, R2, R3. apply zip_per.
    + unfold square. cbn [col_x col_y col_z col_nz col_ws col_wc]. rewrite CX, CY, CZ, R2, R3, !map_length, repeat_length. auto.
Qed.

(** What a particle becomes: moved by half a box less the middle of the
    catalogue, then by whole boxes into the box. *)
Definition centred (L : triple R) (c : pycat) (p p' : pdatum) : Prop :=
  MainProps.alike p p' /\ forall i, (0 <= at_axis i (p_pos p') < at_axis i L)%R /\
    exists k : Z, (at_axis i (p_pos p') = at_axis i (p_pos p) +
      (at_axis i L / 2 - (fst (at_axis i (bounds c)) + snd (at_axis i (bounds c))) / 2) + IZR k * at_axis i L)%R.

Lemma per_centred L c ps : (forall i, (0 < at_axis i L)%R) -> Forall2 (centred L c) ps (map (per L (bounds c)) ps).
Proof.
  intros P. induction ps as [|p ps IH]; cbn [map]; constructor; [|exact IH]. split; [repeat split|].
  intros i. split.
  - pose proof (P i) as Pi. destruct i; cbn [CatProps.at_axis per p_pos ax0 ax1 ax2] in *; unfold periodise_coord; now apply pymod_range.
  - destruct i; cbn [CatProps.at_axis per p_pos ax0 ax1 ax2]; unfold periodise_coord, pymod;
      match goal with |- context [IZR (Flocq.Core.Raux.Zfloor ?e)] => exists (- Flocq.Core.Raux.Zfloor e)%Z; rewrite opp_IZR; lra end.
Qed.

Lemma alike_per L c ps : Forall2 MainProps.alike ps (map (per L (bounds c)) ps).
Proof. induction ps as [|p ps IH]; constructor; [repeat split|exact IH]. Qed.

(** What a box measurement does once its set, bins and box are there: it
    measures with a convention spelled in lower case for which it has a
    branch, otherwise it ends with an unbound variable. *)
Definition box_conventions := ["none"; "particle"; "mesh"].

Theorem box_outcome fuel e three st name a d s q b L n v :
  two_or_three three name -> prepared fuel e three "sim" name a = Returns q ->
  bins_of a q = Returns b -> boxed q = Returns (L, n) -> (forall i, (0 < at_axis i L)%R) ->
  py_in_step (s d) -> dget "norm_convention" (entries q) = Some v ->
  let k := if three then 3 else 2 in
  MainProps.total k (particles_in L (s d)) <> 0%R ->
  ((exists t, v = VStr t /\ In t box_conventions) -> exists x ps,
     box fuel e three st name a d s = Returns x /\ used x = q /\ Forall2 (centred L (s d)) (particles_in L (s d)) ps /\
     from_data (called x) = Some (ps, []) /\ from_rand (called x) = None /\ in_box (called x) = true /\
     stat (called x) = st /\ par (called x) = cpp q /\ bin (called x) = BinningModel.p_cpp b /\
     MainProps.reciprocal (n_part (factors x)) (MainProps.total k (particles_in L (s d))) /\
     MainProps.reciprocal (n_mesh (factors x)) (MainProps.mesh_total k (smp (cpp q)) ps) /\
     factor (called x) = (if is_text v "none" then Some 1%R else if is_text v "particle" then n_part (factors x)
                          else n_mesh (factors x))) /\
  (~ (exists t, v = VStr t /\ In t box_conventions) -> box fuel e three st name a d s = Raises NameError).
Proof.
  intros TT PR BO LN P St NC k TO.
  pose proof (prepared_facts _ _ _ _ _ _ _ PR) as PF.
  destruct (box_positions L d s P St) as (s1 & E1 & s2 & E2 & RW & SQ & NE & _).
  set (ps := map (per L (bounds (s d))) (particles_in L (s d))) in *.
  pose proof (rows_ne _ SQ NE) as NR. rewrite RW in NR. pose proof (canon_has _ NR) as H.
  assert (TO' : MainProps.total k ps <> 0%R).
  { unfold ps. rewrite (MainProps.alike_total _ _ _ (alike_per L (s d) _)). exact TO. }
  assert (KI : In k [2; 3]) by (unfold k; destruct three; cbn; auto).
  assert (PN : exists x, part_norm three (canon ps) 1 = Returns x).
  { unfold part_norm. apply numbered_wrapped. unfold k in TO'. destruct three.
    - exact (MainProps.number_part_runs 3 _ _ 1 (or_intror (or_introl eq_refl)) (proj1 H) TO').
    - exact (MainProps.number_part_runs 2 _ _ 1 (or_introl eq_refl) (proj1 H) TO'). }
  assert (MN : exists x, mesh_norm three (cpp q) (canon ps) 1 = Returns x).
  { unfold mesh_norm. cbv zeta. apply numbered_bare. apply MainProps.number_mesh_runs. }
  destruct PN as (part & PN). destruct MN as (mesh & MN).
  assert (X : box fuel e three st name a d s =
    (f <~ factor_of false q {| n_part := part; n_mesh := mesh; n_meshes := Some 0%R |} ;;
     Returns {| called := {| stat := st; from_data := Some (MainModel.particles (canon ps), []);
                          from_rand := None; in_box := true; par := cpp q;
                          bin := BinningModel.p_cpp b; contrast := None; factor := f |};
             factors := {| n_part := part; n_mesh := mesh; n_meshes := Some 0%R |}; used := q; after := s2 |})).
  { unfold box. rewrite PR. cbn [andthen]. rewrite (types_pass _ _ _ _ _ PF TT). cbn [andthen]. rewrite BO. cbn [andthen].
    rewrite LN. cbn [andthen fst]. rewrite E1. cbn [python andthen]. rewrite E2. cbn [andthen].
    rewrite (converted_canon _ SQ NE), RW. cbn [andthen]. cbv zeta. rewrite PN. cbn [andthen]. rewrite MN. cbn [andthen]. reflexivity. }
  rewrite X. unfold factor_of. rewrite (entry_is _ _ _ NC). cbn [andthen]. clear X.
  split.
  - intros (t & -> & I). cbn [is_text andb].
    assert (F : (if t =? "none" then Returns (Some 1%R) else if t =? "particle" then Returns part else if t =? "mesh" then Returns mesh else Raises NameError) =
      Returns (if t =? "none" then Some 1%R else if t =? "particle" then part else mesh)).
    { destruct I as [<-|[<-|[<-|[]]]]; reflexivity. }
    cbn [n_part n_mesh]. rewrite F. cbn [andthen]. eexists. exists ps. split; [reflexivity|]. cbn [used called factors from_data from_rand in_box stat par bin factor n_part n_mesh].
    split; [reflexivity|]. split; [now apply per_centred|]. rewrite (MainProps.particles_has _ _ H). do 6 (split; [reflexivity|]).
    split; [|split; [|reflexivity]].
    + unfold part_norm in PN. apply wrapped_number in PN.
      assert (Q : MainProps.reciprocal part (1 * MainProps.total k ps)).
      { unfold k in *. destruct three; [exact (proj2 (MainProps.number_recip 3 ps (canon ps) 1 part KI (proj1 H) PN))
                                       |exact (proj2 (MainProps.number_recip 2 ps (canon ps) 1 part KI (proj1 H) PN))]. }
      rewrite Rmult_1_l in Q. unfold ps in Q. rewrite (MainProps.alike_total _ _ _ (alike_per L (s d) _)) in Q. exact Q.
    + unfold mesh_norm in MN. cbv zeta in MN. apply bare_number in MN. apply MainProps.number_mesh in MN.
      rewrite pow1, Rmult_1_l, (MainProps.particles_has _ _ H) in MN. exact MN.
  - intros N. destruct v; try reflexivity. cbn [is_text andb].
    destruct (String.eqb_spec s0 "none") as [->|]; [exfalso; apply N; eexists; split; [reflexivity|cbn; auto]|].
    destruct (String.eqb_spec s0 "particle") as [->|]; [exfalso; apply N; eexists; split; [reflexivity|cbn; auto]|].
    destruct (String.eqb_spec s0 "mesh") as [->|]; [exfalso; apply N; eexists; split; [reflexivity|cbn; auto]|]. reflexivity.
Qed.

(** * C107: conventions accepted by the parameter set and unknown to the measurement *)

(** The set of [rdemo] for another convention. *)
Definition ndemo (conv : string) : dict := dset "norm_convention" (VStr conv) (rdemo "powspec").

Definition one_cat : pycat :=
  PyCat [1%R] [2%R] [3%R] [1%R] [1%R] [1%R] (T3 (1, 1) (2, 2) (3, 3))%R (T3 (1 - 1) (2 - 2) (3 - 3))%R 1 (1 * 1 + 0) (1 + 0).

Lemma one_cat_step : py_in_step one_cat.
Proof.
  split; [repeat split|]. split; [|repeat split; cbn; lra].
  intros i. unfold range_of. destruct i; cbn; (split; [split; [now left|split; [now left|intros x [<-|[]]; lra]]|reflexivity]).
Qed.

Theorem convention_case_refuted : forall conv, In conv ["Particle"; "mesh-mixed"] -> exists s,
  built (construct 0 demo_env (ndemo conv)) s /\
  In (norm_convention (msr (cpp s))) ["none"; "particle"; "mesh"; "mesh-mixed"] /\
  compute_powspec_in_gpp_box 0 demo_env (with_set s) 0 (fun _ => one_cat) = Raises NameError.
Proof.
  intros conv I.
  assert (D : exists s q, built (construct 0 demo_env (ndemo conv)) s /\
    In (norm_convention (msr (cpp s))) ["none"; "particle"; "mesh"; "mesh-mixed"] /\
    prepared 0 demo_env false "sim" "powspec" (with_set s) = Returns q /\
    dget "norm_convention" (entries q) = Some (VStr conv) /\ ParamModel.binning (msr (cpp q)) = "lin" /\
    dget "binning" (entries q) = Some (VStr (ParamModel.binning (msr (cpp q)))) /\
    (exists a b, dget "range" (entries q) = Some (VList [a; b])) /\ grid_of q = Returns (ngrid (smp (cpp q))) /\
    unset q "boxsize" = false /\ boxsize (smp (cpp q)) = T3 1000%R 1000%R 1000%R /\
    volume (smp (cpp q)) = (1000 * 1000 * 1000)%R).
  { destruct I as [<-|[<-|[]]];
    (eexists; eexists; split; [now_built|]; split; [cbn; auto 6|]; split;
     [rewrite prepared_set; unfold types; apply python_returns; unfold update; cbn [dupdate entries cpp bar]; run|];
     split; [reflexivity|]; split; [reflexivity|]; split; [reflexivity|]; split; [eexists; eexists; reflexivity|]; repeat split). }
  destruct D as (s & q & BU & NN & PR & NC & BL & SB & SR & SG & UB & BX & VO).
  exists s. split; [exact BU|]. split; [exact NN|].
  pose proof (prepared_facts _ _ _ _ _ _ _ PR) as PF.
  destruct (parsed_settled _ _ _ _ PF ltac:(cbn; tauto) ltac:(cbn; tauto)) as (_ & CK & ST).
  destruct (bins_made _ _ _ _ PF SB SR ST) as (b & BM).
  { rewrite BL. cbn; auto. } { rewrite BL. intros (Q & _). discriminate Q. }
  pose proof (boxed_made _ _ _ _ PF SG ST UB ltac:(rewrite VO; lra)) as LN. rewrite BX in LN.
  destruct (box_outcome 0 demo_env false MainModel.Powspec "powspec" (with_set s) 0 (fun _ => one_cat) q b _ _ (VStr conv)
              ltac:(cbn; auto) PR ltac:(unfold bins_of; exact BM) LN) as (_ & F).
  { intros []; cbn; lra. } { apply one_cat_step. } { exact NC. }
  { unfold particles_in, density. replace (any (col_nz one_cat)) with true.
    2:{ unfold any. cbn [one_cat col_nz existsb]. replace (Reqb 1 0) with false by (symmetry; apply Reqb_false; lra). reflexivity. }
    unfold MainProps.total, rsum. cbn. lra. }
  apply F. intros (t & Q & K). injection Q as <-. cbn in K, I.
  destruct I as [<-|[<-|[]]]; destruct K as [K|[K|[K|[]]]]; discriminate K.
Qed.

(* ------------------------------------------------------------------ *)
(** * C105: a box measured from Python and by the program *)

(** The same particle further by [v], up to whole boxes. *)
Definition displaced (L : triple R) (v : axis -> R) (p p' : pdatum) : Prop :=
  MainProps.alike p p' /\ forall i, exists k : Z,
    (at_axis i (p_pos p') = at_axis i (p_pos p) + v i + IZR k * at_axis i L)%R.

(** From where the program leaves it to the middle of the box. *)
Definition to_middle (L : triple R) (c : pycat) (i : axis) : R :=
  (at_axis i L / 2 - (fst (at_axis i (bounds c)) + snd (at_axis i (bounds c))) / 2)%R.

Lemma displaced_both L c ps qs qs' : Forall2 (CatProps.wrapped L) ps qs -> Forall2 (centred L c) ps qs' ->
  Forall2 (displaced L (to_middle L c)) qs qs'.
Proof.
  intros F. revert qs'. induction F as [|p q ps qs (W & A1 & A2 & A3 & A4) F IH]; intros qs' G; inversion G as [|? q' ? rs ((B1 & B2 & B3 & B4) & C) G']; subst; [constructor|].
  constructor; [|now apply IH]. split; [unfold MainProps.alike; rewrite B1, B2, B3, B4; auto|].
  intros i. destruct (W i) as (_ & k & Ek). destruct (C i) as (_ & m & Em). exists (m - k)%Z. unfold to_middle. rewrite Em, Ek, minus_IZR. ring.
Qed.

(** What is common to the two requests. *)
Record box_request (c : call) (r : MainModel.request) : Prop := {
  x_stat : MainModel.stat r = stat c;
  x_rand : MainModel.from_rand r = None /\ from_rand c = None;
  x_box : MainModel.in_box r = true /\ in_box c = true;
  x_par : ParamFileModel.core (MainModel.par r) = par c;
  x_bin : MainModel.bin r = Some (vectors_of (bin c));
  x_contrast : MainModel.contrast r = contrast c
}.

Theorem box_as_program fuel e w p three st name a d s x cs :
  two_or_three three name -> MainModel.statistic_of name = Some st -> PyRunModel.binning a = None ->
  py_in_step (s d) -> box fuel e three st name a d s = Returns x ->
  spelled (used x) -> In (ParamModel.binning (msr (cpp (used x)))) ["lin"; "log"] ->
  ParamFileModel.core p = cpp (used x) -> MainModel.bld w = standalone (lib e) -> MainModel.fuel w = fuel ->
  let L := boxsize (smp (cpp (used x))) in
  (forall i, (0 < at_axis i L)%R) ->
  MainModel.catalogues w p = MainModel.Go cs -> MainModel.particles (cs 0) = particles_in L (s d) ->
  exists g q path ps ps' los, MainModel.session w p = MainModel.Go g /\
    MainModel.measured g = Some (q, path) /\ box_request (called x) q /\
    MainModel.from_data q = Some (ps, los) /\ from_data (called x) = Some (ps', []) /\
    Forall2 (displaced L (to_middle L (s d))) ps ps' /\
    Forall2 (CatProps.wrapped L) (particles_in L (s d)) ps /\ Forall2 (centred L (s d)) (particles_in L (s d)) ps' /\
    MainModel.n_part (MainModel.printed_norms g) = n_part (factors x) /\
    (norm_convention (msr (cpp (used x))) <> "mesh" -> MainModel.factor q = factor (called x)) /\
    (norm_convention (msr (cpp (used x))) = "mesh" ->
       MainProps.reciprocal (MainModel.factor q) (MainProps.mesh_total (if three then 3 else 2) (smp (cpp (used x))) ps) /\
       MainProps.reciprocal (factor (called x)) (MainProps.mesh_total (if three then 3 else 2) (smp (cpp (used x))) ps')).
Proof.
  intros TT ES BI St H SP BL CO BW FW L0 PL CA P0.
  unfold box in H. apply andthen_returns in H as (q & PR & H). apply andthen_returns in H as (u & CT & H).
  apply andthen_returns in H as (b & BO & H). apply andthen_returns in H as (ln & LN & H).
  apply andthen_returns in H as (s1 & PE & H). apply andthen_returns in H as (s2 & DE & H).
  apply andthen_returns in H as (cd & CD & H). cbv zeta in H.
  apply andthen_returns in H as (part & PN & H). apply andthen_returns in H as (mesh & MN & H).
  apply andthen_returns in H as (f & FO & H). injection H as <-. cbn [called factors used] in *.
  pose proof (prepared_facts _ _ _ _ _ _ _ PR) as PF.
  destruct (statistic_clustering _ _ _ TT ES) as (IW & LO & KN).
  destruct (parsed_settled _ _ _ _ PF ltac:(cbn; tauto) ltac:(now rewrite LO)) as (KK & CK & ST).
  destruct (boxed_is _ _ _ _ _ PF SP LN) as (-> & HV). cbn [fst snd] in PE, DE. fold L0 in PE, DE.
  apply python_returns in PE.
  destruct (box_positions L0 d s PL St) as (s1' & E1 & s2' & E2 & RW & SQ & NE & _).
  rewrite PE in E1. injection E1 as <-. rewrite DE in E2. injection E2 as <-.
  pose proof (rows_ne _ SQ NE) as NR. rewrite (converted_canon _ SQ NE), RW in CD. injection CD as <-. rewrite RW in NR.
  set (ps' := map (per L0 (bounds (s d))) (particles_in L0 (s d))) in *.
  assert (N0 : particles_in L0 (s d) <> []) by (intros Z; apply NR; unfold ps'; now rewrite Z).
  assert (KD : MainModel.kind p = "sim").
  { unfold MainModel.kind. rewrite CO, (proj2 (pr_ct _ _ _ _ PF)). reflexivity. }
  assert (STP : statistic_type (msr (cpp q)) = name) by (rewrite (proj2 (pr_st _ _ _ _ PF)); exact LO).
  assert (CS : cs = both (canon (particles_in L0 (s d))) catalogue_new).
  { unfold MainModel.catalogues, MainModel.load_if in CA. rewrite KD in CA.
    change (MainModel.flag_data "sim") with true in CA. change (MainModel.flag_rand "sim") with false in CA. cbv iota in CA.
    destruct (MainModel.load _ _ _) as [|c0] eqn:E0 in CA; cbn [MainModel.andthen] in CA; [discriminate|].
    injection CA as <-. apply load_canon in E0. rewrite P0 in E0. now rewrite E0. }
  assert (BN : MainModel.bins p = MainModel.Go (Some (vectors_of (BinningModel.p_cpp b)))).
  { unfold bins_of in BO. rewrite BI in BO. exact (bins_same _ _ _ _ _ _ PF SP ST CO BL BO). }
  assert (SZ : MainModel.sized w p cs = MainModel.Go p).
  { unfold MainModel.sized. cbv zeta. rewrite KD, CO. change (MainModel.flag_data "sim") with true; cbn [orb]; cbv iota.
    unfold PyRunModel.has_volume in HV. apply andb_true_iff in HV as [HV _]. apply Rltb_spec in HV.
    destruct (Reqb (volume (smp (cpp q))) 0) eqn:Z; [|reflexivity]. apply Reqb_spec in Z. rewrite Z in HV. lra. }
  assert (HV' : MainModel.has_volume p = true).
  { unfold MainModel.has_volume. cbv zeta. rewrite CO. unfold PyRunModel.has_volume in HV. now rewrite HV. }
  pose proof (canon_has _ N0) as H0.
  destruct (periodicity_wraps (both (canon (particles_in L0 (s d))) catalogue_new) 0 L0 _ H0 PL) as (t & ps & AL & HP & WR & _ & _ & OT).
  assert (PS : Forall2 (centred L0 (s d)) (particles_in L0 (s d)) ps') by now apply per_centred.
  pose proof (displaced_both _ _ _ _ _ WR PS) as DB.
  assert (AK : Forall2 MainProps.alike (particles_in L0 (s d)) ps).
  { clear - WR. induction WR as [|u1 u2 us1 us2 (W & A) F IH]; constructor; [exact A|exact IH]. }
  set (k := if three then 3 else 2).
  assert (KI : In k [2; 3]) by (unfold k; destruct three; cbn; auto).
  assert (TO : MainProps.total k ps = MainProps.total k ps').
  { unfold ps'. rewrite (MainProps.alike_total _ _ _ AK), (MainProps.alike_total _ _ _ (alike_per L0 (s d) _)). reflexivity. }
  assert (PQ : MainProps.total k ps' <> 0%R /\ MainProps.reciprocal part (1 * MainProps.total k ps')).
  { unfold part_norm in PN. apply wrapped_number in PN. unfold k in *.
    destruct three; [exact (MainProps.number_recip 3 ps' (canon ps') 1 part KI (proj1 (canon_has _ NR)) PN)
                    |exact (MainProps.number_recip 2 ps' (canon ps') 1 part KI (proj1 (canon_has _ NR)) PN)]. }
  assert (PP : exists y, MainModel.number (if (k =? 2)%nat then NormModel.powspec_norm_particles (t 0) 1 else NormModel.bispec_norm_particles (t 0) 1) = MainModel.Go y).
  { apply (MainProps.number_part_runs k _ ps 1 KI (proj1 HP)). rewrite TO. apply PQ. }
  destruct PP as (part' & PP). pose proof (MainProps.number_recip k ps (t 0) 1 part' KI (proj1 HP) PP) as (_ & PQ').
  assert (EP : part' = part).
  { rewrite TO in PQ'. destruct PQ as (Z & PQ). clear - Z PQ PQ'. rewrite Rmult_1_l in PQ, PQ'.
    destruct part as [v|], part' as [v'|]; cbn [MainProps.reciprocal] in *; try (now destruct Z).
    apply f_equal, (Rmult_eq_reg_r (MainProps.total k ps')); [congruence|exact Z]. }
  subst part'.
  destruct (MainProps.number_mesh_runs k (MainModel.assignment_of (assignment (smp (cpp q)))) (MainModel.mesh_of (smp (cpp q))) (t 0) 1) as (mesh' & MM).
  assert (NP : npoint (msr (cpp q)) = if three then "3pt" else "2pt").
  { pose proof (MainProps.s_stat _ ST) as SS. rewrite STP in SS. exact (npoint_named _ _ _ _ TT SS). }
  set (nm := {| MainModel.n_part := part; MainModel.n_mesh := mesh'; MainModel.n_meshes := Some 0%R |}).
  assert (NO : MainModel.norms_of w p 1 t = MainModel.Go (t, nm)).
  { unfold MainModel.norms_of. cbv zeta. rewrite KD, CO. change (MainModel.flag_rand "sim") with false. cbv iota.
    rewrite NP. unfold k in PP, MM. destruct three; cbn [String.eqb Ascii.eqb Bool.eqb Nat.eqb] in *; rewrite PP; cbn [MainModel.andthen]; rewrite MM; reflexivity. }
  assert (SV : exists path, MainModel.save_path p = Some path).
  { unfold MainModel.save_path, MainModel.base_name. cbv zeta. rewrite CO, STP.
    pose proof (MainProps.s_form _ ST) as SF. unfold two_or_three in TT. clear - SF TT.
    destruct three; destruct TT as [<-|[<-|[]]]; cbn [String.eqb Ascii.eqb Bool.eqb]; try (eexists; reflexivity);
      unfold MainModel.form_name; cbn [In] in SF; decompose [or] SF; try contradiction;
      match goal with K : _ = ParamModel.form _ |- _ => rewrite <- K end; eexists; reflexivity. }
  destruct SV as (path & SV).
  unfold MainModel.session. rewrite CA. cbn [MainModel.andthen]. rewrite BN. cbn [MainModel.andthen].
  rewrite SZ. cbn [MainModel.andthen]. rewrite HV'. cbn [negb]. rewrite CS. unfold MainModel.run_act.
  unfold MainModel.aligned. cbv zeta. rewrite KD, CO. cbn [String.eqb Ascii.eqb Bool.eqb]. fold L0. rewrite AL.
  cbn [MainModel.andthen fst]. change (MainModel.alpha_of "sim" t) with (Some 1%R). cbv iota. rewrite NO. cbn [MainModel.andthen fst snd].
  unfold MainModel.measure. rewrite CO, STP, ES. cbv zeta. rewrite IW, KD. cbn [String.eqb Ascii.eqb Bool.eqb MainModel.andthen].
  rewrite SV. cbn [MainModel.andthen].
  eexists _, _, path, ps, ps', _. split; [reflexivity|]. cbn [MainModel.measured MainModel.printed_norms]. split; [reflexivity|].
  split.
  { constructor; cbn [MainModel.stat MainModel.from_rand MainModel.in_box MainModel.par MainModel.bin MainModel.contrast
      stat from_rand in_box par bin contrast]; try reflexivity; try exact CO; split; reflexivity. }
  cbn [MainModel.from_data from_data MainModel.factor factor]. rewrite (MainProps.particles_has _ _ HP), (MainProps.particles_has _ _ (canon_has _ NR)).
  split; [reflexivity|]. split; [reflexivity|]. split; [exact DB|].
  split; [exact WR|]. split; [exact PS|].
  split; [reflexivity|].
  unfold factor_of in FO. rewrite (entry_is _ _ _ (sp_norm _ SP)) in FO. cbn [andthen is_text n_part n_mesh andb] in FO.
  unfold MainModel.factor_of. rewrite NP. replace ((if three then "3pt" else "2pt") =? "none") with false by now destruct three.
  cbn [nm MainModel.n_part MainModel.n_mesh MainModel.n_meshes].
  destruct (String.eqb_spec (norm_convention (msr (cpp q))) "none") as [E|_].
  { rewrite E. injection FO as <-. split; [reflexivity|discriminate]. }
  destruct (String.eqb_spec (norm_convention (msr (cpp q))) "particle") as [E|_].
  { rewrite E. injection FO as <-. split; [reflexivity|discriminate]. }
  destruct (String.eqb_spec (norm_convention (msr (cpp q))) "mesh") as [E|_]; [|discriminate].
  rewrite E. injection FO as <-. split; [intros Q; now destruct Q|]. intros _. fold k. split.
  - apply MainProps.number_mesh in MM. rewrite pow1, Rmult_1_l, (MainProps.particles_has _ _ HP) in MM. exact MM.
  - unfold mesh_norm in MN. cbv zeta in MN. apply bare_number in MN. fold k in MN. apply MainProps.number_mesh in MN.
    rewrite pow1, Rmult_1_l, (MainProps.particles_has _ _ (canon_has _ NR)) in MN. exact MN.
Qed.

(** Where the way to the middle is a whole number of cells along each axis,
    the measured values are the same. *)
Definition whole_cells (t : ParamModel.sampling) (v : axis -> R) (m : axis -> Z) : Prop :=
  forall i, v i = (IZR (m i) * (at_axis i (boxsize t) / IZR (at_axis i (ngrid t))))%R.

Lemma displaced_moved t v m ps ps' : whole_cells t v m -> Forall2 (displaced (boxsize t) v) ps ps' ->
  Forall2 (TranslateProps.moved (MainModel.mesh_of t) (m AX, m AY, m AZ)) ps ps'.
Proof.
  intros W F. induction F as [|p q ps qs ((A1 & A2 & A3 & A4) & D) F IH]; constructor; [|exact IH].
  unfold TranslateProps.moved, TranslateProps.moved_axis, MainModel.mesh_of. cbn [MeshModel.ngrid MeshModel.boxsize].
  destruct (D AX) as (x & EX), (D AY) as (y & EY), (D AZ) as (z & EZ). rewrite (W AX) in EX. rewrite (W AY) in EY. rewrite (W AZ) in EZ.
  split; [exists (- x)%Z|split; [exists (- y)%Z|split; [exists (- z)%Z|exact A4]]]; rewrite opp_IZR;
  [cbn [at_axis] in EX; rewrite EX|cbn [at_axis] in EY; rewrite EY|cbn [at_axis] in EZ; rewrite EZ]; ring.
Qed.

Theorem box_same_values t v m ps ps' P sj w st order ord l1 l2 l norm same a b :
  Forall2 (displaced (boxsize t) v) ps ps' -> whole_cells t v m ->
  FieldModel.st_mesh st = MainModel.mesh_of t -> FieldProps.sound st ->
  (forall p, In p ps -> PowProps.handled st p) -> (forall p, In p ps' -> PowProps.handled st p) ->
  FieldModel.compute_powspec_in_gpp_box P st order l ps' norm b = FieldModel.compute_powspec_in_gpp_box P st order l ps norm b /\
  FieldModel.compute_corrfunc_in_gpp_box P st order l ps' norm b = FieldModel.compute_corrfunc_in_gpp_box P st order l ps norm b /\
  BispecModel.compute_bispec_in_gpp_box P sj w st ord l1 l2 l ps' norm a b = BispecModel.compute_bispec_in_gpp_box P sj w st ord l1 l2 l ps norm a b /\
  BispecModel.compute_3pcf_in_gpp_box P sj w st ord l1 l2 l ps' norm same a b = BispecModel.compute_3pcf_in_gpp_box P sj w st ord l1 l2 l ps norm same a b.
Proof.
  intros D W M S H H'. apply TranslateProps.box_placement with (s := (m AX, m AY, m AZ)); try assumption.
  rewrite M. now apply displaced_moved with (v := v).
Qed.

Lemma prepared_box : exists s q,
  built (construct 0 demo_env (rdemo "powspec")) s /\
  prepared 0 demo_env false "sim" "powspec" (with_set s) = Returns q /\ spelled q /\
  unset q "boxsize" = false /\ ParamModel.binning (msr (cpp q)) = "lin" /\
  boxsize (smp (cpp q)) = T3 1000%R 1000%R 1000%R /\
  volume (smp (cpp q)) = (1000 * 1000 * 1000)%R /\ data_file (pths (cpp q)) = "a.dat" /\
  norm_convention (msr (cpp q)) = "particle".
Proof.
  eexists. eexists. split; [now_built|]. split.
  - rewrite prepared_set. unfold types. apply python_returns. unfold update. cbn [dupdate entries cpp bar]. run.
  - split; [|repeat split]. split; try reflexivity; [eexists; split; [reflexivity|discriminate]|eexists; eexists; reflexivity].
Qed.

Lemma stays x y L k : (0 <= y <= L)%R -> (0 < x < L)%R -> (y = x + IZR k * L)%R -> y = x.
Proof.
  intros H K E. destruct (Z_lt_le_dec k 0) as [N|N].
  - apply Z.lt_le_pred, IZR_le in N. cbn in N. assert (IZR k * L <= -1 * L)%R by (apply Rmult_le_compat_r; lra). lra.
  - destruct (Z_lt_le_dec 0 k) as [M|M]; [|replace k with 0%Z in E by lia; lra].
    apply Z.le_succ_l, IZR_le in M. cbn in M. assert (1 * L <= IZR k * L)%R by (apply Rmult_le_compat_r; lra). lra.
Qed.

(** One particle in a box, measured from Python and by the program: the same
    request except that the particle is in the middle of the box in one and
    where its file puts it in the other. *)
Theorem box_positions_refuted : exists s c x w p g q path,
  built (construct 0 demo_env (rdemo "powspec")) s /\
  compute_powspec_in_gpp_box 0 demo_env (with_set s) 0 (fun _ => c) = Returns x /\
  MainModel.session w p = MainModel.Go g /\ MainModel.measured g = Some (q, path) /\
  box_request (called x) q /\ MainModel.factor q = factor (called x) /\
  exists ps ps' los u u', MainModel.from_data q = Some (ps, los) /\ from_data (called x) = Some (ps', []) /\
    ps = [u] /\ ps' = [u'] /\ p_pos u = T3 1%R 2%R 3%R /\ p_pos u' = T3 500%R 500%R 500%R.
Proof.
  destruct prepared_box as (s & q & BU & PR & SP & UB & BL & BX & VO & DF & NC).
  assert (VO' : volume (smp (cpp q)) = 1000000000%R) by (rewrite VO; lra).
  destruct (one_loaded (standalone (lib demo_env)) (cpp q) "a.dat" ltac:(cbn; auto) VO')
    as (c & LD & St & NE & _ & _ & CX & CY & CZ & CN & CS & CC).
  set (w := one_file (standalone (lib demo_env))) in *. set (p := ParamEnvProps.full (cpp q)) in *.
  pose proof (prepared_facts _ _ _ _ _ _ _ PR) as PF.
  destruct (parsed_settled _ _ _ _ PF ltac:(cbn; tauto) ltac:(cbn; tauto)) as (_ & CK & ST).
  destruct (bins_made _ _ _ _ PF (sp_bin _ SP) (sp_range _ SP) ST) as (b & BM).
  { rewrite BL. cbn; auto. } { rewrite BL. intros (Q & _). discriminate Q. }
  pose proof (boxed_made _ _ _ _ PF (sp_grid _ SP) ST UB ltac:(rewrite VO; lra)) as LN. rewrite BX in LN.
  set (L := T3 1000%R 1000%R 1000%R) in *.
  assert (PI : particles_in L c = [PDatum (T3 1 2 3) (/ 1000000000) 1 1 (1 * 1)]%R).
  { unfold particles_in, density. rewrite CX, CY, CZ, CN, CS, CC. unfold any. cbn [existsb].
    replace (Reqb (/ 1000000000) 0) with false by (symmetry; apply Reqb_false; lra). reflexivity. }
  assert (RC : particles_in L c = rows c) by (rewrite PI; unfold rows; rewrite CX, CY, CZ, CN, CS, CC; reflexivity).
  assert (PL : forall i, (0 < at_axis i L)%R) by (intros []; cbn; lra).
  destruct (box_outcome 0 demo_env false MainModel.Powspec "powspec" (with_set s) 0 (fun _ => c) q b _ _ _
              ltac:(cbn; auto) PR ltac:(unfold bins_of; exact BM) LN PL St (sp_norm _ SP)) as (OK & _).
  { rewrite PI. unfold MainProps.total, rsum. cbn. lra. }
  destruct OK as (x & ps1 & BX1 & UX & FC & FD & _). { eexists. split; [reflexivity|]. rewrite NC. cbn. auto. }
  assert (KD : MainModel.kind p = "sim") by exact (proj2 (pr_ct _ _ _ _ PF)).
  assert (CT : exists k, MainModel.catalogues w p = MainModel.Go k /\ k 0 = canon (rows c)).
  { unfold MainModel.catalogues, MainModel.load_if. rewrite KD.
    change (MainModel.flag_data "sim") with true. change (MainModel.flag_rand "sim") with false. cbv zeta iota.
    change (ParamFileModel.core p) with (cpp q). rewrite DF, LD. cbn [MainModel.andthen].
    eexists. split; reflexivity. }
  destruct CT as (k & CT & K0).
  destruct (box_as_program 0 demo_env w p false MainModel.Powspec "powspec" (with_set s) 0 (fun _ => c) x k)
    as (g & r & path & ps & ps' & los & G & M & BR & F1 & F2 & DI & I1 & I2 & _ & FA & _);
    try reflexivity; try assumption; try (rewrite UX; assumption); try (rewrite UX; reflexivity).
  { cbn; auto. } { rewrite UX, BL. cbn; auto. } { rewrite UX, BX. exact PL. }
  { rewrite K0, UX, BX. fold L. rewrite RC. apply MainProps.particles_has, canon_has, NE. }
  exists s, c, x, w, p, g, r, path. repeat (split; [assumption|]).
  split. { apply FA. rewrite UX, NC. discriminate. }
  rewrite UX, BX in I1, I2. fold L in I1, I2. cbn beta in I1, I2. rewrite PI in I1, I2.
  inversion I1 as [|? u ? us (W & _) FN]; subst. inversion FN; subst. inversion I2 as [|? u' ? us' (_ & W') FN']; subst. inversion FN'; subst.
  exists [u], [u'], los, u, u'. repeat (split; [first [assumption|reflexivity]|]).
  assert (BD : bounds c = T3 (1, 1)%R (2, 2)%R (3, 3)%R).
  { destruct St as (_ & B & _). pose proof (B AX) as B0. pose proof (B AY) as B1. pose proof (B AZ) as B2.
    unfold range_of in B0, B1, B2. cbn [col at_axis] in B0, B1, B2. rewrite CX in B0. rewrite CY in B1. rewrite CZ in B2.
    destruct (bounds c) as [[a0 a1] [a2 a3] [a4 a5]]. cbn [ax0 ax1 ax2 fst snd In] in *.
    destruct B0 as (([<-|[]] & [<-|[]] & _) & _), B1 as (([<-|[]] & [<-|[]] & _) & _), B2 as (([<-|[]] & [<-|[]] & _) & _). reflexivity. }
  rewrite BD in W'. destruct u as [[x0 x1 x2] ? ? ? ?], u' as [[y0 y1 y2] ? ? ? ?].
  pose proof (W AX) as (A0 & k0 & E0). pose proof (W AY) as (A1 & k1 & E1). pose proof (W AZ) as (A2 & k2 & E2).
  pose proof (W' AX) as (B0 & m0 & G0). pose proof (W' AY) as (B1 & m1 & G1). pose proof (W' AZ) as (B2 & m2 & G2).
  cbn [at_axis ax0 ax1 ax2 p_pos fst snd L] in *.
  apply stays in E0; [|lra|lra]. apply stays in E1; [|lra|lra]. apply stays in E2; [|lra|lra].
  apply stays in G0; [|lra|lra]. apply stays in G1; [|lra|lra]. apply stays in G2; [|lra|lra].
  subst. split; f_equal; lra.
Qed.

Print Assumptions box_outcome.
Print Assumptions convention_case_refuted.
Print Assumptions box_as_program.
Print Assumptions box_same_values.
Print Assumptions box_positions_refuted.
