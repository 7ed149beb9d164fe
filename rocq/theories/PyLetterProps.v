(** Entries of a parameter set read by Python in one spelling only. *)
From Coq Require Import String Ascii List Arith ZArith Reals Bool Lia Lra FunctionalExtensionality.
From Verif Require Import Base StrModel StrProps Dec ArrayModel ArrayProofs
  MeshModel CatModel CatProps PyCatModel PyCatProps ParamModel ParamProps ParamValProps ParamFixProps.
From Verif Require Import PyParamModel PyParamProofs PyParamProps PyAmalgModel PyAmalgProps.
From Verif Require Import PyRunModel PyRunProps PyBoxProps PyWinProps.
From Verif Require ParamFileModel MainModel MainProps NormProps BinningModel LoadModel LoadProps ParamEnvProps.
Import ListNotations.
Local Open Scope R_scope.
Local Open Scope nat_scope.
Local Open Scope string_scope.

(* ------------------------------------------------------------------ *)
(** * C107: letters *)

Lemma alignment_other s t : dget "alignment" (entries s) = Some (VStr t) -> ~ In t ["centre"; "pad"] ->
  alignment_of s = Returns PyNone.
Proof.
  intros E N. unfold alignment_of. rewrite (entry_is _ _ _ E). cbn [andthen is_text].
  destruct (t =? "centre") eqn:A; [apply String.eqb_eq in A; subst; cbn in N; tauto|].
  destruct (t =? "pad") eqn:B; [apply String.eqb_eq in B; subst; cbn in N; tauto|]. reflexivity.
Qed.

(** The particles measured are those of the catalogues as they are left. *)
Theorem survey_particles fuel e three st name a d r s x :
  d <> r -> py_in_step (s d) -> py_in_step (s r) ->
  survey fuel e three st name a d r s = Returns x ->
  (exists l, from_data (called x) = Some (rows (after x d), l)) /\
  (exists l, from_rand (called x) = Some (rows (after x r), l)) /\
  exists al, alignment_of (used x) = Returns al /\
    forall t, dget "alignment" (entries (used x)) = Some (VStr t) -> ~ In t ["centre"; "pad"] -> after x = s.
Proof.
  intros N Sd Sr H.
  unfold survey in H. apply andthen_returns in H as (q & PR & H). apply andthen_returns in H as (u & CT & H).
  apply andthen_returns in H as (b & BO & H). apply andthen_returns in H as (ln & LN & H).
  apply andthen_returns in H as (al & AL & H). apply andthen_returns in H as (y & SU & H).
  destruct y as [[ld lr] s']. apply andthen_returns in H as (cd & CD & H). apply andthen_returns in H as (cr & CR & H).
  destruct (Reqb (py_wstotal (s' r)) 0) eqn:WZ; [discriminate|]. cbv zeta in H.
  apply andthen_returns in H as (part & PN & H). apply andthen_returns in H as (mesh & MN & H).
  apply andthen_returns in H as (m & MM & H). apply andthen_returns in H as (f & FO & H).
  apply andthen_returns in H as (pd & PD & H). apply andthen_returns in H as (pr & PRr & H).
  injection H as <-. cbn [called factors used after from_data from_rand] in *.
  apply python_returns in SU.
  destruct (setup_shift _ _ _ _ _ _ _ _ _ _ _ N (in_step_current _ Sd) (in_step_current _ Sr) SU) as (o & _ & _ & Cd & Cr & _).
  pose proof (rows_ne _ (proj1 Cd) (bounds_nonempty _ (proj1 (proj2 Cd)))) as NEd.
  pose proof (rows_ne _ (proj1 Cr) (bounds_nonempty _ (proj1 (proj2 Cr)))) as NEr.
  rewrite (converted_canon _ (proj1 Cd) (bounds_nonempty _ (proj1 (proj2 Cd)))) in CD. injection CD as <-.
  rewrite (converted_canon _ (proj1 Cr) (bounds_nonempty _ (proj1 (proj2 Cr)))) in CR. injection CR as <-.
  assert (MF : fst m 0 = canon (rows (s' d)) /\ fst m 1 = canon (rows (s' r))).
  { destruct three; [injection MM as <-; split; reflexivity|].
    pose proof (canon_has _ NEd) as Hd. pose proof (canon_has _ NEr) as Hr.
    revert MM. unfold mixed_norm. destruct (NormModel.norm_box _ _ _ _) as [n side].
    destruct (norm_params _ _ _ _ _ _) as [q'|x]; [|destruct x; discriminate]. cbn [bare andthen]. cbv zeta.
    edestruct (NormProps.mixed_norm_run (both (canon (rows (s' d))) (canon (rows (s' r)))) 0 1) as (s2 & -> & SE);
      [discriminate|exact Hd|exact Hr|now apply refresh_current|now apply refresh_current|].
    intros MM. apply andthen_returns in MM as (z & _ & MM). injection MM as <-. cbn [fst]. rewrite !SE. split; reflexivity. }
  destruct MF as (M0 & M1). rewrite M0 in PD. rewrite M1 in PRr.
  apply with_los_inv in PD, PRr. subst pd pr. rewrite !(MainProps.particles_has _ _ (canon_has _ NEd)), !(MainProps.particles_has _ _ (canon_has _ NEr)).
  split; [eexists; reflexivity|]. split; [eexists; reflexivity|]. exists al. split; [exact AL|].
  intros t T NT. rewrite (alignment_other _ _ T NT) in AL. injection AL as <-. unfold survey_setup in SU. cbn [bind] in SU. now injection SU.
Qed.

(** Any alignment but "centre" and "pad", letter for letter, leaves the
    catalogues where they are. *)
Theorem survey_unmoved fuel e three st name a d r s x t :
  d <> r -> py_in_step (s d) -> py_in_step (s r) ->
  survey fuel e three st name a d r s = Returns x ->
  dget "alignment" (entries (used x)) = Some (VStr t) -> ~ In t ["centre"; "pad"] ->
  after x = s /\
  (exists l, from_data (called x) = Some (rows (s d), l)) /\
  (exists l, from_rand (called x) = Some (rows (s r), l)).
Proof.
  intros N Sd Sr H T NT. destruct (survey_particles _ _ _ _ _ _ _ _ _ _ N Sd Sr H) as (F & G & al & _ & K).
  rewrite (K t T NT) in F, G. rewrite (K t T NT). auto.
Qed.

(** A padding scale but "box" and "grid", letter for letter, never returns,
    and neither do two-point statistics with the "estimate" planner. *)
Theorem padscale_never_returns fuel e three st name a d r s x t :
  survey fuel e three st name a d r s = Returns x ->
  dget "alignment" (entries (used x)) = Some (VStr "pad") ->
  dget "padscale" (entries (used x)) = Some (VStr t) -> In t ["box"; "grid"].
Proof.
  intros H A P. unfold survey in H. apply andthen_returns in H as (q & PR & H). apply andthen_returns in H as (u & CT & H).
  apply andthen_returns in H as (b & BO & H). apply andthen_returns in H as (ln & LN & H).
  apply andthen_returns in H as (al & AL & H). apply andthen_returns in H as (y & SU & H).
  destruct y as [[ld lr] s']. apply andthen_returns in H as (cd & CD & H). apply andthen_returns in H as (cr & CR & H).
  destruct (Reqb (py_wstotal (s' r)) 0) eqn:WZ; [discriminate|]. cbv zeta in H.
  apply andthen_returns in H as (part & PN & H). apply andthen_returns in H as (mesh & MN & H).
  apply andthen_returns in H as (m & MM & H). apply andthen_returns in H as (f & FO & H).
  apply andthen_returns in H as (pd & PD & H). apply andthen_returns in H as (pr & PRr & H).
  injection H as <-. cbn [used] in *.
  unfold alignment_of in AL. rewrite (entry_is _ _ _ A) in AL. cbn [andthen is_text String.eqb Ascii.eqb Bool.eqb] in AL.
  rewrite (entry_is _ _ _ P) in AL. cbn [andthen is_text] in AL.
  destruct (t =? "box") eqn:B; [apply String.eqb_eq in B; cbn; auto|].
  destruct (t =? "grid") eqn:G; [apply String.eqb_eq in G; cbn; auto|]. discriminate.
Qed.

Theorem padscale_raises fuel e three st name a d r s q b ln t :
  two_or_three three name -> prepared fuel e three "survey" name a = Returns q ->
  bins_of a q = Returns b -> boxed q = Returns ln ->
  dget "alignment" (entries q) = Some (VStr "pad") ->
  dget "padscale" (entries q) = Some (VStr t) -> ~ In t ["box"; "grid"] ->
  survey fuel e three st name a d r s = Raises NameError.
Proof.
  intros TT PR BO LN A P NT. pose proof (prepared_facts _ _ _ _ _ _ _ PR) as PF.
  unfold survey. rewrite PR. cbn [andthen]. rewrite (types_pass _ _ _ _ _ PF TT). cbn [andthen].
  rewrite BO. cbn [andthen]. rewrite LN. cbn [andthen].
  unfold alignment_of. rewrite (entry_is _ _ _ A). cbn [andthen is_text String.eqb Ascii.eqb Bool.eqb].
  rewrite (entry_is _ _ _ P). cbn [andthen is_text].
  destruct (t =? "box") eqn:B; [apply String.eqb_eq in B; cbn in NT; subst; tauto|].
  destruct (t =? "grid") eqn:G; [apply String.eqb_eq in G; cbn in NT; subst; tauto|]. reflexivity.
Qed.

(** The parameters of the C++ side are the same for "Centre" and "centre". *)
Definition cdemo (align : string) : dict := dset "alignment" (VStr align) (rdemo "bispec").

Lemma prepared_letters : exists s s' q q',
  built (construct 0 demo_env (cdemo "Centre")) s /\ built (construct 0 demo_env (cdemo "centre")) s' /\
  cpp s = cpp s' /\
  prepared 0 demo_env true "survey" "bispec" (with_set s) = Returns q /\
  prepared 0 demo_env true "survey" "bispec" (with_set s') = Returns q' /\ cpp q = cpp q' /\ spelled q' /\
  dget "alignment" (entries q) = Some (VStr "Centre") /\ alignment (smp (cpp q)) = "centre" /\
  dget "binning" (entries q) = Some (VStr (ParamModel.binning (msr (cpp q)))) /\
  (exists a b, dget "range" (entries q) = Some (VList [a; b])) /\
  grid_of q = Returns (ngrid (smp (cpp q))) /\
  dget "norm_convention" (entries q) = Some (VStr "particle") /\
  unset q "boxsize" = false /\ unset q' "boxsize" = false /\ ParamModel.binning (msr (cpp q)) = "lin" /\
  boxsize (smp (cpp q)) = T3 1000%R 1000%R 1000%R /\
  volume (smp (cpp q)) = (1000 * 1000 * 1000)%R /\
  data_file (pths (cpp q)) = "a.dat" /\ rand_file (pths (cpp q)) = "b.dat" /\
  norm_convention (msr (cpp q)) = "particle".
Proof.
  eexists. eexists. eexists. eexists. split; [now_built|]. split; [now_built|]. split; [reflexivity|]. split.
  - rewrite prepared_set. unfold types. apply python_returns. unfold update. cbn [dupdate entries cpp bar]. run.
  - split.
    + rewrite prepared_set. unfold types. apply python_returns. unfold update. cbn [dupdate entries cpp bar]. run.
    + split; [reflexivity|]. split; [split; try reflexivity; [eexists; split; [reflexivity|discriminate]|eexists; eexists; reflexivity]|].
      split; [reflexivity|]. split; [reflexivity|]. split; [reflexivity|]. split; [eexists; eexists; reflexivity|]. repeat split.
Qed.

Lemma one_bounds c : py_in_step c -> col_x c = [1%R] -> col_y c = [2%R] -> col_z c = [3%R] ->
  bounds c = T3 (1, 1)%R (2, 2)%R (3, 3)%R.
Proof.
  intros (_ & B & _) CX CY CZ. pose proof (B AX) as B0. pose proof (B AY) as B1. pose proof (B AZ) as B2.
  unfold range_of in B0, B1, B2. cbn [col at_axis] in B0, B1, B2. rewrite CX in B0. rewrite CY in B1. rewrite CZ in B2.
  destruct (bounds c) as [[a0 a1] [a2 a3] [a4 a5]]. cbn [ax0 ax1 ax2 fst snd In] in *.
  destruct B0 as (([<-|[]] & [<-|[]] & _) & _), B1 as (([<-|[]] & [<-|[]] & _) & _), B2 as (([<-|[]] & [<-|[]] & _) & _). reflexivity.
Qed.

(** Two sets with one set of C++ parameters, and two placements: "Centre"
    leaves the particle at (1, 2, 3), "centre" and the program move it to
    the middle of the box. *)
Theorem alignment_letters_refuted : exists s s' cs x x' w p g q path u u' l l',
  built (construct 0 demo_env (cdemo "Centre")) s /\ built (construct 0 demo_env (cdemo "centre")) s' /\
  cpp s = cpp s' /\ par (called x) = par (called x') /\
  compute_bispec 0 demo_env (with_set s) 0 1 cs = Returns x /\
  compute_bispec 0 demo_env (with_set s') 0 1 cs = Returns x' /\
  MainModel.session w p = MainModel.Go g /\ MainModel.measured g = Some (q, path) /\
  same_request (called x') q /\
  from_data (called x) = Some ([u], l) /\ p_pos u = T3 1%R 2%R 3%R /\
  from_data (called x') = Some ([u'], l') /\ p_pos u' = T3 500%R 500%R 500%R.
Proof.
  destruct prepared_letters as (s & s' & u & u' & BU & BU' & CP & PR & PR' & CQ & SP' & AL & AC & BN & RG & GR & NM & UB & UB' & BL & BX & VO & DF & RF & NC).
  assert (VO' : volume (smp (cpp u)) = 1000000000%R) by (rewrite VO; lra). clear VO.
  destruct (one_loaded (standalone (lib demo_env)) (cpp u) "a.dat" ltac:(cbn; auto) VO') as (c0 & L0 & S0 & N0 & W0 & T0 & CX & CY & CZ & CN & CS & CC).
  destruct (one_loaded (standalone (lib demo_env)) (cpp u) "b.dat" ltac:(cbn; auto) VO') as (c1 & L1 & S1 & N1 & W1 & T1 & DX & DY & DZ & _).
  set (w := one_file (standalone (lib demo_env))) in *. set (p := ParamEnvProps.full (cpp u)) in *.
  set (cs := fun a : nat => match a with 0 => c0 | _ => c1 end).
  destruct (survey_own 0 demo_env true MainModel.Bispec "bispec" (with_set s) 0 1 cs u PyNone) as (x & SX & UX & _);
    try reflexivity; try assumption.
  { cbn; auto. } { discriminate. } { eapply alignment_other; [exact AL|]. intros [Q|[Q|[]]]; discriminate. }
  { eexists. split; [exact NM|]. cbn; auto. }
  { rewrite BL. cbn; auto. } { rewrite BL. intros (Q & _). discriminate Q. }
  { rewrite VO'. lra. } { cbn [cs]. rewrite W1. lra. } { cbn [cs]. rewrite T1. apply Rgt_not_eq. lra. } { discriminate. }
  assert (AL' : alignment_of u' = Returns PyCentre).
  { unfold alignment_of. rewrite (entry_is _ _ _ (sp_align _ SP')). rewrite <- CQ, AC. reflexivity. }
  destruct (survey_own 0 demo_env true MainModel.Bispec "bispec" (with_set s') 0 1 cs u' PyCentre) as (x' & SX' & UX' & ld & lr & SU);
    try reflexivity; try assumption.
  { cbn; auto. } { discriminate. } { exact (sp_bin _ SP'). } { exact (sp_range _ SP'). } { exact (sp_grid _ SP'). }
  { eexists. split; [exact (sp_norm _ SP')|]. rewrite <- CQ, NC. cbn; auto. }
  { rewrite <- CQ, BL. cbn; auto. } { rewrite <- CQ, BL. intros (Q & _). discriminate Q. }
  { rewrite <- CQ, VO'. lra. } { cbn [cs]. rewrite W1. lra. } { cbn [cs]. rewrite T1. apply Rgt_not_eq. lra. } { discriminate. }
  assert (KD : MainModel.kind p = "survey") by exact (proj2 (pr_ct _ _ _ _ (prepared_facts _ _ _ _ _ _ _ PR))).
  assert (CT : exists k, MainModel.catalogues w p = MainModel.Go k /\ k 0 = canon (rows c0) /\ k 1 = canon (rows c1)).
  { unfold MainModel.catalogues, MainModel.load_if. rewrite KD.
    change (MainModel.flag_data "survey") with true. change (MainModel.flag_rand "survey") with true. cbv zeta iota.
    change (ParamFileModel.core p) with (cpp u). rewrite DF, RF, L0. cbn [MainModel.andthen]. rewrite L1. cbn [MainModel.andthen].
    eexists. split; [reflexivity|]. split; reflexivity. }
  destruct CT as (k & CT & K0 & K1).
  destruct (survey_as_program 0 demo_env w p true MainModel.Bispec "bispec" (with_set s') 0 1 cs x' k) as (g & q & path & G & M & SR & _);
    try reflexivity; try assumption.
  { cbn; auto. } { discriminate. } { now rewrite UX'. } { rewrite UX', <- CQ, BL. cbn; auto. } { now rewrite UX', <- CQ. }
  { rewrite K0. apply MainProps.particles_has, canon_has, N0. } { rewrite K1. apply MainProps.particles_has, canon_has, N1. }
  destruct (survey_unmoved 0 demo_env true MainModel.Bispec "bispec" (with_set s) 0 1 cs x "Centre") as (_ & (l & FD) & _);
    try assumption. { discriminate. } { rewrite UX. exact AL. } { intros [Q|[Q|[]]]; discriminate. }
  destruct (survey_particles 0 demo_env true MainModel.Bispec "bispec" (with_set s') 0 1 cs x') as ((l' & FD') & _);
    try assumption. { discriminate. }
  assert (RC : rows c0 = [PDatum (T3 1 2 3) (/ 1000000000) 1 1 (1 * 1)]%R) by (unfold rows; rewrite CX, CY, CZ, CN, CS, CC; reflexivity).
  assert (RD : rows (after x' 0) = [PDatum (T3 500 500 500) (/ 1000000000) 1 1 (1 * 1)]%R).
  { unfold survey_setup, py_centre in SU. cbn [ref_or_self] in SU. rewrite <- CQ, BX in SU. cbn [cs] in SU.
    rewrite (one_bounds c1 S1 DX DY DZ) in SU. cbn [tmap2 fst snd ax0 ax1 ax2] in SU.
    match type of SU with context [offset_both 0 (Some 1) ?o cs] => set (of := o) in *;
      destruct (offset_both_run 0 1 of cs ltac:(discriminate) (in_step_nonempty _ S0) (in_step_nonempty _ S1)) as (s1 & E1 & Md & _) end.
    rewrite E1 in SU. cbn [bind] in SU. injection SU as _ _ <-.
    destruct (rows_moved of _ _ (proj1 (in_step_current _ S0)) Md) as (-> & _). cbn [cs]. rewrite RC. cbn [map]. unfold shift_pos. subst of.
    unfold tsub, tmap2. cbn [p_pos p_nz p_ws p_wc p_w ax0 ax1 ax2 fst snd]. do 2 f_equal. f_equal; lra. }
  cbn [cs] in FD. rewrite RC in FD. rewrite RD in FD'.
  assert (PX : forall fuel e three st name a d r s x, survey fuel e three st name a d r s = Returns x -> par (called x) = cpp (used x)).
  { clear. intros fuel e three st name a d r s x H. unfold survey in H.
    apply andthen_returns in H as (q & PR & H). apply andthen_returns in H as (u & CT & H).
    apply andthen_returns in H as (b & BO & H). apply andthen_returns in H as (ln & LN & H).
    apply andthen_returns in H as (al & AL & H). apply andthen_returns in H as (y & SU & H).
    destruct y as [[ld lr] s']. apply andthen_returns in H as (cd & CD & H). apply andthen_returns in H as (cr & CR & H).
    destruct (Reqb (py_wstotal (s' r)) 0) eqn:WZ; [discriminate|]. cbv zeta in H.
    apply andthen_returns in H as (part & PN & H). apply andthen_returns in H as (mesh & MN & H).
    apply andthen_returns in H as (m & MM & H). apply andthen_returns in H as (f & FO & H).
    apply andthen_returns in H as (pd & PD & H). apply andthen_returns in H as (pr & PRr & H).
    injection H as <-. reflexivity. }
  exists s, s', cs, x, x', w, p, g, q, path. eexists. eexists. eexists. eexists.
  repeat (split; [first [exact BU|exact BU'|exact CP|exact SX|exact SX'|exact G|exact M|exact SR|exact FD|exact FD'|reflexivity]|]).
  split; [now rewrite (PX _ _ _ _ _ _ _ _ _ _ SX), (PX _ _ _ _ _ _ _ _ _ _ SX'), UX, UX'|].
  repeat (split; [first [exact SX|exact SX'|exact G|exact M|exact SR|exact FD|exact FD'|reflexivity]|]). reflexivity.
Qed.

(** Two-point statistics with the "estimate" planner do not return. *)
Theorem estimate_never_returns fuel e st name a d r s x :
  gpu (lib e) = false -> survey fuel e false st name a d r s = Returns x -> fftw_scheme (msc (cpp (used x))) <> "estimate".
Proof.
  intros G H EQ. unfold survey in H. apply andthen_returns in H as (q & PR & H). apply andthen_returns in H as (u & CT & H).
  apply andthen_returns in H as (b & BO & H). apply andthen_returns in H as (ln & LN & H).
  apply andthen_returns in H as (al & AL & H). apply andthen_returns in H as (y & SU & H).
  destruct y as [[ld lr] s']. apply andthen_returns in H as (cd & CD & H). apply andthen_returns in H as (cr & CR & H).
  destruct (Reqb (py_wstotal (s' r)) 0) eqn:WZ; [discriminate|]. cbv zeta in H.
  apply andthen_returns in H as (part & PN & H). apply andthen_returns in H as (mesh & MN & H).
  apply andthen_returns in H as (m & MM & H). apply andthen_returns in H as (f & FO & H).
  apply andthen_returns in H as (pd & PD & H). apply andthen_returns in H as (pr & PRr & H).
  injection H as <-. cbn [used] in EQ.
  destruct (pr_checked _ _ _ _ (prepared_facts _ _ _ _ _ _ _ PR)) as (f0 & i0 & p0 & H0).
  revert MM. unfold mixed_norm. destruct (NormModel.norm_box _ _ _ _) as [n side].
  destruct (norm_params fuel (lib e) side n "cic" (cpp q)) as [q'|x] eqn:NQ; [|destruct x; discriminate]. intros _.
  refine (norm_params_estimate f0 fuel (lib e) i0 p0 (cpp q) side n "cic" q' G _ H0 NQ).
  now rewrite <- (MainProps.scheme_kept _ _ _ _ _ G H0).
Qed.

(* ------------------------------------------------------------------ *)
(** * C104: padded and custom bins *)

(** The first five bins: fixed widths from Python, widths from box and mesh in
    the program. *)
Theorem padded_bins e ct st s b p v i :
  parsed e ct st s -> MainProps.settled (cpp s) ->
  dget "binning" (entries s) = Some (VStr (ParamModel.binning (msr (cpp s)))) ->
  (exists a b, dget "range" (entries s) = Some (VList [a; b])) ->
  ParamFileModel.core p = cpp s -> In (ParamModel.binning (msr (cpp s))) ["linpad"; "logpad"] ->
  from_parameter_set s = Returns b -> MainModel.bins p = MainModel.Go (Some v) -> i < 5 ->
  let L := MainModel.box_max (boxsize (smp (cpp s))) in
  let n := MainModel.grid_min (ngrid (smp (cpp s))) in
  nth i (BinningModel.c_edges (BinningModel.p_cpp b)) 0%R
    = (INR i * if space (msr (cpp s)) =? "fourier" then 1 / 1000 else 10)%R /\
  nth i (fst (fst v)) 0%R
    = (INR i * (1005 / 1000 * if space (msr (cpp s)) =? "fourier" then 2 * PI / L else L / IZR n))%R.
Proof.
  intros P ST SB (x & y & R) C L H V I. cbv zeta. unfold from_parameter_set in H.
  rewrite (entry_is _ _ _ (pr_space _ _ _ _ P)) in H. cbn [andthen is_text] in H.
  pose proof (space_named _ _ _ (MainProps.s_stat _ ST)) as SS.
  destruct (negb _) in H; [discriminate|].
  rewrite (entry_is _ _ _ SB) in H. cbn [andthen] in H.
  destruct (pr_range _ _ _ _ P) as (x' & y' & rest & R' & X1 & X2).
  rewrite R in R'. injection R' as <- <- <-. rewrite (entry_is _ _ _ R) in H. cbn [andthen last] in H.
  destruct (pr_num _ _ _ _ P) as (nv & NV & XV). rewrite (entry_is _ _ _ NV) in H. cbn [andthen] in H.
  unfold to_double, to_cint in H. rewrite X1, X2, XV in H. cbn [python andthen] in H.
  unfold MainModel.bins in V. cbv zeta in V. rewrite C in V.
  set (bi := ParamModel.binning (msr (cpp s))) in *.
  assert (K : forall sc sp lo hi n pf pc v, In sc [BinningModel.LinPad; BinningModel.LogPad] -> sp = BinningModel.Fourier \/ sp = BinningModel.Config ->
    BinningModel.compute_bins (BinningModel.mkCpp sp sc lo hi n [] [] [] pf pc) = Ok v ->
    nth i (fst (fst v)) 0%R = (INR i * match sp with BinningModel.Fourier => pf | _ => pc end)%R).
  { clear - I. intros sc sp lo hi n pf pc v IS ISP E.
    assert (PE : exists pad rest, fst (fst v) = (map (fun j => pad * IZR j) (BinningModel.irange 0 BinningModel.nbin_pad) ++ rest)%list%R /\
      pad = match sp with BinningModel.Fourier => pf | _ => pc end).
    { unfold BinningModel.compute_bins in E. cbn [BinningModel.c_scheme BinningModel.c_space BinningModel.c_max BinningModel.c_num BinningModel.c_pad_fourier BinningModel.c_pad_config] in E.
      destruct ISP as [->| ->]; destruct IS as [<-|[<-|[]]]; cbn [bind] in E;
      try (injection E as <-; eexists; eexists; split; reflexivity);
      unfold BinningModel.logpad_bins, BinningModel.pad_bins in E; cbv zeta in E; cbn [fst snd] in E;
      (destruct (_ || _)%bool in E; [discriminate|]); injection E as <-; eexists; eexists; split; reflexivity. }
    destruct PE as (pad & rest & -> & ->).
    change (BinningModel.irange 0 BinningModel.nbin_pad) with [0; 1; 2; 3; 4]%Z. cbn [map app].
    destruct i as [|[|[|[|[|i']]]]]; cbn [nth INR]; try lia; ring. }
  assert (SC : In (MainModel.scheme_of bi) [BinningModel.LinPad; BinningModel.LogPad]).
  { destruct L as [<-|[<-|[]]]; cbn; auto. }
  assert (SP : MainModel.space_of (space (msr (cpp s))) = if space (msr (cpp s)) =? "fourier" then BinningModel.Fourier else BinningModel.Config).
  { destruct SS as [->| ->]; reflexivity. }
  split.
  - unfold BinningModel.py_set_bins in H. destruct (BinningModel.cpp_set_bins _ _ _ _) as [c t] eqn:E.
    unfold BinningModel.cpp_set_bins in E. cbn [BinningModel.py_new BinningModel.p_cpp BinningModel.cpp_ctor BinningModel.c_space
      BinningModel.c_scheme BinningModel.c_edges BinningModel.c_centres BinningModel.c_widths BinningModel.c_pad_fourier BinningModel.c_pad_config] in E.
    destruct t as [t|]; [exfalso; destruct t; discriminate|]. injection H as <-.
    destruct (Rltb _ 0) in E; [discriminate|]. destruct (_ <=? 0)%Z in E; [discriminate|].
    unfold BinningModel.cpp_set_bins0 in E.
    match type of E with context [BinningModel.compute_bins ?x] => destruct (BinningModel.compute_bins x) as [[[ee cc] ww]|xx] eqn:CB end; [|discriminate].
    injection E as <-. cbn [BinningModel.p_cpp BinningModel.c_edges]. rewrite SP in CB.
    apply K in CB; [|exact SC|destruct (_ =? _); auto]. cbn [fst] in CB. rewrite CB. destruct (_ =? _); field.
  - replace (bi =? "custom") with false in V by (destruct L as [<-|[<-|[]]]; reflexivity).
    destruct (_ && _)%bool in V; [discriminate|].
    match type of V with context [BinningModel.compute_bins ?x] => destruct (BinningModel.compute_bins x) as [vv|xx] eqn:CB end;
      [|destruct xx; discriminate]. injection V as <-. unfold BinningModel.cpp_ctor_params in CB. rewrite SP in CB.
    apply K in CB; [|exact SC|destruct (_ =? _); auto]. rewrite CB.
    replace (1005 / 1000)%R with (1 + 5 / 1000)%R by lra. destruct (_ =? _); unfold Rdiv; ring.
Qed.

(** Custom bins are made by the program only, and in configuration space. *)
Theorem custom_bins_raise e ct st s p :
  parsed e ct st s -> MainProps.settled (cpp s) -> ParamFileModel.core p = cpp s ->
  (exists a b, dget "range" (entries s) = Some (VList [a; b])) ->
  dget "binning" (entries s) = Some (VStr "custom") ->
  from_parameter_set s = Raises ValueError /\ ParamModel.binning (msr (cpp s)) = "custom" /\
  (space (msr (cpp s)) = "config" -> exists v, MainModel.bins p = MainModel.Go (Some v)).
Proof.
  intros P ST C (x & y & R) SB.
  assert (BI : ParamModel.binning (msr (cpp s)) = "custom").
  { destruct (pr_binning _ _ _ _ P _ SB) as (t & E & ->); [discriminate|]. injection E as <-. reflexivity. }
  split; [|split; [exact BI|]].
  - unfold from_parameter_set. rewrite (entry_is _ _ _ (pr_space _ _ _ _ P)). cbn [andthen is_text].
    pose proof (space_named _ _ _ (MainProps.s_stat _ ST)) as SS.
    replace (_ || _) with true by (destruct SS as [->| ->]; reflexivity). cbn [negb].
    rewrite (entry_is _ _ _ SB). cbn [andthen].
    destruct (pr_range _ _ _ _ P) as (x' & y' & rest & R' & X1 & X2). rewrite R in R'. injection R' as <- <- <-.
    rewrite (entry_is _ _ _ R). cbn [andthen last].
    destruct (pr_num _ _ _ _ P) as (nv & NV & XV). rewrite (entry_is _ _ _ NV). cbn [andthen].
    unfold to_double, to_cint. rewrite X1, X2, XV. cbn [python andthen].
    unfold BinningModel.py_set_bins, BinningModel.cpp_set_bins.
    destruct (Rltb _ 0); [reflexivity|]. destruct (_ <=? 0)%Z; reflexivity.
  - intros SC. unfold MainModel.bins. cbv zeta. rewrite C, BI, SC. eexists. reflexivity.
Qed.

Lemma run_gapped fuel e c b d d1 p pb h :
  parse_pre e c b d = (d1, Ok (p, pb)) -> val_head (lib e) true p = Ok h ->
  (0 <? cells (ngrid (smp p)))%Z = true -> expand (smp p) = 1%R ->
  (alignment (smp h) =? "pad") = false ->
  bin_min (msr h) = 1%R -> bin_max (msr h) = 2%R ->
  parse fuel e c b d =
  (if (7 <=? num_bins (msr h))%Z && (idx_bin (msr h) =? 0)%Z
   then bindM (m_fetch (tail_result h) pb) (fun _ => retM (tail_result h, pb))
   else fun d => parse fuel e c b d) (if (7 <=? num_bins (msr h))%Z && (idx_bin (msr h) =? 0)%Z then d1 else d).
Proof.
  intros P H C E A B1 B2. destruct (_ && _) eqn:K; [|reflexivity].
  apply andb_true_iff in K as [K1 K2]. apply Z.leb_le in K1. apply Z.eqb_eq in K2. apply Z.ltb_lt in C.
  assert (V : validate fuel (lib e) true p = Ok (tail_result h)).
  { rewrite (validate_direct fuel (lib e) true p h H);
      [|now right|intros _; rewrite E; lra|intros; lia].
    unfold val_tail, val_pad. rewrite A. cbn [bind].
    assert (X : val_bins (msr h) = Ok tt).
    { apply bins_ok. rewrite B1, B2, K2. split; [lra|]. split; [lia|]. split; [intros; exact K1|]. split; [lia|]. intros; lia. }
    rewrite X. reflexivity. }
  unfold parse. unfold bindM at 1. rewrite P. cbn [fst snd].
  unfold bindM at 1, readM, cpp_validate. rewrite V. reflexivity.
Qed.

Ltac run_gap := cbn [dupdate]; erewrite run_gapped; [|lazy -[Rmult IZR]; reflexivity
  |lazy -[Rmult IZR]; reflexivity|reflexivity|reflexivity|reflexivity|reflexivity|reflexivity];
  lazy -[Rmult IZR]; reflexivity.

(** The same parameters, other bins: the second edge is 1/1000 from Python,
    and more than six times that in the program. *)
Theorem padded_bins_refuted : exists s q b p v,
  built (construct 0 demo_env (dset "binning" (VStr "linpad") (rdemo "bispec"))) s /\
  prepared 0 demo_env true "survey" "bispec" (with_set s) = Returns q /\
  from_parameter_set q = Returns b /\
  ParamFileModel.core p = cpp q /\ MainModel.bins p = MainModel.Go (Some v) /\
  nth 1 (BinningModel.c_edges (BinningModel.p_cpp b)) 0%R = (1 / 1000)%R /\
  nth 1 (fst (fst v)) 0%R = (1005 / 1000 * (2 * PI / 1000))%R /\
  (6 / 1000 < nth 1 (fst (fst v)) 0)%R.
Proof.
  assert (PD : exists s q, built (construct 0 demo_env (dset "binning" (VStr "linpad") (rdemo "bispec"))) s /\
    prepared 0 demo_env true "survey" "bispec" (with_set s) = Returns q /\ spelled q /\
    ParamModel.binning (msr (cpp q)) = "linpad" /\ space (msr (cpp q)) = "fourier" /\
    boxsize (smp (cpp q)) = T3 1000%R 1000%R 1000%R /\
    bin_min (msr (cpp q)) = 1%R /\ bin_max (msr (cpp q)) = 2%R /\ num_bins (msr (cpp q)) = 10%Z).
  { eexists. eexists. split; [unfold built, construct, setitem, update; cbn [dupdate entries cpp bar]; run_gap|]. split.
    - rewrite prepared_set. unfold types. apply python_returns. unfold update. cbn [dupdate entries cpp bar]. run_gap.
    - split; [|repeat split]. split; try reflexivity; [eexists; split; [reflexivity|discriminate]|eexists; eexists; reflexivity]. }
  destruct PD as (s & q & BU & PR & SP & BL & SC & BX & LO & HI & NB).
  pose proof (prepared_facts _ _ _ _ _ _ _ PR) as PF.
  destruct (parsed_settled _ _ _ _ PF ltac:(cbn; tauto) ltac:(cbn; tauto)) as (_ & CK & ST).
  set (p := ParamEnvProps.full (cpp q)).
  assert (FP : exists b, from_parameter_set q = Returns b).
  { unfold from_parameter_set. rewrite (entry_is _ _ _ (pr_space _ _ _ _ PF)), SC. cbn [andthen is_text String.eqb Ascii.eqb Bool.eqb orb negb].
    rewrite (entry_is _ _ _ (sp_bin _ SP)), BL. cbn [andthen].
    destruct (sp_range _ SP) as (x & y & R). destruct (pr_range _ _ _ _ PF) as (x' & y' & rest & R' & X1 & X2). rewrite R in R'. injection R' as <- <- <-.
    rewrite (entry_is _ _ _ R). cbn [andthen last].
    destruct (pr_num _ _ _ _ PF) as (nv & NV & XV). rewrite (entry_is _ _ _ NV). cbn [andthen].
    unfold to_double, to_cint. rewrite X1, X2, XV, LO, HI, NB. cbn [python andthen].
    unfold BinningModel.py_set_bins, BinningModel.cpp_set_bins. rewrite lt_1_0. eexists. reflexivity. }
  destruct FP as (b & FP).
  assert (LM : MainModel.box_max (boxsize (smp (cpp q))) = 1000%R).
  { rewrite BX. unfold MainModel.box_max. cbn [ax0 ax1 ax2]. unfold Rmax. destruct (Rle_dec 1000 1000) as [_|X]; [|lra]. destruct (Rle_dec 1000 1000); lra. }
  assert (MB : exists v, MainModel.bins p = MainModel.Go (Some v)).
  { unfold MainModel.bins. cbv zeta. change (ParamFileModel.core p) with (cpp q). rewrite BL, SC.
    unfold MainModel.pad_defined. rewrite LM. replace (Reqb 1000 0) with false by (symmetry; apply Reqb_false; lra).
    eexists. reflexivity. }
  destruct MB as (v & MB).
  pose proof (padded_bins _ _ _ q b p v 1 PF ST (sp_bin _ SP) (sp_range _ SP) eq_refl ltac:(rewrite BL; cbn; auto) FP MB ltac:(lia)) as EE.
  cbv zeta in EE. destruct EE as (E1 & E2).
  rewrite SC, LM in E2. rewrite SC in E1. cbn [String.eqb Ascii.eqb Bool.eqb INR] in E1, E2. rewrite Rmult_1_l in E1, E2.
  exists s, q, b, p, v. repeat (split; [first [assumption|reflexivity]|]). rewrite E2.
  pose proof PI2_3_2. lra.
Qed.

(** "Box" for "box": accepted by the C++ side, not by the measurement. *)
Theorem padscale_letters_refuted : exists s,
  built (construct 0 demo_env (dset "padscale" (VStr "Box") (dset "alignment" (VStr "pad") (dset "padfactor" (VNum (1 / 10)) (rdemo "bispec"))))) s /\
  alignment (smp (cpp s)) = "pad" /\ padscale (smp (cpp s)) = "box" /\
  forall d r cs, compute_bispec 0 demo_env (with_set s) d r cs = Raises NameError.
Proof.
  assert (PD : exists s q, built (construct 0 demo_env (dset "padscale" (VStr "Box") (dset "alignment" (VStr "pad") (dset "padfactor" (VNum (1 / 10)) (rdemo "bispec"))))) s /\
    alignment (smp (cpp s)) = "pad" /\ padscale (smp (cpp s)) = "box" /\
    prepared 0 demo_env true "survey" "bispec" (with_set s) = Returns q /\
    dget "alignment" (entries q) = Some (VStr "pad") /\ dget "padscale" (entries q) = Some (VStr "Box") /\
    dget "binning" (entries q) = Some (VStr (ParamModel.binning (msr (cpp q)))) /\ ParamModel.binning (msr (cpp q)) = "lin" /\
    (exists a b, dget "range" (entries q) = Some (VList [a; b])) /\ grid_of q = Returns (ngrid (smp (cpp q))) /\
    unset q "boxsize" = false /\ volume (smp (cpp q)) = (1000 * 1000 * 1000)%R).
  { eexists. eexists. split; [unfold built, construct, setitem, update; cbn [dupdate entries cpp bar]; run_pad|].
    split; [reflexivity|]. split; [reflexivity|]. split.
    - rewrite prepared_set. unfold types. apply python_returns. unfold update. cbn [dupdate entries cpp bar]. run_pad.
    - split; [reflexivity|]. split; [reflexivity|]. split; [reflexivity|]. split; [reflexivity|].
      split; [eexists; eexists; reflexivity|]. repeat split. }
  destruct PD as (s & q & BU & AL & PS & PR & DA & DP & BI & BL & RG & GR & UB & VO).
  pose proof (prepared_facts _ _ _ _ _ _ _ PR) as PF.
  destruct (parsed_settled _ _ _ _ PF ltac:(cbn; tauto) ltac:(cbn; tauto)) as (_ & CK & ST).
  destruct (bins_made _ _ _ _ PF BI RG ST) as (b & BM). { rewrite BL. cbn; auto. } { rewrite BL. intros (Q & _). discriminate Q. }
  exists s. split; [exact BU|]. split; [exact AL|]. split; [exact PS|]. intros d r cs.
  pose proof (boxed_made _ _ _ _ PF GR ST UB ltac:(rewrite VO; lra)) as LN.
  unfold compute_bispec. refine (padscale_raises 0 demo_env true MainModel.Bispec "bispec" (with_set s) d r cs q b _ "Box" _ PR BM LN DA DP _).
  { unfold two_or_three. cbn. auto. }
  intros [Q|[Q|[]]]; discriminate.
Qed.

Print Assumptions survey_particles.
Print Assumptions survey_unmoved.
Print Assumptions padscale_never_returns.
Print Assumptions padscale_raises.
Print Assumptions padscale_letters_refuted.
Print Assumptions alignment_letters_refuted.
Print Assumptions estimate_never_returns.
Print Assumptions padded_bins.
Print Assumptions padded_bins_refuted.
Print Assumptions custom_bins_raise.
