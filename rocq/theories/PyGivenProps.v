(** Lines of sight and bins given to a measurement from Python. *)
From Coq Require Import String Ascii List Arith ZArith Reals Bool Lia Lra FunctionalExtensionality.
From Verif Require Import Base StrModel StrProps Dec ArrayModel ArrayProofs
  MeshModel CatModel CatProps PyCatModel PyCatProps ParamModel ParamProps ParamValProps ParamFixProps.
From Verif Require Import PyParamModel PyParamProofs PyParamProps PyAmalgModel PyAmalgProps.
From Verif Require Import PyRunModel PyRunProps PyBoxProps PyWinProps PyLetterProps.
From Verif Require ParamFileModel MainModel MainProps NormProps BinningModel LoadModel LoadProps ParamEnvProps.
Import ListNotations.
Local Open Scope R_scope.
Local Open Scope nat_scope.
Local Open Scope string_scope.

(* ------------------------------------------------------------------ *)
(** * C108: lines of sight and bins given by the caller *)

(** The parts of a survey measurement that returned. *)
Lemma survey_parts fuel e three st name a d r s x :
  d <> r -> py_in_step (s d) -> py_in_step (s r) ->
  survey fuel e three st name a d r s = Returns x ->
  exists b, bins_of a (used x) = Returns b /\ bin (called x) = BinningModel.p_cpp b /\
    par (called x) = cpp (used x) /\ stat (called x) = st /\ in_box (called x) = false /\ contrast (called x) = None /\
    prepared fuel e three "survey" name a = Returns (used x) /\
    factor_of true (used x) (factors x) = Returns (factor (called x)) /\
    exists ld lr, from_data (called x) = Some (rows (after x d), ld) /\ from_rand (called x) = Some (rows (after x r), lr) /\
      ld = (match los_data a with Some l => l | None => compute_los (s d) end) /\
      lr = (match los_rand a with Some l => l | None => compute_los (s r) end) /\
      length (rows (s d)) <= length ld /\ length (rows (s r)) <= length lr.
Proof.
  intros N Sd Sr H. destruct (survey_particles _ _ _ _ _ _ _ _ _ _ N Sd Sr H) as ((l1 & F1) & (l2 & F2) & _).
  unfold survey in H. apply andthen_returns in H as (q & PR & H). apply andthen_returns in H as (u & CT & H).
  apply andthen_returns in H as (b & BO & H). apply andthen_returns in H as (ln & LN & H).
  apply andthen_returns in H as (al & AL & H). apply andthen_returns in H as (y & SU & H).
  destruct y as [[ld lr] s']. apply andthen_returns in H as (cd & CD & H). apply andthen_returns in H as (cr & CR & H).
  destruct (Reqb (py_wstotal (s' r)) 0) eqn:WZ; [discriminate|]. cbv zeta in H.
  apply andthen_returns in H as (part & PN & H). apply andthen_returns in H as (mesh & MN & H).
  apply andthen_returns in H as (m & MM & H). apply andthen_returns in H as (f & FO & H).
  apply andthen_returns in H as (pd & PD & H). apply andthen_returns in H as (pr & PRr & H).
  injection H as <-. cbn [called factors used after from_data from_rand bin par stat in_box contrast factor] in *.
  apply python_returns in SU.
  destruct (setup_shift _ _ _ _ _ _ _ _ _ _ _ N (in_step_current _ Sd) (in_step_current _ Sr) SU) as (o & RD & RR & _).
  unfold survey_setup in SU. apply bind_ok_iff in SU as (s1 & _ & SU). injection SU as EL ER ->.
  exists b. repeat (split; [first [assumption|reflexivity]|]). exists ld, lr.
  unfold with_los in PD, PRr. cbv zeta in PD, PRr.
  destruct (length ld <? _)%nat eqn:L1 in PD; [discriminate|]. destruct (length lr <? _)%nat eqn:L2 in PRr; [discriminate|].
  injection PD as <-. injection PRr as <-. injection F1 as F1 <-. injection F2 as F2 <-.
  apply Nat.ltb_ge in L1, L2. rewrite F1 in L1 |- *. rewrite F2 in L2 |- *.
  rewrite RD, map_length in L1. rewrite RR, map_length in L2. auto 8.
Qed.

(** The lines of sight and bins given are those handed on, unchanged; too few
    lines of sight never give a measurement. *)
Theorem survey_given fuel e three st name a d r s x :
  d <> r -> py_in_step (s d) -> py_in_step (s r) ->
  survey fuel e three st name a d r s = Returns x ->
  (forall l, los_data a = Some l -> from_data (called x) = Some (rows (after x d), l) /\ length (rows (s d)) <= length l) /\
  (forall l, los_rand a = Some l -> from_rand (called x) = Some (rows (after x r), l) /\ length (rows (s r)) <= length l) /\
  (los_data a = None -> from_data (called x) = Some (rows (after x d), compute_los (s d))) /\
  (los_rand a = None -> from_rand (called x) = Some (rows (after x r), compute_los (s r))) /\
  (forall b, PyRunModel.binning a = Some b -> bin (called x) = BinningModel.p_cpp b) /\
  stat (called x) = st /\ in_box (called x) = false /\ par (called x) = cpp (used x).
Proof.
  intros N Sd Sr H.
  destruct (survey_parts _ _ _ _ _ _ _ _ _ _ N Sd Sr H) as (b & BO & BI & PA & SA & IB & _ & _ & _ & ld & lr & F1 & F2 & E1 & E2 & L1 & L2).
  split; [intros l K; rewrite K in E1; subst; auto|]. split; [intros l K; rewrite K in E2; subst; auto|].
  split; [intros K; rewrite K in E1; now subst|]. split; [intros K; rewrite K in E2; now subst|].
  split; [|auto]. intros b' K. unfold bins_of in BO. rewrite K in BO. injection BO as <-. exact BI.
Qed.

Lemma box_parts fuel e three st name a d s x :
  box fuel e three st name a d s = Returns x ->
  exists b c, bins_of a (used x) = Returns b /\ bin (called x) = BinningModel.p_cpp b /\
    par (called x) = cpp (used x) /\ stat (called x) = st /\ in_box (called x) = true /\ contrast (called x) = None /\
    prepared fuel e three "sim" name a = Returns (used x) /\
    factor_of false (used x) (factors x) = Returns (factor (called x)) /\
    converted (after x d) = Returns c /\ from_data (called x) = Some (MainModel.particles c, []) /\ from_rand (called x) = None.
Proof.
  intros H. unfold box in H. apply andthen_returns in H as (q & PR & H). apply andthen_returns in H as (u & CT & H).
  apply andthen_returns in H as (b & BO & H). apply andthen_returns in H as (ln & LN & H).
  apply andthen_returns in H as (s1 & S1 & H). apply andthen_returns in H as (s2 & S2 & H).
  apply andthen_returns in H as (cd & CD & H). cbv zeta in H.
  apply andthen_returns in H as (part & PN & H). apply andthen_returns in H as (mesh & MN & H).
  apply andthen_returns in H as (f & FO & H). injection H as <-. exists b, cd.
  cbn [called factors used after from_data from_rand bin par stat in_box contrast factor]. repeat split; assumption.
Qed.

Lemma window_parts fuel e three a r s x :
  window fuel e three a r s = Returns x ->
  exists b c lr, bins_of a (used x) = Returns b /\ bin (called x) = BinningModel.p_cpp b /\
    par (called x) = cpp (used x) /\ in_box (called x) = false /\ contrast (called x) = Some 1%R /\
    prepared fuel e three "random" (if three then "3pcf-win" else "2pcf-win") a = Returns (used x) /\
    factor_of false (used x) (factors x) = Returns (factor (called x)) /\
    converted (after x r) = Returns c /\ from_rand (called x) = Some (MainModel.particles c, lr) /\ from_data (called x) = None /\
    lr = (match los_rand a with Some l => l | None => compute_los (s r) end) /\ length (MainModel.particles c) <= length lr.
Proof.
  intros H. unfold window in H. cbv zeta in H. apply andthen_returns in H as (q & PR & H).
  apply andthen_returns in H as (b & BO & H). destruct (unset q "boxsize"); [discriminate|].
  apply andthen_returns in H as (l & LN & H). destruct (negb _); [discriminate|].
  apply andthen_returns in H as (s1 & S1 & H). apply andthen_returns in H as (s2 & S2 & H).
  apply andthen_returns in H as (cr & CR & H).
  apply andthen_returns in H as (part & PN & H). apply andthen_returns in H as (mesh & MN & H).
  apply andthen_returns in H as (f & FO & H). apply andthen_returns in H as (pr & PD & H). injection H as <-.
  unfold with_los in PD. cbv zeta in PD. destruct (_ <? _)%nat eqn:L in PD; [discriminate|]. injection PD as <-.
  apply Nat.ltb_ge in L.
  exists b, cr. eexists.
  cbn [called factors used after from_data from_rand bin par stat in_box contrast factor]. repeat split; assumption.
Qed.

Theorem box_given_bins fuel e three st name a d s x b :
  box fuel e three st name a d s = Returns x -> PyRunModel.binning a = Some b ->
  bin (called x) = BinningModel.p_cpp b /\ stat (called x) = st /\ in_box (called x) = true /\
  (exists ps, from_data (called x) = Some (ps, [])) /\ from_rand (called x) = None.
Proof.
  intros H K. destruct (box_parts _ _ _ _ _ _ _ _ _ H) as (b' & c & BO & BI & _ & ST & IB & _ & _ & _ & _ & FD & FR).
  unfold bins_of in BO. rewrite K in BO. injection BO as <-. eauto 8.
Qed.

Theorem window_given fuel e three a r s x :
  window fuel e three a r s = Returns x ->
  (forall l, los_rand a = Some l -> exists ps, from_rand (called x) = Some (ps, l) /\ length ps <= length l) /\
  (los_rand a = None -> exists ps, from_rand (called x) = Some (ps, compute_los (s r))) /\
  (forall b, PyRunModel.binning a = Some b -> bin (called x) = BinningModel.p_cpp b) /\
  from_data (called x) = None /\ in_box (called x) = false.
Proof.
  intros H. destruct (window_parts _ _ _ _ _ _ _ H) as (b & c & lr & BO & BI & _ & IB & _ & _ & _ & _ & FR & FD & EL & L).
  split; [intros l K; rewrite K in EL; subst; eauto|]. split; [intros K; rewrite K in EL; subst; eauto|].
  split; [|auto]. intros b' K. unfold bins_of in BO. rewrite K in BO. injection BO as <-. exact BI.
Qed.

(** One particle in each catalogue: one line of sight given is handed on, and
    without any the memory after an empty list is read. *)
Definition with_lines (s : pset) (l : list (R * R * R)) : args :=
  {| sampling := None; degree := None; degrees := None; orders := None; PyRunModel.binning := None;
     PyRunModel.form := None; index := None; paramset := Some s; los_data := Some l; los_rand := None |}.

Theorem short_los_refuted : exists s cs, built (construct 0 demo_env (rdemo "bispec")) s /\
  py_in_step (cs 0) /\ py_in_step (cs 1) /\
  compute_bispec 0 demo_env (with_lines s []) 0 1 cs = Undefined /\
  forall v, exists x, compute_bispec 0 demo_env (with_lines s [v]) 0 1 cs = Returns x /\
    from_data (called x) = Some (rows (after x 0), [v]).
Proof.
  destruct prepared_demo as (s & u & BU & PR & SP & UB & BL & VO & DF & RF & NC).
  assert (VO' : volume (smp (cpp u)) = 1000000000%R) by (rewrite VO; lra). clear VO.
  destruct (one_loaded (standalone (lib demo_env)) (cpp u) "a.dat" ltac:(cbn; auto) VO') as (c0 & L0 & S0 & N0 & W0 & T0 & CX & CY & CZ & CN & CS & CC).
  destruct (one_loaded (standalone (lib demo_env)) (cpp u) "b.dat" ltac:(cbn; auto) VO') as (c1 & L1 & S1 & N1 & W1 & T1 & _).
  set (cs := fun a : nat => match a with 0 => c0 | _ => c1 end).
  assert (R0 : length (rows c0) = 1) by (unfold rows; rewrite CX, CY, CZ, CN, CS, CC; reflexivity).
  destruct (parsed_settled _ _ _ _ (prepared_facts _ _ _ _ _ _ _ PR) ltac:(cbn; tauto) ltac:(cbn; tauto)) as (_ & CK & ST).
  destruct (setup_runs _ _ _ 0 1 cs (prepared_facts _ _ _ _ _ _ _ PR) SP ST ltac:(discriminate) (in_step_current _ S0) (in_step_current _ S1)) as (al & AL & _).
  assert (K : forall l, prepared 0 demo_env true "survey" "bispec" (with_lines s l) = Returns u) by (intros l; exact PR).
  pose proof (fun l => survey_runs 0 demo_env true MainModel.Bispec "bispec" (with_lines s l) 0 1 cs u al ltac:(cbn; auto) eq_refl eq_refl
    ltac:(discriminate) S0 S1 (K l) AL (sp_bin _ SP) (sp_range _ SP) (sp_grid _ SP)
    (ex_intro _ _ (conj (sp_norm _ SP) (MainProps.s_norm _ ST))) ltac:(rewrite BL; cbn; auto)
    ltac:(rewrite BL; intros (Q & _); discriminate Q) UB ltac:(rewrite VO'; lra)
    ltac:(cbn [cs]; rewrite W1; lra) ltac:(cbn [cs]; rewrite T1; apply Rgt_not_eq; lra) ltac:(discriminate)) as RUN.
  cbv zeta in RUN. cbn [with_lines los_data los_rand] in RUN. cbn [cs] in RUN. fold cs in RUN.
  exists s, cs. split; [exact BU|]. split; [exact S0|]. split; [exact S1|]. split.
  - apply (proj2 (RUN [])). left. rewrite R0. cbn. lia.
  - intros v. destruct (proj1 (RUN [v])) as (x & SX & _).
    { rewrite R0. cbn. lia. } { rewrite los_length by apply in_step_current, S1. lia. }
    exists x. split; [exact SX|].
    destruct (survey_given 0 demo_env true MainModel.Bispec "bispec" (with_lines s [v]) 0 1 cs x ltac:(discriminate) S0 S1 SX) as (G & _).
    exact (proj1 (G [v] eq_refl)).
Qed.

Print Assumptions survey_given.
Print Assumptions box_given_bins.
Print Assumptions window_given.
Print Assumptions short_los_refuted.
