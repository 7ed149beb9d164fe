(* C93: environment overrides of a parameter set that has been read and
   validated (src/parameters.cpp 1382-1414, called at main/triumvirate.cpp). *)
From Coq Require Import String Ascii List Arith ZArith Reals Bool Lia Lra.
From Verif Require Import Base StrModel StrProps Dec ArrayModel ArrayProofs
  MeshModel ParamModel ParamProps ParamValProps ParamFixProps ParamFileModel.
Import ListNotations.
Local Open Scope R_scope.
Local Open Scope nat_scope.
Local Open Scope string_scope.

(* ------------------------------------------------------------------ *)
(** * What validating once more does after an override *)

(** A validated parameter set, as [validate_again] asks for it. *)
Definition validated (b : build) (p : params) : Prop :=
  exists fuel init p0, no_refs p0 /\ free_of colon (catalogue_dir (pths p0)) /\
    no_blank_files p /\ validate fuel b init p0 = Ok p.

Definition steady (b : build) (p : params) : Prop :=
  val_head b false p = Ok p /\ bvec_settled (save_binned_vectors (msc p)) /\
  (forall fuel, validate fuel b false p = Ok p) /\ tail_fix p /\
  (vol (boxsize (smp p)) <= 0 \/ 0 < IZR (cells (ngrid (smp p))))%R /\
  (vol (boxsize (smp p)) <= 0 -> 1 <= expand (smp p))%R /\
  ((cells (ngrid (smp p)) <= 0)%Z -> (0 <= cutoff_nyq (smp p))%R).

Lemma validated_steady b p' : validated b p' -> steady b p'.
Proof.
  intros (fuel & init & p & NR & NC & NB & H).
  assert (V : forall f, validate f b false p' = Ok p').
  { intros f. exact (validate_again fuel f b init p p' NR NC NB H). }
  revert init p NR NC H. induction fuel as [fuel IH] using (well_founded_induction Wf_nat.lt_wf).
  intros init p NR NC H. pose proof H as H0. apply validate_cases in H.
  destruct H as (q & HH & [(D & X & C & HT)|(_ & _ & f & n & -> & _ & H)]).
  - destruct (head_fix _ _ _ _ NR NC HH) as (NQ & _ & SQ & _).
    assert (BV : bvec_settled (default_bvec (measurement_dir (pths q)) (output_tag (pths q)))).
    { destruct NQ as (_ & Q2 & _ & _ & Q5 & _).
      split; [apply default_bvec_free; [exact Q2|repeat (split; [discriminate|]); exact I|exact Q5]|].
      pose proof (default_bvec_long (measurement_dir (pths q)) (output_tag (pths q))) as L.
      split; intros EE; rewrite EE in L; simpl in L; lia. }
    pose proof (head_fix_tail _ _ _ _ _ _ NR NC HH BV HT NB) as HF.
    destruct (tail_outcome _ _ _ _ _ _ HH HT) as (U & _ & _ & G).
    destruct U as (Ub & Ux & Uc & _).
    pose proof (validate_tail_fix _ _ _ _ _ H0) as TF.
    apply tail_val in HT. destruct HT as (_ & _ & _ & _ & _ & E4).
    unfold steady. rewrite Ub, Ux, Uc, G. split; [exact HF|]. split.
    { rewrite E4. destruct (_ && _); assumption. }
    split; [exact V|]. split; [exact TF|]. split; [|auto].
    destruct D as [D|D]; [now left|]. right. now apply IZR_lt.
  - destruct (head_fix _ _ _ _ NR NC HH) as (NQ & NQC & _).
    apply (IH f ltac:(lia) false (regrid n q)); auto.
Qed.

Definition retouched (t : string) (c : misc) (p : params) : params :=
  {| pths := with_tag t (pths p); smp := smp p; msr := msr p; msc := c |}.

Lemma val_dirs_tag b t p : val_dirs b false (with_tag t p) = with_tag t (val_dirs b false p).
Proof. reflexivity. Qed.

Lemma val_files_tag b ct t p :
  val_files b false ct (with_tag t p) =
  match val_files b false ct p with Ok p' => Ok (with_tag t p') | Err e => Err e end.
Proof.
  unfold val_files.
  cbn [with_tag catalogue_dir measurement_dir data_file rand_file data_files rand_files output_tag].
  repeat match goal with |- context [bind ?r _] => destruct r as [?|?]; cbn [bind] end; reflexivity.
Qed.

Lemma fftw_keeps_bvec b init n m m' : val_fftw b init n m = Ok m' ->
  save_binned_vectors m' = save_binned_vectors m.
Proof.
  intros H. unfold val_fftw in H. cbv zeta in H. apply bind_ok_iff in H. destruct H as (x & _ & H).
  destruct (negb (_ =? "")); [destruct (_ && _); [discriminate|]|]; injection H as <-; reflexivity.
Qed.

Lemma steady_retouched fuel b p t m :
  steady b p -> save_binned_vectors m = save_binned_vectors (msc p) ->
  validate fuel b false (retouched t m p) =
  match val_fftw b false (ngrid (smp p)) m with
  | Ok c => Ok (retouched t c p)
  | Err e => Err e
  end.
Proof.
  intros (HF & BV & _ & TF & D & X & C) SB.
  assert (HH : val_head b false (retouched t m p) =
    match val_fftw b false (ngrid (smp p)) m with Ok c => Ok (retouched t c p) | Err e => Err e end).
  { pose proof HF as HF'. unfold val_head in HF'. cbv zeta in HF'.
    apply bind_ok_iff in HF'. destruct HF' as (pa & E1 & HF').
    apply bind_ok_iff in HF'. destruct HF' as (s & E2 & HF').
    apply bind_ok_iff in HF'. destruct HF' as (ms & E3 & HF').
    apply bind_ok_iff in HF'. destruct HF' as (c & E4 & HF').
    injection HF' as HF'. assert (P1 : pa = pths p) by (now rewrite <- HF').
    assert (P2 : val_sizes s = smp p) by (now rewrite <- HF').
    assert (P3 : ms = msr p) by (now rewrite <- HF').
    assert (P4 : ngrid s = ngrid (smp p)) by (rewrite <- P2; reflexivity).
    unfold val_head, retouched. cbv zeta. cbn [pths smp msr msc].
    rewrite val_dirs_tag, val_files_tag, E1. cbn [bind]. rewrite E2. cbn [bind]. rewrite E3. cbn [bind].
    rewrite P4. destruct (val_fftw b false (ngrid (smp p)) m) as [c'|e] eqn:EF; [|reflexivity].
    cbn [bind]. rewrite bvec_fix by (rewrite (fftw_keeps_bvec _ _ _ _ _ EF), SB; exact BV).
    now rewrite P1, P2, P3. }
  destruct (val_fftw b false (ngrid (smp p)) m) as [c|e] eqn:EF.
  - rewrite (validate_direct _ _ _ _ _ HH).
    + specialize (TF (default_bvec (measurement_dir (pths (retouched t c p))) (output_tag (pths (retouched t c p))))).
      pose proof TF as TF'. apply tail_val in TF'. destruct TF' as (T1 & T2 & _ & _ & T5 & T6).
      unfold val_tail in *. cbn [retouched pths smp msr msc]. rewrite T1, T2. cbn [bind].
      rewrite <- T5. f_equal. unfold retouched. f_equal.
      rewrite (fftw_keeps_bvec _ _ _ _ _ EF), SB.
      destruct ((_ || _) && (save_binned_vectors (msc p) =? "")) eqn:EE; [|reflexivity].
      exfalso. apply andb_true_iff in EE. destruct EE as (_ & EE). apply String.eqb_eq in EE.
      apply (f_equal save_binned_vectors) in T6. cbn [with_bvec save_binned_vectors] in T6.
      rewrite EE in T6. symmetry in T6. now apply default_bvec_not_empty in T6.
    + cbn [retouched smp]. destruct D as [D|D]; [now left|right]. apply lt_IZR. exact D.
    + exact X.
    + exact C.
  - rewrite validate_eq, HH. reflexivity.
Qed.

(** Steadiness of the planner settings themselves. *)
Lemma steady_fftw b p : steady b p -> val_fftw b false (ngrid (smp p)) (msc p) = Ok (msc p).
Proof.
  intros S. pose proof (steady_retouched 0 b p (output_tag (pths p)) (msc p) S eq_refl) as E.
  destruct S as (_ & _ & V & _).
  assert (R : retouched (output_tag (pths p)) (msc p) p = p).
  { unfold retouched, with_tag. destruct p as [pp ? ? ?]. cbn. now destruct pp. }
  rewrite R, V in E. destruct (val_fftw _ _ _ _) as [c|]; [|discriminate].
  injection E as E. apply (f_equal msc) in E. cbn [retouched msc] in E. now rewrite E.
Qed.

Lemma with_fftw_same c : with_fftw (fftw_scheme c) (use_fftw_wisdom c) c = c.
Proof. now destruct c. Qed.

Lemma override_eq fuel b p :
  validated b (core p) ->
  override_by_envvars fuel b p =
  let c := msc (core p) in
  v <- (match environ b "TRV_OVERRIDE_VERBOSE" with Some s => stoi s | None => Ok (verbose p) end) ;;
  c' <- val_fftw b false (ngrid (smp (core p)))
          (with_fftw (if gpu b then fftw_scheme c else or_env b "TRV_OVERRIDE_FFTW_SCHEME" (fftw_scheme c))
             (if gpu b then use_fftw_wisdom c else or_env b "TRV_OVERRIDE_USE_FFTW_WISDOM" (use_fftw_wisdom c)) c) ;;
  Ok {| core := retouched (or_env b "TRV_OVERRIDE_OUTPUT_TAG" (output_tag (pths (core p)))) c' (core p);
        catalogue_columns := catalogue_columns p; catalogue_dataset := catalogue_dataset p;
        i_wa := i_wa p; j_wa := j_wa p; verbose := v;
        progbar := or_env b "TRV_OVERRIDE_PROGBAR" (progbar p) |}.
Proof.
  intros V. apply validated_steady in V. unfold override_by_envvars. cbv zeta.
  destruct (match environ b "TRV_OVERRIDE_VERBOSE" with Some s => stoi s | None => Ok (verbose p) end)
    as [v|e]; [|reflexivity]. cbn [bind].
  unfold validate_all. cbn [core].
  set (m := with_fftw _ _ (msc (core p))).
  change {| pths := with_tag (or_env b "TRV_OVERRIDE_OUTPUT_TAG" (output_tag (pths (core p)))) (pths (core p));
            smp := smp (core p); msr := msr (core p); msc := m |}
    with (retouched (or_env b "TRV_OVERRIDE_OUTPUT_TAG" (output_tag (pths (core p)))) m (core p)).
  rewrite (steady_retouched fuel b (core p) _ m V) by reflexivity.
  destruct (val_fftw b false (ngrid (smp (core p))) m); reflexivity.
Qed.

(* ------------------------------------------------------------------ *)
(** * C93: what the environment overrides *)

(** Without the variables a validated set is used as it is. *)
Theorem override_unset fuel b p :
  validated b (core p) ->
  environ b "TRV_OVERRIDE_OUTPUT_TAG" = None -> environ b "TRV_OVERRIDE_FFTW_SCHEME" = None ->
  environ b "TRV_OVERRIDE_USE_FFTW_WISDOM" = None -> environ b "TRV_OVERRIDE_VERBOSE" = None ->
  environ b "TRV_OVERRIDE_PROGBAR" = None ->
  override_by_envvars fuel b p = Ok p.
Proof.
  intros V E1 E2 E3 E4 E5. rewrite (override_eq fuel b p V). cbv zeta. unfold or_env.
  rewrite E1, E2, E3, E4, E5. cbn [bind].
  replace (if gpu b then fftw_scheme (msc (core p)) else fftw_scheme (msc (core p)))
    with (fftw_scheme (msc (core p))) by now destruct (gpu b).
  replace (if gpu b then use_fftw_wisdom (msc (core p)) else use_fftw_wisdom (msc (core p)))
    with (use_fftw_wisdom (msc (core p))) by now destruct (gpu b).
  rewrite with_fftw_same, (steady_fftw _ _ (validated_steady _ _ V)). cbn [bind].
  destruct p as [[pp ? ? ?] ? ? ? ? ? ?]. cbn. unfold retouched, with_tag. now destruct pp.
Qed.

(** The text, level and progress-bar variables replace their parameter and
    nothing else; with a GPU the FFTW ones are ignored, whatever they say. *)
Theorem override_texts fuel b p v :
  validated b (core p) ->
  (gpu b = false -> environ b "TRV_OVERRIDE_FFTW_SCHEME" = None /\
                    environ b "TRV_OVERRIDE_USE_FFTW_WISDOM" = None) ->
  (match environ b "TRV_OVERRIDE_VERBOSE" with
   | Some s => read_int (skip_blank s) = Some v | None => v = verbose p end) ->
  exists q, override_by_envvars fuel b p = Ok q /\
    output_tag (pths (core q)) =
      match environ b "TRV_OVERRIDE_OUTPUT_TAG" with Some t => t | None => output_tag (pths (core p)) end /\
    progbar q = match environ b "TRV_OVERRIDE_PROGBAR" with Some t => t | None => progbar p end /\
    verbose q = v /\
    smp (core q) = smp (core p) /\ msr (core q) = msr (core p) /\ msc (core q) = msc (core p) /\
    catalogue_dir (pths (core q)) = catalogue_dir (pths (core p)) /\
    measurement_dir (pths (core q)) = measurement_dir (pths (core p)) /\
    data_files (pths (core q)) = data_files (pths (core p)) /\
    rand_files (pths (core q)) = rand_files (pths (core p)) /\
    data_file (pths (core q)) = data_file (pths (core p)) /\
    rand_file (pths (core q)) = rand_file (pths (core p)) /\
    catalogue_columns q = catalogue_columns p /\ catalogue_dataset q = catalogue_dataset p /\
    i_wa q = i_wa p /\ j_wa q = j_wa p.
Proof.
  intros V G EV. rewrite (override_eq fuel b p V). cbv zeta.
  replace (if gpu b then fftw_scheme (msc (core p)) else or_env b "TRV_OVERRIDE_FFTW_SCHEME" (fftw_scheme (msc (core p))))
    with (fftw_scheme (msc (core p))).
  2:{ destruct (gpu b); [reflexivity|]. unfold or_env. now rewrite (proj1 (G eq_refl)). }
  replace (if gpu b then use_fftw_wisdom (msc (core p)) else or_env b "TRV_OVERRIDE_USE_FFTW_WISDOM" (use_fftw_wisdom (msc (core p))))
    with (use_fftw_wisdom (msc (core p))).
  2:{ destruct (gpu b); [reflexivity|]. unfold or_env. now rewrite (proj2 (G eq_refl)). }
  rewrite with_fftw_same, (steady_fftw _ _ (validated_steady _ _ V)).
  assert (SV : (match environ b "TRV_OVERRIDE_VERBOSE" with Some s => stoi s | None => Ok (verbose p) end) = Ok v).
  { destruct (environ b "TRV_OVERRIDE_VERBOSE"); [|now rewrite EV]. unfold stoi. now rewrite EV. }
  rewrite SV. cbn [bind]. eexists. split; [reflexivity|].
  cbn [core retouched with_tag pths smp msr msc output_tag catalogue_dir measurement_dir data_file
       rand_file data_files rand_files progbar verbose catalogue_columns catalogue_dataset i_wa j_wa].
  unfold or_env. repeat split.
Qed.

(** A level that is not a number ends the program by an uncaught exception
    (not the reported parameter error), whatever else is set. *)
Theorem override_verbose_terminates fuel b p s :
  environ b "TRV_OVERRIDE_VERBOSE" = Some s ->
  read_int (skip_blank s) = None ->
  override_by_envvars fuel b p = Err Terminated.
Proof. intros E N. unfold override_by_envvars. cbv zeta. rewrite E. unfold stoi. now rewrite N. Qed.

(** The FFTW scheme: the three names are accepted, "estimate" only without
    wisdom, and the planner flag follows. *)
Theorem override_scheme fuel b p s :
  validated b (core p) -> gpu b = false ->
  environ b "TRV_OVERRIDE_FFTW_SCHEME" = Some s ->
  environ b "TRV_OVERRIDE_USE_FFTW_WISDOM" = None -> environ b "TRV_OVERRIDE_VERBOSE" = None ->
  (In s ["measure"; "patient"] \/ s = "estimate" /\ use_fftw_wisdom (msc (core p)) = "" <->
   exists q, override_by_envvars fuel b p = Ok q) /\
  forall q, override_by_envvars fuel b p = Ok q ->
    fftw_scheme (msc (core q)) = s /\
    In (s, planner_flag (msc (core q)))
      [("estimate", PlanEstimate); ("measure", PlanMeasure); ("patient", PlanPatient)] /\
    use_fftw_wisdom (msc (core q)) = use_fftw_wisdom (msc (core p)) /\
    save_binned_vectors (msc (core q)) = save_binned_vectors (msc (core p)) /\
    wisdom_file_f (msc (core q)) = wisdom_file_f (msc (core p)) /\
    wisdom_file_b (msc (core q)) = wisdom_file_b (msc (core p)) /\
    smp (core q) = smp (core p) /\ msr (core q) = msr (core p).
Proof.
  intros V G E1 E2 E3. rewrite (override_eq fuel b p V). cbv zeta. unfold or_env.
  rewrite G, E1, E2, E3. cbn [bind].
  pose proof (steady_fftw _ _ (validated_steady _ _ V)) as SF.
  set (c := msc (core p)) in *. clearbody c. unfold val_fftw in *. rewrite G in *.
  cbn [negb with_fftw fftw_scheme planner_flag use_fftw_wisdom wisdom_file_f wisdom_file_b save_binned_vectors] in *.
  apply bind_ok_iff in SF. destruct SF as (x & _ & SF). cbv zeta in *.
  set (w := expand_envar (environ b) (if use_fftw_wisdom c =? "false" then "" else use_fftw_wisdom c)) in *.
  assert (W : w = use_fftw_wisdom c /\ (w <> "" -> wisdom_file_f c = wisdom_name b w "cif" (ngrid (smp (core p))) /\
                wisdom_file_b c = wisdom_name b w "cib" (ngrid (smp (core p))))).
  { destruct (String.eqb_spec w "") as [E|E]; cbn [negb] in SF.
    - split; [|contradiction]. assert (SF' : Ok (use_fftw_wisdom c) = Ok w :> res string).
      { injection SF as SF. f_equal. now rewrite <- SF. }
      now injection SF'.
    - destruct (_ && _); [discriminate|]. injection SF as SF. split.
      + now rewrite <- SF.
      + intros _. split; now rewrite <- SF at 1. }
  clearbody w. destruct W as (WE & WN). rewrite <- WE. clear SF WE.
  destruct (String.eqb_spec s "estimate") as [->|NE]; [|destruct (String.eqb_spec s "measure") as [->|NM];
    [|destruct (String.eqb_spec s "patient") as [->|NP]]];
  cbn [bind fst snd String.eqb Ascii.eqb Bool.eqb negb andb];
  (destruct (String.eqb_spec w "") as [E|E]; cbn [negb bind]; split;
   [split; [|try (intros (q & H); discriminate H)]
   |try (intros q H; discriminate H); intros q H; injection H as <-;
    cbn [core retouched msc smp msr fftw_scheme planner_flag use_fftw_wisdom save_binned_vectors wisdom_file_f wisdom_file_b In];
    try (destruct (WN E) as (-> & ->)); tauto
   |split; [|try (intros (q & H); discriminate H)]
   |try (intros q H; discriminate H); intros q H; injection H as <-;
    cbn [core retouched msc smp msr fftw_scheme planner_flag use_fftw_wisdom save_binned_vectors wisdom_file_f wisdom_file_b In];
    try (destruct (WN E) as (-> & ->)); tauto]);
  try (intros _; eexists; reflexivity);
  try (intros _; cbn [In]; tauto);
  try (intros [H|(H & H')]; [cbn [In] in H; intuition congruence|congruence]).
Qed.

(** The wisdom directory: used exactly as given, with no separator added. *)
Theorem override_wisdom fuel b p d :
  validated b (core p) -> gpu b = false ->
  environ b "TRV_OVERRIDE_USE_FFTW_WISDOM" = Some d -> free_of dollar d -> d <> "" -> d <> "false" ->
  In (fftw_scheme (msc (core p))) ["measure"; "patient"] ->
  environ b "TRV_OVERRIDE_FFTW_SCHEME" = None -> environ b "TRV_OVERRIDE_VERBOSE" = None ->
  exists q, override_by_envvars fuel b p = Ok q /\
    use_fftw_wisdom (msc (core q)) = d /\
    wisdom_file_f (msc (core q)) = wisdom_name b d "cif" (ngrid (smp (core p))) /\
    wisdom_file_b (msc (core q)) = wisdom_name b d "cib" (ngrid (smp (core p))) /\
    fftw_scheme (msc (core q)) = fftw_scheme (msc (core p)) /\
    save_binned_vectors (msc (core q)) = save_binned_vectors (msc (core p)) /\
    smp (core q) = smp (core p) /\ msr (core q) = msr (core p).
Proof.
  intros V G E1 FD NE NF SC E2 E3. rewrite (override_eq fuel b p V). cbv zeta. unfold or_env.
  rewrite G, E1, E2, E3. cbn [bind].
  set (c := msc (core p)) in *. clearbody c. unfold val_fftw. rewrite G.
  cbn [negb with_fftw fftw_scheme planner_flag use_fftw_wisdom wisdom_file_f wisdom_file_b save_binned_vectors].
  destruct (String.eqb_spec d "false") as [E|_]; [contradiction|].
  rewrite (expand_plain _ _ FD). destruct (String.eqb_spec d "") as [E|_]; [contradiction|].
  cbn [negb]. cbn [In] in SC.
  destruct SC as [<-|[<-|[]]]; cbn [bind fst snd String.eqb Ascii.eqb Bool.eqb negb andb];
    (eexists; split; [reflexivity|]; repeat split).
Qed.

(* ------------------------------------------------------------------ *)
(** * Concrete cases and refutations *)

(** A set asking for binned vectors at the default place, and an
    environment. *)
Definition saving : params :=
  let p := demo "powspec" "diag" "false" "measure" "" (T3 1 1 1)%R (T3 64 64 64)%Z 0%R in
  {| pths := pths p; smp := smp p; msr := msr p; msc := with_bvec "true" (msc p) |}.

Definition host (vars : list (string * string)) : build :=
  {| extcall := false; gpu := false; fftw_omp := false;
     environ := fun v => match find (fun kv => fst kv =? v) vars with
                         | Some kv => Some (snd kv) | None => None end |}.

Lemma saving_validated vars : exists p',
  validate 0 (host vars) true saving = Ok p' /\ validated (host vars) p' /\
  output_tag (pths p') = "_a" /\ measurement_dir (pths p') = "out/" /\
  save_binned_vectors (msc p') = "out/binned_vectors_a" /\ fftw_scheme (msc p') = "measure" /\
  use_fftw_wisdom (msc p') = "" /\ ngrid (smp p') = T3 64%Z 64%Z 64%Z.
Proof.
  set (b := host vars).
  destruct (proj2 (validate_accepts 0 b true saving ltac:(right; reflexivity))) as (p' & H).
  { apply (demo_acceptable b "powspec" "diag" "false" "measure" "" (T3 1 1 1)%R (T3 64 64 64)%Z 0%R);
      cbn; auto 6. lra. }
  exists p'. split; [exact H|]. pose proof H as H0. apply validate_cases in H.
  destruct H as (q & HH & [(_ & _ & _ & HT)|(_ & N & _)]); [|cbv in N; exfalso; apply N; reflexivity].
  apply tail_val in HT. destruct HT as (_ & _ & E1 & E2 & E3 & E4).
  assert (NB : no_blank_files p').
  { pose proof (validate_paths 0 b true saving p' ltac:(right; reflexivity) H0) as P.
    cbn [saving demo msr catalogue_type] in P. unfold val_files in P.
    cbn [bind String.eqb Ascii.eqb Bool.eqb fst snd] in P. injection P as P.
    unfold no_blank_files. rewrite <- P. split; constructor. }
  split.
  { exists 0, true, saving. split; [unfold no_refs; repeat split; frees|]. split; [frees|]. auto. }
  cbv in HH. injection HH as HH. rewrite E1, E3, E4. rewrite <- HH. cbn. repeat split.
Qed.

Definition full (c : params) : fparams :=
  {| core := c; catalogue_columns := "x,y,z"; catalogue_dataset := ""; i_wa := 0; j_wa := 0;
     verbose := 20; progbar := "false" |}.

(** Tag, level and progress bar set at once. *)
Example override_texts_case : exists p',
  validate 0 (host []) true saving = Ok p' /\
  exists q, override_by_envvars 0
      (host [("TRV_OVERRIDE_OUTPUT_TAG", "_new"); ("TRV_OVERRIDE_VERBOSE", "10"); ("TRV_OVERRIDE_PROGBAR", "true")])
      (full p') = Ok q /\
    output_tag (pths (core q)) = "_new" /\ verbose q = 10%Z /\ progbar q = "true" /\
    measurement_dir (pths (core q)) = "out/".
Proof.
  destruct (saving_validated []) as (p' & H & _). exists p'. split; [exact H|].
  destruct (saving_validated
    [("TRV_OVERRIDE_OUTPUT_TAG", "_new"); ("TRV_OVERRIDE_VERBOSE", "10"); ("TRV_OVERRIDE_PROGBAR", "true")])
    as (p2 & H2 & V & _ & M & _).
  assert (p2 = p') as ->.
  { assert (E : Ok p2 = Ok p' :> res params).
    { rewrite <- H, <- H2. reflexivity. }
    now injection E. }
  destruct (override_texts 0 _ (full p') 10 V) as (q & E & T & P & L & _ & _ & _ & _ & D & _).
  - intros _. split; reflexivity.
  - reflexivity.
  - exists q. rewrite D. cbn [full core]. auto.
Qed.

(** C93 refuted: a new output tag does not reach the binned-vector file,
    which still overwrites the one of the tag in the parameter file. *)
Theorem override_tag_stale_refuted : exists b p q t,
  validated b (core p) /\ environ b "TRV_OVERRIDE_OUTPUT_TAG" = Some t /\
  override_by_envvars 0 b p = Ok q /\ output_tag (pths (core q)) = t /\
  save_binned_vectors (msc (core q)) =
    measurement_dir (pths (core q)) ++ "binned_vectors" ++ output_tag (pths (core p)) /\
  save_binned_vectors (msc (core q)) <>
    measurement_dir (pths (core q)) ++ "binned_vectors" ++ t.
Proof.
  set (b := host [("TRV_OVERRIDE_OUTPUT_TAG", "_new")]).
  destruct (saving_validated [("TRV_OVERRIDE_OUTPUT_TAG", "_new")]) as (p' & _ & V & T & M & S & _).
  destruct (override_texts 0 b (full p') 20 V) as (q & E & T' & _ & _ & _ & _ & C & _ & D & _).
  - intros _. split; reflexivity.
  - reflexivity.
  - exists b, (full p'), q, "_new". rewrite T', D, C. cbn [full core]. rewrite M, S, T.
    split; [exact V|]. split; [reflexivity|]. split; [exact E|]. split; [reflexivity|].
    split; [reflexivity|]. discriminate.
Qed.

(** C93 refuted: the wisdom directory given in the environment is joined to
    the file name without a separator; the same directory in the parameter
    file gets one. *)
Theorem override_wisdom_refuted : exists b p q,
  validated b (core p) /\ environ b "TRV_OVERRIDE_USE_FFTW_WISDOM" = Some "wisdom" /\
  override_by_envvars 0 b p = Ok q /\
  wisdom_file_f (msc (core q)) = "wisdomfftw_cif_64x64x64.wisdom" /\
  forall c, use_fftw_wisdom c = "wisdom" -> fftw_scheme c = "measure" ->
    exists c', val_fftw b true (T3 64 64 64)%Z c = Ok c' /\
      wisdom_file_f c' = "wisdom/fftw_cif_64x64x64.wisdom".
Proof.
  set (b := host [("TRV_OVERRIDE_USE_FFTW_WISDOM", "wisdom")]).
  destruct (saving_validated [("TRV_OVERRIDE_USE_FFTW_WISDOM", "wisdom")])
    as (p' & _ & V & _ & _ & _ & SC & _ & G).
  destruct (override_wisdom 0 b (full p') "wisdom" V) as (q & E & _ & W & _);
    try reflexivity; try discriminate.
  - frees.
  - cbn [full core]. rewrite SC. now left.
  - exists b, (full p'), q. split; [exact V|]. split; [reflexivity|]. split; [exact E|].
    split; [rewrite W; cbn [full core]; rewrite G; reflexivity|].
    intros c U S. unfold val_fftw. rewrite U, S. cbn [gpu b host negb].
    eexists. split; reflexivity.
Qed.

(** C93 refuted: a verbosity level spelt out terminates the program. *)
Theorem override_verbose_refuted : exists b p,
  validated b (core p) /\ environ b "TRV_OVERRIDE_VERBOSE" = Some "debug" /\
  override_by_envvars 0 b p = Err Terminated.
Proof.
  destruct (saving_validated [("TRV_OVERRIDE_VERBOSE", "debug")]) as (p' & _ & V & _).
  exists (host [("TRV_OVERRIDE_VERBOSE", "debug")]), (full p'). split; [exact V|].
  split; [reflexivity|]. now apply (override_verbose_terminates 0 _ _ "debug").
Qed.

Print Assumptions override_unset.
Print Assumptions override_texts.
Print Assumptions override_verbose_terminates.
Print Assumptions override_scheme.
Print Assumptions override_wisdom.
Print Assumptions override_tag_stale_refuted.
Print Assumptions override_wisdom_refuted.
Print Assumptions override_verbose_refuted.
