(* C97-C103: the command-line program (main/triumvirate.cpp). *)
From Coq Require Import String Ascii List Arith ZArith Reals Bool Lia Lra.
From Verif Require Import Base StrModel StrProps Dec ArrayModel ArrayProofs
  MeshModel CatModel CatProps ParamModel ParamProps ParamValProps ParamFixProps
  ParamFileModel.
From Verif Require Import MainModel.
From Verif Require ParamEnvProps NormProps BinningModel BinningProps NormModel LoadModel LoadProps FileNameModel.
Import ListNotations.
Local Open Scope R_scope.
Local Open Scope nat_scope.
Local Open Scope string_scope.

(* ------------------------------------------------------------------ *)
(** * C97: arguments *)

Definition asks_help (a : string) : Prop := In a ["-h"; "--help"].
Definition asks_version (a : string) : Prop := In a ["-V"; "--version"].
Definition dashed (a : string) : Prop := exists t, a = "-" ++ t.

(** An argument the program stops at. *)
Definition stops_at (args : list string) (a : string) : Prop :=
  asks_help a \/ asks_version a \/ (2 <= length args /\ dashed a).

Lemma dashed_prefix a : dashed a <-> prefix "-" a = true.
Proof.
  split.
  - intros (t & ->). cbn. now destruct t.
  - destruct a as [|c t]; [discriminate|]. cbn [prefix].
    destruct (ascii_dec "-" c) as [<-|]; [|discriminate]. intros _. now exists t.
Qed.

Lemma asks_help_eqb a : asks_help a <-> (a =? "-h") || (a =? "--help") = true.
Proof.
  unfold asks_help. rewrite orb_true_iff, !String.eqb_eq. cbn [In]. intuition congruence.
Qed.
Lemma asks_version_eqb a : asks_version a <-> (a =? "-V") || (a =? "--version") = true.
Proof.
  unfold asks_version. rewrite orb_true_iff, !String.eqb_eq. cbn [In]. intuition congruence.
Qed.

Lemma option_of_skip many pre rest :
  Forall (fun x => ~ asks_help x /\ ~ asks_version x /\ ~ (many = true /\ dashed x)) pre ->
  option_of many (pre ++ rest) = option_of many rest.
Proof.
  induction 1 as [|x pre (H & V & D) _ IH]; [reflexivity|]. cbn [app option_of].
  destruct ((x =? "-h") || (x =? "--help")) eqn:E1; [now apply asks_help_eqb in E1|].
  destruct ((x =? "-V") || (x =? "--version")) eqn:E2; [now apply asks_version_eqb in E2|].
  destruct (many && prefix "-" x) eqn:E3; [|exact IH].
  apply andb_true_iff in E3 as (-> & E3). apply dashed_prefix in E3. now destruct D.
Qed.

Lemma unstopped args pre :
  Forall (fun x => ~ stops_at args x) pre ->
  Forall (fun x => ~ asks_help x /\ ~ asks_version x /\
                   ~ ((1 <? length args)%nat = true /\ dashed x)) pre.
Proof.
  apply Forall_impl. intros x N. unfold stops_at in N.
  split; [tauto|]. split; [tauto|]. intros (L & D). apply Nat.ltb_lt in L.
  apply N. right. right. split; [lia|exact D].
Qed.

(** C97: what the first argument the program stops at decides; without one the
    first argument is the parameter file, whatever follows it. *)
Theorem arguments_decide w args :
  (forall pre a post, args = (pre ++ a :: post)%list ->
     Forall (fun x => ~ stops_at args x) pre ->
     (asks_help a -> choose args = Help) /\
     (asks_version a -> choose args = Version) /\
     (2 <= length args -> dashed a -> ~ asks_help a -> ~ asks_version a ->
        choose args = Unknown a)) /\
  (Forall (fun x => ~ stops_at args x) args ->
     choose args = match args with [] => NoFile | f :: _ => File f end) /\
  run w args = match choose args with
               | Help | Version => Stop (Exit 0)
               | Unknown _ | NoFile => Stop (Exit 1)
               | File f => andthen (parameters w f) (session w)
               end.
Proof.
  split; [|split].
  - intros pre a post E F. apply unstopped in F.
    assert (K : choose args = match option_of (1 <? length args)%nat (a :: post) with
                | Some c => c
                | None => match args with [] => NoFile | p :: _ => File p end end).
    { unfold choose. rewrite E at 2. now rewrite option_of_skip. }
    cbn [option_of] in K. rewrite K. clear K E F. split; [|split].
    + intros H. apply asks_help_eqb in H. now rewrite H.
    + intros H. assert (N : (a =? "-h") || (a =? "--help") = false).
      { destruct H as [<-|[<-|[]]]; reflexivity. }
      rewrite N. apply asks_version_eqb in H. now rewrite H.
    + intros L D H V. rewrite asks_help_eqb in H. rewrite asks_version_eqb in V.
      apply not_true_iff_false in H, V. rewrite H, V. apply dashed_prefix in D. rewrite D.
      replace (1 <? length args)%nat with true by (symmetry; now apply Nat.ltb_lt). reflexivity.
  - intros F. apply unstopped in F. unfold choose.
    rewrite <- (app_nil_r args) at 2. rewrite option_of_skip by exact F. reflexivity.
  - unfold run, exit_of. destruct (choose args); reflexivity.
Qed.

(** C97: a name that is no option, followed by others that are none. *)
Theorem further_arguments_ignored w f rest :
  Forall (fun x => ~ asks_help x /\ ~ asks_version x /\ ~ dashed x) (f :: rest) ->
  run w (f :: rest) = run w [f].
Proof.
  intros F.
  assert (G : forall l, (forall x, In x l -> In x (f :: rest)) ->
              forall args, Forall (fun x => ~ stops_at args x) l).
  { intros l S args. apply Forall_forall. intros x I. rewrite Forall_forall in F.
    destruct (F x (S x I)) as (A & B & C). unfold stops_at. intuition. }
  destruct (arguments_decide w (f :: rest)) as (_ & A & ->).
  destruct (arguments_decide w [f]) as (_ & B & ->).
  rewrite A by (apply G; auto). rewrite B; [reflexivity|]. apply G. intros x [<-|[]]. now left.
Qed.

(** C97 as stated fails: an option the program does not know is taken for a
    parameter file when it is the only argument. *)
Theorem unknown_option_refuted :
  ~ (forall w args a, In a args -> dashed a -> ~ asks_help a -> ~ asks_version a ->
       run w args = Stop (Exit 0) \/ run w args = Stop (Exit 1)).
Proof.
  intros H.
  set (w := {| disk := fun f => if f =? "--verbose" then Some "catalogue_dir = /data/mocks/uniform"
                                else None;
               bld := demo_build;
               mem := {| words_of := fun _ => ""; num_of := fun _ => 0%R; int_of := fun _ => 0%Z |};
               blank := ParamEnvProps.full ParamEnvProps.saving; fuel := 0 |}).
  destruct (H w ["--verbose"] "--verbose") as [K|K].
  - now left.
  - now exists "-verbose".
  - intros [E|[E|[]]]; discriminate.
  - intros [E|[E|[]]]; discriminate.
  - discriminate K.
  - discriminate K.
Qed.

(** A dash among several arguments, and options at the end. *)
Example arguments_case w :
  run w ["a.ini"; "-n"] = Stop (Exit 1) /\ run w ["a.ini"; "-h"; "-n"] = Stop (Exit 0) /\
  run w [] = Stop (Exit 1) /\ run w ["a.ini"; "b.ini"] = run w ["a.ini"] /\
  choose ["a.ini"; "--version"] = Version.
Proof. repeat split. Qed.

(* ------------------------------------------------------------------ *)
(** * Parameter sets that have been validated *)

Definition checked (b : build) (p : params) : Prop :=
  exists fuel init p0, validate fuel b init p0 = Ok p.

(** What is known of one in the program (`extcall` is for Python). *)
Record settled (p : params) : Prop := {
  s_type : In (catalogue_type (msr p)) ["survey"; "random"; "sim"; "none"];
  s_stat : In (statistic_type (msr p), (npoint (msr p), space (msr p))) statistics;
  s_clus : In (statistic_type (msr p)) clustering -> In (catalogue_type (msr p)) ["survey"; "sim"];
  s_win : In (statistic_type (msr p)) windows -> catalogue_type (msr p) = "random";
  s_align : In (alignment (smp p)) ["centre"; "pad"];
  s_pad : In (padscale (smp p)) ["box"; "grid"];
  s_form : In (form (msr p)) ["full"; "diag"; "off-diag"; "row"];
  s_norm : In (norm_convention (msr p)) ["none"; "particle"; "mesh"; "mesh-mixed"];
  s_mixed : norm_convention (msr p) = "mesh-mixed" -> npoint (msr p) = "2pt";
  s_bins : In (binning (msr p)) ["lin"; "log"; "linpad"; "logpad"; "custom"];
  s_range : (0 <= bin_min (msr p) < bin_max (msr p))%R;
  s_num : (2 <= num_bins (msr p))%Z;
  s_seven : In (binning (msr p)) ["linpad"; "logpad"] -> (7 <= num_bins (msr p))%Z;
  s_vol : volume (smp p) = vol (boxsize (smp p));
  s_mesh : nmesh (smp p) = cells (ngrid (smp p));
  s_grid : (0 < volume (smp p))%R -> (0 < nmesh (smp p))%Z
}.

Lemma checked_settled b p : extcall b = false -> checked b p -> settled p.
Proof.
  intros X (fuel & init & p0 & H). revert init p0 H.
  induction fuel as [fuel IH] using (well_founded_induction Wf_nat.lt_wf).
  intros init p0 H. apply validate_cases in H.
  destruct H as (q & HH & [(D & _ & _ & HT)|(_ & _ & f & n & -> & _ & H)]);
    [|now apply (IH f ltac:(lia) false (regrid n q))].
  destruct (tail_outcome _ _ _ _ _ _ HH HT) as (U & C & _ & G).
  assert (SO : strings_ok b init p0) by (apply head_ok; eauto).
  assert (FC := proj1 (final_checks _ _ _ _ HH) (proj1 (tail_ok _ _) (ex_intro _ _ HT))).
  destruct FC as (_ & F1 & F2 & F3 & _).
  destruct U as (U1 & _ & _ & U4 & U5 & _ & _ & U8 & U9 & _ & _ & _ & U13 & U14 & U15 & U16 & U17 & U18 & _).
  destruct C as (_ & C2 & C3 & C4 & _).
  destruct SO as (S1 & S2 & S3 & S4 & S5 & _ & _ & S8 & S9 & S10 & S11 & _).
  destruct (S1 X) as (S1a & S1b).
  constructor; rewrite ?U1, ?U4, ?U5, ?U8, ?U9, ?U13, ?U14, ?U15, ?U16, ?U17, ?U18, ?C3; auto.
  - destruct C4 as [C4|(N & _)]; [exact C4|contradiction].
  - intros I. destruct (S2 I) as (N1 & N2). clear - S1a N1 N2.
    destruct S1a as [E|[E|[E|[E|[]]]]]; [now left|congruence|now (right; left)|congruence].
  - intros E. exact (S10 E _ _ C4).
  - rewrite C2, U1. reflexivity.
  - rewrite C2, U1, G. intros V. destruct D as [D|D]; [lra|exact D].
Qed.

Lemma override_checked fuel b p q :
  override_by_envvars fuel b p = Ok q -> checked b (core q).
Proof.
  unfold override_by_envvars. cbv zeta. intros H. apply bind_ok_iff in H.
  destruct H as (v & _ & H). unfold validate_all in H. apply bind_ok_iff in H.
  destruct H as (c & H & E). injection E as <-. do 3 eexists. exact H.
Qed.

Lemma parameters_checked w f p : parameters w f = Go p -> checked (bld w) (core p).
Proof.
  unfold parameters. destruct (read_from_file _ _ _ _ _) as [q|e]; [|destruct e; discriminate].
  unfold uncaught. destruct (override_by_envvars _ _ _) as [r|e] eqn:E; [|discriminate].
  intros K. injection K as <-. exact (override_checked _ _ _ _ E).
Qed.

Lemma sized_checked w p s q : checked (bld w) (core p) -> sized w p s = Go q ->
  checked (bld w) (core q).
Proof.
  intros C. unfold sized. destruct (_ || _); [|now intros E; injection E as <-].
  destruct (Reqb _ 0); [|now intros E; injection E as <-].
  destruct (set_boxsize_from_expand _ _ _ _) as [c|e] eqn:E; cbn [uncaught andthen]; [|discriminate].
  intros K. injection K as <-. do 3 eexists. exact E.
Qed.

(** Validating a validated set again, with other sizes, changes nothing of
    what is measured. *)
Lemma checked_msr b p fuel b' init p1 q : checked b p -> msr p1 = msr p ->
  validate fuel b' init p1 = Ok q -> msr q = msr p.
Proof.
  intros (f0 & i0 & p0 & H0) E H.
  destruct (validate_outcome _ _ _ _ _ H0) as (U0 & (_ & _ & _ & K0 & S1 & S2) & _).
  destruct (validate_outcome _ _ _ _ _ H) as (U & (_ & _ & _ & K & T1 & T2) & _).
  assert (st0 : statistic_type (msr p) = statistic_type (msr p0)) by apply U0.
  unfold untouched in U. rewrite E in U, K.
  destruct U as (_ & _ & _ & _ & _ & _ & _ & A1 & A2 & A3 & A4 & A5 & A6 & A7 & A8 & A9 & B1 & B2 & B3 & _).
  assert (NP : npoint (msr q) = npoint (msr p) /\ space (msr q) = space (msr p)).
  { destruct K as [K|(_ & K1 & K2)]; [|auto].
    apply (stat_kind_det (msr p0)); [left; now rewrite <- st0|exact K0]. }
  assert (SH : shape (msr q) = shape (msr p)).
  { destruct (string_dec (form (msr q)) "full") as [F|F];
      [destruct (Z.eq_dec (ell1 (msr q)) (ell2 (msr q))) as [L|L]|].
    - rewrite T1 by assumption. rewrite S1; congruence.
    - rewrite T2 by tauto. rewrite S2; [exact A6|]. rewrite <- A3, <- A4. tauto.
    - rewrite T2 by tauto. rewrite S2; [exact A6|]. rewrite <- A6. tauto. }
  destruct NP as (N1 & N2). clear - A1 A2 A3 A4 A5 A6 A7 A8 A9 B1 B2 B3 N1 N2 SH.
  destruct (msr q), (msr p). cbn in *. subst. reflexivity.
Qed.

(** C100: the box.  It is left alone unless its volume is zero; then its sides
    are those of the catalogue times the expansion factor. *)
Theorem box_sized w p s q : checked (bld w) (core p) -> kind p <> "none" ->
  sized w p s = Go q ->
  msr (core q) = msr (core p) /\ i_wa q = i_wa p /\ j_wa q = j_wa p /\
  (volume (smp (core p)) <> 0%R -> q = p) /\
  (In (kind p) ["survey"; "sim"; "random"] -> volume (smp (core p)) = 0%R ->
     let spans := pos_span (s (if kind p =? "random" then 1 else 0)) in
     forall i, (at_axis i (boxsize (smp (core q))) =
                at_axis i spans * expand (smp (core p)))%R).
Proof.
  intros C NN. unfold sized. destruct (flag_data (kind p) || flag_rand (kind p)) eqn:FD.
  - destruct (Reqb (volume (smp (core p))) 0) eqn:V.
    + apply Reqb_spec in V.
      destruct (set_boxsize_from_expand _ _ _ _) as [c|e] eqn:E; cbn [uncaught andthen]; [|discriminate].
      intros K. injection K as <-. cbn [with_core core i_wa j_wa]. unfold set_boxsize_from_expand in E.
      split; [eapply checked_msr; [exact C| |exact E]; reflexivity|]. split; [reflexivity|]. split; [reflexivity|].
      split; [contradiction|]. intros _ _. destruct (validate_outcome _ _ _ _ _ E) as (U & _).
      unfold untouched in U. destruct U as (U & _). cbn [smp boxsize] in U. rewrite U.
      unfold span_of. intros i. destruct (kind p =? "random"), i; reflexivity.
    + apply Reqb_false in V. intros K. injection K as <-. repeat (split; [reflexivity|]).
      intros _ V'. contradiction.
  - intros K. injection K as <-. repeat (split; [reflexivity|]). intros I. exfalso.
    destruct I as [I|[I|[I|[]]]]; rewrite <- I in FD; discriminate.
Qed.

(** C100: sizing the box leaves grid numbers to be set from the cutoff only
    when the box has no volume. *)
Theorem sized_grid w p s q : extcall (bld w) = false -> checked (bld w) (core p) ->
  sized w p s = Go q -> (0 < volume (smp (core q)))%R -> (0 < nmesh (smp (core q)))%Z.
Proof. intros X C E. exact (s_grid _ (checked_settled _ _ X (sized_checked _ _ _ _ C E))). Qed.

(* ------------------------------------------------------------------ *)
(** * C99: catalogues *)

(** A catalogue as loaded: particles, and totals and extents that are theirs. *)
Definition loaded (c : catalogue) (ps : list pdatum) : Prop :=
  has c ps /\ wstotal c = rsum (map p_ws ps) /\ extents_current c.

Lemma sequence_length {A} (l : list (res A)) r : sequence l = Ok r -> length r = length l.
Proof.
  revert r. induction l as [|x l IH]; intros r; cbn [sequence].
  - intros E. injection E as <-. reflexivity.
  - destruct x as [x|]; cbn [bind]; [|discriminate].
    destruct (sequence l) as [xs|]; cbn [bind]; [|discriminate].
    intros E. injection E as <-. cbn [length]. now rewrite (IH xs).
Qed.

Lemma load_loaded w p file c : load w p file = Go c ->
  if_filepath_is_set file = true /\ exists ps, loaded c ps.
Proof.
  unfold load. destruct (if_filepath_is_set file) eqn:P; cbn [negb]; [|discriminate].
  intros H. split; [reflexivity|]. revert H. cbv zeta. unfold LoadModel.load_catalogue_file.
  cbn [LoadModel.fresh LoadModel.source LoadModel.body String.eqb negb].
  destruct (_ || _); [discriminate|].
  destruct (LoadModel.open_all _ _) as [texts|e]; [|destruct e; discriminate].
  unfold LoadModel.read_texts. set (n := length _).
  destruct (n =? 0)%nat eqn:N; [discriminate|].
  destruct (sequence _) as [ps|e] eqn:S; [|destruct e; discriminate].
  assert (L : length ps = n).
  { unfold n. rewrite (sequence_length _ _ S). apply map_length. }
  assert (NE : ps <> []).
  { intros ->. apply Nat.eqb_neq in N. cbn in L. congruence. }
  destruct (LoadProps.fill_catalogue catalogue_new ps NE) as (s' & E & P1 & _ & P3 & P4).
  rewrite E. cbn [fst snd LoadModel.body]. intros K. injection K as <-.
  exists ps. split; [split; assumption|]. split; assumption.
Qed.

(** C99: the program goes past loading exactly when the catalogues its type
    calls for are loaded: both for a survey, the data for a simulation, the
    randoms alone for windows, none otherwise. *)
Theorem catalogues_needed w p s : extcall (bld w) = false -> checked (bld w) (core p) ->
  catalogues w p = Go s ->
  match kind p with
  | "survey" => (exists ps, loaded (s 0) ps) /\ exists qs, loaded (s 1) qs
  | "sim" => (exists ps, loaded (s 0) ps) /\ pdata (s 1) = None
  | "random" => pdata (s 0) = None /\ exists qs, loaded (s 1) qs
  | _ => pdata (s 0) = None /\ pdata (s 1) = None
  end.
Proof.
  intros X C. pose proof (s_type _ (checked_settled _ _ X C)) as T. fold (kind p) in T.
  unfold catalogues, load_if.
  destruct T as [T|[T|[T|[T|[]]]]]; rewrite <- T; cbn [flag_data flag_rand orb].
  - change (flag_data "survey") with true. change (flag_rand "survey") with true. cbv iota.
    destruct (load w p (data_file _)) as [|c] eqn:E1; cbn [andthen]; [discriminate|].
    destruct (load w p (rand_file _)) as [|c'] eqn:E2; cbn [andthen]; [discriminate|].
    intros K. injection K as <-. split; [exact (proj2 (load_loaded _ _ _ _ E1))|exact (proj2 (load_loaded _ _ _ _ E2))].
  - change (flag_data "random") with false. change (flag_rand "random") with true. cbv iota. cbn [andthen].
    destruct (load w p (rand_file _)) as [|c'] eqn:E2; cbn [andthen]; [discriminate|].
    intros K. injection K as <-. split; [reflexivity|exact (proj2 (load_loaded _ _ _ _ E2))].
  - change (flag_data "sim") with true. change (flag_rand "sim") with false. cbv iota.
    destruct (load w p (data_file _)) as [|c] eqn:E1; cbn [andthen]; [discriminate|].
    intros K. injection K as <-. split; [exact (proj2 (load_loaded _ _ _ _ E1))|reflexivity].
  - change (flag_data "none") with false. change (flag_rand "none") with false. cbv iota. cbn [andthen].
    intros K. injection K as <-. split; reflexivity.
Qed.

(* ------------------------------------------------------------------ *)
(** * The whole run *)

Lemma session_go w p d : session w p = Go d ->
  exists s b q s' a s2 n m,
    catalogues w p = Go s /\ bins p = Go b /\ sized w p s = Go q /\ has_volume q = true /\
    aligned (kind q) (smp (core q)) s = (s', Ok tt) /\ alpha_of (kind q) s' = Some a /\
    norms_of w q a s' = Go (s2, n) /\
    measure q (lines_of_sight (s 0)) (lines_of_sight (s 1)) b (Some a)
      (factor_of (msr (core q)) n) s2 = Go m /\
    d = {| measured := m; vectors := vectors_path q; printed_norms := n |}.
Proof.
  unfold session.
  destruct (catalogues w p) as [|s] eqn:E1; cbn [andthen]; [discriminate|].
  destruct (bins p) as [|b] eqn:E2; cbn [andthen]; [discriminate|].
  destruct (sized w p s) as [|q] eqn:E3; cbn [andthen]; [discriminate|].
  destruct (has_volume q) eqn:E4; cbn [negb]; [|discriminate].
  unfold run_act. destruct (aligned _ _ s) as [s' [[]|e]] eqn:E5; cbn [andthen]; [|discriminate].
  cbn [fst]. destruct (alpha_of (kind q) s') as [a|] eqn:E6; [|discriminate].
  destruct (norms_of w q a s') as [|[s2 n]] eqn:E7; cbn [andthen]; [discriminate|]. cbn [fst snd].
  destruct (measure _ _ _ _ _ _ _) as [|m] eqn:E8; cbn [andthen]; [discriminate|].
  intros K. injection K as <-. exists s, b, q, s', a, s2, n, m.
  auto 12.
Qed.

(** How a catalogue is moved before measuring, by type and alignment: surveys by
    one vector for both catalogues, simulations by whole box lengths, randoms
    alone by a vector, and if centred also by whole box lengths. *)
Definition wrapped_after (t : sampling) (L : triple R) (ps ps' : list pdatum) (d : axis -> R) : Prop :=
  exists mid, Forall2 (moved d) ps mid /\
    (if alignment t =? "centre" then Forall2 (wrapped L) mid ps' else ps' = mid).

Definition positive_box (L : triple R) : Prop := forall i, (0 < at_axis i L)%R.

(** Densities and weights are carried along. *)
Definition alike (p q : pdatum) : Prop :=
  p_nz q = p_nz p /\ p_ws q = p_ws p /\ p_wc q = p_wc p /\ p_w q = p_w p.

Definition placed (p : fparams) (s s' : CatModel.store) : Prop :=
  let t := smp (core p) in
  match kind p with
  | "survey" => exists ps qs ps' qs' d, has (s 0) ps /\ has (s 1) qs /\
      has (s' 0) ps' /\ has (s' 1) qs' /\ Forall2 (moved d) ps ps' /\ Forall2 (moved d) qs qs' /\
      extents_current (s' 0) /\ extents_current (s' 1)
  | "sim" => exists ps ps', has (s 0) ps /\ has (s' 0) ps' /\ s' 1 = s 1 /\
      (positive_box (boxsize t) -> Forall2 (wrapped (boxsize t)) ps ps')
  | "random" => exists qs qs', has (s 1) qs /\ has (s' 1) qs' /\ s' 0 = s 0 /\
      (positive_box (boxsize t) -> exists d, wrapped_after t (boxsize t) qs qs' d)
  | _ => s' = s
  end /\
  forall a, wstotal (s' a) = wstotal (s a) /\ Forall2 alike (particles (s a)) (particles (s' a)).

Lemma particles_has c ps : has c ps -> particles c = ps.
Proof. intros (E & _). unfold particles. now rewrite E. Qed.

Lemma alike_refl ps : Forall2 alike ps ps.
Proof. induction ps; constructor; [repeat split|assumption]. Qed.

Lemma alike_moved d ps qs : Forall2 (moved d) ps qs -> Forall2 alike ps qs.
Proof. induction 1 as [|p q ps qs (_ & H) F IH]; constructor; assumption. Qed.

Lemma alike_trans ps qs rs : Forall2 alike ps qs -> Forall2 alike qs rs -> Forall2 alike ps rs.
Proof.
  intros F. revert rs. induction F as [|p q ps qs (A & B & C & D) F IH]; intros rs G; inversion G as [|? r ? rs' (A' & B' & C' & D')]; subst;
    constructor; [|now apply IH]. unfold alike. rewrite A', B', C', D'. auto.
Qed.

Lemma alike_wrap L ps :
  Forall2 alike ps (map (fun p => PDatum (tmap2 wrap_coord L (p_pos p)) (p_nz p) (p_ws p) (p_wc p) (p_w p)) ps).
Proof. induction ps; cbn [map]; constructor; [repeat split|assumption]. Qed.

Lemma aligned_placed p s s' :
  settled (core p) ->
  match kind p with
  | "survey" => (exists ps, loaded (s 0) ps) /\ exists qs, loaded (s 1) qs
  | "sim" => (exists ps, loaded (s 0) ps) /\ pdata (s 1) = None
  | "random" => pdata (s 0) = None /\ exists qs, loaded (s 1) qs
  | _ => pdata (s 0) = None /\ pdata (s 1) = None
  end ->
  aligned (kind p) (smp (core p)) s = (s', Ok tt) -> placed p s s'.
Proof.
  intros ST. pose proof (s_type _ ST) as T. fold (kind p) in T.
  pose proof (s_align _ ST) as AL. pose proof (s_pad _ ST) as PD. clear ST.
  unfold placed, aligned. destruct T as [T|[T|[T|[T|[]]]]]; rewrite <- T; clear T;
    cbn [String.eqb Ascii.eqb Bool.eqb]; set (t := smp (core p)) in *; clearbody t.
  - intros ((ps & (H0 & _)) & (qs & (H1 & _))) E.
    assert (M : exists d, moves_both s s' 0 1 ps qs d).
    { destruct AL as [AL|[AL|[]]]; rewrite <- AL in E; cbn [String.eqb Ascii.eqb Bool.eqb] in E.
      - destruct (centre_aligns s 0 1 (boxsize t) ps qs (Nat.neq_0_succ 0) H0 H1) as (s1 & d & E1 & M & _).
        rewrite E1 in E. injection E as <-. eauto.
      - destruct PD as [PD|[PD|[]]]; rewrite <- PD in E; cbn [String.eqb Ascii.eqb Bool.eqb] in E.
        + match type of E with pad_in_box _ _ _ ?f _ = _ =>
            destruct (pad_in_box_aligns s 0 1 (boxsize t) f ps qs (Nat.neq_0_succ 0) H0 H1)
              as (s1 & d & E1 & M & _) end.
          rewrite E1 in E. injection E as <-. eauto.
        + match type of E with pad_grids _ _ _ _ ?f _ = _ =>
            destruct (pad_grids_aligns s 0 1 (boxsize t) (ngrid t) f ps qs (Nat.neq_0_succ 0) H0 H1)
              as (s1 & d & E1 & M & _) end.
          rewrite E1 in E. injection E as <-. eauto. }
    destruct M as (d & (ps' & qs' & A & B & C & D) & X0 & X1 & (_ & W0) & (_ & W1) & O).
    split.
    + exists ps, qs, ps', qs', d. auto 10.
    + intros a. destruct (Nat.eq_dec a 0) as [->|N0].
      { split; [exact W0|]. rewrite (particles_has _ _ H0), (particles_has _ _ A). eapply alike_moved; exact C. }
      destruct (Nat.eq_dec a 1) as [->|N1].
      { split; [exact W1|]. rewrite (particles_has _ _ H1), (particles_has _ _ B). eapply alike_moved; exact D. }
      rewrite O by assumption. split; [reflexivity|apply alike_refl].
  - intros (_ & (qs & (H1 & _))) E.
    destruct AL as [AL|[AL|[]]]; rewrite <- AL in E; cbn [String.eqb Ascii.eqb Bool.eqb] in E.
    + destruct (align_single_catalogue s 1 (boxsize t) (ngrid t) (T3 0 0 0)%R qs H1)
        as ((s1 & d & E1 & M & _) & _).
      unfold CatModel.andthen in E. rewrite E1 in E.
      destruct M as ((mid & HM & FM) & _ & (_ & W) & O).
      destruct (periodicity_run s1 1 (boxsize t) mid HM) as (s2 & E2 & F2).
      assert (W2 : forall a, wstotal (s2 a) = wstotal (s a) /\ Forall2 alike (particles (s a)) (particles (s2 a))).
      { intros a. rewrite F2. destruct (Nat.eqb_spec a 1) as [->|N].
        - split; [now rewrite (proj2 (refresh_weights _ _))|].
          rewrite (particles_has _ _ H1), (particles_has (refresh _ _) _ (refresh_has _ _ (map_nonempty _ _ (proj2 HM)))).
          eapply alike_trans; [eapply alike_moved; exact FM|apply alike_wrap].
        - rewrite O by assumption. split; [reflexivity|apply alike_refl]. }
      rewrite E2 in E. injection E as <-. split; [|exact W2].
      exists qs. eexists. split; [exact H1|]. split; [rewrite F2; apply refresh_has, map_nonempty, HM|].
      split; [rewrite F2; apply O; discriminate|]. intros PB. exists d, mid.
      rewrite <- AL. split; [exact FM|]. cbn [String.eqb Ascii.eqb Bool.eqb].
      destruct (periodicity_wraps s1 1 (boxsize t) mid HM PB) as (s3 & ps' & E3 & HP & FW & _).
      rewrite E2 in E3. injection E3 as <-. rewrite F2 in HP. cbn [Nat.eqb] in HP.
      destruct HP as (HP & _). rewrite refresh_pdata in HP by (apply map_nonempty, HM).
      injection HP as HP. rewrite HP. exact FW.
    + assert (M : exists d, moves_one s s' 1 qs d).
      { destruct PD as [PD|[PD|[]]]; rewrite <- PD in E; cbn [String.eqb Ascii.eqb Bool.eqb] in E.
        - match type of E with pad_in_box1 _ _ ?f _ = _ =>
            destruct (align_single_catalogue s 1 (boxsize t) (ngrid t) f qs H1)
              as (_ & (s1 & d & E1 & M & _) & _) end.
          rewrite E1 in E. injection E as <-. eauto.
        - match type of E with pad_grids1 _ _ _ ?f _ = _ =>
            destruct (align_single_catalogue s 1 (boxsize t) (ngrid t) f qs H1)
              as (_ & _ & (s1 & d & E1 & M & _)) end.
          rewrite E1 in E. injection E as <-. eauto. }
      destruct M as (d & (qs' & HM & FM) & _ & (_ & W) & O). split.
      * exists qs, qs'. split; [exact H1|]. split; [exact HM|]. split; [apply O; discriminate|].
        intros _. exists d, qs'. split; [exact FM|]. now rewrite <- AL.
      * intros a. destruct (Nat.eq_dec a 1) as [->|N].
        { split; [exact W|]. rewrite (particles_has _ _ H1), (particles_has _ _ HM). eapply alike_moved; exact FM. }
        rewrite O by assumption. split; [reflexivity|apply alike_refl].
  - intros ((ps & (H0 & _)) & _) E.
    destruct (periodicity_run s 0 (boxsize t) ps H0) as (s1 & E1 & F1). rewrite E1 in E. injection E as <-.
    split.
    + exists ps. eexists. split; [exact H0|]. split; [rewrite F1; apply refresh_has, map_nonempty, H0|].
      split; [now rewrite F1|]. intros PB.
      destruct (periodicity_wraps s 0 (boxsize t) ps H0 PB) as (s3 & ps' & E3 & HP & FW & _).
      rewrite E1 in E3. injection E3 as <-. rewrite F1 in HP. cbn [Nat.eqb] in HP.
      destruct HP as (HP & _). rewrite refresh_pdata in HP by (apply map_nonempty, H0).
      injection HP as HP. rewrite HP. exact FW.
    + intros a. rewrite F1. destruct (Nat.eqb_spec a 0) as [->|N]; [|split; [reflexivity|apply alike_refl]].
      split; [apply refresh_weights|].
      rewrite (particles_has _ _ H0), (particles_has (refresh _ _) _ (refresh_has _ _ (map_nonempty _ _ (proj2 H0)))).
      apply alike_wrap.
  - intros _ E. unfold ret in E. injection E as <-. split; [reflexivity|]. intros a. split; [reflexivity|apply alike_refl].
Qed.

(** A line of sight: the direction of the position, and nothing at the
    origin. *)
Definition sight (q : pdatum) (v : triple R) : Prop :=
  exists m, (0 <= m)%R /\
    (m * m = at_axis AX (p_pos q) * at_axis AX (p_pos q) + at_axis AY (p_pos q) * at_axis AY (p_pos q)
             + at_axis AZ (p_pos q) * at_axis AZ (p_pos q))%R /\
    (forall i, at_axis i v * m = at_axis i (p_pos q))%R /\
    ((0 < m)%R -> (at_axis AX v * at_axis AX v + at_axis AY v * at_axis AY v
                  + at_axis AZ v * at_axis AZ v = 1)%R) /\
    (m = 0%R -> forall i, at_axis i v = 0%R).

Lemma line_of_sight_sight q : sight q (line_of_sight (p_pos q)).
Proof.
  destruct (p_pos q) as [x y z] eqn:P. unfold sight. rewrite P. unfold line_of_sight, magnitude.
  cbn [at_axis ax0 ax1 ax2].
  set (n := (x * x + y * y + z * z)%R).
  assert (N : (0 <= n)%R).
  { unfold n. pose proof (Rle_0_sqr x). pose proof (Rle_0_sqr y). pose proof (Rle_0_sqr z).
    unfold Rsqr in *. lra. }
  assert (Q : (sqrt n * sqrt n = n)%R) by now apply sqrt_sqrt.
  assert (M : (0 <= sqrt n)%R) by apply sqrt_pos.
  exists (sqrt n). split; [exact M|]. split; [exact Q|].
  destruct (Reqb (sqrt n) 0) eqn:E; [apply Reqb_spec in E|apply Reqb_false in E].
  - assert (Z : n = 0%R) by (rewrite <- Q, E; ring).
    pose proof (Rle_0_sqr x) as X2. pose proof (Rle_0_sqr y) as Y2. pose proof (Rle_0_sqr z) as Z2.
    unfold Rsqr in *. unfold n in Z.
    assert (x = 0%R) by (apply Rsqr_0_uniq; unfold Rsqr; lra).
    assert (y = 0%R) by (apply Rsqr_0_uniq; unfold Rsqr; lra).
    assert (z = 0%R) by (apply Rsqr_0_uniq; unfold Rsqr; lra). subst.
    rewrite E. split; [intros i; destruct i; cbn [at_axis ax0 ax1 ax2]; lra|].
    split; [lra|]. intros _ i. destruct i; cbn [at_axis ax0 ax1 ax2]; lra.
  - split; [intros i; destruct i; cbn [at_axis ax0 ax1 ax2]; field; exact E|].
    split; [|contradiction]. intros _.
    replace (x / sqrt n * (x / sqrt n) + y / sqrt n * (y / sqrt n) + z / sqrt n * (z / sqrt n))%R
      with (n / (sqrt n * sqrt n))%R by (unfold n at 1; field; exact E).
    rewrite Q. field. intros Z. apply E. rewrite Z. apply sqrt_0.
Qed.

Lemma lines_of_sight_sights c : Forall2 sight (particles c) (lines_of_sight c).
Proof.
  unfold lines_of_sight. induction (particles c) as [|q qs IH]; cbn [map]; constructor; [|exact IH].
  apply line_of_sight_sight.
Qed.

(** Normalising leaves the catalogues as they are. *)
Lemma norms_keep w p a s s2 n :
  (kind p = "survey" -> exists ps qs, has (s 0) ps /\ has (s 1) qs /\
     extents_current (s 0) /\ extents_current (s 1)) ->
  norms_of w p a s = Go (s2, n) -> forall c, s2 c = s c.
Proof.
  intros SV. unfold norms_of.
  destruct (npoint _ =? "2pt").
  - destruct (number (NormModel.powspec_norm_particles _ _)) as [|x] eqn:E1; cbn [andthen]; [discriminate|].
    destruct (number (NormModel.norm_from_mesh _ _ _ _ _)) as [|y] eqn:E2; cbn [andthen]; [discriminate|].
    destruct (String.eqb_spec (kind p) "survey") as [K|K].
    + destruct (SV K) as (ps & qs & H0 & H1 & X0 & X1). unfold meshes_norm.
      destruct (NormModel.norm_box _ _ _ _) as [k side].
      destruct (norm_params _ _ _ _ _ _) as [q|e] eqn:E3; cbn [uncaught andthen]; [|discriminate].
      unfold run_act.
      destruct (NormProps.mixed_norm_run s 0 1 (alignment_of (smp q)) (assignment_of (assignment (smp q)))
        (mesh_of (smp q)) (padfactor (smp q)) a ps qs (Nat.neq_0_succ 0) H0 H1 X0 X1) as (s' & E4 & F).
      rewrite E4. cbn [andthen snd fst]. destruct (number (NormModel.recip _)) as [|z]; cbn [andthen]; [discriminate|].
      intros Q. injection Q as <- _. exact F.
    + intros Q. injection Q as <- _. reflexivity.
  - destruct (npoint _ =? "3pt").
    + destruct (number (NormModel.bispec_norm_particles _ _)) as [|x] eqn:E1; cbn [andthen]; [discriminate|].
      destruct (number (NormModel.norm_from_mesh _ _ _ _ _)) as [|y] eqn:E2; cbn [andthen]; [discriminate|].
      intros Q. injection Q as <- _. reflexivity.
    + intros Q. injection Q as <- _. reflexivity.
Qed.

(** The statistics with their measurement functions. *)
Definition functions : list (string * statistic) :=
  [("powspec", Powspec); ("2pcf", Corrfunc); ("2pcf-win", CorrfuncWindow);
   ("bispec", Bispec); ("3pcf", ThreePcf); ("3pcf-win", ThreePcfWindow false);
   ("3pcf-win-wa", ThreePcfWindow true)].

(** [r] measures [ps] with lines of sight to the particles as loaded, [qs]. *)
Definition measures (given : option (list pdatum * list (triple R))) (s s' : CatModel.store) (a : nat) : Prop :=
  exists los, given = Some (particles (s' a), los) /\ Forall2 sight (particles (s a)) los.

Lemma measure_cases p ld lr b a f s m : settled (core p) ->
  measure p ld lr b (Some a) f s = Go m ->
  (m = None /\ In (statistic_type (msr (core p))) ["modes"; "pairs"]) \/
  (exists r path, m = Some (r, path) /\ save_path p = Some path /\
     In (statistic_type (msr (core p)), stat r) functions /\
     par r = p /\ bin r = b /\ factor r = f /\
     ((In (statistic_type (msr (core p))) windows /\ kind p = "random" /\
       from_data r = None /\ from_rand r = Some (particles (s 1), lr) /\
       in_box r = false /\ contrast r = Some a) \/
      (In (statistic_type (msr (core p))) clustering /\ kind p = "survey" /\
       from_data r = Some (particles (s 0), ld) /\ from_rand r = Some (particles (s 1), lr) /\
       in_box r = false /\ contrast r = None) \/
      (In (statistic_type (msr (core p))) clustering /\ kind p = "sim" /\
       from_data r = Some (particles (s 0), ld) /\ from_rand r = None /\
       in_box r = true /\ contrast r = None))).
Proof.
  intros ST. pose proof (s_stat _ ST) as SS. pose proof (s_clus _ ST) as CL. pose proof (s_win _ ST) as WI.
  fold (kind p) in CL, WI. clear ST. unfold measure.
  assert (SC : exists st, (st = statistic_type (msr (core p)) /\ In st ["modes"; "pairs"]) \/
               exists fn, In (st, fn) functions /\ st = statistic_type (msr (core p)) /\
                 statistic_of st = Some fn /\
                 ((is_window fn = true /\ In st windows) \/ (is_window fn = false /\ In st clustering))).
  { exists (statistic_type (msr (core p))). generalize dependent (statistic_type (msr (core p))).
    intros st SS _ _. unfold statistics in SS. cbn [In] in SS.
    destruct SS as [S|[S|[S|[S|[S|[S|[S|[S|[S|[]]]]]]]]]]; injection S as <- _ _.
    - right. exists Powspec. cbn; auto 20.
    - right. exists Corrfunc. cbn; auto 20.
    - right. exists CorrfuncWindow. cbn; auto 20.
    - right. exists Bispec. cbn; auto 20.
    - right. exists ThreePcf. cbn; auto 20.
    - right. exists (ThreePcfWindow false). cbn; auto 20.
    - right. exists (ThreePcfWindow true). cbn; auto 20.
    - left. cbn; auto.
    - left. cbn; auto. }
  destruct SC as (st & [(Es & I)|(fn & IF & Es & SO & WC)]).
  - subst st. intros E. left. split; [|exact I]. destruct I as [I|[I|[]]]; rewrite <- I in E; cbn in E; congruence.
  - subst st. rewrite SO. intros E. right. destruct WC as [(W & IW)|(W & IC)]; rewrite W in E.
    + specialize (WI IW). cbn [andthen] in E. destruct (save_path p) as [path|] eqn:SP; [|discriminate].
      injection E as <-. eexists; eexists. split; [reflexivity|]. cbn. repeat (split; [solve [auto]|]). left. auto 10.
    + specialize (CL IC). destruct CL as [K|[K|[]]]; rewrite <- K in E; cbn [String.eqb Ascii.eqb Bool.eqb andthen] in E;
        (destruct (save_path p) as [path|] eqn:SP; [|discriminate]); injection E as <-;
        eexists; eexists; (split; [reflexivity|]); cbn; repeat (split; [solve [auto]|]); right; [left|right]; auto 10.
Qed.

(** C102: a run that ends measures exactly the statistic asked for, with the
    catalogues of its type as placed in the box, lines of sight to where they
    were loaded, and one file; modes and pairs measure nothing. *)
Theorem run_request w args d : extcall (bld w) = false -> run w args = Go d ->
  exists file p s q s', choose args = File file /\ parameters w file = Go p /\
    catalogues w p = Go s /\ sized w p s = Go q /\ placed q s s' /\ kind q = kind p /\
    statistic_type (msr (core q)) = statistic_type (msr (core p)) /\
    (measured d = None -> In (statistic_type (msr (core p))) ["modes"; "pairs"]) /\
    forall r path, measured d = Some (r, path) ->
      In (statistic_type (msr (core p)), stat r) functions /\ par r = q /\ save_path q = Some path /\
      bins p = Go (bin r) /\
      ((In (statistic_type (msr (core p))) windows /\ kind p = "random" /\
        from_data r = None /\ measures (from_rand r) s s' 1 /\ in_box r = false /\ contrast r = Some 1%R) \/
       (In (statistic_type (msr (core p))) clustering /\ kind p = "survey" /\
        measures (from_data r) s s' 0 /\ measures (from_rand r) s s' 1 /\ in_box r = false) \/
       (In (statistic_type (msr (core p))) clustering /\ kind p = "sim" /\
        measures (from_data r) s s' 0 /\ from_rand r = None /\ in_box r = true)).
Proof.
  intros X R. unfold run, exit_of in R. destruct (choose args) as [| | | |file] eqn:CH; cbn [andthen] in R; try discriminate.
  destruct (parameters w file) as [|p] eqn:PA; cbn [andthen] in R; [discriminate|].
  pose proof (parameters_checked _ _ _ PA) as CK.
  apply session_go in R. destruct R as (s & b & q & s' & a & s2 & n & m & E1 & E2 & E3 & _ & E5 & E6 & E7 & E8 & ->).
  pose proof (sized_checked _ _ _ _ CK E3) as CQ.
  pose proof (checked_settled _ _ X CQ) as SQ.
  assert (MS : msr (core q) = msr (core p)).
  { revert E3. unfold sized. destruct (_ || _); [|now intros K; injection K as <-].
    destruct (Reqb _ 0); [|now intros K; injection K as <-].
    destruct (set_boxsize_from_expand _ _ _ _) as [c|e] eqn:E; cbn [uncaught andthen]; [|discriminate].
    intros K. injection K as <-. unfold set_boxsize_from_expand in E. cbn [core with_core].
    eapply checked_msr; [exact CK| |exact E]; reflexivity. }
  assert (KQ : kind q = kind p) by (unfold kind; now rewrite MS).
  assert (PL : placed q s s').
  { apply aligned_placed; [exact SQ| |exact E5]. rewrite KQ.
    exact (catalogues_needed _ _ _ X CK E1). }
  assert (KP : forall c, s2 c = s' c).
  { apply (norms_keep w q a s' s2 n); [|exact E7]. intros KS. unfold placed in PL. rewrite KS in PL.
    destruct PL as ((ps & qs & ps' & qs' & dd & _ & _ & A & B & _ & _ & C & D) & _). exists ps', qs'. auto. }
  exists file, p, s, q, s'. split; [reflexivity|]. split; [exact PA|]. split; [exact E1|]. split; [exact E3|].
  split; [exact PL|]. split; [exact KQ|]. split; [now rewrite MS|]. cbn [measured].
  destruct (measure_cases _ _ _ _ _ _ _ _ SQ E8) as [(-> & I)|(r & path & -> & SP & IF & PR & BR & _ & CS)].
  - split; [intros _; now rewrite <- MS|]. discriminate.
  - split; [discriminate|]. intros r' path' K. injection K as <- <-.
    rewrite <- MS, <- KQ. split; [exact IF|]. split; [exact PR|]. split; [exact SP|].
    split; [now rewrite BR|]. rewrite !KP in CS.
    assert (MEAS : forall c, measures (Some (particles (s' c), lines_of_sight (s c))) s s' c).
    { intros c. eexists. split; [reflexivity|]. apply lines_of_sight_sights. }
    destruct CS as [(A & B & C & D & F & G)|[(A & B & C & D & F & G)|(A & B & C & D & F & G)]].
    + left. rewrite D. repeat (split; [solve [auto]|]). rewrite G. f_equal.
      rewrite B in E6. cbn in E6. congruence.
    + right. left. rewrite C, D. repeat (split; [solve [auto]|]). exact F.
    + right. right. rewrite C. repeat (split; [solve [auto]|]). exact F.
Qed.

(** C102: binned vectors go to the file of the parameters, if there is one,
    whatever is measured. *)
Theorem run_vectors w p d : session w p = Go d ->
  exists s q, catalogues w p = Go s /\ sized w p s = Go q /\
    forall file, vectors d = Some file <-> save_binned_vectors (msc (core q)) = file /\ file <> "".
Proof.
  intros R. apply session_go in R.
  destruct R as (s & b & q & s' & a & s2 & n & m & E1 & _ & E3 & _ & _ & _ & _ & _ & ->).
  exists s, q. split; [exact E1|]. split; [exact E3|]. intros file. cbn [vectors]. unfold vectors_path. cbv zeta.
  destruct (String.eqb_spec (save_binned_vectors (msc (core q))) "") as [E|E].
  - split; [discriminate|]. intros (K & N). congruence.
  - split; [intros K; injection K as <-; auto|intros (-> & _); reflexivity].
Qed.

(* ------------------------------------------------------------------ *)
(** * C98: bins *)

Lemma settled_space p : settled p -> In (space (msr p)) ["fourier"; "config"].
Proof.
  intros ST. pose proof (s_stat _ ST) as SS. unfold statistics in SS. cbn [In] in SS.
  destruct SS as [S|[S|[S|[S|[S|[S|[S|[S|[S|[]]]]]]]]]]; injection S as _ _ <-; cbn; auto.
Qed.

(** C98: the bins of accepted parameters cannot be made in exactly two cases,
    and then the program is terminated. *)
Theorem bins_terminate_iff p : settled (core p) ->
  ((exists x, bins p = Stop x) <->
   (binning (msr (core p)) = "custom" /\ space (msr (core p)) = "fourier") \/
   (binning (msr (core p)) = "log" /\ bin_min (msr (core p)) = 0%R)) /\
  (forall x, bins p = Stop x -> exists e, x = Uncaught e).
Proof.
  intros ST. pose proof (s_bins _ ST) as B. pose proof (settled_space _ ST) as S.
  pose proof (s_range _ ST) as (R1 & R2). clear ST. unfold bins. cbv zeta.
  set (m := msr (core p)) in *. clearbody m.
  assert (SP : space_of (space m) <> BinningModel.OtherSpace)
    by (destruct S as [S|[S|[]]]; rewrite <- S; discriminate).
  destruct B as [B|[B|[B|[B|[B|[]]]]]]; rewrite <- B; cbn [String.eqb Ascii.eqb Bool.eqb padded orb andb].
  - cbn. split; [|discriminate]. split; [intros (x & K); discriminate|intros [(K & _)|(K & _)]; discriminate].
  - cbn [scheme_of String.eqb Ascii.eqb Bool.eqb]. unfold BinningModel.compute_bins.
    cbn [BinningModel.cpp_ctor_params BinningModel.c_scheme BinningModel.c_min BinningModel.c_max].
    unfold BinningModel.log_bins. destruct (Reqb (bin_min m) 0) eqn:E; [apply Reqb_spec in E|apply Reqb_false in E].
    + split; [|intros x K; injection K as <-; eexists; reflexivity].
      split; [intros _; right; auto|intros _; eexists; reflexivity].
    + replace (Rleb (bin_min m) 0) with false by (symmetry; apply Rleb_false; lra).
      replace (Rleb (bin_max m) 0) with false by (symmetry; apply Rleb_false; lra). cbn [orb].
      split; [|discriminate].
      split; [intros (x & K); discriminate|intros [(K & _)|(_ & K)]; [discriminate|contradiction]].
  - change (padded "linpad") with true. cbn [andb]. destruct (negb _).
    + split; [|discriminate]. split; [intros (x & K); discriminate|intros [(K & _)|(K & _)]; discriminate].
    + cbn [scheme_of String.eqb Ascii.eqb Bool.eqb]. unfold BinningModel.compute_bins.
      cbn [BinningModel.cpp_ctor_params BinningModel.c_scheme BinningModel.c_space].
      destruct (space_of (space m)); [| |contradiction]; cbn [bind];
        (split; [|discriminate]; split; [intros (x & K); discriminate|intros [(K & _)|(K & _)]; discriminate]).
  - change (padded "logpad") with true. cbn [andb]. destruct (negb _).
    + split; [|discriminate]. split; [intros (x & K); discriminate|intros [(K & _)|(K & _)]; discriminate].
    + cbn [scheme_of String.eqb Ascii.eqb Bool.eqb]. unfold BinningModel.compute_bins.
      cbn [BinningModel.cpp_ctor_params BinningModel.c_scheme BinningModel.c_space].
      destruct (space_of (space m)); [| |contradiction]; cbn [bind]; unfold BinningModel.logpad_bins;
        cbn [BinningModel.pad_bins]; destruct (_ || _);
        (split; [|discriminate]; split; [intros (x & K); discriminate|intros [(K & _)|(K & _)]; discriminate]).
  - destruct S as [S|[S|[]]]; rewrite <- S; cbn [String.eqb Ascii.eqb Bool.eqb].
    + split; [|intros x K; injection K as <-; eexists; reflexivity].
      split; [intros _; left; auto|intros _; eexists; reflexivity].
    + split; [|discriminate].
      split; [intros (x & K); discriminate|intros [(_ & K)|(K & _)]; discriminate].
Qed.

(** C98: padded bins are made before the box is sized from the catalogue, so
    that in Fourier space they are never finite for a box to be sized. *)
Theorem padded_bins_unsized p : settled (core p) ->
  In (binning (msr (core p))) ["linpad"; "logpad"] -> space (msr (core p)) = "fourier" ->
  (forall i, at_axis i (boxsize (smp (core p))) = 0%R) -> bins p = Go None.
Proof.
  intros _ B S Z. unfold bins. cbv zeta.
  assert (M : box_max (boxsize (smp (core p))) = 0%R).
  { unfold box_max. pose proof (Z AX) as X. pose proof (Z AY) as Y. pose proof (Z AZ) as W. cbn in X, Y, W.
    rewrite X, Y, W. unfold Rmax. destruct (Rle_dec 0 0); destruct (Rle_dec 0 0); reflexivity. }
  unfold pad_defined. rewrite M, S.
  replace (Reqb 0 0) with true by (symmetry; now apply Reqb_spec).
  destruct B as [B|[B|[]]]; rewrite <- B; reflexivity.
Qed.

Definition edges (b : BinningModel.bins) : list R := fst (fst b).
Definition centres (b : BinningModel.bins) : list R := snd (fst b).
Definition widths (b : BinningModel.bins) : list R := snd b.

Definition edge (b : BinningModel.bins) (i : nat) : R := nth i (edges b) 0%R.

Lemma custom_edges bmax n :
  edges (custom_bins bmax n) =
  ([0; 1; 10; 20; 30; 40] ++
   map (fun i => 50 * exp ((ln bmax - ln 50) / IZR (n - 5) * IZR (i - 5))) (arange 5 n) ++ [bmax])%R%list.
Proof.
  unfold edges, custom_bins. cbn [fst]. replace (10 * 5)%R with 50%R by ring.
  change (arange 1 5) with [1; 2; 3; 4]%Z. cbn [map app].
  replace (10 * 1)%R with 10%R by ring. replace (10 * 2)%R with 20%R by ring.
  replace (10 * 3)%R with 30%R by ring. replace (10 * 4)%R with 40%R by ring. reflexivity.
Qed.

(** C98: the custom bins are one more than asked for. *)
Theorem custom_bins_count bmax n : (5 <= n)%Z ->
  length (centres (custom_bins bmax n)) = S (Z.to_nat n) /\
  length (widths (custom_bins bmax n)) = S (Z.to_nat n) /\
  length (edges (custom_bins bmax n)) = S (S (Z.to_nat n)).
Proof.
  intros N. rewrite custom_edges. unfold centres, widths, custom_bins. cbn [fst snd].
  change (arange 1 5) with [1; 2; 3; 4]%Z. cbn [map app length].
  repeat (rewrite ?app_length, ?map_length, ?arange_length; cbn [length]). lia.
Qed.

Lemma custom_edge bmax n i : (6 <= n)%Z -> (0 < bmax)%R -> (6 <= i <= Z.to_nat n + 1) ->
  edge (custom_bins bmax n) i =
  (50 * exp ((ln bmax - ln 50) / IZR (n - 5) * IZR (Z.of_nat i - 6)))%R.
Proof.
  intros N B I. unfold edge. rewrite custom_edges. rewrite app_nth2 by (cbn; lia). cbn [length].
  destruct (Nat.eq_dec i (Z.to_nat n + 1)) as [->|E].
  - rewrite app_nth2 by (rewrite map_length, arange_length; lia).
    rewrite map_length, arange_length. replace (Z.to_nat n + 1 - 6 - Z.to_nat (n - 5)) with 0 by lia.
    cbn [nth]. replace (Z.of_nat (Z.to_nat n + 1) - 6)%Z with (n - 5)%Z by lia.
    assert (Q : IZR (n - 5) <> 0%R) by (apply not_0_IZR; lia).
    replace ((ln bmax - ln 50) / IZR (n - 5) * IZR (n - 5))%R with (ln bmax - ln 50)%R by (field; exact Q).
    unfold Rminus. rewrite exp_plus, exp_ln, exp_Ropp, exp_ln by lra. field.
  - rewrite app_nth1 by (rewrite map_length, arange_length; lia).
    rewrite (nth_map_arange (fun k => 50 * exp ((ln bmax - ln 50) / IZR (n - 5) * IZR (k - 5)))%R) by lia.
    do 4 f_equal. lia.
Qed.

(** C98: the bins asked for, the first [n] of them, end before `bin_max`. *)
Theorem custom_bins_reach bmax n : (6 <= n)%Z -> (50 < bmax)%R ->
  edge (custom_bins bmax n) (Z.to_nat n + 1) = bmax /\
  (edge (custom_bins bmax n) (Z.to_nat n) < bmax)%R /\
  (forall i, i <= Z.to_nat n -> (edge (custom_bins bmax n) i < edge (custom_bins bmax n) (S i))%R).
Proof.
  intros N B.
  assert (L : (0 < ln bmax - ln 50)%R) by (pose proof (ln_increasing 50 bmax); lra).
  assert (Q : (0 < IZR (n - 5))%R) by (apply (IZR_lt 0); lia).
  assert (T : edge (custom_bins bmax n) (Z.to_nat n + 1) = bmax).
  { unfold edge. rewrite custom_edges, app_nth2 by (cbn; lia). cbn [length].
    rewrite app_nth2 by (rewrite map_length, arange_length; lia).
    rewrite map_length, arange_length. now replace (Z.to_nat n + 1 - 6 - Z.to_nat (n - 5)) with 0 by lia. }
  assert (M : forall i, i <= Z.to_nat n -> (edge (custom_bins bmax n) i < edge (custom_bins bmax n) (S i))%R).
  { intros i I. destruct (le_lt_dec 6 i) as [G|G].
    - rewrite !custom_edge by lia || lra. apply Rmult_lt_compat_l; [lra|]. apply exp_increasing.
      apply Rmult_lt_compat_l; [apply Rdiv_lt_0_compat; assumption|]. apply IZR_lt. lia.
    - destruct (Nat.eq_dec i 5) as [->|N5].
      + rewrite (custom_edge bmax n 6) by lia || lra. cbn [Z.of_nat Pos.of_succ_nat Pos.succ].
        replace (6 - 6)%Z with 0%Z by lia. rewrite Rmult_0_r, exp_0.
        unfold edge. rewrite custom_edges. cbn [app nth]. lra.
      + unfold edge. rewrite custom_edges.
        destruct i as [|[|[|[|[|i]]]]]; [| | | | |lia]; cbn [app nth]; lra. }
  split; [exact T|]. split; [|exact M].
  rewrite <- T at 2. replace (Z.to_nat n + 1) with (S (Z.to_nat n)) by lia. now apply M.
Qed.

(** C98: every width is the distance of the edges; every centre is their
    midpoint but that of the second bin, [1, 10], which is 5. *)
Theorem custom_bins_centres bmax n i : (6 <= n)%Z -> (0 < bmax)%R -> i <= Z.to_nat n ->
  let b := custom_bins bmax n in
  nth i (widths b) 0%R = (edge b (S i) - edge b i)%R /\
  (i <> 1 -> nth i (centres b) 0%R = ((edge b i + edge b (S i)) / 2)%R) /\
  (i = 1 -> nth i (centres b) 0%R = 5%R /\ edge b i = 1%R /\ edge b (S i) = 10%R).
Proof.
  intros N B I. cbv zeta.
  destruct (le_lt_dec 6 i) as [G|G].
  - rewrite !custom_edge by lia || lra. unfold widths, centres, custom_bins. cbn [fst snd].
    change (arange 1 5) with [1; 2; 3; 4]%Z. replace (10 * 5)%R with 50%R by ring.
    split; [|split; [|lia]].
    + rewrite app_nth2 by (cbn; lia). cbn [length]. rewrite app_nth2 by (cbn; lia). cbn [map length].
      rewrite (nth_map_arange (fun k => 50 * exp ((ln bmax - ln 50) / IZR (n - 5) * IZR (k - 5 + 1))
        - 50 * exp ((ln bmax - ln 50) / IZR (n - 5) * IZR (k - 5)))%R) by lia.
      replace (5 + Z.of_nat (i - 2 - 4) - 5 + 1)%Z with (Z.of_nat (S i) - 6)%Z by lia.
      replace (5 + Z.of_nat (i - 2 - 4) - 5)%Z with (Z.of_nat i - 6)%Z by lia. reflexivity.
    + intros _. rewrite app_nth2 by (cbn; lia). cbn [length]. rewrite app_nth2 by (cbn; lia). cbn [map length].
      rewrite (nth_map_arange (fun k => (50 * exp ((ln bmax - ln 50) / IZR (n - 5) * IZR (k - 5))
        + 50 * exp ((ln bmax - ln 50) / IZR (n - 5) * IZR (k - 5 + 1))) / 2)%R) by lia.
      replace (5 + Z.of_nat (i - 2 - 4) - 5 + 1)%Z with (Z.of_nat (S i) - 6)%Z by lia.
      replace (5 + Z.of_nat (i - 2 - 4) - 5)%Z with (Z.of_nat i - 6)%Z by lia. reflexivity.
  - assert (E6 : edge (custom_bins bmax n) 6 = 50%R).
    { rewrite custom_edge by lia || lra. cbn [Z.of_nat Pos.of_succ_nat Pos.succ].
      replace (6 - 6)%Z with 0%Z by lia. rewrite Rmult_0_r, exp_0. ring. }
    assert (EL : forall j, j < 6 -> edge (custom_bins bmax n) j = nth j [0; 1; 10; 20; 30; 40]%R 0%R).
    { intros j J. unfold edge. rewrite custom_edges. now rewrite app_nth1 by (cbn; lia). }
    assert (WL : nth i (widths (custom_bins bmax n)) 0%R = nth i [1; 9; 10; 10; 10; 10]%R 0%R).
    { unfold widths, custom_bins. cbn [fst snd]. change (arange 1 5) with [1; 2; 3; 4]%Z.
      cbn [map]. rewrite app_assoc. now rewrite app_nth1 by (cbn; lia). }
    assert (CL : nth i (centres (custom_bins bmax n)) 0%R
                 = nth i [/ 2; 5; 10 * 1 + 10 / 2; 10 * 2 + 10 / 2; 10 * 3 + 10 / 2; 10 * 4 + 10 / 2]%R 0%R).
    { unfold centres, custom_bins. cbn [fst snd]. change (arange 1 5) with [1; 2; 3; 4]%Z.
      cbn [map]. rewrite app_assoc. now rewrite app_nth1 by (cbn; lia). }
    rewrite WL, CL. clear WL CL.
    destruct i as [|[|[|[|[|[|i]]]]]]; [| | | | | |lia]; rewrite ?E6, ?EL by lia; cbn [nth];
      (split; [lra|]); (split; [intros; try lra; lia|]); intros; try discriminate; lra.
Qed.

(** C98 as stated fails: the bins asked for do not cover the range. *)
Theorem custom_bins_refuted :
  ~ (forall bmax n, (6 <= n)%Z -> (50 < bmax)%R ->
       length (centres (custom_bins bmax n)) = Z.to_nat n /\
       edge (custom_bins bmax n) (Z.to_nat n) = bmax).
Proof.
  intros H. destruct (H 200%R 20%Z ltac:(lia) ltac:(lra)) as (_ & K).
  destruct (custom_bins_reach 200 20 ltac:(lia) ltac:(lra)) as (_ & L & _). lra.
Qed.

(** Sixteen bins for fifteen, from 0 to 200. *)
Example custom_bins_case :
  length (centres (custom_bins 200 15)) = 16 /\ edge (custom_bins 200 15) 0 = 0%R /\
  edge (custom_bins 200 15) 16 = 200%R /\ nth 1 (centres (custom_bins 200 15)) 0%R = 5%R /\
  (edge (custom_bins 200 15) 15 < 200)%R.
Proof.
  destruct (custom_bins_count 200 15 ltac:(lia)) as (A & _).
  destruct (custom_bins_reach 200 15 ltac:(lia) ltac:(lra)) as (B & C & _).
  split; [exact A|]. split; [unfold edge; now rewrite custom_edges|]. split; [exact B|].
  split; [reflexivity|exact C].
Qed.

(* ------------------------------------------------------------------ *)
(** * C98: bins of the other schemes *)

(** A side of the box no other exceeds, and a grid number no other is below. *)
Definition longest (t : triple R) (L : R) : Prop :=
  (exists i, at_axis i t = L) /\ forall i, (at_axis i t <= L)%R.
Definition coarsest (t : triple Z) (n : Z) : Prop :=
  (exists i, at_axis i t = n) /\ forall i, (n <= at_axis i t)%Z.

Lemma box_max_longest t L : longest t L -> box_max t = L.
Proof.
  intros ((i & E) & H). pose proof (H AX) as X. pose proof (H AY) as Y. pose proof (H AZ) as Z. cbn in X, Y, Z.
  unfold box_max. pose proof (Rmax_l (ax0 t) (ax1 t)). pose proof (Rmax_r (ax0 t) (ax1 t)).
  pose proof (Rmax_l (Rmax (ax0 t) (ax1 t)) (ax2 t)). pose proof (Rmax_r (Rmax (ax0 t) (ax1 t)) (ax2 t)).
  apply Rle_antisym; [repeat apply Rmax_lub; assumption|]. destruct i; cbn in E; lra.
Qed.

Lemma grid_min_coarsest t n : coarsest t n -> grid_min t = n.
Proof.
  intros ((i & E) & H). pose proof (H AX) as X. pose proof (H AY) as Y. pose proof (H AZ) as Z. cbn in X, Y, Z.
  unfold grid_min. destruct i; cbn in E; subst n; lia.
Qed.

(** The width of the padding: in Fourier space just above the fundamental
    wave number of the longest side, in configuration space just above that
    side over the coarsest grid number. *)
Definition pad_width (p : fparams) (v : R) : Prop :=
  exists L, longest (boxsize (smp (core p))) L /\
  ((space (msr (core p)) = "fourier" /\ L <> 0%R /\ (v * L = (1 + 5 / 1000) * (2 * PI))%R) \/
   (space (msr (core p)) = "config" /\ exists n, coarsest (ngrid (smp (core p))) n /\ n <> 0%Z /\
      (v * IZR n = (1 + 5 / 1000) * L)%R)).

Theorem run_bins p : settled (core p) ->
  let m := msr (core p) in let n := Z.to_nat (num_bins m) in
  (binning m = "lin" -> exists b, bins p = Go (Some b) /\
     BinningProps.describes n (bin_min m) (bin_max m) b /\
     forall i, i < n -> nth i (widths b) 0%R = ((bin_max m - bin_min m) / INR n)%R) /\
  (binning m = "log" -> bin_min m <> 0%R -> exists b, bins p = Go (Some b) /\
     BinningProps.describes n (bin_min m) (bin_max m) b /\
     forall i, i + 2 <= n -> (edge b i * edge b (i + 2) = edge b (i + 1) ^ 2)%R) /\
  (forall v, binning m = "linpad" -> pad_width p v -> (0 < v)%R -> (5 * v < bin_max m)%R ->
     exists b, bins p = Go (Some b) /\ BinningProps.describes n 0 (bin_max m) b /\
     forall i, i < 5 -> nth i (widths b) 0%R = v) /\
  (forall v, binning m = "logpad" -> pad_width p v -> (0 < v)%R -> (5 * v < bin_max m)%R ->
     exists b, bins p = Go (Some b) /\ BinningProps.describes n 0 (bin_max m) b /\
     forall i, i < 5 -> nth i (widths b) 0%R = v).
Proof.
  intros ST. cbv zeta. pose proof (s_range _ ST) as (R1 & R2). pose proof (s_num _ ST) as N2.
  pose proof (s_seven _ ST) as N7. clear ST.
  assert (ZN : Z.of_nat (Z.to_nat (num_bins (msr (core p)))) = num_bins (msr (core p))) by lia.
  split; [|split].
  - intros B. unfold bins. cbv zeta. rewrite B. cbn.
    destruct (BinningProps.lin_bins_correct (bin_min (msr (core p))) (bin_max (msr (core p)))
      (Z.to_nat (num_bins (msr (core p)))) ltac:(lia) R2) as (D & _ & W).
    rewrite ZN in D, W. eexists. split; [reflexivity|]. split; [exact D|exact W].
  - intros B NZ. unfold bins. cbv zeta. rewrite B. cbn [String.eqb Ascii.eqb Bool.eqb padded orb andb].
    destruct (BinningProps.log_bins_correct (bin_min (msr (core p))) (bin_max (msr (core p)))
      (Z.to_nat (num_bins (msr (core p)))) ltac:(lia) ltac:(lra) R2) as (b & E & D & _ & W).
    rewrite ZN in E. change (scheme_of "log") with BinningModel.Log. unfold BinningModel.compute_bins.
    cbn [BinningModel.cpp_ctor_params BinningModel.c_scheme BinningModel.c_min BinningModel.c_max BinningModel.c_num].
    rewrite E. exists b. split; [reflexivity|]. split; [exact D|exact W].
  - assert (PW : forall v, pad_width p v -> pad_defined (space (msr (core p))) (smp (core p)) = true /\
      exists sp, space_of (space (msr (core p))) = sp /\
      match sp with BinningModel.Fourier => True | BinningModel.Config => True | _ => False end /\
      forall sc lo hi n, (match sp with
        | BinningModel.Fourier => BinningModel.c_pad_fourier
        | _ => BinningModel.c_pad_config end)
          (BinningModel.cpp_ctor_params sp sc lo hi n (box_max (boxsize (smp (core p)))) (grid_min (ngrid (smp (core p))))) = v).
    { intros v (L & LG & [(S & L0 & V)|(S & k & CO & K0 & V)]); unfold pad_defined; rewrite S, (box_max_longest _ _ LG);
        cbn [String.eqb Ascii.eqb Bool.eqb].
      - split; [apply negb_true_iff; now apply Reqb_false|]. exists BinningModel.Fourier.
        split; [reflexivity|]. split; [exact I|]. intros. cbn [BinningModel.cpp_ctor_params BinningModel.c_pad_fourier].
        apply (Rmult_eq_reg_r L); [|exact L0]. rewrite V. field. exact L0.
      - rewrite (grid_min_coarsest _ _ CO). split; [apply negb_true_iff; now apply Z.eqb_neq|]. exists BinningModel.Config.
        assert (K : IZR k <> 0%R) by now apply not_0_IZR.
        split; [reflexivity|]. split; [exact I|]. intros. cbn [BinningModel.cpp_ctor_params BinningModel.c_pad_config].
        apply (Rmult_eq_reg_r (IZR k)); [|exact K]. rewrite V. field. exact K. }
    split; intros v B PV V0 V5; destruct (PW v PV) as (PD & sp & ES & SP & PE); unfold bins; cbv zeta;
      (assert (N : (7 <= num_bins (msr (core p)))%Z) by (apply N7; rewrite B; cbn; auto));
      rewrite B, PD, ES; cbn [String.eqb Ascii.eqb Bool.eqb padded orb andb negb].
    + destruct (BinningProps.linpad_bins_correct v (bin_max (msr (core p))) (Z.to_nat (num_bins (msr (core p)))) V0 V5 ltac:(lia))
        as (D & _ & W & _). rewrite ZN in D, W.
      change (scheme_of "linpad") with BinningModel.LinPad. unfold BinningModel.compute_bins.
      eexists. split.
      * destruct sp; [| |contradiction]; cbn [BinningModel.cpp_ctor_params BinningModel.c_scheme BinningModel.c_space bind
          BinningModel.c_max BinningModel.c_num]; rewrite PE; reflexivity.
      * split; [exact D|exact W].
    + destruct (BinningProps.logpad_bins_correct v (bin_max (msr (core p))) (Z.to_nat (num_bins (msr (core p)))) V0 V5 ltac:(lia))
        as (b & E & D & _ & W & _). rewrite ZN in E.
      change (scheme_of "logpad") with BinningModel.LogPad. unfold BinningModel.compute_bins.
      exists b. split.
      * destruct sp; [| |contradiction]; cbn [BinningModel.cpp_ctor_params BinningModel.c_scheme BinningModel.c_space bind
          BinningModel.c_max BinningModel.c_num]; rewrite PE, E; reflexivity.
      * split; [exact D|exact W].
Qed.

(* ------------------------------------------------------------------ *)
(** * C101: normalisation *)

(** The order of a statistic, and the catalogue normalised by. *)
Definition points (p : fparams) : nat := if npoint (msr (core p)) =? "3pt" then 3 else 2.
Definition normaliser (p : fparams) : nat := if kind p =? "sim" then 0 else 1.

(** The sum of [ws nz^(k-1) wc^k]. *)
Definition total (k : nat) (ps : list pdatum) : R :=
  rsum (map (fun x => p_ws x * p_nz x ^ (k - 1) * p_wc x ^ k)%R ps).

(** The assignment schemes by name. *)
Definition named_scheme (s : string) : MeshModel.scheme :=
  match find (fun q => s =? fst q) [("ngp", NGP); ("cic", CIC); ("tsc", TSC)] with
  | Some q => snd q
  | None => PCS
  end.

Lemma assignment_named s : assignment_of s = named_scheme s.
Proof.
  unfold assignment_of, named_scheme. cbn [find fst].
  destruct (s =? "ngp"); [reflexivity|]. destruct (s =? "cic"); [reflexivity|]. now destruct (s =? "tsc").
Qed.

(** The integral of the [k]th power of the weighted field on the mesh. *)
Definition mesh_total (k : nat) (t : sampling) (ps : list pdatum) : R :=
  (rsum (map (fun c => assign_main (named_scheme (assignment t)) (mesh_of t)
                         (map NormModel.weigh ps) c false ^ k)
          (arange 0 (MeshModel.nmesh (mesh_of t)))) * (volume t / IZR (nmesh t)))%R.

(** The ratio of sample weights, for surveys. *)
Definition share (p : fparams) (s : CatModel.store) (a : R) : Prop :=
  if kind p =? "survey" then
    let weight i := rsum (map p_ws (particles (s i))) in
    weight 1 <> 0%R /\ Rmult a (weight 1) = weight 0
  else a = 1%R.

(** One over [v]: no number for zero. *)
Definition reciprocal (x : option R) (v : R) : Prop :=
  match x with Some f => (f * v = 1)%R | None => v = 0%R end.

Lemma alike_sum (f : pdatum -> R) ps qs :
  (forall p q, alike p q -> f q = f p) -> Forall2 alike ps qs -> rsum (map f qs) = rsum (map f ps).
Proof.
  intros H. induction 1 as [|p q ps qs A F IH]; [reflexivity|]. unfold rsum in *.
  cbn [map fold_right]. rewrite (H _ _ A). now f_equal.
Qed.

Lemma alike_total k ps qs : Forall2 alike ps qs -> total k qs = total k ps.
Proof. intros F. apply alike_sum; [|exact F]. intros p q (-> & -> & -> & _). reflexivity. Qed.

Lemma number_recip k ps c al x :
  In k [2; 3] -> pdata c = Some ps ->
  number (if (k =? 2)%nat then NormModel.powspec_norm_particles c al
          else NormModel.bispec_norm_particles c al) = Go x ->
  total k ps <> 0%R /\ reciprocal x (al * total k ps).
Proof.
  intros K P.
  assert (T2 : total 2 ps = NormModel.I2_sum ps).
  { unfold total, NormModel.I2_sum. f_equal. apply map_ext. intros y. cbn [Nat.sub]. ring. }
  assert (T3 : total 3 ps = NormModel.I3_sum ps) by reflexivity.
  destruct K as [<-|[<-|[]]]; cbn [Nat.eqb]; rewrite ?T2, ?T3; clear T2 T3;
    unfold NormModel.powspec_norm_particles, NormModel.bispec_norm_particles; rewrite P; cbv zeta;
    match goal with |- context [Reqb ?t 0] => set (v := t) end; clearbody v;
    (destruct (Reqb v 0) eqn:E; [discriminate|apply Reqb_false in E]);
    unfold NormModel.recip; (destruct (Reqb (al * v) 0) eqn:F; [apply Reqb_spec in F|apply Reqb_false in F]);
    cbn [number]; intros Q; injection Q as <-; (split; [exact E|]); cbn [reciprocal]; try exact F; field;
    clear - F; split; intros Z; apply F; rewrite Z; ring.
Qed.

Lemma number_mesh k t c al x :
  number (NormModel.norm_from_mesh k (assignment_of (assignment t)) (mesh_of t) c al) = Go x ->
  reciprocal x (al ^ k * mesh_total k t (particles c)).
Proof.
  rewrite assignment_named. unfold NormModel.norm_from_mesh, NormModel.powlaw_norm, NormModel.recip. fold (particles c).
  change (MeshModel.vol_cell (mesh_of t)) with (volume t / IZR (nmesh t))%R.
  fold (mesh_total k t (particles c)).
  set (v := mesh_total k t (particles c)). clearbody v.
  destruct (Reqb v 0) eqn:E; [apply Reqb_spec in E; subst v|apply Reqb_false in E].
  - cbn [number]. intros Q. injection Q as <-. cbn [reciprocal]. ring.
  - destruct (Reqb (al ^ k) 0) eqn:F; [apply Reqb_spec in F|apply Reqb_false in F]; cbn [number];
      intros Q; injection Q as <-; cbn [reciprocal]; [rewrite F; ring|].
    field. split; assumption.
Qed.

(** The kinds of run with a statistic. *)
Lemma measured_kind p : settled (core p) -> npoint (msr (core p)) <> "none" ->
  In (kind p) ["survey"; "sim"; "random"] /\ In (npoint (msr (core p))) ["2pt"; "3pt"].
Proof.
  intros ST N. pose proof (s_stat _ ST) as SS. pose proof (s_clus _ ST) as CL. pose proof (s_win _ ST) as WI.
  fold (kind p) in CL, WI. clear ST. unfold statistics in SS. cbn [In] in SS.
  assert (C : In (statistic_type (msr (core p))) clustering -> In (kind p) ["survey"; "sim"; "random"]).
  { intros I. destruct (CL I) as [<-|[<-|[]]]; cbn; auto. }
  assert (W : In (statistic_type (msr (core p))) windows -> In (kind p) ["survey"; "sim"; "random"]).
  { intros I. rewrite (WI I). cbn; auto. }
  clear CL WI. unfold clustering, windows in C, W.
  destruct SS as [S|[S|[S|[S|[S|[S|[S|[S|[S|[]]]]]]]]]]; injection S as S1 S2 _; rewrite <- S1 in C, W; rewrite <- S2 in N |- *;
    try (exfalso; now apply N); (split; [first [apply C; cbn; now auto 9|apply W; cbn; now auto 9]|cbn; auto]).
Qed.

Lemma loaded_has c ps : loaded c ps -> has c ps.
Proof. now intros (H & _). Qed.

(** What a run that ends has found before measuring. *)
Lemma session_norms w p d : extcall (bld w) = false -> checked (bld w) (core p) ->
  session w p = Go d -> npoint (msr (core p)) <> "none" ->
  exists s q s' a, catalogues w p = Go s /\ sized w p s = Go q /\ placed q s s' /\ share p s a /\
    msr (core q) = msr (core p) /\
    let k := points p in let c := normaliser p in let n := printed_norms d in
    total k (particles (s c)) <> 0%R /\
    reciprocal (n_part n) (a * total k (particles (s c))) /\
    reciprocal (n_mesh n) (a ^ k * mesh_total k (smp (core q)) (particles (s' c))) /\
    (kind p = "survey" /\ k = 2 \/ n_meshes n = Some 0%R) /\
    (forall r path, measured d = Some (r, path) ->
       factor r = factor_of (msr (core p)) n /\ par r = q /\
       exists los, (if kind p =? "sim" then from_data r else from_rand r) = Some (particles (s' c), los)) /\
    (kind p = "survey" -> k = 2 -> exists side n assign q', norm_params (fuel w) (bld w) side n assign (core q) = Ok q').
Proof.
  intros X CK R NP.
  apply session_go in R. destruct R as (s & b & q & s' & a & s2 & n & m & E1 & E2 & E3 & _ & E5 & E6 & E7 & E8 & ->).
  pose proof (sized_checked _ _ _ _ CK E3) as CQ.
  pose proof (checked_settled _ _ X CQ) as SQ.
  assert (KN : kind p <> "none").
  { intros K. pose proof (measured_kind p (checked_settled _ _ X CK) NP) as ([I|[I|[I|[]]]] & _); rewrite K in I; discriminate. }
  pose proof (proj1 (box_sized _ _ _ _ CK KN E3)) as MS.
  assert (KQ : kind q = kind p) by (unfold kind; now rewrite MS).
  pose proof (catalogues_needed _ _ _ X CK E1) as CN.
  assert (PL : placed q s s') by (apply aligned_placed; [exact SQ|now rewrite KQ|exact E5]).
  assert (KP : forall c, s2 c = s' c).
  { apply (norms_keep w q a s' s2 n); [|exact E7]. intros KS. unfold placed in PL. rewrite KS in PL.
    destruct PL as ((ps & qs & ps' & qs' & dd & _ & _ & A & B & _ & _ & C & D) & _). exists ps', qs'. auto. }
  destruct (measured_kind p (checked_settled _ _ X CK) NP) as (IK & IN).
  assert (FR : flag_rand (kind p) = negb (kind p =? "sim")) by (destruct IK as [<-|[<-|[<-|[]]]]; reflexivity).
  assert (HC : exists ps, pdata (s' (normaliser p)) = Some ps).
  { unfold normaliser. unfold placed in PL. rewrite KQ in PL.
    destruct IK as [IK|[IK|[IK|[]]]]; rewrite <- IK in PL |- *; cbn [String.eqb Ascii.eqb Bool.eqb].
    - destruct PL as ((ps & qs & ps' & qs' & dd & _ & _ & _ & (B & _) & _) & _). eauto.
    - destruct PL as ((ps & ps' & _ & (B & _) & _) & _). eauto.
    - destruct PL as ((ps & ps' & _ & (B & _) & _) & _). eauto. }
  destruct HC as (ps & HC).
  assert (AD : (if flag_rand (kind q) then 1 else 0) = normaliser p).
  { rewrite KQ, FR. unfold normaliser. now destruct (kind p =? "sim"). }
  assert (SH : share p s a /\ (if flag_rand (kind q) then a else 1%R) = a).
  { unfold share. unfold alpha_of in E6. destruct PL as (_ & PL).
    rewrite KQ in E6 |- *. destruct IK as [IK|[IK|[IK|[]]]]; rewrite <- IK in E6, CN |- *; cbn [String.eqb Ascii.eqb Bool.eqb].
    - change (flag_data "survey" && flag_rand "survey") with true in E6. cbv iota in E6.
      destruct CN as ((p0 & L0) & (p1 & L1)).
      destruct (Reqb (wstotal (s' 1)) 0) eqn:Z; [discriminate|]. apply Reqb_false in Z.
      rewrite (proj1 (PL 0)), (proj1 (PL 1)) in E6. rewrite (proj1 (PL 1)) in Z.
      rewrite (particles_has _ _ (loaded_has _ _ L0)), (particles_has _ _ (loaded_has _ _ L1)).
      destruct L0 as (_ & W0 & _), L1 as (_ & W1 & _). rewrite W0, W1 in E6. rewrite W1 in Z.
      injection E6 as <-. split; [|reflexivity]. split; [exact Z|]. field. exact Z.
    - cbn in E6. injection E6 as <-. split; reflexivity.
    - cbn in E6. injection E6 as <-. split; reflexivity. }
  destruct SH as (SH & AL).
  exists s, q, s', a. repeat (split; [assumption|]). cbv zeta. cbn [printed_norms measured].
  assert (TT : total (points p) (particles (s (normaliser p))) = total (points p) ps).
  { symmetry. apply alike_total. replace ps with (particles (s' (normaliser p))) by (unfold particles; now rewrite HC).
    apply PL. }
  rewrite TT.
  assert (MM : forall r path, m = Some (r, path) -> factor r = factor_of (msr (core q)) n /\ par r = q /\
       exists los, (if kind p =? "sim" then from_data r else from_rand r) = Some (particles (s' (normaliser p)), los)).
  { intros r path ->. destruct (measure_cases _ _ _ _ _ _ _ _ SQ E8) as [(K & _)|(r' & path' & K & _ & _ & PR & _ & FA & CS)]; [discriminate|].
    injection K as <- <-. split; [exact FA|]. split; [exact PR|]. rewrite !KP in CS. unfold normaliser. rewrite KQ in CS. clear - CS.
    destruct CS as [(_ & K & _ & C & _)|[(_ & K & _ & C & _)|(_ & K & C & _)]]; rewrite K, C; eexists; reflexivity. }
  rewrite <- MS.
  assert (GO : total (points p) ps <> 0%R /\ reciprocal (n_part n) (a * total (points p) ps) /\
    reciprocal (n_mesh n) (a ^ points p * mesh_total (points p) (smp (core q)) (particles (s' (normaliser p)))) /\
    (kind p = "survey" /\ points p = 2 \/ n_meshes n = Some 0%R) /\
    (kind p = "survey" -> points p = 2 -> exists side n assign q', norm_params (fuel w) (bld w) side n assign (core q) = Ok q')).
  { revert E7. unfold norms_of. rewrite AD, AL, MS, KQ. unfold points. clear - HC IN.
    destruct IN as [IN|[IN|[]]]; rewrite <- IN; cbn [String.eqb Ascii.eqb Bool.eqb].
    - destruct (number (NormModel.powspec_norm_particles _ _)) as [|x] eqn:N1; cbn [andthen]; [discriminate|].
      destruct (number (NormModel.norm_from_mesh _ _ _ _ _)) as [|y] eqn:N2; cbn [andthen]; [discriminate|].
      assert (F := number_recip 2 ps _ a x (or_introl eq_refl) HC N1). apply number_mesh in N2.
      destruct F as (F1 & F2).
      destruct (String.eqb_spec (kind p) "survey") as [K|K].
      + unfold meshes_norm. destruct (NormModel.norm_box _ _ _ _) as [kk side].
        destruct (norm_params _ _ _ _ _ _) as [q'|e] eqn:N3; cbn [uncaught andthen]; [|discriminate].
        destruct (run_act _ _) as [|[s3 r3]]; cbn [andthen]; [discriminate|]. cbn [fst snd].
        destruct (number r3) as [|z]; cbn [andthen]; [discriminate|].
        intros Q. injection Q as _ <-. cbn [n_part n_mesh n_meshes].
        repeat (split; [solve [auto]|]). intros _ _. exists side, kk, "cic", q'. exact N3.
      + intros Q. injection Q as _ <-. cbn [n_part n_mesh n_meshes].
        repeat (split; [solve [auto]|]). contradiction.
    - destruct (number (NormModel.bispec_norm_particles _ _)) as [|x] eqn:N1; cbn [andthen]; [discriminate|].
      destruct (number (NormModel.norm_from_mesh _ _ _ _ _)) as [|y] eqn:N2; cbn [andthen]; [discriminate|].
      assert (F := number_recip 3 ps _ a x (or_intror (or_introl eq_refl)) HC N1). apply number_mesh in N2.
      destruct F as (F1 & F2).
      intros Q. injection Q as _ <-. cbn [n_part n_mesh n_meshes].
      repeat (split; [solve [auto]|]). discriminate. }
  destruct GO as (G1 & G2 & G3 & G4 & G5). auto 8.
Qed.

(** C101: the factor a measurement is given is one for the convention "none",
    one over the particle sum or the mesh integral for the other conventions,
    with the ratio of weights, and zero for "mesh-mixed" without randoms or
    data. *)
Theorem run_factor w p d r path : extcall (bld w) = false -> checked (bld w) (core p) ->
  session w p = Go d -> npoint (msr (core p)) <> "none" -> measured d = Some (r, path) ->
  exists s a ps los, catalogues w p = Go s /\ share p s a /\
    (if kind p =? "sim" then from_data r else from_rand r) = Some (ps, los) /\
    match norm_convention (msr (core p)) with
    | "none" => factor r = Some 1%R
    | "particle" => reciprocal (factor r) (a * total (points p) (particles (s (normaliser p))))
    | "mesh" => reciprocal (factor r) (a ^ points p * mesh_total (points p) (smp (core (par r))) ps)
    | _ => kind p <> "survey" -> factor r = Some 0%R
    end.
Proof.
  intros X CK R NP M.
  destruct (session_norms w p d X CK R NP) as (s & q & s' & a & E1 & E3 & PL & SH & MS & T & N1 & N2 & N3 & MM & _).
  destruct (MM r path M) as (F & PR & los & G).
  exists s, a, (particles (s' (normaliser p))), los. repeat (split; [assumption|]). subst q.
  pose proof (s_norm _ (checked_settled _ _ X CK)) as NC. rewrite F.
  assert (NN : npoint (msr (core p)) =? "none" = false) by now apply String.eqb_neq.
  unfold factor_of. rewrite NN.
  destruct NC as [NC|[NC|[NC|[NC|[]]]]]; rewrite <- NC; cbn [String.eqb Ascii.eqb Bool.eqb]; auto.
  intros KS. destruct N3 as [(K & _)|N3]; [contradiction|exact N3].
Qed.

(** C101: whatever the convention, no run ends whose normalising catalogue has
    no density. *)
Theorem zero_density w p d s : extcall (bld w) = false -> checked (bld w) (core p) ->
  npoint (msr (core p)) <> "none" -> catalogues w p = Go s ->
  Forall (fun x => p_nz x = 0%R) (particles (s (normaliser p))) -> session w p <> Go d.
Proof.
  intros X CK NP E Z R.
  destruct (session_norms w p d X CK R NP) as (s1 & q & s' & a & E1 & _ & _ & _ & _ & T & _).
  rewrite E in E1. injection E1 as <-. apply T. clear T R E X CK.
  assert (K : points p - 1 <> 0) by (unfold points; destruct (_ =? _); discriminate).
  unfold total, rsum. induction Z as [|x l H _ IH]; [reflexivity|]. cbn [map fold_right].
  rewrite IH, H, pow_i by lia. ring.
Qed.

Lemma scheme_kept fuel b init p p' :
  gpu b = false -> validate fuel b init p = Ok p' -> fftw_scheme (msc p') = fftw_scheme (msc p).
Proof.
  intros G. revert init p. induction fuel as [fuel IH] using (well_founded_induction Wf_nat.lt_wf).
  intros init p H. apply validate_cases in H. destruct H as (q & HH & H).
  assert (Q : fftw_scheme (msc q) = fftw_scheme (msc p)).
  { destruct (head_parts _ _ _ _ HH) as (_ & _ & _ & (c & HF & EC)). rewrite EC.
    cbn [val_bvec fftw_scheme]. unfold val_fftw in HF. rewrite G in HF. cbn [negb] in HF.
    apply bind_ok_iff in HF. destruct HF as (x & Hx & HF). cbv zeta in HF.
    assert (FX : fst x = fftw_scheme (msc p)).
    { destruct (_ =? "estimate"); [now injection Hx as <-|].
      destruct (_ =? "measure"); [now injection Hx as <-|].
      destruct (_ =? "patient"); [now injection Hx as <-|discriminate]. }
    destruct (negb _) in HF; [destruct (_ && _) in HF; [discriminate|]|]; injection HF as <-; exact FX. }
  destruct H as [(_ & _ & _ & HT)|(_ & _ & f & n & -> & _ & H)].
  - apply tail_val in HT. destruct HT as (_ & _ & _ & _ & _ & ->). destruct (_ && _); exact Q.
  - rewrite (IH f ltac:(lia) false (regrid n q) H). exact Q.
Qed.

(** C101: nor a two-point survey run with the planner "estimate". *)
Theorem survey_estimate w p d : extcall (bld w) = false -> gpu (bld w) = false ->
  checked (bld w) (core p) -> npoint (msr (core p)) = "2pt" -> kind p = "survey" ->
  fftw_scheme (msc (core p)) = "estimate" -> session w p <> Go d.
Proof.
  intros X G CK NP K E R.
  assert (NN : npoint (msr (core p)) <> "none") by now rewrite NP.
  destruct (session_norms w p d X CK R NN) as (s & q & s' & a & E1 & E3 & _ & _ & _ & _ & _ & _ & _ & _ & NQ).
  destruct NQ as (side & n & assign & q' & NQ); [exact K|unfold points; now rewrite NP|].
  assert (EQ : fftw_scheme (msc (core q)) = "estimate").
  { rewrite <- E. revert E3. unfold sized. destruct (_ || _); [|now intros Q; injection Q as <-].
    destruct (Reqb _ 0); [|now intros Q; injection Q as <-].
    destruct (set_boxsize_from_expand _ _ _ _) as [c|e] eqn:EB; cbn [uncaught andthen]; [|discriminate].
    intros Q. injection Q as <-. unfold set_boxsize_from_expand in EB. cbn [core with_core].
    now rewrite (scheme_kept _ _ _ _ _ G EB). }
  destruct (sized_checked _ _ _ _ CK E3) as (f0 & i0 & p0 & H0).
  refine (norm_params_estimate f0 (fuel w) (bld w) i0 p0 (core q) side n assign q' G _ H0 NQ).
  now rewrite <- (scheme_kept _ _ _ _ _ G H0).
Qed.

(** C101: without a density column a run needs a box size. *)
Lemma load_no_nz w p file c cols : catalogue_columns p = LoadProps.commas cols ->
  Forall LoadProps.column_name cols -> ~ In "nz" cols -> (volume (smp (core p)) <= 0)%R ->
  load w p file = Go c -> Forall (fun x => p_nz x = 0%R) (particles c).
Proof.
  intros C K N V. unfold load. destruct (negb _); [discriminate|].
  cbv zeta. unfold LoadModel.load_catalogue_file. cbn [LoadModel.fresh LoadModel.source LoadModel.body String.eqb negb].
  destruct (_ || _); [discriminate|].
  destruct (LoadModel.open_all _ _) as [texts|e]; [|destruct e; discriminate].
  rewrite C, LoadProps.pieces_commas by exact K.
  unfold LoadModel.read_texts. set (lines := concat _). cbv zeta.
  destruct (length lines =? 0)%nat eqn:NL; [discriminate|].
  destruct (sequence _) as [ps|e] eqn:S; [|destruct e; discriminate].
  assert (Z : Forall (fun x => p_nz x = 0%R) ps).
  { revert S. unfold LoadModel.default_nz. replace (Rltb 0 _) with false by (symmetry; now apply Rltb_false).
    clear NL. generalize lines. clear lines. intros ls. revert ps. induction ls as [|l ls IH]; intros ps; cbn [map sequence].
    - intros Q. injection Q as <-. constructor.
    - destruct (LoadModel.particle_of _ _ _) as [x|] eqn:EX; cbn [bind]; [|discriminate].
      destruct (sequence _) as [xs|]; cbn [bind]; [|discriminate].
      intros Q. injection Q as <-. constructor; [|now apply IH].
      revert EX. unfold LoadModel.particle_of. rewrite (LoadProps.find_index_none "nz" cols N). clear.
      intros EX. repeat (apply bind_ok_iff in EX; let y := fresh "y" in let Hy := fresh in destruct EX as (y & Hy & EX)).
      injection EX as <-. cbn [p_nz].
      match goal with H : LoadModel.or_default _ _ None = Ok ?v |- ?v = _ => cbn in H; now injection H as <- end. }
  assert (NE : ps <> []).
  { intros ->. apply Nat.eqb_neq in NL. apply sequence_length in S. rewrite map_length in S. cbn in S. congruence. }
  destruct (LoadProps.fill_catalogue catalogue_new ps NE) as (s' & E & P1 & _).
  rewrite E. cbn [fst snd LoadModel.body]. intros Q. injection Q as <-.
  unfold particles. rewrite P1. exact Z.
Qed.

Theorem no_density_column w p d cols : extcall (bld w) = false -> checked (bld w) (core p) ->
  npoint (msr (core p)) <> "none" -> (volume (smp (core p)) <= 0)%R ->
  catalogue_columns p = LoadProps.commas cols -> Forall LoadProps.column_name cols -> ~ In "nz" cols ->
  session w p <> Go d.
Proof.
  intros X CK NP V C K N R.
  destruct (session_norms w p d X CK R NP) as (s & _ & _ & _ & E & _).
  apply (zero_density w p d s X CK NP E); [|exact R].
  destruct (measured_kind p (checked_settled _ _ X CK) NP) as (IK & _).
  revert E. unfold catalogues, load_if, normaliser.
  destruct IK as [IK|[IK|[IK|[]]]]; rewrite <- IK; cbn [String.eqb Ascii.eqb Bool.eqb].
  - change (flag_data "survey") with true. change (flag_rand "survey") with true. cbv iota.
    destruct (load w p (data_file _)) as [|c] eqn:E1; cbn [andthen]; [discriminate|].
    destruct (load w p (rand_file _)) as [|c'] eqn:E2; cbn [andthen]; [discriminate|].
    intros Q. injection Q as <-. eapply load_no_nz; eauto.
  - change (flag_data "sim") with true. change (flag_rand "sim") with false. cbv iota.
    destruct (load w p (data_file _)) as [|c] eqn:E1; cbn [andthen]; [discriminate|].
    intros Q. injection Q as <-. eapply load_no_nz; eauto.
  - change (flag_data "random") with false. change (flag_rand "random") with true. cbv iota. cbn [andthen].
    destruct (load w p (rand_file _)) as [|c'] eqn:E2; cbn [andthen]; [discriminate|].
    intros Q. injection Q as <-. eapply load_no_nz; eauto.
Qed.

(* ------------------------------------------------------------------ *)
(** * C99: catalogues that cannot be loaded *)

(** C99: a path that is not set and a file that is missing end the program
    with status 1. *)
Theorem load_exits w p file :
  (~ (has_ink file /\ ~ exists dir, file = dir ++ "/") -> load w p file = Stop (Exit 1)) /\
  (forall part, LoadProps.text_path file -> In part (split_string file "::") -> disk w part = None ->
     load w p file = Stop (Exit 1)).
Proof.
  split.
  - intros N. rewrite <- filepath_is_set_iff in N. apply not_true_iff_false in N. unfold load. now rewrite N.
  - intros part T I D. unfold load. destruct (negb _); [reflexivity|]. cbv zeta.
    now rewrite (LoadProps.load_missing_file _ _ _ _ LoadModel.fresh part eq_refl T I D).
Qed.

(** C99: other faults are not reported this way. *)
Theorem load_terminates w p file contents texts :
  has_ink file -> ~ (exists dir, file = dir ++ "/") ->
  LoadProps.files (disk w) file contents -> Forall2 LoadProps.holds contents texts ->
  (LoadProps.text_path file -> Forall LoadProps.comment_or_empty (concat texts) ->
     load w p file = Stop (Uncaught InvalidParameter)) /\
  (forall cols l row name a b, LoadProps.text_path file ->
     catalogue_columns p = LoadProps.commas cols -> Forall LoadProps.column_name cols ->
     In l (concat texts) -> ~ LoadProps.comment_or_empty l -> LoadProps.line_of_numbers l row ->
     In name ["x"; "y"; "z"; "nz"; "ws"; "wc"] -> cols = (a ++ name :: b)%list -> ~ In name a ->
     length row <= length a -> load w p file = Stop Undefined) /\
  (forall cols l name, LoadProps.text_path file ->
     catalogue_columns p = LoadProps.commas cols -> Forall LoadProps.column_name cols ->
     In l (concat texts) -> ~ LoadProps.comment_or_empty l ->
     In name ["x"; "y"; "z"] -> ~ In name cols -> load w p file = Stop Undefined) /\
  ((exists name, file = name ++ ".h5" \/ file = name ++ ".hdf5") ->
     load w p file = Stop (Uncaught InvalidData)).
Proof.
  intros I D F H.
  assert (P : if_filepath_is_set file = true) by (apply filepath_is_set_iff; auto).
  unfold load. rewrite P. cbn [negb]. cbv zeta. split; [|split; [|split]].
  - intros T C. now rewrite (LoadProps.load_no_rows _ _ _ _ LoadModel.fresh contents texts eq_refl T F H C).
  - intros cols l row name a b T C K IL N LN IN E A L. rewrite C.
    now rewrite (LoadProps.load_short_line _ _ cols _ LoadModel.fresh contents texts l row name a b eq_refl T K F H IL N LN IN E A L).
  - intros cols l name T C K IL N IN A. rewrite C.
    now rewrite (LoadProps.load_needs_coordinates _ _ cols _ LoadModel.fresh contents texts l name eq_refl T K F H IL N IN A).
  - intros (name & E). unfold LoadModel.load_catalogue_file. cbn [LoadModel.fresh LoadModel.source String.eqb negb].
    replace (has_extension file ".h5" || has_extension file ".hdf5") with true; [reflexivity|].
    symmetry. apply orb_true_iff. destruct E as [E|E]; [left|right]; apply has_extension_iff; now exists name.
Qed.

(** C99 as stated fails: a catalogue file that cannot be used does not always
    end the program with a failure status of its own. *)
Theorem load_failure_refuted :
  ~ (forall w p file x, load w p file = Stop x -> x = Exit 1).
Proof.
  intros H.
  set (w := {| disk := fun _ => Some (LoadProps.ended ["# x y z"]); bld := demo_build;
               mem := {| words_of := fun _ => ""; num_of := fun _ => 0%R; int_of := fun _ => 0%Z |};
               blank := ParamEnvProps.full ParamEnvProps.saving; fuel := 0 |}).
  assert (K : load w (blank w) "a.dat" = Stop (Uncaught InvalidParameter)) by reflexivity.
  discriminate (H w _ _ _ K).
Qed.

(* ------------------------------------------------------------------ *)
(** * C100: the box and the randoms *)

(** C100: a box sized for a survey is sized by the data alone; the randoms are
    inside after centring exactly along the axes on which their extent is no
    more than the expansion factor times that of the data. *)
Theorem box_covers_randoms_iff w p s q s' ps qs i lo hi lo' hi' :
  checked (bld w) (core p) -> kind p = "survey" -> volume (smp (core p)) = 0%R ->
  alignment (smp (core p)) = "centre" -> sized w p s = Go q ->
  aligned (kind q) (smp (core q)) s = (s', Ok tt) ->
  loaded (s 0) ps -> loaded (s 1) qs -> extremes i ps lo hi -> extremes i qs lo' hi' ->
  exists qs', has (s' 1) qs' /\
    (inside_axis i (boxsize (smp (core q))) qs' <-> (hi' - lo' <= (hi - lo) * expand (smp (core p)))%R).
Proof.
  intros CK K V AL E3 E5 L0 L1 X0 X1.
  assert (KN : kind p <> "none") by now rewrite K.
  destruct (box_sized _ _ _ _ CK KN E3) as (MS & _ & _ & _ & BX).
  assert (KI : In (kind p) ["survey"; "sim"; "random"]) by (rewrite K; cbn; auto).
  specialize (BX KI V). rewrite K in BX. cbv zeta in BX. cbn [String.eqb Ascii.eqb Bool.eqb] in BX.
  assert (KQ : kind q = "survey") by (unfold kind; rewrite MS; exact K).
  assert (AQ : alignment (smp (core q)) = "centre").
  { rewrite <- AL. revert E3. unfold sized. destruct (_ || _); [|now intros Q; injection Q as <-].
    destruct (Reqb _ 0); [|now intros Q; injection Q as <-].
    destruct (set_boxsize_from_expand _ _ _ _) as [c|e] eqn:EB; cbn [uncaught andthen]; [|discriminate].
    intros Q. injection Q as <-. unfold set_boxsize_from_expand in EB. cbn [core with_core].
    destruct (validate_outcome _ _ _ _ _ EB) as ((_ & _ & _ & U & _) & _). exact U. }
  unfold aligned in E5. rewrite KQ, AQ in E5. cbn [String.eqb Ascii.eqb Bool.eqb] in E5.
  destruct (centre_inside s 0 1 (boxsize (smp (core q))) ps qs i lo' hi' (Nat.neq_0_succ 0)
              (loaded_has _ _ L0) (loaded_has _ _ L1) X1) as (s1 & psa & psb & E & _ & HB & IN & _).
  rewrite E5 in E. injection E as <-. exists psb. split; [exact HB|]. rewrite IN, BX.
  destruct L0 as ((P0 & _) & _ & XC). unfold extents_current in XC. rewrite P0 in XC.
  destruct (XC i) as (Y & Z). rewrite Z.
  destruct (extremes_unique _ _ _ _ _ _ Y X0) as (-> & ->). reflexivity.
Qed.

(* ------------------------------------------------------------------ *)
(** * C103: file names *)

(** The parameters a Python name depends on. *)
Definition as_python (p : fparams) : FileNameModel.meas :=
  let m := msr (core p) in
  FileNameModel.mk_meas (statistic_type m) (ell1 m) (ell2 m) (ELL m) (form m) (idx_bin m)
    (i_wa p) (j_wa p) (Some (output_tag (pths (core p)))).

Definition python_name (p : fparams) : res string :=
  if npoint (msr (core p)) =? "2pt" then FileNameModel.twopt_name (as_python p)
  else FileNameModel.threept_name (as_python p).

Lemma settled_form p : settled (core p) -> FileNameModel.binform (as_python p) <> None /\
  form_name (form (msr (core p))) (idx_bin (msr (core p))) = FileNameModel.binform (as_python p).
Proof.
  intros ST. pose proof (s_form _ ST) as F. unfold FileNameModel.binform, form_name, as_python.
  cbn [FileNameModel.form FileNameModel.idx_bin].
  destruct F as [F|[F|[F|[F|[]]]]]; rewrite <- F; cbn [String.eqb Ascii.eqb Bool.eqb orb]; (split; [discriminate|reflexivity]).
Qed.

Lemma append_assoc' a b c : (a ++ b) ++ c = a ++ b ++ c.
Proof. induction a; cbn; [reflexivity|now f_equal]. Qed.

Lemma append_cancel a b c : a ++ b = a ++ c -> b = c.
Proof. induction a as [|x a IH]; cbn; [auto|]. intros E. injection E as E. auto. Qed.

(** C103: the file is in the measurement directory, named as by Python without
    its suffix, unless the window is a wide-angle one; what does not fit the
    buffer is cut off. *)
Theorem names_agree p : settled (core p) -> npoint (msr (core p)) <> "none" ->
  exists name, save_path p = Some (stake 1023 (measurement_dir (pths (core p)) ++ "/" ++ name)) /\
    (python_name p = Ok name <-> statistic_type (msr (core p)) <> "3pcf-win-wa").
Proof.
  intros ST N. destruct (settled_form p ST) as (FN & FE).
  destruct (FileNameModel.binform (as_python p)) as [f|] eqn:BF; [|contradiction]. clear FN.
  pose proof (s_stat _ ST) as SS. clear ST. unfold statistics in SS. cbn [In] in SS.
  unfold save_path, base_name, python_name, FileNameModel.twopt_name, FileNameModel.threept_name. cbv zeta.
  rewrite FE, BF. unfold FileNameModel.output_tag. cbn [as_python FileNameModel.stat FileNameModel.ell1
    FileNameModel.ell2 FileNameModel.ELL FileNameModel.tag FileNameModel.wa_i FileNameModel.wa_j].
  set (tag := output_tag _). set (dir := measurement_dir _).
  destruct SS as [S|[S|[S|[S|[S|[S|[S|[S|[S|[]]]]]]]]]]; injection S as S1 S2 _; rewrite <- S1, <- S2 in *;
    try (exfalso; now apply N);
    cbn [String.eqb Ascii.eqb Bool.eqb option_map bind]; eexists; (split; [reflexivity|]);
    rewrite ?append_assoc';
    try (split; [intros _; discriminate|reflexivity]).
  split; [|intros K; now contradiction K]. intros E. exfalso. injection E as E.
  do 3 apply append_cancel in E.
  unfold FileNameModel.binform in BF. cbn [as_python FileNameModel.form FileNameModel.idx_bin] in BF.
  destruct (_ =? "full") in BF; [injection BF as <-; discriminate E|].
  destruct (_ =? "row") in BF; [injection BF as <-; discriminate E|].
  destruct (_ =? "off-diag") in BF; [injection BF as <-; discriminate E|].
  destruct (_ =? "diag") in BF; [injection BF as <-; discriminate E|discriminate].
Qed.

(* ------------------------------------------------------------------ *)
(** * C102: runs that end *)

Lemma number_recip_runs x : exists y, number (NormModel.recip x) = Go y.
Proof. unfold NormModel.recip. destruct (Reqb x 0); eexists; reflexivity. Qed.

Lemma number_mesh_runs k sch g c al : exists y, number (NormModel.norm_from_mesh k sch g c al) = Go y.
Proof.
  unfold NormModel.norm_from_mesh, NormModel.powlaw_norm, NormModel.recip.
  destruct (Reqb _ 0); [eexists; reflexivity|]. destruct (Reqb _ 0); eexists; reflexivity.
Qed.

Lemma number_part_runs k c ps al : In k [2; 3] -> pdata c = Some ps -> total k ps <> 0%R ->
  exists y, number (if (k =? 2)%nat then NormModel.powspec_norm_particles c al
                    else NormModel.bispec_norm_particles c al) = Go y.
Proof.
  intros K P T.
  assert (T2 : total 2 ps = NormModel.I2_sum ps).
  { unfold total, NormModel.I2_sum. f_equal. apply map_ext. intros y. cbn [Nat.sub]. ring. }
  assert (T3 : total 3 ps = NormModel.I3_sum ps) by reflexivity.
  destruct K as [<-|[<-|[]]]; cbn [Nat.eqb]; rewrite ?T2, ?T3 in T; clear T2 T3;
    unfold NormModel.powspec_norm_particles, NormModel.bispec_norm_particles; rewrite P; cbv zeta;
    apply Reqb_false in T; rewrite T; apply number_recip_runs.
Qed.

Lemma aligned_runs p s : settled (core p) ->
  match kind p with
  | "survey" => (exists ps, loaded (s 0) ps) /\ exists qs, loaded (s 1) qs
  | "sim" => (exists ps, loaded (s 0) ps) /\ pdata (s 1) = None
  | "random" => pdata (s 0) = None /\ exists qs, loaded (s 1) qs
  | _ => pdata (s 0) = None /\ pdata (s 1) = None
  end ->
  exists s', aligned (kind p) (smp (core p)) s = (s', Ok tt).
Proof.
  intros ST. pose proof (s_type _ ST) as T. fold (kind p) in T.
  pose proof (s_align _ ST) as AL. pose proof (s_pad _ ST) as PD. clear ST.
  unfold aligned. destruct T as [T|[T|[T|[T|[]]]]]; rewrite <- T; clear T;
    cbn [String.eqb Ascii.eqb Bool.eqb]; set (t := smp (core p)) in *; clearbody t.
  - intros ((ps & (H0 & _)) & (qs & (H1 & _))).
    destruct AL as [AL|[AL|[]]]; rewrite <- AL; cbn [String.eqb Ascii.eqb Bool.eqb].
    + destruct (centre_aligns s 0 1 (boxsize t) ps qs (Nat.neq_0_succ 0) H0 H1) as (s1 & d & E1 & _). eauto.
    + destruct PD as [PD|[PD|[]]]; rewrite <- PD; cbn [String.eqb Ascii.eqb Bool.eqb].
      * destruct (pad_in_box_aligns s 0 1 (boxsize t) (T3 (padfactor t) (padfactor t) (padfactor t)) ps qs (Nat.neq_0_succ 0) H0 H1) as (s1 & d & E1 & _). eauto.
      * destruct (pad_grids_aligns s 0 1 (boxsize t) (ngrid t) (T3 (padfactor t) (padfactor t) (padfactor t)) ps qs (Nat.neq_0_succ 0) H0 H1) as (s1 & d & E1 & _). eauto.
  - intros (_ & (qs & (H1 & _))).
    destruct (align_single_catalogue s 1 (boxsize t) (ngrid t) (T3 (padfactor t) (padfactor t) (padfactor t)) qs H1)
        as ((s1 & d & E1 & M & _) & (s2 & d2 & E2 & _) & (s3 & d3 & E3 & _)).
    destruct AL as [AL|[AL|[]]]; rewrite <- AL; cbn [String.eqb Ascii.eqb Bool.eqb].
    + unfold CatModel.andthen. rewrite E1. destruct M as ((mid & HM & _) & _).
      destruct (periodicity_run s1 1 (boxsize t) mid HM) as (s4 & E4 & _). eauto.
    + destruct PD as [PD|[PD|[]]]; rewrite <- PD; cbn [String.eqb Ascii.eqb Bool.eqb]; eauto.
  - intros ((ps & (H0 & _)) & _). destruct (periodicity_run s 0 (boxsize t) ps H0) as (s1 & E1 & _). eauto.
  - intros _. eexists. reflexivity.
Qed.

(** C102: once the catalogues are loaded, the bins made and the box sized, a run
    ends unless the random weights or the particle sum are zero, or validation of
    the normalisation box fails. *)
Theorem session_completes w p s q : extcall (bld w) = false -> checked (bld w) (core p) ->
  catalogues w p = Go s -> sized w p s = Go q ->
  (0 < volume (smp (core q)))%R ->
  ~ (binning (msr (core p)) = "custom" /\ space (msr (core p)) = "fourier") ->
  ~ (binning (msr (core p)) = "log" /\ bin_min (msr (core p)) = 0%R) ->
  npoint (msr (core p)) <> "none" ->
  (kind p = "survey" -> rsum (map p_ws (particles (s 1))) <> 0%R) ->
  total (points p) (particles (s (normaliser p))) <> 0%R ->
  (kind p = "survey" -> points p = 2 -> forall side n, exists q',
     norm_params (fuel w) (bld w) side n "cic" (core q) = Ok q') ->
  exists d r path, session w p = Go d /\ measured d = Some (r, path).
Proof.
  intros X CK E1 E3 V B1 B2 NP WS T NQ.
  pose proof (checked_settled _ _ X CK) as SP.
  pose proof (sized_checked _ _ _ _ CK E3) as CQ.
  pose proof (checked_settled _ _ X CQ) as SQ.
  destruct (measured_kind p SP NP) as (IK & IN).
  assert (KN : kind p <> "none") by (intros K; rewrite K in IK; destruct IK as [I|[I|[I|[]]]]; discriminate).
  pose proof (proj1 (box_sized _ _ _ _ CK KN E3)) as MS.
  assert (KQ : kind q = kind p) by (unfold kind; now rewrite MS).
  pose proof (catalogues_needed _ _ _ X CK E1) as CN.
  unfold session. rewrite E1. cbn [andthen].
  destruct (bins p) as [x|b] eqn:E2; cbn [andthen].
  { exfalso. destruct (proj1 (proj1 (bins_terminate_iff p SP)) (ex_intro _ _ E2)); contradiction. }
  rewrite E3. cbn [andthen].
  assert (HV : has_volume q = true).
  { unfold has_volume. cbv zeta. replace (Rltb 0 _) with true by (symmetry; now apply Rltb_spec).
    replace (0 <? _)%Z with true by (symmetry; apply Z.ltb_lt; now apply (s_grid _ SQ)). reflexivity. }
  rewrite HV. cbn [negb].
  assert (CN' : match kind q with
    | "survey" => (exists ps, loaded (s 0) ps) /\ exists qs, loaded (s 1) qs
    | "sim" => (exists ps, loaded (s 0) ps) /\ pdata (s 1) = None
    | "random" => pdata (s 0) = None /\ exists qs, loaded (s 1) qs
    | _ => pdata (s 0) = None /\ pdata (s 1) = None
    end) by now rewrite KQ.
  destruct (aligned_runs q s SQ CN') as (s' & E5). unfold run_act at 1. rewrite E5. cbn [andthen fst].
  pose proof (aligned_placed q s s' SQ CN' E5) as PL.
  assert (AL : exists a, alpha_of (kind q) s' = Some a).
  { rewrite KQ. unfold alpha_of. destruct IK as [IK|[IK|[IK|[]]]]; rewrite <- IK in CN, WS |- *; try (eexists; reflexivity).
    change (flag_data "survey" && flag_rand "survey") with true. cbv iota.
    destruct CN as (_ & (p1 & L1)). specialize (WS eq_refl). rewrite (particles_has _ _ (loaded_has _ _ L1)) in WS.
    destruct L1 as (_ & W1 & _). rewrite (proj1 (proj2 PL 1)), W1.
    replace (Reqb _ 0) with false by (symmetry; now apply Reqb_false). eexists; reflexivity. }
  destruct AL as (a & AL). rewrite AL.
  assert (HC : exists ps, pdata (s' (normaliser p)) = Some ps).
  { unfold normaliser. unfold placed in PL. rewrite KQ in PL.
    destruct IK as [IK|[IK|[IK|[]]]]; rewrite <- IK in PL |- *; cbn [String.eqb Ascii.eqb Bool.eqb].
    - destruct PL as ((ps & qs & ps' & qs' & dd & _ & _ & _ & (B & _) & _) & _). eauto.
    - destruct PL as ((ps & ps' & _ & (B & _) & _) & _). eauto.
    - destruct PL as ((ps & ps' & _ & (B & _) & _) & _). eauto. }
  destruct HC as (ps & HC).
  assert (TT : total (points p) ps <> 0%R).
  { replace ps with (particles (s' (normaliser p))) by (unfold particles; now rewrite HC).
    rewrite (alike_total _ _ _ (proj2 (proj2 PL (normaliser p)))). exact T. }
  assert (AD : (if flag_rand (kind p) then 1 else 0) = normaliser p).
  { unfold normaliser. destruct IK as [<-|[<-|[<-|[]]]]; reflexivity. }
  assert (NO : exists s2 n, norms_of w q a s' = Go (s2, n)).
  { unfold norms_of. rewrite MS, KQ, AD. set (al := if flag_rand (kind p) then a else 1%R). clearbody al.
    destruct IN as [IN|[IN|[]]]; rewrite <- IN; cbn [String.eqb Ascii.eqb Bool.eqb]; unfold points in TT, NQ; rewrite <- IN in TT, NQ.
    - destruct (number_part_runs 2 (s' (normaliser p)) ps al (or_introl eq_refl) HC TT) as (x & Ex).
      cbn [Nat.eqb] in Ex. rewrite Ex. cbn [andthen].
      destruct (number_mesh_runs 2 (assignment_of (assignment (smp (core q)))) (mesh_of (smp (core q))) (s' (normaliser p)) al) as (y & Ey).
      rewrite Ey. cbn [andthen].
      destruct (String.eqb_spec (kind p) "survey") as [K|K]; [|eexists; eexists; reflexivity].
      unfold placed in PL. rewrite KQ, K in PL.
      destruct PL as ((p0 & p1 & p0' & p1' & dd & _ & _ & H0 & H1 & _ & _ & X0 & X1) & _).
      unfold meshes_norm. destruct (NormModel.norm_box _ _ _ _) as [kk side].
      destruct (NQ K eq_refl side kk) as (q' & Eq). rewrite Eq. cbn [uncaught andthen].
      unfold run_act.
      destruct (NormProps.mixed_norm_run s' 0 1 (alignment_of (smp q')) (assignment_of (assignment (smp q')))
        (mesh_of (smp q')) (padfactor (smp q')) a p0' p1' (Nat.neq_0_succ 0) H0 H1 X0 X1) as (s2 & E4 & _).
      rewrite E4. cbn [andthen snd fst].
      match goal with |- context [number (NormModel.recip ?v)] => destruct (number_recip_runs v) as (z & Ez) end.
      rewrite Ez. cbn [andthen]. eexists; eexists; reflexivity.
    - destruct (number_part_runs 3 (s' (normaliser p)) ps al (or_intror (or_introl eq_refl)) HC TT) as (x & Ex).
      cbn [Nat.eqb] in Ex. rewrite Ex. cbn [andthen].
      destruct (number_mesh_runs 3 (assignment_of (assignment (smp (core q)))) (mesh_of (smp (core q))) (s' (normaliser p)) al) as (y & Ey).
      rewrite Ey. cbn [andthen]. eexists; eexists; reflexivity. }
  destruct NO as (s2 & n & NO). rewrite NO. cbn [andthen fst snd].
  assert (NPQ : npoint (msr (core q)) <> "none") by now rewrite MS.
  destruct (names_agree q SQ NPQ) as (name & SV & _).
  assert (ME : exists r path, measure q (lines_of_sight (s 0)) (lines_of_sight (s 1)) b (Some a)
                 (factor_of (msr (core q)) n) s2 = Go (Some (r, path))).
  { unfold measure. rewrite SV.
    pose proof (s_stat _ SQ) as SS. pose proof (s_clus _ SQ) as CL. fold (kind q) in CL.
    unfold statistics in SS. cbn [In] in SS. unfold clustering in CL. clear - SS CL NPQ.
    destruct SS as [S|[S|[S|[S|[S|[S|[S|[S|[S|[]]]]]]]]]]; injection S as S1 S2 _; rewrite <- S1 in CL |- *; rewrite <- S2 in NPQ;
      try (exfalso; now apply NPQ); cbn [statistic_of String.eqb Ascii.eqb Bool.eqb is_window];
      try (cbn [andthen]; eexists; eexists; reflexivity);
      (destruct CL as [K|[K|[]]]; [cbn; now auto 9| |]; rewrite <- K; cbn [String.eqb Ascii.eqb Bool.eqb andthen]; eexists; eexists; reflexivity). }
  destruct ME as (r & path & ME). rewrite ME. cbn [andthen]. exists {| measured := Some (r, path); vectors := vectors_path q; printed_norms := n |}, r, path. split; reflexivity.
Qed.

(** A power spectrum of one particle in a box. *)
Example session_case : exists w p d r path,
  checked (bld w) (core p) /\ session w p = Go d /\ measured d = Some (r, path) /\
  stat r = Powspec /\ in_box r = true /\ path = "out//pk0_a" /\
  exists v, factor r = Some v /\ (v * / 1000000000 = 1)%R.
Proof.
  set (p0 := demo "powspec" "diag" "false" "measure" "a.dat" (T3 1000 1000 1000)%R (T3 64 64 64)%Z 0%R).
  destruct (proj2 (validate_accepts 0 (ParamEnvProps.host []) true p0 ltac:(right; reflexivity))) as (c & H).
  { apply demo_acceptable; cbn; auto 6. lra. }
  set (w := {| disk := fun _ => Some (LoadProps.ended ["1 2 3"]); bld := ParamEnvProps.host [];
               mem := {| words_of := fun _ => ""; num_of := fun _ => 0%R; int_of := fun _ => 0%Z |};
               blank := ParamEnvProps.full ParamEnvProps.saving; fuel := 0 |}).
  set (p := ParamEnvProps.full c).
  assert (CK : checked (bld w) (core p)) by (do 3 eexists; exact H).
  assert (PA : data_file (pths c) = "cats/a.dat" /\ measurement_dir (pths c) = "out/" /\ output_tag (pths c) = "_a").
  { apply validate_paths in H; [|right; reflexivity]. revert H. clear. vm_compute. intros H. injection H as <-. repeat split. }
  destruct PA as (DF & MD & TG).
  assert (X : extcall (bld w) = false) by reflexivity.
  pose proof (checked_settled _ _ X CK) as ST.
  destruct (validate_outcome _ _ _ _ _ H) as (U & K & _).
  unfold untouched in U. destruct U as (U1 & _ & _ & _ & _ & _ & _ & U8 & U9 & _ & _ & U12 & _ & U14 & U15 & _).
  assert (KS : kind p = "sim") by exact U8.
  assert (SS : statistic_type (msr c) = "powspec") by exact U9.
  assert (NC : norm_convention (msr c) = "particle") by exact U14.
  assert (BN : binning (msr c) = "lin") by exact U15.
  assert (EL : ELL (msr c) = 0%Z) by exact U12.
  assert (VO : volume (smp c) = 1000000000%R).
  { pose proof (s_vol _ ST) as V. cbn [core p ParamEnvProps.full] in V. rewrite V, U1. unfold vol. cbn. lra. }
  assert (NS : npoint (msr c) = "2pt" /\ space (msr c) = "fourier").
  { pose proof (s_stat _ ST) as S. cbn [core p ParamEnvProps.full] in S. rewrite SS in S. unfold statistics in S. cbn [In] in S. clear - S.
    destruct S as [S|[S|[S|[S|[S|[S|[S|[S|[S|[]]]]]]]]]]; try discriminate S. injection S as <- <-. auto. }
  clear U1 U8 U9 U12 U14 U15 K.
  destruct (LoadProps.load_rows (disk w) "cats/a.dat" ["x"; "y"; "z"] (volume (smp c)) LoadModel.fresh
              [LoadProps.ended ["1 2 3"]] [["1 2 3"]] [[1; 2; 3]%R]) as (c' & ps & nz0 & E & _ & PD & MN & FP & _).
  { reflexivity. } { split; reflexivity. } { now apply LoadProps.names_ok. }
  { unfold LoadProps.files. constructor; [reflexivity|constructor]. }
  { constructor; [now apply LoadProps.ended_holds|constructor]. }
  { apply LoadProps.rows_data; [|exact LoadProps.one_two_three|constructor]. intros [Q|(r & Q)]; discriminate Q. }
  { discriminate. } { repeat constructor. } { cbn; auto. } { cbn; auto. } { cbn; auto. }
  assert (LD : load w p (data_file (pths (core p))) = Go (LoadModel.body c')).
  { unfold load. cbn [core p ParamEnvProps.full]. rewrite DF.
    change (if_filepath_is_set "cats/a.dat") with true. cbn [negb]. cbv zeta.
    change (catalogue_columns p) with (LoadProps.commas ["x"; "y"; "z"]). rewrite E. reflexivity. }
  set (s := fun a : nat => match a with 0 => LoadModel.body c' | _ => catalogue_new end).
  assert (CT : exists s, catalogues w p = Go s /\ s 0 = LoadModel.body c').
  { unfold catalogues, load_if. rewrite KS. change (flag_data "sim") with true. change (flag_rand "sim") with false.
    cbv zeta iota. rewrite LD. cbn [andthen]. eexists. split; reflexivity. }
  clear s. destruct CT as (s & CT & S0).
  assert (TO : total 2 (particles (s 0)) = (/ 1000000000)%R).
  { rewrite S0. unfold particles. rewrite PD.
    inversion FP as [|row q rows qs IP FQ]; subst. inversion FQ; subst.
    destruct IP as (_ & _ & _ & (_ & NZ) & (_ & WS) & (_ & WC) & _).
    rewrite VO in MN. destruct MN as [(_ & MN)|(MN & _)]; [|lra]. cbn [length INR] in MN.
    unfold total, rsum. cbn [map fold_right Nat.sub].
    rewrite NZ, WS, WC by (intros [Q|[Q|[Q|[]]]]; discriminate Q). lra. }
  assert (SZ : sized w p s = Go p).
  { unfold sized. rewrite KS. change (flag_data "sim") with true. cbn [orb core p ParamEnvProps.full].
    rewrite VO. replace (Reqb _ 0) with false by (symmetry; apply Reqb_false; lra). reflexivity. }
  assert (PT : points p = 2) by (unfold points; cbn [core p ParamEnvProps.full]; now rewrite (proj1 NS)).
  assert (NM : normaliser p = 0) by (unfold normaliser; now rewrite KS).
  assert (NN : npoint (msr (core p)) <> "none").
  { change (core p) with c. rewrite (proj1 NS). discriminate. }
  destruct (session_completes w p s p X CK CT SZ) as (d & r & path & R & M).
  { cbn [core p ParamEnvProps.full]. rewrite VO. lra. }
  { cbn [core p ParamEnvProps.full]. rewrite BN. intros (Q & _). discriminate Q. }
  { cbn [core p ParamEnvProps.full]. rewrite BN. intros (Q & _). discriminate Q. }
  { exact NN. }
  { rewrite KS. discriminate. }
  { rewrite PT, NM, TO. lra. }
  { rewrite KS. discriminate. }
  exists w, p, d, r, path. split; [exact CK|]. split; [exact R|]. split; [exact M|].
  pose proof (session_go _ _ _ R) as (s1 & b & q & s' & a & s2 & n & m & E1 & E2 & E3 & _ & _ & _ & _ & E8 & Ed).
  rewrite CT in E1. injection E1 as <-. rewrite SZ in E3. injection E3 as <-.
  rewrite Ed in M. cbn [measured] in M. subst m.
  destruct (measure_cases _ _ _ _ _ _ _ _ ST E8) as [(Q & _)|(r' & path' & Q & SV & IF & _ & _ & _ & CS)]; [discriminate|].
  injection Q as <- <-.
  assert (M : measured d = Some (r, path)) by (rewrite Ed; reflexivity).
  split.
  { cbn [core p ParamEnvProps.full] in IF. rewrite SS in IF. unfold functions in IF. cbn [In] in IF. clear - IF.
    destruct IF as [Q|[Q|[Q|[Q|[Q|[Q|[Q|[]]]]]]]]; try discriminate Q. now injection Q. }
  split.
  { rewrite KS in CS. clear - CS. destruct CS as [(_ & Q & _)|[(_ & Q & _)|(_ & _ & _ & _ & Q & _)]]; [discriminate|discriminate|exact Q]. }
  split.
  { revert SV. unfold save_path, base_name. cbn [core p ParamEnvProps.full]. rewrite SS, EL, MD, TG. vm_compute. intros Q. now injection Q. }
  destruct (run_factor w p d r path X CK R NN M) as (s3 & a3 & ps3 & los & C3 & SH & _ & F).
  rewrite CT in C3. injection C3 as <-. cbn [core p ParamEnvProps.full] in F. rewrite NC in F. fold p in F.
  change (ParamEnvProps.full c) with p in F. rewrite PT, NM, TO in F. unfold share in SH. rewrite KS in SH. cbn in SH. subst a3.
  destruct (factor r) as [v|]; cbn [reciprocal] in F; [|lra]. exists v. split; [reflexivity|]. lra.
Qed.

Print Assumptions arguments_decide.
Print Assumptions further_arguments_ignored.
Print Assumptions unknown_option_refuted.
Print Assumptions box_sized.
Print Assumptions sized_grid.
Print Assumptions catalogues_needed.
Print Assumptions run_request.
Print Assumptions bins_terminate_iff.
Print Assumptions padded_bins_unsized.
Print Assumptions custom_bins_count.
Print Assumptions custom_bins_reach.
Print Assumptions custom_bins_centres.
Print Assumptions custom_bins_refuted.
Print Assumptions run_factor.
Print Assumptions zero_density.
Print Assumptions survey_estimate.
Print Assumptions no_density_column.
Print Assumptions load_exits.
Print Assumptions load_terminates.
Print Assumptions load_failure_refuted.
Print Assumptions box_covers_randoms_iff.
Print Assumptions names_agree.
Print Assumptions session_completes.
Print Assumptions run_bins.
Print Assumptions run_vectors.
