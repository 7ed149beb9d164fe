(* Property C30, second half: when a validated Python parameter set can be
   validated again without change. *)
From Coq Require Import String Ascii List ZArith Reals Bool Lia Lra.
From Verif Require Import Base StrModel StrProps Dec ArrayModel ArrayProofs MeshModel
  ParamModel ParamProps ParamValProps ParamFixProps PyParamModel PyParamProofs.
Import ListNotations.
Local Open Scope string_scope.

(* ------------------------------------------------------------------ *)
(** * Decimal strings *)

Lemma lower_digit c v : digit_value c = Some v -> lower_char c = c.
Proof.
  unfold digit_value, lower_char. intros H.
  destruct ((48 <=? Z.of_nat (nat_of_ascii c))%Z && (Z.of_nat (nat_of_ascii c) <=? 57)%Z) eqn:E;
    [|discriminate].
  apply andb_true_iff in E as [E1 E2]. apply Z.leb_le in E1, E2.
  destruct (65 <=? nat_of_ascii c)%nat eqn:F; [|reflexivity].
  apply Nat.leb_le in F. lia.
Qed.

Lemma lower_digits s : all_digits s -> lower s = s.
Proof.
  induction s as [|c s IH]; cbn; [reflexivity|]. intros [D A]. rewrite (IH A). f_equal.
  destruct (digit_value c) as [v|] eqn:E; [|congruence]. exact (lower_digit _ _ E).
Qed.

Lemma lower_to_string z : lower (to_string z) = to_string z.
Proof.
  unfold to_string. destruct (Z.ltb_spec z 0).
  - cbn [append lower]. rewrite lower_digits by (apply dec_digits; lia). reflexivity.
  - apply lower_digits, dec_digits. lia.
Qed.

Lemma int_of_to_string z : int_of_str (to_string z) = Some z.
Proof.
  unfold to_string. destruct (Z.ltb_spec z 0).
  - cbn [append int_of_str]. change (Ascii.eqb "-" "-") with true. cbv iota.
    rewrite dec_value by lia. f_equal. lia.
  - assert (D := dec_digits z ltac:(lia)). assert (V := dec_value z ltac:(lia)).
    assert (N := dec_nonempty z). destruct (dec z) as [|c s]; [congruence|].
    cbn [int_of_str]. destruct D as [D _].
    destruct (Ascii.eqb_spec c "-") as [->|_]; [now rewrite minus_not_digit in D|].
    destruct (Ascii.eqb_spec c "+") as [->|_]; [now compute in D|]. exact V.
Qed.

(* ------------------------------------------------------------------ *)
(** * Validation without a cutoff *)

Definition plan_of (scheme : string) : planner :=
  if scheme =? "estimate" then PlanEstimate
  else if scheme =? "measure" then PlanMeasure else PlanPatient.

Lemma fftw_val b init n m m' :
  val_fftw b init n m = Ok m' ->
  fftw_scheme m' = (if gpu b then "" else fftw_scheme m) /\
  planner_flag m' = (if gpu b then planner_flag m else plan_of (fftw_scheme m)) /\
  use_fftw_wisdom m' = expand_envar (environ b)
    (if gpu b then "" else if use_fftw_wisdom m =? "false" then ""
     else if init then use_fftw_wisdom m ++ "/" else use_fftw_wisdom m) /\
  (use_fftw_wisdom m' = "" ->
     wisdom_file_f m' = wisdom_file_f m /\ wisdom_file_b m' = wisdom_file_b m) /\
  save_binned_vectors m' = save_binned_vectors m.
Proof.
  unfold val_fftw, plan_of. intros H. apply bind_ok_iff in H as (x & X & H).
  cbv zeta in H.
  set (w := expand_envar (environ b)
    (if gpu b then "" else if use_fftw_wisdom m =? "false" then ""
     else if init then use_fftw_wisdom m ++ "/" else use_fftw_wisdom m)) in *.
  assert (E : fst x = (if gpu b then "" else fftw_scheme m) /\
              snd x = (if gpu b then planner_flag m else plan_of (fftw_scheme m))).
  { unfold plan_of. destruct (gpu b); cbn [negb] in X; [injection X as <-; now split|].
    destruct (fftw_scheme m =? "estimate"); [injection X as <-; now split|].
    destruct (fftw_scheme m =? "measure"); [injection X as <-; now split|].
    destruct (fftw_scheme m =? "patient"); [injection X as <-; now split|discriminate]. }
  destruct E as [E1 E2]. unfold plan_of in E2.
  destruct (negb (w =? "")) eqn:W.
  - destruct (negb (fst x =? "measure") && negb (fst x =? "patient")); [discriminate|].
    injection H as <-.
    cbn [fftw_scheme planner_flag use_fftw_wisdom wisdom_file_f wisdom_file_b save_binned_vectors].
    split; [exact E1|]. split; [exact E2|]. split; [reflexivity|].
    split; [intros Z; rewrite Z in W; discriminate|reflexivity].
  - injection H as <-.
    cbn [fftw_scheme planner_flag use_fftw_wisdom wisdom_file_f wisdom_file_b save_binned_vectors].
    split; [exact E1|]. split; [exact E2|]. split; [reflexivity|]. now split.
Qed.

(** Entries of the C++ set after validation. *)
Definition direct (p : params) : Prop :=
  vol (boxsize (smp p)) <= 0 \/ (0 < cells (ngrid (smp p)))%Z.

Lemma expand_empty env : expand_envar env "" = "".
Proof. apply expand_plain. exact I. Qed.

Lemma validate_misc fuel b p q :
  validate fuel b true p = Ok q -> direct p ->
  fftw_scheme (msc q) = (if gpu b then "" else fftw_scheme (msc p)) /\
  planner_flag (msc q) = (if gpu b then planner_flag (msc p) else plan_of (fftw_scheme (msc p))) /\
  use_fftw_wisdom (msc q) = expand_envar (environ b)
    (if gpu b then "" else if use_fftw_wisdom (msc p) =? "false" then ""
     else use_fftw_wisdom (msc p) ++ "/") /\
  (use_fftw_wisdom (msc q) = "" ->
     wisdom_file_f (msc q) = wisdom_file_f (msc p) /\
     wisdom_file_b (msc q) = wisdom_file_b (msc p)) /\
  val_files b true (catalogue_type (msr p)) (val_dirs b true (pths p)) = Ok (pths q) /\
  save_binned_vectors (msc q) =
    (let v := save_binned_vectors (val_bvec b true (measurement_dir (pths q)) (output_tag (pths q))
                (msc p)) in
     if ((statistic_type (msr p) =? "modes") || (statistic_type (msr p) =? "pairs"))
        && (v =? "") then default_bvec (measurement_dir (pths q)) (output_tag (pths q)) else v).
Proof.
  intros H D. apply validate_cases in H as (h & H & [(_ & _ & _ & T)|(V & C & _)]);
    [|destruct D; lra || lia].
  assert (HV := head_vals _ _ _ _ H). destruct HV as (U & _).
  apply head_parts in H as (F & _ & _ & (c & FF & M)).
  apply tail_val in T as (_ & _ & P & _ & _ & T).
  apply fftw_val in FF as (F1 & F2 & F3 & F4 & F5).
  assert (S : statistic_type (msr h) = statistic_type (msr p)) by apply U.
  rewrite P, F. rewrite S in T.
  assert (W : fftw_scheme (msc q) = fftw_scheme (msc h) /\
              planner_flag (msc q) = planner_flag (msc h) /\
              use_fftw_wisdom (msc q) = use_fftw_wisdom (msc h) /\
              wisdom_file_f (msc q) = wisdom_file_f (msc h) /\
              wisdom_file_b (msc q) = wisdom_file_b (msc h)).
  { rewrite T. destruct (_ && _); repeat split. }
  destruct W as (W1 & W2 & W3 & W4 & W5).
  rewrite M in W1, W2, W3, W4, W5.
  cbn [val_bvec fftw_scheme planner_flag use_fftw_wisdom wisdom_file_f wisdom_file_b] in *.
  rewrite W1, W2, W3, W4, W5. split; [exact F1|]. split; [exact F2|]. split; [exact F3|].
  split; [exact F4|]. split; [reflexivity|]. cbv zeta.
  assert (B : save_binned_vectors (msc h) = save_binned_vectors
    (val_bvec b true (measurement_dir (pths h)) (output_tag (pths h)) (msc p))).
  { rewrite M. cbn [val_bvec save_binned_vectors]. now rewrite F5. }
  set (v := save_binned_vectors
    (val_bvec b true (measurement_dir (pths h)) (output_tag (pths h)) (msc p))) in *.
  rewrite T, B.
  destruct (((statistic_type (msr p) =? "modes") || (statistic_type (msr p) =? "pairs"))
            && (v =? "")); [reflexivity|exact B].
Qed.

(* ------------------------------------------------------------------ *)
(** * Reading again *)

Lemma lower_again d k o s : r_lower d k o = Ok s -> r_lower d k s = Ok s.
Proof. unfold r_lower. now destruct (dget k d) as [[]|]. Qed.
Lemma float_again d k o x : r_float d k o = Ok x -> r_float d k x = Ok x.
Proof. unfold r_float. now destruct (dget k d) as [[]|]. Qed.
Lemma int_again d k o x : r_int d k o = Ok x -> r_int d k x = Ok x.
Proof. unfold r_int. now destruct (dget k d) as [[]|]. Qed.
Lemma nested_again d k i o x : r_nested d k i o = Ok x -> r_nested d k i x = Ok x.
Proof.
  unfold r_nested. destruct (dget k d) as [[]|]; try discriminate.
  now destruct (dget i d0) as [[]|].
Qed.
Lemma triple_again {A} (f : pyval -> res A) d k o t :
  r_triple f d k o = Ok t -> r_triple f d k t = Ok t.
Proof.
  unfold r_triple. destruct (dget k d) as [[]|]; try discriminate.
  now destruct (existsb is_none (map snd d0)).
Qed.
Lemma form_again d o s : r_form d o = Ok s -> r_form d s = Ok s.
Proof.
  unfold r_form. intros H. apply bind_ok_iff in H as (x & X & H).
  assert (E : s = x).
  { destruct (dget "form" d) as [[]|]; try congruence.
    destruct ((s0 =? "off-diag") || (s0 =? "row")); [|congruence].
    destruct (dget "idx_bin" d) as [[]|]; congruence. }
  subst x. apply lower_again in X. rewrite X. exact H.
Qed.

(** The C++ set re-read from the entries of a validated set. *)
Definition reread (p q : params) (scheme : string) : params :=
  {| pths := {| catalogue_dir := catalogue_dir (pths p);
                measurement_dir := measurement_dir (pths p);
                data_file := data_file (pths p); rand_file := rand_file (pths p);
                data_files := data_files (pths q); rand_files := rand_files (pths q);
                output_tag := output_tag (pths p) |};
     smp := {| boxsize := boxsize (smp p); ngrid := ngrid (smp p); expand := expand (smp p);
               cutoff_nyq := cutoff_nyq (smp p); alignment := alignment (smp p);
               padscale := padscale (smp p); padfactor := padfactor (smp p);
               assignment := assignment (smp p); interlace := interlace (smp q);
               volume := volume (smp p); nmesh := nmesh (smp p);
               assignment_order := assignment_order (smp q) |};
     msr := {| catalogue_type := catalogue_type (msr p); statistic_type := statistic_type (msr p);
               npoint := npoint (msr q); space := space (msr q);
               ell1 := ell1 (msr p); ell2 := ell2 (msr p); ELL := ELL (msr p);
               form := form (msr p); norm_convention := norm_convention (msr p);
               shape := shape (msr q); binning := binning (msr p);
               bin_min := bin_min (msr p); bin_max := bin_max (msr p);
               num_bins := num_bins (msr p); idx_bin := idx_bin (msr p) |};
     msc := {| fftw_scheme := scheme; planner_flag := planner_flag (msc q);
               use_fftw_wisdom := "false"; wisdom_file_f := wisdom_file_f (msc q);
               wisdom_file_b := wisdom_file_b (msc q);
               save_binned_vectors := save_binned_vectors (msc q) |} |}.

Ltac projs := cbn [reread pths smp msr msc catalogue_dir measurement_dir data_file rand_file
  data_files rand_files output_tag boxsize ngrid expand cutoff_nyq alignment padscale padfactor
  assignment interlace volume nmesh assignment_order catalogue_type statistic_type npoint space
  ell1 ell2 ELL form norm_convention shape binning bin_min bin_max num_bins idx_bin fftw_scheme
  planner_flag use_fftw_wisdom wisdom_file_f wisdom_file_b save_binned_vectors].

Lemma kind_known m np sp :
  In (statistic_type m) (map fst statistics) -> stat_kind m np sp ->
  In (statistic_type m, (np, sp)) statistics.
Proof. intros I [H|[H _]]; [exact H|contradiction]. Qed.

Lemma kind_values st np sp :
  In (st, (np, sp)) statistics ->
  (np = "2pt" \/ np = "3pt" \/ np = "none") /\ (sp = "fourier" \/ sp = "config").
Proof.
  cbn. intros H.
  repeat (destruct H as [H|H]; [injection H as <- <- <-; split; tauto|]). contradiction.
Qed.

Lemma settled_values p q :
  interlacing_settled p q -> interlace (smp q) = "true" \/ interlace (smp q) = "false".
Proof.
  unfold interlacing_settled. intros ->. destruct (npoint (msr q) =? "3pt"); [tauto|].
  destruct ((interlace (smp p) =? "true") || (interlace (smp p) =? "on")); tauto.
Qed.

Lemma measuring_eq (a b : measuring) :
  catalogue_type a = catalogue_type b ->
  statistic_type a = statistic_type b ->
  npoint a = npoint b ->
  space a = space b ->
  ell1 a = ell1 b ->
  ell2 a = ell2 b ->
  ELL a = ELL b ->
  form a = form b ->
  norm_convention a = norm_convention b ->
  shape a = shape b ->
  binning a = binning b ->
  bin_min a = bin_min b ->
  bin_max a = bin_max b ->
  num_bins a = num_bins b ->
  idx_bin a = idx_bin b ->
  a = b.
Proof.
  destruct a, b. cbn. intros. subst. reflexivity.
Qed.

Lemma sampling_eq (a b : sampling) :
  boxsize a = boxsize b ->
  ngrid a = ngrid b ->
  expand a = expand b ->
  cutoff_nyq a = cutoff_nyq b ->
  alignment a = alignment b ->
  padscale a = padscale b ->
  padfactor a = padfactor b ->
  assignment a = assignment b ->
  interlace a = interlace b ->
  volume a = volume b ->
  nmesh a = nmesh b ->
  assignment_order a = assignment_order b ->
  a = b.
Proof.
  destruct a, b. cbn. intros. subst. reflexivity.
Qed.

(** Validating the re-read set gives the set that was read. *)
Lemma validate_reread fuel b p q s :
  validate fuel b true p = Ok q -> direct p ->
  In (statistic_type (msr p)) (map fst statistics) ->
  (gpu b = false -> s = fftw_scheme (msc p)) ->
  use_fftw_wisdom (msc q) = "" ->
  exists q', validate fuel b true (reread p q s) = Ok q' /\
    pths q' = pths q /\ smp q' = smp q /\ msr q' = msr q /\
    fftw_scheme (msc q') = fftw_scheme (msc q) /\
    planner_flag (msc q') = planner_flag (msc q) /\
    use_fftw_wisdom (msc q') = use_fftw_wisdom (msc q) /\
    wisdom_file_f (msc q') = wisdom_file_f (msc q) /\
    wisdom_file_b (msc q') = wisdom_file_b (msc q) /\
    (save_binned_vectors (msc q) = "" -> msc q' = msc q).
Proof.
  intros H D K SC W.
  assert (A : acceptable b true p (ngrid (smp p))).
  { apply (validate_accepts fuel b true p D). now exists q. }
  assert (O := validate_outcome _ _ _ _ _ H). destruct O as (U & C & I).
  assert (N := proj1 (validate_grid _ _ _ _ _ H) D).
  assert (Ms := validate_misc _ _ _ _ H D).
  assert (IV := settled_values _ _ I).
  destruct C as (C1 & C2 & C3 & C4 & C5 & C6).
  assert (KK : forall np sp, stat_kind (msr (reread p q s)) np sp <-> stat_kind (msr p) np sp).
  { intros np sp. unfold stat_kind. projs. split; (intros [X|[X _]]; [now left|contradiction]). }
  assert (A2 : acceptable b true (reread p q s) (ngrid (smp (reread p q s)))).
  { destruct A as [(S1 & S2 & S3 & S4 & S5 & S6 & S7 & S8 & S9 & S10 & S11 & S12 & S13) NM].
    split.
    - unfold strings_ok. cbv zeta. projs.
      split; [exact S1|]. split; [exact S2|]. split; [exact S3|]. split; [exact S4|].
      split; [exact S5|]. split; [exact S6|]. split; [destruct IV as [-> | ->]; cbn; tauto|].
      split; [exact S8|]. split; [exact S9|].
      split; [intros X np sp Y; apply (S10 X np sp); now apply KK|]. split; [exact S11|].
      split; [intros X; rewrite (SC X); now apply S12|]. intros _. right. now left.
    - destruct NM as (N1 & N2 & N3 & N4 & N5 & N6 & N7 & N8). unfold numbers_ok. cbv zeta. projs.
      split; [exact N1|]. split; [exact N2|]. split; [exact N3|]. split; [exact N4|].
      split; [exact N5|]. split; [exact N6|]. split; [exact N7|].
      intros X Y. apply (N8 X). intros np sp Z. apply (Y np sp). now apply KK. }
  assert (D2 : direct (reread p q s)) by exact D.
  apply (validate_accepts fuel b true (reread p q s) D2) in A2 as (q' & H').
  exists q'. split; [exact H'|].
  assert (O' := validate_outcome _ _ _ _ _ H'). destruct O' as (U' & C' & I').
  assert (N' := proj1 (validate_grid _ _ _ _ _ H') D2).
  assert (Ms' := validate_misc _ _ _ _ H' D2).
  destruct C' as (C1' & C2' & C3' & C4' & C5' & C6').
  destruct U as (u1&u2&u3&u4&u5&u6&u7&u8&u9&u10&u11&u12&u13&u14&u15&u16&u17&u18&u19&u20).
  destruct U' as (v1&v2&v3&v4&v5&v6&v7&v8&v9&v10&v11&v12&v13&v14&v15&v16&v17&v18&v19&v20).
  revert v1 v2 v3 v4 v5 v6 v7 v8 v9 v10 v11 v12 v13 v14 v15 v16 v17 v18 v19 v20. projs. intros.
  destruct Ms as (m1 & m2 & m3 & m4 & m5 & m6), Ms' as (n1 & n2 & n3 & n4 & n5 & n6).
  assert (NS : npoint (msr q') = npoint (msr q) /\ space (msr q') = space (msr q)).
  { apply KK in C4'. exact (stat_kind_det _ _ _ _ _ C4' C4). }
  destruct NS as [NS1 NS2].
  assert (PE : pths q' = pths q).
  { assert (X : val_files b true (catalogue_type (msr p)) (val_dirs b true (pths p)) = Ok (pths q')).
    { rewrite <- n5. projs. unfold val_files, val_dirs.
      cbn [catalogue_dir measurement_dir data_file rand_file output_tag pths reread]. reflexivity. }
    congruence. }
  split; [exact PE|].
  assert (AO : assignment_order (smp q') = assignment_order (smp q)).
  { rewrite u7 in C1. rewrite v7 in C1'. revert C1 C1'. generalize (assignment (smp p)).
    clear. cbn. intros a X Y. intuition congruence. }
  split; [|split; [|split; [|split; [|split; [|split; [|split]]]]]].
  - revert N' C2' C3' I'. unfold interlacing_settled in *. projs. intros N' C2' C3' I'.
    rewrite NS1 in I'.
    assert (IE : interlace (smp q') = interlace (smp q)).
    { rewrite I'. revert I. destruct (npoint (msr q) =? "3pt"); [auto|].
      destruct ((interlace (smp p) =? "true") || (interlace (smp p) =? "on")); intros ->; reflexivity. }
    assert (BE : boxsize (smp q') = boxsize (smp q)) by (now rewrite v1, u1).
    assert (NE : ngrid (smp q') = ngrid (smp q)) by (now rewrite N').
    apply sampling_eq; try assumption;
      [eapply eq_trans; [eassumption|symmetry; assumption]..
      |now rewrite C2', C2, BE|now rewrite C3', C3, NE].
  - assert (SE : shape (msr q') = shape (msr q)).
    { destruct (String.eqb_spec (form (msr p)) "full") as [F|F].
      - destruct (Z.eq_dec (ell1 (msr p)) (ell2 (msr p))) as [E|E].
        + rewrite C5, C5' by congruence. reflexivity.
        + rewrite C6, C6' by (intros [_ ?]; apply E; congruence). congruence.
      - rewrite C6, C6' by (intros [? _]; apply F; congruence). congruence. }
    apply measuring_eq; try assumption; eapply eq_trans; try eassumption; symmetry; assumption.
  - revert n1. projs. intros ->. rewrite m1. destruct (gpu b); [reflexivity|now rewrite SC].
  - revert n2. projs. intros ->. rewrite m2. destruct (gpu b); [reflexivity|now rewrite SC].
  - revert n3. projs. intros ->. rewrite W. destruct (gpu b); cbn [String.eqb]; apply expand_empty.
  - apply n4. revert n3. projs. intros ->. destruct (gpu b); apply expand_empty.
  - apply n4. revert n3. projs. intros ->. destruct (gpu b); apply expand_empty.
  - intros B. assert (B' : save_binned_vectors (msc q') = "").
    { assert (ST : ((statistic_type (msr p) =? "modes") || (statistic_type (msr p) =? "pairs")) = false).
      { rewrite B in m6. cbv zeta in m6.
        set (v := save_binned_vectors (val_bvec b true (measurement_dir (pths q))
                    (output_tag (pths q)) (msc p))) in *.
        destruct ((statistic_type (msr p) =? "modes") || (statistic_type (msr p) =? "pairs"));
          [|reflexivity]. exfalso.
        cbn [andb] in m6. destruct (String.eqb_spec v "") as [E|E].
        - now apply (default_bvec_not_empty (measurement_dir (pths q)) (output_tag (pths q))).
        - congruence. }
      rewrite n6. cbv zeta. projs. rewrite ST. cbn [andb]. cbn [val_bvec save_binned_vectors reread msc].
      rewrite B. cbn [String.eqb negb]. apply expand_empty. }
    assert (WF : wisdom_file_f (msc q') = wisdom_file_f (msc q) /\
                 wisdom_file_b (msc q') = wisdom_file_b (msc q)).
    { apply n4. revert n3. projs. intros ->. destruct (gpu b); apply expand_empty. }
    assert (SE : fftw_scheme (msc q') = fftw_scheme (msc q) /\
                 planner_flag (msc q') = planner_flag (msc q) /\
                 use_fftw_wisdom (msc q') = use_fftw_wisdom (msc q)).
    { revert n1 n2 n3. projs. intros -> -> ->. rewrite W, m1, m2.
      destruct (gpu b); [|rewrite SC by reflexivity]; cbn [String.eqb];
        repeat split; apply expand_empty. }
    destruct WF as [WF1 WF2], SE as (SE1 & SE2 & SE3).
    destruct (msc q) as [a1 a2 a3 a4 a5 a6], (msc q') as [b1 b2 b3 b4 b5 b6].
    cbn [fftw_scheme planner_flag use_fftw_wisdom wisdom_file_f wisdom_file_b save_binned_vectors] in *.
    congruence.
Qed.

(** Text ending with a slash still does after expansion. *)
Definition slash_end (s : string) : Prop := exists t, s = t ++ "/".

Lemma slash_end_app a s : s <> "" -> slash_end (a ++ s) <-> slash_end s.
Proof.
  intros N. split.
  - induction a as [|c a IH]; [auto|]. intros ([|x t] & E).
    + injection E as _ E. destruct a; [now cbn in E; subst|discriminate].
    + injection E as _ E. apply IH. now exists t.
  - intros [t ->]. exists (a ++ t). now rewrite sapp_assoc.
Qed.

Lemma expands_slash env s t : expands env s t -> slash_end s -> slash_end t.
Proof.
  assert (R : forall s p n r, first_ref s p n r -> slash_end s -> slash_end r).
  { intros x p n r [(y & -> & (-> & _)) _] E.
    rewrite slash_end_app in E by discriminate.
    destruct r as [|c r].
    - exfalso. change ("${" ++ n ++ "}" ++ "") with ("${" ++ (n ++ "}")) in E.
      rewrite slash_end_app in E by (destruct n; discriminate).
      rewrite slash_end_app in E by discriminate. destruct E as ([|a [|? ?]] & E); discriminate.
    - change ("${" ++ n ++ "}" ++ String c r) with ("${" ++ (n ++ ("}" ++ String c r))) in E.
      rewrite slash_end_app in E by (destruct n; discriminate).
      rewrite slash_end_app in E by discriminate.
      rewrite slash_end_app in E by discriminate. exact E. }
  induction 1; intros E; [exact E| |].
  - assert (G := IHexpands (R _ _ _ _ H E)). rewrite <- sapp_assoc.
    apply slash_end_app; [|exact G]. destruct G as [[|? ?] ->]; discriminate.
  - assert (G := IHexpands (R _ _ _ _ H E)). rewrite <- sapp_assoc.
    apply slash_end_app; [|exact G]. destruct G as [[|? ?] ->]; discriminate.
Qed.

Lemma lower_app a b : lower (a ++ b) = lower a ++ lower b.
Proof. induction a as [|c a IH]; cbn; [reflexivity|now rewrite IH]. Qed.

Lemma derived_again d k l o s :
  dget k d = Some (VStr s) -> lower s = s -> o = s -> r_derived d k l o = Ok s.
Proof. intros H L ->. unfold r_derived. rewrite H, L. now destruct (existsb (String.eqb s) l). Qed.

(** The grid numbers are complete and make up a mesh. *)
Definition full_grid (d : dict) : Prop :=
  exists i j k, (0 < i * j * k)%Z /\
    dget "ngrid" d = Some (VDict [("x", VInt i); ("y", VInt j); ("z", VInt k)]) /\
    dget "nmesh" d = Some (VInt (i * j * k)).

(** Validating a validated set again leaves every entry as it is, and the
    C++ set too, when the grid numbers are complete, the statistic is one of
    the nine known ones and wisdom is off. *)
Theorem parse_again fuel e c b d d' q pb :
  parse fuel e c b d = (d', Ok (q, pb)) ->
  full_grid d' -> In (statistic_type (msr q)) (map fst statistics) ->
  dget "use_fftw_wisdom" d' = Some (VBool false) ->
  exists q' pb', parse fuel e q pb d' = (d', Ok (q', pb')) /\
    (save_binned_vectors (msc q) = "" -> q' = q).
Proof.
  intros H (gi & gj & gk & GP & GE & GM) ST WO.
  apply parse_ok in H as (d1 & p & P & V & F).
  assert (FA := writes_fetch q pb d1). rewrite F in FA. cbn [fst] in FA.
  assert (SH := fetch_ok _ _ _ _ F).
  apply pre_inv in P as (R & (nv & NV1 & NV2) & RG).
  assert (NM : nmesh (smp p) = (gi * gj * gk)%Z).
  { rewrite <- FA in NV1 by notin. rewrite GM in NV1. injection NV1 as <-. now injection NV2. }
  assert (NZ : nmesh (smp p) <> 0%Z) by (rewrite NM; lia).
  specialize (RG NZ). destruct RG as (G1 & G2 & G3).
  assert (NG : ngrid (smp p) = T3 gi gj gk).
  { unfold r_triple in G1. rewrite <- FA in G1 by notin. rewrite GE in G1. now injection G1. }
  assert (D : direct p) by (right; rewrite NG; exact GP).
  assert (O := validate_outcome _ _ _ _ _ V). destruct O as (U & C & I).
  assert (Ms := validate_misc _ _ _ _ V D). destruct Ms as (m1 & _ & m3 & _).
  destruct U as (u1&u2&u3&u4&u5&u6&u7&u8&u9&u10&u11&u12&u13&u14&u15&u16&u17&u18&u19&u20).
  assert (ST' : In (statistic_type (msr p)) (map fst statistics)) by congruence.
  assert (W : use_fftw_wisdom (msc q) = "").
  { destruct SH. rewrite sh_wisdom in WO. injection WO as WO.
    destruct ((lower (use_fftw_wisdom (msc q)) =? "false") || (lower (use_fftw_wisdom (msc q)) =? ""))
      eqn:E; [|discriminate]. revert E. rewrite m3.
    destruct (gpu (lib e)); [intros _; apply expand_empty|].
    destruct (use_fftw_wisdom (msc p) =? "false"); [intros _; apply expand_empty|].
    assert (X := proj1 (expand_spec (environ (lib e)) (use_fftw_wisdom (msc p) ++ "/") _) eq_refl).
    apply expands_slash in X; [|now eexists]. destruct X as [t ->].
    rewrite lower_app. intros E. exfalso. apply orb_true_iff in E as [E|E]; apply String.eqb_eq in E.
    - apply (f_equal (fun s => slash_end s)) in E.
      assert (Y : slash_end "false") by (rewrite <- E; now eexists).
      destruct Y as ([|? [|? [|? [|? [|? [|? ?]]]]]] & Y); discriminate.
    - now destruct (lower t). }
  set (s := match r_scheme d' (fftw_scheme (msc q)) with Ok s => s | Err _ => "" end).
  assert (RS : r_scheme d' (fftw_scheme (msc q)) = Ok s).
  { subst s. destruct R. rewrite (scheme_ext d1) by (apply FA; notin).
    revert rd_scheme. unfold r_scheme. destruct (dget "fftw_scheme" d1) as [[]|]; try discriminate; auto. }
  assert (SC : gpu (lib e) = false -> s = fftw_scheme (msc p)).
  { intros G. rewrite G in m1. destruct R. revert RS. rewrite m1.
    rewrite (scheme_ext d1) by (apply FA; notin). revert rd_scheme. unfold r_scheme.
    destruct (dget "fftw_scheme" d1) as [[]|]; try discriminate; congruence. }
  destruct (validate_reread _ _ _ _ _ V D ST' SC W) as (q' & V' & E1 & E2 & E3 & E4 & E5 & E6 & E7 & E8 & E9).
  assert (IV := settled_values _ _ I).
  assert (KV := kind_values _ _ _ (kind_known _ _ _ ST' (proj1 (proj2 (proj2 (proj2 C)))))).
  destruct KV as [KV1 KV2].
  set (pb' := match dget "progbar" d' with
              | Some v => lower (py_str e v) | None => pb end).
  exists q', pb'. split; [|intros B].
  2:{ destruct q as [qa qb qc qd], q' as [ra rb rc re]. cbn [pths smp msr msc] in *. rewrite E9 by exact B. congruence. }
  apply parse_ok. exists d', (reread p q s). split; [|split; [exact V'|]].
  - apply pre_run; [|split; [|split]|exact NZ].
    + destruct R, SH. constructor; projs;
        try (eapply path_ext; [apply FA; notin|assumption]);
        try (rewrite (lower_ext d1) by (apply FA; notin);
             rewrite ?u4, ?u5, ?u7, ?u8, ?u9, ?u14, ?u15; eapply lower_again; eassumption);
        try (rewrite (float_ext d1) by (apply FA; notin); rewrite ?u2, ?u6;
             eapply float_again; eassumption);
        try (rewrite (nested_ext d1) by (apply FA; notin); rewrite ?u10, ?u11, ?u12;
             eapply nested_again; eassumption);
        try (rewrite (nested_ext d1) by (apply FA; notin); assumption);
        try (rewrite (int_ext d1) by (apply FA; notin); rewrite ?u19;
             eapply int_again; eassumption);
        try (rewrite (int_ext d1) by (apply FA; notin); assumption).
      * rewrite (triple_ext _ d1) by (apply FA; notin). rewrite u1. eapply triple_again. eassumption.
      * destruct sh_interlace as (v & IE & LE). unfold r_str. rewrite IE.
        destruct v; cbn [py_str]; destruct IV as [J|J]; rewrite J in *; now cbn in *.
      * destruct rd_volume as (v & X1 & X2 & X3). exists v.
        rewrite FA by notin. rewrite (values_ext d1) by (apply FA; notin). auto.
      * rewrite (range_ext d1) by (apply FA; notin). assumption.
      * rewrite (num_bins_ext d1) by (apply FA; notin). assumption.
      * rewrite (form_ext d1) by (apply FA; notin). rewrite u13. eapply form_again. eassumption.
      * apply derived_again; [exact sh_space|destruct KV2 as [-> | ->]; reflexivity|reflexivity].
      * apply derived_again; [exact sh_npoint| |reflexivity].
        destruct KV1 as [-> | [-> | ->]]; reflexivity.
      * unfold r_order. rewrite sh_order.
        now destruct ((1 <=? assignment_order (smp q))%Z && (assignment_order (smp q) <=? 4)%Z).
      * exact RS.
      * unfold r_str. now rewrite WO.
      * unfold r_str, pb'. destruct sh_bar as [(z & _ & B)|(_ & v & B & _)]; now rewrite B.
      * now split.
      * reflexivity.
      * now repeat split.
    + projs. unfold r_triple. rewrite GE. cbn. now rewrite NG.
    + projs. congruence.
    + projs. destruct G3 as (v & X1 & X2 & X3). exists v.
      rewrite FA by notin. rewrite (values_ext d1) by (apply FA; notin). auto.
  - apply fetch_run. destruct SH. constructor; rewrite ?E2, ?E3, ?E5, ?E6, ?E7, ?E8; auto.
    destruct sh_bar as [(z & _ & B)|(Z & v & B & PB)].
    + left. exists z. unfold pb'. rewrite B. cbn [py_str]. rewrite lower_to_string.
      split; [apply int_of_to_string|reflexivity].
    + right. unfold pb'. rewrite B. rewrite PB in Z.
      split; [destruct v; exact Z|]. exists v. split; [reflexivity|]. now destruct v.
Qed.
