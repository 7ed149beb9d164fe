(* C29: validating twice, catalogue files, and where validation goes wrong. *)
From Coq Require Import String Ascii List ZArith Reals Bool Lra Lia.
From Flocq Require Import Core.
From Verif Require Import Base StrModel StrProps Dec ArrayModel ArrayProofs
  MeshModel ParamModel ParamProps ParamValProps.
Import ListNotations.
Local Open Scope string_scope.
Local Open Scope R_scope.

(* ------------------------------------------------------------------ *)
(** * Characters *)

Ltac frees := cbv; repeat split; intros ?; discriminate.

Lemma free_app c a b : free_of c (a ++ b) <-> free_of c a /\ free_of c b.
Proof. induction a as [|x a IH]; simpl; [tauto|]. rewrite IH. tauto. Qed.

Lemma free_stake c n s : free_of c s -> free_of c (stake n s).
Proof.
  revert s; induction n as [|n IH]; intros [|x s]; simpl; auto.
  intros (A & B). auto.
Qed.

Definition colon : ascii := ":"%char.

Lemma clean_cons c s : c <> colon -> clean "::" s -> clean "::" (String c s).
Proof.
  intros N (_ & L). split; [reflexivity|]. intros a' b' E.
  destruct a' as [|x a'].
  - simpl in E. injection E as E _. exfalso. exact (N E).
  - simpl in E. injection E as _ E. simpl. apply le_n_S. apply (L a' b' E).
Qed.

Lemma clean_prefix d s : free_of colon d -> clean "::" s -> clean "::" (d ++ s).
Proof.
  induction d as [|c d IH]; simpl; [auto|]. intros (N & F) C.
  apply clean_cons; auto.
Qed.

Lemma first_at_clean d s a b : first_at d s a b -> clean d a.
Proof.
  intros (E & L). split; [now rewrite sapp_nil_r|]. intros a' b' E'.
  apply (L a' (b' ++ b)). rewrite E.
  rewrite <- !sapp_assoc in *. rewrite E'. reflexivity.
Qed.

Lemma segments_clean d s ps rest : segments d s ps rest -> Forall (clean d) ps.
Proof.
  induction 1 as [|s a b ps rest F H IH]; constructor; auto. now apply first_at_clean in F.
Qed.

Lemma segments_free c d s ps rest : segments d s ps rest -> free_of c s -> Forall (free_of c) ps.
Proof.
  induction 1 as [|s a b ps rest F H IH]; intros FS; constructor.
  - destruct F as (-> & _). now apply free_app in FS.
  - apply IH. destruct F as (-> & _). apply free_app in FS. destruct FS as (_ & FS).
    now apply free_app in FS.
Qed.

Lemma clean_not_ends f : clean "::" f -> forall r, f <> r ++ ":".
Proof.
  intros (_ & L) r ->.
  specialize (L r ":"). rewrite slength_app in L. simpl in L.
  assert (E : (r ++ ":") ++ "::" = r ++ "::" ++ ":") by (rewrite sapp_assoc; reflexivity).
  specialize (L E). lia.
Qed.

(** A joined list of clean, non-blank names with the delimiter after it is
    cut into those names. *)
Lemma join_delim_segments fs :
  fs <> [] -> Forall (clean "::") fs -> segments "::" (join_strings fs "::" ++ "::") fs "".
Proof.
  intros N C. induction C as [|f fs Cf C IH]; [contradiction|].
  destruct fs as [|g fs].
  - simpl. apply seg_cut with (b := ""); [exact Cf|]. constructor.
    intros (a & b & E). destruct a; discriminate.
  - rewrite join_cons, !sapp_assoc. apply seg_cut with (2 := IH ltac:(discriminate)).
    now apply clean_first.
Qed.

Lemma ink_not_blank s : has_ink s -> is_blank s = false.
Proof. apply is_blank_iff. Qed.

Lemma ink_app_l a b : has_ink a -> has_ink (a ++ b).
Proof. intros (x & c & y & -> & H). exists x, c, (y ++ b). split; [now rewrite sapp_assoc|exact H]. Qed.

Lemma ink_app_r a b : has_ink b -> has_ink (a ++ b).
Proof. intros (x & c & y & -> & H). exists (a ++ x), c, y. split; [now rewrite sapp_assoc|exact H]. Qed.

Lemma join_ink fs : fs <> [] -> Forall has_ink fs -> has_ink (join_strings fs "::").
Proof.
  intros N I. destruct I as [|f fs If I]; [contradiction|].
  destruct fs; [exact If|]. rewrite join_cons. now apply ink_app_l.
Qed.

Lemma join_no_delim fs :
  fs <> [] -> Forall (clean "::") fs -> Forall has_ink fs ->
  has_extension (join_strings fs "::") "::" = false.
Proof.
  intros N C I. apply not_true_iff_false. intros H. apply has_extension_iff in H.
  destruct (exists_last N) as (ps & l & ->).
  apply Forall_app in C. destruct C as (_ & C). inversion C as [|? ? Cl _]; subst.
  apply Forall_app in I. destruct I as (_ & I). inversion I as [|? ? Il _]; subst.
  rewrite join_snoc in H.
  assert (P : exists x, fold_right (fun x y => x ++ "::" ++ y) l ps = x ++ l).
  { clear. induction ps as [|p ps (x & IH)]; [exists ""; reflexivity|].
    cbn [fold_right]. rewrite IH. exists (p ++ "::" ++ x).
    now rewrite !sapp_assoc. }
  destruct P as (x & P). destruct H as (r & E).
  pose proof (eq_trans (eq_sym P) E) as E'.
  replace (r ++ "::") with ((r ++ ":") ++ ":") in E' by now rewrite sapp_assoc.
  destruct (sapp_split x l (r ++ ":") ":") as (e & _ & El); [exact E'| |].
  { apply (f_equal String.length) in E'. rewrite !slength_app in E'.
    destruct Il as (u & c & v & -> & _). rewrite !slength_app in *. simpl in *. lia. }
  exact (clean_not_ends _ Cl e El).
Qed.

Lemma list_files_join b dir fs :
  Forall (clean "::") fs -> Forall has_ink fs -> Forall (free_of dollar) fs ->
  list_files b false dir (add_delim (join_strings fs "::")) = fs.
Proof.
  intros C I F. destruct fs as [|f fs]; [reflexivity|].
  set (l := f :: fs) in *. assert (N : l <> []) by discriminate.
  unfold add_delim. rewrite (ink_not_blank _ (join_ink _ N I)), (join_no_delim _ N C I).
  unfold list_files.
  assert (NE : (join_strings l "::" ++ "::" =? "") = false).
  { apply String.eqb_neq. intros E. apply sapp_eq_nil in E. destruct E; discriminate. }
  rewrite NE.
  pose proof (cut_loop_segments "::" (S (String.length (join_strings l "::" ++ "::")))
                (join_strings l "::" ++ "::") ltac:(discriminate) ltac:(lia)) as H.
  destruct (cut_loop _ _ _) as (ps, rest).
  destruct (segments_det _ _ _ _ _ _ H (join_delim_segments l N C)) as (-> & _).
  cbn [fst]. clear - F. induction F as [|x l Fx F IH]; [reflexivity|].
  cbn [map]. rewrite IH. unfold resolve. rewrite andb_false_r. now rewrite expand_plain.
Qed.

Lemma list_files_props b init dir s :
  free_of colon dir -> free_of dollar dir -> free_of dollar s ->
  Forall (clean "::") (list_files b init dir s) /\
  Forall (free_of dollar) (list_files b init dir s).
Proof.
  intros FC FD FS. unfold list_files. destruct (s =? ""); [auto|].
  pose proof (cut_loop_segments "::" (S (String.length s)) s ltac:(discriminate) ltac:(lia)) as H.
  destruct (cut_loop _ _ _) as (ps, rest). cbn [fst].
  pose proof (segments_clean _ _ _ _ H) as C. pose proof (segments_free dollar _ _ _ _ H FS) as D.
  clear H. induction C as [|p ps Cp C IH]; [split; constructor|].
  inversion D as [|? ? Dp D']; subst. destruct (IH D') as (A & B). cbn [map].
  assert (E : resolve b init dir p = dir ++ p \/ resolve b init dir p = p).
  { unfold resolve. destruct (_ && _); rewrite expand_plain; auto. now apply free_app. }
  split; constructor; auto; destruct E as [-> | ->]; auto.
  - now apply clean_prefix.
  - now apply free_app.
Qed.

Lemma free_add_delim s : free_of dollar s -> free_of dollar (add_delim s).
Proof.
  intros F. unfold add_delim. destruct (is_blank s); [exact F|].
  destruct (has_extension s "::"); [exact F|]. apply free_app. split; [exact F|].
  frees.
Qed.

Lemma free_join c fs : free_of c "::" -> Forall (free_of c) fs -> free_of c (join_strings fs "::").
Proof.
  intros D F. induction F as [|f fs Ff F IH]; [exact I|].
  destruct fs; [exact Ff|]. rewrite join_cons. apply free_app. split; [exact Ff|].
  apply free_app. auto.
Qed.

(* ------------------------------------------------------------------ *)
(** * C29: validating again *)

(** No reference to an environment variable can occur. *)
Definition no_refs (p : params) : Prop :=
  free_of dollar (catalogue_dir (pths p)) /\ free_of dollar (measurement_dir (pths p)) /\
  free_of dollar (data_file (pths p)) /\ free_of dollar (rand_file (pths p)) /\
  free_of dollar (output_tag (pths p)) /\ free_of dollar (use_fftw_wisdom (msc p)) /\
  free_of dollar (save_binned_vectors (msc p)).

Definition no_blank_files (p : params) : Prop :=
  Forall has_ink (data_files (pths p)) /\ Forall has_ink (rand_files (pths p)).

Definition paths_plain (p : paths) : Prop :=
  free_of dollar (catalogue_dir p) /\ free_of dollar (measurement_dir p) /\
  free_of dollar (data_file p) /\ free_of dollar (rand_file p) /\
  free_of dollar (output_tag p) /\ free_of colon (catalogue_dir p).

Lemma dirs_props b init p :
  paths_plain p ->
  paths_plain (val_dirs b init p) /\ is_blank (measurement_dir (val_dirs b init p)) = false /\
  (init = true -> exists d, measurement_dir (val_dirs b init p) = d ++ "/").
Proof.
  intros (A & B & C & D & E & F). unfold val_dirs, paths_plain.
  cbn [catalogue_dir measurement_dir data_file rand_file output_tag].
  assert (SL : free_of dollar "/" /\ free_of colon "/") by (frees).
  assert (A' : free_of dollar (if negb (is_blank (catalogue_dir p)) && init
                 then catalogue_dir p ++ "/" else catalogue_dir p)).
  { destruct (_ && _); [apply free_app; tauto|exact A]. }
  assert (B' : free_of dollar (if is_blank (measurement_dir p) then "./"
                 else if init then measurement_dir p ++ "/" else measurement_dir p)).
  { destruct (is_blank (measurement_dir p)); [frees|].
    destruct init; [apply free_app; tauto|exact B]. }
  rewrite !expand_plain by assumption.
  split; [|split].
  - repeat split; auto. destruct (_ && _); [apply free_app; tauto|exact F].
  - destruct (is_blank (measurement_dir p)) eqn:K; [reflexivity|].
    destruct init; [|exact K]. apply is_blank_iff, ink_app_l, is_blank_iff, K.
  - intros ->. destruct (is_blank (measurement_dir p)); [now exists "."|eauto].
Qed.

Lemma files_props b init c p p' :
  paths_plain p -> val_files b init c p = Ok p' ->
  paths_plain p' /\ catalogue_dir p' = catalogue_dir p /\
  measurement_dir p' = measurement_dir p /\
  Forall (clean "::") (data_files p') /\ Forall (free_of dollar) (data_files p') /\
  Forall (clean "::") (rand_files p') /\ Forall (free_of dollar) (rand_files p') /\
  data_file p' = join_strings (data_files p') "::" /\
  rand_file p' = join_strings (rand_files p') "::".
Proof.
  intros (A & B & C & D & E & F) H. unfold val_files in H.
  pose proof (list_files_props b init _ _ F A (free_add_delim _ C)) as (L1 & L2).
  pose proof (list_files_props b init _ _ F A (free_add_delim _ D)) as (L3 & L4).
  apply bind_ok_iff in H. destruct H as (x & HX & H). injection H as <-.
  cbn [catalogue_dir measurement_dir data_file rand_file data_files rand_files output_tag].
  assert (X : (Forall (clean "::") (fst x) /\ Forall (free_of dollar) (fst x)) /\
              (Forall (clean "::") (snd x) /\ Forall (free_of dollar) (snd x))).
  { destruct (c =? "survey"); [injection HX as <-; cbn; auto|].
    destruct (c =? "random"); [injection HX as <-; cbn; auto|].
    destruct (c =? "sim"); [injection HX as <-; cbn; auto|].
    destruct (c =? "none"); [injection HX as <-; cbn; auto|].
    destruct (extcall b); [injection HX as <-; cbn; auto|discriminate]. }
  destruct X as ((X1 & X2) & (X3 & X4)).
  assert (DD : free_of dollar "::") by (frees).
  split; [|auto 10]. unfold paths_plain.
  cbn [catalogue_dir measurement_dir data_file rand_file data_files rand_files output_tag].
  repeat (split; [solve [auto using free_join]|]). exact F.
Qed.

(** Paths that validation without initialisation leaves alone. *)
Lemma dirs_fix b p :
  free_of dollar (catalogue_dir p) -> free_of dollar (measurement_dir p) ->
  is_blank (measurement_dir p) = false -> val_dirs b false p = p.
Proof.
  intros A B K. unfold val_dirs. rewrite andb_false_r, K, !expand_plain by assumption.
  now destruct p.
Qed.

Lemma files_fix b init c p p' :
  paths_plain p -> val_files b init c p = Ok p' ->
  Forall has_ink (data_files p') -> Forall has_ink (rand_files p') ->
  val_files b false c p' = Ok p'.
Proof.
  intros PL H I1 I2.
  destruct (files_props _ _ _ _ _ PL H) as (_ & Ec & Em & C1 & F1 & C2 & F2 & E1 & E2).
  unfold val_files. rewrite E1, E2, !list_files_join by assumption.
  unfold val_files in H. apply bind_ok_iff in H. destruct H as (x & HX & H).
  assert (X : fst x = data_files p' /\ snd x = rand_files p') by (injection H as <-; auto).
  destruct X as (X1 & X2).
  assert (G : (if c =? "survey" then Ok (data_files p', rand_files p')
        else if c =? "random" then Ok ([], rand_files p')
        else if c =? "sim" then Ok (data_files p', [])
        else if c =? "none" then Ok ([], [])
        else if extcall b then Ok ([], [])
        else Err InvalidParameter) = Ok (data_files p', rand_files p')).
  { rewrite <- X1, <- X2.
    destruct (c =? "survey"); [reflexivity|].
    destruct (c =? "random"); [injection HX as <-; reflexivity|].
    destruct (c =? "sim"); [injection HX as <-; reflexivity|].
    destruct (c =? "none"); [injection HX as <-; reflexivity|].
    destruct (extcall b); [injection HX as <-; reflexivity|discriminate]. }
  rewrite G. cbn [bind fst snd]. rewrite <- E1, <- E2. now destruct p'.
Qed.

Lemma mesh_strings_fix s s' : val_mesh_strings s = Ok s' -> val_mesh_strings s' = Ok s'.
Proof.
  intros H. pose proof (proj1 (mesh_strings_ok s) (ex_intro _ s' H)) as (A & B & _).
  apply mesh_strings_val in H. destruct H as (O & E). 
  assert (Ea : alignment s' = alignment s) by now rewrite E.
  assert (Ep : padscale s' = padscale s) by now rewrite E.
  assert (Es : assignment s' = assignment s) by now rewrite E.
  assert (Ei : interlace s' = interlace_flag (interlace s)) by now rewrite E.
  unfold val_mesh_strings. rewrite Ea, Ep.
  replace ((alignment s =? "centre") || (alignment s =? "pad")) with true
    by (symmetry; destruct A as [<-|[<-|[]]]; reflexivity).
  replace ((padscale s =? "box") || (padscale s =? "grid")) with true
    by (symmetry; destruct B as [<-|[<-|[]]]; reflexivity).
  cbn [negb]. rewrite <- Es in O.
  assert (OO : (if assignment s' =? "ngp" then Ok 1%Z
            else if assignment s' =? "cic" then Ok 2%Z
            else if assignment s' =? "tsc" then Ok 3%Z
            else if assignment s' =? "pcs" then Ok 4%Z
            else Err InvalidParameter) = Ok (assignment_order s')).
  { cbn in O. destruct O as [O|[O|[O|[O|[]]]]]; injection O as <- <-; reflexivity. }
  rewrite OO. cbn [bind].
  assert (II : (if (interlace s' =? "true") || (interlace s' =? "on") then Ok "true"
           else if (interlace s' =? "false") || (interlace s' =? "off") then Ok "false"
           else Err InvalidParameter) = Ok (interlace s')).
  { rewrite Ei. unfold interlace_flag.
    destruct ((interlace s =? "true") || (interlace s =? "on")); reflexivity. }
  rewrite II. cbn [bind]. rewrite <- Ea, <- Ep. now destruct s'.
Qed.

Lemma mesh_strings_off s : val_mesh_strings s = Ok s ->
  val_mesh_strings (with_interlace "false" s) = Ok (with_interlace "false" s).
Proof.
  intros H. unfold val_mesh_strings in *. cbn [with_interlace alignment padscale assignment interlace].
  destruct (negb _); [discriminate|]. destruct (negb _); [discriminate|].
  apply bind_ok_iff in H. destruct H as (o & -> & H). apply bind_ok_iff in H.
  destruct H as (i & _ & H). cbn [bind String.eqb Ascii.eqb Bool.eqb orb].
  injection H as H. f_equal. apply (f_equal (with_interlace "false")) in H. exact H.
Qed.

Lemma kind_fix b m x :
  val_kind b m = Ok x ->
  forall m', catalogue_type m' = catalogue_type m -> statistic_type m' = statistic_type m ->
    npoint m' = fst x -> space m' = snd x -> val_kind b m' = Ok x.
Proof.
  intros H m' Ec Es En Ep. unfold val_kind in *. rewrite Ec, Es, En, Ep.
  repeat match goal with
  | |- (if ?c then _ else _) = _ => destruct c; [exact H|]
  end.
  destruct (extcall b); [now destruct x|discriminate].
Qed.

Lemma statistic_fix b m m' : val_statistic b m = Ok m' -> val_statistic b m' = Ok m'.
Proof.
  unfold val_statistic. intros H. apply bind_ok_iff in H. destruct H as (x & HK & H).
  apply bind_ok_iff in H. destruct H as (sh & HS & H).
  apply bind_ok_iff in H. destruct H as ([] & HC & H). injection H as <-.
  rewrite (kind_fix _ _ _ HK) by reflexivity. cbn [bind].
  replace (val_shape _) with (Ok sh) by (rewrite <- HS; reflexivity). cbn [bind].
  replace (val_conventions _ _) with (Ok tt) by (rewrite <- HC; reflexivity).
  reflexivity.
Qed.

Lemma fftw_fix b init n m m' :
  free_of dollar (use_fftw_wisdom m) -> val_fftw b init n m = Ok m' ->
  val_fftw b false n m' = Ok m' /\ free_of dollar (use_fftw_wisdom m') /\
  save_binned_vectors m' = save_binned_vectors m.
Proof.
  intros F H. unfold val_fftw in H. cbv zeta in H. apply bind_ok_iff in H.
  destruct H as (x & HX & H).
  set (w := if gpu b then "" else if use_fftw_wisdom m =? "false" then ""
            else if init then use_fftw_wisdom m ++ "/" else use_fftw_wisdom m) in *.
  assert (FW : free_of dollar w).
  { subst w. destruct (gpu b); [exact I|]. destruct (use_fftw_wisdom m =? "false"); [exact I|].
    destruct init; [|exact F]. apply free_app. split; [exact F|]. frees. }
  assert (WF : gpu b = false -> w <> "false").
  { intros G. subst w. rewrite G. destruct (String.eqb_spec (use_fftw_wisdom m) "false"); [discriminate|].
    destruct init; [|assumption]. intros E.
    assert (L : String.length (use_fftw_wisdom m ++ "/") = 5%nat) by now rewrite E.
    rewrite slength_app in L. simpl in L.
    destruct (sapp_inv (use_fftw_wisdom m) "/" "fals" "e") as (_ & D); [exact E| |discriminate].
    simpl. lia. }
  assert (WG : gpu b = true -> w = "") by (intros G; subst w; now rewrite G).
  clearbody w. rewrite expand_plain in H by exact FW.
  assert (K : use_fftw_wisdom m' = w /\ fftw_scheme m' = fst x /\ planner_flag m' = snd x /\
              save_binned_vectors m' = save_binned_vectors m /\
              (w <> "" -> (negb (fst x =? "measure") && negb (fst x =? "patient") = false) /\
                wisdom_file_f m' = wisdom_name b w "cif" n /\
                wisdom_file_b m' = wisdom_name b w "cib" n)).
  { destruct (String.eqb_spec w "") as [W|W]; cbn [negb] in H.
    - injection H as <-. cbn. repeat split; auto; contradiction.
    - destruct (negb (fst x =? "measure") && _); [discriminate|]. injection H as <-. cbn.
      repeat split; auto. }
  destruct K as (K1 & K2 & K3 & K4 & K5).
  split; [|split; [now rewrite K1|exact K4]].
  unfold val_fftw. cbv zeta. rewrite K1, K2, K3.
  assert (XX : (if negb (gpu b) then
          if fst x =? "estimate" then Ok (fst x, PlanEstimate)
          else if fst x =? "measure" then Ok (fst x, PlanMeasure)
          else if fst x =? "patient" then Ok (fst x, PlanPatient)
          else Err InvalidParameter
        else Ok ("", snd x)) = Ok (fst x, snd x)).
  { destruct (gpu b); cbn [negb] in *; [injection HX as <-; reflexivity|].
    destruct (fftw_scheme m =? "estimate") eqn:E1; [injection HX as <-; cbn [fst snd]; now rewrite E1|].
    destruct (fftw_scheme m =? "measure") eqn:E2; [injection HX as <-; cbn [fst snd]; now rewrite E1, E2|].
    destruct (fftw_scheme m =? "patient") eqn:E3; [injection HX as <-; cbn [fst snd]; now rewrite E1, E2, E3|].
    discriminate. }
  rewrite XX. cbn [bind fst snd].
  assert (WW : (if gpu b then "" else if w =? "false" then "" else w) = w).
  { destruct (gpu b) eqn:G; [now rewrite WG|].
    destruct (String.eqb_spec w "false") as [E|E]; [now apply WF in E|reflexivity]. }
  rewrite WW, expand_plain by exact FW.
  destruct (String.eqb_spec w "") as [W|W]; cbn [negb].
  - f_equal. rewrite <- K1, <- K2, <- K3. now destruct m'.
  - destruct (K5 W) as (-> & <- & <-). f_equal. rewrite <- K1, <- K2, <- K3. now destruct m'.
Qed.

Lemma default_bvec_long mdir tag : (14 <= String.length (default_bvec mdir tag))%nat.
Proof.
  unfold default_bvec, snprintf1024.
  assert (L : forall n s, String.length (stake n s) = Nat.min n (String.length s)).
  { induction n as [|n IH]; intros [|c s]; simpl; auto. }
  rewrite L, !slength_app. change (String.length "binned_vectors") with 14%nat.
  apply Nat.min_glb; lia.
Qed.

Lemma default_bvec_free c mdir tag :
  free_of c mdir -> free_of c "binned_vectors" -> free_of c tag ->
  free_of c (default_bvec mdir tag).
Proof.
  intros A B C. apply free_stake. apply free_app. split; [exact A|]. apply free_app. auto.
Qed.

(** A binned-vector path that validation leaves alone. *)
Definition bvec_settled (v : string) : Prop :=
  free_of dollar v /\ v <> "true" /\ v <> "false".

Lemma bvec_fix b mdir tag m :
  bvec_settled (save_binned_vectors m) -> val_bvec b false mdir tag m = m.
Proof.
  intros (F & T & Fa). unfold val_bvec.
  destruct (String.eqb_spec (save_binned_vectors m) "false"); [contradiction|].
  destruct (String.eqb_spec (save_binned_vectors m) "true"); [contradiction|].
  rewrite andb_false_r. destruct (negb _); rewrite expand_plain by exact F; now destruct m.
Qed.

Lemma bvec_settles b init mdir tag m :
  free_of dollar mdir -> free_of dollar tag -> free_of dollar (save_binned_vectors m) ->
  (init = true -> exists d, mdir = d ++ "/") ->
  bvec_settled (save_binned_vectors (val_bvec b init mdir tag m)).
Proof.
  intros FM FT FS D. unfold val_bvec. cbn [save_binned_vectors].
  set (s := save_binned_vectors m) in *.
  assert (FB : free_of dollar "binned_vectors") by (frees).
  assert (K : bvec_settled (if s =? "false" then ""
           else if s =? "true" then default_bvec mdir tag
           else if negb (s =? "") then
             if negb (is_absolute s) && init then mdir ++ s else s
           else s)).
  { destruct (String.eqb_spec s "false") as [E|E]; [repeat split; discriminate|].
    destruct (String.eqb_spec s "true") as [E'|E'].
    - split; [now apply default_bvec_free|].
      pose proof (default_bvec_long mdir tag) as L.
      split; intros EE; rewrite EE in L; simpl in L; lia.
    - destruct (negb (s =? "")); [|repeat split; auto].
      destruct (negb (is_absolute s) && init) eqn:A; [|repeat split; auto].
      apply andb_true_iff in A. destruct A as (_ & A). destruct (D A) as (d & ->).
      split; [apply free_app; auto|].
      assert (NS : forall t, free_of "/"%char t -> (d ++ "/") ++ s <> t).
      { intros t Ft EE. rewrite <- EE in Ft. apply free_app in Ft. destruct Ft as (Ft & _).
        apply free_app in Ft. destruct Ft as (_ & Ft). cbn in Ft. tauto. }
      split; apply NS; frees. }
  destruct K as (K1 & K2). rewrite expand_plain by exact K1. split; auto.
Qed.

(** What holds of a set after the head, for sets without references. *)
Lemma head_fix b init p q :
  no_refs p -> free_of colon (catalogue_dir (pths p)) ->
  val_head b init p = Ok q -> 
  no_refs q /\ free_of colon (catalogue_dir (pths q)) /\
  bvec_settled (save_binned_vectors (msc q)) /\
  val_dirs b false (pths q) = pths q /\
  (no_blank_files q -> val_files b false (catalogue_type (msr q)) (pths q) = Ok (pths q)) /\
  val_mesh_strings (smp q) = Ok (smp q) /\ val_sizes (smp q) = smp q /\
  val_statistic b (msr q) = Ok (msr q) /\
  val_fftw b false (ngrid (smp q)) (msc q) = Ok (msc q).
Proof.
  intros (N1 & N2 & N3 & N4 & N5 & N6 & N7) NC HH.
  destruct (head_parts _ _ _ _ HH) as (HF & (s & HS & ES) & HM & (c & HW & EC)).
  destruct (head_vals _ _ _ _ HH) as (U & _). unfold untouched in U.
  assert (PP : paths_plain (pths p)) by (unfold paths_plain; auto 8).
  destruct (dirs_props b init _ PP) as (PD & BD & SD).
  destruct (files_props _ _ _ _ _ PD HF) as (PQ & Ec & Em & _).
  destruct (fftw_fix _ _ _ _ _ N6 HW) as (WF & WD & WS).
  destruct PQ as (Q1 & Q2 & Q3 & Q4 & Q5 & Q6).
  assert (BV : bvec_settled (save_binned_vectors (msc q))).
  { rewrite EC. apply bvec_settles; auto; [now rewrite WS|]. rewrite Em. exact SD. }
  assert (EW : use_fftw_wisdom (msc q) = use_fftw_wisdom c) by now rewrite EC.
  split; [|split; [|split; [|split; [|split; [|split; [|split; [|split]]]]]]].
  - repeat split; auto; [now rewrite EW|apply BV].
  - exact Q6.
  - exact BV.
  - apply dirs_fix; auto. now rewrite Em.
  - intros (I1 & I2). assert (ET : catalogue_type (msr q) = catalogue_type (msr p)) by apply U.
    rewrite ET. exact (files_fix _ _ _ _ _ PD HF I1 I2).
  - rewrite ES. apply mesh_strings_fix in HS.
    unfold val_mesh_strings in *. cbn [val_sizes alignment padscale assignment interlace].
    destruct (negb _); [discriminate|]. destruct (negb _); [discriminate|].
    apply bind_ok_iff in HS. destruct HS as (o & -> & H). apply bind_ok_iff in H.
    destruct H as (i & -> & H). cbn [bind]. injection H as H. f_equal.
    apply (f_equal val_sizes) in H. exact H.
  - rewrite ES. reflexivity.
  - exact (statistic_fix _ _ _ HM).
  - rewrite EC. unfold val_bvec. clear - WF. unfold val_fftw in *.
    cbn [fftw_scheme planner_flag use_fftw_wisdom wisdom_file_f wisdom_file_b save_binned_vectors].
    apply bind_ok_iff in WF. destruct WF as (x & -> & H). cbn [bind]. cbv zeta in H.
    destruct (negb (_ =? "")).
    + destruct (_ && _); [discriminate|]. injection H as H. f_equal.
      apply (f_equal (with_bvec (save_binned_vectors (val_bvec b init (measurement_dir (pths q)) (output_tag (pths q)) c)))) in H.
      exact H.
    + injection H as H. f_equal.
      apply (f_equal (with_bvec (save_binned_vectors (val_bvec b init (measurement_dir (pths q)) (output_tag (pths q)) c)))) in H.
      exact H.
Qed.

Lemma head_fix_tail b init p q bv r :
  no_refs p -> free_of colon (catalogue_dir (pths p)) ->
  val_head b init p = Ok q ->
  bvec_settled bv -> val_tail bv q = Ok r -> no_blank_files r ->
  val_head b false r = Ok r.
Proof.
  intros NR NC HH BV HT NB.
  destruct (head_fix _ _ _ _ NR NC HH) as (_ & _ & SV & F1 & F2 & F3 & F4 & F5 & F6).
  apply tail_val in HT. destruct HT as (_ & _ & E1 & E2 & E3 & E4).
  assert (NB' : no_blank_files q) by (unfold no_blank_files in *; now rewrite <- E1).
  specialize (F2 NB').
  assert (S1 : val_mesh_strings (smp r) = Ok (smp r)).
  { rewrite E3. destruct (_ && _); [|exact F3]. now apply mesh_strings_off. }
  assert (S2 : val_sizes (smp r) = smp r).
  { rewrite E3. destruct (_ && _); [|exact F4].
    apply (f_equal (with_interlace "false")) in F4. exact F4. }
  assert (S3 : ngrid (smp r) = ngrid (smp q)) by (rewrite E3; destruct (_ && _); reflexivity).
  assert (S4 : val_fftw b false (ngrid (smp r)) (msc r) = Ok (msc r) /\
               bvec_settled (save_binned_vectors (msc r))).
  { rewrite S3, E4.
    destruct (((statistic_type (msr q) =? "modes") || (statistic_type (msr q) =? "pairs"))
              && (save_binned_vectors (msc q) =? "")); [|auto]. split; [|exact BV].
    clear - F6. unfold val_fftw in *.
    cbn [with_bvec fftw_scheme planner_flag use_fftw_wisdom wisdom_file_f wisdom_file_b save_binned_vectors].
    apply bind_ok_iff in F6. destruct F6 as (x & -> & H). cbn [bind]. cbv zeta in H.
    destruct (negb (_ =? "")).
    - destruct (_ && _); [discriminate|]. injection H as H. f_equal.
      apply (f_equal (with_bvec bv)) in H. exact H.
    - injection H as H. f_equal. apply (f_equal (with_bvec bv)) in H. exact H. }
  destruct S4 as (S4 & S5).
  unfold val_head. cbv zeta. rewrite E1, E2, F1, F2. cbn [bind]. rewrite S1. cbn [bind].
  rewrite F5. cbn [bind]. rewrite S4. cbn [bind].
  rewrite S2, (bvec_fix _ _ _ _ S5). rewrite <- E1, <- E2. now rewrite params_eta.
Qed.

(** C29: validating a validated set changes nothing more, whatever the
    number of nested validations, as long as no path refers to the
    environment, no catalogue file name is blank, and the catalogue directory
    has no colon. *)
Theorem validate_again fuel fuel' b init p p' :
  no_refs p -> free_of colon (catalogue_dir (pths p)) -> no_blank_files p' ->
  validate fuel b init p = Ok p' -> validate fuel' b false p' = Ok p'.
Proof.
  revert init p. induction fuel as [fuel IH] using (well_founded_induction Wf_nat.lt_wf).
  intros init p NR NC NB H. pose proof H as H0. apply validate_cases in H.
  destruct H as (q & HH & [(D & X & C & HT)|(_ & _ & f & n & -> & _ & H)]).
  - destruct (head_fix _ _ _ _ NR NC HH) as (NQ & _ & _).
    assert (BV : bvec_settled (default_bvec (measurement_dir (pths q)) (output_tag (pths q)))).
    { destruct NQ as (_ & Q2 & _ & _ & Q5 & _).
      split; [apply default_bvec_free; [exact Q2|frees|exact Q5]|].
      pose proof (default_bvec_long (measurement_dir (pths q)) (output_tag (pths q))) as L.
      split; intros EE; rewrite EE in L; simpl in L; lia. }
    pose proof (head_fix_tail _ _ _ _ _ _ NR NC HH BV HT NB) as HF.
    destruct (tail_outcome _ _ _ _ _ _ HH HT) as (U & _ & _ & G).
    destruct U as (Ub & Ux & Uc & _).
    rewrite (validate_direct _ _ _ _ _ HF); rewrite ?Ub, ?Ux, ?Uc, ?G; auto.
    exact (validate_tail_fix _ _ _ _ _ H0 _).
  - destruct (head_fix _ _ _ _ NR NC HH) as (NQ & NQC & _).
    apply (IH f ltac:(lia) false (regrid n q)); auto.
Qed.

(** C29: a validated set is always accepted again. *)
Theorem validate_accepts_again fuel fuel' b init p p' :
  validate fuel b init p = Ok p' -> exists p'', validate fuel' b false p' = Ok p''.
Proof.
  revert init p. induction fuel as [fuel IH] using (well_founded_induction Wf_nat.lt_wf).
  intros init p H. apply validate_cases in H.
  destruct H as (q & HH & [(D & X & C & HT)|(_ & _ & f & n & -> & _ & H)]);
    [|exact (IH f ltac:(lia) _ _ H)].
  destruct (tail_outcome _ _ _ _ _ _ HH HT) as (U & K & _ & G).
  pose proof (head_again _ _ _ _ (ngrid (smp q)) HH) as SO.
  destruct (head_vals _ _ _ _ HH) as (_ & (_ & _ & _ & KQ & _) & _).
  apply tail_val in HT. destruct HT as (P & B & E1 & E2 & E3 & E4).
  pose proof (proj1 (final_checks _ _ _ _ HH) (conj P B)) as FC.
  apply validate_accepts.
  - destruct U as (Ub & _). now rewrite Ub, G.
  - split.
    + unfold strings_ok in *. cbv zeta in *. rewrite E2.
      assert (M : fftw_scheme (msc p') = fftw_scheme (msc q) /\
                  use_fftw_wisdom (msc p') = use_fftw_wisdom (msc q)).
      { rewrite E4. destruct (((statistic_type (msr q) =? "modes") || (statistic_type (msr q) =? "pairs"))
          && (save_binned_vectors (msc q) =? "")); auto. }
      destruct M as (-> & ->).
      unfold regrid in SO. cbn [smp msr msc with_ngrid alignment padscale assignment interlace] in SO.
      rewrite E3. destruct (_ && _); [|exact SO].
      cbn [with_interlace alignment padscale assignment interlace].
      destruct SO as (B1 & B2 & B3 & B4 & B5 & B6 & B7 & B8).
      repeat (split; [solve [auto]|]). split; [cbn; auto 6|exact B8].
    + unfold untouched in U. unfold numbers_ok. cbv zeta.
      destruct U as (Ev & Ex & Ec & Ea & Ep & Ef & _ & _ & _ & _ & _ & _ & Em & _ & Eb & E0 & E1' & En & Ei & _).
      assert (KK : (forall np sp, stat_kind (msr p') np sp -> np = "3pt") <->
                   (forall np sp, stat_kind (msr p) np sp -> np = "3pt")).
      { rewrite E2. pose proof (stat_kind_head _ _ _ _ HH) as SK.
        split; intros H np sp K'; apply (H np sp), SK, K'. }
      rewrite KK, Ev, Ex, Ec, Ea, Ep, Ef, Em, Eb, E0, E1', En, Ei, G.
      split; [exact X|]. split; [exact C|exact FC].
Qed.

(* ------------------------------------------------------------------ *)
(** * C29: catalogue files *)

(** The text of a file list: the names joined by "::", with or without a
    final delimiter. *)
Lemma add_delim_join fs :
  fs <> [] -> Forall (clean "::") fs -> Forall has_ink fs ->
  add_delim (join_strings fs "::") = join_strings fs "::" ++ "::" /\
  add_delim (join_strings fs "::" ++ "::") = join_strings fs "::" ++ "::".
Proof.
  intros N C I. unfold add_delim.
  pose proof (join_ink _ N I) as K.
  rewrite (ink_not_blank _ K), (join_no_delim _ N C I), (ink_not_blank _ (ink_app_l _ "::" K)).
  split; [reflexivity|].
  replace (has_extension (join_strings fs "::" ++ "::") "::") with true; [reflexivity|].
  symmetry. apply has_extension_iff. eauto.
Qed.

Lemma list_files_map b init dir fs :
  fs <> [] -> Forall (clean "::") fs -> Forall has_ink fs ->
  list_files b init dir (join_strings fs "::" ++ "::") = map (resolve b init dir) fs.
Proof.
  intros N C I. unfold list_files.
  assert (NE : (join_strings fs "::" ++ "::" =? "") = false).
  { apply String.eqb_neq. intros E. apply sapp_eq_nil in E. destruct E; discriminate. }
  rewrite NE.
  pose proof (cut_loop_segments "::" (S (String.length (join_strings fs "::" ++ "::")))
                (join_strings fs "::" ++ "::") ltac:(discriminate) ltac:(lia)) as H.
  destruct (cut_loop _ _ _) as (ps, rest).
  destruct (segments_det _ _ _ _ _ _ H (join_delim_segments fs N C)) as (-> & _).
  reflexivity.
Qed.

Lemma validate_paths fuel b init p p' :
  vol (boxsize (smp p)) <= 0 \/ (0 < cells (ngrid (smp p)))%Z ->
  validate fuel b init p = Ok p' ->
  val_files b init (catalogue_type (msr p)) (val_dirs b init (pths p)) = Ok (pths p').
Proof.
  intros D H. apply validate_cases in H.
  destruct H as (q & HH & [(_ & _ & _ & HT)|(V & N & _)]).
  - destruct (head_parts _ _ _ _ HH) as (HF & _). apply tail_val in HT.
    destruct HT as (_ & _ & -> & _). exact HF.
  - destruct D; [lra|lia].
Qed.

(** C29: on initialisation the data files of a survey or simulation are the
    listed ones, relative names being put under the catalogue directory. *)
Theorem validate_data_files fuel b p p' fs :
  vol (boxsize (smp p)) <= 0 \/ (0 < cells (ngrid (smp p)))%Z ->
  validate fuel b true p = Ok p' ->
  In (catalogue_type (msr p)) ["survey"; "sim"] ->
  fs <> [] -> Forall (clean "::") fs -> Forall has_ink fs ->
  data_file (pths p) = join_strings fs "::" \/ data_file (pths p) = join_strings fs "::" ++ "::" ->
  no_refs p -> has_ink (catalogue_dir (pths p)) ->
  data_files (pths p') =
    map (fun f => if is_absolute f then f else catalogue_dir (pths p) ++ "/" ++ f) fs.
Proof.
  intros D H T N C I E NR DI. apply validate_paths in H; [|exact D].
  unfold val_files in H. apply bind_ok_iff in H. destruct H as (x & HX & H). injection H as <-.
  cbn [data_files]. destruct NR as (R1 & R2 & R3 & _).
  assert (EF : add_delim (data_file (val_dirs b true (pths p))) = join_strings fs "::" ++ "::").
  { unfold val_dirs. cbn [data_file]. destruct (add_delim_join _ N C I) as (A1 & A2).
    destruct E as [-> | ->]; assumption. }
  assert (EX : fst x = list_files b true (catalogue_dir (val_dirs b true (pths p)))
                         (join_strings fs "::" ++ "::")).
  { rewrite <- EF. destruct T as [T|[T|[]]]; rewrite <- T in HX; injection HX as <-; reflexivity. }
  rewrite EX, list_files_map by assumption.
  assert (FF : Forall (free_of dollar) fs).
  { assert (FJ : free_of dollar (join_strings fs "::")).
    { destruct E as [E|E]; rewrite E in R3; [exact R3|]. now apply free_app in R3. }
    clear - FJ. induction fs as [|f fs IH]; constructor.
    - destruct fs; [exact FJ|]. rewrite join_cons in FJ. now apply free_app in FJ.
    - destruct fs; [constructor|]. apply IH. rewrite join_cons in FJ.
      apply free_app in FJ. destruct FJ as (_ & FJ). now apply free_app in FJ. }
  assert (ED : catalogue_dir (val_dirs b true (pths p)) = catalogue_dir (pths p) ++ "/").
  { unfold val_dirs. cbn [catalogue_dir]. rewrite (ink_not_blank _ DI). cbn [negb andb].
    apply expand_plain. apply free_app. split; [exact R1|frees]. }
  rewrite ED. clear - FF R1. induction FF as [|f fs Ff FF IH]; [reflexivity|].
  cbn [map]. rewrite IH. f_equal. unfold resolve. rewrite andb_true_r.
  destruct (is_absolute f); cbn [negb].
  - now apply expand_plain.
  - rewrite sapp_assoc. apply expand_plain. apply free_app. split; [exact R1|].
    apply free_app. split; [frees|exact Ff].
Qed.

(** C29: the measurement directory always ends up usable: the current
    directory if none was given, the given one with a final slash otherwise. *)
Theorem validate_measurement_dir fuel b p p' :
  vol (boxsize (smp p)) <= 0 \/ (0 < cells (ngrid (smp p)))%Z ->
  validate fuel b true p = Ok p' -> no_refs p ->
  (~ has_ink (measurement_dir (pths p)) -> measurement_dir (pths p') = "./") /\
  (has_ink (measurement_dir (pths p)) ->
     measurement_dir (pths p') = measurement_dir (pths p) ++ "/").
Proof.
  intros D H (_ & R2 & _). apply validate_paths in H; [|exact D].
  unfold val_files in H. apply bind_ok_iff in H. destruct H as (x & _ & H). injection H as <-.
  cbn [measurement_dir val_dirs]. split; intros I.
  - destruct (is_blank (measurement_dir (pths p))) eqn:B; [apply expand_plain; frees|].
    apply is_blank_iff in B. contradiction.
  - rewrite (ink_not_blank _ I). apply expand_plain, free_app. split; [exact R2|frees].
Qed.

(* ------------------------------------------------------------------ *)
(** * C29: where validation goes wrong *)

(** A zero cutoff with a box and no grid: nested validations without end. *)
Theorem zero_cutoff_diverges b init p :
  0 < vol (boxsize (smp p)) -> (cells (ngrid (smp p)) <= 0)%Z -> cutoff_nyq (smp p) = 0 ->
  strings_ok b init p -> (forall np sp, stat_kind (msr p) np sp -> sp = "fourier") ->
  forall fuel, validate fuel b init p = Err OutOfFuel.
Proof.
  intros V N C SO K fuel. revert init p V N C SO K.
  induction fuel as [|f IH]; intros init p V N C SO K;
    (apply head_ok in SO; destruct SO as (q & HH);
     destruct (head_vals _ _ _ _ HH) as (U & (_ & Ev & En & K' & _) & Eg & _);
     destruct U as (Eb & _ & Ec & _); pose proof (K _ _ K') as SP;
     assert (HN : cutoff_ngrid (space (msr q)) (boxsize (smp p)) (cutoff_nyq (smp p)) = Ok (T3 0 0 0)%Z)
       by (rewrite SP, C; unfold cutoff_ngrid, each_axis; rewrite !(proj1 (cutoff_zero _)); reflexivity)).
  - rewrite validate_eq, HH. cbn [bind]. cbv zeta. rewrite Ev, En, Eb, Ec, Eg.
    replace (Rleb (vol (boxsize (smp p))) 0) with false by (symmetry; now apply Rleb_false).
    cbn [andb]. destruct (Z.leb_spec (cells (ngrid (smp p))) 0); [|lia].
    replace (Rltb (cutoff_nyq (smp p)) 0) with false by (symmetry; apply Rltb_false; lra).
    replace (Rltb 0 (vol (boxsize (smp p)))) with true by (symmetry; now apply Rltb_spec).
    rewrite HN. reflexivity.
  - rewrite (validate_nested _ _ _ _ _ _ HH V N ltac:(lra) HN).
    apply IH; unfold regrid; cbn [smp msr with_ngrid boxsize ngrid cutoff_nyq].
    + now rewrite Eb.
    + unfold cells. cbn. lia.
    + now rewrite Ec.
    + exact (head_again _ _ _ _ _ HH).
    + intros np sp H. apply (stat_kind_head _ _ _ _ HH) in H. exact (K _ _ H).
Qed.

(** Padding by grid cells is refused when neither box nor grid is set, even
    though both are to be derived later. *)
Theorem grid_padding_needs_grid fuel b init p p' :
  vol (boxsize (smp p)) <= 0 -> ngrid (smp p) = (T3 0 0 0)%Z ->
  alignment (smp p) = "pad" -> padscale (smp p) = "grid" ->
  validate fuel b init p <> Ok p'.
Proof.
  intros V N A P H. assert (AC : acceptable b init p (ngrid (smp p))).
  { apply (validate_accepts fuel); eauto. }
  destruct AC as (_ & _ & _ & H1 & _). destruct (H1 A) as (P0 & _ & P2).
  destruct (P2 P) as (Q & _). rewrite N in Q. cbn in Q. lra.
Qed.

Lemma wisdom_of_estimate fuel b init p p' :
  gpu b = false -> fftw_scheme (msc p) = "estimate" -> validate fuel b init p = Ok p' ->
  fftw_scheme (msc p') = "estimate" /\ use_fftw_wisdom (msc p') = "".
Proof.
  intros G. revert init p. induction fuel as [fuel IH] using (well_founded_induction Wf_nat.lt_wf).
  intros init p E H. apply validate_cases in H.
  destruct H as (q & HH & H).
  assert (Q : fftw_scheme (msc q) = "estimate" /\ use_fftw_wisdom (msc q) = "").
  { destruct (head_parts _ _ _ _ HH) as (_ & _ & _ & (c & HF & EC)). rewrite EC.
    cbn [val_bvec fftw_scheme use_fftw_wisdom]. unfold val_fftw in HF. rewrite G, E in HF.
    cbn [negb bind fst snd String.eqb Ascii.eqb Bool.eqb andb] in HF.
    destruct (expand_envar (environ b) _ =? "") eqn:W; cbn [negb] in HF; [|discriminate].
    injection HF as <-. cbn. split; [reflexivity|]. now apply String.eqb_eq in W. }
  destruct H as [(_ & _ & _ & HT)|(_ & _ & f & n & -> & _ & H)].
  - apply tail_val in HT. destruct HT as (_ & _ & _ & _ & _ & ->).
    destruct (_ && _); exact Q.
  - apply (IH f ltac:(lia) false (regrid n q)); [apply Q|exact H].
Qed.

(** Validating a second time as if new turns the switched-off wisdom
    directory into "/", so a set using the "estimate" planner, once
    validated, is refused. *)
Theorem validate_init_twice_estimate fuel fuel' b init p p' r :
  gpu b = false -> fftw_scheme (msc p) = "estimate" ->
  validate fuel b init p = Ok p' -> validate fuel' b true p' <> Ok r.
Proof.
  intros G E H H'. destruct (wisdom_of_estimate _ _ _ _ _ G E H) as (E1 & E2).
  apply validate_cases in H'. destruct H' as (q & HH & _).
  assert (SO : strings_ok b true p') by (apply head_ok; eauto).
  destruct SO as (_ & _ & _ & _ & _ & _ & _ & _ & _ & _ & _ & _ & W).
  destruct (W E1) as [W'|[W'|W']]; [congruence|rewrite E2 in W'; discriminate|].
  rewrite E2 in W'. apply expand_spec in W'. discriminate.
Qed.

(** Copying: everything but the shape. *)
Theorem copy_params_iff p : copy_params p = p <-> shape (msr p) = "diag".
Proof.
  split.
  - intros H. apply (f_equal (fun q => shape (msr q))) in H. symmetry. exact H.
  - intros E. unfold copy_params. destruct p as [pa s m c]. destruct m; cbn in *. now subst.
Qed.

(** The default path for binned vectors forgets the output tag when the
    directory name is long. *)
Lemma stake_short n a b : (n <= String.length a)%nat -> stake n (a ++ b) = stake n a.
Proof.
  revert a; induction n as [|n IH]; intros [|c a] L; simpl in *; try lia; auto.
  rewrite IH by lia. reflexivity.
Qed.

Theorem default_bvec_truncated mdir tag tag' :
  (1009 <= String.length mdir)%nat -> default_bvec mdir tag = default_bvec mdir tag'.
Proof.
  intros L. unfold default_bvec, snprintf1024. rewrite <- !sapp_assoc.
  assert (K : (1023 <= String.length (mdir ++ "binned_vectors"))%nat).
  { rewrite slength_app. change (String.length "binned_vectors") with 14%nat. lia. }
  now rewrite (stake_short _ _ tag K), (stake_short _ _ tag' K).
Qed.

Theorem default_bvec_tag mdir tag tag' :
  (String.length mdir + String.length tag <= 1009)%nat ->
  (String.length mdir + String.length tag' <= 1009)%nat ->
  default_bvec mdir tag = default_bvec mdir tag' -> tag = tag'.
Proof.
  intros L L'. unfold default_bvec, snprintf1024.
  assert (ST : forall n s, (String.length s <= n)%nat -> stake n s = s).
  { induction n as [|n IH]; intros [|c s] K; simpl in *; try lia; auto. rewrite IH by lia. reflexivity. }
  rewrite !ST by (rewrite !slength_app; change (String.length "binned_vectors") with 14%nat; lia).
  intros H. apply sapp_inv_head in H. now apply sapp_inv_head in H.
Qed.

(* ------------------------------------------------------------------ *)
(** * The mixed-mesh normalisation *)

(** The normalisation re-validates a copy of the validated set as if it were
    new: with the "estimate" planner it always fails. *)
Theorem norm_params_estimate fuel fuel' b init p p' side n assign q :
  gpu b = false -> fftw_scheme (msc p) = "estimate" ->
  validate fuel b init p = Ok p' -> norm_params fuel' b side n assign p' <> Ok q.
Proof.
  intros G E H H'. destruct (wisdom_of_estimate _ _ _ _ _ G E H) as (E1 & E2).
  unfold norm_params in H'. apply validate_cases in H'. destruct H' as (r & HH & _).
  apply ex_intro with (x := r) in HH. apply head_ok in HH.
  destruct HH as (_ & _ & _ & _ & _ & _ & _ & _ & _ & _ & _ & _ & W).
  cbn [msc copy_params] in W.
  destruct (W E1) as [W'|[W'|W']]; [congruence|rewrite E2 in W'; discriminate|].
  rewrite E2 in W'. apply expand_spec in W'. discriminate.
Qed.

(** With another planner it switches wisdom on, in the root directory. *)
Theorem norm_params_wisdom fuel b side n assign p q :
  gpu b = false -> use_fftw_wisdom (msc p) = "" -> (0 < n)%Z ->
  norm_params fuel b side n assign p = Ok q ->
  use_fftw_wisdom (msc q) = "/" /\
  wisdom_file_f (msc q) = wisdom_name b "/" "cif" (T3 n n n).
Proof.
  intros G E Pn H. unfold norm_params in H. apply validate_cases in H.
  destruct H as (r & HH & [(_ & _ & _ & HT)|(_ & N & _)]).
  - destruct (head_parts _ _ _ _ HH) as (_ & _ & _ & (c & HF & EC)).
    destruct (head_vals _ _ _ _ HH) as (_ & _ & EG & _). cbn [smp ngrid] in EG. rewrite EG in HF.
    cbn [msc copy_params] in HF. unfold val_fftw in HF. rewrite G, E in HF.
    cbn [negb String.eqb append] in HF. apply bind_ok_iff in HF. destruct HF as (x & _ & HF).
    cbv zeta in HF. rewrite (expand_plain _ "/") in HF by frees.
    cbn [String.eqb negb] in HF. destruct (_ && _); [discriminate|]. injection HF as <-.
    assert (K : use_fftw_wisdom (msc r) = "/" /\
                wisdom_file_f (msc r) = wisdom_name b "/" "cif" (T3 n n n)) by (rewrite EC; auto).
    apply tail_val in HT. destruct HT as (_ & _ & _ & _ & _ & ->). destruct (_ && _); exact K.
  - exfalso. cbn [smp ngrid] in N. unfold cells in N. cbn in N. nia.
Qed.

(* ------------------------------------------------------------------ *)
(** * Concrete cases *)

Definition demo_build : build :=
  {| extcall := true; gpu := false; fftw_omp := false; environ := fun _ => None |}.

Definition demo (st frm il scheme file : string) (box : triple R) (n : triple Z) (cut : R)
  : params :=
  {| pths := {| catalogue_dir := "cats"; measurement_dir := "out"; data_file := file;
                rand_file := ""; data_files := []; rand_files := []; output_tag := "_a" |};
     smp := {| boxsize := box; ngrid := n; expand := 1; cutoff_nyq := cut;
               alignment := "centre"; padscale := "box"; padfactor := 0;
               assignment := "tsc"; interlace := il; volume := 0; nmesh := 0;
               assignment_order := 0 |};
     msr := {| catalogue_type := "sim"; statistic_type := st; npoint := ""; space := "";
               ell1 := 0; ell2 := 0; ELL := 0; form := frm; norm_convention := "particle";
               shape := "diag"; binning := "lin"; bin_min := 1; bin_max := 2;
               num_bins := 10; idx_bin := 0 |};
     msc := {| fftw_scheme := scheme; planner_flag := PlanMeasure;
               use_fftw_wisdom := "false"; wisdom_file_f := ""; wisdom_file_b := "";
               save_binned_vectors := "false" |} |}.

Lemma demo_acceptable b st frm il scheme file box n cut g init :
  In st ["powspec"; "2pcf"; "bispec"; "3pcf"] -> In frm ["full"; "diag"] ->
  In il ["true"; "on"; "false"; "off"] -> In scheme ["estimate"; "measure"; "patient"] ->
  0 <= cut ->
  acceptable b init (demo st frm il scheme file box n cut) g.
Proof.
  intros HS HF HI HC C. split.
  - unfold strings_ok. cbv zeta.
    cbn [demo smp msr msc catalogue_type statistic_type alignment padscale assignment interlace
         form norm_convention binning fftw_scheme use_fftw_wisdom].
    split; [intros _; cbn in *; intuition|]. split; [intros _; split; discriminate|].
    split; [intros W; cbn in HS, W; intuition congruence|].
    split; [cbn; auto|]. split; [cbn; auto|]. split; [cbn; auto|]. split; [exact HI|].
    split; [cbn in *; intuition|]. split; [cbn; auto|]. split; [discriminate|].
    split; [cbn; auto|]. split; [intros _; exact HC|]. intros _. right. now left.
  - unfold numbers_ok. cbv zeta.
    cbn [demo smp msr expand cutoff_nyq alignment padfactor padscale bin_min bin_max num_bins
         idx_bin binning form boxsize ngrid].
    split; [intros _; lra|]. split; [intros _; exact C|]. split; [discriminate|].
    split; [lra|]. split; [lia|]. split; [cbn; intuition discriminate|]. split; [lia|].
    intros E. cbn in HF. intuition congruence.
Qed.

(** A three-point set asking for interlacing and the full form: accepted,
    with interlacing off and the upper-triangular shape. *)
Example validate_case : exists p',
  validate 0 demo_build true
    (demo "bispec" "full" "on" "measure" "a.dat" (T3 1000 1000 1000) (T3 64 64 64)%Z 0) = Ok p' /\
  interlace (smp p') = "false" /\ shape (msr p') = "triu" /\
  nmesh (smp p') = 262144%Z /\ assignment_order (smp p') = 3%Z /\
  data_files (pths p') = ["cats/a.dat"] /\
  validate 0 demo_build false p' = Ok p'.
Proof.
  set (p := demo _ _ _ _ _ _ _ _).
  destruct (proj2 (validate_accepts 0 demo_build true p ltac:(right; reflexivity)))
    as (p' & H).
  { apply demo_acceptable; cbn; auto 6. lra. }
  exists p'. split; [exact H|].
  pose proof (validate_outcome _ _ _ _ _ H) as (U & K & IL).
  pose proof (validate_grid _ _ _ _ _ H) as (G & _).
  unfold untouched in U. unfold consistent in K. destruct K as (K1 & _ & K3 & K4 & K5 & _).
  assert (NP : npoint (msr p') = "3pt").
  { destruct K4 as [K4|(K4 & _)]; cbn in K4; [intuition congruence|]. exfalso. tauto. }
  assert (DF : data_files (pths p') = ["cats/a.dat"]).
  { rewrite (validate_data_files 0 demo_build p p' ["a.dat"]); auto.
    - right; reflexivity.
    - right; left; reflexivity.
    - discriminate.
    - constructor; [|constructor]. unfold clean. split; [reflexivity|].
      intros a b E. repeat (destruct a as [|? a]; [simpl in E; try discriminate|simpl in E; injection E as _ E]);
        simpl; lia.
    - constructor; [|constructor]. exists "", "a"%char, ".dat". split; [reflexivity|]. cbn. lia.
    - unfold no_refs. repeat split; frees.
    - exists "", "c"%char, "ats". split; [reflexivity|]. cbn. lia. }
  split; [unfold interlacing_settled in IL; rewrite IL, NP; reflexivity|].
  split.
  { destruct U as (_ & _ & _ & _ & _ & _ & _ & _ & _ & E1 & E2 & _ & E3 & _).
    apply K5; [now rewrite E3|now rewrite E1, E2]. }
  split; [rewrite K3, (G ltac:(right; reflexivity)); reflexivity|].
  split.
  { destruct U as (_ & _ & _ & _ & _ & _ & E & _). rewrite E in K1. cbn in K1. intuition congruence. }
  split; [exact DF|].
  apply (validate_again 0 0 demo_build true p); auto.
  - unfold no_refs. repeat split; frees.
  - frees.
  - split.
    + rewrite DF. constructor; [|constructor]. exists "", "c"%char, "ats/a.dat". split; [reflexivity|]. cbn. lia.
    + apply validate_paths in H; [|right; reflexivity].
      unfold val_files in H. cbn [catalogue_type msr p demo] in H.
      cbn [bind String.eqb Ascii.eqb Bool.eqb fst snd] in H. injection H as <-. constructor.
Qed.

(** C29 refuted: a box with two negative sides is accepted. *)
Theorem validate_negative_box_refuted :
  exists p p', ax0 (boxsize (smp p)) < 0 /\ ax1 (boxsize (smp p)) < 0 /\
    validate 0 demo_build true p = Ok p'.
Proof.
  set (p := demo "powspec" "diag" "false" "measure" "" (T3 (-1) (-1) 1) (T3 64 64 64)%Z 0).
  destruct (proj2 (validate_accepts 0 demo_build true p ltac:(right; reflexivity)))
    as (p' & H).
  { apply demo_acceptable; cbn; auto 6. lra. }
  exists p, p'. cbn. split; [lra|]. split; [lra|exact H].
Qed.

(** C29 refuted: a set within the documented constraints whose validation
    never ends. *)
Theorem validate_terminates_refuted :
  exists p, acceptable demo_build true p (ngrid (smp p)) /\
    forall fuel, validate fuel demo_build true p = Err OutOfFuel.
Proof.
  set (p := demo "powspec" "diag" "false" "measure" "" (T3 1 1 1) (T3 0 0 0)%Z 0).
  exists p.
  assert (A : acceptable demo_build true p (ngrid (smp p))).
  { apply demo_acceptable; cbn; auto 6. lra. }
  split; [exact A|]. apply zero_cutoff_diverges.
  - unfold vol. cbn [p demo smp boxsize ax0 ax1 ax2]. lra.
  - cbv. discriminate.
  - reflexivity.
  - apply A.
  - intros np sp [H|(H & _)]; cbn in H; [intuition congruence|]. exfalso. tauto.
Qed.

(** C29 refuted: validating twice as if new fails. *)
Theorem validate_init_twice_refuted :
  exists p p', validate 0 demo_build true p = Ok p' /\
    forall fuel r, validate fuel demo_build true p' <> Ok r.
Proof.
  set (p := demo "powspec" "diag" "false" "estimate" "" (T3 1 1 1) (T3 64 64 64)%Z 0).
  destruct (proj2 (validate_accepts 0 demo_build true p ltac:(right; reflexivity)))
    as (p' & H).
  { apply demo_acceptable; cbn; auto 6. lra. }
  exists p, p'. split; [exact H|]. intros fuel r.
  now apply (validate_init_twice_estimate 0 fuel demo_build true p p' r).
Qed.

(** C29 refuted: a list with an empty name loses it on re-validation. *)
Theorem validate_again_refuted :
  exists p p' p'', validate 0 demo_build false p = Ok p' /\
    validate 0 demo_build false p' = Ok p'' /\
    data_files (pths p') = ["/a"; ""] /\ data_files (pths p'') = ["/a"].
Proof.
  set (p := demo "powspec" "diag" "false" "measure" "/a::::" (T3 1 1 1) (T3 64 64 64)%Z 0).
  destruct (proj2 (validate_accepts 0 demo_build false p ltac:(right; reflexivity)))
    as (p' & H).
  { apply demo_acceptable; cbn; auto 6. lra. }
  assert (D : data_file (pths p') = "/a::" /\ data_files (pths p') = ["/a"; ""]).
  { apply validate_paths in H; [|right; reflexivity].
    cbn in H. injection H as <-. auto. }
  destruct D as (D1 & D2).
  pose proof (validate_outcome _ _ _ _ _ H) as (U & K & IL).
  pose proof (validate_grid _ _ _ _ _ H) as (G & _). specialize (G ltac:(right; reflexivity)).
  assert (N : (0 < cells (ngrid (smp p')))%Z) by (rewrite G; reflexivity).
  destruct (validate_accepts_again 0 0 _ _ _ _ H) as (p'' & T).
  exists p, p', p''. repeat split; auto.
  apply validate_paths in T; [|auto].
  assert (CT : catalogue_type (msr p') = "sim") by apply U.
  unfold val_files in T. rewrite CT in T. cbn [bind String.eqb Ascii.eqb Bool.eqb fst snd] in T.
  unfold val_dirs in T. cbn [data_file] in T. rewrite D1 in T. injection T as T.
  apply (f_equal data_files) in T. cbn [data_files] in T. rewrite <- T. reflexivity.
Qed.

(** C29 refuted: a value of an environment variable that itself reads as a
    reference is expanded by the next validation. *)
Theorem validate_env_refuted :
  exists b p p' p'', validate 0 b false p = Ok p' /\ validate 0 b false p' = Ok p'' /\
    measurement_dir (pths p') <> measurement_dir (pths p'').
Proof.
  set (b := {| extcall := true; gpu := false; fftw_omp := false;
               environ := fun v => if v =? "X" then Some "${Y}"
                                   else if v =? "Y" then Some "out" else None |}).
  pose (p0 := demo "powspec" "diag" "false" "measure" "" (T3 1 1 1) (T3 64 64 64)%Z 0).
  pose (p := {| pths := {| catalogue_dir := ""; measurement_dir := "${X}"; data_file := "";
                rand_file := ""; data_files := []; rand_files := []; output_tag := "" |};
                smp := smp p0; msr := msr p0; msc := msc p0 |}).
  destruct (proj2 (validate_accepts 0 b false p ltac:(right; reflexivity))) as (p' & H).
  { apply (demo_acceptable b "powspec" "diag" "false" "measure" "" (T3 1 1 1) (T3 64 64 64)%Z 0);
      cbn; auto 6. lra. }
  destruct (validate_accepts_again 0 0 _ _ _ _ H) as (p'' & T).
  exists b, p, p', p''. split; [exact H|]. split; [exact T|].
  pose proof (validate_outcome _ _ _ _ _ H) as (U & _ & _).
  pose proof (validate_grid _ _ _ _ _ H) as (G & _). specialize (G ltac:(right; reflexivity)).
  apply validate_paths in H; [|right; reflexivity].
  apply validate_paths in T; [|right; rewrite G; reflexivity].
  assert (CT : catalogue_type (msr p') = "sim") by apply U.
  cbn in H. injection H as H. unfold val_files in T. rewrite CT in T.
  cbn [bind String.eqb Ascii.eqb Bool.eqb fst snd] in T. injection T as T.
  apply (f_equal measurement_dir) in T. cbn [measurement_dir val_dirs] in T.
  rewrite <- T, <- H. cbn. discriminate.
Qed.

(** The mixed-mesh normalisation of a validated set fails. *)
Theorem norm_params_refuted :
  exists p p', validate 0 demo_build true p = Ok p' /\
    forall fuel side n assign q, norm_params fuel demo_build side n assign p' <> Ok q.
Proof.
  set (p := demo "powspec" "diag" "false" "estimate" "" (T3 1 1 1) (T3 64 64 64)%Z 0).
  destruct (proj2 (validate_accepts 0 demo_build true p ltac:(right; reflexivity)))
    as (p' & H).
  { apply demo_acceptable; cbn; auto 6. lra. }
  exists p, p'. split; [exact H|]. intros fuel side n assign q.
  now apply (norm_params_estimate 0 fuel demo_build true p p').
Qed.

(** Copying a validated full-form set loses its shape. *)
Theorem copy_params_refuted :
  exists p p', validate 0 demo_build true p = Ok p' /\ copy_params p' <> p'.
Proof.
  destruct validate_case as (p' & H & _ & S & _). eexists. exists p'. split; [exact H|].
  intros E. apply copy_params_iff in E. congruence.
Qed.

Print Assumptions cutoff_ngrid_best.
Print Assumptions validate_accepts.
Print Assumptions validate_accepts_cutoff.
Print Assumptions validate_outcome.
Print Assumptions validate_again.
