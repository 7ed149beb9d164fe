(* C111 (a window's header against its measurement) and C112 (what saving
   from Python ends in). *)
From Coq Require Import String Ascii List Arith ZArith Reals Bool Lia Lra.
From Verif Require Import Base StrModel StrProps Dec ArrayModel ArrayProofs
  MeshModel LoadModel LoadProps SaveModel SaveProps SaveHeadProps
  CatModel CatProps PyCatModel PyCatProps ParamModel ParamProps ParamValProps ParamFixProps.
From Verif Require Import PyParamModel PyParamProofs PyParamProps PyAmalgModel PyAmalgProps.
From Verif Require Import PyRunModel PyRunProps PyBoxProps PyWinProps PyLetterProps PyGivenProps PyAgainProps.
From Verif Require ParamFileModel MainModel MainProps FileNameModel FileNameProps BinningModel.
Import ListNotations.
Local Open Scope R_scope.
Local Open Scope nat_scope.
Local Open Scope string_scope.

(* ------------------------------------------------------------------ *)
(** * A window of one random, saved *)

Definition wsave (align : string) : dict :=
  dset "assignment" (VStr "tsc") (dset "form" (VStr "full") (dset "idx_bin" VNone
    (dset "tags" (VDict [("output", VStr "_w")]) (wdemo align)))).

Definition with_orders (s : pset) (o : option (Z * Z)) : args :=
  {| sampling := None; degree := None; degrees := None; orders := o; PyRunModel.binning := None;
     PyRunModel.form := None; index := None; paramset := Some s; los_data := None; los_rand := None |}.

Definition ordered (o : option (Z * Z)) (d : dict) : dict :=
  match o, dget "wa_orders" d with
  | Some (i, j), Some (VDict f) => dset "wa_orders" (VDict (dset "j" (VInt j) (dset "i" (VInt i) f))) d
  | _, _ => d
  end.

Lemma prepared_orders fuel e three ct st s o f : dget "wa_orders" (entries s) = Some (VDict f) ->
  prepared fuel e three ct st (with_orders s o)
  = python (as_pset (update fuel e (types ct st) {| entries := ordered o (entries s); cpp := cpp s; bar := bar s |})).
Proof.
  intros W. unfold prepared, with_orders. cbn [paramset sampling]. unfold amalgamate_set, ordered. rewrite W.
  rewrite overrides_none.
  unfold overrides, modify_sampling, modify_measurement, check_defaults, override, poke_dict, poke_list, has.
  assert (DS : forall k (v w : pyval) d, dset k v (dset k w d) = dset k v d).
  { intros k v w d. induction d as [|[k' x] d IH]; cbn [dset].
    - now rewrite String.eqb_refl.
    - destruct (k' =? k) eqn:E; cbn [dset]; rewrite ?String.eqb_refl, ?E; [reflexivity|]. now rewrite IH. }
  destruct o as [[i j]|]; cbn -[dset]; destruct s as [en q pb]; cbn [entries cpp bar] in *;
  rewrite !andb_false_r; cbn -[dset].
  - rewrite W. cbn -[dset]. rewrite dget_dset_same. cbn -[dset]. rewrite DS.
    destruct (update fuel e _ _) as [d [[q' pb']|x]]; cbn [snd]; [reflexivity|]. destruct x; reflexivity.
  - destruct (update fuel e _ _) as [d [[q' pb']|x]]; cbn [snd]; [reflexivity|]. destruct x; reflexivity.
Qed.
Lemma prepared_wsave align o : 
  In (align, o) [("centre", None); ("pad", None); ("centre", Some (1%Z, 0%Z)); ("centre", Some (2%Z, 0%Z))] -> exists s q,
  built (construct 0 demo_env (wsave align)) s /\
  prepared 0 demo_env true "random" "3pcf-win" (with_orders s o) = Returns q /\ spelled q /\
  unset q "boxsize" = false /\ ParamModel.binning (msr (cpp q)) = "lin" /\
  boxsize (smp (cpp q)) = T3 1000%R 1000%R 1000%R /\
  volume (smp (cpp q)) = (1000 * 1000 * 1000)%R /\
  norm_convention (msr (cpp q)) = "particle" /\ dget "alignment" (entries q) = Some (VStr align) /\
  directory true q = Returns (Some "out") /\ (exists ns, py_names demo_env true q = Returns ns) /\
  (exists v, dget "assignment" (entries q) = Some (VStr v) /\ newline_free v) /\
  (exists b, dget "interlace" (entries q) = Some (VBool b)) /\
  is_fourier q = Returns false /\ degree_entries true q "000" /\
  saved_path demo_env true (Some "out") FileNameModel.Txt q = Returns ["out"; "zetaw000_full_w.txt"] /\
  match o with
  | Some (i, j) => dget "wa_orders" (entries q) = Some (VDict [("i", VInt i); ("j", VInt j)])
  | None => True
  end.
Proof.
  intros I. cbn [In] in I. decompose [or] I; try contradiction;
  match goal with H : (_, _) = (_, _) |- _ => injection H as <- <- end; clear I;
  (eexists; eexists; split; [unfold built, construct, setitem, update; cbn [dupdate entries cpp bar]; run_pad|]; split;
   [erewrite prepared_orders by reflexivity; unfold types; apply python_returns; unfold update, ordered; cbn [dupdate entries cpp bar]; run_pad
   |split]; [split; try reflexivity; [eexists; split; [reflexivity|discriminate]|eexists; eexists; reflexivity]|]).
  all: repeat match goal with |- _ /\ _ => split end; try exact Logic.I; try reflexivity.
  all: try (eexists; reflexivity).
  all: try (eexists; split; [reflexivity|]; now apply newline_free_avoids).
  all: eexists; split; [reflexivity|]; do 3 eexists; repeat split; reflexivity.
Qed.

Definition one_cat : pycat :=
  PyCat [1%R] [2%R] [3%R] [1%R] [1%R] [1%R] (T3 (1, 1) (2, 2) (3, 3))%R (T3 (1 - 1) (2 - 2) (3 - 3))%R 1 (1 * 1 + 0) (1 + 0).

Lemma one_cat_step : py_in_step one_cat.
Proof.
  split; [repeat split|]. split; [|repeat split; cbn; lra].
  intros i. unfold range_of. destruct i; cbn; (split; [split; [now left|split; [now left|intros x [<-|[]]; lra]]|reflexivity]).
Qed.

(** Saving goes through once its parts do. *)
Lemma run_lines_made odd e three s n ns f L al g asg il c :
  py_names e three s = Returns ns -> py_factor s n = Returns f -> box_of s = Returns L ->
  text_entry e s "alignment" = Returns al -> grid_of s = Returns g -> text_entry e s "assignment" = Returns asg ->
  text_entry e s "interlace" = Returns il -> text_entry e s "norm_convention" = Returns c ->
  exists lines, py_run_lines odd e three s n = Returns lines.
Proof.
  intros A B C D E F G H. unfold py_run_lines.
  rewrite A, B, C, D, E, F, G, H. cbn [PyRunModel.andthen]. eexists. reflexivity.
Qed.

Lemma text_saved odd e three oe cats t s n x d lines sp tb path :
  lower t = ".txt" -> directory oe s = Returns d -> py_run_lines odd e three s n = Returns lines ->
  is_fourier s = Returns sp -> py_table three sp x = Returns tb ->
  saved_path e three d FileNameModel.Txt s = Returns path ->
  py_save odd e three oe cats (SaveAs t) s n x
    = Returns (Some (path, TextFile (written (map comment (cats ++ lines) ++ tb)%list))).
Proof.
  intros T D L F TB P. unfold py_save, py_header.
  destruct t as [|c t]; [discriminate|]. rewrite D, L. cbn [PyRunModel.andthen]. rewrite T.
  change (".txt" =? ".txt") with true. cbv iota. rewrite F. cbn [PyRunModel.andthen].
  rewrite TB. cbn [PyRunModel.andthen]. rewrite P. reflexivity.
Qed.

Lemma text_entry_is e s k v : dget k (entries s) = Some v -> text_entry e s k = Returns (py_str e v).
Proof. intros H. unfold text_entry. rewrite (entry_is _ _ _ H). reflexivity. Qed.

(** The file of a window function of one random. *)
Lemma window_saved_demo align o measure source z :
  In (align, o) [("centre", None); ("pad", None); ("centre", Some (1%Z, 0%Z)); ("centre", Some (2%Z, 0%Z))] ->
  (forall c, measure c = Zeta z) -> newline_free (source 1) -> exists s y text u l,
  built (construct 0 demo_env (wsave align)) s /\
  window_saved "nan" measure source 0 demo_env true (with_orders s o) (SaveAs ".txt") 1 (fun _ => one_cat)
    = Returns (y, Some (["out"; "zetaw000_full_w.txt"], TextFile text)) /\
  says text ("Box alignment: " ++ align) /\
  from_rand (called y) = Some ([u], l) /\ p_pos u = T3 500%R 500%R 500%R /\
  stat (called y) = MainModel.ThreePcfWindow (match o with Some _ => true | None => false end) /\
  match o with
  | Some (i, j) => dget "wa_orders" (entries (used y)) = Some (VDict [("i", VInt i); ("j", VInt j)])
  | None => True
  end.
Proof.
  intros I ZE SF.
  destruct (prepared_wsave align o I) as (s & q & BU & PR & SP & UB & BL & BX & VO & NC & AL & DI & (ns & NS)
    & (asg & AS & FA) & (il & IL) & FO & DE & PA & WO).
  pose proof (prepared_facts _ _ _ _ _ _ _ PR) as PF.
  destruct (parsed_settled _ _ _ _ PF ltac:(cbn; tauto) ltac:(cbn; tauto)) as (_ & CK & ST).
  destruct (bins_made _ _ _ _ PF (sp_bin _ SP) (sp_range _ SP) ST) as (b & BM).
  { rewrite BL. cbn; auto. } { rewrite BL. intros (Q & _). discriminate Q. }
  set (L := T3 1000%R 1000%R 1000%R) in *.
  assert (PL : forall i, (0 < at_axis i L)%R) by (intros []; cbn; lra).
  destruct (window_outcome 0 demo_env true (with_orders s o) 1 (fun _ => one_cat) q b _
              eq_refl PR ltac:(unfold bins_of; exact BM) UB ltac:(rewrite VO; lra) ltac:(now rewrite BX)
              one_cat_step (sp_norm _ SP)) as (OK & _).
  { unfold MainProps.total, rsum. cbn. lra. }
  destruct OK as (y & ps & BX1 & UX & FC & FD & _ & _ & SN & _). { eexists. split; [reflexivity|]. rewrite NC. cbn. auto. }
  destruct (run_lines_made "nan" demo_env true q (factors y) ns (n_part (factors y)) L align (ngrid (smp (cpp q))) asg
              (py_str demo_env (VBool il)) "particle" NS) as (lines & RL).
  { unfold py_factor. rewrite (entry_is _ _ _ (sp_norm _ SP)), NC. reflexivity. }
  { rewrite (pr_box _ _ _ _ PF UB), BX. reflexivity. }
  { exact (text_entry_is _ _ _ _ AL). } { exact (sp_grid _ SP). } { exact (text_entry_is _ _ _ _ AS). }
  { exact (text_entry_is _ _ _ _ IL). } { rewrite (text_entry_is _ _ _ _ (sp_norm _ SP)), NC. reflexivity. }
  assert (W : exists text, window_saved "nan" measure source 0 demo_env true (with_orders s o) (SaveAs ".txt") 1 (fun _ => one_cat)
    = Returns (y, Some (["out"; "zetaw000_full_w.txt"], TextFile text))).
  { eexists. unfold window_saved. rewrite BX1. cbn [PyRunModel.andthen]. rewrite UX, ZE.
    erewrite text_saved; [reflexivity|reflexivity|exact DI|exact RL|exact FO|reflexivity|exact PA]. }
  destruct W as (text & W).
  inversion FC as [|? u ? us (_ & CE) FN E1 E2]. inversion FN; subst us ps.
  exists s, y, text, u. eexists. split; [exact BU|]. split; [exact W|]. split; [|split; [exact FD|split; [|split; [exact SN|rewrite UX; exact WO]]]].
  - destruct (window_file measure source "nan" 0 demo_env true (with_orders s o) (SaveAs ".txt") 1 (fun _ => one_cat) y ["out"; "zetaw000_full_w.txt"] text "000")
      as (_ & T & _).
    + exact one_cat_step.
    + exact SF.
    + split; [now apply newline_free_avoids|]. rewrite UX. split; [|exact DE].
      intros k v K G. apply newline_free_avoids. cbn [In] in K.
      destruct K as [<-|[<-|[<-|[<-|[]]]]].
      * rewrite AL in G. injection G as <-. cbn [In] in I; decompose [or] I; try contradiction; match goal with H : (_, _) = (_, _) |- _ => injection H as <- <- end; reflexivity.
      * rewrite AS in G. injection G as <-. now apply newline_free_avoids.
      * rewrite IL in G. injection G as <-. now destruct il.
      * rewrite (sp_norm _ SP), NC in G. injection G as <-. reflexivity.
    + exact W.
    + destruct (tl_align _ _ _ _ _ T) as (v & G & S). rewrite UX, AL in G. injection G as <-. cbn [py_str] in S.
      rewrite sapp_nil_r in S. exact S.
  - subst. destruct u as [[y0 y1 y2] ? ? ? ?]. rewrite BX in CE.
    pose proof (CE AX) as (B0 & m0 & G0). pose proof (CE AY) as (B1 & m1 & G1). pose proof (CE AZ) as (B2 & m2 & G2).
    cbn [at_axis ax0 ax1 ax2 p_pos fst snd L bounds one_cat] in *.
    apply stays in G0; [|lra|lra]. apply stays in G1; [|lra|lra]. apply stays in G2; [|lra|lra].
    subst. f_equal; lra.
Qed.

(** C111: the alignment stated need not be the one applied: the particle is at
    the middle of the box, where padding by a tenth would put it at 100. *)
Theorem header_alignment_refuted : forall measure source z,
  (forall c, measure c = Zeta z) -> newline_free (source 1) -> exists s y path text u l,
  built (construct 0 demo_env (wsave "pad")) s /\
  window_saved "nan" measure source 0 demo_env true (with_set s) (SaveAs ".txt") 1 (fun _ => one_cat)
    = Returns (y, Some (path, TextFile text)) /\
  says text "Box alignment: pad" /\
  from_rand (called y) = Some ([u], l) /\ p_pos u = T3 500%R 500%R 500%R.
Proof.
  intros measure source z Z F.
  destruct (window_saved_demo "pad" None measure source z ltac:(cbn; auto) Z F)
    as (s & y & text & u & l & H1 & H2 & H3 & H4 & H5 & _).
  exists s, y, ["out"; "zetaw000_full_w.txt"], text, u, l. repeat split; assumption.
Qed.

(** A file saved and what it says. *)
Example header_case : forall z, exists s y text,
  built (construct 0 demo_env (wsave "centre")) s /\
  window_saved "nan" (fun _ => Zeta z) (fun _ => "mocks.dat") 0 demo_env true (with_set s) (SaveAs ".txt") 1
    (fun _ => one_cat) = Returns (y, Some (["out"; "zetaw000_full_w.txt"], TextFile text)) /\
  says text "Box alignment: centre".
Proof.
  intros z. destruct (window_saved_demo "centre" None (fun _ => Zeta z) (fun _ => "mocks.dat") z ltac:(cbn; auto) ltac:(reflexivity))
    as (s & y & text & u & l & B & W & S & _); [now apply newline_free_avoids|]. exists s, y, text. repeat split; assumption.
Qed.

(* ------------------------------------------------------------------ *)
(** * What saving ends in *)

(** A measurement and the same measurement with the argument `save`. *)
Inductive offers_saving (odd : string) (measure : call -> results) (source : nat -> string) (e : pyenv) (three : bool)
  : ends done -> (saving -> ends (done * option (list string * content))) -> Prop :=
| saves_survey fuel st name a d r s : offers_saving odd measure source e three
    (survey fuel e three st name a d r s) (fun save => survey_saved odd measure source fuel e three st name a save d r s)
| saves_box fuel st name a d s : offers_saving odd measure source e three
    (box fuel e three st name a d s) (fun save => box_saved odd measure source fuel e three st name a save d s)
| saves_window fuel a r s : offers_saving odd measure source e three
    (window fuel e three a r s) (fun save => window_saved odd measure source fuel e three a save r s).

(** The spellings of `save`. *)
Definition no_saving (save : saving) : Prop := save = NoSave \/ save = SaveAs "".
Definition as_text (save : saving) : Prop := exists t, save = SaveAs t /\ lower t = ".txt".
Definition as_archive (save : saving) : Prop := exists t b, save = SaveAs t /\ lower t = b ++ ".npz".

Lemma ends_with_spec t s : ends_with t s = true <-> exists b, s = b ++ t.
Proof.
  induction s as [|c s IH]; cbn [ends_with].
  - rewrite orb_false_r, String.eqb_eq. split; [intros <-; now exists ""|].
    intros (b & E). symmetry in E. now apply sapp_eq_nil in E as (_ & ->).
  - rewrite orb_true_iff, String.eqb_eq, IH. split.
    + intros [<-|(b & ->)]; [now exists ""|]. now exists (String c b).
    + intros ([|c' b] & E); [now left|]. right. cbn [append] in E. injection E as -> ->. now exists b.
Qed.

(** Every one of the functions is the measurement followed by saving. *)
Lemma saving_split odd measure source e three run saved : offers_saving odd measure source e three run saved ->
  exists oe cats, forall save, saved save = PyRunModel.andthen run (fun x =>
    PyRunModel.andthen (py_save odd e three oe (cats x) save (used x) (factors x) (measure (called x)))
      (fun f => Returns (x, f))).
Proof.
  intros []; [exists true, (fun x => py_catalogue_lines "Data catalogue" "Data-source" (source d) (after x d)
              ++ py_catalogue_lines "Random catalogue" "Random-source" (source r) (after x r))%list
    |exists true, (fun x => py_catalogue_lines "Catalogue" "Catalogue" (source d) (after x d))
    |exists three, (fun x => py_catalogue_lines "Catalogue" "Catalogue" (source r) (after x r))]; reflexivity.
Qed.

(** C112: nothing is saved unless the measurement is made, and the measurement
    does not depend on saving. *)
Theorem measured_first : forall odd measure source e three run saved save,
  offers_saving odd measure source e three run saved ->
  (forall x, run = Raises x -> saved save = Raises x) /\
  (run = Undefined -> saved save = Undefined) /\ (run = Unfollowed -> saved save = Unfollowed) /\
  (forall y f, saved save = Returns (y, f) -> run = Returns y).
Proof.
  intros odd measure source e three run saved save O. destruct (saving_split _ _ _ _ _ _ _ O) as (oe & cats & E).
  rewrite E. split; [now intros x ->|]. do 2 (split; [now intros ->|]).
  intros y f H. step H x R. step H g G. assert (x = y) as <- by congruence. exact R.
Qed.

Lemma py_save_none odd e three oe cats save s n x : no_saving save -> py_save odd e three oe cats save s n x = Returns None.
Proof. now intros [-> | ->]. Qed.

Lemma py_save_other odd e three oe cats save s n x : ~ no_saving save -> py_save odd e three oe cats save s n x =
  PyRunModel.andthen (directory oe s) (fun dir => PyRunModel.andthen (py_header odd e three cats s n) (fun header =>
    match save with
        | SaveAs t =>
            if lower t =? ".txt" then
              PyRunModel.andthen (is_fourier s) (fun sp => 
              PyRunModel.andthen (py_table three sp x) (fun table =>
              PyRunModel.andthen (saved_path e three dir FileNameModel.Txt s) (fun path =>
              Returns (Some (path, TextFile (written (map comment header ++ table)%list))))))
            else if ends_with ".npz" (lower t) then
              PyRunModel.andthen (saved_path e three dir FileNameModel.Npz s) (fun path =>
              Returns (Some (path, Archive (String.concat (String ParamFileModel.newline "") header))))
            else Raises ValueError
        | _ => Raises AttributeError
        end)).
Proof.
  intros N. destruct save as [|[|c t]|]; [exfalso; apply N; now left|exfalso; apply N; now right|reflexivity|reflexivity].
Qed.

Lemma no_saving_dec save : no_saving save \/ ~ no_saving save.
Proof.
  destruct save as [|[|c t]|]; [left; now left|left; now right| |]; right; intros [H|H]; discriminate.
Qed.

(** C112: the kind of file made follows from the argument and the rest of the
    argument has no effect. *)
Theorem saved_kinds : forall odd measure source e three run saved save y f,
  offers_saving odd measure source e three run saved -> saved save = Returns (y, f) ->
  (no_saving save /\ f = None) \/
  (as_text save /\ exists path text, f = Some (path, TextFile text)) \/
  (as_archive save /\ exists path header, f = Some (path, Archive header)).
Proof.
  intros odd measure source e three run saved save y f O H. destruct (saving_split _ _ _ _ _ _ _ O) as (oe & cats & E).
  rewrite E in H. step H x R. step H g G. assert (g = f) as -> by congruence. clear H.
  destruct (no_saving_dec save) as [N|N].
  { left. split; [exact N|]. rewrite (py_save_none _ _ _ _ _ _ _ _ _ N) in G. congruence. }
  rewrite (py_save_other _ _ _ _ _ _ _ _ _ N) in G. step G d D. step G h HD.
  destruct save as [|t|]; try discriminate G.
  destruct (String.eqb_spec (lower t) ".txt") as [T|T].
  - right. left. split; [now exists t|]. step G sp SP. step G tb TB. step G p P. eexists _, _. symmetry.
    exact (f_equal (fun e => match e with Returns a => a | _ => None end) G).
  - destruct (ends_with ".npz" (lower t)) eqn:Z; [|discriminate G].
    apply ends_with_spec in Z as (b & Z). right. right. split; [now exists t, b|]. step G p P. eexists _, _. symmetry.
    exact (f_equal (fun e => match e with Returns a => a | _ => None end) G).
Qed.

Theorem saved_alike : forall odd measure source e three run saved save save',
  offers_saving odd measure source e three run saved ->
  no_saving save /\ no_saving save' \/ as_text save /\ as_text save' \/ as_archive save /\ as_archive save' ->
  saved save = saved save'.
Proof.
  intros odd measure source e three run saved save save' O K. destruct (saving_split _ _ _ _ _ _ _ O) as (oe & cats & E).
  rewrite !E. destruct run as [x| | |]; try reflexivity. cbn [PyRunModel.andthen].
  assert (NZ : forall b, b ++ ".npz" <> ".txt").
  { intros b Q. apply (f_equal (ends_with ".npz")) in Q. rewrite (proj2 (ends_with_spec _ _)) in Q by now exists b. discriminate Q. }
  assert (NN : forall b, b ++ ".npz" <> "") by (intros [|? ?]; discriminate).
  destruct K as [(A & B)|[((t & -> & A) & t' & -> & B)|((t & b & -> & A) & t' & b' & -> & B)]].
  - now rewrite !py_save_none.
  - rewrite !py_save_other; [now rewrite A, B|intros [Q|Q]; try discriminate Q; injection Q as ->; discriminate..].
  - rewrite !py_save_other.
    + rewrite A, B, !(proj2 (String.eqb_neq _ _) (NZ _)). rewrite !(proj2 (ends_with_spec _ _)) by eauto. reflexivity.
    + intros [Q|Q]; try discriminate Q; injection Q as ->. cbn in B. symmetry in B. now apply NN in B.
    + intros [Q|Q]; try discriminate Q; injection Q as ->. cbn in A. symmetry in A. now apply NN in A.
Qed.

(** C112: any other argument is an error, after the measurement. *)
Theorem other_formats : forall odd measure source e three run saved save y,
  offers_saving odd measure source e three run saved -> run = Returns y ->
  ~ no_saving save -> ~ as_text save -> ~ as_archive save ->
  (forall z, saved save <> Returns z) /\
  (* an archive or a text file could have been made *)
  (forall z save', ~ no_saving save' -> saved save' = Returns z ->
     saved save = Raises (match save with SaveAs _ => ValueError | _ => AttributeError end)).
Proof.
  intros odd measure source e three run saved save y O R N T A.
  assert (NR : forall z, saved save <> Returns z).
  { intros [z f] H. destruct (saved_kinds _ _ _ _ _ _ _ _ _ _ O H) as [(K & _)|[(K & _)|(K & _)]]; contradiction. }
  split; [exact NR|].
  intros z save' N' H. destruct (saving_split _ _ _ _ _ _ _ O) as (oe & cats & E). rewrite E in H |- *. rewrite R in H |- *.
  cbn [PyRunModel.andthen] in H |- *. step H g G. clear H. rewrite (py_save_other _ _ _ _ _ _ _ _ _ N') in G.
  step G d D. step G h HD. clear G. rewrite (py_save_other _ _ _ _ _ _ _ _ _ N), D. cbn [PyRunModel.andthen]. rewrite HD.
  cbn [PyRunModel.andthen]. destruct save as [|t|]; [exfalso; apply N; now left| |reflexivity].
  destruct (String.eqb_spec (lower t) ".txt") as [Q|Q]; [exfalso; apply T; now exists t|].
  destruct (ends_with ".npz" (lower t)) eqn:Z; [|reflexivity].
  apply ends_with_spec in Z as (b & Z). exfalso. apply A. now exists t, b.
Qed.

(** Spellings. *)
Example format_case : as_text (SaveAs ".TXT") /\ as_archive (SaveAs "elsewhere/pk.npz") /\
  forall measure source z, (forall c, measure c = Zeta z) -> newline_free (source 1) -> exists s,
  built (construct 0 demo_env (wsave "centre")) s /\
  window_saved "nan" measure source 0 demo_env true (with_set s) (SaveAs "txt") 1 (fun _ => one_cat) = Raises ValueError /\
  window_saved "nan" measure source 0 demo_env true (with_set s) SaveOther 1 (fun _ => one_cat) = Raises AttributeError.
Proof.
  split; [now exists ".TXT"|]. split; [now exists "elsewhere/pk.npz", "elsewhere/pk"|].
  intros measure source z Z F.
  destruct (window_saved_demo "centre" None measure source z ltac:(cbn; auto) Z F) as (s & y & text & u & l & B & W & _).
  exists s. split; [exact B|]. change (with_orders s None) with (with_set s) in W.
  pose proof (saves_window "nan" measure source demo_env true 0 (with_set s) 1 (fun _ => one_cat)) as O.
  assert (R : window 0 demo_env true (with_set s) 1 (fun _ => one_cat) = Returns y)
    by exact (proj2 (proj2 (proj2 (measured_first _ _ _ _ _ _ _ (SaveAs ".txt") O))) _ _ W).
  split; refine (proj2 (other_formats _ _ _ _ _ _ _ _ _ O R _ _ _) _ (SaveAs ".txt") _ W);
    try (intros [Q|Q]; discriminate Q); try (intros (t & Q & _); discriminate Q); try (intros (t & b & Q & _); discriminate Q).
  - intros (t & Q & T). injection Q as <-. discriminate T.
  - intros (t & b & Q & T). injection Q as <-. cbn in T. symmetry in T. 
    apply (f_equal String.length) in T. rewrite slength_app in T. cbn in T. lia.
Qed.

(** C112: entries that saving needs and measuring does not. *)
Theorem saving_needs : forall odd measure source e three run saved save y f k,
  offers_saving odd measure source e three run saved -> saved save = Returns (y, Some f) ->
  In k (["directories"; "tags"; "alignment"; "assignment"; "interlace"] ++ (if three then ["form"; "idx_bin"] else []))%list ->
  exists v, dget k (entries (used y)) = Some v.
Proof.
  intros odd measure source e three run saved save y f k O H K. destruct (saving_split _ _ _ _ _ _ _ O) as (oe & cats & E).
  rewrite E in H. step H x R. step H g G.
  assert (x = y) as -> by congruence. assert (g = Some f) as -> by congruence. clear H E.
  destruct (no_saving_dec save) as [N|N]; [rewrite (py_save_none _ _ _ _ _ _ _ _ _ N) in G; discriminate|].
  rewrite (py_save_other _ _ _ _ _ _ _ _ _ N) in G. step G d D. step G h HD.
  set (s := used y) in *.
  assert (PA : exists m, saved_path e three d m s <> saved_path e three d m s \/ exists p, saved_path e three d m s = Returns p).
  { destruct save as [|t|]; try discriminate G. destruct (lower t =? ".txt").
    - step G sp SP. step G tb TB. step G p P. eauto.
    - destruct (ends_with ".npz" (lower t)); [|discriminate G]. step G p P. eauto. }
  destruct PA as (m & [[]|(p & P)]); [reflexivity|]. clear G.
  unfold saved_path in P. step P ms MS. clear P. unfold name_parts in MS.
  step MS v V. step MS l L. step MS tg TG. step MS st ST.
  unfold py_header in HD. step HD rl RL. clear HD. unfold py_run_lines in RL.
  step RL names NA. step RL fa F. step RL box B. step RL al AL. step RL grid GR. step RL asg AS. step RL il IL. clear RL.
  unfold directory in D. step D dv DV. clear D.
  assert (NE : forall k l v, nested s k l = Returns v -> exists w, dget k (entries s) = Some w).
  { intros k' l' v' Q. unfold nested in Q. step Q w W. exists w. now apply entry_dget. }
  assert (TE : forall k v, text_entry e s k = Returns v -> exists w, dget k (entries s) = Some w).
  { intros k' v' Q. unfold text_entry in Q. step Q w W. exists w. now apply entry_dget. }
  apply in_app_or in K as [K|K].
  - cbn [In] in K. decompose [or] K; try contradiction; subst k; eauto.
  - destruct three; [|contradiction]. cbv zeta in MS. step MS v1 V1. step MS l1 L1. step MS v2 V2. step MS l2 L2.
    step MS fm FM. step MS ib IB. cbn [In] in K. decompose [or] K; try contradiction; subst k; eauto.
    exists ib. now apply entry_dget.
Qed.

Lemma prepared_bare : exists s q,
  built (construct 0 demo_env (bdemo (VNum 1000))) s /\
  prepared 0 demo_env false "sim" "powspec" (with_set s) = Returns q /\ spelled q /\
  unset q "boxsize" = false /\ ParamModel.binning (msr (cpp q)) = "lin" /\
  boxsize (smp (cpp q)) = T3 1000%R 1000%R 1000%R /\
  volume (smp (cpp q)) = (1000 * 1000 * 1000)%R /\
  norm_convention (msr (cpp q)) = "particle" /\
  directory true q = Returns (Some "out") /\ (exists ns, py_names demo_env false q = Returns ns) /\
  (exists al, dget "alignment" (entries q) = Some al) /\ dget "assignment" (entries q) = None.
Proof.
  eexists; eexists; split; [now_built|]; split;
  [rewrite prepared_set; unfold types; apply python_returns; unfold update; cbn [dupdate entries cpp bar]; run
  |split]; [split; try reflexivity; [eexists; split; [reflexivity|discriminate]|eexists; eexists; reflexivity]|].
  repeat match goal with |- _ /\ _ => split end; try reflexivity; eexists; reflexivity.
Qed.

(** ... although the measurement can be made without: *)
Theorem saving_entries_refuted : forall measure source, exists s y,
  built (construct 0 demo_env (bdemo (VNum 1000))) s /\
  compute_powspec_in_gpp_box 0 demo_env (with_set s) 0 (fun _ => one_cat) = Returns y /\
  box_saved "nan" measure source 0 demo_env false MainModel.Powspec "powspec" (with_set s) (SaveAs ".txt") 0
    (fun _ => one_cat) = Raises NonParameterError.
Proof.
  intros measure source. destruct prepared_bare as (s & q & BU & PR & SP & UB & BL & BX & VO & NC & DI & (ns & NS) & (al & AL) & AS).
  pose proof (prepared_facts _ _ _ _ _ _ _ PR) as PF.
  destruct (parsed_settled _ _ _ _ PF ltac:(cbn; tauto) ltac:(cbn; tauto)) as (_ & CK & ST).
  destruct (bins_made _ _ _ _ PF (sp_bin _ SP) (sp_range _ SP) ST) as (b & BM).
  { rewrite BL. cbn; auto. } { rewrite BL. intros (Q & _). discriminate Q. }
  assert (VP : (0 < volume (smp (cpp q)))%R) by (rewrite VO; lra).
  pose proof (boxed_made _ _ _ _ PF (sp_grid _ SP) ST UB VP) as LN. rewrite BX in LN.
  destruct (box_outcome 0 demo_env false MainModel.Powspec "powspec" (with_set s) 0 (fun _ => one_cat) q b _ _ _
              ltac:(cbn; auto) PR ltac:(unfold bins_of; exact BM) LN ltac:(intros []; cbn; lra) one_cat_step (sp_norm _ SP))
    as (OK & _).
  { unfold particles_in, density. cbn [one_cat col_nz]. unfold any. cbn [existsb].
    replace (Reqb 1 0) with false by (symmetry; apply Reqb_false; lra). unfold MainProps.total, rsum. cbn. lra. }
  destruct OK as (y & ps & RUN & UX & _). { eexists. split; [reflexivity|]. rewrite NC. cbn. auto. }
  exists s, y. split; [exact BU|]. split; [exact RUN|].
  unfold box_saved. rewrite RUN. cbn [PyRunModel.andthen]. rewrite UX, py_save_other by (intros [Q|Q]; discriminate Q).
  rewrite DI. cbn [PyRunModel.andthen]. unfold py_header, py_run_lines. rewrite NS. cbn [PyRunModel.andthen].
  unfold py_factor. rewrite (entry_is _ _ _ (sp_norm _ SP)), NC. cbn [PyRunModel.andthen is_text String.eqb Ascii.eqb Bool.eqb].
  rewrite (pr_box _ _ _ _ PF UB). cbn [PyRunModel.andthen]. rewrite (text_entry_is _ _ _ _ AL). cbn [PyRunModel.andthen].
  rewrite (sp_grid _ SP). cbn [PyRunModel.andthen]. unfold text_entry, entry, getitem. rewrite AS. reflexivity.
Qed.

(* ------------------------------------------------------------------ *)
(** * Where wide-angle windows are saved *)

(** C112: the orders are no part of the name: the files of two measurements
    that differ in their orders alone are one file. *)
Theorem wide_angle_path : forall odd measure source fuel e a a' save r s r' s' y y' path path' c c',
  window_saved odd measure source fuel e true a save r s = Returns (y, Some (path, c)) ->
  window_saved odd measure source fuel e true a' save r' s' = Returns (y', Some (path', c')) ->
  (forall k, In k ["directories"; "degrees"; "tags"; "form"; "idx_bin"] ->
     dget k (entries (used y)) = dget k (entries (used y'))) ->
  path = path'.
Proof.
  assert (G : forall odd measure source fuel e a save r s y path c,
    window_saved odd measure source fuel e true a save r s = Returns (y, Some (path, c)) ->
    dget "statistic_type" (entries (used y)) = Some (VStr "3pcf-win") /\ ~ no_saving save /\
    exists d, directory true (used y) = Returns d /\ 
      saved_path e true d (match c with TextFile _ => FileNameModel.Txt | Archive _ => FileNameModel.Npz end) (used y) = Returns path).
  { intros odd measure source fuel e a save r s y path c H. unfold window_saved in H. step H x R. step H g G.
    assert (x = y) as -> by congruence. assert (g = Some (path, c)) as -> by congruence. clear H.
    destruct (window_parts _ _ _ _ _ _ _ R) as (b & cc & lr & _ & _ & _ & _ & _ & PR & _).
    split; [exact (proj1 (pr_st _ _ _ _ (prepared_facts _ _ _ _ _ _ _ PR)))|].
    destruct (no_saving_dec save) as [N|N]; [rewrite (py_save_none _ _ _ _ _ _ _ _ _ N) in G; discriminate|].
    split; [exact N|]. rewrite (py_save_other _ _ _ _ _ _ _ _ _ N) in G. step G d D. step G h HD.
    exists d. split; [exact D|]. destruct save as [|t|]; try discriminate G. destruct (lower t =? ".txt").
    - step G sp SP. step G tb TB. step G p P.
      apply (f_equal (fun e => match e with Returns (Some a) => a | _ => (path, c) end)) in G. cbv beta iota in G.
      assert (p = path) as -> by congruence. assert (c = TextFile (written (map comment h ++ tb))) as -> by congruence. exact P.
    - destruct (ends_with ".npz" (lower t)); [|discriminate G]. step G p P.
      assert (p = path) as -> by congruence.
      apply (f_equal (fun e => match e with Returns (Some (_, a)) => a | _ => c end)) in G. cbv beta iota in G. subst c. exact P. }
  intros odd measure source fuel e a a' save r s r' s' y y' path path' c c' H H' EQ.
  pose proof (saved_kinds _ _ _ _ _ _ _ _ _ _ (saves_window odd measure source e true fuel a r s) H) as K.
  pose proof (saved_kinds _ _ _ _ _ _ _ _ _ _ (saves_window odd measure source e true fuel a' r' s') H') as K'.
  destruct (G _ _ _ _ _ _ _ _ _ _ _ _ H) as (S1 & N & d & D & P). destruct (G _ _ _ _ _ _ _ _ _ _ _ _ H') as (S2 & _ & d' & D' & P').
  assert (NE : forall k l, In k ["directories"; "degrees"; "tags"; "form"; "idx_bin"] -> nested (used y) k l = nested (used y') k l).
  { intros k l I. unfold nested, entry, getitem. now rewrite (EQ k I). }
  assert (d = d') as <-. { unfold directory in D, D'. rewrite NE in D by (cbn; auto). congruence. }
  assert (M : name_parts e true (used y) = name_parts e true (used y')).
  { unfold name_parts, text_entry, entry, getitem. rewrite !NE by (cbn; auto). rewrite S1, S2, !EQ by (cbn; auto 10). reflexivity. }
  assert (KC : (match c with TextFile _ => FileNameModel.Txt | Archive _ => FileNameModel.Npz end)
             = (match c' with TextFile _ => FileNameModel.Txt | Archive _ => FileNameModel.Npz end)).
  { assert (NZ : ~ (as_text save /\ as_archive save)).
    { intros ((t & -> & A) & t' & b & B & C). injection B as <-. rewrite A in C. symmetry in C.
      apply (f_equal (ends_with ".npz")) in C. rewrite (proj2 (ends_with_spec _ _)) in C by now exists b. discriminate C. }
    destruct K as [(? & K)|[(T & p & t & K)|(T & p & t & K)]]; [discriminate| |];
    destruct K' as [(? & K')|[(T' & p' & t' & K')|(T' & p' & t' & K')]]; try discriminate; try (exfalso; tauto).
    - assert (c = TextFile t) as -> by congruence. assert (c' = TextFile t') as -> by congruence. reflexivity.
    - assert (c = Archive t) as -> by congruence. assert (c' = Archive t') as -> by congruence. reflexivity. }
  rewrite KC in P. unfold saved_path in P, P'. rewrite M in P. congruence.
Qed.

(** Two such measurements, and what one finds in the file is the second. *)
Theorem wide_angle_overwritten : forall measure source z,
  (forall c, measure c = Zeta z) -> newline_free (source 1) -> exists s y y' path text text',
  built (construct 0 demo_env (wsave "centre")) s /\
  window_saved "nan" measure source 0 demo_env true (with_orders s (Some (1, 0)%Z)) (SaveAs ".txt") 1 (fun _ => one_cat)
    = Returns (y, Some (path, TextFile text)) /\
  window_saved "nan" measure source 0 demo_env true (with_orders s (Some (2, 0)%Z)) (SaveAs ".txt") 1 (fun _ => one_cat)
    = Returns (y', Some (path, TextFile text')) /\
  stat (called y) = MainModel.ThreePcfWindow true /\ stat (called y') = MainModel.ThreePcfWindow true /\
  dget "wa_orders" (entries (used y)) <> dget "wa_orders" (entries (used y')).
Proof.
  intros measure source z Z F.
  destruct (window_saved_demo "centre" (Some (1, 0)%Z) measure source z ltac:(cbn; auto) Z F)
    as (s & y & text & u & l & B1 & W1 & _ & _ & _ & S1 & O1).
  destruct (window_saved_demo "centre" (Some (2, 0)%Z) measure source z ltac:(cbn; auto) Z F)
    as (s' & y' & text' & u' & l' & B2 & W2 & _ & _ & _ & S2 & O2).
  assert (s' = s) as ->.
  { unfold built in B1, B2. rewrite B1 in B2. destruct s as [d q b], s' as [d1 q1 b1]. cbn [PyParamModel.entries PyParamModel.cpp PyParamModel.bar] in B2. clear - B2. congruence. }
  exists s, y, y', ["out"; "zetaw000_full_w.txt"], text, text'. split; [exact B1|]. split; [exact W1|]. split; [exact W2|].
  split; [exact S1|]. split; [exact S2|]. rewrite O1, O2. clear. intros Q. discriminate Q.
Qed.

(** The program gives every pair of orders a name of its own. *)
Theorem program_orders_named : forall p p' n,
  MainModel.base_name p = Some n -> MainModel.base_name p' = Some n ->
  statistic_type (msr (ParamFileModel.core p)) = "3pcf-win-wa" ->
  ParamFileModel.core p = ParamFileModel.core p' ->
  FileNameProps.one_digit (ParamFileModel.i_wa p) -> FileNameProps.one_digit (ParamFileModel.j_wa p) ->
  FileNameProps.one_digit (ParamFileModel.i_wa p') -> FileNameProps.one_digit (ParamFileModel.j_wa p') ->
  ParamFileModel.i_wa p = ParamFileModel.i_wa p' /\ ParamFileModel.j_wa p = ParamFileModel.j_wa p'.
Proof.
  intros p p' n A B ST C I J I' J'. unfold MainModel.base_name in A, B. rewrite <- C in B. rewrite ST in A, B. cbn in A, B.
  destruct (MainModel.form_name _ _) as [f|]; [|discriminate A]. cbn [option_map] in A, B.
  rewrite <- B in A. injection A as A. clear B.
  rewrite (FileNameProps.one_digit_text _ I), (FileNameProps.one_digit_text _ J), (FileNameProps.one_digit_text _ I'),
    (FileNameProps.one_digit_text _ J') in A.
  set (a := to_string (ell1 _)) in A. set (b := to_string (ell2 _)) in A. set (c := to_string (ParamModel.ELL _)) in A. clearbody a b c.
  assert (AI : forall x y z : string, x ++ y = x ++ z -> y = z) by (induction x; cbn; intros; [assumption|]; injection H as H; auto).
  rewrite !sapp_assoc in A. do 3 apply AI in A. cbn in A. injection A as A1 A2.
  split; apply FileNameProps.digit_inj; assumption.
Qed.

Print Assumptions header_alignment_refuted.
Print Assumptions measured_first.
Print Assumptions saved_kinds.
Print Assumptions saved_alike.
Print Assumptions other_formats.
Print Assumptions saving_needs.
Print Assumptions saving_entries_refuted.
Print Assumptions wide_angle_path.
Print Assumptions wide_angle_overwritten.
Print Assumptions program_orders_named.
