(* C111: what the headers of saved files say. *)
From Coq Require Import String Ascii List Arith ZArith Reals Bool Lia Lra.
From Flocq Require Import Core.
From Verif Require Import Base StrModel StrProps Dec ArrayModel ArrayProofs MeshModel
  ParamFileModel ParamFileProps ParamFilePrintProps ParamFileUseProps CatModel PyCatModel
  CatProps PyCatProps LoadModel LoadProps SaveModel SaveProps.
From Verif Require ParamModel PyParamModel MainModel MainProps PyRunModel PyRunProps PyBoxProps PyGivenProps PyAgainProps FileNameModel.
Import ListNotations.
Local Open Scope nat_scope.
Local Open Scope string_scope.

(* ------------------------------------------------------------------ *)
(** * Vocabulary *)

(** The text has this line among its comments. *)
Definition says (text line : string) : Prop :=
  exists lines, holds text lines /\ In ("# " ++ line) lines.

(** A number to ten significant digits, or the text for what is not a number. *)
Definition ten_digits (odd t : string) (x : option R) : Prop :=
  match x with Some x => exists v, numeral t v /\ near v x | None => t = odd end.

(** A number to three decimals. *)
Definition three_decimals (t : string) (x : R) : Prop :=
  exists v, numeral t v /\ (Rabs (v - x) <= / 2 * / 1000)%R.

Definition states_factor (odd text : string) (x : option R) (convention : string) : Prop :=
  exists t, ten_digits odd t x /\
    says text ("Normalisation factor: " ++ t ++ " (" ++ convention ++ ")").

Definition states_alternatives (odd text : string) (part mesh meshes : option R) (last : string) : Prop :=
  exists t u v, ten_digits odd t part /\ ten_digits odd u mesh /\ ten_digits odd v meshes /\
    says text ("Normalisation factor alternatives: " ++ t ++ " (particle), " ++ u ++ " (mesh), "
               ++ v ++ " (" ++ last ++ ")").

Definition states_box (text : string) (L : triple R) (n : triple Z) : Prop :=
  (exists t, (forall i, three_decimals (at_axis i t) (at_axis i L)) /\
     says text ("Box size: [" ++ ax0 t ++ ", " ++ ax1 t ++ ", " ++ ax2 t ++ "]")) /\
  says text ("Mesh number: [" ++ to_string (ax0 n) ++ ", " ++ to_string (ax1 n) ++ ", "
             ++ to_string (ax2 n) ++ "]").

(** The number of particles, their total weights and the ranges they lie in;
    the brackets differ between the two programs. *)
Definition states_catalogue (brackets : (string * string) * (string * string))
  (text who whose source : string) (n : nat) (w ws : R) (ranges : triple (R * R)) : Prop :=
  let '(a, b, (c, d)) := brackets in
  says text (who ++ " source: " ++ source) /\
  (exists t u, three_decimals t w /\ three_decimals u ws /\
     says text (who ++ " size: ntotal = " ++ to_string (Z.of_nat n) ++ ", wtotal = " ++ t
                ++ ", wstotal = " ++ u)) /\
  (exists t u, (forall i, three_decimals (at_axis i t) (fst (at_axis i ranges)) /\
                          three_decimals (at_axis i u) (snd (at_axis i ranges))) /\
     says text (whose ++ " particle extents: " ++ a
                ++ c ++ ax0 t ++ ", " ++ ax0 u ++ d ++ ", "
                ++ c ++ ax1 t ++ ", " ++ ax1 u ++ d ++ ", "
                ++ c ++ ax2 t ++ ", " ++ ax2 u ++ d ++ b)).

Definition of_program : (string * string) * (string * string) := ("[", "]", ("(", ")")).
Definition of_python : (string * string) * (string * string) := ("(", ")", ("[", "]")).

(* ------------------------------------------------------------------ *)
(** * Numbers *)

Lemma fixed_near x : three_decimals (fmt_fixed 3 x) x.
Proof.
  destruct (read_num_fixed 3 x ltac:(lia)) as (n & _ & _).
  unfold three_decimals, fmt_fixed. cbv zeta.
  set (u := (10 ^ Z.of_nat 3)%Z). set (v := ZnearestE (Rabs x * IZR u)).
  assert (U : (0 < u)%Z) by reflexivity.
  assert (V : (0 <= v)%Z) by apply (nearest_nonneg 3).
  destruct (pad_left_value 3 (v mod u) ltac:(lia) (Z.mod_pos_bound v u U)) as (LF & VF).
  set (fp := pad_left 3 (dec (v mod u))) in *.
  exists (IZR (if Rltb x 0 then (-1)%Z else 1%Z) * (IZR v * / 10 ^ String.length fp) * powerRZ 10 0)%R.
  split.
  - replace ("." ++ fp) with (("." ++ fp) ++ "") by now rewrite sapp_nil_r.
    apply numeral_intro.
    + destruct (Rltb x 0); constructor.
    + apply dec_digits, Z.div_pos; assumption.
    + constructor. apply pad_left_digits, Z.mod_pos_bound, U.
    + unfold digits_value. destruct (dec (v / u) ++ fp) eqn:E;
        [apply sapp_eq_nil in E as (E & _); now apply dec_nonempty in E|].
      rewrite <- E, digits_from_app, dec_from by (apply Z.div_pos; assumption).
      rewrite (digits_from_shift fp _ (v mod u)) by exact VF. rewrite LF. f_equal. fold u.
      pose proof (Z.div_mod v u ltac:(lia)). lia.
    + constructor.
  - rewrite LF. assert (E : (Rabs (Rabs x * 1000 - IZR v) <= / 2)%R) by apply Znearest_half.
    rewrite (printed_sign x) at 2.
    replace (IZR (if Rltb x 0 then (-1)%Z else 1%Z) * (IZR v * / 10 ^ 3) * powerRZ 10 0 -
             IZR (if Rltb x 0 then (-1)%Z else 1%Z) * Rabs x)%R
      with (IZR (if Rltb x 0 then (-1)%Z else 1%Z) * (- (Rabs x * 1000 - IZR v) * / 1000))%R
      by (simpl; field).
    rewrite !Rabs_mult, Rabs_Ropp, (Rabs_pos_eq (/ 1000)) by lra.
    replace (Rabs (IZR (if Rltb x 0 then (-1)%Z else 1%Z))) with 1%R; [lra|].
    destruct (Rltb x 0); [rewrite Rabs_left; lra|rewrite Rabs_pos_eq; lra].
Qed.

Lemma factor_near odd x : ten_digits odd (show_factor odd x) x.
Proof.
  destruct x as [x|]; [|reflexivity]. exists (printed_value 9 x).
  split; [apply fmt_exp_numeral; lia|apply printed_near].
Qed.

Lemma says_line text lines line : holds text lines -> In (comment line) lines -> says text line.
Proof. intros H I. now exists lines. Qed.

(* ------------------------------------------------------------------ *)
(** * The program *)

(** The catalogues a header describes. *)
Definition described (st : MainModel.statistic) (kind : string) (d r : sourced)
  : list (string * string * sourced) :=
  if MainModel.is_window st then [("Catalogue", "Catalogue", r)]
  else if kind =? "survey" then [("Data catalogue", "Data-source", d); ("Random catalogue", "Random-source", r)]
  else if kind =? "sim" then [("Catalogue", "Catalogue", d)] else [].

Definition plain_run (odd : string) (d r : sourced) (q : ParamModel.params) : Prop :=
  newline_free odd /\ newline_free (source d) /\ newline_free (source r) /\
  newline_free (ParamModel.alignment (ParamModel.smp q)) /\
  newline_free (ParamModel.assignment (ParamModel.smp q)) /\
  newline_free (ParamModel.interlace (ParamModel.smp q)) /\
  newline_free (ParamModel.norm_convention (ParamModel.msr q)).

Lemma cpp_catalogue_plain who whose c : newline_free who -> newline_free whose -> newline_free (source c) ->
  Forall plain_comment (cpp_catalogue_lines who whose c).
Proof.
  intros A B C. apply newline_free_avoids in A, B, C. unfold cpp_catalogue_lines. cbv zeta.
  assert (P : forall l, avoids newline l = true -> plain_comment (comment l)).
  { intros l H. split; [now exists (" " ++ l)|]. now apply newline_free_avoids. }
  repeat (apply Forall_cons; [apply P; rewrite ?avoids_app, ?fmt_fixed_avoids, ?to_string_avoids, ?A, ?B, ?C; reflexivity|]).
  apply Forall_nil.
Qed.

Lemma cpp_run_plain odd d r q n : plain_run odd d r q -> Forall plain_comment (cpp_run_lines odd q n).
Proof.
  intros (O & _ & _ & A & B & C & D). apply newline_free_avoids in O, A, B, C, D. unfold cpp_run_lines. cbv zeta.
  assert (S : forall x, avoids newline (show_factor odd x) = true) by (intros x; now apply show_factor_avoids).
  assert (P : forall l, avoids newline l = true -> plain_comment ("# " ++ l)).
  { intros l H. split; [now exists (" " ++ l)|]. now apply newline_free_avoids. }
  apply Forall_app; split; [|apply Forall_app; split].
  - repeat (apply Forall_cons;
      [apply P; rewrite ?avoids_app, ?fmt_fixed_avoids, ?to_string_avoids, ?A, ?B, ?C; reflexivity|]).
    apply Forall_nil.
  - repeat match goal with |- context [if ?b then _ else _] => destruct b end; try apply Forall_nil;
      (apply Forall_cons; [apply P; rewrite ?avoids_app, ?S, ?D; reflexivity|apply Forall_nil]).
  - apply Forall_cons; [|apply Forall_nil]. apply P. rewrite ?avoids_app, ?S. reflexivity.
Qed.

Lemma cpp_header_plain odd st kind d r q n h : plain_run odd d r q ->
  cpp_header odd st kind d r q n = Some h -> Forall plain_comment h.
Proof.
  intros P H. pose proof (cpp_run_plain odd d r q n P) as R. destruct P as (_ & D & E & _).
  unfold cpp_header in H.
  assert (F : forall t, avoids newline t = true -> newline_free t) by (intros t; apply newline_free_avoids).
  repeat match type of H with context [if ?b then _ else _] => destruct b end; try discriminate H;
    apply (f_equal (fun o => match o with Some a => a | None => [] end)) in H; cbv beta iota in H; subst h;
    repeat first [exact R | match goal with |- Forall _ (_ ++ _)%list => apply Forall_app; split end];
    apply cpp_catalogue_plain; try assumption; now apply F.
Qed.

Lemma cpp_table_free q x : String.length (degrees_text x q) <= 7 -> Forall newline_free (cpp_table q x).
Proof.
  intros L. destruct (program_table q x [] (Forall_nil _) L) as (head & lines & rows & H & _).
  cbn [app] in H. rewrite written_ended in H. apply Forall_forall. intros l I.
  apply newline_free_avoids.
  destruct x as [m|m|m|m]; cbn [cpp_table powspec_lines twopcf_lines bispec_lines threepcf_lines] in I;
    destruct I as [<-|I]; try (apply in_map_iff in I as (i & <- & _); apply show_row_avoids);
    unfold multipole_str; rewrite ?(substring_all 7) by exact L;
    rewrite ?avoids_app, ?to_string_avoids; reflexivity.
Qed.

Lemma written_holds lines : Forall newline_free lines -> holds (written lines) lines.
Proof. intros F. rewrite written_ended. split; [exact F|now left]. Qed.

Lemma cpp_file_lines odd st kind d r q n x text : plain_run odd d r q ->
  String.length (degrees_text x (ParamModel.msr q)) <= 7 ->
  cpp_file odd st kind d r q n x = Some text -> exists h,
    cpp_header odd st kind d r q n = Some h /\ Forall plain_comment h /\
    text = written (h ++ cpp_table (ParamModel.msr q) x)%list /\
    holds text (h ++ cpp_table (ParamModel.msr q) x)%list.
Proof.
  intros P L H. unfold cpp_file in H. destruct (cpp_header odd st kind d r q n) as [h|] eqn:E; [|discriminate H].
  cbn [option_map] in H. assert (TX : text = written (h ++ cpp_table (ParamModel.msr q) x)%list) by congruence. clear H. subst text.
  exists h. split; [reflexivity|]. pose proof (cpp_header_plain _ _ _ _ _ _ _ _ P E) as PH.
  split; [exact PH|]. split; [reflexivity|]. apply written_holds, Forall_app. split.
  - apply Forall_impl with (2 := PH). intros l K. apply K.
  - now apply cpp_table_free.
Qed.

Lemma cpp_header_run odd st kind d r q n h : cpp_header odd st kind d r q n = Some h ->
  exists pre, h = (pre ++ cpp_run_lines odd q n)%list /\
    forall who whose c, In (who, whose, c) (described st kind d r) ->
      forall l, In l (cpp_catalogue_lines who whose c) -> In l pre.
Proof.
  unfold cpp_header, described. intros H.
  destruct (MainModel.is_window st); [|destruct (kind =? "survey"); [|destruct (kind =? "sim"); [|discriminate H]]];
    apply (f_equal (fun o => match o with Some a => a | None => [] end)) in H; cbv beta iota in H; subst h.
  - eexists. split; [reflexivity|]. intros who whose c [I|[]]. injection I as <- <- <-. auto.
  - rewrite app_assoc. eexists. split; [reflexivity|]. intros who whose c [I|[I|[]]]; injection I as <- <- <-;
      intros l K; apply in_or_app; auto.
  - eexists. split; [reflexivity|]. intros who whose c [I|[]]. injection I as <- <- <-. auto.
Qed.

(** C111: a file of the program gives the box, the mesh, the three factors and
    each catalogue measured (its source, how many particles it has, their
    weights and where they are), followed by the table. *)
Theorem program_header :
  forall odd st kind d r q n x text,
  plain_run odd d r q -> String.length (degrees_text x (ParamModel.msr q)) <= 7 ->
  cpp_file odd st kind d r q n x = Some text ->
  states_box text (ParamModel.boxsize (ParamModel.smp q)) (ParamModel.ngrid (ParamModel.smp q)) /\
  says text ("Box alignment: " ++ ParamModel.alignment (ParamModel.smp q)) /\
  says text ("Mesh assignment and interlacing: " ++ ParamModel.assignment (ParamModel.smp q) ++ ", "
             ++ ParamModel.interlace (ParamModel.smp q)) /\
  states_alternatives odd text (MainModel.n_part n) (MainModel.n_mesh n) (MainModel.n_meshes n) "mesh-mixed" /\
  (forall who whose c, In (who, whose, c) (described st kind d r) ->
     states_catalogue of_program text who whose (source c) (length (MainModel.particles (body c)))
       (wtotal (body c)) (wstotal (body c))
       (T3 (ax0 (pos_min (body c)), ax0 (pos_max (body c))) (ax1 (pos_min (body c)), ax1 (pos_max (body c)))
           (ax2 (pos_min (body c)), ax2 (pos_max (body c))))) /\
  tabulates text (columns (degrees_text x (ParamModel.msr q)) x) (bins_in x).
Proof.
  intros odd st kind d r q n x text P L H.
  destruct (cpp_file_lines _ _ _ _ _ _ _ _ _ P L H) as (h & E & PH & TX & HO).
  destruct (cpp_header_run _ _ _ _ _ _ _ _ E) as (pre & -> & CL).
  assert (S : forall l, In (comment l) (cpp_run_lines odd q n) -> says text l).
  { intros l I. apply (says_line _ _ _ HO). apply in_or_app. left. apply in_or_app. now right. }
  assert (SC : forall who whose c, In (who, whose, c) (described st kind d r) ->
            forall l, In (comment l) (cpp_catalogue_lines who whose c) -> says text l).
  { intros who whose c I l K. apply (says_line _ _ _ HO). apply in_or_app. left. apply in_or_app. left.
    exact (CL who whose c I _ K). }
  split; [|split; [|split; [|split; [|split]]]].
  - split.
    + set (b := ParamModel.boxsize (ParamModel.smp q)).
      exists (T3 (fmt_fixed 3 (ax0 b)) (fmt_fixed 3 (ax1 b)) (fmt_fixed 3 (ax2 b))). split.
      * intros []; apply fixed_near.
      * apply S. unfold cpp_run_lines. cbv zeta. left. reflexivity.
    + apply S. unfold cpp_run_lines. cbv zeta. right. right. left. reflexivity.
  - apply S. unfold cpp_run_lines. cbv zeta. right. left. reflexivity.
  - apply S. unfold cpp_run_lines. cbv zeta. right. right. right. left. reflexivity.
  - eexists _, _, _. split; [apply factor_near|]. split; [apply factor_near|]. split; [apply factor_near|].
    apply S. unfold cpp_run_lines. cbv zeta. apply in_or_app. right. apply in_or_app. right. left.
    reflexivity.
  - intros who whose c I. specialize (SC who whose c I). unfold states_catalogue, of_program.
    split; [|split].
    + apply SC. left. reflexivity.
    + eexists _, _. split; [apply fixed_near|]. split; [apply fixed_near|]. apply SC. right. left. reflexivity.
    + set (lo := pos_min (body c)) in *. set (hi := pos_max (body c)) in *.
      exists (T3 (fmt_fixed 3 (ax0 lo)) (fmt_fixed 3 (ax1 lo)) (fmt_fixed 3 (ax2 lo))),
        (T3 (fmt_fixed 3 (ax0 hi)) (fmt_fixed 3 (ax1 hi)) (fmt_fixed 3 (ax2 hi))). split.
      * intros []; split; apply fixed_near.
      * apply SC. right. right. left. unfold comment. fold lo hi. cbn [ax0 ax1 ax2]. rewrite ?sapp_assoc. reflexivity.
  - rewrite TX. now apply program_table.
Qed.

(** C111: and the factor it gives is the one the measurement was given. *)
Theorem program_factor :
  forall w p g r path odd d c x text,
  ParamModel.extcall (MainModel.bld w) = false -> MainProps.checked (MainModel.bld w) (core p) ->
  ParamModel.npoint (ParamModel.msr (core p)) <> "none" ->
  MainModel.session w p = MainModel.Go g -> MainModel.measured g = Some (r, path) ->
  plain_run odd d c (core (MainModel.par r)) ->
  String.length (degrees_text x (ParamModel.msr (core (MainModel.par r)))) <= 7 ->
  cpp_file odd (MainModel.stat r) (MainModel.kind (MainModel.par r)) d c (core (MainModel.par r))
    (MainModel.printed_norms g) x = Some text ->
  states_factor odd text (MainModel.factor r) (ParamModel.norm_convention (ParamModel.msr (core p))).
Proof.
  intros w p g r path odd d c x text X CK NP S M P L H.
  destruct (MainProps.session_norms w p g X CK S NP) as (s & q & s' & a & _ & _ & _ & _ & MS & _ & _ & _ & _ & MM & _).
  destruct (MM r path M) as (F & PR & _). rewrite PR in *. rewrite MS in *.
  pose proof (MainProps.s_norm _ (MainProps.checked_settled _ _ X CK)) as NC.
  destruct (cpp_file_lines odd _ _ d c (core q) (MainModel.printed_norms g) x text P ltac:(rewrite MS; exact L) H)
    as (h & E & _ & _ & HO).
  destruct (cpp_header_run _ _ _ _ _ _ _ _ E) as (pre & -> & _).
  eexists. split; [apply factor_near|]. apply (says_line _ _ _ HO). apply in_or_app. left. apply in_or_app. right.
  unfold cpp_run_lines. cbv zeta. apply in_or_app. right. apply in_or_app. left.
  rewrite F. unfold MainModel.factor_of. apply String.eqb_neq in NP. rewrite NP, MS.
  destruct NC as [NC|[NC|[NC|[NC|[]]]]]; rewrite <- NC; cbn [String.eqb Ascii.eqb Bool.eqb]; left; reflexivity.
Qed.

(* ------------------------------------------------------------------ *)
(** * Python *)

(** The line giving an entry of the parameter set as it was entered. *)
Definition says_entry (e : PyParamModel.pyenv) (s : PyParamModel.pset) (text before key after : string) : Prop :=
  exists v, PyParamModel.dget key (PyParamModel.entries s) = Some v /\
    says text (before ++ PyParamModel.py_str e v ++ after).

Lemma text_entry_get e s k t : text_entry e s k = PyRunModel.Returns t ->
  exists v, PyParamModel.dget k (PyParamModel.entries s) = Some v /\ t = PyParamModel.py_str e v.
Proof.
  intros H. unfold text_entry in H. step H v E. exists v. split; [now apply entry_dget|].
  now injection H as <-.
Qed.

Lemma header_factor mixed s n f : PyRunModel.factor_of mixed s n = PyRunModel.Returns f ->
  py_factor s n = PyRunModel.Returns f.
Proof.
  unfold PyRunModel.factor_of, py_factor. destruct (PyRunModel.entry s "norm_convention") as [c| | |];
    cbn [PyRunModel.andthen]; try discriminate. cbv zeta.
  destruct c; cbn [PyRunModel.is_text]; rewrite ?andb_false_r; try discriminate.
  destruct (String.eqb_spec s0 "none") as [->|N1]; [exact (fun H => H)|].
  destruct (String.eqb_spec s0 "particle") as [->|N2]; [exact (fun H => H)|].
  destruct (String.eqb_spec s0 "mesh") as [->|N3]; [exact (fun H => H)|].
  destruct mixed, (String.eqb_spec s0 "mesh-mixed") as [->|N4]; cbn [andb]; intros H; try discriminate H; exact H.
Qed.

Lemma py_table_free three sp x table : py_table three sp x = PyRunModel.Returns table -> Forall newline_free table.
Proof.
  intros T. rewrite (python_rows_same three sp x table T (degrees_of 0 0 0)).
  apply Forall_forall. intros l I. apply newline_free_avoids.
  destruct x as [m|m|m|m]; cbn [cpp_table powspec_lines twopcf_lines bispec_lines threepcf_lines tl] in I;
    apply in_map_iff in I as (i & <- & _); apply show_row_avoids.
Qed.

Lemma columns_free l x : avoids newline l = true -> newline_free (numbered 0 (map fst (columns l x))).
Proof.
  intros L. apply newline_free_avoids. destruct x; cbn [columns map fst numbered];
    rewrite !avoids_app, !L, !to_string_avoids; reflexivity.
Qed.

Lemma degree_entries_free three s l : degree_entries three s l -> avoids newline l = true.
Proof.
  intros (f & _ & DE). destruct three.
  - destruct DE as (l1 & l2 & l3 & _ & _ & _ & ->). now rewrite !avoids_app, !to_string_avoids.
  - destruct DE as (l3 & _ & ->). apply to_string_avoids.
Qed.

(** The lines of a text file Python saves. *)
Lemma python_lines odd e three oe cats save s n x path text l :
  newline_free odd -> Forall newline_free cats -> plain_entries e s -> degree_entries three s l ->
  py_save odd e three oe cats save s n x = PyRunModel.Returns (Some (path, TextFile text)) ->
  exists run table, py_run_lines odd e three s n = PyRunModel.Returns run /\
    holds text (map comment (cats ++ run) ++ table)%list.
Proof.
  intros O C P DE H.
  destruct (py_save_text _ _ _ _ _ _ _ _ _ _ _ H) as (t & dir & header & sp & table & _ & _ & _ & HD & SP & TB & _ & ->).
  unfold py_header in HD. step HD run RL. injection HD as <-. exists run, table. split; [exact RL|].
  destruct (py_run_lines_form odd e three s n run O P RL) as (front & names & -> & N & F).
  apply written_holds, Forall_app. split; [|exact (py_table_free _ _ _ _ TB)].
  apply Forall_forall. intros y I. apply in_map_iff in I as (z & <- & I).
  apply newline_free_avoids. unfold comment. rewrite avoids_app. apply andb_true_iff. split; [reflexivity|].
  apply newline_free_avoids. rewrite Forall_forall in C, F.
  apply in_app_or in I as [I|I]; [now apply C|]. apply in_app_or in I as [I|[<-|[]]]; [now apply F|].
  rewrite (py_names_columns e three s names sp x table l N SP TB DE), enumerated_numbered.
  apply columns_free. exact (degree_entries_free three s l DE).
Qed.

(** C111: a text file Python saves gives the box and the mesh of the parameter
    set, its settings as they were entered, the three factors and the factor
    the measurement was given. *)
Theorem python_header :
  forall odd e three oe cats save s n x path text l,
  newline_free odd -> Forall newline_free cats -> plain_entries e s -> degree_entries three s l ->
  py_save odd e three oe cats save s n x = PyRunModel.Returns (Some (path, TextFile text)) ->
  (exists L g, PyRunModel.box_of s = PyRunModel.Returns L /\ PyRunModel.grid_of s = PyRunModel.Returns g /\
     states_box text L g) /\
  says_entry e s text "Box alignment: " "alignment" "" /\
  (exists v w, PyParamModel.dget "assignment" (PyParamModel.entries s) = Some v /\
     PyParamModel.dget "interlace" (PyParamModel.entries s) = Some w /\
     says text ("Mesh assignment and interlacing: " ++ PyParamModel.py_str e v ++ ", "
                ++ PyParamModel.py_str e w)) /\
  (forall mixed f, PyRunModel.factor_of mixed s n = PyRunModel.Returns f ->
     exists v, PyParamModel.dget "norm_convention" (PyParamModel.entries s) = Some v /\
       states_factor odd text f (PyParamModel.py_str e v)) /\
  states_alternatives odd text (PyRunModel.n_part n) (PyRunModel.n_mesh n) (PyRunModel.n_meshes n)
    (if three then "mesh-mixed; n/a" else "mesh-mixed") /\
  (forall line, In line cats -> says text line).
Proof.
  intros odd e three oe cats save s n x path text l O C P DE H.
  destruct (python_lines _ _ _ _ _ _ _ _ _ _ _ l O C P DE H) as (run & table & RL & HO).
  assert (S : forall z, In z run -> says text z).
  { intros z I. apply (says_line _ _ _ HO). apply in_or_app. left. apply in_map. apply in_or_app. now right. }
  assert (SC : forall z, In z cats -> says text z).
  { intros z I. apply (says_line _ _ _ HO). apply in_or_app. left. apply in_map. apply in_or_app. now left. }
  clear HO H. unfold py_run_lines in RL.
  step RL names N. step RL f F. step RL box B. step RL al AL. step RL grid G. step RL asg AS. step RL il IL.
  step RL c CV.
  apply (f_equal (fun e => match e with PyRunModel.Returns a => a | _ => [] end)) in RL. cbv beta iota in RL.
  apply text_entry_get in AL as (va & AL & ->). apply text_entry_get in AS as (vs & AS & ->).
  apply text_entry_get in IL as (vi & IL & ->). apply text_entry_get in CV as (vc & CV & ->).
  split; [|split; [|split; [|split; [|split; [|exact SC]]]]].
  - exists box, grid. split; [exact B|]. split; [exact G|]. split.
    + exists (T3 (fmt_fixed 3 (ax0 box)) (fmt_fixed 3 (ax1 box)) (fmt_fixed 3 (ax2 box))). split.
      * intros []; apply fixed_near.
      * apply S. rewrite <- RL. left. reflexivity.
    + apply S. rewrite <- RL. right. right. left. reflexivity.
  - exists va. split; [exact AL|]. rewrite sapp_nil_r. apply S. rewrite <- RL. right. left. reflexivity.
  - exists vs, vi. split; [exact AS|]. split; [exact IL|]. apply S. rewrite <- RL. right. right. right. left. reflexivity.
  - intros mixed f' K. apply header_factor in K. rewrite K in F.
    assert (f' = f) as -> by congruence. exists vc. split; [exact CV|].
    eexists. split; [apply factor_near|]. apply S. rewrite <- RL. do 4 right. left. reflexivity.
  - eexists _, _, _. split; [apply factor_near|]. split; [apply factor_near|]. split; [apply factor_near|].
    apply S. rewrite <- RL. do 5 right. left. destruct three; reflexivity.
Qed.

Lemma py_catalogue_said text who whose src c :
  (forall l, In l (py_catalogue_lines who whose src c) -> says text l) ->
  states_catalogue of_python text who whose src (ntotal c) (py_wtotal c) (py_wstotal c) (bounds c).
Proof.
  intros S. unfold states_catalogue, of_python. split; [|split].
  - apply S. left. reflexivity.
  - eexists _, _. split; [apply fixed_near|]. split; [apply fixed_near|]. apply S. right. left. reflexivity.
  - set (b := bounds c).
    exists (T3 (fmt_fixed 3 (fst (ax0 b))) (fmt_fixed 3 (fst (ax1 b))) (fmt_fixed 3 (fst (ax2 b)))),
      (T3 (fmt_fixed 3 (snd (ax0 b))) (fmt_fixed 3 (snd (ax1 b))) (fmt_fixed 3 (snd (ax2 b)))). split.
    + intros []; split; apply fixed_near.
    + apply S. right. right. left. unfold py_catalogue_lines. cbn [ax0 ax1 ax2]. rewrite ?sapp_assoc. reflexivity.
Qed.

Lemma py_catalogue_free who whose src c : newline_free who -> newline_free whose -> newline_free src ->
  Forall newline_free (py_catalogue_lines who whose src c).
Proof.
  intros A B C. apply newline_free_avoids in A, B, C. unfold py_catalogue_lines. cbv zeta.
  repeat (apply Forall_cons; [apply newline_free_avoids;
    rewrite ?avoids_app, ?fmt_fixed_avoids, ?to_string_avoids, ?A, ?B, ?C; reflexivity|]).
  apply Forall_nil.
Qed.

(** What every file says of its measurement. *)
Record tells (odd : string) (e : PyParamModel.pyenv) (three : bool) (text : string) (y : PyRunModel.done) : Prop := {
  tl_factor : exists v,
    PyParamModel.dget "norm_convention" (PyParamModel.entries (PyRunModel.used y)) = Some v /\
    states_factor odd text (PyRunModel.factor (PyRunModel.called y)) (PyParamModel.py_str e v);
  tl_others : states_alternatives odd text (PyRunModel.n_part (PyRunModel.factors y))
    (PyRunModel.n_mesh (PyRunModel.factors y)) (PyRunModel.n_meshes (PyRunModel.factors y))
    (if three then "mesh-mixed; n/a" else "mesh-mixed");
  tl_box : exists n, PyRunModel.grid_of (PyRunModel.used y) = PyRunModel.Returns n /\
    states_box text (ParamModel.boxsize (ParamModel.smp (PyRunModel.par (PyRunModel.called y)))) n;
  tl_align : says_entry e (PyRunModel.used y) text "Box alignment: " "alignment" ""
}.

Definition plain_call (odd : string) (e : PyParamModel.pyenv) (three : bool) (y : PyRunModel.done) (l : string) : Prop :=
  newline_free odd /\ plain_entries e (PyRunModel.used y) /\ degree_entries three (PyRunModel.used y) l.

Lemma tells_made odd e three oe cats save y x path text l mixed ct st :
  plain_call odd e three y l -> Forall newline_free cats ->
  PyRunProps.parsed e ct st (PyRunModel.used y) ->
  PyRunModel.unset (PyRunModel.used y) "boxsize" = false ->
  PyRunModel.par (PyRunModel.called y) = PyParamModel.cpp (PyRunModel.used y) ->
  PyRunModel.factor_of mixed (PyRunModel.used y) (PyRunModel.factors y)
    = PyRunModel.Returns (PyRunModel.factor (PyRunModel.called y)) ->
  py_save odd e three oe cats save (PyRunModel.used y) (PyRunModel.factors y) x
    = PyRunModel.Returns (Some (path, TextFile text)) ->
  tells odd e three text y /\ tabulates text (columns l x) (bins_in x) /\
  forall line, In line cats -> says text line.
Proof.
  intros (O & P & D) C PF U PA FO H.
  destruct (python_header _ _ _ _ _ _ _ _ _ _ _ l O C P D H) as ((L & g & BO & GR & SB) & AL & _ & FA & OT & SC).
  split; [|split; [exact (python_table _ _ _ _ _ _ _ _ _ _ _ l O C P D H)|exact SC]].
  split; [exact (FA mixed _ FO)|exact OT| |exact AL].
  exists g. split; [exact GR|]. rewrite PA. rewrite (PyRunProps.pr_box _ _ _ _ PF U) in BO.
  assert (L = ParamModel.boxsize (ParamModel.smp (PyParamModel.cpp (PyRunModel.used y)))) as <- by congruence.
  exact SB.
Qed.

(** The catalogue described holds these particles. *)
Definition describes (text who whose src : string) (ps : list pdatum) : Prop :=
  exists ranges,
    states_catalogue of_python text who whose src (length ps) (rsum (map p_w ps)) (rsum (map p_ws ps)) ranges /\
    forall i, range_of (map (fun p => at_axis i (p_pos p)) ps) (fst (at_axis i ranges)) (snd (at_axis i ranges)).

Lemma rows_w c : square c ->
  map p_w (PyRunProps.rows c) = map (fun p => fst p * snd p)%R (combine (col_ws c) (col_wc c)).
Proof.
  destruct c as [x y z nz ws wc ? ? ? ?]. unfold square, PyRunProps.rows.
  cbn [col_x col_y col_z col_nz col_ws col_wc]. intros (Q1 & Q2 & Q3 & Q4 & Q5).
  revert y z nz ws wc Q1 Q2 Q3 Q4 Q5.
  induction x as [|x0 x IH]; intros [|y0 y] [|z0 z] [|n0 nz] [|w0 ws] [|v0 wc]; cbn [length]; intros; try lia; [reflexivity|].
  cbn [zip_columns map combine p_w fst snd]. f_equal. apply IH; lia.
Qed.

Lemma described_rows text who whose src c : py_in_step c ->
  (forall l, In l (py_catalogue_lines who whose src c) -> says text l) ->
  describes text who whose src (PyRunProps.rows c).
Proof.
  intros (Q & B & T1 & T2 & T3) S. exists (bounds c). split.
  - rewrite (rows_w c Q), (PyRunProps.rows_ws c Q), <- T2, <- T3.
    replace (length (PyRunProps.rows c)) with (ntotal c); [now apply py_catalogue_said|].
    rewrite T1. destruct Q as (Q1 & Q2 & Q3 & Q4 & Q5). unfold PyRunProps.rows. symmetry. apply zip_length; congruence.
  - intros i. destruct (B i) as (G & _). pose proof (PyRunProps.rows_pick c Q i) as E. unfold axis_of in E. now rewrite E.
Qed.

(** The particles of a box and of a window, and the catalogue left. *)
Lemma box_step fuel e three st name a d s x :
  PyRunModel.box fuel e three st name a d s = PyRunModel.Returns x -> py_in_step (s d) ->
  py_in_step (PyRunModel.after x d) /\
  PyRunModel.from_data (PyRunModel.called x) = Some (PyRunProps.rows (PyRunModel.after x d), []).
Proof.
  intros H St. pose proof St as (_ & B & _).
  destruct (PyGivenProps.box_parts _ _ _ _ _ _ _ _ _ H) as (b & c & _ & _ & _ & _ & _ & _ & _ & _ & CV & FD & _).
  assert (SA : py_in_step (PyRunModel.after x d)).
  { unfold PyRunModel.box in H. step H q PR. step H u CT. step H b' BO. step H ln LN. step H s1 S1. step H s2 S2.
    step H cd CD. cbv zeta in H. step H part PN. step H mesh MN. step H f FO. injection H as <-.
    cbn [PyRunModel.after] in *. apply PyRunProps.python_returns in S1.
    destruct (PyBoxProps.periodise_run (fst ln) d s B) as (c1 & E & CX & CY & CZ & (R1 & R2 & R3 & R4 & R5 & R6) & B').
    rewrite S1 in E. injection E as ->. rewrite !pyupd_same in S2.
    destruct St as ((Q1 & Q2 & Q3 & Q4 & Q5) & _ & T1 & T2 & T3).
    assert (SC : py_in_step c1).
    { split; [unfold square; rewrite CX, CY, CZ, R1, R2, R3, !map_length; auto|]. split; [exact B'|].
      split; [rewrite R4, T1, CX, map_length; reflexivity|]. rewrite R5, R6, R2, R3. auto. }
    destruct (PyRunModel.any (col_nz c1)).
    - injection S2 as <-. now rewrite pyupd_same.
    - step S2 c2 MD. injection S2 as <-. rewrite pyupd_same. apply PyRunProps.python_returns in MD.
      unfold PyCatModel.mean_density in MD. cbv zeta in MD.
      match type of MD with context [Reqb ?v 0] => destruct (Reqb v 0); [discriminate|] end.
      unfold py_setitem in MD. cbn [column bind] in MD. injection MD as <-.
      destruct SC as ((U1 & U2 & U3 & U4 & U5) & UB & UT1 & UT2 & UT3).
      split; [|split; [exact UB|split; [exact UT1|split; assumption]]].
      unfold square. cbn [col_x col_y col_z col_nz col_ws col_wc]. rewrite repeat_length. auto. }
  split; [exact SA|]. destruct SA as (SQ & BC & _). pose proof (bounds_nonempty _ BC) as NE.
  rewrite (PyRunProps.converted_canon _ SQ NE) in CV. injection CV as <-.
  rewrite (MainProps.particles_has _ _ (PyRunProps.canon_has _ (PyRunProps.rows_ne _ SQ NE))) in FD. exact FD.
Qed.

Lemma window_step fuel e three a r s x :
  PyRunModel.window fuel e three a r s = PyRunModel.Returns x -> py_in_step (s r) ->
  py_in_step (PyRunModel.after x r) /\
  exists l, PyRunModel.from_rand (PyRunModel.called x) = Some (PyRunProps.rows (PyRunModel.after x r), l).
Proof.
  intros H St.
  destruct (PyGivenProps.window_parts _ _ _ _ _ _ _ H) as (b & c & lr & _ & _ & _ & _ & _ & _ & _ & CV & FD & _).
  assert (SA : py_in_step (PyRunModel.after x r)).
  { unfold PyRunModel.window in H. cbv zeta in H. step H q PR. step H b' BO.
    destruct (PyRunModel.unset q "boxsize"); [discriminate|]. step H l LN. destruct (negb _); [discriminate|].
    step H s1 S1. step H s2 S2. step H cr CR. step H part PN. step H mesh MN. step H f FO. step H pr PD.
    injection H as <-. cbn [PyRunModel.after] in *. apply PyRunProps.python_returns in S1, S2.
    pose proof (PyRunProps.in_step_current _ St) as Cr. unfold py_centre in S1. cbn [ref_or_self] in S1.
    set (o := tmap2 (fun b l => ((fst b + snd b) / 2 - l / 2)%R) (bounds (s r)) l) in *.
    destruct (offset_self_run r o s (bounds_nonempty _ (proj1 (proj2 Cr)))) as (s1' & E1 & M & _).
    rewrite S1 in E1. injection E1 as <-.
    destruct (PyRunProps.moved_current' o _ _ Cr M) as (C' & R1). destruct M as (MC & MS & MB).
    pose proof (PyAgainProps.shifted_step _ _ _ St C' MS R1) as ((Q1 & Q2 & Q3 & Q4 & Q5) & _ & T1 & T2 & T3).
    destruct (PyBoxProps.periodise_run l r s1 MB) as (c1 & E2 & CX & CY & CZ & (R2 & R3 & R4 & R5 & R6 & R7) & B').
    rewrite S2 in E2. injection E2 as ->. rewrite pyupd_same.
    split; [unfold square; rewrite CX, CY, CZ, R2, R3, R4, !map_length; auto|]. split; [exact B'|].
    split; [rewrite R5, T1, CX, map_length; reflexivity|]. rewrite R6, R7, R3, R4. auto. }
  split; [exact SA|]. destruct SA as (SQ & BC & _). pose proof (bounds_nonempty _ BC) as NE.
  rewrite (PyRunProps.converted_canon _ SQ NE) in CV. injection CV as <-.
  rewrite (MainProps.particles_has _ _ (PyRunProps.canon_has _ (PyRunProps.rows_ne _ SQ NE))) in FD. eauto.
Qed.

(** C111: what the files of the ten functions say. *)
Theorem survey_file :
  forall measure source odd fuel e three st name a save d r s y path text l,
  d <> r -> py_in_step (s d) -> py_in_step (s r) ->
  newline_free (source d) -> newline_free (source r) -> plain_call odd e three y l ->
  survey_saved odd measure source fuel e three st name a save d r s
    = PyRunModel.Returns (y, Some (path, TextFile text)) ->
  PyRunModel.survey fuel e three st name a d r s = PyRunModel.Returns y /\
  tells odd e three text y /\
  (exists ps los, PyRunModel.from_data (PyRunModel.called y) = Some (ps, los) /\
     describes text "Data catalogue" "Data-source" (source d) ps) /\
  (exists ps los, PyRunModel.from_rand (PyRunModel.called y) = Some (ps, los) /\
     describes text "Random catalogue" "Random-source" (source r) ps) /\
  tabulates text (columns l (measure (PyRunModel.called y))) (bins_in (measure (PyRunModel.called y))).
Proof.
  intros measure source odd fuel e three st name a save d r s y path text l N Sd Sr Fd Fr PC H.
  unfold survey_saved in H. step H z HZ. step H f HF.
  assert (z = y) as -> by congruence. assert (f = Some (path, TextFile text)) as -> by congruence. clear H.
  split; [exact HZ|].
  destruct (PyGivenProps.survey_parts _ _ _ _ _ _ _ _ _ _ N Sd Sr HZ) as (b & _ & _ & PA & _ & _ & _ & PR & FO & ld & lr & FD & FR & _).
  destruct (PyAgainProps.survey_again _ _ _ _ _ _ _ _ _ _ N Sd Sr HZ) as (Sd' & Sr' & _).
  assert (U : PyRunModel.unset (PyRunModel.used y) "boxsize" = false).
  { unfold PyRunModel.survey in HZ. step HZ q PQ. rewrite PR in PQ. assert (q = PyRunModel.used y) as -> by congruence.
    step HZ u CT. step HZ b' B. step HZ ln LN. clear - LN. unfold PyRunModel.boxed, PyRunModel.box_given in LN.
    destruct (PyRunModel.unset (PyRunModel.used y) "boxsize"); [|reflexivity].
    cbn [PyRunModel.andthen] in LN. step LN v E. step E v' E'. destruct v'; discriminate. }
  assert (FF : forall t, avoids newline t = true -> newline_free t) by (intros t; apply newline_free_avoids).
  match type of HF with py_save _ _ _ _ ?c _ _ _ _ = _ => assert (FC : Forall newline_free c) end.
  { apply Forall_app. split; apply py_catalogue_free; try assumption; now apply FF. }
  destruct (tells_made _ _ _ _ _ _ _ _ _ _ l true _ _ PC FC (PyRunProps.prepared_facts _ _ _ _ _ _ _ PR) U PA FO HF)
    as (T & TB & SC).
  split; [exact T|]. split; [|split; [|exact TB]]; eexists _, _; (split; [eassumption|]);
    apply described_rows; try assumption; intros z I; apply SC, in_or_app; auto.
Qed.

Theorem box_file :
  forall measure source odd fuel e three st name a save d s y path text l,
  py_in_step (s d) -> newline_free (source d) -> plain_call odd e three y l ->
  box_saved odd measure source fuel e three st name a save d s
    = PyRunModel.Returns (y, Some (path, TextFile text)) ->
  PyRunModel.box fuel e three st name a d s = PyRunModel.Returns y /\
  tells odd e three text y /\
  (exists ps los, PyRunModel.from_data (PyRunModel.called y) = Some (ps, los) /\
     describes text "Catalogue" "Catalogue" (source d) ps) /\
  tabulates text (columns l (measure (PyRunModel.called y))) (bins_in (measure (PyRunModel.called y))).
Proof.
  intros measure source odd fuel e three st name a save d s y path text l St Fd PC H.
  unfold box_saved in H. step H z HZ. step H f HF.
  assert (z = y) as -> by congruence. assert (f = Some (path, TextFile text)) as -> by congruence. clear H.
  split; [exact HZ|].
  destruct (PyGivenProps.box_parts _ _ _ _ _ _ _ _ _ HZ) as (b & c & _ & _ & PA & _ & _ & _ & PR & FO & _).
  assert (U : PyRunModel.unset (PyRunModel.used y) "boxsize" = false).
  { unfold PyRunModel.box in HZ. step HZ q PQ. rewrite PR in PQ. assert (q = PyRunModel.used y) as -> by congruence.
    step HZ u CT. step HZ b' B. step HZ ln LN. clear - LN. unfold PyRunModel.boxed, PyRunModel.box_given in LN.
    destruct (PyRunModel.unset (PyRunModel.used y) "boxsize"); [|reflexivity].
    cbn [PyRunModel.andthen] in LN. step LN v E. step E v' E'. destruct v'; discriminate. }
  assert (FF : forall t, avoids newline t = true -> newline_free t) by (intros t; apply newline_free_avoids).
  match type of HF with py_save _ _ _ _ ?c _ _ _ _ = _ => assert (FC : Forall newline_free c) end.
  { apply py_catalogue_free; try assumption; now apply FF. }
  destruct (tells_made _ _ _ _ _ _ _ _ _ _ l false _ _ PC FC (PyRunProps.prepared_facts _ _ _ _ _ _ _ PR) U PA FO HF)
    as (T & TB & SC).
  destruct (box_step _ _ _ _ _ _ _ _ _ HZ St) as (Sa & FD).
  split; [exact T|]. split; [|exact TB]. eexists _, _. split; [exact FD|]. now apply described_rows.
Qed.

Theorem window_file :
  forall measure source odd fuel e three a save r s y path text l,
  py_in_step (s r) -> newline_free (source r) -> plain_call odd e three y l ->
  window_saved odd measure source fuel e three a save r s
    = PyRunModel.Returns (y, Some (path, TextFile text)) ->
  PyRunModel.window fuel e three a r s = PyRunModel.Returns y /\
  tells odd e three text y /\
  (exists ps los, PyRunModel.from_rand (PyRunModel.called y) = Some (ps, los) /\
     describes text "Catalogue" "Catalogue" (source r) ps) /\
  tabulates text (columns l (measure (PyRunModel.called y))) (bins_in (measure (PyRunModel.called y))).
Proof.
  intros measure source odd fuel e three a save r s y path text l St Fd PC H.
  unfold window_saved in H. step H z HZ. step H f HF.
  assert (z = y) as -> by congruence. assert (f = Some (path, TextFile text)) as -> by congruence. clear H.
  split; [exact HZ|].
  destruct (PyGivenProps.window_parts _ _ _ _ _ _ _ HZ) as (b & c & lr & _ & _ & PA & _ & _ & PR & FO & _).
  assert (U : PyRunModel.unset (PyRunModel.used y) "boxsize" = false).
  { unfold PyRunModel.window in HZ. cbv zeta in HZ. step HZ q PQ. rewrite PR in PQ.
    assert (q = PyRunModel.used y) as -> by congruence. step HZ b' B.
    destruct (PyRunModel.unset (PyRunModel.used y) "boxsize"); [discriminate HZ|reflexivity]. }
  assert (FF : forall t, avoids newline t = true -> newline_free t) by (intros t; apply newline_free_avoids).
  match type of HF with py_save _ _ _ _ ?c _ _ _ _ = _ => assert (FC : Forall newline_free c) end.
  { apply py_catalogue_free; try assumption; now apply FF. }
  destruct (tells_made _ _ _ _ _ _ _ _ _ _ l false _ _ PC FC (PyRunProps.prepared_facts _ _ _ _ _ _ _ PR) U PA FO HF)
    as (T & TB & SC).
  destruct (window_step _ _ _ _ _ _ _ HZ St) as (Sa & lo & FD).
  split; [exact T|]. split; [|exact TB]. eexists _, _. split; [exact FD|]. now apply described_rows.
Qed.

(** A header of the program. *)
Example program_header_case : exists text,
  cpp_file "nan" MainModel.Powspec "sim" {| source := "mocks.dat"; body := catalogue_new |} fresh
    PyParamModel.cpp_default {| MainModel.n_part := Some 2%R; MainModel.n_mesh := None; MainModel.n_meshes := None |}
    (Pk demo_powspec) = Some text /\
  says text "Box alignment: centre" /\ says text "Catalogue source: mocks.dat" /\
  states_factor "nan" text (Some 2%R) "particle" /\
  states_alternatives "nan" text (Some 2%R) None None "mesh-mixed".
Proof.
  assert (F : forall t, avoids newline t = true -> newline_free t) by (intros t; apply newline_free_avoids).
  assert (P : plain_run "nan" {| source := "mocks.dat"; body := catalogue_new |} fresh PyParamModel.cpp_default)
    by (repeat split; now apply F).
  eexists. split; [reflexivity|].
  match goal with |- says ?text _ /\ _ => set (t := text) end.
  assert (H : cpp_file "nan" MainModel.Powspec "sim" {| source := "mocks.dat"; body := catalogue_new |} fresh
    PyParamModel.cpp_default {| MainModel.n_part := Some 2%R; MainModel.n_mesh := None; MainModel.n_meshes := None |}
    (Pk demo_powspec) = Some t) by reflexivity. clearbody t.
  assert (LE : String.length (degrees_text (Pk demo_powspec) (ParamModel.msr PyParamModel.cpp_default)) <= 7)
    by (apply Nat.leb_le; reflexivity).
  destruct (program_header _ _ _ _ _ _ _ _ _ P LE H) as (_ & A & _ & O & C & _).
  split; [exact A|]. split; [exact (proj1 (C _ _ _ (or_introl eq_refl)))|]. split; [|exact O].
  destruct (cpp_file_lines _ _ _ _ _ _ _ _ _ P LE H) as (h & E & _ & _ & HO).
  injection E as <-. eexists. split; [apply (factor_near "nan" (Some 2%R))|].
  apply (says_line _ _ _ HO). apply in_or_app. left. do 7 right. left. reflexivity.
Qed.

Print Assumptions program_header.
Print Assumptions program_factor.
Print Assumptions python_header.
Print Assumptions survey_file.
Print Assumptions box_file.
Print Assumptions window_file.
