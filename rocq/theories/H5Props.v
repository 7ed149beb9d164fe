(* C124: what a catalogue kept in HDF5 files gives. *)
From Coq Require Import String Ascii List Arith ZArith Reals Bool Lia Lra.
From Verif Require Import Base StrModel StrProps ArrayModel ArrayProofs MeshModel CatModel
  CatProps LoadModel LoadProps H5Model.
Import ListNotations.
Local Open Scope nat_scope.
Local Open Scope string_scope.

(* ------------------------------------------------------------------ *)
(** * Vocabulary *)

(** The dataset read from a file: the one asked for, or else the first. *)
Inductive chosen (given : string) (f : h5file) : string -> Prop :=
| chosen_given : given <> "" -> chosen given f given
| chosen_first a n b : given = "" -> h_objects f = (a ++ (n, true) :: b)%list ->
    (forall m, ~ In (m, true) a) -> n <> "" -> chosen given f n.

(** A dataset's attribute of that name. *)
Definition attribute (d : dataset) (name : string) (v : option (list string)) : Prop :=
  exists l r, ds_attrs d = (l ++ (name, v) :: r)%list /\ forall u, ~ In (name, u) l.

(** A column list that points to an attribute. *)
Definition points_to (names : list string) (a : string) : Prop := names = ["attr::" ++ a].

(** The columns of a dataset, for the column names asked for. *)
Inductive columns (names : list string) (d : dataset) : list string -> Prop :=
| columns_first n r cols : names = [] -> ds_attrs d = (n, Some cols) :: r -> columns names d cols
| columns_attr a cols : points_to names a -> attribute d a (Some cols) -> columns names d cols
| columns_given : names <> [] -> (forall a, ~ points_to names a) -> columns names d names.

(** The table of a file: its columns and rows. *)
Inductive table_of (names : list string) (given : string) (f : h5file)
  : list string -> list (list R) -> Prop :=
| table_intro n d cols rows :
    h_objects f <> [] -> chosen given f n -> h_get f n = Some d -> ds_real d = true ->
    columns names d cols -> ds_table d = Some rows -> table_of names given f cols rows.

(** What can be wrong with a file, and the error for it. *)
Inductive faulty (names : list string) (given : string) : option h5file -> exn -> Prop :=
| fault_absent : faulty names given None IOErr
| fault_empty f : h_objects f = [] -> faulty names given (Some f) InvalidData
| fault_groups f : h_objects f <> [] -> given = "" -> (forall n, ~ chosen given f n) ->
    faulty names given (Some f) InvalidData
| fault_dataset f n : h_objects f <> [] -> chosen given f n -> h_get f n = None ->
    faulty names given (Some f) IOErr
| fault_type f n d : h_objects f <> [] -> chosen given f n -> h_get f n = Some d ->
    ds_real d = false -> faulty names given (Some f) InvalidData
| fault_names f n d : h_objects f <> [] -> chosen given f n -> h_get f n = Some d ->
    ds_real d = true -> names = [] -> ds_attrs d = [] -> faulty names given (Some f) InvalidData
| fault_first f n d m r : h_objects f <> [] -> chosen given f n -> h_get f n = Some d ->
    ds_real d = true -> names = [] -> ds_attrs d = (m, None) :: r ->
    faulty names given (Some f) IOErr
| fault_attr f n d a : h_objects f <> [] -> chosen given f n -> h_get f n = Some d ->
    ds_real d = true -> points_to names a -> (forall cols, ~ attribute d a (Some cols)) ->
    faulty names given (Some f) IOErr
| fault_table f n d cols : h_objects f <> [] -> chosen given f n -> h_get f n = Some d ->
    ds_real d = true -> columns names d cols -> ds_table d = None ->
    faulty names given (Some f) IOErr.

(** The files of a path and their tables. *)
Definition table_at (disk : string -> option h5file) (names : list string) (given p : string)
  (t : list string * list (list R)) : Prop :=
  exists f, disk p = Some f /\ table_of names given f (fst t) (snd t).

Definition tables (disk : string -> option h5file) (names : list string) (given path : string)
  (ts : list (list string * list (list R))) : Prop :=
  Forall2 (table_at disk names given) (split_string path "::") ts.

Definition all_rows (ts : list (list string * list (list R))) : list (list R) :=
  concat (map snd ts).

(* ------------------------------------------------------------------ *)
(** * One file *)

Lemma first_dataset_spec objs :
  (exists a n b, objs = (a ++ (n, true) :: b)%list /\ (forall m, ~ In (m, true) a) /\
     first_dataset objs = n) \/
  ((forall m, ~ In (m, true) objs) /\ first_dataset objs = "").
Proof.
  induction objs as [|(n, k) objs IH]; [right; split; [intros m []|reflexivity]|].
  destruct k; cbn [first_dataset].
  - left. exists [], n, objs. split; [reflexivity|]. split; [intros m []|reflexivity].
  - destruct IH as [(a & m & b & -> & N & E) | (N & E)].
    + left. exists ((n, false) :: a), m, b. split; [reflexivity|]. split; [|exact E].
      intros q [H|H]; [discriminate H|now apply (N q)].
    + right. split; [|exact E]. intros q [H|H]; [discriminate H|now apply (N q)].
Qed.

Lemma first_dataset_app a n b : (forall m, ~ In (m, true) a) ->
  first_dataset (a ++ (n, true) :: b) = n.
Proof.
  induction a as [|(m, k) a IH]; intros N; [reflexivity|]. cbn [app first_dataset].
  destruct k; [exfalso; apply (N m); now left|]. apply IH. intros q H. apply (N q). now right.
Qed.

Lemma dataset_name_ok given f n : dataset_name given f = Ok n <-> chosen given f n.
Proof.
  unfold dataset_name. destruct (String.eqb_spec given "") as [G|G].
  - split.
    + destruct (String.eqb_spec (first_dataset (h_objects f)) "") as [E|E]; [discriminate|].
      intros H. injection H as <-.
      destruct (first_dataset_spec (h_objects f)) as [(a & n & b & O & N & F) | (_ & F)]; [|congruence].
      rewrite F in *. now apply (chosen_first given f a n b).
    + intros [K|a m b _ O N K]; [congruence|]. rewrite O, (first_dataset_app a m b N).
      apply String.eqb_neq in K. now rewrite K.
  - split.
    + intros H. injection H as <-. now constructor.
    + intros [K|a m b K _ _ _]; [reflexivity|congruence].
Qed.

Lemma dataset_name_err given f e : dataset_name given f = Err e ->
  e = InvalidData /\ given = "" /\ forall n, ~ chosen given f n.
Proof.
  intros H. assert (N : forall n, ~ chosen given f n).
  { intros n C. apply dataset_name_ok in C. congruence. }
  revert H. unfold dataset_name. destruct (String.eqb_spec given "") as [G|G]; [|discriminate].
  destruct (_ =? ""); [|discriminate]. intros H. injection H as <-. auto.
Qed.

Lemma get_attribute_ok d a cols : get_attribute a (ds_attrs d) = Ok cols <-> attribute d a (Some cols).
Proof.
  unfold attribute. induction (ds_attrs d) as [|(n, v) l IH]; cbn [get_attribute].
  - split; [discriminate|]. intros (l & r & E & _). destruct l; discriminate E.
  - destruct (String.eqb_spec n a) as [->|N].
    + split.
      * destruct v as [c|]; [|discriminate]. intros H. injection H as <-. exists [], l. auto.
      * intros (l1 & r & E & F). destruct l1 as [|x l1]; cbn [app] in E.
        -- injection E as -> _. reflexivity.
        -- injection E as <- _. exfalso. apply (F v). now left.
    + rewrite IH. split.
      * intros (l1 & r & -> & F). exists ((n, v) :: l1), r. split; [reflexivity|].
        intros u [H|H]; [congruence|now apply (F u)].
      * intros (l1 & r & E & F). destruct l1 as [|x l1]; cbn [app] in E.
        -- injection E as -> _ _. congruence.
        -- injection E as <- ->. exists l1, r. split; [reflexivity|]. intros u H. apply (F u). now right.
Qed.

Lemma get_attribute_err a l e : get_attribute a l = Err e -> e = IOErr.
Proof.
  induction l as [|(n, v) l IH]; cbn [get_attribute]; [congruence|].
  destruct (n =? a); [destruct v; congruence|exact IH].
Qed.

Lemma prefix_attr c : prefix "attr::" c = true <-> c = "attr::" ++ sdrop 6 c.
Proof.
  split.
  - do 6 (destruct c as [|? c]; [discriminate|]; cbn [prefix]; 
      match goal with |- context [ascii_dec ?x ?y] => destruct (ascii_dec x y) as [<-|]; [|discriminate] end).
    intros _. reflexivity.
  - intros H. rewrite H. generalize (sdrop 6 c). intros t. cbn. destruct t; reflexivity.
Qed.

Lemma points_iff c a : points_to [c] a <-> prefix "attr::" c = true /\ a = sdrop 6 c.
Proof.
  unfold points_to. split.
  - intros H. injection H as ->. split; [cbn; destruct a; reflexivity|reflexivity].
  - intros (P & ->). apply prefix_attr in P. now rewrite <- P.
Qed.

Lemma columns_of_ok names d cols : columns_of names d = Ok cols <-> columns names d cols.
Proof.
  destruct names as [|c [|c' names]]; cbn [columns_of].
  - split.
    + destruct (ds_attrs d) as [|(n, v) r] eqn:E; [discriminate|]. cbn [get_attribute].
      rewrite String.eqb_refl. destruct v as [k|]; [|discriminate]. intros H. injection H as <-.
      now apply (columns_first [] d n r).
    + intros [n r k _ E|a k H _|H _]; [|discriminate H|congruence]. rewrite E. cbn [get_attribute].
      now rewrite String.eqb_refl.
  - destruct (prefix "attr::" c) eqn:P.
    + split.
      * intros H. apply get_attribute_ok in H. apply (columns_attr [c] d (sdrop 6 c)); [|exact H].
        apply points_iff. auto.
      * intros [n r k H _|a k H A|_ H]; [discriminate H| |].
        -- apply points_iff in H as (_ & ->). now apply get_attribute_ok.
        -- exfalso. apply (H (sdrop 6 c)). apply points_iff. auto.
    + split.
      * intros H. injection H as <-. apply columns_given; [discriminate|]. intros a H.
        apply points_iff in H as (H & _). congruence.
      * intros [n r k H _|a k H A|_ H]; [discriminate H| |reflexivity].
        apply points_iff in H as (H & _). congruence.
  - split.
    + intros H. injection H as <-. apply columns_given; [discriminate|]. intros a H. discriminate H.
    + intros [n r k H _|a k H A|_ H]; [discriminate H|discriminate H|reflexivity].
Qed.

Lemma read_file_ok names given f cols rows :
  read_file names given f = Ok (cols, rows) <-> table_of names given f cols rows.
Proof.
  unfold read_file. split.
  - destruct (h_objects f) as [|o os] eqn:O; [discriminate|].
    destruct (dataset_name given f) as [n|] eqn:D; [|discriminate]. cbn [bind].
    apply dataset_name_ok in D. destruct (h_get f n) as [d|] eqn:G; [|discriminate].
    destruct (ds_real d) eqn:T; [|discriminate]. cbn [negb].
    destruct (columns_of names d) as [k|] eqn:K; [|discriminate]. cbn [bind].
    apply columns_of_ok in K. destruct (ds_table d) as [r|] eqn:Q; [|discriminate].
    intros H. injection H as <- <-. apply (table_intro names given f n d); auto. rewrite O. discriminate.
  - intros [n d k r O C G T K Q]. destruct (h_objects f) as [|o os]; [congruence|].
    apply dataset_name_ok in C. rewrite C. cbn [bind]. rewrite G, T. cbn [negb].
    apply columns_of_ok in K. rewrite K. cbn [bind]. now rewrite Q.
Qed.

(** A file not faulty has a table, and no faulty file has one. *)
Definition look (names : list string) (given : string) (o : option h5file)
  : res (list string * list (list R)) :=
  match o with None => Err IOErr | Some f => read_file names given f end.

Lemma look_err names given o e : look names given o = Err e <-> faulty names given o e.
Proof.
  destruct o as [f|]; cbn [look].
  2:{ split; [intros H; injection H as <-; constructor|]. intros H. inversion H. reflexivity. }
  split.
  - unfold read_file. destruct (h_objects f) as [|o os] eqn:O.
    { intros H. injection H as <-. now constructor. }
    assert (NE : h_objects f <> []) by (rewrite O; discriminate). clear O.
    destruct (dataset_name given f) as [n|e'] eqn:D; cbn [bind].
    2:{ intros H. injection H as <-. apply dataset_name_err in D as (-> & G & N). now apply fault_groups. }
    apply dataset_name_ok in D. destruct (h_get f n) as [d|] eqn:G.
    2:{ intros H. injection H as <-. now apply (fault_dataset names given f n). }
    destruct (ds_real d) eqn:T; cbn [negb].
    2:{ intros H. injection H as <-. now apply (fault_type names given f n d). }
    destruct (columns_of names d) as [k|e'] eqn:K; cbn [bind].
    + apply columns_of_ok in K. destruct (ds_table d) eqn:Q; [discriminate|].
      intros H. injection H as <-. now apply (fault_table names given f n d k).
    + intros H. injection H as <-. destruct names as [|c [|c' names]]; cbn [columns_of] in K.
      * destruct (ds_attrs d) as [|(m, v) r] eqn:A.
        -- injection K as <-. now apply (fault_names [] given f n d).
        -- cbn [get_attribute] in K. rewrite String.eqb_refl in K. destruct v; [discriminate|].
           injection K as <-. now apply (fault_first [] given f n d m r).
      * destruct (prefix "attr::" c) eqn:P; [|discriminate]. assert (E := get_attribute_err _ _ _ K). subst e'.
        apply (fault_attr [c] given f n d (sdrop 6 c)); auto; [apply points_iff; auto|].
        intros cols A. apply get_attribute_ok in A. congruence.
      * discriminate K.
  - unfold read_file. intros H. inversion H; subst; clear H;
      match goal with
      | O : h_objects f = [] |- _ => now rewrite O
      | O : h_objects f <> [] |- _ => destruct (h_objects f) eqn:OB; [congruence|]
      end;
      try match goal with C : chosen given f _ |- _ =>
        apply dataset_name_ok in C; rewrite C; cbn [bind] end.
    + destruct (dataset_name "" f) eqn:D; [apply dataset_name_ok in D; exfalso; unfold not in *; eauto|].
      apply dataset_name_err in D as (-> & _). reflexivity.
    + match goal with G : h_get f _ = None |- _ => now rewrite G end.
    + match goal with G : h_get f _ = Some _, T : ds_real _ = _ |- _ => now rewrite G, T end.
    + match goal with G : h_get f _ = Some _, T : ds_real _ = _, A : ds_attrs _ = _ |- _ =>
        rewrite G, T; cbn [negb columns_of]; now rewrite A end.
    + match goal with G : h_get f _ = Some _, T : ds_real _ = _, A : ds_attrs _ = _ |- _ =>
        rewrite G, T; cbn [negb columns_of]; rewrite A; cbn [get_attribute]; now rewrite String.eqb_refl end.
    + match goal with G : h_get f _ = Some ?d, T : ds_real _ = _, A : points_to _ ?a, N : forall cols, ~ _ |- _ =>
        rewrite G, T; cbn [negb]; unfold points_to in A; subst names; cbn [columns_of];
        replace (prefix "attr::" ("attr::" ++ a)) with true by (destruct a; reflexivity);
        change (sdrop 6 ("attr::" ++ a)) with a;
        destruct (get_attribute a (ds_attrs d)) eqn:Q;
          [apply get_attribute_ok in Q; exfalso; exact (N _ Q)|];
        now rewrite (get_attribute_err _ _ _ Q) end.
    + match goal with G : h_get f _ = Some _, T : ds_real _ = _, K : columns _ _ _, A : ds_table _ = _ |- _ =>
        rewrite G, T; cbn [negb]; apply columns_of_ok in K; rewrite K; cbn [bind]; now rewrite A end.
Qed.

(** Every file has a table or a fault, with one error; not both. *)
Theorem h5_file_or_fault : forall names given o,
  (exists f cols rows, o = Some f /\ table_of names given f cols rows /\
     forall cols' rows', table_of names given f cols' rows' -> cols' = cols /\ rows' = rows) /\
    (forall e, ~ faulty names given o e) \/
  (exists e, faulty names given o e /\ forall e', faulty names given o e' -> e' = e) /\
    (forall f cols rows, o = Some f -> ~ table_of names given f cols rows).
Proof.
  intros names given o. destruct (look names given o) as [(cols, rows)|e] eqn:L.
  - left. split.
    + destruct o as [f|]; [|discriminate L]. exists f, cols, rows. split; [reflexivity|].
      cbn [look] in L. split; [now apply read_file_ok|]. intros cols' rows' H.
      apply read_file_ok in H. rewrite L in H. injection H as -> ->. auto.
    + intros e F. apply look_err in F. congruence.
  - right. split.
    + exists e. split; [now apply look_err|]. intros e' F. apply look_err in F. congruence.
    + intros f cols rows -> T. apply read_file_ok in T. cbn [look] in L. congruence.
Qed.

(* ------------------------------------------------------------------ *)
(** * All files *)

Lemma read_files_ok disk names given paths ts : forall cols rows,
  Forall2 (table_at disk names given) paths ts ->
  read_files disk names given paths cols rows =
  Ok (last (map fst ts) cols, (rows ++ all_rows ts)%list).
Proof.
  intros cols rows F. revert cols rows. induction F as [|p (k, r) paths ts (f & D & T) F IH]; intros cols rows.
  - cbn. now rewrite app_nil_r.
  - cbn [read_files]. rewrite D. apply read_file_ok in T. rewrite T. cbn [bind fst snd].
    rewrite IH. unfold all_rows. cbn [map concat fst snd]. rewrite app_assoc. f_equal. f_equal.
    destruct ts as [|t ts]; [reflexivity|]. cbn [map]. clear. 
    generalize (map fst ts) as l, (fst t) as x. intros l. induction l as [|y l IH]; intros x; [reflexivity|].
    change (last (x :: y :: l) k) with (last (y :: l) k). rewrite IH. reflexivity.
Qed.

Lemma read_files_inv disk names given paths : forall cols rows k r,
  read_files disk names given paths cols rows = Ok (k, r) ->
  exists ts, Forall2 (table_at disk names given) paths ts.
Proof.
  induction paths as [|p paths IH]; intros cols rows k r H; [exists []; constructor|].
  cbn [read_files] in H. destruct (disk p) as [f|] eqn:D; [|discriminate].
  destruct (read_file names given f) as [(k', r')|] eqn:T; [|discriminate]. cbn [bind fst snd] in H.
  destruct (IH _ _ _ _ H) as (ts & F). exists ((k', r') :: ts). constructor; [|exact F].
  exists f. split; [exact D|]. now apply read_file_ok.
Qed.

Lemma read_files_fault disk names given a p b e ts : forall cols rows,
  Forall2 (table_at disk names given) a ts -> faulty names given (disk p) e ->
  read_files disk names given (a ++ p :: b) cols rows = Err e.
Proof.
  intros cols rows F. revert cols rows. induction F as [|q (k, r) a ts (f & D & T) F IH]; intros cols rows H.
  - cbn [app read_files]. apply look_err in H. destruct (disk p) as [f|]; cbn [look] in H; [|congruence].
    now rewrite H.
  - cbn [app read_files]. rewrite D. apply read_file_ok in T. rewrite T. cbn [bind]. now apply IH.
Qed.

Lemma load_h5_unfold disk path names given volume c ts :
  source c = "" -> Forall column_name names -> tables disk names given path ts ->
  load_h5 disk path (commas names) given volume c =
  let r := fill_rows (last (map fst ts) names) volume (all_rows ts) (body c) in
  ({| source := "extfile:" ++ path; body := fst r |}, snd r).
Proof.
  intros S K T. unfold load_h5. rewrite S. cbn [String.eqb negb]. rewrite pieces_commas by exact K.
  now rewrite (read_files_ok disk names given _ ts names [] T).
Qed.

Lemma fill_rows_ok cols volume rows c :
  rows <> [] -> Forall (fun row => List.length cols <= List.length row) rows ->
  In "x" cols -> In "y" cols -> In "z" cols ->
  exists c' ps nz0, fill_rows cols volume rows c = (c', Ok tt) /\ pdata c' = Some ps /\
    mean_density (List.length rows) volume nz0 /\ Forall2 (is_particle cols nz0) rows ps /\
    wtotal c' = rsum (map p_w ps) /\ wstotal c' = rsum (map p_ws ps) /\ extents_current c'.
Proof.
  intros NE L X Y Z. unfold fill_rows.
  destruct (Nat.eqb_spec (List.length rows) 0) as [E|_]; [destruct rows; [congruence|discriminate E]|].
  set (nz0 := default_nz (List.length rows) volume).
  destruct (particles_of_rows cols nz0 rows X Y Z L) as (ps & -> & G).
  assert (P : ps <> []) by (intros ->; inversion G; subst; congruence).
  destruct (fill_catalogue c ps P) as (s' & E & A & B & C & D). rewrite E. cbv zeta. cbn [fst snd].
  exists (s' 0), ps, nz0. split; [reflexivity|]. split; [exact A|].
  split; [now apply default_nz_spec|]. auto.
Qed.

(* ------------------------------------------------------------------ *)
(** * C124: the particles *)

(** Files of the same columns: every row is a particle, in the order of the
    files and rows. *)
Theorem h5_rows :
  forall disk path names given cols volume c ts,
  source c = "" -> Forall column_name names -> tables disk names given path ts ->
  Forall (fun t => fst t = cols) ts -> all_rows ts <> [] ->
  Forall (fun row => List.length cols <= List.length row) (all_rows ts) ->
  In "x" cols -> In "y" cols -> In "z" cols ->
  exists c' ps nz0,
    load_h5 disk path (commas names) given volume c = (c', Ok tt) /\
    source c' = "extfile:" ++ path /\ pdata (body c') = Some ps /\
    mean_density (List.length (all_rows ts)) volume nz0 /\
    Forall2 (is_particle cols nz0) (all_rows ts) ps /\
    wtotal (body c') = rsum (map p_w ps) /\ wstotal (body c') = rsum (map p_ws ps) /\
    extents_current (body c').
Proof.
  intros disk path names given cols volume c ts S K T F NE L X Y Z.
  rewrite (load_h5_unfold disk path names given volume c ts S K T).
  assert (E : last (map fst ts) names = cols).
  { destruct F as [|t ts E F]; [exfalso; now apply NE|]. cbn [map]. rewrite E. clear - F.
    induction F as [|u ts E F IH]; [reflexivity|]. cbn [map]. rewrite E.
    change (last (cols :: cols :: map fst ts) names) with (last (cols :: map fst ts) names). exact IH. }
  rewrite E. destruct (fill_rows_ok cols volume (all_rows ts) (body c) NE L X Y Z)
    as (c' & ps & nz0 & -> & R). cbv zeta. cbn [fst snd].
  exists {| source := "extfile:" ++ path; body := c' |}, ps, nz0. cbn [source body]. auto.
Qed.

(** In general every row, of whatever file, is read by the columns of the
    last file. *)
Theorem h5_last_columns :
  forall disk path names given volume c ts cols rows,
  let all := (ts ++ [(cols, rows)])%list in
  source c = "" -> Forall column_name names -> tables disk names given path all ->
  all_rows all <> [] ->
  Forall (fun row => List.length cols <= List.length row) (all_rows all) ->
  In "x" cols -> In "y" cols -> In "z" cols ->
  exists c' ps nz0,
    load_h5 disk path (commas names) given volume c = (c', Ok tt) /\
    pdata (body c') = Some ps /\ mean_density (List.length (all_rows all)) volume nz0 /\
    Forall2 (is_particle cols nz0) (all_rows all) ps.
Proof.
  intros disk path names given volume c ts cols rows all S K T NE L X Y Z.
  rewrite (load_h5_unfold disk path names given volume c all S K T).
  assert (E : last (map fst all) names = cols) by (unfold all; rewrite map_app; apply last_last).
  rewrite E. destruct (fill_rows_ok cols volume (all_rows all) (body c) NE L X Y Z)
    as (c' & ps & nz0 & -> & P & M & G & _). cbv zeta. cbn [fst snd].
  exists {| source := "extfile:" ++ path; body := c' |}, ps, nz0. cbn [body]. auto.
Qed.

(** Columns given by name are the columns of every file. *)
Theorem h5_given_columns :
  forall disk path names given ts,
  names <> [] -> (forall a, ~ points_to names a) -> tables disk names given path ts ->
  Forall (fun t => fst t = names) ts.
Proof.
  intros disk path names given ts N A T. unfold tables in T.
  induction T as [|p (k, r) paths ts (f & _ & T) F IH]; constructor; [|exact IH].
  cbn [fst snd] in *. destruct T as [n d cols rows _ _ _ _ K _]. destruct K as [n' r' k' H _|a k' H _|_ _]; [congruence|exfalso; exact (A a H)|reflexivity].
Qed.

(** A text file with the same rows and columns gives the same catalogue. *)
Theorem h5_as_text :
  forall disk disk' path path' names given cols volume c c' ts contents texts,
  source c = "" -> source c' = "" -> body c = body c' ->
  Forall column_name names -> Forall column_name cols ->
  tables disk names given path ts -> ts <> [] -> Forall (fun t => fst t = cols) ts ->
  text_path path' -> files disk' path' contents -> Forall2 holds contents texts ->
  rows_of (concat texts) (all_rows ts) ->
  body (fst (load_h5 disk path (commas names) given volume c)) =
    body (fst (load_catalogue_file disk' path' (commas cols) volume c')) /\
  snd (load_h5 disk path (commas names) given volume c) =
    snd (load_catalogue_file disk' path' (commas cols) volume c').
Proof.
  intros disk disk' path path' names given cols volume c c' ts contents texts S S' B K K' T NE F TP FL H R.
  rewrite (load_h5_unfold disk path names given volume c ts S K T).
  rewrite (load_unfold disk' path' (commas cols) volume c' contents S' TP FL).
  rewrite pieces_commas by exact K'. cbv zeta. cbn [fst snd body].
  assert (E : last (map fst ts) names = cols).
  { destruct F as [|t ts E F]; [exfalso; now apply NE|]. cbn [map]. rewrite E. clear - F.
    induction F as [|u ts E F IH]; [reflexivity|]. cbn [map]. rewrite E.
    change (last (cols :: cols :: map fst ts) names) with (last (cols :: map fst ts) names). exact IH. }
  rewrite E, B.
  assert (Q : fill_rows cols volume (all_rows ts) (body c') = read_texts cols volume contents (body c')).
  { unfold fill_rows, read_texts. rewrite (data_lines_holds contents texts H).
    assert (M := rows_of_lines _ _ R). rewrite <- M, map_length, map_map. reflexivity. }
  rewrite Q. auto.
Qed.

(* ------------------------------------------------------------------ *)
(** * Loads that succeed, and those that do not *)

Lemma at_index_inv name cols row v : at_index row (find_index name cols) = Ok v ->
  column name cols row v.
Proof.
  destruct (in_dec string_dec name cols) as [H|H]; [|now rewrite (find_index_none name cols H)].
  destruct (first_of name cols H) as (a & b & E & N). rewrite (find_index_some name cols a b E N).
  cbn [at_index]. destruct (nth_error row (List.length a)) as [u|] eqn:X; [|discriminate].
  intros Q. injection Q as ->. destruct (nth_error_split row (List.length a) X) as (r & s & E1 & E2).
  now exists a, b, r, s.
Qed.

Lemma or_default_inv name d cols row v : or_default d row (find_index name cols) = Ok v ->
  named name d cols row v.
Proof.
  intros Q. destruct (in_dec string_dec name cols) as [H|H].
  - split; [|contradiction]. intros _. destruct (find_index name cols) eqn:E.
    + apply at_index_inv. rewrite E. exact Q.
    + exfalso. destruct (first_of name cols H) as (a & b & E' & N).
      rewrite (find_index_some name cols a b E' N) in E. discriminate E.
  - split; [contradiction|]. intros _. rewrite (find_index_none name cols H) in Q. cbn in Q. congruence.
Qed.

Lemma particle_of_inv cols nz0 row p : particle_of cols nz0 row = Ok p -> is_particle cols nz0 row p.
Proof.
  unfold particle_of.
  destruct (at_index row (find_index "x" cols)) eqn:X; [|discriminate]; cbn [bind].
  destruct (at_index row (find_index "y" cols)) eqn:Y; [|discriminate]; cbn [bind].
  destruct (at_index row (find_index "z" cols)) eqn:Z; [|discriminate]; cbn [bind].
  destruct (or_default nz0 row (find_index "nz" cols)) eqn:N; [|discriminate]; cbn [bind].
  destruct (or_default 1 row (find_index "ws" cols)) eqn:S; [|discriminate]; cbn [bind].
  destruct (or_default 1 row (find_index "wc" cols)) eqn:C; [|discriminate]; cbn [bind].
  intros H. injection H as <-. unfold is_particle. cbn.
  apply at_index_inv in X, Y, Z. apply or_default_inv in N, S, C. tauto.
Qed.

Lemma particles_inv cols nz0 rows ps : sequence (map (particle_of cols nz0) rows) = Ok ps ->
  Forall2 (is_particle cols nz0) rows ps.
Proof.
  revert ps. induction rows as [|row rows IH]; intros ps; cbn [map sequence].
  - intros H. injection H as <-. constructor.
  - destruct (particle_of cols nz0 row) as [p|] eqn:P; [|discriminate]. cbn [bind].
    destruct (sequence _) as [qs|] eqn:Q; [|discriminate]. cbn [bind]. intros H. injection H as <-.
    constructor; [now apply particle_of_inv|now apply IH].
Qed.

(** A load that succeeds found a table in every file; there is a particle for
    every row and nothing else. *)
Theorem h5_loaded :
  forall disk path names given volume c c',
  Forall column_name names ->
  load_h5 disk path (commas names) given volume c = (c', Ok tt) ->
  source c = "" /\
  exists ts ps nz0, tables disk names given path ts /\ all_rows ts <> [] /\
    pdata (body c') = Some ps /\ mean_density (List.length (all_rows ts)) volume nz0 /\
    Forall2 (is_particle (last (map fst ts) names) nz0) (all_rows ts) ps.
Proof.
  intros disk path names given volume c c' K H.
  assert (S : source c = "").
  { unfold load_h5 in H. destruct (String.eqb_spec (source c) "") as [E|_]; [exact E|].
    cbn [negb] in H. congruence. }
  split; [exact S|].
  assert (T : exists ts, tables disk names given path ts).
  { unfold load_h5 in H. rewrite S in H. cbn [String.eqb negb] in H.
    rewrite pieces_commas in H by exact K.
    destruct (read_files disk names given (split_string path "::") names []) as [(k, r)|] eqn:Q;
      [|discriminate H]. exact (read_files_inv _ _ _ _ _ _ _ _ Q). }
  destruct T as (ts & T). rewrite (load_h5_unfold disk path names given volume c ts S K T) in H.
  cbv zeta in H. unfold fill_rows in H.
  destruct (Nat.eqb_spec (List.length (all_rows ts)) 0) as [E|NE]; [discriminate H|].
  destruct (sequence _) as [ps|] eqn:Q; [|discriminate H].
  apply particles_inv in Q.
  assert (P : ps <> []) by (intros ->; inversion Q as [E|]; apply NE; now rewrite <- E).
  destruct (fill_catalogue (body c) ps P) as (s' & F & A & _). rewrite F in H. cbn [fst snd] in H.
  injection H as <-. exists ts, ps, (default_nz (List.length (all_rows ts)) volume).
  split; [exact T|]. split; [intros E; rewrite E in NE; now apply NE|]. cbn [body].
  split; [exact A|]. split; [now apply default_nz_spec|exact Q].
Qed.

(** The first faulty file decides the error. *)
Theorem h5_first_fault :
  forall disk path names given volume c a p b ts e,
  source c = "" -> Forall column_name names ->
  split_string path "::" = (a ++ p :: b)%list ->
  Forall2 (table_at disk names given) a ts -> faulty names given (disk p) e ->
  load_h5 disk path (commas names) given volume c =
  ({| source := "extfile:" ++ path; body := body c |}, Err e).
Proof.
  intros disk path names given volume c a p b ts e S K P F X. unfold load_h5.
  rewrite S. cbn [String.eqb negb]. rewrite pieces_commas by exact K.
  now rewrite P, (read_files_fault disk names given a p b e ts names [] F X).
Qed.

(** Tables without rows, and coordinates without a column. *)
Theorem h5_no_rows :
  forall disk path names given volume c ts,
  source c = "" -> Forall column_name names -> tables disk names given path ts ->
  all_rows ts = [] ->
  load_h5 disk path (commas names) given volume c =
  ({| source := "extfile:" ++ path; body := body c |}, Err InvalidParameter).
Proof.
  intros disk path names given volume c ts S K T E.
  rewrite (load_h5_unfold disk path names given volume c ts S K T). rewrite E. reflexivity.
Qed.

Theorem h5_needs_coordinates :
  forall disk path names given volume c ts name,
  source c = "" -> Forall column_name names -> tables disk names given path ts ->
  all_rows ts <> [] -> In name ["x"; "y"; "z"] -> ~ In name (last (map fst ts) names) ->
  load_h5 disk path (commas names) given volume c =
  ({| source := "extfile:" ++ path; body := body c |}, Err OutOfBounds).
Proof.
  intros disk path names given volume c ts name S K T NE I N.
  rewrite (load_h5_unfold disk path names given volume c ts S K T).
  unfold fill_rows. destruct (Nat.eqb_spec (List.length (all_rows ts)) 0) as [E|_].
  { apply length_zero_iff_nil in E. congruence. }
  set (cols := last (map fst ts) names) in *. set (nz0 := default_nz _ _).
  rewrite (sequence_err _ OutOfBounds); [reflexivity| |].
  - destruct (all_rows ts) as [|row rows]; [congruence|]. cbn [map]. left.
    destruct (particle_of cols nz0 row) as [p|e] eqn:E; [|f_equal; eapply particle_of_err; exact E].
    exfalso. apply particle_of_inv in E as (X & Y & Z & _).
    assert (C : forall m v, column m cols row v -> In m cols).
    { intros m v (a & b & _ & _ & Q & _). rewrite Q. apply in_or_app. right. now left. }
    destruct I as [<-|[<-|[<-|[]]]]; apply N; eauto.
  - intros e' G. apply in_map_iff in G as (row & G & _). eapply particle_of_err; exact G.
Qed.

(** A load that failed leaves the particles, yet the catalogue takes no other
    file; a catalogue already loaded is left as it is. *)
Theorem h5_failed_keeps :
  forall disk path columns given volume c e,
  snd (load_h5 disk path columns given volume c) = Err e ->
  body (fst (load_h5 disk path columns given volume c)) = body c.
Proof.
  intros disk path columns given volume c e. unfold load_h5.
  destruct (source c =? ""); cbn [negb]; [|reflexivity].
  destruct (read_files _ _ _ _ _ _) as [(cols, rows)|e']; [|reflexivity].
  cbv zeta. cbn [fst snd body]. unfold fill_rows.
  destruct (Nat.eqb_spec (List.length rows) 0) as [E|NE]; [reflexivity|].
  destruct (sequence _) as [ps|e'] eqn:Q; [|reflexivity]. apply particles_inv in Q.
  assert (P : ps <> []) by (intros ->; inversion Q as [E|]; apply NE; now rewrite <- E).
  destruct (fill_catalogue (body c) ps P) as (s' & -> & _). cbn [fst snd]. discriminate.
Qed.

Theorem h5_twice :
  forall disk texts path columns given volume disk' texts' path' columns' given' volume' c,
  let c1 := fst (load_file disk texts path columns given volume c) in
  load_file disk' texts' path' columns' given' volume' c1 = (c1, Err InvalidData).
Proof.
  intros disk texts path columns given volume disk' texts' path' columns' given' volume' c c1.
  assert (S : source c1 <> "").
  { unfold c1, load_file. destruct (_ || _) eqn:X.
    - unfold load_h5. destruct (source c =? "") eqn:E; cbn [negb].
      + destruct (read_files _ _ _ _ _ _) as [(k, r)|]; discriminate.
      + cbn [fst]. now apply String.eqb_neq.
    - unfold load_catalogue_file. destruct (source c =? "") eqn:E; cbn [negb].
      + rewrite X. destruct (open_all texts (split_string path "::")); discriminate.
      + cbn [fst]. now apply String.eqb_neq. }
  apply String.eqb_neq in S. unfold load_file at 1, load_h5, load_catalogue_file. rewrite S. cbn [negb].
  now destruct (_ || _).
Qed.

(** The ending of the whole path, that is of its last file, decides how all
    its files are read. *)
Theorem h5_by_ending :
  forall disk texts path columns given volume c,
  ((exists stem, path = stem ++ ".h5" \/ path = stem ++ ".hdf5") ->
   load_file disk texts path columns given volume c = load_h5 disk path columns given volume c) /\
  (~ (exists stem, path = stem ++ ".h5" \/ path = stem ++ ".hdf5") ->
   load_file disk texts path columns given volume c =
   load_catalogue_file texts path columns volume c).
Proof.
  intros disk texts path columns given volume c. unfold load_file. split.
  - intros (stem & H). replace (has_extension path ".h5" || has_extension path ".hdf5") with true; [reflexivity|].
    symmetry. apply orb_true_iff. destruct H as [H|H]; [left|right]; apply has_extension_iff; now exists stem.
  - intros N. destruct (has_extension path ".h5" || has_extension path ".hdf5") eqn:E; [|reflexivity].
    exfalso. apply N. apply orb_true_iff in E as [E|E]; apply has_extension_iff in E as (s & ->); exists s; auto.
Qed.

(* ------------------------------------------------------------------ *)
(** * Cases *)

Definition table_file (name : string) (attrs : list (string * option (list string)))
  (rows : list (list R)) : h5file :=
  {| h_objects := [("meta", false); (name, true)];
     h_get := fun n => if n =? name
       then Some {| ds_attrs := attrs; ds_real := true; ds_table := Some rows |} else None |}.

Lemma table_file_first name cols r rows : name <> "" ->
  table_of [] "" (table_file name (("names", Some cols) :: r) rows) cols rows.
Proof.
  intros N. eapply (table_intro [] "" _ name).
  - discriminate.
  - apply (chosen_first "" _ [("meta", false)] name []); [reflexivity|reflexivity| |exact N].
    intros m [H|[]]; discriminate H.
  - cbn [h_get table_file]. now rewrite String.eqb_refl.
  - reflexivity.
  - eapply columns_first; reflexivity.
  - reflexivity.
Qed.

(** Two files with their columns in opposite orders. *)
Definition two_files (p : string) : option h5file :=
  if p =? "a.h5" then Some (table_file "cat" [("names", Some ["z"; "y"; "x"])] [[1; 2; 3]%R])
  else if p =? "b.h5" then Some (table_file "cat" [("names", Some ["x"; "y"; "z"])] [[4; 5; 6]%R])
  else None.

Lemma two_tables : tables two_files [] "" "a.h5::b.h5"
  [(["z"; "y"; "x"], [[1; 2; 3]%R]); (["x"; "y"; "z"], [[4; 5; 6]%R])].
Proof.
  unfold tables. change (split_string "a.h5::b.h5" "::") with ["a.h5"; "b.h5"].
  constructor; [|constructor; [|constructor]]; eexists; (split; [reflexivity|]);
    apply table_file_first; discriminate.
Qed.

(** Rows are not read by the columns of their own file. *)
Theorem h5_own_columns_refuted :
  ~ (forall disk path names given volume c ts,
       source c = "" -> Forall column_name names -> tables disk names given path ts ->
       Forall (fun t => In "x" (fst t) /\ In "y" (fst t) /\ In "z" (fst t) /\ snd t <> [] /\
                 Forall (fun row => List.length row = List.length (fst t)) (snd t)) ts ->
       forall c', load_h5 disk path (commas names) given volume c = (c', Ok tt) ->
       exists pss nz0, pdata (body c') = Some (concat pss) /\
         Forall2 (fun t ps => Forall2 (is_particle (fst t) nz0) (snd t) ps) ts pss).
Proof.
  intros H.
  destruct (h5_last_columns two_files "a.h5::b.h5" [] "" 0%R fresh
    [(["z"; "y"; "x"], [[1; 2; 3]%R])] ["x"; "y"; "z"] [[4; 5; 6]%R]) as (c' & ps & nz & L & P & _ & G).
  - reflexivity.
  - constructor.
  - exact two_tables.
  - discriminate.
  - repeat constructor.
  - now left.
  - right; now left.
  - right; right; now left.
  - destruct (H two_files "a.h5::b.h5" [] "" 0%R fresh _ eq_refl (Forall_nil _) two_tables) with (c' := c')
      as (pss & nz0 & Q & F); [|exact L|].
    + constructor; [|constructor; [|constructor]]; cbn [fst snd];
        (split; [simpl; tauto|split; [simpl; tauto|split; [simpl; tauto|split; [discriminate|]]]]);
        (constructor; [reflexivity|constructor]).
    + assert (E : ps = concat pss) by congruence. clear - G F E.
      inversion F as [|? ps1 ? r F1 F2]; subst. cbn [fst snd] in F1.
      inversion F1 as [|? p ? r1 I1 F3]; subst. inversion F3; subst.
      cbn in G. inversion G as [|? q ? r2 I2 _]; subst.
      destruct I1 as (X1 & _). destruct I2 as (X2 & _).
      assert (A : ax0 (p_pos p) = 3%R).
      { apply (column_functional "x" ["z"; "y"; "x"] [1; 2; 3]%R); [exact X1|].
        exists ["z"; "y"], [], [1; 2]%R, []. repeat split. intros [K|[K|[]]]; discriminate K. }
      assert (B : ax0 (p_pos p) = 1%R).
      { apply (column_functional "x" ["x"; "y"; "z"] [1; 2; 3]%R); [exact X2|].
        exists [], ["y"; "z"], [], [2; 3]%R. repeat split. intros []. }
      lra.
Qed.

(** Nor is a file read by its own ending. *)
Theorem h5_own_ending_refuted :
  ~ (forall disk texts path columns given volume,
       (forall p, In p (split_string path "::") ->
          snd (load_file disk texts p columns given volume fresh) = Ok tt) ->
       snd (load_file disk texts path columns given volume fresh) = Ok tt).
Proof.
  intros H.
  set (d := fun p => if p =? "b.h5" then Some (table_file "cat" [] [[4; 5; 6]%R]) else None).
  set (t := fun p => if p =? "a.txt" then Some (ended ["1 2 3"]) else None).
  specialize (H d t "a.txt::b.h5" "x,y,z" "" 0%R).
  assert (K : snd (load_file d t "a.txt::b.h5" "x,y,z" "" 0 fresh) = Err IOErr).
  { destruct (h5_by_ending d t "a.txt::b.h5" "x,y,z" "" 0%R fresh) as (E & _).
    rewrite E by (exists "a.txt::b"; now left).
    change "x,y,z" with (commas ["x"; "y"; "z"]).
    rewrite (h5_first_fault d "a.txt::b.h5" ["x"; "y"; "z"] "" 0%R fresh [] "a.txt" ["b.h5"] [] IOErr);
      [reflexivity|reflexivity|now apply names_ok|reflexivity|constructor|apply fault_absent]. }
  rewrite K in H. enough (X : @Err unit IOErr = Ok tt) by discriminate X. apply H.
  change (split_string "a.txt::b.h5" "::") with ["a.txt"; "b.h5"].
  intros p [<-|[<-|[]]].
  - destruct (h5_by_ending d t "a.txt" "x,y,z" "" 0%R fresh) as (_ & E). rewrite E.
    + apply one_file_loads; [reflexivity|reflexivity|split; reflexivity].
    + intros (s & [Q|Q]).
      * assert (Y : has_extension "a.txt" ".h5" = true) by (apply has_extension_iff; now exists s). discriminate Y.
      * assert (Y : has_extension "a.txt" ".hdf5" = true) by (apply has_extension_iff; now exists s). discriminate Y.
  - destruct (h5_by_ending d t "b.h5" "x,y,z" "" 0%R fresh) as (E & _).
    rewrite E by (exists "b"; now left). change "x,y,z" with (commas ["x"; "y"; "z"]).
    destruct (h5_rows d "b.h5" ["x"; "y"; "z"] "" ["x"; "y"; "z"] 0%R fresh [(["x"; "y"; "z"], [[4; 5; 6]%R])])
      as (c' & ps & nz0 & -> & _); [reflexivity|now apply names_ok| | |discriminate| | | | |reflexivity].
    + constructor; [|constructor]. eexists. split; [reflexivity|].
      eapply (table_intro _ _ _ "cat"); [discriminate| |reflexivity|reflexivity| |reflexivity].
      * apply (chosen_first "" _ [("meta", false)] "cat" []); [reflexivity|reflexivity| |discriminate].
        intros m [Q|[]]; discriminate Q.
      * apply columns_given; [discriminate|]. intros a Q. discriminate Q.
    + repeat constructor.
    + repeat constructor.
    + now left.
    + right; now left.
    + right; right; now left.
Qed.

(** A file whose dataset is named, with its columns in a second attribute and
    its own weights. *)
Example h5_case : exists c' ps,
  load_h5 (fun _ => Some (table_file "gal" [("units", None); ("cols", Some ["z"; "x"; "y"; "wc"])]
             [[1; 2; 3; 5]%R; [7; 8; 9; 11]%R])) "g.hdf5" "attr::cols" "gal" 4%R fresh = (c', Ok tt) /\
  pdata (body c') = Some ps /\ map (fun p => ax0 (p_pos p)) ps = [2; 8]%R /\
  map p_w ps = [5; 11]%R /\ map p_nz ps = [/ 2; / 2]%R /\ wtotal (body c') = 16%R.
Proof.
  do 2 eexists. split; [reflexivity|]. cbn [body]. split; [reflexivity|].
  cbn -[Rltb]. unfold default_nz. cbn -[Rltb].
  destruct (Rltb 0 4) eqn:E; [|apply Rltb_false in E; lra].
  split; [reflexivity|]. split; [f_equal; [lra|f_equal; lra]|]. split; [f_equal; [lra|f_equal; lra]|].
  unfold wtotal. cbn. lra.
Qed.

Print Assumptions h5_rows.
Print Assumptions h5_loaded.
Print Assumptions h5_own_columns_refuted.
