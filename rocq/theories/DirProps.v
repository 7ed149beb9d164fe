(* The directory results are written to (C123). *)
From Coq Require Import String Ascii List Arith Bool Lia.
From Verif Require Import Base StrModel StrProps DirModel.
From Verif Require ParamModel ParamFileModel MainModel FileNameProps Dec.
Import ListNotations.
Local Open Scope string_scope.

(* ------------------------------------------------------------------ *)
(** * Vocabulary *)

(** Everything there is lies in a directory. *)
Definition sound (fs : fsys) : Prop :=
  fs [] = Some KDir
  /\ forall n p, fs (n :: p) <> None -> fs p = Some KDir.

(** A name of a file. *)
Definition file_name (n : string) : Prop :=
  free_of "/" n /\ n <> "" /\ n <> "." /\ n <> "..".

(** A directory text: names with slashes between them, perhaps with further
    slashes; spelled out from its names. *)
Inductive spells : string -> list string -> Prop :=
| Sp_end n : free_of "/" n -> spells n [n]
| Sp_cons n s l : free_of "/" n -> spells s l -> spells (n ++ "/" ++ s) (n :: l).

(** The directory such names lead to, from a directory given. *)
Definition is_name (n : string) : Prop := n <> "" /\ n <> "." /\ n <> "..".
Definition no_parent (l : list string) : Prop := ~ In ".." l.

Inductive leads : path -> list string -> path -> Prop :=
| L_end c : leads c [] c
| L_skip c n l d : n = "" \/ n = "." -> leads c l d -> leads c (n :: l) d
| L_root l d : leads [] l d -> leads [] (".." :: l) d
| L_up c x l d : leads c l d -> leads (x :: c) (".." :: l) d
| L_name c n l d : is_name n -> leads (n :: c) l d -> leads c (n :: l) d.

(** [p] is [d] or above it. *)
Definition above (p d : path) : Prop := exists q, d = (q ++ p)%list.

Definition from (cwd : path) (s : string) (c : path) : Prop :=
  (forall t, s = String "/" t -> c = []) /\ ((forall t, s <> String "/" t) -> c = cwd).

(** Only slashes, one at least. *)
Definition slashes (s : string) : Prop :=
  s <> "" /\ Forall (fun c => c = "/"%char) (list_ascii_of_string s).

(* ------------------------------------------------------------------ *)
(** * Text *)

Lemma pieces_app n s : free_of "/" n -> pieces (n ++ "/" ++ s) = n :: pieces s.
Proof.
  induction n as [|c n IH]; cbn [append free_of]; [reflexivity|].
  intros [N H]. cbn [pieces].
  destruct (Ascii.eqb_spec c "/") as [E|_]; [congruence|].
  change (String "/" s) with ("/" ++ s) in IH.
  cbn [append] in IH. rewrite (IH H). reflexivity.
Qed.

Lemma pieces_one n : free_of "/" n -> pieces n = [n].
Proof.
  induction n as [|c n IH]; cbn [free_of]; [reflexivity|].
  intros [N H]. cbn [pieces].
  destruct (Ascii.eqb_spec c "/") as [E|_]; [congruence|].
  now rewrite (IH H).
Qed.

Lemma spells_pieces s l : spells s l -> pieces s = l.
Proof.
  induction 1; [now apply pieces_one|]. rewrite pieces_app by assumption. congruence.
Qed.

Lemma pieces_nonempty s : pieces s <> [].
Proof.
  destruct s as [|c s]; cbn [pieces]; [discriminate|].
  destruct (Ascii.eqb c "/"); [discriminate|]. destruct (pieces s); discriminate.
Qed.

Lemma pieces_spells s : spells s (pieces s).
Proof.
  induction s as [|c s IH]; cbn [pieces]; [constructor; exact I|].
  destruct (Ascii.eqb_spec c "/") as [->|N].
  - change (String "/" s) with ("" ++ "/" ++ s). constructor; [exact I | exact IH].
  - revert IH. generalize (pieces s) as l0. intros l0 IH.
    inversion IH as [n F E1 E2 | n t l F H E1 E2]; subst.
    + constructor. cbn. split; congruence.
    + change (String c (n ++ "/" ++ t)) with (String c n ++ "/" ++ t).
      constructor; [cbn; split; congruence | exact H].
Qed.

Lemma pieces_cat a b : pieces (a ++ "/" ++ b) = (pieces a ++ pieces b)%list.
Proof.
  pose proof (pieces_spells a) as H. revert H. generalize (pieces a) as l.
  intros l H. induction H as [n F | n s l F H IH].
  - now rewrite pieces_app.
  - replace ((n ++ "/" ++ s) ++ "/" ++ b) with (n ++ "/" ++ (s ++ "/" ++ b)).
    + rewrite pieces_app by exact F. rewrite IH. reflexivity.
    + clear. induction n as [|c n IH]; [reflexivity|].
      cbn [append] in *. f_equal. exact IH.
Qed.


(** What [strip_slashes] takes away. *)
Definition all_slash (t : string) : Prop :=
  Forall (fun c => c = "/"%char) (list_ascii_of_string t).

Lemma strip_split s : exists t, s = strip_slashes s ++ t /\ all_slash t.
Proof.
  induction s as [|c s (t & E & H)]; cbn [strip_slashes].
  - exists "". split; [reflexivity | constructor].
  - destruct (strip_slashes s) as [|d u] eqn:Es.
    + cbn [append] in E. subst t.
      destruct (Ascii.eqb_spec c "/") as [->|N].
      * exists (String "/" s). split; [reflexivity|].
        unfold all_slash. cbn. constructor; [reflexivity | exact H].
      * exists s. split; [reflexivity | exact H].
    + exists t. split; [|exact H]. cbn [append] in *. congruence.
Qed.

Lemma strip_empty s : strip_slashes s = "" <-> all_slash s.
Proof.
  unfold all_slash. induction s as [|c s IH]; cbn [strip_slashes list_ascii_of_string].
  - split; [constructor | reflexivity].
  - split.
    + intros E. destruct (strip_slashes s) as [|d u]; [|discriminate].
      destruct (Ascii.eqb_spec c "/") as [->|N]; [|discriminate].
      constructor; [reflexivity | now apply IH].
    + intros H. inversion H as [|? ? E K]; subst. apply IH in K. rewrite K.
      reflexivity.
Qed.

Lemma pieces_slash t : all_slash t -> Forall (eq "") (pieces t).
Proof.
  unfold all_slash. induction t as [|c t IH]; cbn.
  - repeat constructor.
  - intros H. inversion H; subst. rewrite Ascii.eqb_refl. constructor; auto.
Qed.

Lemma pieces_more s t : all_slash t ->
  exists l, Forall (eq "") l /\ pieces (s ++ t) = (pieces s ++ l)%list.
Proof.
  intros H. destruct t as [|c t].
  - exists []. split; [constructor|]. rewrite app_nil_r.
    f_equal. induction s; cbn; congruence.
  - inversion H as [|? ? E K]; subst. exists (pieces t).
    split; [now apply pieces_slash|].
    change (String "/" t) with ("/" ++ t). apply pieces_cat.
Qed.

Lemma start_from cwd s : from cwd s (start cwd s).
Proof.
  unfold from, start. split.
  - intros t ->. cbn. destruct t; reflexivity.
  - intros H. destruct s as [|c s]; [reflexivity|]. cbn [prefix].
    destruct (ascii_dec "/" c) as [<-|N]; [|reflexivity].
    exfalso. now apply (H s).
Qed.

Lemma start_app cwd s t : s <> "" -> start cwd (s ++ t) = start cwd s.
Proof.
  unfold start. destruct s as [|c s]; [tauto|]. intros _. cbn [append prefix].
  destruct (ascii_dec "/" c); [|reflexivity]. now destruct (s ++ t), s.
Qed.

(* ------------------------------------------------------------------ *)
(** * Walking *)

Lemma put_same fs p k : put fs p k p = Some k.
Proof. unfold put. destruct (list_eq_dec string_dec p p); [reflexivity | tauto]. Qed.

Lemma put_other fs p k q : q <> p -> put fs p k q = fs q.
Proof. unfold put. destruct (list_eq_dec string_dec q p); [contradiction | reflexivity]. Qed.

Lemma walk_app a ns : forall fs cur ms,
  walk a fs cur (ns ++ ms)
  = match walk a fs cur ns with
    | (fs', Ok d) => walk a fs' d ms
    | (fs', Err e) => (fs', Err e)
    end.
Proof.
  induction ns as [|n ns IH]; intros fs cur ms; cbn [walk app]; [reflexivity|].
  destruct ((n =? "") || (n =? ".")); [apply IH|].
  destruct (n =? ".."); [apply IH|].
  destruct (fs (n :: cur)) as [[|]|]; [apply IH | reflexivity |].
  destruct (a (n :: cur)); [apply IH | reflexivity].
Qed.

Lemma walk_blank a l : Forall (eq "") l -> forall fs cur, walk a fs cur l = (fs, Ok cur).
Proof. induction 1 as [|? ? <-]; intros fs cur; cbn; [reflexivity | auto]. Qed.

(** Whatever was there stays, and only directories that were missing and are
    allowed appear. *)
Lemma walk_changes a ns : forall fs cur fs' r,
  walk a fs cur ns = (fs', r) ->
  forall p, fs' p = fs p \/ (fs p = None /\ fs' p = Some KDir /\ a p = true).
Proof.
  induction ns as [|n ns IH]; intros fs cur fs' r E p; cbn [walk] in E.
  - inversion E; now left.
  - destruct ((n =? "") || (n =? ".")); [eapply IH; eassumption|].
    destruct (n =? ".."); [eapply IH; eassumption|].
    destruct (fs (n :: cur)) as [[|]|] eqn:F.
    + eapply IH; eassumption.
    + inversion E; now left.
    + destruct (a (n :: cur)) eqn:A; [|inversion E; now left].
      destruct (IH _ _ _ _ E p) as [H|(H1 & H2 & H3)].
      * destruct (list_eq_dec string_dec p (n :: cur)) as [->|N].
        -- right. rewrite H, put_same. auto.
        -- left. rewrite H. now apply put_other.
      * destruct (list_eq_dec string_dec p (n :: cur)) as [->|N].
        -- rewrite put_same in H1. discriminate.
        -- rewrite put_other in H1 by exact N. auto.
Qed.

Lemma walk_keeps a ns fs cur fs' r p k :
  walk a fs cur ns = (fs', r) -> fs p = Some k -> fs' p = Some k.
Proof.
  intros E F. destruct (walk_changes _ _ _ _ _ _ E p) as [H|(H & _)]; congruence.
Qed.

(** Soundness is kept, and the walk stays in directories. *)
Lemma put_sound fs n p : sound fs -> fs p = Some KDir -> fs (n :: p) = None ->
  sound (put fs (n :: p) KDir).
Proof.
  intros [S1 S2] F N. split.
  - rewrite put_other by discriminate. exact S1.
  - intros m q H.
    destruct (list_eq_dec string_dec (m :: q) (n :: p)) as [E|E].
    + inversion E; subst. rewrite put_other; [exact F|].
      intros K. apply (f_equal (@List.length string)) in K. cbn in K. lia.
    + rewrite put_other in H by exact E. specialize (S2 m q H).
      destruct (list_eq_dec string_dec q (n :: p)) as [->|E'].
      * apply put_same.
      * now rewrite put_other.
Qed.

Lemma tl_dir fs p : sound fs -> fs p = Some KDir -> fs (tl p) = Some KDir.
Proof.
  intros [S1 S2] F. destruct p as [|n p]; [exact F|]. cbn. apply (S2 n). congruence.
Qed.

Lemma walk_sound a ns : forall fs cur fs' r,
  sound fs -> fs cur = Some KDir -> walk a fs cur ns = (fs', r) ->
  sound fs' /\ forall d, r = Ok d -> fs' d = Some KDir.
Proof.
  induction ns as [|n ns IH]; intros fs cur fs' r S F E; cbn [walk] in E.
  - inversion E; subst. split; [exact S|]. intros d K. inversion K; subst. exact F.
  - destruct ((n =? "") || (n =? ".")); [eapply IH; eassumption|].
    destruct (n =? "..");
      [apply (IH fs (tl cur) fs' r S); [now apply tl_dir | exact E]|].
    destruct (fs (n :: cur)) as [[|]|] eqn:G.
    + eapply IH; eassumption.
    + inversion E; subst. split; [exact S | discriminate].
    + destruct (a (n :: cur)); [|inversion E; subst; split; [exact S | discriminate]].
      eapply IH; [| |exact E]; [now apply put_sound | apply put_same].
Qed.

(** Where a walk succeeded, walking again needs nothing to be created. *)
Lemma walk_again a b ns : forall fs cur fs' d,
  walk a fs cur ns = (fs', Ok d) -> walk b fs' cur ns = (fs', Ok d).
Proof.
  assert (K : forall ns fs cur fs' d, walk a fs cur ns = (fs', Ok d) ->
     forall g, (forall p, fs' p = Some KDir -> g p = Some KDir) ->
     walk b g cur ns = (g, Ok d)).
  { clear ns. induction ns as [|n ns IH]; intros fs cur fs' d E g G; cbn [walk] in *.
    - now inversion E.
    - destruct ((n =? "") || (n =? ".")); [eapply IH; eassumption|].
      destruct (n =? ".."); [eapply IH; eassumption|].
      destruct (fs (n :: cur)) as [[|]|] eqn:F.
      + rewrite (G (n :: cur)); [eapply IH; eassumption|].
        eapply walk_keeps; eassumption.
      + discriminate.
      + destruct (a (n :: cur)); [|discriminate].
        rewrite (G (n :: cur)); [eapply IH; eassumption|].
        eapply walk_keeps; [exact E | apply put_same]. }
  intros fs cur fs' d E. eapply K; [exact E | auto].
Qed.

(** Without ".." a walk that succeeds ends where the names lead, and creates
    only directories above that. *)
Lemma is_skip n : (n =? "") || (n =? ".") = true <-> n = "" \/ n = ".".
Proof. rewrite orb_true_iff, !String.eqb_eq. tauto. Qed.

Lemma is_name_dec n : (n =? "") || (n =? ".") = false -> (n =? "..") = false -> is_name n.
Proof. unfold is_name. rewrite orb_false_iff, !String.eqb_neq. tauto. Qed.

Lemma name_tests n : is_name n ->
  (n =? "") || (n =? ".") = false /\ (n =? "..") = false.
Proof. unfold is_name. rewrite orb_false_iff, !String.eqb_neq. tauto. Qed.

Lemma no_parent_tail n l : no_parent (n :: l) -> no_parent l /\ n <> "..".
Proof.
  unfold no_parent. intros H. split.
  - intros K. apply H. now right.
  - intros ->. apply H. now left.
Qed.

Lemma above_refl d : above d d.
Proof. now exists []. Qed.

Lemma leads_above c l d : leads c l d -> no_parent l -> above c d.
Proof.
  induction 1; intros NP; [apply above_refl|..]; apply no_parent_tail in NP;
    destruct NP as [NP Nn]; [auto | contradiction | contradiction |].
  destruct (IHleads NP) as (q & ->).
  exists (q ++ [n])%list. rewrite <- app_assoc. reflexivity.
Qed.

Lemma walk_where a ns : forall fs cur fs' d,
  walk a fs cur ns = (fs', Ok d) -> leads cur ns d.
Proof.
  induction ns as [|n ns IH]; intros fs cur fs' d E; cbn [walk] in E.
  - inversion E; subst. constructor.
  - destruct ((n =? "") || (n =? ".")) eqn:B.
    + apply is_skip in B. constructor; [exact B | eapply IH; exact E].
    + destruct (n =? "..") eqn:P.
      * apply String.eqb_eq in P. subst n. apply IH in E.
        destruct cur as [|x cur]; constructor; exact E.
      * destruct (fs (n :: cur)) as [[|]|]; [|discriminate|].
        -- apply L_name; [now apply is_name_dec | eapply IH; exact E].
        -- destruct (a (n :: cur)); [|discriminate].
           apply L_name; [now apply is_name_dec | eapply IH; exact E].
Qed.

Lemma walk_leads a ns : forall fs cur fs' d, no_parent ns ->
  walk a fs cur ns = (fs', Ok d) ->
  leads cur ns d /\ forall p, fs' p <> fs p -> above p d.
Proof.
  intros fs cur fs' d NP E. split; [eapply walk_where; exact E|].
  revert fs cur fs' d NP E.
  induction ns as [|n ns IH]; intros fs cur fs' d NP E; cbn [walk] in E.
  - inversion E; subst. tauto.
  - apply no_parent_tail in NP. destruct NP as [NP Nn]. apply String.eqb_neq in Nn.
    rewrite Nn in E.
    destruct ((n =? "") || (n =? ".")); [eapply IH; eassumption|].
    destruct (fs (n :: cur)) as [[|]|] eqn:F; [eapply IH; eassumption|discriminate|].
    destruct (a (n :: cur)); [|discriminate].
    intros p Hp. destruct (list_eq_dec string_dec p (n :: cur)) as [->|N].
    + apply walk_where in E. now apply (leads_above _ ns).
    + apply (IH _ _ _ _ NP E). now rewrite put_other.
Qed.

(** Where no file is in the way and all is allowed, a walk succeeds. *)
Lemma walk_succeeds ns : forall a fs cur d, no_parent ns -> leads cur ns d ->
  (forall p, above p d -> fs p <> Some KFile) ->
  (forall p, above p d -> fs p = None -> a p = true) ->
  exists fs', walk a fs cur ns = (fs', Ok d).
Proof.
  induction ns as [|n ns IH]; intros a fs cur d NP L NF A; cbn [walk].
  - inversion L; subst. now exists fs.
  - apply no_parent_tail in NP. destruct NP as [NP' Nn].
    inversion L as [| ? ? ? ? Hn L' | | | ? ? ? ? Hn L']; subst;
      [| now contradiction Nn | now contradiction Nn |].
    + apply is_skip in Hn. rewrite Hn. now apply IH.
    + apply name_tests in Hn. destruct Hn as [Hn1 Hn2]. rewrite Hn1, Hn2.
      pose proof (leads_above _ _ _ L' NP') as U.
      destruct (fs (n :: cur)) as [[|]|] eqn:F.
      * now apply IH.
      * exfalso. now apply (NF (n :: cur)).
      * rewrite (A _ U F). apply IH; [exact NP' | exact L' | |].
        -- intros p Hp. destruct (list_eq_dec string_dec p (n :: cur)) as [->|N].
           ++ rewrite put_same. discriminate.
           ++ rewrite put_other by exact N. now apply NF.
        -- intros p Hp. destruct (list_eq_dec string_dec p (n :: cur)) as [->|N].
           ++ rewrite put_same. discriminate.
           ++ rewrite put_other by exact N. now apply A.
Qed.

(** A file in the way stops it before anything is created. *)
Lemma none_above fs : sound fs -> forall q p, fs p <> Some KDir -> fs (q ++ p)%list <> None ->
  q = [].
Proof.
  intros [_ S2]. induction q as [|x q IH]; intros p H K; [reflexivity|].
  exfalso. cbn [app] in K. apply S2 in K.
  assert (Q : q = []) by (apply (IH p); [exact H | congruence]).
  subst q. cbn in K. contradiction.
Qed.

Lemma above_total p q d : above p d -> above q d -> above p q \/ above q p.
Proof.
  intros (a & ->) (b & E). revert b E. induction a as [|x a IH]; intros b E.
  - right. now exists b.
  - destruct b as [|y b].
    + left. cbn in E. subst q. now exists (x :: a).
    + inversion E as [[E1 E2]]. now apply (IH b).
Qed.

Lemma walk_blocked ns : forall a fs cur d p, no_parent ns -> leads cur ns d ->
  sound fs -> fs cur = Some KDir ->
  above p d -> fs p = Some KFile -> walk a fs cur ns = (fs, Err IOErr).
Proof.
  induction ns as [|n ns IH]; intros a fs cur d p NP L S C U F; cbn [walk].
  - exfalso. inversion L; subst. destruct U as (q & ->).
    assert (Q : q = []).
    { apply (none_above fs S q p); congruence. }
    subst q. cbn in C. congruence.
  - apply no_parent_tail in NP. destruct NP as [NP' Nn].
    inversion L as [| ? ? ? ? Hn L' | | | ? ? ? ? Hn L']; subst;
      [| now contradiction Nn | now contradiction Nn |].
    + apply is_skip in Hn. rewrite Hn. eapply IH; eassumption.
    + apply name_tests in Hn. destruct Hn as [Hn1 Hn2]. rewrite Hn1, Hn2.
      destruct (fs (n :: cur)) as [[|]|] eqn:G.
      * eapply IH; eassumption.
      * reflexivity.
      * exfalso. pose proof (leads_above _ _ _ L' NP') as U'.
        destruct (above_total _ _ _ U U') as [V|V].
        -- destruct V as (q & E). destruct q as [|x q].
           ++ cbn in E. subst p. congruence.
           ++ inversion E as [[E1 E2]]. assert (Q : q = []).
              { apply (none_above fs S q p); congruence. }
              subst q. cbn in E2. congruence.
        -- destruct V as (q & ->). assert (Q : q = []).
           { apply (none_above fs S q (n :: cur)); congruence. }
           subst q. cbn in F. congruence.
Qed.

(* ------------------------------------------------------------------ *)
(** * The directory *)

(** The texts left alone, and the ones refused. *)
Lemma write_dir_cases d :
  (In d [""; "."; "./"; "/"] /\ write_dir d = None)
  \/ (~ In d [""; "."; "./"; "/"] /\ write_dir d = Some (strip_slashes d)).
Proof.
  unfold write_dir. cbn [In].
  destruct (String.eqb_spec d "") as [->|N1]; [left; auto|].
  destruct (String.eqb_spec d ".") as [->|N2]; [left; auto|].
  destruct (String.eqb_spec d "./") as [->|N3]; [left; cbn; auto 6|].
  destruct (String.eqb_spec d "/") as [->|N4]; [left; cbn; auto 6|].
  right. split; [|reflexivity]. intuition congruence.
Qed.

(** What the function does is a walk along its text. *)
Lemma make_walk a fs cwd d fs' :
  make_write_dir a fs cwd d = (fs', Ok tt) -> d <> "" ->
  exists p, walk a fs (start cwd d) (pieces d) = (fs', Ok p).
Proof.
  unfold make_write_dir. intros E N.
  destruct (write_dir_cases d) as [[H W]|[H W]]; rewrite W in E.
  - inversion E; subst fs'. cbn [In] in H.
    destruct H as [H|[H|[H|[H|[]]]]]; subst d; [contradiction|..];
      (eexists; reflexivity).
  - unfold create_directories in E.
    destruct (String.eqb_spec (strip_slashes d) "") as [Z|Z]; [inversion E|].
    destruct (strip_split d) as (t & Ed & Ht).
    destruct (walk a fs (start cwd (strip_slashes d)) (pieces (strip_slashes d)))
      as [g [p|e]] eqn:Ew; [|inversion E].
    inversion E; subst g. exists p. rewrite Ed at 1 2.
    rewrite start_app by exact Z.
    destruct (pieces_more (strip_slashes d) t Ht) as (l & Hl & El).
    rewrite El, walk_app, Ew. now apply walk_blank.
Qed.

Lemma walk_make a fs cwd d fs' p :
  walk a fs (start cwd d) (pieces d) = (fs', Ok p) -> ~ all_slash d ->
  make_write_dir a fs cwd d = (fs', Ok tt).
Proof.
  unfold make_write_dir. intros E N.
  destruct (write_dir_cases d) as [[H W]|[H W]]; rewrite W.
  - cbn [In] in H. destruct H as [H|[H|[H|[H|[]]]]]; subst d.
    + exfalso. apply N. constructor.
    + cbn in E. now inversion E.
    + cbn in E. now inversion E.
    + exfalso. apply N. repeat constructor.
  - unfold create_directories. rewrite <- strip_empty in N.
    destruct (String.eqb_spec (strip_slashes d) "") as [Z|Z]; [contradiction|].
    destruct (strip_split d) as (t & Ed & Ht). rewrite Ed in E at 1 2.
    rewrite start_app in E by exact Z.
    destruct (pieces_more (strip_slashes d) t Ht) as (l & Hl & El).
    rewrite El, walk_app in E.
    destruct (walk a fs (start cwd (strip_slashes d)) (pieces (strip_slashes d)))
      as [g [q|e]]; [|inversion E].
    rewrite (walk_blank a l Hl) in E. now inversion E.
Qed.

(** C123, the text: which names a directory text has. *)
Theorem text_names s l : spells s l <-> pieces s = l.
Proof.
  split; [apply spells_pieces|]. intros <-. apply pieces_spells.
Qed.

(** Once the function has succeeded, a file can be opened in the directory
    unless its name is that of a directory; this is the directory its names
    lead to, from the root if the text starts with a slash and from the working
    directory otherwise. *)
Theorem ready a fs cwd d fs' n :
  sound fs -> fs cwd = Some KDir -> d <> "" -> file_name n ->
  make_write_dir a fs cwd d = (fs', Ok tt) ->
  exists p, fs' p = Some KDir
    /\ (forall l c, spells d l -> from cwd d c -> leads c l p)
    /\ (fs' (n :: p) <> Some KDir ->
        open_write fs' cwd (d ++ "/" ++ n) = (put fs' (n :: p) KFile, Ok (n :: p))).
Proof.
  intros S C Nd (Fn & N1 & N2 & N3) E.
  destruct (make_walk _ _ _ _ _ E Nd) as (p & W).
  assert (C' : fs (start cwd d) = Some KDir).
  { unfold start. destruct (prefix "/" d); [apply S | exact C]. }
  exists p. split; [|split].
  - now apply (walk_sound _ _ _ _ _ _ S C' W).
  - intros l c Hl Hc. apply text_names in Hl. subst l.
    assert (Ec : c = start cwd d).
    { destruct Hc as [H1 H2]. unfold start. destruct d as [|x t]; [contradiction|].
      cbn [prefix]. destruct (ascii_dec "/" x) as [<-|N].
      - rewrite (H1 t eq_refl). now destruct t.
      - apply H2. intros t' K. inversion K. congruence. }
    subst c. eapply walk_where. exact W.
  - intros H. unfold open_write.
    destruct (String.eqb_spec (d ++ "/" ++ n) "") as [K|_].
    { destruct d; discriminate. }
    cbv zeta. rewrite pieces_cat, (pieces_one n Fn).
    rewrite last_last, removelast_last, (start_app cwd d _ Nd).
    rewrite (walk_again _ (fun _ => false) _ _ _ _ _ W).
    apply String.eqb_neq in N1. apply String.eqb_neq in N2. apply String.eqb_neq in N3.
    rewrite N1, N2, N3. cbn [orb].
    destruct (fs' (n :: p)) as [[|]|]; [contradiction | reflexivity | reflexivity].
Qed.

(** Success or not, nothing that was there changes, and what appears is a
    directory that is allowed; the rest stays sound. *)
Theorem only_missing a fs cwd d fs' r :
  make_write_dir a fs cwd d = (fs', r) ->
  forall p, fs' p = fs p \/ (fs p = None /\ fs' p = Some KDir /\ a p = true).
Proof.
  unfold make_write_dir. intros E.
  destruct (write_dir d) as [s|]; [|inversion E; subst; now left].
  unfold create_directories in E.
  destruct (s =? ""); [inversion E; subst; now left|].
  destruct (walk a fs (start cwd s) (pieces s)) as [g [q|e]] eqn:W;
    inversion E; subst; eapply walk_changes; exact W.
Qed.

Theorem stays_sound a fs cwd d fs' r :
  sound fs -> fs cwd = Some KDir ->
  make_write_dir a fs cwd d = (fs', r) -> sound fs'.
Proof.
  unfold make_write_dir. intros S C E.
  destruct (write_dir d) as [s|]; [|inversion E; subst; exact S].
  unfold create_directories in E.
  destruct (s =? ""); [inversion E; subst; exact S|].
  assert (C' : fs (start cwd s) = Some KDir).
  { unfold start. destruct (prefix "/" s); [apply S | exact C]. }
  destruct (walk a fs (start cwd s) (pieces s)) as [g [q|e]] eqn:W;
    inversion E; subst; eapply walk_sound; eauto.
Qed.

(** Without "..", only directories on the way to it appear. *)
Theorem only_on_the_way a fs cwd d fs' l c :
  make_write_dir a fs cwd d = (fs', Ok tt) -> d <> "" ->
  spells d l -> no_parent l -> from cwd d c ->
  exists p, leads c l p /\ forall q, fs' q <> fs q -> above q p.
Proof.
  intros E Nd Hl NP Hc. apply text_names in Hl. subst l.
  destruct (make_walk _ _ _ _ _ E Nd) as (p & W).
  assert (Ec : c = start cwd d).
  { destruct Hc as [H1 H2]. unfold start. destruct d as [|x t]; [contradiction|].
    cbn [prefix]. destruct (ascii_dec "/" x) as [<-|N].
    - rewrite (H1 t eq_refl). now destruct t.
    - apply H2. intros t' K. inversion K. congruence. }
  subst c. exists p. now apply (walk_leads _ _ _ _ _ _ NP W).
Qed.

(** A second run finds everything in place. *)
Theorem second_run a b fs cwd d fs' :
  make_write_dir a fs cwd d = (fs', Ok tt) ->
  make_write_dir b fs' cwd d = (fs', Ok tt).
Proof.
  intros E. destruct (write_dir_cases d) as [[H W]|[H W]].
  - unfold make_write_dir. now rewrite W.
  - assert (Nd : d <> "") by (intros ->; apply H; now left).
    destruct (make_walk _ _ _ _ _ E Nd) as (p & K).
    apply (walk_make _ _ _ _ _ p).
    + eapply walk_again. exact K.
    + intros A. apply strip_empty in A. unfold make_write_dir in E.
      rewrite W, A in E. cbn in E. inversion E.
Qed.

(** Without "..": it succeeds when no file is in the way and what is missing
    is allowed, and raises, with nothing created, when a file is. *)
Lemma from_start cwd d c : from cwd d c -> c = start cwd d.
Proof.
  intros [H1 H2]. unfold start. destruct d as [|x t].
  - apply H2. discriminate.
  - cbn [prefix]. destruct (ascii_dec "/" x) as [<-|N].
    + rewrite (H1 t eq_refl). now destruct t.
    + apply H2. intros t' K. inversion K. congruence.
Qed.

Theorem succeeds a fs cwd d l c p :
  ~ slashes d -> spells d l -> no_parent l -> from cwd d c -> leads c l p ->
  (forall q, above q p -> fs q <> Some KFile) ->
  (forall q, above q p -> fs q = None -> a q = true) ->
  exists fs', make_write_dir a fs cwd d = (fs', Ok tt).
Proof.
  intros Ns Hl NP Hc L NF A. apply text_names in Hl. subst l.
  apply from_start in Hc. subst c.
  destruct (string_dec d "") as [->|Nd]; [now exists fs|].
  destruct (walk_succeeds _ a fs _ _ NP L NF A) as (fs' & W).
  exists fs'. apply (walk_make _ _ _ _ _ p W).
  intros K. apply Ns. split; [exact Nd | exact K].
Qed.

Theorem blocked a fs cwd d l c p q :
  sound fs -> fs cwd = Some KDir ->
  d <> "" -> spells d l -> no_parent l -> from cwd d c -> leads c l p ->
  above q p -> fs q = Some KFile ->
  make_write_dir a fs cwd d = (fs, Err IOErr).
Proof.
  intros S C Nd Hl NP Hc L U F. apply text_names in Hl. subst l.
  apply from_start in Hc. subst c.
  assert (C' : fs (start cwd d) = Some KDir).
  { unfold start. destruct (prefix "/" d); [apply S | exact C]. }
  pose proof (walk_blocked _ a fs _ _ _ NP L S C' U F) as W.
  destruct (write_dir_cases d) as [[H Wd]|[H Wd]].
  - exfalso. cbn [In] in H.
    destruct H as [H|[H|[H|[H|[]]]]]; subst d; [contradiction|..]; discriminate W.
  - unfold make_write_dir. rewrite Wd. unfold create_directories.
    destruct (String.eqb_spec (strip_slashes d) "") as [Z|Z]; [reflexivity|].
    destruct (strip_split d) as (t & Ed & Ht). rewrite Ed in W at 1 2.
    rewrite start_app in W by exact Z.
    destruct (pieces_more (strip_slashes d) t Ht) as (l & Hl & El).
    rewrite El, walk_app in W.
    destruct (walk a fs (start cwd (strip_slashes d)) (pieces (strip_slashes d)))
      as [g [r|e]]; [|now inversion W].
    rewrite (walk_blank a l Hl) in W. inversion W.
Qed.

(** The root, written with more than one slash, is refused, though it is
    there. *)
Theorem root_refused a fs cwd d :
  slashes d -> d <> "/" -> make_write_dir a fs cwd d = (fs, Err IOErr).
Proof.
  intros [N A] N'. unfold make_write_dir.
  destruct (write_dir_cases d) as [[H W]|[H W]].
  - exfalso. cbn [In] in H.
    destruct H as [H|[H|[H|[H|[]]]]]; subst d; try contradiction;
      inversion A as [|? ? K1 K2]; subst; try discriminate.
  - rewrite W. apply strip_empty in A. rewrite A. reflexivity.
Qed.

(* ------------------------------------------------------------------ *)
(** * The program *)

Import ParamModel.

(** The directory the program prepares: the one read from the parameter file,
    validated, main/triumvirate.cpp 172 and 188. *)
Definition prepared (b : build) (p : paths) : string :=
  measurement_dir (val_dirs b true p).

Lemma prepared_text b p : free_of dollar (measurement_dir p) ->
  is_blank (measurement_dir p) = false ->
  prepared b p = measurement_dir p ++ "/".
Proof.
  intros F B. unfold prepared, val_dirs. cbn [measurement_dir]. rewrite B.
  apply expand_plain. apply FileNameProps.free_of_app. split; [exact F|]. cbn. split; [discriminate | exact I].
Qed.

Lemma prepared_blank b p : is_blank (measurement_dir p) = true -> prepared b p = "./".
Proof.
  intros B. unfold prepared, val_dirs. cbn [measurement_dir]. rewrite B.
  apply expand_plain. cbn. repeat split; discriminate.
Qed.

Lemma slashes_plain s : all_slash s -> free_of dollar s.
Proof.
  unfold all_slash. induction s as [|c s IH]; cbn; [tauto|].
  intros H. inversion H; subst. split; [discriminate | auto].
Qed.

Lemma slashes_ink s : slashes s -> is_blank s = false.
Proof.
  intros [N A]. destruct s as [|c s]; [tauto|]. inversion A; subst. reflexivity.
Qed.

Lemma all_slash_app a b : all_slash (a ++ b) <-> all_slash a /\ all_slash b.
Proof.
  unfold all_slash. induction a as [|c a IH]; cbn.
  - split; [intros H; split; [constructor | exact H] | tauto].
  - split.
    + intros H. inversion H; subst. split; [constructor|]; tauto.
    + intros [H1 H2]. inversion H1; subst. constructor; tauto.
Qed.

(** A run with the root as its measurement directory always fails, for
    validation adds a slash to it. *)
Theorem root_fails a fs cwd b p :
  slashes (measurement_dir p) ->
  make_write_dir a fs cwd (prepared b p) = (fs, Err IOErr).
Proof.
  intros H. rewrite prepared_text;
    [| apply slashes_plain, H | now apply slashes_ink].
  destruct H as [N A]. apply root_refused.
  - split; [destruct (measurement_dir p); discriminate|].
    apply all_slash_app. split; [exact A | repeat constructor].
  - destruct (measurement_dir p) as [|c [|d s]]; [tauto | discriminate | discriminate].
Qed.

(** The property as it stands: a run whose measurement directory exists gets
    past preparing it. *)
Definition existing_directory_accepted : Prop :=
  forall a fs cwd b p l c d,
    sound fs -> fs cwd = Some KDir -> free_of dollar (measurement_dir p) ->
    spells (measurement_dir p) l -> no_parent l -> from cwd (measurement_dir p) c ->
    leads c l d -> fs d = Some KDir ->
    make_write_dir a fs cwd (prepared b p) = (fs, Ok tt).

Lemma sound_above fs d p : sound fs -> fs d = Some KDir -> above p d -> fs p = Some KDir.
Proof.
  intros S D (q & ->). destruct (fs p) as [[|]|] eqn:E; [reflexivity| |].
  - assert (Q : q = []) by (apply (none_above fs S q p); congruence).
    subst q. cbn in D. congruence.
  - assert (Q : q = []) by (apply (none_above fs S q p); congruence).
    subst q. cbn in D. congruence.
Qed.

Definition one_root : fsys := fun p => match p with [] => Some KDir | _ => None end.

Lemma one_root_sound : sound one_root.
Proof. split; [reflexivity|]. intros n p H. now contradiction H. Qed.

Theorem existing_refuted : ~ existing_directory_accepted.
Proof.
  intros H.
  pose (b := {| extcall := false; gpu := false; fftw_omp := false;
                environ := fun _ => None |}).
  pose (p := {| catalogue_dir := ""; measurement_dir := "/"; data_file := "";
                rand_file := ""; data_files := []; rand_files := [];
                output_tag := "" |}).
  specialize (H (fun _ => true) one_root [] b p [""; ""] [] [] one_root_sound
                eq_refl).
  assert (SL : slashes (measurement_dir p)) by (split; [discriminate | repeat constructor]).
  pose proof (root_fails (fun _ => true) one_root [] b p SL) as R. rewrite R in H.
  assert (K : (one_root, @Err unit IOErr) = (one_root, Ok tt)); [|discriminate K].
  apply H.
  - cbn. split; [discriminate | exact I].
  - apply (Sp_cons "" "" [""]); [exact I | constructor; exact I].
  - intros [K|[K|[]]]; discriminate.
  - split; [reflexivity|]. intros K. exfalso. now apply (K "").
  - repeat (constructor; [now left|]). constructor.
  - reflexivity.
Qed.

Lemma walk_none ns : forall fs cur fs' r,
  walk (fun _ => false) fs cur ns = (fs', r) -> fs' = fs.
Proof.
  induction ns as [|n ns IH]; intros fs cur fs' r E; cbn [walk] in E.
  - now inversion E.
  - destruct ((n =? "") || (n =? ".")); [eapply IH; eassumption|].
    destruct (n =? ".."); [eapply IH; eassumption|].
    destruct (fs (n :: cur)) as [[|]|]; [eapply IH; eassumption | now inversion E |].
    now inversion E.
Qed.

Lemma leads_blank c l d : leads c l d -> leads c (l ++ [""])%list d.
Proof.
  induction 1; cbn [app]; [|now constructor..].
  constructor; [now left | constructor].
Qed.

(** The exact part: every directory that exists is accepted as it is, except
    the root. *)
Theorem existing_accepted a fs cwd b p l c d :
  sound fs -> fs cwd = Some KDir -> free_of dollar (measurement_dir p) ->
  ~ slashes (measurement_dir p) ->
  spells (measurement_dir p) l -> no_parent l -> from cwd (measurement_dir p) c ->
  leads c l d -> fs d = Some KDir ->
  make_write_dir a fs cwd (prepared b p) = (fs, Ok tt).
Proof.
  intros S C F Ns Hl NP Hc L D.
  destruct (is_blank (measurement_dir p)) eqn:B.
  { rewrite prepared_blank by exact B. reflexivity. }
  rewrite prepared_text by assumption.
  apply text_names in Hl. subst l. apply from_start in Hc. subst c.
  assert (Nd : measurement_dir p <> "") by (intros E; rewrite E in B; discriminate).
  assert (NP' : no_parent (pieces (measurement_dir p ++ "/"))).
  { change "/" with ("/" ++ ""). rewrite pieces_cat. unfold no_parent.
    rewrite in_app_iff. cbn. intros [K|[K|[]]]; [now apply NP | discriminate]. }
  assert (L' : leads (start cwd (measurement_dir p))
                 (pieces (measurement_dir p ++ "/")) d).
  { change "/" with ("/" ++ ""). rewrite pieces_cat. now apply leads_blank. }
  destruct (walk_succeeds _ (fun _ => false) fs _ _ NP' L') as (fs' & W).
  - intros q Hq. rewrite (sound_above fs d q S D Hq). discriminate.
  - intros q Hq. rewrite (sound_above fs d q S D Hq). discriminate.
  - pose proof (walk_none _ _ _ _ _ W). subst fs'.
    apply (walk_again _ a) in W.
    apply (walk_make a fs cwd _ fs d).
    + now rewrite start_app.
    + intros K. apply all_slash_app in K. apply Ns. now split.
Qed.

(** ** Results *)

Lemma stake_short k s : (String.length (stake k s) < k)%nat -> stake k s = s.
Proof.
  revert s. induction k as [|k IH]; intros s H; [lia|].
  destruct s as [|c s]; [reflexivity|]. cbn [stake String.length] in *.
  f_equal. apply IH. lia.
Qed.

Lemma number_free z : free_of "/" (Dec.to_string z).
Proof. apply FileNameProps.to_string_free; [reflexivity | discriminate]. Qed.

Lemma lit_free s z : free_of "/" s -> free_of "/" (s ++ Dec.to_string z).
Proof. intros H. apply FileNameProps.free_of_app. split; [exact H | apply number_free]. Qed.

Lemma form_free f i x : MainModel.form_name f i = Some x -> free_of "/" x.
Proof.
  unfold MainModel.form_name.
  destruct (String.eqb_spec f "full") as [->|_];
    [intros K; inversion K; cbn; repeat split; discriminate|].
  destruct (String.eqb_spec f "diag") as [->|_];
    [intros K; inversion K; cbn; repeat split; discriminate|].
  cbn [orb].
  destruct (f =? "off-diag");
    [intros K; injection K as K; rewrite <- K; apply (lit_free "_offdiag");
     cbn; repeat split; discriminate|].
  destruct (f =? "row"); [|discriminate].
  intros K; injection K as K; rewrite <- K. apply (lit_free "_row").
  cbn; repeat split; discriminate.
Qed.

Lemma base_name_ok fp n : MainModel.base_name fp = Some n ->
  free_of "/" n /\ exists c r, n = String c r /\ c <> "."%char.
Proof.
  unfold MainModel.base_name. cbv zeta.
  pose proof (form_free (form (msr (ParamFileModel.core fp)))
                (idx_bin (msr (ParamFileModel.core fp)))) as FN.
  destruct (MainModel.form_name _ _) as [x|] eqn:Ex;
    [specialize (FN x eq_refl)|clear FN]; cbn [option_map];
    repeat match goal with
           | |- context [if ?b then _ else _] => destruct b
           end; try discriminate; intros K; injection K as K; rewrite <- K;
    (split; [|do 2 eexists; split; [reflexivity | discriminate]]);
    repeat (first [ split; [discriminate|]
                  | apply number_free | exact FN
                  | progress cbn [free_of append]
                  | apply FileNameProps.free_of_app; split ]).
Qed.

(** Once its measurement directory is prepared, a run can write its result
    there, unless the result has the name of a directory; for a name that fits
    and a tag without slashes. *)
Theorem result_opens a fs cwd fs' fp s :
  let pa := pths (ParamFileModel.core fp) in
  sound fs -> fs cwd = Some KDir -> measurement_dir pa <> "" ->
  make_write_dir a fs cwd (measurement_dir pa) = (fs', Ok tt) ->
  free_of "/" (output_tag pa) ->
  MainModel.save_path fp = Some s -> (String.length s < 1023)%nat ->
  exists p n, fs' p = Some KDir /\ s = measurement_dir pa ++ "/" ++ n
    /\ (fs' (n :: p) <> Some KDir ->
        open_write fs' cwd s = (put fs' (n :: p) KFile, Ok (n :: p))).
Proof.
  intros pa S C N E T Es Ls. unfold MainModel.save_path in Es. fold pa in Es.
  destruct (MainModel.base_name fp) as [m|] eqn:Em; [|discriminate].
  cbn [option_map] in Es. unfold snprintf1024 in Es.
  remember 1023 as k eqn:Hk. injection Es as Es.
  rewrite <- Es in Ls. apply stake_short in Ls. rewrite Ls in Es. clear Ls.
  destruct (base_name_ok fp m Em) as (Fm & c & r & -> & Nc).
  assert (Hn : file_name (String c r ++ output_tag pa)).
  { split; [|split; [|split]].
    - apply FileNameProps.free_of_app. now split.
    - discriminate.
    - cbn. intros K. inversion K. contradiction.
    - cbn. intros K. inversion K. contradiction. }
  destruct (ready a fs cwd _ fs' _ S C N Hn E) as (p & D & _ & O).
  exists p, (String c r ++ output_tag pa). split; [exact D|]. split; [now symmetry|].
  rewrite <- Es. exact O.
Qed.

(** A tag with a slash puts the result into a directory nothing prepares. *)
Theorem slashed_tag : exists fs fs' d n,
  sound fs /\ fs [] = Some KDir
  /\ make_write_dir (fun _ => true) fs [] d = (fs', Ok tt)
  /\ open_write fs' [] (d ++ "/" ++ n) = (fs', Err IOErr)
  /\ n = "pk0" ++ "/a".
Proof.
  exists one_root, (put one_root ["out"] KDir), "out/", "pk0/a".
  split; [apply one_root_sound|]. split; [reflexivity|].
  repeat split.
Qed.

(** Concrete cases. *)
Example make_case :
  let fs := put (put one_root ["data"] KDir) ["log"; "data"] KFile in
  let out := make_write_dir (fun _ => true) fs ["data"] "./out//run1/" in
  snd out = Ok tt
  /\ fst out ["out"; "data"] = Some KDir
  /\ fst out ["run1"; "out"; "data"] = Some KDir
  /\ fst out ["run1"; "out"] = None
  /\ snd (open_write (fst out) ["data"] "./out//run1//pk0") = Ok ["pk0"; "run1"; "out"; "data"]
  /\ snd (make_write_dir (fun _ => true) fs ["data"] "log/x/") = Err IOErr
  /\ snd (make_write_dir (fun _ => false) fs ["data"] "new/") = Err IOErr
  /\ snd (make_write_dir (fun _ => false) fs ["data"] "/data/") = Ok tt
  /\ snd (open_write fs ["data"] "../data/./../pk0") = Ok ["pk0"]
  /\ snd (make_write_dir (fun _ => true) fs ["data"] "//") = Err IOErr.
Proof. cbv zeta. repeat split. Qed.

Print Assumptions text_names.
Print Assumptions ready.
Print Assumptions only_missing.
Print Assumptions stays_sound.
Print Assumptions only_on_the_way.
Print Assumptions second_run.
Print Assumptions succeeds.
Print Assumptions blocked.
Print Assumptions root_refused.
Print Assumptions root_fails.
Print Assumptions existing_refuted.
Print Assumptions existing_accepted.
Print Assumptions result_opens.
Print Assumptions slashed_tag.
