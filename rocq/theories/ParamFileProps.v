(* C89 (what a line of a parameter file sets), C90 (parameters a file leaves
   out), C91 (used-parameter files), C92 (buffers). *)
From Coq Require Import String Ascii List Arith ZArith Reals Bool Lia Lra Permutation.
From Flocq Require Import Core.
From Verif Require Import Base StrModel StrProps Dec ArrayModel ArrayProofs
  MeshModel ParamModel ParamProps ParamValProps ParamFileModel.
Import ListNotations.
Local Open Scope nat_scope.
Local Open Scope string_scope.

(* ------------------------------------------------------------------ *)
(** * Words of a line *)

Fixpoint blanks (s : string) : Prop :=
  match s with
  | "" => True
  | String c t => is_blank_char c = true /\ blanks t
  end.

Fixpoint blank_free (s : string) : Prop :=
  match s with
  | "" => True
  | String c t => is_blank_char c = false /\ blank_free t
  end.

Definition word (s : string) : Prop := s <> "" /\ blank_free s.

(** Nothing follows, or a blank does. *)
Definition ends_here (s : string) : Prop :=
  match s with
  | "" => True
  | String c _ => is_blank_char c = true
  end.

(** [s] consists of the words [ws] separated by blanks. *)
Inductive spells : list string -> string -> Prop :=
| spells_nil b : blanks b -> spells [] b
| spells_cons b w ws r :
    blanks b -> word w -> ends_here r -> spells ws r ->
    spells (w :: ws) (b ++ w ++ r).

Lemma blanks_app a b : blanks (a ++ b) <-> blanks a /\ blanks b.
Proof. induction a as [|c a IH]; simpl; [tauto|]. rewrite IH. tauto. Qed.

Lemma blank_free_app a b : blank_free (a ++ b) <-> blank_free a /\ blank_free b.
Proof. induction a as [|c a IH]; simpl; [tauto|]. rewrite IH. tauto. Qed.

Lemma skip_blanks b s : blanks b -> skip_blank (b ++ s) = skip_blank s.
Proof.
  induction b as [|c b IH]; simpl; [reflexivity|]. intros (E & B).
  rewrite E. auto.
Qed.

Lemma skip_blank_ink s t : blank_free s -> s <> "" -> skip_blank (s ++ t) = s ++ t.
Proof. destruct s as [|c s]; [congruence|]. simpl. intros (E & _) _. now rewrite E. Qed.

Lemma skip_blank_nil b : blanks b -> skip_blank b = "".
Proof. intros B. rewrite <- (sapp_nil_r b). now rewrite skip_blanks. Qed.

Lemma take_word_exact n w r :
  blank_free w -> ends_here r -> String.length w <= n ->
  take_word n (w ++ r) = (w, r).
Proof.
  revert n; induction w as [|c w IH]; intros n B E L; cbn [append].
  - destruct n; [reflexivity|]. destruct r as [|c r]; [reflexivity|]. simpl in E.
    cbn [take_word]. now rewrite E.
  - destruct n as [|n]; cbn [String.length] in L; [lia|]. destruct B as (Bc & B).
    cbn [take_word]. rewrite Bc, IH by (auto; lia). reflexivity.
Qed.

Lemma take_word_short n w r :
  blank_free w -> n <= String.length w ->
  take_word n (w ++ r) = (stake n w, sdrop n w ++ r).
Proof.
  revert w; induction n as [|n IH]; intros w B L.
  - cbn [stake sdrop]. destruct w; [reflexivity|]. reflexivity.
  - destruct w as [|c w]; simpl in L; [lia|]. destruct B as (Bc & B).
    cbn [append take_word]. rewrite Bc, IH by (auto; lia). reflexivity.
Qed.

(** What a conversion of width [w] keeps of a word. *)
Definition clip (w : option nat) (s : string) : string :=
  match w with Some n => stake n s | None => s end.

Lemma stake_all n s : String.length s <= n -> stake n s = s.
Proof.
  revert s; induction n as [|n IH]; intros [|c s] L; simpl in *; try reflexivity; try lia.
  now rewrite IH by lia.
Qed.

Lemma spells_scan w ws s :
  spells (w :: ws) s ->
  exists r, spells ws r /\
    scan_word None s = Some (w, r) /\
    (forall n, String.length w <= n -> scan_word (Some n) s = Some (w, r)) /\
    (forall n, 0 < n -> exists r', scan_word (Some n) s = Some (stake n w, r')).
Proof.
  intros H. inversion H as [|b w' ws' r B (N & F) E S]; subst. exists r.
  assert (K : skip_blank (b ++ w ++ r) = w ++ r) by (rewrite skip_blanks by exact B; now apply skip_blank_ink).
  assert (NE : (w =? "") = false) by now apply String.eqb_neq.
  unfold scan_word. rewrite K. split; [exact S|]. split; [|split].
  - rewrite take_word_exact; [|auto|auto|rewrite slength_app; lia]. cbn [fst]. now rewrite NE.
  - intros n L. rewrite take_word_exact by auto. cbn [fst]. now rewrite NE.
  - intros n P. destruct (le_lt_dec n (String.length w)) as [L|L].
    + rewrite take_word_short by auto. cbn [fst]. exists (sdrop n w ++ r).
      destruct w as [|c w]; [congruence|]. destruct n as [|n]; [lia|]. reflexivity.
    + rewrite take_word_exact by (auto; lia). cbn [fst]. rewrite NE. exists r.
      now rewrite stake_all by lia.
Qed.

Lemma spells_none s w : spells [] s -> scan_word w s = None.
Proof.
  intros H. inversion H; subst. unfold scan_word. rewrite skip_blank_nil by assumption.
  destruct w as [[|n]|]; reflexivity.
Qed.

Lemma spells_total s : exists ws, spells ws s.
Proof.
  assert (G : exists ws, spells ws s /\
            forall c, is_blank_char c = false -> exists ws', spells ws' (String c s)).
  { induction s as [|c s IH].
    - exists []. split; [constructor; exact I|]. intros c C.
      exists [String c ""]. apply (spells_cons "" (String c "") [] ""); simpl; auto; [|constructor; exact I].
      split; [discriminate|]. simpl. auto.
    - destruct IH as (ws & S & NX). destruct (is_blank_char c) eqn:C.
      + exists ws. assert (S' : spells ws (String c s)).
        { inversion S as [b B|b w ws' r B W E S']; subst.
          - constructor. simpl. auto.
          - apply (spells_cons (String c b) w ws' r); simpl; auto. }
        split; [exact S'|]. intros d D. exists (String d "" :: ws).
        apply (spells_cons "" (String d "") ws (String c s)); simpl; auto.
        split; [discriminate|]. simpl. auto.
      + destruct (NX c C) as (ws' & S'). exists ws'. split; [exact S'|].
        intros d D. remember (String c s) as l eqn:El.
        destruct S' as [b B|b w r ws0 B (N & W) E S''].
        * subst b. simpl in B. destruct B. congruence.
        * destruct b as [|x b].
          -- cbn [append] in *. exists (String d w :: r).
             apply (spells_cons "" (String d w) r ws0); simpl; auto.
             split; [discriminate|]. simpl. auto.
          -- exfalso. cbn [append] in El. injection El as -> _. simpl in B. destruct B. congruence. }
  destruct G as (ws & S & _). eauto.
Qed.

(* ------------------------------------------------------------------ *)
(** * What a line sets *)

(** A line "name = value ..." that does not start with a hash and in which
    [key] occurs: the line gives [key] the value [v]. *)
Definition gives (line key v : string) : Prop :=
  prefix "#" line = false /\
  (exists name rest, spells (name :: "=" :: v :: rest) line) /\
  occurs key line.

(** The first word of the line fits its buffer. *)
Definition sane (line : string) : Prop :=
  forall name rest, spells (name :: rest) line -> String.length name < 1024.

Lemma sane_is_assignment line :
  sane line ->
  is_assignment line = true <->
  prefix "#" line = false /\
  exists name v rest, spells (name :: "=" :: v :: rest) line.
Proof.
  intros SN. unfold is_assignment. destruct (prefix "#" line) eqn:P.
  { split; [discriminate|]. intros (H & _). discriminate. }
  destruct (spells_total line) as (ws & S).
  unfold scan_two.
  destruct ws as [|n ws].
  { rewrite (spells_none _ _ S). split; [discriminate|]. intros (_ & n & v & r & S').
    destruct (spells_scan _ _ _ S') as (r0 & _ & E & _). rewrite (spells_none _ _ S) in E. discriminate. }
  pose proof (SN _ _ S) as LN.
  destruct (spells_scan _ _ _ S) as (r1 & S1 & E1 & F1 & _).
  unfold wide. rewrite F1 by lia.
  assert (Q : forall n' e' v' rest', spells (n' :: e' :: v' :: rest') line ->
            spells (e' :: v' :: rest') r1).
  { intros n' e' v' rest' S'. destruct (spells_scan _ _ _ S') as (r' & S1' & E1' & _).
    rewrite E1 in E1'. injection E1' as <- <-. exact S1'. }
  destruct ws as [|e ws].
  { rewrite (spells_none _ _ S1). split; [discriminate|]. intros (_ & n' & v & r & S').
    apply Q in S'. destruct (spells_scan _ _ _ S') as (r0 & _ & E & _).
    rewrite (spells_none _ _ S1) in E. discriminate. }
  destruct (spells_scan _ _ _ S1) as (r2 & S2 & E2 & F2 & G2).
  destruct (le_lt_dec (String.length e) 1023) as [LE|LE].
  - rewrite F2 by exact LE. destruct ws as [|v ws].
    + rewrite (spells_none _ _ S2). split; [discriminate|]. intros (_ & n' & v & r & S').
      apply Q in S'. destruct (spells_scan _ _ _ S') as (r0 & S0 & E & _).
      rewrite E2 in E. injection E as _ <-. destruct (spells_scan _ _ _ S0) as (r3 & _ & E3 & _).
      rewrite (spells_none _ _ S2) in E3. discriminate.
    + destruct (spells_scan _ _ _ S2) as (r3 & S3 & E3 & F3 & G3).
      destruct (G3 1023%nat) as (r4 & ->); [lia|]. rewrite String.eqb_eq. split.
      * intros ->. split; [reflexivity|]. exists n, v, ws. exact S.
      * intros (_ & n' & v' & r & S'). apply Q in S'.
        destruct (spells_scan _ _ _ S') as (r0 & S0 & E & _).
        rewrite E2 in E. now injection E.
  - destruct (G2 1023%nat) as (r3 & ->); [lia|].
    assert (NEQ : (stake 1023 e =? "=") = false).
    { apply String.eqb_neq. intros K. apply (f_equal String.length) in K.
      assert (L : String.length (stake 1023 e) = 1023%nat).
      { clear - LE. revert LE. generalize 1023%nat. intros m LE. revert e LE.
        induction m as [|m IH]; intros [|c e] LE; simpl in *; try lia. rewrite IH; lia. }
      rewrite L in K. simpl in K. lia. }
    split.
    + destruct (scan_word (Some 1023%nat) r3); [|discriminate]. now rewrite NEQ.
    + intros (_ & n' & v' & r & S'). apply Q in S'.
      destruct (spells_scan _ _ _ S') as (r0 & S0 & E & _).
      rewrite E2 in E. injection E as -> _. simpl in LE. lia.
Qed.

Lemma spells_inj ws ws' s : spells ws s -> spells ws' s -> ws = ws'.
Proof.
  intros S. revert ws'. induction S as [b B|b w ws r B W E S IH]; intros ws' S'.
  - destruct ws' as [|w ws']; [reflexivity|].
    destruct (spells_scan _ _ _ S') as (r & _ & E & _).
    rewrite (spells_none b None) in E by now constructor. discriminate.
  - pose proof (spells_cons b w ws r B W E S) as S0.
    destruct (spells_scan _ _ _ S0) as (r0 & S1 & E1 & _).
    destruct ws' as [|w' ws'].
    + rewrite (spells_none _ _ S') in E1. discriminate.
    + destruct (spells_scan _ _ _ S') as (r0' & S1' & E1' & _).
      rewrite E1 in E1'. injection E1' as <- <-.
      assert (R : r0 = r).
      { clear - E1 B W E. unfold scan_word in E1. destruct W as (N & F).
        rewrite skip_blanks, skip_blank_ink, take_word_exact in E1 by (auto; rewrite ?slength_app; lia).
        cbn [fst] in E1. destruct (w =? ""); [discriminate|]. now injection E1. }
      subst r0. f_equal. now apply IH.
Qed.

(** Scanning one parameter. *)
Definition usual_width (k : slot) : Prop :=
  match k with Word w _ => w = None \/ w = wide | _ => True end.

Lemma keys_width k : In k keys -> usual_width (snd k).
Proof.
  intros H. unfold keys in H. cbn [In] in H.
  repeat (destruct H as [<-|H]; [cbn; auto|]). contradiction.
Qed.

Lemma fits_iff cap s : fits cap s = true <-> (Z.of_nat (String.length s) < cap)%Z.
Proof. apply Z.ltb_lt. Qed.

Lemma scan_key_assign line name v rest k st :
  spells (name :: "=" :: v :: rest) line -> String.length name < 1024 ->
  usual_width (snd k) ->
  scan_key line k st =
  match sfind (fst k) line with
  | None => Ok st
  | Some _ =>
      match snd k with
      | Word w cap => if fits cap (clip w v) then Ok (set_word (fst k) (clip w v) st)
                      else Err OutOfBounds
      | Number => Ok (match read_num v with
                      | Some x => set_num (fst k) x st | None => st end)
      | Integer => Ok (match read_int v with
                       | Some x => set_int (fst k) x st | None => st end)
      end
  end.
Proof.
  intros S L U. unfold scan_key. destruct (sfind (fst k) line); [|reflexivity].
  destruct (spells_scan _ _ _ S) as (r1 & S1 & E1 & F1 & _).
  destruct (spells_scan _ _ _ S1) as (r2 & S2 & E2 & F2 & _).
  destruct (spells_scan _ _ _ S2) as (r3 & S3 & E3 & F3 & G3).
  assert (T : forall w, w = None \/ w = wide -> scan_two w line = Some (name, "=", r2)).
  { intros w [-> | ->]; unfold scan_two, wide.
    - now rewrite E1, E2.
    - rewrite F1 by lia. rewrite F2 by (simpl; lia). reflexivity. }
  assert (NW : next_word r2 = v) by (unfold next_word; now rewrite E3).
  destruct (snd k) as [w cap| |].
  - rewrite T by exact U.
    assert (FN : fits 1024 name = true) by (apply fits_iff; lia).
    rewrite FN. cbn [negb andb fits String.length Z.of_nat].
    change (fits 1024 "=") with true. cbn [negb].
    destruct U as [-> | ->]; unfold clip, wide.
    + now rewrite E3.
    + destruct (G3 1023) as (r' & ->); [lia|]. reflexivity.
  - rewrite T by auto. rewrite NW. destruct (read_num v); reflexivity.
  - rewrite T by auto. rewrite NW. destruct (read_int v); reflexivity.
Qed.

Lemma key_names_nodup : NoDup (map fst keys).
Proof.
  replace (map fst keys) with (nodup string_dec (map fst keys)) by reflexivity.
  apply NoDup_nodup.
Qed.

Fixpoint find_key (k : string) (ks : list (string * slot)) : option slot :=
  match ks with
  | [] => None
  | (j, s) :: t => if j =? k then Some s else find_key k t
  end.

Lemma find_key_in k s : find_key k keys = Some s -> In (k, s) keys.
Proof.
  generalize keys. intros ks. induction ks as [|(j, t) ks IH]; cbn [find_key]; [discriminate|].
  destruct (j =? k) eqn:E.
  - intros H. injection H as ->. apply String.eqb_eq in E. subst. now left.
  - intros H. right. auto.
Qed.

Lemma upd_same {A} (f : string -> A) k v : upd f k v k = v.
Proof. unfold upd. now rewrite String.eqb_refl. Qed.

Lemma upd_other {A} (f : string -> A) k v j : j <> k -> upd f k v j = f j.
Proof. intros N. unfold upd. apply String.eqb_neq in N. now rewrite N. Qed.

Definition is_word_key (k : string) : Prop := exists w cap, In (k, Word w cap) keys.

(** What the scans of a list of parameters leave behind. *)
Lemma scan_keys_effect line name v rest :
  spells (name :: "=" :: v :: rest) line -> String.length name < 1024 ->
  forall ks, (forall k, In k ks -> usual_width (snd k)) -> NoDup (map fst ks) ->
  forall st,
  match scan_keys line ks st with
  | Ok st' =>
      (forall k w cap, In (k, Word w cap) ks -> occurs k line ->
         words_of st' k = clip w v /\ (Z.of_nat (String.length (clip w v)) < cap)%Z) /\
      (forall k, In (k, Number) ks -> occurs k line ->
         num_of st' k = match read_num v with Some x => x | None => num_of st k end) /\
      (forall k, In (k, Integer) ks -> occurs k line ->
         int_of st' k = match read_int v with Some x => x | None => int_of st k end) /\
      (forall k, ~ occurs k line \/ ~ In k (map fst ks) ->
         words_of st' k = words_of st k /\ num_of st' k = num_of st k /\
         int_of st' k = int_of st k)
  | Err e =>
      e = OutOfBounds /\
      exists k w cap, In (k, Word w cap) ks /\ occurs k line /\
        (cap <= Z.of_nat (String.length (clip w v)))%Z
  end.
Proof.
  intros S L. induction ks as [|(k, s) ks IH]; intros U ND st; cbn [scan_keys].
  - repeat split; intros; try contradiction.
  - cbn [map fst] in ND. inversion ND as [|? ? NI ND']; subst.
    assert (U' : forall x, In x ks -> usual_width (snd x)) by (intros x X; apply U; now right).
    rewrite (scan_key_assign line name v rest (k, s) st S L (U (k, s) (or_introl eq_refl))).
    cbn [fst snd].
    destruct (sfind k line) as [i|] eqn:F.
    2:{ apply sfind_none in F. cbn [bind]. specialize (IH U' ND' st).
        destruct (scan_keys line ks st) as [st'|e].
        - destruct IH as (A & B & C & D). repeat split; intros.
          + destruct H as [H|H]; [congruence|]. now apply (A _ _ _ H).
          + destruct H as [H|H]; [congruence|]. now apply (A _ _ _ H).
          + destruct H as [H|H]; [congruence|]. now apply B.
          + destruct H as [H|H]; [congruence|]. now apply C.
          + apply D. cbn [map fst In] in H. tauto.
          + apply D. cbn [map fst In] in H. tauto.
          + apply D. cbn [map fst In] in H. tauto.
        - destruct IH as (E & k' & w & cap & I & O & Q). split; [exact E|].
          exists k', w, cap. split; [now right|]. auto. }
    assert (OK : occurs k line).
    { destruct (sfind_some _ _ _ F) as ((E & _) & _). unfold occurs. eauto. }
    assert (NW : forall (P : slot), In (k, P) ks -> False).
    { intros P H. apply NI. apply in_map_iff. exists (k, P). auto. }
    destruct s as [w cap| |].
    + destruct (fits cap (clip w v)) eqn:FT; cbn [bind].
      2:{ split; [reflexivity|]. exists k, w, cap. split; [now left|]. split; [exact OK|].
          unfold fits in FT. apply Z.ltb_ge in FT. exact FT. }
      apply fits_iff in FT. specialize (IH U' ND' (set_word k (clip w v) st)).
      destruct (scan_keys line ks _) as [st'|e].
      * destruct IH as (A & B & C & D).
        assert (DK := D k (or_intror NI)). cbn [set_word words_of num_of int_of] in *.
        rewrite upd_same in DK.
        repeat split; intros.
        -- destruct H as [H|H]; [injection H as <- <- <-; apply DK|]. now apply (A _ _ _ H).
        -- destruct H as [H|H]; [injection H as <- <- <-; exact FT|]. now apply (A _ _ _ H).
        -- destruct H as [H|H]; [discriminate|]. now apply B.
        -- destruct H as [H|H]; [discriminate|]. now apply C.
        -- cbn [map fst In] in H.
           assert (k0 <> k) by (intros ->; destruct H as [H|H]; [auto|apply H; now left]).
           destruct (D k0) as (-> & _); [tauto|]. now apply upd_other.
        -- cbn [map fst In] in H. apply D. tauto.
        -- cbn [map fst In] in H. apply D. tauto.
      * destruct IH as (E & k' & w' & cap' & I & O & Q). split; [exact E|].
        exists k', w', cap'. split; [now right|]. auto.
    + cbn [bind].
      set (st1 := match read_num v with Some x => set_num k x st | None => st end).
      assert (W1 : forall j, words_of st1 j = words_of st j /\ int_of st1 j = int_of st j /\
                     (j <> k -> num_of st1 j = num_of st j)).
      { intros j. unfold st1. destruct (read_num v); cbn [set_num words_of num_of int_of]; repeat split.
        intros N. now apply upd_other. }
      assert (K1 : num_of st1 k = match read_num v with Some x => x | None => num_of st k end).
      { unfold st1. destruct (read_num v); cbn [set_num num_of]; [apply upd_same|reflexivity]. }
      specialize (IH U' ND' st1). destruct (scan_keys line ks st1) as [st'|e].
      * destruct IH as (A & B & C & D).
        repeat split; intros.
        -- destruct H as [H|H]; [discriminate|]. now apply (A _ _ _ H).
        -- destruct H as [H|H]; [discriminate|]. now apply (A _ _ _ H).
        -- destruct H as [H|H].
           ++ injection H as <-. destruct (D k (or_intror NI)) as (_ & -> & _). exact K1.
           ++ rewrite B by assumption. assert (k0 <> k) by (intros ->; eauto).
              destruct (W1 k0) as (_ & _ & W). now rewrite W.
        -- destruct H as [H|H]; [discriminate|]. rewrite C by assumption.
           destruct (W1 k0) as (_ & -> & _). reflexivity.
        -- cbn [map fst In] in H. destruct (D k0) as (-> & _); [tauto|]. apply W1.
        -- cbn [map fst In] in H.
           assert (k0 <> k) by (intros ->; destruct H as [H|H]; [auto|apply H; now left]).
           destruct (D k0) as (_ & -> & _); [tauto|]. now apply W1.
        -- cbn [map fst In] in H. destruct (D k0) as (_ & _ & ->); [tauto|]. apply W1.
      * destruct IH as (E & k' & w' & cap' & I & O & Q). split; [exact E|].
        exists k', w', cap'. split; [now right|]. auto.
    + cbn [bind].
      set (st1 := match read_int v with Some x => set_int k x st | None => st end).
      assert (W1 : forall j, words_of st1 j = words_of st j /\ num_of st1 j = num_of st j /\
                     (j <> k -> int_of st1 j = int_of st j)).
      { intros j. unfold st1. destruct (read_int v); cbn [set_int words_of num_of int_of]; repeat split.
        intros N. now apply upd_other. }
      assert (K1 : int_of st1 k = match read_int v with Some x => x | None => int_of st k end).
      { unfold st1. destruct (read_int v); cbn [set_int int_of]; [apply upd_same|reflexivity]. }
      specialize (IH U' ND' st1). destruct (scan_keys line ks st1) as [st'|e].
      * destruct IH as (A & B & C & D).
        repeat split; intros.
        -- destruct H as [H|H]; [discriminate|]. now apply (A _ _ _ H).
        -- destruct H as [H|H]; [discriminate|]. now apply (A _ _ _ H).
        -- destruct H as [H|H]; [discriminate|]. rewrite B by assumption.
           destruct (W1 k0) as (_ & -> & _). reflexivity.
        -- destruct H as [H|H].
           ++ injection H as <-. destruct (D k (or_intror NI)) as (_ & _ & ->). exact K1.
           ++ rewrite C by assumption. assert (k0 <> k) by (intros ->; eauto).
              destruct (W1 k0) as (_ & _ & W). now rewrite W.
        -- cbn [map fst In] in H. destruct (D k0) as (-> & _); [tauto|]. apply W1.
        -- cbn [map fst In] in H. destruct (D k0) as (_ & -> & _); [tauto|]. apply W1.
        -- cbn [map fst In] in H.
           assert (k0 <> k) by (intros ->; destruct H as [H|H]; [auto|apply H; now left]).
           destruct (D k0) as (_ & _ & ->); [tauto|]. now apply W1.
      * destruct IH as (E & k' & w' & cap' & I & O & Q). split; [exact E|].
        exists k', w', cap'. split; [now right|]. auto.
Qed.

(** C89, lines: a line that is not "name = value", or starts with a hash,
    changes nothing. *)
Theorem other_lines_ignored line st :
  sane line -> (forall key v, ~ (gives line key v)) -> scan_line line st = Ok st.
Proof.
  intros SN NG. unfold scan_line. destruct (is_assignment line) eqn:A; [|reflexivity].
  apply (sane_is_assignment line SN) in A. destruct A as (P & n & v & r & S).
  exfalso. apply (NG "" v). split; [exact P|]. split; [eauto|]. exists "", line. reflexivity.
Qed.

(** C89, lines: a line "name = value ..." gives the value to every parameter
    whose name occurs anywhere in the line, to no other, and fails exactly
    when one of these holds text and has too small a buffer. *)
Theorem line_effect line v st :
  sane line -> gives line "" v ->
  match scan_line line st with
  | Ok st' =>
      (forall k w cap, In (k, Word w cap) keys -> occurs k line ->
         words_of st' k = clip w v /\ (Z.of_nat (String.length (clip w v)) < cap)%Z) /\
      (forall k, In (k, Number) keys -> occurs k line ->
         num_of st' k = match read_num v with Some x => x | None => num_of st k end) /\
      (forall k, In (k, Integer) keys -> occurs k line ->
         int_of st' k = match read_int v with Some x => x | None => int_of st k end) /\
      (forall k, ~ occurs k line \/ ~ In k (map fst keys) ->
         words_of st' k = words_of st k /\ num_of st' k = num_of st k /\
         int_of st' k = int_of st k)
  | Err e =>
      e = OutOfBounds /\
      exists k w cap, In (k, Word w cap) keys /\ occurs k line /\
        (cap <= Z.of_nat (String.length (clip w v)))%Z
  end.
Proof.
  intros SN (P & (n & r & S) & _). unfold scan_line.
  assert (A : is_assignment line = true).
  { apply (sane_is_assignment line SN). split; [exact P|]. eauto. }
  rewrite A. apply (scan_keys_effect line n v r S (SN _ _ S) keys keys_width key_names_nodup).
Qed.

(* ------------------------------------------------------------------ *)
(** * What a file sets *)

(** The last line to give [key] a value gives it [v]; no line gives it one. *)
Definition last_given (key : string) (ls : list string) (v : string) : Prop :=
  exists l1 l l2, ls = (l1 ++ l :: l2)%list /\ gives l key v /\
    Forall (fun l' => forall v', ~ gives l' key v') l2.
Definition never_given (key : string) (ls : list string) : Prop :=
  Forall (fun l => forall v, ~ gives l key v) ls.

(** The same for values that [rd] can read. *)
Definition last_read {A} (rd : string -> option A) (key : string)
  (ls : list string) (x : A) : Prop :=
  exists l1 l l2 v, ls = (l1 ++ l :: l2)%list /\ gives l key v /\ rd v = Some x /\
    Forall (fun l' => forall v', gives l' key v' -> rd v' = None) l2.
Definition never_read {A} (rd : string -> option A) (key : string)
  (ls : list string) : Prop :=
  Forall (fun l => forall v, gives l key v -> rd v = None) ls.

Lemma gives_fun l k k' v v' : gives l k v -> gives l k' v' -> v = v'.
Proof.
  intros (_ & (n & r & S) & _) (_ & (n' & r' & S') & _).
  pose proof (spells_inj _ _ _ S S') as E. now injection E.
Qed.

Lemma gives_empty l k v : gives l k v -> gives l "" v.
Proof. intros (P & S & _). split; [exact P|]. split; [exact S|]. now exists "", l. Qed.

Lemma gives_occurs l k v : gives l "" v -> occurs k l -> gives l k v.
Proof. intros (P & S & _) O. split; auto. Qed.

Lemma gives_dec l k : (exists v, gives l k v) \/ forall v, ~ gives l k v.
Proof.
  destruct (prefix "#" l) eqn:P.
  { right. intros v (P' & _). congruence. }
  destruct (spells_total l) as (ws & S).
  assert (G : forall n e v r, spells (n :: e :: v :: r) l -> ws = n :: e :: v :: r)
    by (intros n e v r S'; exact (spells_inj _ _ _ S S')).
  destruct (sfind k l) as [i|] eqn:F.
  2:{ right. intros v (_ & _ & O). apply sfind_none in F. auto. }
  destruct (sfind_some _ _ _ F) as ((O & _) & _).
  destruct ws as [|n [|e [|v r]]]; try (right; intros v' (_ & (n' & r' & S') & _); apply G in S'; discriminate).
  destruct (string_dec e "=") as [->|N].
  - left. exists v. split; [exact P|]. split; [eauto|]. unfold occurs. eauto.
  - right. intros v' (_ & (n' & r' & S') & _). apply G in S'. congruence.
Qed.

Lemma empty_or l : (exists v, gives l "" v) \/ forall k v, ~ gives l k v.
Proof.
  destruct (gives_dec l "") as [E|N]; [now left|]. right. intros k v H.
  apply (N v). now apply gives_empty in H.
Qed.

Lemma line_word l st st' k w cap :
  sane l -> In (k, Word w cap) keys -> scan_line l st = Ok st' ->
  (forall v, gives l k v -> words_of st' k = clip w v) /\
  ((forall v, ~ gives l k v) -> words_of st' k = words_of st k).
Proof.
  intros SN K E. destruct (empty_or l) as [(v & G)|N].
  - pose proof (line_effect l v st SN G) as Q. rewrite E in Q. destruct Q as (A & _ & _ & D).
    split.
    + intros v' G'. rewrite (gives_fun _ _ _ _ _ G' G). apply (A _ _ _ K). now destruct G' as (_ & _ & O).
    + intros NG. apply D. left. intros O. now apply (NG v), gives_occurs.
  - split; [intros v G; now apply N in G|]. intros _.
    rewrite other_lines_ignored in E by auto. now injection E as <-.
Qed.

Lemma line_num l st st' k :
  sane l -> In (k, Number) keys -> scan_line l st = Ok st' ->
  (forall v x, gives l k v -> read_num v = Some x -> num_of st' k = x) /\
  ((forall v, gives l k v -> read_num v = None) -> num_of st' k = num_of st k).
Proof.
  intros SN K E. destruct (empty_or l) as [(v & G)|N].
  - pose proof (line_effect l v st SN G) as Q. rewrite E in Q. destruct Q as (_ & A & _ & D).
    split.
    + intros v' x G' R. rewrite (A _ K) by now destruct G' as (_ & _ & O).
      rewrite <- (gives_fun _ _ _ _ _ G' G), R. reflexivity.
    + intros NG. destruct (sfind k l) as [i|] eqn:F.
      * destruct (sfind_some _ _ _ F) as ((O & _) & _).
        assert (O' : occurs k l) by (unfold occurs; eauto).
        rewrite (A _ K O'). now rewrite (NG v (gives_occurs _ _ _ G O')).
      * apply sfind_none in F. apply D. now left.
  - split; [intros v x G; now apply N in G|]. intros _.
    rewrite other_lines_ignored in E by auto. now injection E as <-.
Qed.

Lemma line_int l st st' k :
  sane l -> In (k, Integer) keys -> scan_line l st = Ok st' ->
  (forall v x, gives l k v -> read_int v = Some x -> int_of st' k = x) /\
  ((forall v, gives l k v -> read_int v = None) -> int_of st' k = int_of st k).
Proof.
  intros SN K E. destruct (empty_or l) as [(v & G)|N].
  - pose proof (line_effect l v st SN G) as Q. rewrite E in Q. destruct Q as (_ & _ & A & D).
    split.
    + intros v' x G' R. rewrite (A _ K) by now destruct G' as (_ & _ & O).
      rewrite <- (gives_fun _ _ _ _ _ G' G), R. reflexivity.
    + intros NG. destruct (sfind k l) as [i|] eqn:F.
      * destruct (sfind_some _ _ _ F) as ((O & _) & _).
        assert (O' : occurs k l) by (unfold occurs; eauto).
        rewrite (A _ K O'). now rewrite (NG v (gives_occurs _ _ _ G O')).
      * apply sfind_none in F. apply D. now left.
  - split; [intros v x G; now apply N in G|]. intros _.
    rewrite other_lines_ignored in E by auto. now injection E as <-.
Qed.

Lemma scan_lines_app l1 l2 st :
  scan_lines (l1 ++ l2) st = (st' <- scan_lines l1 st ;; scan_lines l2 st').
Proof.
  revert st; induction l1 as [|l l1 IH]; intros st; [reflexivity|].
  cbn [scan_lines app]. destruct (scan_line l st) as [st1|e]; cbn [bind]; [apply IH|reflexivity].
Qed.

Section FileFold.
  Variable A : Type.
  Variable obs : store -> A.
  Variable quiet : string -> Prop.
  Hypothesis keeps : forall l st st', sane l -> scan_line l st = Ok st' -> quiet l -> obs st' = obs st.

  Lemma quiet_lines ls : forall st st', Forall sane ls -> Forall quiet ls ->
    scan_lines ls st = Ok st' -> obs st' = obs st.
  Proof.
    induction ls as [|l ls IH]; intros st st' SN Q E; cbn [scan_lines] in E.
    - now injection E as <-.
    - apply bind_ok in E. destruct E as (st1 & E1 & E).
      inversion SN; inversion Q; subst. rewrite (IH st1 st') by auto. eauto.
  Qed.

  Lemma loud_then_quiet l1 l l2 st st' :
    Forall sane (l1 ++ l :: l2) -> Forall quiet l2 ->
    scan_lines (l1 ++ l :: l2) st = Ok st' ->
    exists sa sb, scan_line l sa = Ok sb /\ obs st' = obs sb.
  Proof.
    intros SN Q E. rewrite scan_lines_app in E. apply bind_ok in E. destruct E as (sa & _ & E).
    cbn [scan_lines] in E. apply bind_ok in E. destruct E as (sb & E1 & E).
    exists sa, sb. split; [exact E1|]. apply Forall_app in SN. destruct SN as (_ & SN).
    inversion SN; subst. eapply quiet_lines; eauto.
  Qed.
End FileFold.

Lemma file_word ls st st' k w cap :
  Forall sane ls -> In (k, Word w cap) keys -> scan_lines ls st = Ok st' ->
  (forall v, last_given k ls v -> words_of st' k = clip w v) /\
  (never_given k ls -> words_of st' k = words_of st k).
Proof.
  intros SN K E.
  assert (KP : forall l s s', sane l -> scan_line l s = Ok s' -> (forall v, ~ gives l k v) ->
            words_of s' k = words_of s k).
  { intros l s s' SL EL NG. now apply (line_word l s s' k w cap SL K EL). }
  split.
  - intros v (l1 & l & l2 & -> & G & Q).
    destruct (loud_then_quiet _ (fun s => words_of s k) _ KP l1 l l2 st st' SN Q E) as (sa & sb & E1 & ->).
    apply Forall_app in SN. destruct SN as (_ & SN). inversion SN; subst.
    now apply (line_word l sa sb k w cap).
  - intros NG. exact (quiet_lines _ (fun s => words_of s k) _ KP ls st st' SN NG E).
Qed.

Lemma file_num ls st st' k :
  Forall sane ls -> In (k, Number) keys -> scan_lines ls st = Ok st' ->
  (forall x, last_read read_num k ls x -> num_of st' k = x) /\
  (never_read read_num k ls -> num_of st' k = num_of st k).
Proof.
  intros SN K E.
  assert (KP : forall l s s', sane l -> scan_line l s = Ok s' ->
            (forall v, gives l k v -> read_num v = None) -> num_of s' k = num_of s k).
  { intros l s s' SL EL NG. now apply (line_num l s s' k SL K EL). }
  split.
  - intros x (l1 & l & l2 & v & -> & G & R & Q).
    destruct (loud_then_quiet _ (fun s => num_of s k) _ KP l1 l l2 st st' SN Q E) as (sa & sb & E1 & ->).
    apply Forall_app in SN. destruct SN as (_ & SN). inversion SN; subst.
    now apply (proj1 (line_num l sa sb k H1 K E1) v x).
  - intros NG. exact (quiet_lines _ (fun s => num_of s k) _ KP ls st st' SN NG E).
Qed.

Lemma file_int ls st st' k :
  Forall sane ls -> In (k, Integer) keys -> scan_lines ls st = Ok st' ->
  (forall x, last_read read_int k ls x -> int_of st' k = x) /\
  (never_read read_int k ls -> int_of st' k = int_of st k).
Proof.
  intros SN K E.
  assert (KP : forall l s s', sane l -> scan_line l s = Ok s' ->
            (forall v, gives l k v -> read_int v = None) -> int_of s' k = int_of s k).
  { intros l s s' SL EL NG. now apply (line_int l s s' k SL K EL). }
  split.
  - intros x (l1 & l & l2 & v & -> & G & R & Q).
    destruct (loud_then_quiet _ (fun s => int_of s k) _ KP l1 l l2 st st' SN Q E) as (sa & sb & E1 & ->).
    apply Forall_app in SN. destruct SN as (_ & SN). inversion SN; subst.
    now apply (proj1 (line_int l sa sb k H1 K E1) v x).
  - intros NG. exact (quiet_lines _ (fun s => int_of s k) _ KP ls st st' SN NG E).
Qed.

(** The parameters by name, and what they are when a file leaves them out:
    empty, or what the object held before. *)
Definition text_fields : list (string * bool * (fparams -> string)) :=
  [ ("catalogue_dir", false, fun p => catalogue_dir (pths (core p)));
    ("measurement_dir", false, fun p => measurement_dir (pths (core p)));
    ("data_catalogue_file", false, fun p => data_file (pths (core p)));
    ("rand_catalogue_file", false, fun p => rand_file (pths (core p)));
    ("catalogue_columns", false, catalogue_columns);
    ("catalogue_dataset", false, catalogue_dataset);
    ("output_tag", false, fun p => output_tag (pths (core p)));
    ("catalogue_type", false, fun p => catalogue_type (msr (core p)));
    ("statistic_type", false, fun p => statistic_type (msr (core p)));
    ("alignment", true, fun p => alignment (smp (core p)));
    ("padscale", true, fun p => padscale (smp (core p)));
    ("assignment", true, fun p => assignment (smp (core p)));
    ("interlace", true, fun p => interlace (smp (core p)));
    ("form", true, fun p => form (msr (core p)));
    ("norm_convention", true, fun p => norm_convention (msr (core p)));
    ("binning", true, fun p => binning (msr (core p)));
    ("fftw_scheme", true, fun p => fftw_scheme (msc (core p)));
    ("use_fftw_wisdom", true, fun p => use_fftw_wisdom (msc (core p)));
    ("save_binned_vectors", true, fun p => save_binned_vectors (msc (core p)));
    ("progbar", true, progbar) ].

Definition num_fields : list (string * (fparams -> R)) :=
  [ ("expand", fun p => expand (smp (core p)));
    ("padfactor", fun p => padfactor (smp (core p)));
    ("bin_min", fun p => bin_min (msr (core p)));
    ("bin_max", fun p => bin_max (msr (core p)));
    ("cutoff_nyq", fun p => cutoff_nyq (smp (core p))) ].

Definition int_fields : list (string * (fparams -> Z)) :=
  [ ("ell1", fun p => ell1 (msr (core p)));
    ("ell2", fun p => ell2 (msr (core p)));
    ("ELL", fun p => ELL (msr (core p)));
    ("i_wa", i_wa); ("j_wa", j_wa);
    ("num_bins", fun p => num_bins (msr (core p)));
    ("idx_bin", fun p => idx_bin (msr (core p)));
    ("verbose", verbose) ].

Definition box_fields : list (string * (fparams -> R)) :=
  [ ("boxsize_x", fun p => ax0 (boxsize (smp (core p))));
    ("boxsize_y", fun p => ax1 (boxsize (smp (core p))));
    ("boxsize_z", fun p => ax2 (boxsize (smp (core p)))) ].

Definition grid_fields : list (string * (fparams -> Z)) :=
  [ ("ngrid_x", fun p => ax0 (ngrid (smp (core p))));
    ("ngrid_y", fun p => ax1 (ngrid (smp (core p))));
    ("ngrid_z", fun p => ax2 (ngrid (smp (core p)))) ].

Lemma gives_word l k v : gives l k v -> v <> "" /\ blank_free v.
Proof.
  intros (_ & (n & r & S) & _).
  inversion S as [|? ? ? ? ? ? ? S1]; subst. inversion S1 as [|? ? ? ? ? ? ? S2]; subst.
  inversion S2 as [|? ? ? ? ? W]; subst. exact W.
Qed.

Lemma clip_nonempty w v : v <> "" -> w = None \/ w = wide -> clip w v <> "".
Proof.
  intros N [-> | ->]; cbn [clip wide]; [exact N|]. destruct v; [congruence|]. discriminate.
Qed.

(** C89: every text parameter ends up with the value of the last line in
    which its name occurs; one the file does not mention is empty or keeps
    its default. *)
Theorem file_text mem p text q :
  Forall sane (text_lines text) -> parse_file mem p text = Ok q ->
  forall key keep get, In (key, keep, get) text_fields ->
  (forall v, last_given key (text_lines text) v ->
     exists w cap, In (key, Word w cap) keys /\ get q = clip w v) /\
  (never_given key (text_lines text) -> get q = if keep then get p else "").
Proof.
  intros SN E key keep get H. unfold parse_file in E. apply bind_ok in E.
  destruct E as (st & E & Q). injection Q as <-.
  assert (K : exists w cap, In (key, Word w cap) keys).
  { unfold text_fields in H. cbn [In] in H.
    repeat (destruct H as [H|H]; [injection H as <- <- <-; do 2 eexists; apply find_key_in; reflexivity|]).
    contradiction. }
  destruct K as (w & cap & K). pose proof (keys_width _ K) as W. cbn [snd usual_width] in W.
  destruct (file_word _ _ _ key w cap SN K E) as (A & B).
  assert (G : forall s, words_of st key = s -> get (attribute st p) =
            if keep then if_given s (get p) else s).
  { intros s <-. unfold text_fields in H. cbn [In] in H.
    repeat (destruct H as [H|H]; [injection H as <- <- <-; reflexivity|]). contradiction. }
  split.
  - intros v LG. exists w, cap. split; [exact K|]. rewrite (G _ (A v LG)).
    destruct keep; [|reflexivity]. unfold if_given.
    assert (N : clip w v <> "").
    { apply clip_nonempty; [|exact W]. destruct LG as (l1 & l & l2 & _ & GV & _).
      now apply (gives_word l key v). }
    apply String.eqb_neq in N. now rewrite N.
  - intros NG. rewrite (G _ (B NG)). cbn [start words_of]. now destruct keep.
Qed.

(** C89: numbers likewise; one that no line sets to a number keeps what the
    object held. *)
Theorem file_numbers mem p text q :
  Forall sane (text_lines text) -> parse_file mem p text = Ok q ->
  (forall key get, In (key, get) num_fields ->
     (forall x, last_read read_num key (text_lines text) x -> get q = x) /\
     (never_read read_num key (text_lines text) -> get q = get p)) /\
  (forall key get, In (key, get) int_fields ->
     (forall x, last_read read_int key (text_lines text) x -> get q = x) /\
     (never_read read_int key (text_lines text) -> get q = get p)).
Proof.
  intros SN E. unfold parse_file in E. apply bind_ok in E.
  destruct E as (st & E & Q). injection Q as <-. split; intros key get H.
  - assert (K : In (key, Number) keys).
    { unfold num_fields in H. cbn [In] in H.
      repeat (destruct H as [H|H]; [injection H as <- <-; apply find_key_in; reflexivity|]).
      contradiction. }
    destruct (file_num _ _ _ key SN K E) as (A & B).
    assert (G : get (attribute st p) = num_of st key /\ num_of (start mem p) key = get p).
    { unfold num_fields in H. cbn [In] in H.
      repeat (destruct H as [H|H]; [injection H as <- <-; split; reflexivity|]). contradiction. }
    destruct G as (-> & <-). auto.
  - assert (K : In (key, Integer) keys).
    { unfold int_fields in H. cbn [In] in H.
      repeat (destruct H as [H|H]; [injection H as <- <-; apply find_key_in; reflexivity|]).
      contradiction. }
    destruct (file_int _ _ _ key SN K E) as (A & B).
    assert (G : get (attribute st p) = int_of st key /\ int_of (start mem p) key = get p).
    { unfold int_fields in H. cbn [In] in H.
      repeat (destruct H as [H|H]; [injection H as <- <-; split; reflexivity|]). contradiction. }
    destruct G as (-> & <-). auto.
Qed.

(** C90: box sides and grid numbers are set by the file, and are what the
    memory happened to hold, [mem], if it leaves them out. *)
Theorem file_box mem p text q :
  Forall sane (text_lines text) -> parse_file mem p text = Ok q ->
  (forall key get, In (key, get) box_fields ->
     (forall x, last_read read_num key (text_lines text) x -> get q = x) /\
     (never_read read_num key (text_lines text) -> get q = num_of mem key)) /\
  (forall key get, In (key, get) grid_fields ->
     (forall x, last_read read_int key (text_lines text) x -> get q = x) /\
     (never_read read_int key (text_lines text) -> get q = int_of mem key)).
Proof.
  intros SN E. unfold parse_file in E. apply bind_ok in E.
  destruct E as (st & E & Q). injection Q as <-. split; intros key get H.
  - assert (K : In (key, Number) keys).
    { unfold box_fields in H. cbn [In] in H.
      repeat (destruct H as [H|H]; [injection H as <- <-; apply find_key_in; reflexivity|]).
      contradiction. }
    destruct (file_num _ _ _ key SN K E) as (A & B).
    assert (G : get (attribute st p) = num_of st key /\ num_of (start mem p) key = num_of mem key).
    { unfold box_fields in H. cbn [In] in H.
      repeat (destruct H as [H|H]; [injection H as <- <-; split; reflexivity|]). contradiction. }
    destruct G as (-> & <-). auto.
  - assert (K : In (key, Integer) keys).
    { unfold grid_fields in H. cbn [In] in H.
      repeat (destruct H as [H|H]; [injection H as <- <-; apply find_key_in; reflexivity|]).
      contradiction. }
    destruct (file_int _ _ _ key SN K E) as (A & B).
    assert (G : get (attribute st p) = int_of st key /\ int_of (start mem p) key = int_of mem key).
    { unfold grid_fields in H. cbn [In] in H.
      repeat (destruct H as [H|H]; [injection H as <- <-; split; reflexivity|]). contradiction. }
    destruct G as (-> & <-). auto.
Qed.

Print Assumptions other_lines_ignored.
Print Assumptions line_effect.
Print Assumptions file_text.
Print Assumptions file_numbers.
Print Assumptions file_box.
