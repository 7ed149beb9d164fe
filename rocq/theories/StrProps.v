(* C48 (splitting, joining, suffixes, path tests) and C49 (environment
   variables in paths). *)
From Coq Require Import String Ascii List Arith Lia Bool.
From Verif Require Import Base StrModel.
Import ListNotations.
Local Open Scope string_scope.

(* ------------------------------------------------------------------ *)
(** * String algebra *)

Lemma sapp_assoc a b c : (a ++ b) ++ c = a ++ (b ++ c).
Proof. induction a as [|x a IH]; simpl; [reflexivity|]. now rewrite IH. Qed.

Lemma sapp_nil_r a : a ++ "" = a.
Proof. induction a as [|x a IH]; simpl; [reflexivity|]. now rewrite IH. Qed.

Lemma slength_app a b : String.length (a ++ b) = String.length a + String.length b.
Proof. induction a as [|x a IH]; simpl; [reflexivity|]. now rewrite IH. Qed.

Lemma slength_0 a : String.length a = 0 -> a = "".
Proof. destruct a; simpl; [reflexivity | discriminate]. Qed.

Lemma sapp_inv_head a b c : a ++ b = a ++ c -> b = c.
Proof.
  induction a as [|x a IH]; simpl; intros H; [assumption|].
  injection H as H. auto.
Qed.

Lemma sapp_split a b c d :
  a ++ b = c ++ d -> String.length a <= String.length c ->
  exists e, c = a ++ e /\ b = e ++ d.
Proof.
  revert c; induction a as [|x a IH]; intros c H L; simpl in *.
  - exists c. auto.
  - destruct c as [|y c]; simpl in *; [lia|].
    injection H as -> H. destruct (IH c H) as (e & -> & ->); [lia|].
    exists e. auto.
Qed.

Lemma sapp_inv a b c d :
  a ++ b = c ++ d -> String.length a = String.length c -> a = c /\ b = d.
Proof.
  intros H L. destruct (sapp_split a b c d H) as (e & -> & ->); [lia|].
  rewrite slength_app in L. assert (e = "") as -> by (apply slength_0; lia).
  rewrite sapp_nil_r. auto.
Qed.

Lemma sapp_eq_nil a b : a ++ b = "" -> a = "" /\ b = "".
Proof. destruct a; simpl; [auto | discriminate]. Qed.

Lemma sapp_inv_tail a b c : a ++ c = b ++ c -> a = b.
Proof.
  intros H. assert (L : String.length a = String.length b).
  { apply (f_equal String.length) in H. rewrite !slength_app in H. lia. }
  now destruct (sapp_inv _ _ _ _ H L).
Qed.

Lemma stake_sdrop n s : stake n s ++ sdrop n s = s.
Proof.
  revert s; induction n as [|n IH]; intros [|c s]; simpl; try reflexivity.
  now rewrite IH.
Qed.

Lemma stake_app a b : stake (String.length a) (a ++ b) = a.
Proof. induction a as [|c a IH]; simpl; [reflexivity|]. now rewrite IH. Qed.

Lemma sdrop_app a b : sdrop (String.length a) (a ++ b) = b.
Proof. induction a as [|c a IH]; simpl; auto. Qed.

Lemma prefix_iff d s : prefix d s = true <-> exists r, s = d ++ r.
Proof.
  revert s; induction d as [|c d IH]; intros s.
  - simpl. split; [intros _; exists s; reflexivity | destruct s; reflexivity].
  - destruct s as [|x s]; simpl.
    + split; [discriminate | intros (r & H); discriminate].
    + destruct (Ascii.ascii_dec c x) as [->|N].
      * rewrite IH. split; intros (r & H); exists r; [now subst | now injection H].
      * split; [discriminate | intros (r & H); injection H as H1 _; congruence].
Qed.

(* ------------------------------------------------------------------ *)
(** * Occurrences *)

(** [d] occurs in [s]. *)
Definition occurs (d s : string) : Prop := exists a b, s = a ++ d ++ b.

(** [a] is what precedes the first occurrence of [d] in [s]. *)
Definition first_at (d s a b : string) : Prop :=
  s = a ++ d ++ b /\
  forall a' b', s = a' ++ d ++ b' -> String.length a <= String.length a'.

Lemma sfind_none d s : sfind d s = None <-> ~ occurs d s.
Proof.
  induction s as [|c s IH]; cbn [sfind].
  - destruct (prefix d "") eqn:P.
    + split; [discriminate|]. apply prefix_iff in P. destruct P as (r & P).
      intros H; exfalso; apply H. exists "", r. exact P.
    + split; [intros _ (a & b & H) | reflexivity].
      symmetry in H. apply sapp_eq_nil in H. destruct H as (-> & H).
      assert (E : prefix d "" = true) by (apply prefix_iff; exists b; now rewrite H).
      congruence.
  - destruct (prefix d (String c s)) eqn:P.
    + split; [discriminate|]. apply prefix_iff in P. destruct P as (r & P).
      intros H; exfalso; apply H. exists "", r. exact P.
    + destruct (sfind d s) as [n|] eqn:F.
      * split; [discriminate|]. intros H. exfalso.
        assert (N : ~ occurs d s).
        { intros (a & b & E). apply H. exists (String c a), b. simpl. now rewrite E. }
        apply IH in N. discriminate.
      * split; [|reflexivity]. intros _ (a & b & E).
        destruct a as [|x a]; simpl in E.
        -- assert (P' : prefix d (String c s) = true) by (apply prefix_iff; now exists b).
           congruence.
        -- injection E as -> E. apply (proj1 IH); [reflexivity|]. now exists a, b.
Qed.

Lemma sfind_some d s n :
  sfind d s = Some n ->
  first_at d s (stake n s) (sdrop (n + String.length d) s) /\
  String.length (stake n s) = n.
Proof.
  revert n; induction s as [|c s IH]; intros n; cbn [sfind].
  - destruct (prefix d "") eqn:P; [|discriminate]. intros H; injection H as <-.
    apply prefix_iff in P. destruct P as (r & P). cbn [stake Nat.add].
    split; [|reflexivity]. split; [|simpl; lia].
    symmetry in P. apply sapp_eq_nil in P. destruct P as (-> & _). reflexivity.
  - destruct (prefix d (String c s)) eqn:P.
    + intros H; injection H as <-. apply prefix_iff in P. destruct P as (r & P).
      cbn [stake Nat.add]. split; [|reflexivity]. split; [|simpl; lia].
      rewrite P. rewrite sdrop_app. reflexivity.
    + destruct (sfind d s) as [m|] eqn:F; [|discriminate].
      intros H; injection H as <-. destruct (IH m eq_refl) as ((E & L) & K).
      cbn [stake Nat.add sdrop String.length append]. split; [|now rewrite K].
      split.
      * cbn [append]. f_equal. exact E.
      * intros a' b' E'. destruct a' as [|x a']; simpl in E'.
        -- assert (P' : prefix d (String c s) = true) by (apply prefix_iff; now exists b').
           congruence.
        -- injection E' as -> E'. simpl. specialize (L _ _ E'). lia.
Qed.

Lemma first_at_det d s a b a' b' :
  first_at d s a b -> first_at d s a' b' -> a = a' /\ b = b'.
Proof.
  intros (E & L) (E' & L'). specialize (L _ _ E'). specialize (L' _ _ E).
  rewrite E in E'. destruct (sapp_inv _ _ _ _ E') as (-> & H); [lia|].
  apply sapp_inv_head in H. auto.
Qed.

Lemma sfind_first d s a b : first_at d s a b -> sfind d s = Some (String.length a).
Proof.
  intros F. destruct (sfind d s) as [n|] eqn:H.
  - destruct (sfind_some d s n H) as (F' & L).
    destruct (first_at_det _ _ _ _ _ _ F F') as (-> & _). now rewrite L.
  - apply sfind_none in H. exfalso. apply H. destruct F as (E & _). now exists a, b.
Qed.

(* ------------------------------------------------------------------ *)
(** * C48: suffixes *)

Lemma srfind_none d s : srfind d s = None -> ~ occurs d s.
Proof.
  intros F (a' & b' & E'). revert F a' b' E'.
  induction s as [|y s IHs]; intros F a' b' E'.
  - cbn [srfind] in F. symmetry in E'. apply sapp_eq_nil in E'. destruct E' as (_ & E').
    destruct (prefix d "") eqn:Q; [discriminate|].
    assert (Q' : prefix d "" = true) by (apply prefix_iff; exists b'; now rewrite E').
    congruence.
  - cbn [srfind] in F. destruct (srfind d s) eqn:G; [discriminate|].
    destruct a' as [|z a']; simpl in E'.
    + destruct (prefix d (String y s)) eqn:Q; [discriminate|].
      assert (Q' : prefix d (String y s) = true) by (apply prefix_iff; now exists b').
      congruence.
    + injection E' as -> E'. exact (IHs eq_refl _ _ E').
Qed.

Lemma srfind_some d s n :
  srfind d s = Some n ->
  exists a b, s = a ++ d ++ b /\ String.length a = n /\
    forall a' b', s = a' ++ d ++ b' -> String.length a' <= n.
Proof.
  revert n; induction s as [|c s IH]; intros n; cbn [srfind].
  - destruct (prefix d "") eqn:P; [|discriminate]. intros H; injection H as <-.
    apply prefix_iff in P. destruct P as (r & P).
    exists "", r. split; [exact P|]. split; [reflexivity|].
    intros a' b' E. symmetry in E. apply sapp_eq_nil in E. destruct E as (-> & _).
    simpl; lia.
  - destruct (srfind d s) as [m|] eqn:F.
    + intros H; injection H as <-. destruct (IH m eq_refl) as (a & b & E & L & K).
      exists (String c a), b. simpl. split; [now rewrite E|]. split; [now rewrite L|].
      intros a' b' E'. destruct a' as [|x a']; [simpl; lia|].
      cbn [append] in E'. injection E' as -> E'. specialize (K _ _ E'). simpl. lia.
    + destruct (prefix d (String c s)) eqn:P; [|discriminate].
      intros H; injection H as <-. apply prefix_iff in P. destruct P as (r & P).
      exists "", r. split; [exact P|]. split; [reflexivity|].
      intros a' b' E'. destruct a' as [|x a']; [simpl; lia|]. exfalso.
      clear P. cbn [append] in E'. injection E' as -> E'.
      apply (srfind_none _ _ F). now exists a', b'.
Qed.


(** C48: the extension test holds exactly of the strings ending in the
    extension. *)
Theorem has_extension_iff fname fext :
  has_extension fname fext = true <-> exists stem, fname = stem ++ fext.
Proof.
  unfold has_extension. destruct (Nat.leb_spec (String.length fext) (String.length fname)) as [L|L].
  - destruct (srfind fext fname) as [n|] eqn:F.
    + destruct (srfind_some _ _ _ F) as (a & b & E & La & K). rewrite Nat.eqb_eq. split.
      * intros ->. exists a. rewrite E in La |- *. rewrite !slength_app in La.
        assert (b = "") as -> by (apply slength_0; lia). now rewrite sapp_nil_r.
      * intros (stem & ->).
        specialize (K stem ""). rewrite sapp_nil_r in K. specialize (K eq_refl).
        apply (f_equal String.length) in E. rewrite !slength_app in E.
        rewrite slength_app. lia.
    + split; [discriminate|]. intros (stem & ->). exfalso.
      apply (srfind_none _ _ F). exists stem, "". now rewrite sapp_nil_r.
  - split; [discriminate|]. intros (stem & ->). rewrite slength_app in L. lia.
Qed.

Lemma is_absolute_iff s : is_absolute s = true <-> exists r, s = "/" ++ r.
Proof. apply prefix_iff. Qed.

(** [s] contains a character that is not white space. *)
Definition has_ink (s : string) : Prop :=
  exists a c b, s = a ++ String c b /\
    ~ (nat_of_ascii c = 32 \/ 9 <= nat_of_ascii c <= 13).

Lemma is_blank_iff s : is_blank s = false <-> has_ink s.
Proof.
  induction s as [|c s IH]; cbn [is_blank].
  - split; [discriminate|]. intros (a & x & b & E & _). destruct a; discriminate.
  - rewrite andb_false_iff, IH. unfold is_blank_char. split.
    + intros [H|(a & x & b & -> & N)].
      * exists "", c, s. split; [reflexivity|]. intros D.
        rewrite orb_false_iff, andb_false_iff, Nat.eqb_neq, !Nat.leb_gt in H. lia.
      * exists (String c a), x, b. split; [reflexivity | exact N].
    + intros (a & x & b & E & N). destruct a as [|y a]; simpl in E; injection E as -> ->.
      * left. rewrite orb_false_iff, andb_false_iff, Nat.eqb_neq, !Nat.leb_gt. lia.
      * right. exists a, x, b. auto.
Qed.

(** C48: a path counts as set exactly when it has a visible character and
    does not end in "/". *)
Theorem filepath_is_set_iff path :
  if_filepath_is_set path = true <->
  has_ink path /\ ~ exists dir, path = dir ++ "/".
Proof.
  unfold if_filepath_is_set. destruct (String.eqb_spec path "") as [->|N].
  - split; [discriminate|]. intros ((a & x & b & E & _) & _). destruct a; discriminate.
  - destruct (has_extension path "/") eqn:H.
    + split; [discriminate|]. intros (_ & K). exfalso. apply K, has_extension_iff, H.
    + rewrite negb_true_iff, is_blank_iff. split; [|tauto]. intros K. split; [exact K|].
      intros D. apply has_extension_iff in D. congruence.
Qed.

(* ------------------------------------------------------------------ *)
(** * C48: splitting and joining *)

(** [s] cut at the first delimiter, again and again: the pieces and what is
    left when no delimiter remains. *)
Inductive segments (d : string) : string -> list string -> string -> Prop :=
| seg_end s : ~ occurs d s -> segments d s [] s
| seg_cut s a b ps rest :
    first_at d s a b -> segments d b ps rest -> segments d s (a :: ps) rest.

Lemma segments_det d s ps rest ps' rest' :
  segments d s ps rest -> segments d s ps' rest' -> ps = ps' /\ rest = rest'.
Proof.
  intros H; revert ps' rest'. induction H as [s N|s a b ps rest F H IH]; intros ps' rest' H'.
  - inversion H' as [s' N'|s' a' b' qs r' F' H'']; subst; [auto|].
    exfalso; apply N. destruct F' as (-> & _). now exists a', b'.
  - inversion H' as [s' N'|s' a' b' qs r' F' H'']; subst.
    + exfalso; apply N'. destruct F as (-> & _). now exists a, b.
    + destruct (first_at_det _ _ _ _ _ _ F F') as (-> & ->).
      destruct (IH _ _ H'') as (-> & ->). auto.
Qed.

Lemma cut_loop_segments d fuel s :
  d <> "" -> String.length s < fuel ->
  let (ps, rest) := cut_loop fuel d s in segments d s ps rest.
Proof.
  intros D. revert s; induction fuel as [|f IH]; intros s L; [lia|]. cbn [cut_loop].
  destruct (sfind d s) as [n|] eqn:F.
  - destruct (sfind_some _ _ _ F) as (FA & K).
    assert (Ld : String.length d <> 0) by (intros E; apply D, slength_0, E).
    assert (Ls : String.length (sdrop (n + String.length d) s) < f).
    { destruct FA as (E & _). apply (f_equal String.length) in E.
      rewrite !slength_app in E. lia. }
    specialize (IH _ Ls). destruct (cut_loop f d _) as (ps, rest).
    econstructor; eauto.
  - constructor. now apply sfind_none.
Qed.

(** C48: the parts of a non-empty string are the stretches between
    successive first occurrences of the delimiter, followed by what is left
    if that is not empty. *)
Theorem split_spec s d ps rest :
  s <> "" -> d <> "" -> segments d s ps rest ->
  split_string s d = if rest =? "" then ps else (ps ++ [rest])%list.
Proof.
  intros S0 D H. unfold split_string.
  destruct (String.eqb_spec s ""); [contradiction|].
  destruct (String.eqb_spec d ""); [contradiction|].
  pose proof (cut_loop_segments d (S (String.length s)) s D (Nat.lt_succ_diag_r _)) as C.
  destruct (cut_loop _ d s) as (qs, r). destruct (segments_det _ _ _ _ _ _ H C) as (-> & ->).
  reflexivity.
Qed.

(** Every string can be cut, so [split_spec] speaks about all of them. *)
Theorem segments_exist s d : d <> "" -> exists ps rest, segments d s ps rest.
Proof.
  intros D. pose proof (cut_loop_segments d (S (String.length s)) s D (Nat.lt_succ_diag_r _)) as C.
  destruct (cut_loop _ d s) as (qs, r). eauto.
Qed.

Lemma join_cons x y t d : join_strings (x :: y :: t) d = x ++ d ++ join_strings (y :: t) d.
Proof. reflexivity. Qed.

Lemma join_snoc ps r d :
  join_strings (ps ++ [r]) d = fold_right (fun p acc => p ++ d ++ acc) r ps.
Proof.
  induction ps as [|p ps IH]; [reflexivity|]. cbn [fold_right]. rewrite <- IH.
  destruct ps; reflexivity.
Qed.

Lemma segments_fold d s ps rest :
  segments d s ps rest -> fold_right (fun p acc => p ++ d ++ acc) rest ps = s.
Proof.
  induction 1 as [s N|s a b ps rest F H IH]; [reflexivity|]. cbn [fold_right].
  rewrite IH. now destruct F as (-> & _).
Qed.

Lemma join_fold ps d :
  ps <> [] -> join_strings ps d ++ d = fold_right (fun p acc => p ++ d ++ acc) "" ps.
Proof.
  induction ps as [|p ps IH]; [congruence|]. intros _. destruct ps as [|q ps].
  - simpl. now rewrite sapp_nil_r.
  - rewrite join_cons. cbn [fold_right]. rewrite !sapp_assoc. rewrite IH by discriminate.
    reflexivity.
Qed.

(** C48: joining the parts of a string gives back the string, short of one
    final delimiter when the cutting used up the whole string. *)
Theorem join_split s d :
  (exists ps rest, segments d s ps rest /\ rest <> "") \/ s = "" \/ d = "" ->
  join_strings (split_string s d) d = s.
Proof.
  intros H.
  destruct (String.eqb_spec s "") as [->|S0]; [reflexivity|].
  destruct (String.eqb_spec d "") as [->|D].
  { unfold split_string. destruct (String.eqb_spec s ""); [contradiction | reflexivity]. }
  destruct H as [(ps & rest & H & R)|[?|?]]; try contradiction.
  rewrite (split_spec s d ps rest S0 D H).
  destruct (String.eqb_spec rest ""); [contradiction|].
  rewrite join_snoc. exact (segments_fold _ _ _ _ H).
Qed.

Theorem join_split_trailing s d ps :
  s <> "" -> d <> "" -> segments d s ps "" ->
  join_strings (split_string s d) d ++ d = s.
Proof.
  intros S0 D H. rewrite (split_spec s d ps "" S0 D H). cbn [String.eqb].
  rewrite join_fold; [exact (segments_fold _ _ _ _ H)|].
  intros ->. inversion H; subst. contradiction.
Qed.

(** C48, as stated, fails: a final delimiter is lost. *)
Theorem join_split_refuted :
  exists s d, join_strings (split_string s d) d <> s.
Proof. exists "a.dat::b.dat::", "::". vm_compute. discriminate. Qed.

(** Parts that survive joining: followed by the delimiter, the first
    delimiter is that one. *)
Definition clean (d p : string) : Prop := first_at d (p ++ d) p "".

Lemma clean_first d p r : clean d p -> first_at d (p ++ d ++ r) p r.
Proof.
  intros (_ & L). split; [reflexivity|]. intros a' b' E.
  destruct (le_lt_dec (String.length p) (String.length a')) as [K|K]; [exact K|].
  (* the occurrence ends inside p ++ d *)
  assert (E1 : (p ++ d) ++ r = (a' ++ d) ++ b') by (rewrite !sapp_assoc; exact E).
  destruct (sapp_split (a' ++ d) b' (p ++ d) r (eq_sym E1)) as (e & H & _).
  { rewrite !slength_app. lia. }
  apply (L a' e). now rewrite H, sapp_assoc.
Qed.

(** C48: parts without stray delimiters come back from their joint string. *)
Theorem split_join d ps last :
  d <> "" -> Forall (clean d) ps -> last <> "" -> ~ occurs d last ->
  split_string (join_strings (ps ++ [last]) d) d = (ps ++ [last])%list.
Proof.
  intros D C L0 L.
  assert (H : segments d (join_strings (ps ++ [last]) d) ps last).
  { rewrite join_snoc. induction C as [|p ps Cp C IH]; cbn [fold_right].
    - now constructor.
    - apply seg_cut with (2 := IH). now apply clean_first. }
  assert (N : join_strings (ps ++ [last]) d <> "").
  { rewrite join_snoc. destruct ps as [|p ps]; [exact L0|]. cbn [fold_right]. intros E.
    apply sapp_eq_nil in E. destruct E as (_ & E). apply sapp_eq_nil in E. tauto. }
  rewrite (split_spec _ d ps last N D H).
  destruct (String.eqb_spec last ""); [contradiction | reflexivity].
Qed.

(** A part followed by a delimiter starting with another part of it is not
    clean: joining "a:" and "b" and splitting again moves the colon. *)
Theorem split_join_refuted :
  exists ps, Forall (fun p => p <> "" /\ ~ occurs "::" p) ps /\
    split_string (join_strings ps "::") "::" <> ps.
Proof.
  exists ["a:"; "b"]. split; [|vm_compute; discriminate].
  repeat constructor; try discriminate; apply sfind_none; reflexivity.
Qed.

Example split_case :
  split_string "sim1.dat::sim2.dat" "::" = ["sim1.dat"; "sim2.dat"] /\
  split_string "a::::b" "::" = ["a"; ""; "b"] /\
  clean "::" "sim1.dat" /\
  has_extension "cat.h5" ".h5" = true /\ has_extension "cat.h5.txt" ".h5" = false.
Proof.
  repeat split; try reflexivity. intros a' b' E.
  assert (F : sfind "::" ("sim1.dat" ++ "::") = Some 8) by reflexivity.
  destruct (sfind_some _ _ _ F) as ((_ & L) & _). exact (L _ _ E).
Qed.

(* ------------------------------------------------------------------ *)
(** * C49: environment variables *)

(** The character [c] does not occur in [s]. *)
Fixpoint free_of (c : ascii) (s : string) : Prop :=
  match s with
  | EmptyString => True
  | String x t => x <> c /\ free_of c t
  end.

(** [s] starts with a reference to [n], followed by [r]. *)
Definition ref_here (s n r : string) : Prop :=
  s = "${" ++ n ++ "}" ++ r /\ n <> "" /\ free_of rbrace n.

Lemma take_name_spec s n r :
  take_name s = Some (n, r) <-> s = n ++ "}" ++ r /\ free_of rbrace n.
Proof.
  revert n r; induction s as [|c s IH]; intros n r; cbn [take_name].
  - split; [discriminate|]. intros (E & _). destruct n; discriminate.
  - destruct (Ascii.eqb_spec c rbrace) as [->|N].
    + split.
      * intros H; injection H as <- <-. now split.
      * intros (E & F). destruct n as [|x n]; simpl in E.
        -- injection E as E2. now subst.
        -- injection E as E1 E2. destruct F as (F & _). congruence.
    + destruct (take_name s) as [[m q]|] eqn:T.
      * split.
        -- intros H; injection H as <- <-. destruct (proj1 (IH m q) eq_refl) as (-> & F).
           now split.
        -- intros (E & F). destruct n as [|x n]; simpl in E; injection E as E1 E2.
           ++ exfalso; apply N; rewrite E1; reflexivity.
           ++ destruct F as (_ & F). assert (K := proj2 (IH n r) (conj E2 F)).
              injection K as -> ->. now subst.
      * split; [discriminate|]. intros (E & F).
        destruct n as [|x n]; simpl in E; injection E as E1 E2.
        -- exfalso; apply N; rewrite E1; reflexivity.
        -- destruct F as (_ & F). assert (K := proj2 (IH n r) (conj E2 F)). discriminate.
Qed.

Lemma match_here_spec s n r : match_here s = Some (n, r) <-> ref_here s n r.
Proof.
  unfold ref_here. destruct s as [|c1 [|c2 t]]; cbn [match_here].
  - split; [discriminate | intros (E & _); discriminate].
  - split; [discriminate | intros (E & _); simpl in E; discriminate].
  - destruct (Ascii.eqb_spec c1 dollar) as [->|N1]; cbn [andb].
    + destruct (Ascii.eqb_spec c2 lbrace) as [->|N2].
      * destruct (take_name t) as [[m q]|] eqn:T.
        -- destruct (String.eqb_spec m "") as [->|M].
           ++ split; [discriminate|]. intros (E & K & F). cbn in E. injection E as E.
              assert (T' : take_name t = Some (n, r)) by (apply take_name_spec; split; assumption).
              rewrite T in T'. injection T' as <- <-. contradiction.
           ++ split.
              ** intros H; injection H as <- <-. apply take_name_spec in T.
                 destruct T as (-> & F). now repeat split.
              ** intros (E & K & F). cbn in E. injection E as E.
                 assert (T' : take_name t = Some (n, r)) by (apply take_name_spec; split; assumption).
                 now rewrite T in T'.
        -- split; [discriminate|]. intros (E & K & F). cbn in E. injection E as E.
           assert (T' : take_name t = Some (n, r)) by (apply take_name_spec; split; assumption).
           congruence.
      * split; [discriminate|]. intros (E & _). cbn in E. injection E as E1 E2.
        exfalso; exact (N2 E1).
    + split; [discriminate|]. intros (E & _). cbn in E. injection E as E1 E2.
      exfalso; exact (N1 E1).
Qed.

(** The leftmost reference in [s]: text [p], name [n], remaining text [r]. *)
Definition first_ref (s p n r : string) : Prop :=
  (exists t, s = p ++ t /\ ref_here t n r) /\
  forall p' t n' r', s = p' ++ t -> ref_here t n' r' ->
    String.length p <= String.length p'.

Definition no_ref (s : string) : Prop :=
  forall p t n r, s = p ++ t -> ~ ref_here t n r.

Lemma regex_search_some s p n r : regex_search s = Some (p, n, r) -> first_ref s p n r.
Proof.
  revert p n r; induction s as [|c s IH]; intros p n r.
  - cbn. discriminate.
  - change (regex_search (String c s)) with
      (match match_here (String c s) with
       | Some (n, r) => Some ("", n, r)
       | None => match regex_search s with
                 | Some (p, n, r) => Some (String c p, n, r)
                 | None => None
                 end
       end).
    destruct (match_here (String c s)) as [[n0 r0]|] eqn:M.
    + intros H; injection H as <- <- <-. apply match_here_spec in M. split.
      * exists (String c s). split; [reflexivity | exact M].
      * intros; simpl; lia.
    + destruct (regex_search s) as [[[p0 n0] r0]|] eqn:R; [|discriminate].
      intros H; injection H as <- <- <-. destruct (IH _ _ _ eq_refl) as ((t & -> & H) & L).
      split.
      * exists t. split; [reflexivity | exact H].
      * intros p' t' n' r' E H'. destruct p' as [|x p'].
        -- simpl in E. subst t'. apply match_here_spec in H'. simpl in M, H'. congruence.
        -- simpl in E. injection E as -> E. simpl. specialize (L _ _ _ _ E H'). lia.
Qed.

Lemma regex_search_none s : regex_search s = None -> no_ref s.
Proof.
  induction s as [|c s IH].
  - intros _ p t n r E (E' & _). symmetry in E. apply sapp_eq_nil in E.
    destruct E as (_ & ->). discriminate.
  - change (regex_search (String c s)) with
      (match match_here (String c s) with
       | Some (n, r) => Some ("", n, r)
       | None => match regex_search s with
                 | Some (p, n, r) => Some (String c p, n, r)
                 | None => None
                 end
       end).
    destruct (match_here (String c s)) as [[n0 r0]|] eqn:M; [discriminate|].
    destruct (regex_search s) as [[[p0 n0] r0]|] eqn:R; [discriminate|].
    intros _ p t n r E H. destruct p as [|x p].
    + simpl in E. subst t. apply match_here_spec in H. simpl in M, H. congruence.
    + simpl in E. injection E as -> E. exact (IH eq_refl _ _ _ _ E H).
Qed.

Lemma first_ref_det s p n r p' n' r' :
  first_ref s p n r -> first_ref s p' n' r' -> p = p' /\ n = n' /\ r = r'.
Proof.
  intros ((t & E & H) & L) ((t' & E' & H') & L').
  pose proof (L _ _ _ _ E' H') as A. pose proof (L' _ _ _ _ E H) as B.
  rewrite E in E'. destruct (sapp_inv _ _ _ _ E') as (-> & ->); [lia|].
  apply match_here_spec in H, H'. rewrite H in H'. injection H' as -> ->. auto.
Qed.

(** What expansion should give: the leftmost reference is replaced by its
    value if the variable is set and kept otherwise, and the text after it
    (not the value) is treated in the same way. *)
Inductive expands (env : string -> option string) : string -> string -> Prop :=
| ex_none s : no_ref s -> expands env s s
| ex_set s p n r v t :
    first_ref s p n r -> env n = Some v -> expands env r t ->
    expands env s (p ++ v ++ t)
| ex_unset s p n r t :
    first_ref s p n r -> env n = None -> expands env r t ->
    expands env s (p ++ ("${" ++ n ++ "}") ++ t).

Lemma expand_loop_spec env fuel s :
  String.length s < fuel -> expands env s (expand_loop fuel env s).
Proof.
  revert s; induction fuel as [|f IH]; intros s L; [lia|]. cbn [expand_loop].
  destruct (regex_search s) as [[[p n] r]|] eqn:R.
  - apply regex_search_some in R.
    assert (Lr : String.length r < f).
    { destruct R as ((t & -> & -> & _) & _). rewrite !slength_app in L. simpl in L.
      rewrite ?slength_app in L. simpl in L. lia. }
    specialize (IH r Lr). destruct (env n) eqn:E.
    + eapply ex_set; eauto.
    + eapply ex_unset; eauto.
  - constructor. now apply regex_search_none.
Qed.

(** C49: expansion of every path terminates with exactly the text described
    by [expands], which is unique. *)
Theorem expand_spec env s t : expand_envar env s = t <-> expands env s t.
Proof.
  assert (H : expands env s (expand_envar env s)) by (apply expand_loop_spec; lia).
  split; [now intros <-|]. intros H'.
  revert H. generalize (expand_envar env s) as u.
  induction H' as [s N|s p n r v t F E H' IH|s p n r t F E H' IH]; intros u H.
  - inversion H as [s' N'|s' p' n' r' v' t' F' E' H''|s' p' n' r' t' F' E' H'']; subst;
      [reflexivity| |];
      destruct F' as ((x & -> & F') & _); exfalso; exact (N _ _ _ _ eq_refl F').
  - inversion H as [s' N'|s' p' n' r' v' t' F' E' H''|s' p' n' r' t' F' E' H'']; subst.
    + destruct F as ((x & E0 & F) & _). exfalso. exact (N' _ _ _ _ E0 F).
    + destruct (first_ref_det _ _ _ _ _ _ _ F F') as (<- & <- & <-).
      rewrite E in E'. injection E' as <-. now rewrite (IH _ H'').
    + destruct (first_ref_det _ _ _ _ _ _ _ F F') as (<- & <- & <-). congruence.
  - inversion H as [s' N'|s' p' n' r' v' t' F' E' H''|s' p' n' r' t' F' E' H'']; subst.
    + destruct F as ((x & E0 & F) & _). exfalso. exact (N' _ _ _ _ E0 F).
    + destruct (first_ref_det _ _ _ _ _ _ _ F F') as (<- & <- & <-). congruence.
    + destruct (first_ref_det _ _ _ _ _ _ _ F F') as (<- & <- & <-). now rewrite (IH _ H'').
Qed.

Lemma no_ref_dollar s : free_of dollar s -> no_ref s.
Proof.
  intros F p t n r -> (-> & _). induction p as [|x p IH]; simpl in F.
  - now destruct F.
  - apply IH, F.
Qed.

(** A path as a sequence of plain pieces and references. *)
Inductive token := Txt (s : string) | Ref (n : string).

Definition written (k : token) : string :=
  match k with Txt s => s | Ref n => "${" ++ n ++ "}" end.
Definition value (env : string -> option string) (k : token) : string :=
  match k with
  | Txt s => s
  | Ref n => match env n with Some v => v | None => "${" ++ n ++ "}" end
  end.
Definition wellformed (k : token) : Prop :=
  match k with
  | Txt s => free_of dollar s
  | Ref n => n <> "" /\ free_of rbrace n
  end.
Definition spell (f : token -> string) (ks : list token) : string :=
  fold_right (fun k acc => f k ++ acc) "" ks.

Lemma first_ref_skip s p n r c :
  first_ref s p n r -> c <> dollar -> first_ref (String c s) (String c p) n r.
Proof.
  intros ((t & -> & H) & L) C. split.
  - exists t. now split.
  - intros p' t' n' r' E H'. destruct p' as [|x p'].
    + simpl in E. destruct H' as (-> & _). cbn in E. injection E as E1 _. exfalso; exact (C E1).
    + simpl in E. injection E as -> E. simpl. specialize (L _ _ _ _ E H'). lia.
Qed.

Lemma expands_text env u s t :
  free_of dollar u -> expands env s t -> expands env (u ++ s) (u ++ t).
Proof.
  intros F H. induction u as [|c u IH]; simpl; [exact H|].
  destruct F as (C & F). specialize (IH F).
  remember (u ++ s) as us. remember (u ++ t) as ut. clear -IH C.
  destruct IH as [s N|s p n r v t F E H|s p n r t F E H].
  - constructor. intros p t n r E H. destruct p as [|x p].
    + simpl in E. destruct H as (-> & _). cbn in E. injection E as E1 _. exfalso; exact (C E1).
    + simpl in E. injection E as _ E. exact (N _ _ _ _ E H).
  - change (String c (p ++ v ++ t)) with (String c p ++ v ++ t).
    eapply ex_set; eauto using first_ref_skip.
  - change (String c (p ++ ("${" ++ n ++ "}") ++ t)) with (String c p ++ ("${" ++ n ++ "}") ++ t).
    eapply ex_unset; eauto using first_ref_skip.
Qed.

(** C49: in a path made of "$"-free text and references, every reference to
    a set variable becomes its value (which is not expanded again), the
    others and the text stay as they are. *)
Theorem expand_tokens env ks :
  Forall wellformed ks -> expand_envar env (spell written ks) = spell (value env) ks.
Proof.
  intros W. apply expand_spec. induction W as [|k ks Wk W IH].
  - constructor. apply no_ref_dollar. exact I.
  - cbn [spell fold_right]. fold (spell written ks) (spell (value env) ks).
    destruct k as [s|n]; cbn [written value].
    + apply expands_text; assumption.
    + assert (F : first_ref (("${" ++ n ++ "}") ++ spell written ks) "" n (spell written ks)).
      { split.
        - eexists. split; [reflexivity|]. split; [now rewrite !sapp_assoc | exact Wk].
        - intros; simpl; lia. }
      destruct (env n) as [v|] eqn:E.
      * exact (ex_set env _ "" n _ v _ F E IH).
      * exact (ex_unset env _ "" n _ _ F E IH).
Qed.

(** C49: a path without "$" is unchanged. *)
Theorem expand_plain env s : free_of dollar s -> expand_envar env s = s.
Proof. intros F. apply expand_spec. constructor. now apply no_ref_dollar. Qed.

(** C49, as stated, fails: a reference inside an unset one is skipped with
    it, although its variable is set. *)
Theorem expand_nested_refuted :
  exists env s p r v,
    s = p ++ "${HOME}" ++ r /\ env "HOME" = Some v /\ expand_envar env s = s.
Proof.
  exists (fun n => if n =? "HOME" then Some "/home/u" else None).
  exists "${X${HOME}/cat", "${X", "/cat", "/home/u". vm_compute. auto.
Qed.

(** Nor is expansion a projection: a second call expands what the first put
    together. *)
Theorem expand_twice_refuted :
  exists env s, expand_envar env (expand_envar env s) <> expand_envar env s.
Proof.
  exists (fun n => if n =? "A" then Some "${B}" else if n =? "B" then Some "b" else None), "${A}".
  vm_compute. discriminate.
Qed.

Example expand_case :
  let env := fun n => if n =? "HOME" then Some "/home/u"
                      else if n =? "A" then Some "${HOME}" else None in
  expand_envar env "${HOME}/a/${A}/${NONE}/$x/{}${}" = "/home/u/a/${HOME}/${NONE}/$x/{}${}" /\
  wellformed (Ref "HOME").
Proof. vm_compute. repeat split; discriminate. Qed.

Print Assumptions has_extension_iff.
Print Assumptions filepath_is_set_iff.
Print Assumptions split_spec.
Print Assumptions segments_exist.
Print Assumptions join_split.
Print Assumptions join_split_trailing.
Print Assumptions join_split_refuted.
Print Assumptions split_join.
Print Assumptions split_join_refuted.
Print Assumptions expand_spec.
Print Assumptions expand_tokens.
Print Assumptions expand_plain.
Print Assumptions expand_nested_refuted.
Print Assumptions expand_twice_refuted.
