(* What the Python logger writes (C122): messages, C++ stages, level tags and
   captured warnings. *)
From Coq Require Import String Ascii List Arith ZArith Reals Bool Lia.
From Verif Require Import Base StrModel Dec MonitorModel PyLogModel.
From Verif Require StrProps FileNameProps.
Import ListNotations.
Local Open Scope string_scope.

(* ------------------------------------------------------------------ *)
(** * Vocabulary *)

(** A text without braces. *)
Definition no_brace (s : string) : Prop :=
  Forall (fun c => c <> "{"%char /\ c <> "}"%char) (list_ascii_of_string s).

(** A text of blanks only. *)
Definition blank_text (s : string) : Prop :=
  Forall (fun c => is_blank_char c = true) (list_ascii_of_string s).

(** A text neither starting nor ending with a blank. *)
Definition trimmed (s : string) : Prop :=
  (forall c t, s = String c t -> is_blank_char c = false)
  /\ (forall c t, s = t ++ String c "" -> is_blank_char c = false).

(** How a warning should read. *)
Definition warning_text (message category filename : string) (lineno : Z)
    (source : option string) : string :=
  message ++ " (" ++ filename ++ ":" ++ to_string lineno ++ ":" ++ category
  ++ match source with
     | None => ""
     | Some s => " --> " ++ dquote ++ s ++ dquote
     end
  ++ ")".

(** The source line a warning has: the one given with it or the one read from
    the file; an empty one counts as none. *)
Definition source_of (filename : string) (lineno : Z) (line : option string)
    (cached : string -> Z -> option string) (src : option string) : Prop :=
  match (match line with Some l => Some l | None => cached filename lineno end)
  with
  | None => src = None
  | Some "" => src = None
  | Some l => exists p q s, src = Some s /\ l = p ++ s ++ q
                /\ blank_text p /\ blank_text q /\ trimmed s
  end.

(** Equal but for the case of ASCII letters, the second in lower case. *)
Definition same_but_case (s t : string) : Prop :=
  Forall2 (fun a b => a = b \/ (65 <= nat_of_ascii a <= 90
                        /\ nat_of_ascii b = nat_of_ascii a + 32)%nat)
    (list_ascii_of_string s) (list_ascii_of_string t).

(* ------------------------------------------------------------------ *)
(** * Strings *)

Lemma app_assoc_s (a b c : string) : (a ++ b) ++ c = a ++ (b ++ c).
Proof. induction a; simpl; congruence. Qed.

Lemma app_nil_s (a : string) : a ++ "" = a.
Proof. induction a; simpl; congruence. Qed.

Lemma len_app (a b : string) :
  String.length (a ++ b) = (String.length a + String.length b)%nat.
Proof. induction a; simpl; congruence. Qed.

Lemma app_inj_l (a b c : string) : a ++ b = a ++ c -> b = c.
Proof. induction a; simpl; intros E; [exact E | inversion E; auto]. Qed.

Lemma list_app (a b : string) :
  list_ascii_of_string (a ++ b) = (list_ascii_of_string a ++ list_ascii_of_string b)%list.
Proof. induction a; simpl; congruence. Qed.

Lemma bind_bind {A B D} (x : res A) (f : A -> res B) (g : B -> res D) :
  bind (bind x f) g = bind x (fun a => bind (f a) g).
Proof. destruct x; reflexivity. Qed.

(** Prefix a result. *)
Definition pre (a : string) (r : res string) : res string :=
  t <- r ;; Ok (a ++ t).

Lemma pre_pre a b r : pre a (pre b r) = pre (a ++ b) r.
Proof. destruct r; simpl; [rewrite app_assoc_s|]; reflexivity. Qed.

Lemma pre_nil r : pre "" r = r.
Proof. destruct r; reflexivity. Qed.

(** Brace-free text is copied. *)
Lemma format_plain s r args : no_brace s ->
  str_format (s ++ r) args = pre s (str_format r args).
Proof.
  unfold no_brace. induction s as [|c s IH]; cbn [append list_ascii_of_string].
  - intros _. now rewrite pre_nil.
  - intros H. inversion H as [|? ? [H1 H2] H3]; subst. cbn [str_format].
    destruct (Ascii.eqb_spec c lbrace) as [E|_]; [now contradiction H1|].
    destruct (Ascii.eqb_spec c rbrace) as [E|_]; [now contradiction H2|].
    rewrite (IH H3). destruct (str_format r args); reflexivity.
Qed.

(** Escaped text is copied, unescaped. *)
Lemma format_escaped m r args :
  str_format (double_char rbrace (double_char lbrace m) ++ r) args
  = pre m (str_format r args).
Proof.
  induction m as [|c m IH]; cbn [double_char append].
  - now rewrite pre_nil.
  - destruct (Ascii.eqb_spec c lbrace) as [->|N1].
    + cbn [double_char]. change (Ascii.eqb lbrace rbrace) with false.
      cbn iota. cbn [double_char]. change (Ascii.eqb lbrace rbrace) with false.
      cbn iota. cbn [append str_format].
      change (Ascii.eqb lbrace lbrace) with true. cbn iota.
      rewrite IH. destruct (str_format r args); reflexivity.
    + cbn [double_char]. destruct (Ascii.eqb_spec c rbrace) as [->|N2].
      * cbn [append str_format].
        change (Ascii.eqb rbrace lbrace) with false.
        change (Ascii.eqb rbrace rbrace) with true. cbn iota.
        rewrite IH. destruct (str_format r args); reflexivity.
      * cbn [append str_format].
        destruct (Ascii.eqb_spec c lbrace) as [E|_]; [contradiction|].
        destruct (Ascii.eqb_spec c rbrace) as [E|_]; [contradiction|].
        rewrite IH. destruct (str_format r args); reflexivity.
Qed.

(** The text before the source line is put in. *)
Definition half_text (m c f : string) (n : Z) : string :=
  double_char rbrace (double_char lbrace m) ++ " (" ++ f ++ ":" ++ to_string n
  ++ ":" ++ c ++ "{})".

Lemma first_format m f n c :
  str_format "{} ({}:{}:{}{{}})"
    [double_char rbrace (double_char lbrace m); f; to_string n; c]
  = Ok (half_text m c f n).
Proof. unfold half_text. cbn -[double_char to_string]. reflexivity. Qed.

Definition source_text (src : option string) : string :=
  match src with
  | None => ""
  | Some s => " --> " ++ dquote ++ s ++ dquote
  end.

Lemma warning_half m c f n line cached :
  exists src,
    format_warning m c f n line cached
    = str_format (half_text m c f n) [source_text src]
    /\ src = match (match line with Some l => Some l | None => cached f n end)
             with
             | None | Some "" => None
             | Some l => Some (strip l)
             end.
Proof.
  unfold format_warning. rewrite first_format. cbn [bind].
  destruct line as [l|].
  - destruct l as [|a l]; eexists; (split; [|reflexivity]); reflexivity.
  - destruct (cached f n) as [l|]; [destruct l as [|a l]|];
      eexists; (split; [|reflexivity]); reflexivity.
Qed.

(* ------------------------------------------------------------------ *)
(** * Digits and blanks *)

Lemma lstrip_spec s : exists p, s = p ++ lstrip s /\ blank_text p
  /\ (forall c t, lstrip s = String c t -> is_blank_char c = false).
Proof.
  induction s as [|c s (p & E & B & H)]; cbn [lstrip].
  - exists "". repeat split; [constructor | discriminate].
  - destruct (is_blank_char c) eqn:Ec.
    + exists (String c p). cbn [append]. repeat split.
      * congruence.
      * unfold blank_text. cbn. constructor; [exact Ec | exact B].
      * exact H.
    + exists "". repeat split; [constructor|].
      intros c' t E'. inversion E'; subst; exact Ec.
Qed.

Lemma rstrip_spec s : exists q, s = rstrip s ++ q /\ blank_text q
  /\ (forall c t, rstrip s = t ++ String c "" -> is_blank_char c = false).
Proof.
  induction s as [|c s (q & E & B & H)]; cbn [rstrip].
  - exists "". repeat split; [constructor|]. intros c t E. destruct t; discriminate.
  - destruct (rstrip s) as [|d u] eqn:Er.
    + cbn [append] in E. subst q. destruct (is_blank_char c) eqn:Ec.
      * exists (String c s). repeat split.
        -- unfold blank_text. cbn. constructor; [exact Ec | exact B].
        -- intros c' t E'. destruct t; discriminate.
      * exists s. repeat split; [exact B|].
        intros c' t E'. destruct t as [|x t]; cbn in E'.
        -- inversion E'; subst; exact Ec.
        -- inversion E'. destruct t; discriminate.
    + exists q. repeat split.
      * cbn [append] in *. congruence.
      * exact B.
      * intros c' t E'. destruct t as [|x t]; cbn in E'; [discriminate|].
        inversion E'; subst. eapply H; eauto.
Qed.

Lemma strip_spec l : exists p q, l = p ++ strip l ++ q
  /\ blank_text p /\ blank_text q /\ trimmed (strip l).
Proof.
  unfold strip. destruct (lstrip_spec l) as (p & E & Bp & Hp).
  destruct (rstrip_spec (lstrip l)) as (q & E' & Bq & Hq).
  exists p, q. repeat split; try assumption.
  - now rewrite <- E'.
  - intros c t Ec. rewrite Ec in E'. cbn in E'. eapply Hp; eauto.
Qed.

(* ------------------------------------------------------------------ *)
(** * Warnings *)

Lemma source_is f n line cached :
  source_of f n line cached
    match (match line with Some l => Some l | None => cached f n end) with
    | None | Some "" => None
    | Some l => Some (strip l)
    end.
Proof.
  unfold source_of.
  destruct (match line with Some l => Some l | None => cached f n end)
    as [[|a l]|]; try reflexivity.
  destruct (strip_spec (String a l)) as (p & q & H).
  exists p, q, (strip (String a l)). split; [reflexivity | exact H].
Qed.

Lemma digits_plain n : no_brace (to_string n).
Proof.
  assert (H1 : StrProps.free_of "{" (to_string n))
    by (apply FileNameProps.to_string_free; [reflexivity | discriminate]).
  assert (H2 : StrProps.free_of "}" (to_string n))
    by (apply FileNameProps.to_string_free; [reflexivity | discriminate]).
  revert H1 H2. unfold no_brace. generalize (to_string n) as s.
  induction s as [|c s IH]; cbn; intros H1 H2; constructor.
  - tauto.
  - tauto.
Qed.

Lemma no_brace_app a b : no_brace a -> no_brace b -> no_brace (a ++ b).
Proof. unfold no_brace. rewrite list_app. intros Ha Hb. apply Forall_app. now split. Qed.

Lemma plain_colon : no_brace ":".
Proof. repeat constructor; discriminate. Qed.

(** A warning from a file without braces in its name reads as it should,
    whatever its message and source line contain. *)
Theorem warning_verbatim m c f n line cached :
  no_brace f -> no_brace c ->
  exists src, source_of f n line cached src
    /\ format_warning m c f n line cached = Ok (warning_text m c f n src).
Proof.
  intros Hf Hc. destruct (warning_half m c f n line cached) as (src & E & Es).
  exists src. split; [rewrite Es; apply source_is|].
  rewrite E. unfold half_text. rewrite format_escaped.
  rewrite format_plain by (repeat constructor; discriminate).
  rewrite format_plain by exact Hf.
  rewrite format_plain by exact plain_colon.
  rewrite format_plain by apply digits_plain.
  rewrite format_plain by exact plain_colon.
  rewrite format_plain by exact Hc.
  reflexivity.
Qed.

(** ** File names with braces *)

(** The end of the text: its field is never taken by what precedes it. *)
Lemma end_needs_argument k : forall u v, (String.length u <= k)%nat ->
  no_brace v ->
  ~ exists t, str_format (u ++ ":" ++ v ++ "{})") [] = Ok t.
Proof.
  induction k as [|k IH]; intros u v Hk Hv (t & E).
  - destruct u as [|c u]; [|cbn in Hk; lia]. cbn [append] in E.
    change (String ":" (v ++ "{})")) with (":" ++ (v ++ "{})")) in E.
    rewrite format_plain in E by exact plain_colon.
    rewrite format_plain in E by exact Hv. discriminate E.
  - destruct u as [|c u].
    { apply (IH "" v); [cbn; lia | exact Hv | now exists t]. }
    cbn [append String.length] in *. cbn [str_format] in E.
    destruct (Ascii.eqb c lbrace).
    + destruct u as [|d u]; [discriminate E|]. cbn [append String.length] in *.
      destruct (Ascii.eqb d lbrace).
      * apply bind_ok in E. destruct E as (w & E & _).
        apply (IH u v); [lia | exact Hv | now exists w].
      * destruct (Ascii.eqb d rbrace); discriminate.
    + destruct (Ascii.eqb c rbrace).
      * destruct u as [|d u]; [discriminate E|]. cbn [append String.length] in *.
        destruct (Ascii.eqb d rbrace); [|discriminate].
        apply bind_ok in E. destruct E as (w & E & _).
        apply (IH u v); [lia | exact Hv | now exists w].
      * apply bind_ok in E. destruct E as (w & E & _).
        apply (IH u v); [lia | exact Hv | now exists w].
Qed.

(** Each pair of braces that is accepted makes the result shorter. *)
Lemma end_length k : forall u v a t, (String.length u <= k)%nat ->
  no_brace v ->
  str_format (u ++ ":" ++ v ++ "{})") [a] = Ok t ->
  (String.length t
     <= String.length u + String.length v + String.length a + 2)%nat
  /\ (~ no_brace u ->
      String.length t
      < String.length u + String.length v + String.length a + 2)%nat.
Proof.
  induction k as [|k IH]; intros u v a t Hk Hv E.
  - destruct u as [|c u]; [|cbn in Hk; lia]. cbn [append] in E.
    change (String ":" (v ++ "{})")) with (":" ++ (v ++ "{})")) in E.
    rewrite format_plain in E by exact plain_colon.
    rewrite format_plain in E by exact Hv. cbn in E. inversion E; subst.
    cbn [String.length]. rewrite !len_app. cbn [String.length].
    split; [lia|]. intros H. contradiction H. constructor.
  - destruct u as [|c u]; [apply (IH "" v a t); [cbn; lia | assumption..]|].
    cbn [append String.length] in *. cbn [str_format] in E.
    destruct (Ascii.eqb c lbrace) eqn:E1.
    + destruct u as [|d u]; [discriminate E|]. cbn [append String.length] in *.
      destruct (Ascii.eqb d lbrace).
      * apply bind_ok in E. destruct E as (w & E & H). inversion H; subst.
        apply IH in E; [|lia | exact Hv]. destruct E as [E _].
        cbn [String.length]. lia.
      * destruct (Ascii.eqb d rbrace); [|discriminate].
        apply bind_ok in E. destruct E as (w & E & _).
        exfalso. apply (end_needs_argument (String.length u) u v);
          [lia | exact Hv | now exists w].
    + destruct (Ascii.eqb c rbrace) eqn:E2.
      * destruct u as [|d u]; [discriminate E|]. cbn [append String.length] in *.
        destruct (Ascii.eqb d rbrace); [|discriminate].
        apply bind_ok in E. destruct E as (w & E & H). inversion H; subst.
        apply IH in E; [|lia | exact Hv]. destruct E as [E _].
        cbn [String.length]. lia.
      * apply bind_ok in E. destruct E as (w & E & H). inversion H; subst.
        apply IH in E; [|lia | exact Hv]. destruct E as [El Er].
        cbn [String.length]. split; [lia|].
        intros N. assert (N' : ~ no_brace u); [|specialize (Er N'); lia].
        intros N'. apply N. constructor; [|exact N'].
        apply Ascii.eqb_neq in E1. apply Ascii.eqb_neq in E2.
        split; assumption.
Qed.

(** A source line has one trimmed text. *)
Lemma last_char s : s <> "" -> exists t c, s = t ++ String c "".
Proof.
  induction s as [|c s IH]; [tauto|]. intros _. destruct s as [|d s].
  - now exists "", c.
  - destruct IH as (t & e & E); [discriminate|].
    exists (String c t), e. rewrite E. reflexivity.
Qed.

Lemma blank_app a b : blank_text (a ++ b) <-> blank_text a /\ blank_text b.
Proof. unfold blank_text. rewrite list_app. apply Forall_app. Qed.

Lemma ends_blank s : blank_text s ->
  (forall c t, s = t ++ String c "" -> is_blank_char c = false) -> s = "".
Proof.
  intros B H. destruct s as [|c s]; [reflexivity|]. exfalso.
  destruct (last_char (String c s)) as (t & d & E); [discriminate|].
  specialize (H d t E). rewrite E in B. apply blank_app in B.
  destruct B as [_ B]. inversion B as [|? ? Hd _]; subst. congruence.
Qed.

Lemma ends_unique s : forall s' q q',
  s ++ q = s' ++ q' -> blank_text q -> blank_text q' ->
  (forall c t, s = t ++ String c "" -> is_blank_char c = false) ->
  (forall c t, s' = t ++ String c "" -> is_blank_char c = false) -> s = s'.
Proof.
  induction s as [|c s IH]; intros s' q q' E B B' H H'.
  - cbn in E. subst q. apply blank_app in B. destruct B as [B _].
    symmetry. now apply ends_blank.
  - destruct s' as [|d s'].
    + cbn [append] in E. rewrite <- E in B'. change (String c (s ++ q))
        with (String c s ++ q) in B'. apply blank_app in B'.
      destruct B' as [B' _]. now apply ends_blank.
    + cbn [append] in E. inversion E as [[E1 E2]]. f_equal.
      eapply IH; [exact E2 | exact B | exact B' | |].
      * intros e t Et. apply (H e (String c t)). rewrite Et. reflexivity.
      * intros e t Et. apply (H' e (String d t)). rewrite Et. reflexivity.
Qed.

Lemma trimmed_unique p : forall p' s s' q q',
  p ++ s ++ q = p' ++ s' ++ q' ->
  blank_text p -> blank_text p' -> blank_text q -> blank_text q' ->
  trimmed s -> trimmed s' -> s = s'.
Proof.
  assert (K : forall p s s' q q', s ++ q = p ++ s' ++ q' -> p <> "" ->
      blank_text p -> blank_text q -> blank_text q' -> trimmed s ->
      trimmed s' -> s = s').
  { clear p. intros p s s' q q' E Np Bp Bq Bq' [H1 H2] [H1' H2'].
    destruct p as [|x p]; [tauto|]. destruct s as [|c s].
    - cbn [append] in E. subst q.
      change (String x (p ++ s' ++ q')) with (String x p ++ s' ++ q') in Bq.
      apply blank_app in Bq. destruct Bq as [_ Bq]. apply blank_app in Bq.
      destruct Bq as [Bq _]. symmetry. now apply ends_blank.
    - cbn [append] in E. inversion E as [[E1 E2]]. subst x.
      specialize (H1 c s eq_refl). inversion Bp as [|? ? Hc _]; subst.
      congruence. }
  induction p as [|x p IH]; intros p' s s' q q' E Bp Bp' Bq Bq' Hs Hs'.
  - destruct p' as [|y p'].
    + cbn [append] in E. destruct Hs as [_ Hs]. destruct Hs' as [_ Hs'].
      eapply ends_unique; eassumption.
    + cbn [append] in E.
      eapply (K (String y p')); try eassumption. discriminate.
  - destruct p' as [|y p'].
    + symmetry. apply (K (String x p) s' s q' q); try assumption.
      * symmetry. exact E.
      * discriminate.
    + cbn [append] in E. inversion E as [[E1 E2]].
      inversion Bp; subst. inversion Bp'; subst.
      eapply (IH p'); eassumption.
Qed.

Theorem source_unique f n line cached src src' :
  source_of f n line cached src -> source_of f n line cached src' -> src = src'.
Proof.
  unfold source_of.
  destruct (match line with Some l => Some l | None => cached f n end)
    as [[|a l]|]; try congruence.
  intros (p & q & s & -> & E & Bp & Bq & T) (p' & q' & s' & -> & E' & Bp' & Bq' & T').
  f_equal. apply (trimmed_unique p p' s s' q q'); try assumption.
  now rewrite <- E, <- E'.
Qed.

(** A warning from a file with a brace in its name never reads as it should:
    it cannot be shown, or is shown with a part missing. *)
Theorem warning_brace_wrong m c f n line cached src :
  ~ no_brace f -> no_brace c -> source_of f n line cached src ->
  match format_warning m c f n line cached with
  | Ok t => (String.length t < String.length (warning_text m c f n src))%nat
  | Err _ => True
  end.
Proof.
  intros Hf Hc Hs. destruct (warning_half m c f n line cached) as (s & E' & Es).
  assert (K : s = src).
  { eapply source_unique; [|exact Hs]. rewrite Es. apply source_is. }
  clear Es. subst s. rewrite E'. destruct (str_format _ _) as [t|e] eqn:E; [|exact I].
  unfold half_text in E.
  rewrite format_escaped in E.
  rewrite format_plain in E by (repeat constructor; discriminate).
  rewrite pre_pre in E. apply bind_ok in E. destruct E as (u & E & H).
  inversion H; subst t.
  replace (f ++ ":" ++ to_string n ++ ":" ++ c ++ "{})")
    with (f ++ ":" ++ (to_string n ++ ":" ++ c) ++ "{})") in E
    by (rewrite !app_assoc_s; reflexivity).
  apply (end_length (String.length f)) in E; [| lia |].
  - destruct E as [_ E]. specialize (E Hf).
    change (match src with
            | Some s => " --> " ++ dquote ++ s ++ dquote
            | None => "" end) with (source_text src).
    unfold warning_text. fold (source_text src).
    rewrite !len_app in *. cbn [String.length] in *. lia.
  - apply no_brace_app; [apply digits_plain|].
    apply no_brace_app; [apply plain_colon | exact Hc].
Qed.

(** A brace that is not doubled makes the warning itself raise, whatever the
    message. *)
Theorem warning_raises m c f g n line cached x :
  no_brace f -> x <> "{"%char -> x <> "}"%char ->
  format_warning m c (f ++ "{" ++ String x g) n line cached = Err KeyError
  /\ format_warning m c (f ++ "}" ++ String x g) n line cached = Err ValueError.
Proof.
  intros Hf N1 N2. split.
  - destruct (warning_half m c (f ++ "{" ++ String x g) n line cached)
      as (src & E & _). rewrite E. unfold half_text. rewrite format_escaped.
    rewrite format_plain by (repeat constructor; discriminate).
    rewrite app_assoc_s, format_plain by exact Hf.
    cbn [append str_format]. change (Ascii.eqb "{" lbrace) with true. cbn iota.
    destruct (Ascii.eqb_spec x lbrace) as [Ex|_]; [contradiction|].
    destruct (Ascii.eqb_spec x rbrace) as [Ex|_]; [contradiction|]. reflexivity.
  - destruct (warning_half m c (f ++ "}" ++ String x g) n line cached)
      as (src & E & _). rewrite E. unfold half_text. rewrite format_escaped.
    rewrite format_plain by (repeat constructor; discriminate).
    rewrite app_assoc_s, format_plain by exact Hf.
    cbn [append str_format]. change (Ascii.eqb "}" lbrace) with false.
    change (Ascii.eqb "}" rbrace) with true. cbn iota.
    destruct (Ascii.eqb_spec x rbrace) as [Ex|_]; [contradiction|]. reflexivity.
Qed.

(** The property as it stands: every warning reads as it should. *)
Definition every_warning_verbatim : Prop :=
  forall m c f n line cached, no_brace c ->
  exists src, source_of f n line cached src
    /\ format_warning m c f n line cached = Ok (warning_text m c f n src).

Theorem warning_verbatim_refuted : ~ every_warning_verbatim.
Proof.
  intros H. destruct (H "w" "UserWarning" "runs/{a}/fit.py" 3%Z None
                        (fun _ _ => None)) as (src & _ & E).
  - repeat constructor; discriminate.
  - destruct (warning_raises "w" "UserWarning" "runs/" "}/fit.py" 3%Z None
                (fun _ _ => None) "a"%char) as [E' _];
      [repeat constructor; discriminate | discriminate | discriminate |].
    cbn [append] in E'. rewrite E' in E. discriminate.
Qed.

(* ------------------------------------------------------------------ *)
(** * Messages *)

(** What is added to a message for each state given. *)
Inductive stage_text : option cpp_state -> string -> Prop :=
| Stage_none : stage_text None ""
| Stage_off : stage_text (Some (StFlag false)) ""
| Stage_empty : stage_text (Some (StText "")) ""
| Stage_on : stage_text (Some (StFlag true)) " (in C++)"
| Stage_start s : same_but_case s "start" ->
    stage_text (Some (StText s)) " (entering C++)"
| Stage_end s : same_but_case s "end" ->
    stage_text (Some (StText s)) " (exited C++)"
| Stage_other s : s <> "" -> ~ same_but_case s "start" ->
    ~ same_but_case s "end" -> stage_text (Some (StText s)) " (in C++)".

Lemma lower_char_spec a b :
  (forall n, nat_of_ascii b = n -> ~ (65 <= n <= 90)%nat) ->
  (lower_char a = b <-> a = b \/ (65 <= nat_of_ascii a <= 90
                           /\ nat_of_ascii b = nat_of_ascii a + 32)%nat).
Proof.
  intros Hb. unfold lower_char.
  destruct ((65 <=? nat_of_ascii a) && (nat_of_ascii a <=? 90))%nat eqn:E.
  - apply andb_true_iff in E. rewrite !Nat.leb_le in E. split.
    + intros <-. right. split; [exact E|]. rewrite nat_ascii_embedding; lia.
    + intros [->|[H1 H2]].
      * exfalso. apply (Hb _ eq_refl). exact E.
      * rewrite <- H2. apply ascii_nat_embedding.
  - apply andb_false_iff in E. rewrite !Nat.leb_gt in E. split.
    + intros ->. now left.
    + intros [->|[H1 H2]]; [reflexivity | lia].
Qed.

Lemma lower_spec t : forall s,
  Forall (fun b => ~ (65 <= nat_of_ascii b <= 90)%nat) (list_ascii_of_string t) ->
  (lower s = t <-> same_but_case s t).
Proof.
  unfold same_but_case. induction t as [|b t IH]; intros [|a s] H; cbn.
  - split; [constructor | reflexivity].
  - split; [discriminate | intros K; inversion K].
  - split; [discriminate | intros K; inversion K].
  - cbn in H. inversion H as [|? ? Hb Ht]; subst.
    specialize (IH s Ht). split.
    + intros E. inversion E as [[E1 E2]]. constructor.
      * rewrite E1. apply lower_char_spec; [intros n <-; exact Hb | exact E1].
      * rewrite E2. apply IH. exact E2.
    + intros K. inversion K as [|? ? ? ? K1 K2]; subst.
      f_equal; [|now apply IH].
      apply lower_char_spec; [intros n <-; exact Hb | exact K1].
Qed.

Lemma lower_start s : lower s = "start" <-> same_but_case s "start".
Proof. apply lower_spec. repeat constructor; cbn; lia. Qed.

Lemma lower_end s : lower s = "end" <-> same_but_case s "end".
Proof. apply lower_spec. repeat constructor; cbn; lia. Qed.

(** A message is kept as it is and followed by the stage given, by nothing if
    none is; every state has one stage text. *)
Theorem stage_added kw msg : exists x, stage_text kw x
  /\ process (StFlag false) kw msg = msg ++ x.
Proof.
  unfold process. destruct kw as [[[|]|s]|]; cbn [truthy].
  - exists " (in C++)". split; [constructor | reflexivity].
  - exists "". split; [constructor | now rewrite app_nil_s].
  - destruct (String.eqb_spec (lower s) "start") as [E|N1].
    { exists " (entering C++)". split; [|reflexivity].
      constructor. now apply lower_start. }
    destruct (String.eqb_spec (lower s) "end") as [E|N2].
    { exists " (exited C++)". split; [|reflexivity].
      constructor. now apply lower_end. }
    destruct (String.eqb_spec s "") as [->|N3]; cbn [negb].
    + exists "". split; [constructor | now rewrite app_nil_s].
    + exists " (in C++)". split; [|reflexivity]. constructor; [exact N3 | |].
      * now rewrite <- lower_start.
      * now rewrite <- lower_end.
  - exists "". split; [constructor | now rewrite app_nil_s].
Qed.

Theorem stage_unique kw x y : stage_text kw x -> stage_text kw y -> x = y.
Proof.
  assert (A : forall s, same_but_case s "start" -> same_but_case s "end" -> False).
  { intros s H1 H2. apply lower_start in H1. apply lower_end in H2. congruence. }
  assert (B : ~ same_but_case "" "start") by (intros K; inversion K).
  assert (D : ~ same_but_case "" "end") by (intros K; inversion K).
  intros H1 H2. inversion H1; subst; inversion H2; subst; try reflexivity;
    try contradiction; try (exfalso; eapply A; eassumption); congruence.
Qed.

(** Arguments are put into the message as they would be without a stage. *)
Lemma percent_app x : (forall a, percent x a = match a with [] => Ok x | _ => Err TypeError end) ->
  forall k msg args, (String.length msg <= k)%nat ->
  (exists c r, x = String c r /\ c <> "%"%char /\ c <> "s"%char /\ c <> "d"%char) ->
  match percent msg args with
  | Ok t => percent (msg ++ x) args = Ok (t ++ x)
  | Err e => percent (msg ++ x) args = Err e
  end.
Proof.
  intros Hx. induction k as [|k IH]; intros msg args Hk Hc.
  - destruct msg as [|c m]; [|cbn in Hk; lia]. cbn [append percent].
    rewrite Hx. destruct args; reflexivity.
  - destruct msg as [|c m].
    { cbn [append percent]. rewrite Hx. destruct args; reflexivity. }
    cbn [append percent String.length] in *.
    destruct (Ascii.eqb c "%").
    + destruct m as [|d m].
      * destruct Hc as (c' & r & -> & N1 & N2 & N3). cbn [append].
        destruct (Ascii.eqb_spec c' "%") as [Ex|_]; [contradiction|].
        destruct (Ascii.eqb_spec c' "s") as [Ex|_]; [contradiction|].
        destruct (Ascii.eqb_spec c' "d") as [Ex|_]; [contradiction|].
        reflexivity.
      * cbn [append String.length] in *. destruct (Ascii.eqb d "%").
        { specialize (IH m args ltac:(lia) Hc).
          destruct (percent m args); cbn [bind]; rewrite IH; reflexivity. }
        destruct (Ascii.eqb d "s" || Ascii.eqb d "d")%bool; [|reflexivity].
        destruct args as [|a args]; [reflexivity|].
        specialize (IH m args ltac:(lia) Hc).
        destruct (percent m args); cbn [bind]; rewrite IH; cbn [bind];
          [rewrite app_assoc_s|]; reflexivity.
    + specialize (IH m args ltac:(lia) Hc).
      destruct (percent m args); cbn [bind]; rewrite IH; reflexivity.
Qed.

Theorem stage_after_arguments kw msg args x : stage_text kw x ->
  get_message (process (StFlag false) kw msg) args
  = match get_message msg args with
    | Ok t => Ok (t ++ x)
    | Err e => Err e
    end.
Proof.
  intros Hx. destruct (stage_added kw msg) as (y & Hy & E).
  rewrite (stage_unique _ _ _ Hy Hx) in E. rewrite E. clear E Hy y.
  unfold get_message. destruct args as [|a args]; [reflexivity|].
  assert (D : x = "" \/
     (forall a, percent x a = match a with [] => Ok x | _ => Err TypeError end)
     /\ (exists c r, x = String c r /\ c <> "%"%char /\ c <> "s"%char /\ c <> "d"%char)).
  { inversion Hx; subst; try (left; reflexivity); right;
      (split; [intros [|? ?]; reflexivity |
               do 2 eexists; repeat split; discriminate]). }
  destruct D as [->|[H1 H2]].
  - rewrite app_nil_s. destruct (percent msg (a :: args)); [|reflexivity].
    now rewrite app_nil_s.
  - pose proof (percent_app x H1 (String.length msg) msg (a :: args)
                  (le_n _) H2) as K.
    destruct (percent msg (a :: args)); exact K.
Qed.

(* ------------------------------------------------------------------ *)
(** * Levels *)

Definition named_levels : list (Z * string) :=
  [(0%Z, "NOTS"); (10%Z, "DBUG"); (15%Z, "STAT"); (20%Z, "INFO");
   (30%Z, "WARN"); (40%Z, "ERRO"); (50%Z, "FATAL")].

(** Each named level has its own tag, and every other level shares one. *)
Theorem level_tags l :
  (forall t, In (l, t) named_levels -> level_tag (level_name l) = t)
  /\ ((forall t, ~ In (l, t) named_levels) -> level_tag (level_name l) = "Leve").
Proof.
  split.
  - intros t H. cbn in H.
    repeat (destruct H as [H|H]; [inversion H; subst; reflexivity|]). destruct H.
  - intros H. unfold level_name.
    destruct (Z.eqb_spec l 0) as [->|_]; [exfalso; eapply H; cbn; now left|].
    destruct (Z.eqb_spec l 10) as [->|_]; [exfalso; eapply H; cbn; eauto 10|].
    destruct (Z.eqb_spec l 15) as [->|_]; [exfalso; eapply H; cbn; eauto 10|].
    destruct (Z.eqb_spec l 20) as [->|_]; [exfalso; eapply H; cbn; eauto 10|].
    destruct (Z.eqb_spec l 30) as [->|_]; [exfalso; eapply H; cbn; eauto 10|].
    destruct (Z.eqb_spec l 40) as [->|_]; [exfalso; eapply H; cbn; eauto 10|].
    destruct (Z.eqb_spec l 50) as [->|_]; [exfalso; eapply H; cbn; eauto 10|].
    reflexivity.
Qed.

Theorem tags_distinct l l' t t' : In (l, t) named_levels ->
  In (l', t') named_levels -> level_tag (level_name l) = level_tag (level_name l') ->
  l = l'.
Proof.
  intros H H'. rewrite (proj1 (level_tags l) t H), (proj1 (level_tags l') t' H').
  cbn in H, H'. intros <-.
  repeat (destruct H as [H|H]; [inversion H; subst;
    repeat (destruct H' as [H'|H']; [inversion H'; subst; reflexivity|]); destruct H'|]).
  destruct H.
Qed.

(** Colours appear on a colour terminal of an interactive session, and only
    there. *)
Theorem colour_when term interactive :
  coloured term interactive = true
  <-> (exists a b, term = Some (a ++ "color" ++ b)) /\ interactive <> None.
Proof.
  unfold coloured. split.
  - intros H. destruct (sfind "color" _) as [k|] eqn:E; [|discriminate].
    split; [|destruct interactive; discriminate].
    destruct term as [t|]; [|discriminate].
    destruct (StrProps.sfind_some _ _ _ E) as (F & _).
    destruct F as (F & _). do 2 eexists. f_equal. exact F.
  - intros [(a & b & ->) H].
    destruct (sfind "color" (a ++ "color" ++ b)) as [k|] eqn:E.
    + destruct interactive; [reflexivity | contradiction].
    + exfalso. apply StrProps.sfind_none in E. apply E. now exists a, b.
Qed.

Theorem plain_tag term interactive name :
  coloured term interactive = false ->
  shown_tag term interactive name = level_tag name.
Proof. unfold shown_tag. now intros ->. Qed.

(** The colour codes only surround the tag. *)
Theorem colour_surrounds term interactive name :
  coloured term interactive = true ->
  exists c, shown_tag term interactive name
            = (esc ++ "[" ++ c ++ "m") ++ level_tag name ++ (esc ++ "[0m").
Proof.
  unfold shown_tag. intros ->. unfold colour_of.
  destruct (String.eqb name "DEBUG"); [exists "1;36"; reflexivity|].
  destruct (String.eqb name "STAT"); [exists "1;34"; reflexivity|].
  destruct (String.eqb name "INFO"); [exists "1;32"; reflexivity|].
  destruct (String.eqb name "WARNING"); [exists "1;33"; reflexivity|].
  destruct (String.eqb name "ERROR"); [exists "1;31"; reflexivity|].
  destruct (String.eqb name "CRITICAL"); [exists "1;37;41"; reflexivity|].
  exists "0"; reflexivity.
Qed.

(* ------------------------------------------------------------------ *)
(** * The lines written *)

(** After any number of set-ups, and whatever was attached before, a call at
    or above the level last set writes one line, which ends with the message
    and its stage; a call below it writes none. *)
Theorem one_line term int at_ el g lvls lvl l msg args kw x :
  let g' := setup_logger lvl (fold_left (fun h n => setup_logger n h) lvls g) in
  stage_text kw x ->
  log_call term int at_ el g' l msg args kw
  = if (lvl <=? l)%Z then
      match get_message msg args with
      | Ok t => Ok ["[" ++ at_ ++ " " ++ py_elapsed el ++ " "
                    ++ shown_tag term int (level_name l) ++ "] " ++ t ++ x]
      | Err e => Err e
      end
    else Ok [].
Proof.
  intros g' Hx. unfold g', log_call. cbn [setup_logger rl_level rl_handlers].
  destruct (lvl <=? l)%Z; [|reflexivity].
  rewrite (stage_after_arguments _ _ _ _ Hx).
  destruct (get_message msg args) as [t|e]; [|reflexivity]. cbn [bind].
  set (h := rl_handlers _).
  assert (K : (if negb (Nat.eqb (List.length h) 0) then [] else h) = []).
  { destruct h; reflexivity. }
  rewrite K. reflexivity.
Qed.

(** Concrete cases. *)
Example warning_case :
  format_warning "bad {value} in {}" "UserWarning" "fit.py" 42%Z
    (Some "  x = d{k} ") (fun _ _ => None)
  = Ok ("bad {value} in {} (fit.py:42:UserWarning --> " ++ dquote ++ "x = d{k}"
        ++ dquote ++ ")").
Proof. reflexivity. Qed.

Example doubled_case :
  format_warning "w" "UserWarning" "a{{b.py" 1%Z None (fun _ _ => None)
  = Ok "w (a{b.py:1:UserWarning)".
Proof. reflexivity. Qed.

Example stage_case :
  process (StFlag false) (Some (StText "Start")) "Measuring" = "Measuring (entering C++)"
  /\ process (StFlag false) (Some (StText "END")) "Measured" = "Measured (exited C++)"
  /\ get_message (process (StFlag false) (Some (StFlag true)) "%s at 100%%") ["bin"]
     = Ok "bin at 100% (in C++)".
Proof. repeat split. Qed.

Print Assumptions warning_verbatim.
Print Assumptions source_unique.
Print Assumptions warning_brace_wrong.
Print Assumptions warning_raises.
Print Assumptions warning_verbatim_refuted.
Print Assumptions stage_added.
Print Assumptions stage_unique.
Print Assumptions stage_after_arguments.
Print Assumptions level_tags.
Print Assumptions tags_distinct.
Print Assumptions plain_tag.
Print Assumptions colour_when.
Print Assumptions colour_surrounds.
Print Assumptions one_line.
