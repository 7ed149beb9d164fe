(* C129: what the LaTeX text of a formula says. *)
From Coq Require Import String Ascii.
From Coq Require Import ZArith QArith Qabs List Lia Bool.
From Verif Require Import Base StrModel StrProps Dec PyLogModel MultipoleModel MultipoleProps
  ParamFileModel ParamFileProps ParamFilePrintProps FileNameProps LatexModel.
Import ListNotations.
Local Open Scope string_scope.

(* ------------------------------------------------------------------ *)
(** * Vocabulary: how a formula is written *)

(** A positive number: nothing for one, an integer, or a fraction. *)
Inductive magnitude : list string -> Q -> Prop :=
| mag_one : magnitude [] 1
| mag_whole n : (0 < n)%Z -> magnitude [to_string n] (inject_Z n)
| mag_ratio n d : (0 < n)%Z ->
    magnitude ["\frac{" ++ to_string n ++ "}{" ++ to_string (Z.pos d) ++ "}"] (n # d).

(** The sign of a term: none or a minus in front, a plus or a minus between. *)
Inductive sign : bool -> list string -> bool -> Prop :=
| sign_none : sign true [] false
| sign_plus : sign false ["+"] false
| sign_minus first : sign first ["-"] true.

(** A subscript: the degrees, of one digit each, one after the other, or the
    pseudo-index. *)
Inductive subscript : string -> zindex -> Prop :=
| sub_degrees l : l <> [] -> Forall (fun z => 0 <= z < 10)%Z l ->
    subscript ("{" ++ abstr l ++ "}") (Degrees l)
| sub_special : subscript "\mathrm{ic}" (Special "ic").

(** Words that make up a formula; [first] tells whether it is at the front. *)
Inductive formula (symbol : string) : bool -> list string -> list term -> Prop :=
| formula_end first : formula symbol first [] []
| formula_term first s neg m a c q lq z iz rest ts :
    sign first s neg -> magnitude m a -> c == (if neg then - a else a) ->
    subscript q (Degrees lq) -> subscript z iz -> formula symbol false rest ts ->
    formula symbol first (s ++ m ++ ("Q_" ++ q)%string :: (symbol ++ "_" ++ z)%string :: rest)%list
            (mk_term lq iz c :: ts).

(** The text, words separated by a blank, writes the formula. *)
Definition says (symbol text : string) (ts : list term) : Prop :=
  exists words, Forall word words /\ text = String.concat " " words /\ formula symbol true words ts.

Definition same_term (t t' : term) : Prop :=
  t_Q t = t_Q t' /\ t_Z t = t_Z t' /\ t_coeff t == t_coeff t'.

(** Terms with coefficients other than zero and degrees of a single digit. *)
Definition plain (i : zindex) : Prop :=
  match i with
  | Degrees l => l <> [] /\ Forall (fun z => 0 <= z < 10)%Z l
  | Special s => s = "ic"
  end.
Definition plain_term (t : term) : Prop :=
  ~ t_coeff t == 0 /\ plain (Degrees (t_Q t)) /\ plain (t_Z t).

(* ------------------------------------------------------------------ *)
(** * Stripping *)

Lemma rstrip_word w : word w -> rstrip w = w.
Proof.
  intros (_ & B). induction w as [|c w IH]; [reflexivity|]. destruct B as (C & B). cbn [rstrip].
  rewrite (IH B), C. now destruct w.
Qed.

Lemma rstrip_end a w : word w -> rstrip (a ++ w) = a ++ w.
Proof.
  intros W. induction a as [|c a IH]; [now apply rstrip_word|]. cbn [append rstrip]. rewrite IH.
  destruct (a ++ w) as [|c' r] eqn:E; [|reflexivity].
  apply sapp_eq_nil in E as (_ & E). now destruct W as (N & _).
Qed.

Lemma lstrip_word w r : word w -> lstrip (w ++ r) = w ++ r.
Proof. intros (N & B). destruct w as [|c w]; [contradiction|]. cbn [append lstrip]. now rewrite (proj1 B). Qed.

Lemma strip_words w a w' : word w -> word w' -> strip (w ++ a ++ w') = w ++ a ++ w'.
Proof.
  intros W W'. unfold strip. rewrite lstrip_word by exact W. rewrite <- sapp_assoc. now apply rstrip_end.
Qed.

Lemma strip_word w : word w -> strip w = w.
Proof. intros W. unfold strip. rewrite <- (sapp_nil_r w) at 1. rewrite lstrip_word, sapp_nil_r by exact W. now apply rstrip_word. Qed.

Lemma strip_blank s : strip (" " ++ s) = strip s.
Proof. reflexivity. Qed.

(* ------------------------------------------------------------------ *)
(** * Words *)

Lemma word_app_l a b : word a -> blank_free b -> word (a ++ b).
Proof.
  intros (N & A) B. split; [|now apply blank_free_app]. intros E. apply sapp_eq_nil in E as (E & _). contradiction.
Qed.

Lemma to_string_word z : word (to_string z).
Proof.
  split; [|apply to_string_blank_free]. destruct (to_string_head z) as (c & r & -> & _). discriminate.
Qed.

Lemma abstr_blank_free l : blank_free (abstr l).
Proof. induction l as [|z l IH]; [exact I|]. cbn [abstr]. apply blank_free_app. split; [apply to_string_blank_free|exact IH]. Qed.

Ltac free := repeat (apply blank_free_app; split); auto using to_string_blank_free, abstr_blank_free; try (cbn; tauto).

Lemma magnitude_words m a : magnitude m a -> Forall word m.
Proof.
  destruct 1 as [|n N|n d N]; [constructor|constructor; [apply to_string_word|constructor]|].
  constructor; [|constructor]. split; [discriminate|]. free.
Qed.

Lemma subscript_free s i : subscript s i -> blank_free s.
Proof. destruct 1; free. Qed.

Lemma concat_cons w ws : ws <> [] -> String.concat " " (w :: ws) = w ++ " " ++ String.concat " " ws.
Proof. destruct ws; [congruence|reflexivity]. Qed.

Lemma concat_app a b : a <> [] -> b <> [] ->
  String.concat " " (a ++ b)%list = String.concat " " a ++ " " ++ String.concat " " b.
Proof.
  intros A B. induction a as [|w a IH]; [contradiction|]. destruct a as [|w' a].
  - cbn [List.app]. now rewrite concat_cons.
  - cbn [List.app] in *. rewrite concat_cons by discriminate. rewrite IH by discriminate.
    rewrite (concat_cons w (w' :: a)) by discriminate. now rewrite !sapp_assoc.
Qed.

Lemma word_cut w w' r r' : blank_free w -> blank_free w' ->
  (r = "" \/ exists t, r = " " ++ t) -> (r' = "" \/ exists t, r' = " " ++ t) ->
  w ++ r = w' ++ r' -> w = w' /\ r = r'.
Proof.
  revert w'. induction w as [|c w IH]; intros [|c' w'] B B' R R' E; cbn [append] in E; auto.
  - destruct R as [->|(t & ->)]; [discriminate|]. injection E as <- _. destruct B' as (B' & _). discriminate B'.
  - destruct R' as [->|(t & ->)]; [discriminate|]. injection E as -> _. destruct B as (B & _). discriminate B.
  - injection E as -> E. destruct B as (_ & B), B' as (_ & B').
    destruct (IH w' B B' R R' E) as (-> & ->). auto.
Qed.

Lemma concat_inj ws ws' : Forall word ws -> Forall word ws' ->
  String.concat " " ws = String.concat " " ws' -> ws = ws'.
Proof.
  revert ws'. induction ws as [|w ws IH]; intros [|w' ws'] F F' E; auto.
  - inversion F' as [|? ? (N & _) _]; subst. destruct ws'; [exfalso; apply N; symmetry; exact E|].
    rewrite concat_cons in E by discriminate. symmetry in E. apply sapp_eq_nil in E as (E & _). contradiction.
  - inversion F as [|? ? (N & _) _]; subst. destruct ws; [exfalso; apply N; exact E|].
    rewrite concat_cons in E by discriminate. apply sapp_eq_nil in E as (E & _). contradiction.
  - inversion F as [|? ? (N & B) G]; subst. inversion F' as [|? ? (N' & B') G']; subst.
    assert (T : forall v (vs : list string), exists r, String.concat " " (v :: vs) = v ++ r /\
       (vs = [] /\ r = "" \/ vs <> [] /\ r = " " ++ String.concat " " vs)).
    { intros v [|v' vs]; [exists ""; split; [now rewrite sapp_nil_r|auto]|].
      eexists. split; [apply concat_cons; discriminate|right; split; [discriminate|reflexivity]]. }
    destruct (T w ws) as (r & E1 & R). destruct (T w' ws') as (r' & E2 & R'). rewrite E1, E2 in E.
    destruct (word_cut w w' r r' B B') as (-> & Er); auto.
    { destruct R as [(_ & ->)|(_ & ->)]; eauto. } { destruct R' as [(_ & ->)|(_ & ->)]; eauto. }
    f_equal. destruct R as [(-> & ->)|(_ & ->)], R' as [(-> & ->)|(_ & ->)]; try discriminate Er; auto.
    apply IH; auto. now apply sapp_inv_head in Er.
Qed.

(* ------------------------------------------------------------------ *)
(** * What is printed *)

Lemma abstr_digits l : Forall (fun z => 0 <= z < 10)%Z l -> digits_only (abstr l) = true.
Proof.
  induction 1 as [|z l H F IH]; [reflexivity|]. cbn [abstr]. rewrite to_string_nonneg, dec_small by lia.
  cbn [append digits_only]. now rewrite digit_value_digit.
Qed.

Lemma index_text_sub i : plain i -> subscript (index_text (joined i)) i.
Proof.
  destruct i as [l|s]; cbn [plain joined].
  - intros (N & F). unfold index_text, isdigit. rewrite abstr_digits by exact F.
    replace (abstr l =? "") with false; [cbn [negb andb]; now constructor|].
    destruct l as [|z l]; [contradiction|]. cbn [abstr]. destruct (to_string_head z) as (c & r & -> & _). reflexivity.
  - intros ->. apply sub_special.
Qed.

Definition mag_words (c : Q) : list string := if Qeq_bool (Qabs c) 1 then [] else [latex (Qabs c)].
Definition minus_words (c : Q) : list string := if (Qnum c <? 0)%Z then ["-"] else [].

Lemma mag_words_ok c : ~ c == 0 -> exists a, magnitude (mag_words c) a /\ c == (if (Qnum c <? 0)%Z then - a else a).
Proof.
  intros N. exists (if Qeq_bool (Qabs c) 1 then 1 else Qabs c).
  assert (V : c == if (Qnum c <? 0)%Z then - Qabs c else Qabs c).
  { destruct c as [n d]. cbn [Qnum]. unfold Qabs, Qeq, Qopp. destruct (Z.ltb_spec n 0); cbn [Qnum Qden]; lia. }
  unfold mag_words. destruct (Qeq_bool (Qabs c) 1) eqn:E.
  - apply Qeq_bool_iff in E. split; [constructor|]. destruct (Qnum c <? 0)%Z; now rewrite <- E.
  - split; [|exact V].
    assert (P : (0 < Qnum (Qabs c))%Z).
    { destruct c as [n d]. cbn [Qabs Qnum]. unfold Qeq in N. cbn in N. lia. }
    destruct (Qabs c) as [n d]. unfold latex. cbn [Qnum Qden] in *.
    destruct (Pos.eqb_spec d 1) as [->|D]; [exact (mag_whole n P)|now constructor].
Qed.

Lemma coeff_text_words c : ~ c == 0 ->
  coeff_text c = String.concat " " (minus_words c ++ mag_words c)%list.
Proof.
  intros N. destruct (mag_words_ok c N) as (a & M & _). apply magnitude_words in M.
  unfold coeff_text, minus_words, mag_words in *. cbv zeta.
  destruct (Qeq_bool (Qabs c) 1); destruct (Qnum c <? 0)%Z; try reflexivity; inversion M; subst;
    cbn [List.app String.concat].
  - rewrite strip_words; [reflexivity|split; [discriminate|cbn; auto]|assumption].
  - change ("" ++ " " ++ latex (Qabs c)) with (" " ++ latex (Qabs c)). rewrite strip_blank. now apply strip_word.
Qed.

Definition tail_words (symbol : string) (t : term) : list string :=
  ["Q_" ++ index_text (abstr (t_Q t)); symbol ++ "_" ++ index_text (joined (t_Z t))].

Lemma tail_words_ok symbol t : blank_free symbol -> plain_term t -> Forall word (tail_words symbol t).
Proof.
  intros S (_ & P & P'). pose proof (subscript_free _ _ (index_text_sub _ P)) as F.
  pose proof (subscript_free _ _ (index_text_sub _ P')) as F'. cbn [joined] in F.
  repeat constructor; try discriminate; auto.
  - intros E. apply sapp_eq_nil in E as (_ & E). discriminate E.
  - apply blank_free_app. split; [exact S|]. cbn [append blank_free]. auto.
Qed.

Lemma term_latex_words symbol t : blank_free symbol -> plain_term t ->
  term_latex symbol t
  = String.concat " " (minus_words (t_coeff t) ++ mag_words (t_coeff t) ++ tail_words symbol t)%list.
Proof.
  intros S P. pose proof (tail_words_ok symbol t S P) as T. destruct P as (N & P).
  unfold term_latex. destruct (Qeq_bool (t_coeff t) 0) eqn:E; [apply Qeq_bool_iff in E; contradiction|].
  rewrite coeff_text_words by exact N. destruct (mag_words_ok _ N) as (a & M & _). apply magnitude_words in M.
  rewrite List.app_assoc. set (head := (minus_words _ ++ mag_words _)%list).
  assert (H : Forall word head).
  { unfold head, minus_words. destruct (_ <? _)%Z; cbn [List.app]; auto. constructor; [|exact M].
    split; [discriminate|cbn; auto]. }
  unfold tail_words in *. set (wq := "Q_" ++ index_text (abstr (t_Q t))) in *.
  set (wz := symbol ++ "_" ++ index_text (joined (t_Z t))) in *.
  replace (String.concat " " head ++ " Q_" ++ index_text (abstr (t_Q t)) ++ " " ++ wz)
    with (String.concat " " head ++ " " ++ (wq ++ " " ++ wz)).
  2:{ unfold wq, wz. now rewrite !sapp_assoc. }
  clearbody wq wz.
  inversion T as [|? ? Wq T']; subst. inversion T' as [|? ? Wz _]; subst.
  destruct head as [|h hs].
  - change (strip (wq ++ " " ++ wz) = wq ++ " " ++ wz). now apply strip_words.
  - rewrite concat_app by discriminate. change (String.concat " " [wq; wz]) with (wq ++ " " ++ wz). inversion H as [|? ? Wh _]; subst.
    assert (X : exists r, String.concat " " (h :: hs) = h ++ r).
    { destruct hs; [exists ""; cbn [String.concat]; now rewrite sapp_nil_r|eexists; apply concat_cons; discriminate]. }
    destruct X as (r & ->).
    replace ((h ++ r) ++ " " ++ wq ++ " " ++ wz) with (h ++ (r ++ " " ++ wq ++ " ") ++ wz)
      by now rewrite !sapp_assoc.
    now rewrite strip_words by assumption.
Qed.

Definition sign_words (first : bool) (c : Q) : list string :=
  if (Qnum c <? 0)%Z then ["-"] else if first then [] else ["+"].

Definition term_words (symbol : string) (first : bool) (t : term) : list string :=
  (sign_words first (t_coeff t) ++ mag_words (t_coeff t) ++ tail_words symbol t)%list.

Lemma term_words_ok symbol first t : blank_free symbol -> plain_term t -> Forall word (term_words symbol first t).
Proof.
  intros S P. unfold term_words. apply Forall_app. split; [|apply Forall_app; split].
  - unfold sign_words. destruct (_ <? _)%Z; [|destruct first]; repeat constructor; discriminate.
  - destruct P as (N & _). destruct (mag_words_ok _ N) as (a & M & _). now apply magnitude_words in M.
  - now apply tail_words_ok.
Qed.

(** A list of words is stripped as it stands. *)
Lemma strip_concat ws : Forall word ws -> ws <> [] -> strip (String.concat " " ws) = String.concat " " ws.
Proof.
  intros F N. destruct ws as [|w ws]; [contradiction|]. inversion F as [|? ? W G]; subst.
  destruct (exists_last (l := w :: ws)) as (i & l & E); [discriminate|]. rewrite E in *.
  apply Forall_app in F as (_ & F). inversion F as [|? ? Wl _]; subst.
  destruct i as [|w' i].
  - now apply strip_word.
  - injection E as <- _. rewrite concat_app by discriminate.
    assert (X : exists r, String.concat " " (w :: i) = w ++ r).
    { destruct i; [exists ""; cbn [String.concat]; now rewrite sapp_nil_r|eexists; apply concat_cons; discriminate]. }
    destruct X as (r & ->). cbn [String.concat].
    replace ((w ++ r) ++ " " ++ l) with (w ++ (r ++ " ") ++ l) by now rewrite !sapp_assoc. now apply strip_words.
Qed.

Lemma prefix_minus symbol t : blank_free symbol -> plain_term t ->
  prefix "-" (term_latex symbol t) = (Qnum (t_coeff t) <? 0)%Z.
Proof.
  intros S P. rewrite term_latex_words by assumption. unfold minus_words.
  destruct (Z.ltb_spec (Qnum (t_coeff t)) 0) as [L|L].
  - cbn [List.app]. rewrite concat_cons; [reflexivity|]. unfold tail_words. destruct (mag_words _); discriminate.
  - cbn [List.app]. unfold mag_words. destruct (Qeq_bool _ _).
    + reflexivity.
    + cbn [List.app]. rewrite concat_cons by discriminate. unfold latex. destruct (Pos.eqb _ _); [|reflexivity].
      rewrite to_string_nonneg by (destruct (t_coeff t) as [n d]; cbn; lia).
      destruct (dec_head (Qnum (Qabs (t_coeff t)))) as (c & r & -> & D); [destruct (t_coeff t); cbn; lia|].
      cbn [append prefix]. destruct (ascii_dec "-" c) as [<-|]; [|reflexivity]. exfalso. now apply D.
Qed.

Lemma piece_words symbol idx t : blank_free symbol -> plain_term t ->
  (let term_str := term_latex symbol t in
   if term_str =? "" then None
   else Some (strip (if (0 <? idx)%nat && negb (prefix "-" term_str)
                     then "+" ++ " " ++ term_str else term_str)))
  = Some (String.concat " " (term_words symbol (idx =? 0)%nat t)).
Proof.
  intros S P. cbv zeta. rewrite prefix_minus by assumption.
  pose proof (term_words_ok symbol (idx =? 0)%nat t S P) as W.
  assert (NE : term_words symbol (idx =? 0)%nat t <> []).
  { unfold term_words, tail_words. destruct (sign_words _ _), (mag_words _); discriminate. }
  assert (N0 : (term_latex symbol t =? "") = false).
  { rewrite term_latex_words by assumption. apply String.eqb_neq. intros E.
    assert (X : exists w ws, (minus_words (t_coeff t) ++ mag_words (t_coeff t) ++ tail_words symbol t)%list = w :: ws
                 /\ word w).
    { assert (F : Forall word (minus_words (t_coeff t) ++ mag_words (t_coeff t) ++ tail_words symbol t)%list).
      { apply Forall_app. split; [unfold minus_words; destruct (_ <? _)%Z; repeat constructor; discriminate|].
        apply Forall_app. split; [|now apply tail_words_ok].
        destruct P as (N & _). destruct (mag_words_ok _ N) as (a & M & _). now apply magnitude_words in M. }
      destruct (minus_words (t_coeff t) ++ mag_words (t_coeff t) ++ tail_words symbol t)%list as [|w ws] eqn:Q.
      - exfalso. unfold tail_words in Q. destruct (minus_words _), (mag_words _); discriminate Q.
      - inversion F; subst. eauto. }
    destruct X as (w & ws & Q & (Nw & _)). rewrite Q in E. destruct ws; [cbn in E; contradiction|].
    rewrite concat_cons in E by discriminate. apply sapp_eq_nil in E as (E & _). contradiction. }
  rewrite N0. f_equal. rewrite <- strip_concat by assumption. f_equal.
  rewrite term_latex_words by assumption. unfold term_words, sign_words, minus_words.
  destruct (_ <? _)%Z; cbn [negb]; rewrite ?andb_false_r, ?andb_true_r; [reflexivity|].
  destruct idx; cbn [Nat.ltb Nat.leb Nat.eqb]; [reflexivity|]. cbn [List.app].
  rewrite concat_cons; [reflexivity|]. unfold tail_words. destruct (mag_words _); discriminate.
Qed.

Lemma terms_latex_cons symbol idx t ts : blank_free symbol -> plain_term t ->
  terms_latex symbol idx (t :: ts)
  = String.concat " " (term_words symbol (idx =? 0)%nat t) :: terms_latex symbol (S idx) ts.
Proof.
  intros S P. cbn [terms_latex]. pose proof (piece_words symbol idx t S P) as H. cbv zeta in *.
  destruct (term_latex symbol t =? ""); [discriminate H|]. f_equal. congruence.
Qed.

Fixpoint all_words (symbol : string) (first : bool) (ts : list term) : list string :=
  match ts with [] => [] | t :: r => (term_words symbol first t ++ all_words symbol false r)%list end.

Lemma term_words_nonempty symbol first t : term_words symbol first t <> [].
Proof. unfold term_words, tail_words. destruct (sign_words _ _), (mag_words _); discriminate. Qed.

Lemma expr_words symbol idx ts : blank_free symbol -> Forall plain_term ts ->
  String.concat " " (terms_latex symbol idx ts) = String.concat " " (all_words symbol (idx =? 0)%nat ts).
Proof.
  intros S F. revert idx. induction F as [|t ts P F IH]; intros idx; [reflexivity|].
  rewrite terms_latex_cons by assumption. cbn [all_words]. specialize (IH (Datatypes.S idx)). cbn [Nat.eqb] in IH.
  destruct ts as [|t' ts].
  - cbn [all_words terms_latex String.concat]. now rewrite app_nil_r.
  - inversion F as [|? ? P' F']; subst. rewrite terms_latex_cons in * by assumption.
    rewrite concat_cons by discriminate. rewrite IH. rewrite concat_app; [reflexivity| |].
    + apply term_words_nonempty.
    + cbn [all_words]. intros E. apply app_eq_nil in E as (E & _). now apply term_words_nonempty in E.
Qed.

Lemma all_words_formula symbol first ts : Forall plain_term ts -> formula symbol first (all_words symbol first ts) ts.
Proof.
  intros F. revert first. induction F as [|t ts P F IH]; intros first; [constructor|].
  cbn [all_words]. unfold term_words, tail_words. rewrite <- !List.app_assoc. cbn [List.app].
  destruct P as (N & PQ & PZ). destruct (mag_words_ok _ N) as (a & M & V). destruct t as [q z c]. cbn [t_Q t_Z t_coeff] in *.
  apply (formula_term symbol first (sign_words first c) (Qnum c <? 0)%Z (mag_words c) a); auto.
  - unfold sign_words. destruct (_ <? _)%Z; [constructor|]. destruct first; constructor.
  - exact (index_text_sub (Degrees q) PQ).
  - exact (index_text_sub z PZ).
Qed.

(** C129: the text of a formula is that formula as one writes it. *)
Theorem expr_says :
  forall symbol ts, blank_free symbol -> Forall plain_term ts -> says symbol (expr_latex symbol ts) ts.
Proof.
  intros symbol ts S F. exists (all_words symbol true ts). split; [|split].
  - clear - S F. generalize true as b. induction F as [|t ts P F IH]; intros b; [constructor|].
    cbn [all_words]. apply Forall_app. split; [now apply term_words_ok|apply IH].
  - unfold expr_latex. now apply (expr_words symbol 0).
  - now apply all_words_formula.
Qed.

(* ------------------------------------------------------------------ *)
(** * A text says one thing *)

Lemma subscript_inj s i i' : subscript s i -> subscript s i' -> i = i'.
Proof.
  intros H H'. destruct H as [l N F|]; inversion H' as [l' N' F' E|E]; subst; auto.
  - apply sapp_inv_tail in E.
    rewrite Forall_forall in F, F'. pose proof (roundtrip_abstr l F) as R. pose proof (roundtrip_abstr l' F') as R'.
    rewrite E in R'. congruence.
Qed.

(** A word that is neither a sign nor the start of "Q_". *)
Lemma magnitude_head m a w : magnitude m a -> In w m ->
  exists c r, w = String c r /\ (digit_value c <> None \/ c = "\"%char).
Proof.
  intros M I. destruct M as [|n N|n d N]; [destruct I| |]; destruct I as [<-|[]].
  - rewrite to_string_nonneg by lia. destruct (dec_head n) as (c & r & -> & D); [lia|]. eauto.
  - eexists _, _. split; [reflexivity|now right].
Qed.

Lemma magnitude_cut m a m' a' q q' r r' : magnitude m a -> magnitude m' a' ->
  (m ++ ("Q_" ++ q)%string :: r = m' ++ ("Q_" ++ q')%string :: r')%list -> a == a' /\ q = q' /\ r = r'.
Proof.
  intros M M' E.
  assert (X : forall m a w, magnitude m a -> In w m -> forall s, w <> "Q_" ++ s).
  { intros m0 a0 w M0 I s Ew. destruct (magnitude_head _ _ _ M0 I) as (c & r0 & -> & C).
    injection Ew as -> _. destruct C as [C|C]; [now apply C|discriminate C]. }
  destruct M as [|n N|n d N]; destruct M' as [|n' N'|n' d' N']; cbn [List.app] in E.
  - injection E as E1 E2. auto using Qeq_refl.
  - injection E as E1 E2. exfalso. eapply (X _ _ _ (mag_whole n' N') (or_introl eq_refl)). symmetry. exact E1.
  - discriminate E.
  - injection E as E1 E2. exfalso. eapply (X _ _ _ (mag_whole n N) (or_introl eq_refl)). exact E1.
  - injection E as E1 E2 E3. apply to_string_inj in E1. subst. split; [reflexivity|auto].
  - injection E as E1 _. exfalso. rewrite to_string_nonneg in E1 by lia.
    destruct (dec_head n) as (c & s & Ec & D); [lia|]. rewrite Ec in E1. injection E1 as -> _. now apply D.
  - discriminate E.
  - injection E as E1 _. exfalso. rewrite (to_string_nonneg n') in E1 by lia.
    destruct (dec_head n') as (c & s & Ec & D); [lia|]. rewrite Ec in E1. injection E1 as <- _. now apply D.
  - injection E as E1 E2 E3. apply to_string_cut in E1 as (-> & E1); [|cbn; auto|cbn; auto].
    injection E1 as E1. apply to_string_cut in E1 as (E1 & _); [|cbn; auto|cbn; auto].
    injection E1 as ->. split; [reflexivity|auto].
Qed.

Lemma sign_cut first s neg s' neg' r r' : sign first s neg -> sign first s' neg' ->
  (forall w t, r = w :: t -> w <> "+" /\ w <> "-") -> (forall w t, r' = w :: t -> w <> "+" /\ w <> "-") ->
  r <> [] -> r' <> [] -> (s ++ r = s' ++ r')%list -> neg = neg' /\ r = r'.
Proof.
  intros H H' R R' N N' E. destruct H; inversion H'; subst; cbn [List.app] in E; try (split; [reflexivity|congruence]);
    try discriminate E; exfalso.
  - subst r. now destruct (R "-" r' eq_refl).
  - subst r'. now destruct (R' "-" r eq_refl).
Qed.

Lemma rest_head m a q (r : list string) : magnitude m a ->
  forall w t, (m ++ ("Q_" ++ q)%string :: r)%list = w :: t -> w <> "+" /\ w <> "-".
Proof.
  intros M w t E. destruct m as [|x m]; cbn [List.app] in E; injection E as <- _; [split; discriminate|].
  destruct (magnitude_head _ _ x M (or_introl eq_refl)) as (c & s & -> & C).
  split; intros E; injection E as -> _; destruct C as [C|C]; try discriminate C; now apply C.
Qed.

Lemma formula_cases symbol first ws ts : formula symbol first ws ts ->
  ws = [] /\ ts = [] \/
  exists s neg m a c q lq z iz rest ts0,
    sign first s neg /\ magnitude m a /\ c == (if neg then - a else a) /\
    subscript q (Degrees lq) /\ subscript z iz /\ formula symbol false rest ts0 /\
    ws = (s ++ m ++ ("Q_" ++ q)%string :: (symbol ++ "_" ++ z)%string :: rest)%list /\
    ts = mk_term lq iz c :: ts0.
Proof.
  destruct 1 as [first|first s neg m a c q lq z iz rest ts]; [now left|right].
  exists s, neg, m, a, c, q, lq, z, iz, rest, ts. repeat (split; [assumption|]). split; reflexivity.
Qed.

Lemma formula_inj symbol first ws ts ts' : formula symbol first ws ts -> formula symbol first ws ts' ->
  Forall2 same_term ts ts'.
Proof.
  intros H. revert ts'. induction H as [first|first s neg m a c q lq z iz rest ts Sg M C Q Z F IH]; intros ts' H'.
  - apply formula_cases in H' as [(_ & ->)|(s & neg & m & a & c & q & lq & z & iz & rest & ts & _ & _ & _ & _ & _ & _ & E & _)];
      [constructor|]. exfalso. destruct s, m; discriminate E.
  - apply formula_cases in H' as [(E & _)|(s' & neg' & m' & a' & c' & q' & lq' & z' & iz' & rest' & ts0 & Sg' & M'
      & C' & Q' & Z' & F' & E & ->)].
    { exfalso. destruct s, m; discriminate E. }
    symmetry in E.
    apply (sign_cut first s' neg' s neg) in E as (-> & E); auto.
    2,3: eapply rest_head; eassumption.
    2,3: intros X; destruct m, m'; discriminate X.
    destruct (magnitude_cut _ _ _ _ _ _ _ _ M' M E) as (Ea & -> & Er). injection Er as Ez ->.
    apply sapp_inv_head in Ez. injection Ez as ->. constructor; [|now apply IH].
    split; [|split]; cbn [t_Q t_Z t_coeff].
    + pose proof (subscript_inj _ _ _ Q Q') as X. now injection X.
    + exact (subscript_inj _ _ _ Z Z').
    + rewrite C, C'. destruct neg; now rewrite Ea.
Qed.

(** C129: a text writes at most one formula. *)
Theorem says_one :
  forall symbol text ts ts', says symbol text ts -> says symbol text ts' -> Forall2 same_term ts ts'.
Proof.
  intros symbol text ts ts' (ws & W & E & F) (ws' & W' & E' & F'). subst text.
  apply concat_inj in E'; [|assumption|assumption]. subst ws'. eapply formula_inj; eauto.
Qed.

(** C129: so formulae that are printed alike are the same. *)
Theorem expr_injective :
  forall symbol ts ts', blank_free symbol -> Forall plain_term ts -> Forall plain_term ts' ->
  expr_latex symbol ts = expr_latex symbol ts' -> Forall2 same_term ts ts'.
Proof.
  intros symbol ts ts' S F F' E. apply (says_one symbol (expr_latex symbol ts)); [now apply expr_says|].
  rewrite E. now apply expr_says.
Qed.

(** Terms with zero coefficients are left out, after a first one that is not. *)
Theorem zero_dropped :
  forall symbol t ts, ~ t_coeff t == 0 ->
  expr_latex symbol (t :: ts) = expr_latex symbol (t :: filter (fun t => negb (Qeq_bool (t_coeff t) 0)) ts).
Proof.
  intros symbol t ts N. unfold expr_latex.
  assert (L : forall i j, (0 < i)%nat -> (0 < j)%nat ->
    terms_latex symbol i ts = terms_latex symbol j (filter (fun t => negb (Qeq_bool (t_coeff t) 0)) ts)).
  { induction ts as [|u ts IH]; intros i j I J; [reflexivity|]. cbn [filter].
    destruct (Qeq_bool (t_coeff u) 0) eqn:E; cbn [negb].
    - cbn [terms_latex]. unfold term_latex at 1. rewrite E. cbn [String.eqb]. apply IH; lia.
    - cbn [terms_latex]. rewrite (IH (S i) (S j)) by lia.
      destruct (Nat.ltb_spec 0 i); [|lia]. destruct (Nat.ltb_spec 0 j); [|lia]. reflexivity. }
  cbn [terms_latex]. now rewrite (L 1%nat 1%nat) by lia.
Qed.

(* ------------------------------------------------------------------ *)
(** * Cases *)

(** The example of the documentation, winconv.py 720-722. *)
Definition documented : list term :=
  [mk_term [0; 0; 0]%Z (Degrees [0; 0; 0]%Z) 1; mk_term [0; 0; 0]%Z (Special "ic") (-1);
   mk_term [1; 1; 0]%Z (Degrees [1; 1; 0]%Z) (1 # 3)].

Example expr_case :
  Forall plain_term documented /\
  expr_latex "\zeta" documented
  = "Q_{000} \zeta_{000} - Q_{000} \zeta_\mathrm{ic} + \frac{1}{3} Q_{110} \zeta_{110}".
Proof.
  split; [|reflexivity].
  assert (D : forall a b c, In a [0; 1]%Z -> In b [0; 1]%Z -> In c [0; 1]%Z -> plain (Degrees [a; b; c]%Z)).
  { intros a b c A B C. split; [discriminate|]. repeat constructor;
      cbn [In] in *; destruct A as [<-|[<-|[]]], B as [<-|[<-|[]]], C as [<-|[<-|[]]]; lia. }
  repeat constructor; try discriminate; try apply D; cbn; auto; lia.
Qed.

(** C129 fails for degrees of two digits: they run together. *)
Theorem degrees_refuted :
  exists ts ts', Forall (fun t => ~ t_coeff t == 0) ts /\ ~ Forall2 same_term ts ts' /\
    forall symbol, expr_latex symbol ts = expr_latex symbol ts'.
Proof.
  exists [mk_term [1; 10; 1]%Z (Degrees [0; 0; 0]%Z) 1], [mk_term [11; 0; 1]%Z (Degrees [0; 0; 0]%Z) 1].
  split; [repeat constructor; discriminate|]. split; [|reflexivity].
  intros H. inversion H as [|? ? ? ? (E & _) _]; subst. discriminate E.
Qed.

(** C129 fails when the first coefficient is zero: the text begins with a plus
    sign and writes no formula. *)
Theorem leading_plus_refuted :
  exists t u, plain_term u /\ t_coeff t == 0 /\
    expr_latex "\zeta" [t; u] = "+ " ++ expr_latex "\zeta" [u] /\
    forall ts, ~ says "\zeta" (expr_latex "\zeta" [t; u]) ts.
Proof.
  exists (mk_term [1; 1; 0]%Z (Degrees [1; 1; 0]%Z) 0), (mk_term [0; 0; 0]%Z (Degrees [0; 0; 0]%Z) 1).
  split; [|split; [reflexivity|split; [reflexivity|]]].
  - split; [discriminate|]. split; (split; [discriminate|repeat constructor; lia]).
  - intros ts (ws & W & E & F).
    change (expr_latex "\zeta" _) with (String.concat " " ["+"; "Q_{000}"; "\zeta_{000}"]) in E.
    apply concat_inj in E; [|repeat constructor; discriminate|exact W]. subst ws.
    apply formula_cases in F as [(E & _)|(s & neg & m & a & c & q & lq & z & iz & rest & ts0 & Sg & M & _ & _ & _ & _
      & E & _)]; [discriminate E|].
    inversion Sg; subst; cbn [List.app] in E; [|discriminate E].
    now destruct (rest_head m a q _ M _ _ (eq_sym E)).
Qed.

Print Assumptions expr_says.
Print Assumptions says_one.
Print Assumptions expr_injective.
Print Assumptions zero_dropped.
Print Assumptions degrees_refuted.
Print Assumptions leading_plus_refuted.
