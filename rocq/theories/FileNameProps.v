(* Paths of saved measurements (C47). *)
From Coq Require Import String Ascii.
From Coq Require Import ZArith List Lia Bool.
From Verif Require Import Base StrModel StrProps Dec FileNameModel.
Import ListNotations.
Local Open Scope string_scope.

(* ------------------------------------------------------------------ *)
(* Vocabulary                                                          *)

(** The text does not begin with a digit. *)
Definition no_digit_first (s : string) : Prop :=
  match s with "" => True | String c _ => digit_value c = None end.

(** An output tag free of dots and slashes that does not begin with a digit. *)
Definition plain_tag (m : meas) : Prop :=
  free_of "." (output_tag m) /\ free_of "/" (output_tag m) /\ no_digit_first (output_tag m).

Definition one_digit (z : Z) : Prop := (0 <= z < 10)%Z.

(** Whether the bin index matters to a form. *)
Definition uses_index (f : string) : bool := (f =? "off-diag") || (f =? "row").

(* ------------------------------------------------------------------ *)
(* Text                                                                *)

Lemma free_of_app c a b : free_of c (a ++ b) <-> free_of c a /\ free_of c b.
Proof. induction a as [|x a IH]; cbn; [tauto|]. rewrite IH. tauto. Qed.

Lemma digits_free c s : digit_value c = None -> all_digits s -> free_of c s.
Proof.
  intros H. induction s as [|x s IH]; cbn [free_of all_digits]; [tauto|]. intros [Hx Hs].
  split; [|auto]. intros ->. contradiction.
Qed.

Lemma to_string_free c z : digit_value c = None -> c <> "-"%char -> free_of c (to_string z).
Proof.
  intros H N. unfold to_string. destruct (Z.ltb_spec z 0).
  - cbn. split; [congruence|]. apply digits_free; [exact H|]. apply dec_digits. lia.
  - apply digits_free; [exact H|]. apply dec_digits. lia.
Qed.

Lemma digits_cut a b s t : all_digits a -> all_digits b ->
  no_digit_first s -> no_digit_first t -> a ++ s = b ++ t -> a = b /\ s = t.
Proof.
  revert b; induction a as [|x a IH]; intros [|y b]; cbn [all_digits append]; intros Ha Hb Hs Ht E.
  - now split.
  - subst s. cbn in Hs. destruct Hb as [Hb _]. contradiction.
  - subst t. cbn in Ht. destruct Ha as [Ha _]. contradiction.
  - injection E as -> E. destruct (IH b) as [-> ->]; tauto.
Qed.

Lemma dec_head z : (0 <= z)%Z -> exists c r, dec z = String c r /\ digit_value c <> None.
Proof.
  intros H. pose proof (dec_digits z H) as D. pose proof (dec_nonempty z) as N.
  destruct (dec z) as [|c r]; [contradiction|]. exists c, r. split; [reflexivity|]. apply D.
Qed.

Lemma to_string_cut z z' s t : no_digit_first s -> no_digit_first t ->
  to_string z ++ s = to_string z' ++ t -> z = z' /\ s = t.
Proof.
  intros Hs Ht E. unfold to_string in E.
  destruct (Z.ltb_spec z 0) as [H|H], (Z.ltb_spec z' 0) as [H'|H'].
  - cbn in E. injection E as E.
    destruct (digits_cut _ _ _ _ (dec_digits (- z) ltac:(lia)) (dec_digits (- z') ltac:(lia)) Hs Ht E) as [D ->].
    split; [|reflexivity]. apply dec_inj in D; lia.
  - exfalso. destruct (dec_head z' H') as (c & r & Ec & Dc). rewrite Ec in E. cbn in E.
    injection E as <- _. now apply Dc.
  - exfalso. destruct (dec_head z H) as (c & r & Ec & Dc). rewrite Ec in E. cbn in E.
    injection E as -> _. now apply Dc.
  - destruct (digits_cut _ _ _ _ (dec_digits z H) (dec_digits z' H') Hs Ht E) as [D ->].
    split; [|reflexivity]. apply dec_inj in D; lia.
Qed.

Lemma to_string_head z : exists c r, to_string z = String c r
  /\ (c = "-"%char \/ digit_value c <> None).
Proof.
  unfold to_string. destruct (Z.ltb_spec z 0).
  - exists "-"%char, (dec (- z)). split; [reflexivity|now left].
  - destruct (dec_head z) as (c & r & E & D); [lia|]. exists c, r. tauto.
Qed.

Lemma one_digit_text z : one_digit z -> to_string z = String (digit z) "".
Proof. intros H. rewrite to_string_nonneg by (unfold one_digit in H; lia). now apply dec_small. Qed.

Lemma digit_inj z z' : one_digit z -> one_digit z' -> digit z = digit z' -> z = z'.
Proof.
  intros H H' E. apply (f_equal digit_value) in E. rewrite !digit_value_digit in E by assumption.
  congruence.
Qed.

Lemma split_plain s : free_of "/" s -> split_slash s = [s].
Proof.
  induction s as [|c s IH]; [reflexivity|]. intros [Hc Hs]. cbn [split_slash].
  destruct (Ascii.eqb_spec c "/"); [contradiction|]. now rewrite IH.
Qed.

Lemma last_dot_plain s : free_of "." s -> last_dot s = None.
Proof.
  induction s as [|c s IH]; [reflexivity|]. intros [Hc Hs]. cbn [last_dot].
  rewrite IH by exact Hs. now destruct (Ascii.eqb_spec c ".").
Qed.

Lemma last_dot_app a b : free_of "." b -> last_dot (a ++ "." ++ b) = Some (a, b).
Proof.
  intros H. induction a as [|c a IH].
  - cbn [append]. change (last_dot (String "." b) = Some ("", b)). cbn [last_dot].
    rewrite last_dot_plain by exact H. reflexivity.
  - cbn [append] in *. cbn [last_dot]. now rewrite IH.
Qed.

Lemma save_path_plain dir s suf : free_of "/" s -> s <> "" -> s <> "." ->
  save_path dir s suf = Ok (dir ++ [(stem s ++ suf)%string])%list.
Proof.
  intros H1 H2 H3. unfold save_path, components. rewrite split_plain by exact H1. cbn [filter].
  apply String.eqb_neq in H2, H3. now rewrite H2, H3.
Qed.

Lemma stem_plain s : free_of "." s -> stem s = s.
Proof. intros H. unfold stem. now rewrite last_dot_plain. Qed.

Lemma save_path_inj dir s s' suf : 
  free_of "/" s -> free_of "." s -> s <> "" ->
  free_of "/" s' -> free_of "." s' -> s' <> "" ->
  save_path dir s suf = save_path dir s' suf -> s = s'.
Proof.
  intros A1 A2 A3 B1 B2 B3 E.
  rewrite save_path_plain in E; [|exact A1|exact A3|intros ->; now destruct A2].
  rewrite save_path_plain in E; [|exact B1|exact B3|intros ->; now destruct B2].
  injection E as E. apply app_inv_head in E. injection E as E.
  rewrite !stem_plain in E by assumption. now apply sapp_inv_tail in E.
Qed.

(* ------------------------------------------------------------------ *)
(* Two-point statistics                                                *)

Ltac stat_cases H :=
  repeat match type of H with
  | context[String.eqb ?a ?b] => destruct (String.eqb_spec a b)
  end; try discriminate H.

Lemma twopt_shape m n : twopt_name m = Ok n -> exists p,
  n = p ++ to_string (ELL m) ++ output_tag m
  /\ (stat m = "powspec" /\ p = "pk" \/ stat m = "2pcf" /\ p = "xi"
      \/ stat m = "2pcf-win" /\ p = "xiw").
Proof.
  unfold twopt_name. intros H. stat_cases H; injection H as <-;
    [exists "pk"|exists "xi"|exists "xiw"]; (split; [reflexivity|auto]).
Qed.

Lemma prefix_letters_free c p q : (p = "pk" \/ p = "xi" \/ p = "xiw" \/ p = "bk" \/ p = "zeta"
  \/ p = "zetaw") -> (c = "." \/ c = "/")%char -> free_of c q -> free_of c (p ++ q).
Proof.
  intros Hp Hc Hq. apply free_of_app. split; [|exact Hq].
  destruct Hc as [-> | ->]; repeat (destruct Hp as [-> |Hp]; [cbn; repeat split; discriminate|]);
    subst; cbn; repeat split; discriminate.
Qed.

Lemma dot_not_digit : digit_value "." = None. Proof. reflexivity. Qed.
Lemma slash_not_digit : digit_value "/" = None. Proof. reflexivity. Qed.

Lemma twopt_plain m n : twopt_name m = Ok n -> plain_tag m ->
  free_of "/" n /\ free_of "." n /\ n <> "".
Proof.
  intros H (P1 & P2 & _). destruct (twopt_shape m n H) as (p & -> & Hp).
  assert (Hq : p = "pk" \/ p = "xi" \/ p = "xiw" \/ p = "bk" \/ p = "zeta" \/ p = "zetaw") by tauto.
  repeat split.
  - apply prefix_letters_free; [exact Hq|tauto|]. apply free_of_app. split; [|exact P2].
    apply to_string_free; [reflexivity|discriminate].
  - apply prefix_letters_free; [exact Hq|tauto|]. apply free_of_app. split; [|exact P1].
    apply to_string_free; [reflexivity|discriminate].
  - destruct Hq as [-> |[-> |[-> |[-> |[-> | ->]]]]]; discriminate.
Qed.

(** The part of the property that holds: with plain tags, two-point
    measurements saved to one path have the same statistic, degree and tag. *)
Theorem twopt_distinct dir f m m' p : plain_tag m -> plain_tag m' ->
  twopt_path dir f m = Ok p -> twopt_path dir f m' = Ok p ->
  stat m = stat m' /\ ELL m = ELL m' /\ output_tag m = output_tag m'.
Proof.
  intros P P' H H'. unfold twopt_path in H, H'.
  destruct (twopt_name m) as [n|] eqn:En; [|discriminate].
  destruct (twopt_name m') as [n'|] eqn:En'; [|discriminate]. cbn [bind] in H, H'.
  destruct (twopt_plain m n En P) as (F1 & F2 & F3).
  destruct (twopt_plain m' n' En' P') as (F1' & F2' & F3').
  assert (E : n = n') by (apply (save_path_inj dir _ _ (suffix_of f)); auto; congruence).
  destruct (twopt_shape m n En) as (q & -> & Hq). destruct (twopt_shape m' n' En') as (q' & -> & Hq').
  destruct P as (_ & _ & D), P' as (_ & _ & D').
  destruct (to_string_head (ELL m)) as (c & r & Ec & Dc).
  destruct (to_string_head (ELL m')) as (c' & r' & Ec' & Dc').
  destruct Hq as [[Hs ->]|[[Hs ->]|[Hs ->]]], Hq' as [[Hs' ->]|[[Hs' ->]|[Hs' ->]]];
    rewrite Hs, Hs'; cbn [append] in E;
    try (rewrite Ec, Ec' in E; cbn [append] in E; injection E; intros; subst;
         exfalso; intuition (discriminate || congruence));
    try discriminate.
  all: split; [reflexivity|]; repeat (injection E as E); now apply to_string_cut in E.
Qed.

(* ------------------------------------------------------------------ *)
(* Three-point statistics                                              *)

Definition wa_text (m : meas) : string :=
  if stat m =? "3pcf-win-wa" then "_wa" ++ to_string (wa_i m) ++ to_string (wa_j m) else "".

Lemma threept_shape m n : threept_name m = Ok n -> exists p b,
  n = p ++ to_string (ell1 m) ++ to_string (ell2 m) ++ to_string (ELL m) ++ b
      ++ wa_text m ++ output_tag m
  /\ binform m = Some b
  /\ (stat m = "bispec" /\ p = "bk" \/ stat m = "3pcf" /\ p = "zeta"
      \/ stat m = "3pcf-win" /\ p = "zetaw" \/ stat m = "3pcf-win-wa" /\ p = "zetaw").
Proof.
  unfold threept_name, wa_text. intros H. destruct (binform m) as [b|]; [|now stat_cases H].
  destruct (String.eqb_spec (stat m) "bispec") as [E|_];
    [rewrite E; injection H as <-; exists "bk", b; rewrite !sapp_assoc; cbn; tauto|].
  destruct (String.eqb_spec (stat m) "3pcf") as [E|_];
    [rewrite E; injection H as <-; exists "zeta", b; rewrite !sapp_assoc; cbn; tauto|].
  destruct (String.eqb_spec (stat m) "3pcf-win") as [E|_];
    [rewrite E; injection H as <-; exists "zetaw", b; rewrite !sapp_assoc; cbn; tauto|].
  destruct (String.eqb_spec (stat m) "3pcf-win-wa") as [E|_]; [|discriminate].
  injection H as <-. exists "zetaw", b. rewrite !sapp_assoc. tauto.
Qed.

Lemma binform_shape m b : binform m = Some b ->
  form m = "full" /\ b = "_full" \/ form m = "row" /\ b = "_row" ++ to_string (idx_bin m)
  \/ form m = "off-diag" /\ b = "_offdiag" ++ to_string (idx_bin m)
  \/ form m = "diag" /\ b = "_diag".
Proof. unfold binform. intros H. stat_cases H; injection H as <-; tauto. Qed.

(** Three-point measurements whose names are read back without doubt. *)
Definition plain3 (m : meas) : Prop :=
  plain_tag m /\ one_digit (ell1 m) /\ one_digit (ell2 m)
  /\ (stat m = "3pcf-win" -> forall r, output_tag m <> "_wa" ++ r)
  /\ (stat m = "3pcf-win-wa" -> one_digit (wa_i m)).

Lemma threept_plain m n : threept_name m = Ok n -> plain_tag m ->
  free_of "/" n /\ free_of "." n /\ n <> "".
Proof.
  intros H (P1 & P2 & _). destruct (threept_shape m n H) as (p & b & -> & Hb & Hp).
  assert (Hq : p = "pk" \/ p = "xi" \/ p = "xiw" \/ p = "bk" \/ p = "zeta" \/ p = "zetaw") by tauto.
  assert (T : forall c, digit_value c = None -> c <> "-"%char -> (c = "." \/ c = "/")%char ->
    free_of c (output_tag m) ->
    free_of c (to_string (ell1 m) ++ to_string (ell2 m) ++ to_string (ELL m) ++ b
               ++ wa_text m ++ output_tag m)).
  { intros c H1 H2 H3 H4. rewrite !free_of_app.
    repeat split; try (apply to_string_free; assumption); try exact H4.
    - apply binform_shape in Hb.
      destruct Hb as [[_ ->]|[[_ ->]|[[_ ->]|[_ ->]]]];
        destruct H3 as [-> | ->]; cbn; repeat split; try discriminate; now apply to_string_free.
    - unfold wa_text. destruct (stat m =? _); [|exact I]. rewrite !free_of_app.
      split; [destruct H3 as [-> | ->]; cbn; repeat split; discriminate|].
      split; now apply to_string_free. }
  repeat split.
  - apply prefix_letters_free; [exact Hq|tauto|]. apply T; (exact P2 || reflexivity || discriminate || tauto).
  - apply prefix_letters_free; [exact Hq|tauto|]. apply T; (exact P1 || reflexivity || discriminate || tauto).
  - destruct Hq as [-> |[-> |[-> |[-> |[-> | ->]]]]]; discriminate.
Qed.

(** A bin form followed by more text is read back. *)
Lemma binform_cut m m' b b' s t : binform m = Some b -> binform m' = Some b' ->
  no_digit_first s -> no_digit_first t -> b ++ s = b' ++ t ->
  form m = form m' /\ (uses_index (form m) = true -> idx_bin m = idx_bin m') /\ s = t.
Proof.
  intros H H' Hs Ht E. apply binform_shape in H, H'.
  destruct H as [[-> ->]|[[-> ->]|[[-> ->]|[-> ->]]]], H' as [[-> ->]|[[-> ->]|[[-> ->]|[-> ->]]]];
    cbn [append] in E; try discriminate E; repeat (injection E as E); (split; [reflexivity|]).
  - now split.
  - apply to_string_cut in E as [-> ->]; auto.
  - apply to_string_cut in E as [-> ->]; auto.
  - now split.
Qed.

Lemma one_digit_cut z z' s t : one_digit z -> one_digit z' ->
  to_string z ++ s = to_string z' ++ t -> z = z' /\ s = t.
Proof.
  intros H H' E. rewrite !one_digit_text in E by assumption. cbn [append] in E.
  injection E as E1 E2. split; [now apply digit_inj|exact E2].
Qed.

Lemma wa_first m : no_digit_first (output_tag m) -> no_digit_first (wa_text m ++ output_tag m).
Proof. intros H. unfold wa_text. destruct (stat m =? _); [reflexivity|exact H]. Qed.

Lemma binform_first m b s : binform m = Some b -> no_digit_first (b ++ s).
Proof.
  intros H. apply binform_shape in H. now destruct H as [[_ ->]|[[_ ->]|[[_ ->]|[_ ->]]]].
Qed.

Lemma stat_cut p p' d d' s t : one_digit d -> one_digit d' ->
  In p ["bk"; "zeta"; "zetaw"] -> In p' ["bk"; "zeta"; "zetaw"] ->
  p ++ to_string d ++ s = p' ++ to_string d' ++ t -> p = p' /\ to_string d ++ s = to_string d' ++ t.
Proof.
  intros H H' Hp Hp' E. pose proof (digit_value_digit d H) as V. pose proof (digit_value_digit d' H') as V'.
  rewrite !one_digit_text in E |- * by assumption.
  destruct Hp as [<-|[<-|[<-|[]]]], Hp' as [<-|[<-|[<-|[]]]]; cbn [append] in E |- *;
    try discriminate E; try (repeat (injection E as E); split; [reflexivity|congruence]).
  - exfalso. injection E as E _. rewrite E in V. discriminate.
  - exfalso. injection E as E _. rewrite <- E in V'. discriminate.
Qed.

(** With plain tags and single-digit degrees, three-point measurements saved
    to one path have the same statistic, degrees, form, bin index where the
    form has one, wide-angle orders where the statistic has them, and tag. *)
Theorem threept_distinct dir f m m' p : plain3 m -> plain3 m' ->
  threept_path dir f m = Ok p -> threept_path dir f m' = Ok p ->
  stat m = stat m' /\ ell1 m = ell1 m' /\ ell2 m = ell2 m' /\ ELL m = ELL m'
  /\ form m = form m' /\ (uses_index (form m) = true -> idx_bin m = idx_bin m')
  /\ (stat m = "3pcf-win-wa" -> wa_i m = wa_i m' /\ wa_j m = wa_j m')
  /\ output_tag m = output_tag m'.
Proof.
  intros (P & O1 & O2 & W & V) (P' & O1' & O2' & W' & V') H H'. unfold threept_path in H, H'.
  destruct (threept_name m) as [n|] eqn:En; [|discriminate].
  destruct (threept_name m') as [n'|] eqn:En'; [|discriminate]. cbn [bind] in H, H'.
  destruct (threept_plain m n En P) as (F1 & F2 & F3).
  destruct (threept_plain m' n' En' P') as (F1' & F2' & F3').
  assert (E : n = n') by (apply (save_path_inj dir _ _ (suffix_of f)); auto; congruence).
  destruct (threept_shape m n En) as (q & b & -> & Hb & Hq).
  destruct (threept_shape m' n' En') as (q' & b' & -> & Hb' & Hq').
  destruct P as (_ & _ & D), P' as (_ & _ & D'). clear H H' F1 F2 F3 F1' F2' F3' En En'.
  apply stat_cut in E; [|assumption|assumption|cbn; intuition|cbn; intuition].
  destruct E as [Eq E].
  apply one_digit_cut in E as [E1 E]; [|assumption|assumption].
  apply one_digit_cut in E as [E2 E]; [|assumption|assumption].
  apply to_string_cut in E as [E3 E]; [|now apply (binform_first m)|now apply (binform_first m')].
  apply (binform_cut m m') in E as (Ef & Ei & E); [|assumption|assumption|now apply wa_first|now apply wa_first].
  clear Hb Hb'. unfold wa_text in E.
  assert (Ws : stat m = "3pcf-win-wa" -> stat m' = "3pcf-win-wa" ->
    (wa_i m = wa_i m' /\ wa_j m = wa_j m') /\ output_tag m = output_tag m').
  { intros S S'. rewrite S, S', String.eqb_refl in E. rewrite !sapp_assoc in E.
    apply sapp_inv_head in E. apply one_digit_cut in E as [-> E]; [|auto|auto].
    apply to_string_cut in E as [-> ->]; auto. }
  destruct Hq as [[S ->]|[[S ->]|[[S ->]|[S ->]]]], Hq' as [[S' ->]|[[S' ->]|[[S' ->]|[S' ->]]]];
    try discriminate Eq.
  1-3: rewrite S, S' in E |- *; cbn [String.eqb append] in E; cbn in E; 
       repeat (split; [assumption || reflexivity|]); split; [intros X; discriminate X|exact E].
  - exfalso. rewrite S, S' in E. cbn in E. apply (W S _ E).
  - exfalso. rewrite S, S' in E. cbn in E. symmetry in E. apply (W' S' _ E).
  - destruct (Ws S S') as [Wa Et]. rewrite S, S'. repeat (split; [assumption || reflexivity|]).
    split; [intros _; exact Wa|exact Et].
Qed.

(* ------------------------------------------------------------------ *)
(* Where paths collide                                                 *)

Definition with_tag (m : meas) (t : string) : meas :=
  mk_meas (stat m) (ell1 m) (ell2 m) (ELL m) (form m) (idx_bin m) (wa_i m) (wa_j m) (Some t).

Lemma stem_dotted a b : a <> "" -> b <> "" -> free_of "." b -> stem (a ++ "." ++ b) = a.
Proof.
  intros Ha Hb F. unfold stem. rewrite last_dot_app by exact F.
  apply String.eqb_neq in Ha, Hb. now rewrite Ha, Hb.
Qed.

(** Whatever follows the last dot of a tag is lost: every measurement, with
    tags "a.b" and "a.b'", goes to the same path, which is that of tag "a". *)
Theorem twopt_dotted dir f m a b n : b <> "" -> free_of "." b -> free_of "/" b -> free_of "/" a ->
  free_of "." a ->
  twopt_path dir f (with_tag m a) = Ok n ->
  twopt_path dir f (with_tag m (a ++ "." ++ b)) = Ok n.
Proof.
  intros Hb Fb Sb Sa Fa H. unfold twopt_path in *.
  destruct (twopt_name (with_tag m a)) as [n0|] eqn:En; [|discriminate]. cbn [bind] in H.
  assert (E : twopt_name (with_tag m (a ++ "." ++ b)) = Ok (n0 ++ "." ++ b)).
  { unfold twopt_name, with_tag, output_tag in *. cbn [stat tag ELL] in *.
    stat_cases En; injection En as <-; cbn [append]; rewrite ?sapp_assoc; cbn [append];
      rewrite ?sapp_assoc; reflexivity. }
  rewrite E. cbn [bind].
  assert (Hn : free_of "/" n0 /\ free_of "." n0 /\ n0 <> "").
  { destruct (twopt_shape _ _ En) as (p & -> & Hp). unfold with_tag, output_tag. cbn [tag ELL].
    assert (Hq : p = "pk" \/ p = "xi" \/ p = "xiw" \/ p = "bk" \/ p = "zeta" \/ p = "zetaw") by tauto.
    repeat split.
    - apply prefix_letters_free; [exact Hq|tauto|]. apply free_of_app. split; [|exact Sa].
      apply to_string_free; [reflexivity|discriminate].
    - apply prefix_letters_free; [exact Hq|tauto|]. apply free_of_app. split; [|exact Fa].
      apply to_string_free; [reflexivity|discriminate].
    - destruct Hq as [-> |[-> |[-> |[-> |[-> | ->]]]]]; discriminate. }
  destruct Hn as (N1 & N2 & N3).
  rewrite <- H, !save_path_plain.
  - rewrite stem_dotted by assumption. now rewrite stem_plain.
  - exact N1.
  - exact N3.
  - intros ->. now destruct N2.
  - rewrite !free_of_app. cbn. repeat split; try discriminate; assumption.
  - destruct n0; [contradiction|discriminate].
  - destruct n0 as [|c n0]; [contradiction|]. intros X. injection X as -> X. now destruct N2.
Qed.

Theorem threept_dotted dir f m a b n : b <> "" -> free_of "." b -> free_of "/" b -> free_of "/" a ->
  free_of "." a ->
  threept_path dir f (with_tag m a) = Ok n ->
  threept_path dir f (with_tag m (a ++ "." ++ b)) = Ok n.
Proof.
  intros Hb Fb Sb Sa Fa H. unfold threept_path in *.
  destruct (threept_name (with_tag m a)) as [n0|] eqn:En; [|discriminate]. cbn [bind] in H.
  assert (E : threept_name (with_tag m (a ++ "." ++ b)) = Ok (n0 ++ "." ++ b)).
  { unfold threept_name, with_tag, output_tag, binform in *. cbn [stat tag ELL ell1 ell2 form idx_bin wa_i wa_j] in *.
    destruct (if form m =? "full" then _ else _) as [bf|]; [|now stat_cases En].
    cbn [bind] in *. stat_cases En; injection En as <-; cbn [append]; rewrite ?sapp_assoc; cbn [append];
      rewrite ?sapp_assoc; reflexivity. }
  rewrite E. cbn [bind].
  assert (Hn : free_of "/" n0 /\ free_of "." n0 /\ n0 <> "").
  { destruct (threept_shape _ _ En) as (p & bf & -> & Hbf & Hp).
    assert (Hq : p = "pk" \/ p = "xi" \/ p = "xiw" \/ p = "bk" \/ p = "zeta" \/ p = "zetaw") by tauto.
    assert (T : forall c, digit_value c = None -> c <> "-"%char -> (c = "." \/ c = "/")%char ->
      free_of c a ->
      free_of c (to_string (ell1 (with_tag m a)) ++ to_string (ell2 (with_tag m a)) ++ to_string (ELL (with_tag m a)) ++ bf
               ++ wa_text (with_tag m a) ++ output_tag (with_tag m a))).
    { intros c H1 H2 H3 H4. rewrite !free_of_app.
      repeat split; try (apply to_string_free; assumption); try exact H4.
      - apply binform_shape in Hbf.
        destruct Hbf as [[_ ->]|[[_ ->]|[[_ ->]|[_ ->]]]];
          destruct H3 as [-> | ->]; cbn; repeat split; try discriminate; now apply to_string_free.
      - unfold wa_text. destruct (stat _ =? _); [|exact I]. rewrite !free_of_app.
        split; [destruct H3 as [-> | ->]; cbn; repeat split; discriminate|].
        split; now apply to_string_free. }
    repeat split.
    - apply prefix_letters_free; [exact Hq|tauto|]. apply T; (exact Sa || reflexivity || discriminate || tauto).
    - apply prefix_letters_free; [exact Hq|tauto|]. apply T; (exact Fa || reflexivity || discriminate || tauto).
    - destruct Hq as [-> |[-> |[-> |[-> |[-> | ->]]]]]; discriminate. }
  destruct Hn as (N1 & N2 & N3).
  rewrite <- H, !save_path_plain.
  - rewrite stem_dotted by assumption. now rewrite stem_plain.
  - exact N1.
  - exact N3.
  - intros ->. now destruct N2.
  - rewrite !free_of_app. cbn. repeat split; try discriminate; assumption.
  - destruct n0; [contradiction|discriminate].
  - destruct n0 as [|c n0]; [contradiction|]. intros X. injection X as -> X. now destruct N2.
Qed.

Definition m2 (l : Z) (t : string) : meas := mk_meas "powspec" 0 0 l "diag" 0 0 0 (Some t).
Definition m3 (s : string) (a b : Z) (t : string) : meas := mk_meas s a b 0 "full" 0 1 0 (Some t).

(** C47 fails as stated: two tags, two degrees, two triplets of degrees and two
    statistics that share a path. *)
Theorem paths_refuted :
  twopt_path [] Txt (m2 0 "_v1.0") = twopt_path [] Txt (m2 0 "_v1.1")
  /\ twopt_path [] Txt (m2 1 "0_x") = twopt_path [] Txt (m2 10 "_x")
  /\ threept_path [] Txt (m3 "bispec" 1 11 "") = threept_path [] Txt (m3 "bispec" 11 1 "")
  /\ threept_path [] Txt (m3 "3pcf-win" 0 0 "_wa10") = threept_path [] Txt (m3 "3pcf-win-wa" 0 0 "")
  /\ is_ok (twopt_path [] Txt (m2 0 "_v1.0")) /\ is_ok (twopt_path [] Txt (m2 1 "0_x"))
  /\ is_ok (threept_path [] Txt (m3 "bispec" 1 11 ""))
  /\ is_ok (threept_path [] Txt (m3 "3pcf-win" 0 0 "_wa10")).
Proof.
  repeat split; try reflexivity; eexists; reflexivity.
Qed.

Example path_case :
  threept_path ["out"] Npz (mk_meas "3pcf" 1 1 0 "off-diag" 12 0 0 (Some "_ngc"))
  = Ok ["out"; "zeta110_offdiag12_ngc.npz"]
  /\ twopt_path ["out"] Txt (m2 2 "_v1.0") = Ok ["out"; "pk2_v1.txt"].
Proof. split; reflexivity. Qed.

(** A form that is none of the four raises. *)
Theorem form_unbound dir f m : In (stat m) ["bispec"; "3pcf"; "3pcf-win"; "3pcf-win-wa"] ->
  ~ In (form m) ["diag"; "off-diag"; "row"; "full"] ->
  threept_path dir f m = Err NameError.
Proof.
  intros Hs Hf. unfold threept_path, threept_name.
  assert (B : binform m = None).
  { unfold binform.
    repeat match goal with |- context[String.eqb ?a ?b] => destruct (String.eqb_spec a b) as [E|];
      [exfalso; apply Hf; rewrite E; cbn; tauto|] end. reflexivity. }
  rewrite B. destruct Hs as [<-|[<-|[<-|[<-|[]]]]]; reflexivity.
Qed.

Print Assumptions twopt_distinct.
Print Assumptions threept_distinct.
Print Assumptions twopt_dotted.
Print Assumptions threept_dotted.
Print Assumptions paths_refuted.
