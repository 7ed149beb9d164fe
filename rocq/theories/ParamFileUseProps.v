(* C89-C92 continued: files of plain assignments, names inside values,
   used-parameter files, and buffers. *)
From Coq Require Import String Ascii List Arith ZArith Reals Bool Lia Lra Permutation.
From Flocq Require Import Core.
From Verif Require Import Base StrModel StrProps Dec ArrayModel ArrayProofs
  MeshModel ParamModel ParamProps ParamValProps ParamFileModel ParamFileProps.
Import ListNotations.
Local Open Scope nat_scope.
Local Open Scope string_scope.

(* ------------------------------------------------------------------ *)
(** * Lines "name = value" *)

Definition line_of (kv : string * string) : string := fst kv ++ " = " ++ snd kv.

Lemma blank_newline : is_blank_char newline = true.
Proof. reflexivity. Qed.

Lemma text_lines_app s r :
  (forall a b, s <> a ++ String newline b) ->
  text_lines (s ++ String newline r) = s :: text_lines r.
Proof.
  induction s as [|c s IH]; intros N; cbn [append].
  - cbn [text_lines]. rewrite Ascii.eqb_refl. reflexivity.
  - cbn [text_lines]. destruct (Ascii.eqb c newline) eqn:E.
    + apply Ascii.eqb_eq in E. subst. exfalso. now apply (N "" s).
    + rewrite IH; [reflexivity|]. intros a b ->. now apply (N (String c a) b).
Qed.

Lemma blank_free_no_char c s : is_blank_char c = true -> blank_free s ->
  forall a b, s <> a ++ String c b.
Proof.
  intros C F a b ->. apply blank_free_app in F. destruct F as (_ & F). simpl in F.
  destruct F. congruence.
Qed.

Lemma no_char_app c s t :
  (forall a b, s <> a ++ String c b) -> (forall a b, t <> a ++ String c b) ->
  forall a b, s ++ t <> a ++ String c b.
Proof.
  intros S T a b E. destruct (le_lt_dec (String.length s) (String.length a)) as [L|L].
  - destruct (sapp_split _ _ _ _ E L) as (e & -> & E'). now apply (T e b).
  - symmetry in E. destruct (sapp_split _ _ _ _ E) as (e & -> & E'); [lia|].
    destruct e as [|x e].
    + rewrite sapp_nil_r in L. lia.
    + simpl in E'. injection E' as <- _. now apply (S a e).
Qed.

Lemma print_lines_text kvs :
  Forall (fun kv => blank_free (fst kv) /\ blank_free (snd kv)) kvs ->
  text_lines (print_lines kvs) = map line_of kvs.
Proof.
  induction 1 as [|kv kvs (A & B) H IH]; [reflexivity|].
  cbn [print_lines fold_right map]. fold (print_lines kvs).
  rewrite <- IH. unfold line_of.
  rewrite <- (text_lines_app (fst kv ++ " = " ++ snd kv)).
  - now rewrite !sapp_assoc.
  - apply no_char_app; [now apply blank_free_no_char|]. apply no_char_app.
    + intros a b E. destruct a as [|x1 [|x2 [|x3 a]]]; simpl in E; try discriminate.
      all: repeat (injection E as ? E); try discriminate. destruct a; discriminate.
    + now apply blank_free_no_char.
Qed.

(** A name without blanks that occurs across a blank occurs on one side. *)
Lemma occurs_blank k a c b :
  is_blank_char c = true -> blank_free k -> occurs k (a ++ String c b) ->
  occurs k a \/ occurs k b.
Proof.
  intros C F (x & y & E).
  destruct (le_lt_dec (String.length (x ++ k)) (String.length a)) as [L|L].
  - rewrite <- sapp_assoc in E. symmetry in E.
    destruct (sapp_split _ _ _ _ E L) as (e & -> & _). left. exists x, e. now rewrite sapp_assoc.
  - destruct (le_lt_dec (String.length x) (String.length a)) as [L'|L'].
    + symmetry in E. destruct (sapp_split _ _ _ _ E L') as (e & -> & E').
      rewrite slength_app in L. rewrite slength_app in L.
      symmetry in E'. destruct (sapp_split _ _ _ _ E') as (g & -> & E''); [lia|].
      destruct g as [|d g].
      * rewrite sapp_nil_r in L. lia.
      * simpl in E''. injection E'' as <- _. exfalso.
        now apply (blank_free_no_char c (e ++ String c g) C F e g).
    + destruct (sapp_split _ _ _ _ E) as (e & -> & E'); [lia|].
      destruct e as [|d e].
      * rewrite sapp_nil_r in L'. lia.
      * simpl in E'. injection E' as <- ->. right. exists e, y. reflexivity.
Qed.

Lemma occurs_app_l k a b : occurs k a -> occurs k (a ++ b).
Proof. intros (x & y & ->). exists x, (y ++ b). now rewrite !sapp_assoc. Qed.

Lemma occurs_app_r k a b : occurs k b -> occurs k (a ++ b).
Proof. intros (x & y & ->). exists (a ++ x), y. now rewrite !sapp_assoc. Qed.

Definition names : list string := map fst keys.

Lemma find_key_name k s : find_key k keys = Some s -> In k names.
Proof. intros H. apply (in_map fst keys (k, s)). now apply find_key_in. Qed.

Definition checks_name (k : string) : bool :=
  (2 <=? String.length k)%nat &&
  (fix nb s := match s with "" => true | String c t => negb (is_blank_char c) && nb t end) k.

Lemma names_checked : forallb checks_name names = true.
Proof. reflexivity. Qed.

Lemma name_props k : In k names -> blank_free k /\ 2 <= String.length k.
Proof.
  intros H. pose proof (proj1 (forallb_forall _ _) names_checked k H) as C.
  unfold checks_name in C. apply andb_true_iff in C. destruct C as (L & B).
  apply Nat.leb_le in L. split; [|exact L]. clear L H. induction k as [|c k IH]; [exact I|].
  apply andb_true_iff in B. destruct B as (X & B). apply negb_true_iff in X. simpl. auto.
Qed.

Lemma line_spells n v :
  word n -> word v -> spells [n; "="; v] (line_of (n, v)).
Proof.
  intros N V. unfold line_of. cbn [fst snd].
  apply (spells_cons "" n ["="; v] (" = " ++ v)); [exact I|exact N|reflexivity|].
  apply (spells_cons " " "=" [v] (" " ++ v)); [simpl; auto| |reflexivity|].
  - split; [discriminate|]. simpl. auto.
  - pose proof (spells_cons " " v [] "") as Q. rewrite sapp_nil_r in Q.
    apply Q; [simpl; auto|exact V|exact I|]. constructor. exact I.
Qed.

Lemma line_spells_empty n : word n -> spells [n; "="] (line_of (n, "")).
Proof.
  intros N. unfold line_of. cbn [fst snd].
  apply (spells_cons "" n ["="] (" = " ++ "")); [exact I|exact N|reflexivity|].
  apply (spells_cons " " "=" [] " "); [simpl; auto| |reflexivity|].
  - split; [discriminate|]. simpl. auto.
  - constructor. simpl. auto.
Qed.

Definition hash_free (n : string) : Prop := prefix "#" n = false.

Lemma line_prefix n v : word n -> hash_free n -> prefix "#" (line_of (n, v)) = false.
Proof.
  intros (N & _) H. destruct n as [|c n]; [congruence|]. unfold line_of. cbn [fst append].
  unfold hash_free in H. cbn [prefix] in *. destruct (ascii_dec "#" c); [|reflexivity].
  destruct n; discriminate.
Qed.

(** A line "n = v" gives its value to the parameters named in [n] or [v]. *)
Lemma line_gives n v key w :
  word n -> hash_free n -> blank_free v -> In key names ->
  gives (line_of (n, v)) key w <->
  w = v /\ v <> "" /\ (occurs key n \/ occurs key v).
Proof.
  intros N HF V K. destruct (name_props key K) as (BK & LK).
  assert (O : occurs key (line_of (n, v)) <-> occurs key n \/ occurs key v).
  { unfold line_of. cbn [fst snd]. split.
    - intros H. change (n ++ " = " ++ v) with (n ++ String " " ("=" ++ String " " v)) in H.
      apply occurs_blank in H; [|reflexivity|exact BK]. destruct H as [H|H]; [now left|].
      apply occurs_blank in H; [|reflexivity|exact BK]. destruct H as [(x & y & H)|H]; [|now right].
      exfalso. apply (f_equal String.length) in H. rewrite !slength_app in H. simpl in H. lia.
    - intros [H|H]; [now apply occurs_app_l|]. now apply occurs_app_r, occurs_app_r. }
  destruct v as [|c v].
  - split.
    + intros (_ & (n' & r & S) & _).
      pose proof (spells_inj _ _ _ S (line_spells_empty n N)). discriminate.
    + intros (_ & H & _). congruence.
  - assert (W : word (String c v)) by (split; [discriminate|exact V]).
    pose proof (line_spells n _ N W) as S. split.
    + intros (_ & (n' & r & S') & OC). pose proof (spells_inj _ _ _ S' S) as E.
      injection E as _ -> _. split; [reflexivity|]. split; [discriminate|]. now apply O.
    + intros (-> & _ & OC). split; [now apply line_prefix|]. split; [eauto|]. now apply O.
Qed.

Lemma line_sane n v : word n -> blank_free v -> String.length n < 1024 -> sane (line_of (n, v)).
Proof.
  intros N V L n' r S. destruct v as [|c v].
  - pose proof (spells_inj _ _ _ S (line_spells_empty n N)) as E. injection E as -> _. exact L.
  - assert (W : word (String c v)) by (split; [discriminate|exact V]).
    pose proof (spells_inj _ _ _ S (line_spells n _ N W)) as E. injection E as -> _. exact L.
Qed.

(* ------------------------------------------------------------------ *)
(** * Files of plain assignments *)

(** A parameter and a value in which no parameter is named. *)
Definition plain (kv : string * string) : Prop :=
  In (fst kv) names /\ word (snd kv) /\
  forall key, In key names -> ~ occurs key (snd kv).

Definition apart : bool :=
  forallb (fun a => forallb (fun b => if a =? b then true else
    match sfind a b with Some _ => false | None => true end) names) names.

(** No parameter's name occurs in another's. *)
Lemma names_apart a b : In a names -> In b names -> occurs a b -> a = b.
Proof.
  assert (C : apart = true) by reflexivity. intros A B O.
  pose proof (proj1 (forallb_forall _ _) C a A) as C1.
  pose proof (proj1 (forallb_forall _ _) C1 b B) as C2. cbv beta in C2.
  destruct (a =? b) eqn:E; [now apply String.eqb_eq|].
  destruct (sfind a b) eqn:F; [discriminate|]. apply sfind_none in F. contradiction.
Qed.

Definition checks_head (k : string) : bool :=
  negb (prefix "#" k) && (String.length k <? 1024)%nat && negb (k =? "").

Lemma name_word k : In k names -> word k /\ hash_free k /\ String.length k < 1024.
Proof.
  intros H. assert (C : forallb checks_head names = true) by reflexivity.
  pose proof (proj1 (forallb_forall _ _) C k H) as C1. unfold checks_head in C1.
  apply andb_true_iff in C1. destruct C1 as (C1 & C2). apply andb_true_iff in C1.
  destruct C1 as (C1 & C3). apply negb_true_iff in C1. apply negb_true_iff in C2.
  apply Nat.ltb_lt in C3. apply String.eqb_neq in C2.
  split; [|split; assumption]. split; [exact C2|]. now apply name_props.
Qed.

Lemma plain_gives kv key w :
  plain kv -> In key names ->
  gives (line_of kv) key w <-> w = snd kv /\ key = fst kv.
Proof.
  destruct kv as (n, v). intros (N & (V0 & V) & P) K. cbn [fst snd] in *.
  destruct (name_word n N) as (W & H & _).
  rewrite (line_gives n v key w W H V K). split.
  - intros (-> & _ & [O|O]); [|now apply P in O]. split; [reflexivity|]. now apply names_apart.
  - intros (-> & ->). repeat split; auto. left. exists "", "". now rewrite sapp_nil_r.
Qed.

Lemma plain_sane kvs : Forall plain kvs -> Forall sane (map line_of kvs).
Proof.
  induction 1 as [|(n, v) kvs (N & (V0 & V) & P) H IH]; cbn [map]; constructor; auto.
  cbn [fst snd] in *. destruct (name_word n N) as (W & _ & L). now apply line_sane.
Qed.

Lemma plain_text kvs : Forall plain kvs -> text_lines (print_lines kvs) = map line_of kvs.
Proof.
  intros H. apply print_lines_text. eapply Forall_impl; [|exact H].
  intros kv (N & (_ & V) & _). split; [|exact V]. now apply name_props.
Qed.

(** The last value [key] is paired with. *)
Definition last_value (key : string) (kvs : list (string * string)) (v : string) : Prop :=
  exists a b, kvs = (a ++ (key, v) :: b)%list /\ ~ In key (map fst b).

Lemma quiet_pairs key kvs :
  Forall plain kvs -> In key names -> ~ In key (map fst kvs) ->
  never_given key (map line_of kvs).
Proof.
  intros P K N. unfold never_given. apply Forall_map. rewrite Forall_forall in *. intros kv H v G.
  apply (plain_gives kv key v (P kv H) K) in G. destruct G as (_ & ->). apply N.
  apply in_map_iff. eauto.
Qed.

Lemma last_value_given key kvs v :
  Forall plain kvs -> In key names -> last_value key kvs v ->
  last_given key (map line_of kvs) v.
Proof.
  intros P K (a & b & -> & N). rewrite map_app. cbn [map].
  exists (map line_of a), (line_of (key, v)), (map line_of b). split; [reflexivity|].
  apply Forall_app in P. destruct P as (_ & P). inversion P; subst. split.
  - apply plain_gives; auto.
  - now apply quiet_pairs.
Qed.

Lemma never_given_read {A} (rd : string -> option A) key ls :
  never_given key ls -> never_read rd key ls.
Proof.
  unfold never_given, never_read. intros H. eapply Forall_impl; [|exact H].
  intros l N v G. now apply N in G.
Qed.

Lemma last_given_read {A} (rd : string -> option A) key ls v x :
  last_given key ls v -> rd v = Some x -> last_read rd key ls x.
Proof.
  intros (l1 & l & l2 & E & G & Q) R. exists l1, l, l2, v.
  split; [exact E|]. split; [exact G|]. split; [exact R|].
  now apply (never_given_read rd key l2).
Qed.

Lemma text_field_name key keep get : In (key, keep, get) text_fields -> In key names.
Proof.
  intros H. unfold text_fields in H. cbn [In] in H.
  repeat (destruct H as [H|H]; [injection H as <- <- <-; eapply find_key_name; reflexivity|]).
  contradiction.
Qed.

Lemma num_field_name key get : In (key, get) (num_fields ++ box_fields) -> In key names.
Proof.
  intros H. unfold num_fields, box_fields in H. cbn [In app] in H.
  repeat (destruct H as [H|H]; [injection H as <- <-; eapply find_key_name; reflexivity|]).
  contradiction.
Qed.

Lemma int_field_name key get : In (key, get) (int_fields ++ grid_fields) -> In key names.
Proof.
  intros H. unfold int_fields, grid_fields in H. cbn [In app] in H.
  repeat (destruct H as [H|H]; [injection H as <- <-; eapply find_key_name; reflexivity|]).
  contradiction.
Qed.

(** C89 as intended: in a file of plain assignments, where no value mentions
    a parameter's name, every parameter gets its own last value (the first
    1023 characters of it, for some). *)
Theorem plain_file mem p kvs q :
  Forall plain kvs -> parse_file mem p (print_lines kvs) = Ok q ->
  (forall key keep get, In (key, keep, get) text_fields ->
     (forall v, last_value key kvs v -> exists n, 1023 <= n /\ get q = stake n v) /\
     (~ In key (map fst kvs) -> get q = if keep then get p else "")) /\
  (forall key get, In (key, get) (num_fields ++ box_fields) ->
     forall v x, last_value key kvs v -> read_num v = Some x -> get q = x) /\
  (forall key get, In (key, get) (int_fields ++ grid_fields) ->
     forall v x, last_value key kvs v -> read_int v = Some x -> get q = x) /\
  (forall key get, In (key, get) num_fields -> ~ In key (map fst kvs) -> get q = get p) /\
  (forall key get, In (key, get) int_fields -> ~ In key (map fst kvs) -> get q = get p).
Proof.
  intros P E.
  assert (T := plain_text kvs P). assert (SN := plain_sane kvs P).
  rewrite <- T in SN.
  pose proof (file_text mem p _ q SN E) as FT.
  pose proof (file_numbers mem p _ q SN E) as (FN & FI).
  pose proof (file_box mem p _ q SN E) as (FB & FG).
  rewrite T in FT, FN, FI, FB, FG.
  repeat split; intros.
  - destruct (FT key keep get H) as (A & _). pose proof (text_field_name _ _ _ H) as K.
    destruct (A v (last_value_given key kvs v P K H0)) as (w & cap & KI & ->).
    pose proof (keys_width _ KI) as W. cbn [snd usual_width] in W. destruct W as [-> | ->].
    + exists (Nat.max 1023 (String.length v)). split; [apply Nat.le_max_l|].
      cbn [clip]. rewrite stake_all; [reflexivity|]. apply Nat.le_max_r.
    + exists 1023. split; [apply Nat.le_refl|]. reflexivity.
  - destruct (FT key keep get H) as (_ & B). pose proof (text_field_name _ _ _ H) as K.
    apply B. now apply quiet_pairs.
  - pose proof (num_field_name _ _ H) as K. pose proof (last_value_given key kvs v P K H0) as G.
    apply in_app_iff in H. destruct H as [H|H]; [apply (FN key get H)|apply (FB key get H)];
      now apply (last_given_read read_num key _ v x).
  - pose proof (int_field_name _ _ H) as K. pose proof (last_value_given key kvs v P K H0) as G.
    apply in_app_iff in H. destruct H as [H|H]; [apply (FI key get H)|apply (FG key get H)];
      now apply (last_given_read read_int key _ v x).
  - assert (K : In key names) by (apply (num_field_name key get), in_app_iff; now left).
    apply (FN key get H). now apply never_given_read, quiet_pairs.
  - assert (K : In key names) by (apply (int_field_name key get), in_app_iff; now left).
    apply (FI key get H). now apply never_given_read, quiet_pairs.
Qed.

Lemma attribute_ext st st' p :
  (forall k, In k names -> words_of st k = words_of st' k /\ num_of st k = num_of st' k /\
     int_of st k = int_of st' k) ->
  attribute st p = attribute st' p.
Proof.
  intros H.
  assert (W : forall k s, find_key k keys = Some s -> words_of st k = words_of st' k)
    by (intros k s F; apply H, (find_key_name k s), F).
  assert (N : forall k s, find_key k keys = Some s -> num_of st k = num_of st' k)
    by (intros k s F; apply H, (find_key_name k s), F).
  assert (Z : forall k s, find_key k keys = Some s -> int_of st k = int_of st' k)
    by (intros k s F; apply H, (find_key_name k s), F).
  unfold attribute.
  repeat match goal with
  | |- context [words_of st ?k] => rewrite (W k _ eq_refl)
  | |- context [num_of st ?k] => rewrite (N k _ eq_refl)
  | |- context [int_of st ?k] => rewrite (Z k _ eq_refl)
  end. reflexivity.
Qed.

(** A value fits the buffer of its parameter. *)
Definition fitting (kv : string * string) : Prop :=
  forall w cap, In (fst kv, Word w cap) keys ->
    (Z.of_nat (String.length (clip w (snd kv))) < cap)%Z.

Lemma plain_scan kvs st :
  Forall plain kvs -> Forall fitting kvs -> exists st', scan_lines (map line_of kvs) st = Ok st'.
Proof.
  intros P F. revert st. induction P as [|kv kvs Pk P IH]; intros st; cbn [map scan_lines]; [eauto|].
  inversion F as [|? ? Fk F']; subst. specialize (IH F').
  assert (SN : sane (line_of kv)) by (pose proof (plain_sane [kv]) as Q; specialize (Q (Forall_cons _ Pk (Forall_nil _))); now inversion Q).
  assert (G : gives (line_of kv) (fst kv) (snd kv)) by (apply plain_gives; auto; apply Pk).
  pose proof (line_effect (line_of kv) (snd kv) st SN (gives_empty _ _ _ G)) as Q.
  destruct (scan_line (line_of kv) st) as [st1|e]; cbn [bind]; [apply IH|].
  destruct Q as (_ & k & w & cap & K & O & C). exfalso.
  assert (KN : In k names) by (apply (in_map fst keys (k, Word w cap)), K).
  pose proof (gives_occurs _ k _ (gives_empty _ _ _ G) O) as GK.
  apply (plain_gives kv k (snd kv) Pk KN) in GK. destruct GK as (_ & ->).
  specialize (Fk w cap K). lia.
Qed.

Theorem plain_file_read mem p kvs :
  Forall plain kvs -> Forall fitting kvs -> exists q, parse_file mem p (print_lines kvs) = Ok q.
Proof.
  intros P F. unfold parse_file. rewrite plain_text by exact P.
  destruct (plain_scan kvs (start mem p) P F) as (st & ->). cbn [bind]. eauto.
Qed.

Lemma in_last_value key kvs v :
  NoDup (map fst kvs) -> In (key, v) kvs -> last_value key kvs v.
Proof.
  intros ND H. apply in_split in H. destruct H as (a & b & ->). exists a, b.
  split; [reflexivity|]. rewrite map_app in ND. cbn [map fst] in ND.
  apply NoDup_remove_2 in ND. intros I. apply ND. apply in_app_iff. now right.
Qed.

(** A scan touches only the variables of its own kind. *)
Lemma scan_key_kind line k st st' : scan_key line k st = Ok st' ->
  (forall j, (forall w cap, k <> (j, Word w cap)) -> words_of st' j = words_of st j) /\
  (forall j, k <> (j, Number) -> num_of st' j = num_of st j) /\
  (forall j, k <> (j, Integer) -> int_of st' j = int_of st j).
Proof.
  destruct k as (n, s). unfold scan_key. cbn [fst snd].
  destruct (sfind n line); [|intros H; injection H as <-; auto].
  assert (NE : forall j, (n, s) <> (j, s) -> j <> n) by (intros j H ->; auto).
  destruct s as [w cap| |].
  - destruct (scan_two w line) as [((a, b), r)|]; [|intros H; injection H as <-; auto].
    destruct (negb _); [discriminate|].
    destruct (scan_word w r) as [(c, r')|]; [|intros H; injection H as <-; auto].
    destruct (fits cap c); [|discriminate]. intros H; injection H as <-.
    cbn [set_word words_of num_of int_of]. repeat split; auto.
    intros j N. apply upd_other. apply NE, N.
  - destruct (scan_two wide line) as [((a, b), r)|]; [|intros H; injection H as <-; auto].
    destruct (read_num (next_word r)); intros H; injection H as <-; auto.
    cbn [set_num words_of num_of int_of]. repeat split; auto.
    intros j N. apply upd_other. apply NE, N.
  - destruct (scan_two wide line) as [((a, b), r)|]; [|intros H; injection H as <-; auto].
    destruct (read_int (next_word r)); intros H; injection H as <-; auto.
    cbn [set_int words_of num_of int_of]. repeat split; auto.
    intros j N. apply upd_other. apply NE, N.
Qed.

Lemma scan_keys_kind line ks : forall st st', scan_keys line ks st = Ok st' ->
  (forall j, (forall w cap, ~ In (j, Word w cap) ks) -> words_of st' j = words_of st j) /\
  (forall j, ~ In (j, Number) ks -> num_of st' j = num_of st j) /\
  (forall j, ~ In (j, Integer) ks -> int_of st' j = int_of st j).
Proof.
  induction ks as [|k ks IH]; intros st st' E; cbn [scan_keys] in E.
  - injection E as <-. auto.
  - apply bind_ok in E. destruct E as (s1 & E1 & E).
    destruct (scan_key_kind _ _ _ _ E1) as (A1 & B1 & C1). destruct (IH _ _ E) as (A & B & C).
    repeat split; intros j N.
    + rewrite A, A1; [reflexivity| |]; intros w cap H; apply (N w cap); [now left|now right].
    + rewrite B, B1; [reflexivity| |]; intros H; apply N; [now left|now right].
    + rewrite C, C1; [reflexivity| |]; intros H; apply N; [now left|now right].
Qed.

Lemma scan_lines_kind ls : forall st st', scan_lines ls st = Ok st' ->
  (forall j, (forall w cap, ~ In (j, Word w cap) keys) -> words_of st' j = words_of st j) /\
  (forall j, ~ In (j, Number) keys -> num_of st' j = num_of st j) /\
  (forall j, ~ In (j, Integer) keys -> int_of st' j = int_of st j).
Proof.
  induction ls as [|l ls IH]; intros st st' E; cbn [scan_lines] in E.
  - injection E as <-. auto.
  - apply bind_ok in E. destruct E as (s1 & E1 & E). unfold scan_line in E1.
    destruct (IH _ _ E) as (A & B & C). destruct (is_assignment l).
    + destruct (scan_keys_kind _ _ _ _ E1) as (A1 & B1 & C1).
      repeat split; intros j N; [rewrite A, A1|rewrite B, B1|rewrite C, C1]; auto.
    + injection E1 as <-. auto.
Qed.

Lemma plain_agree kvs kvs' st s1 s2 :
  Forall plain kvs -> NoDup (map fst kvs) -> Permutation kvs kvs' ->
  scan_lines (map line_of kvs) st = Ok s1 -> scan_lines (map line_of kvs') st = Ok s2 ->
  forall k, In k names -> words_of s1 k = words_of s2 k /\ num_of s1 k = num_of s2 k /\
    int_of s1 k = int_of s2 k.
Proof.
  intros P ND PM E1 E2 k K.
  assert (P' : Forall plain kvs') by (eapply Permutation_Forall; eauto).
  assert (ND' : NoDup (map fst kvs')) by (eapply Permutation_NoDup; [apply Permutation_map, PM|exact ND]).
  assert (S1 := plain_sane kvs P). assert (S2 := plain_sane kvs' P').
  assert (C : (exists v, last_value k kvs v /\ last_value k kvs' v) \/
              (~ In k (map fst kvs) /\ ~ In k (map fst kvs'))).
  { destruct (in_dec string_dec k (map fst kvs)) as [I|I].
    - left. apply in_map_iff in I. destruct I as ((k', v) & <- & I). cbn [fst] in *. exists v.
      split; apply in_last_value; auto. eapply Permutation_in; eauto.
    - right. split; [exact I|]. intros I'. apply I. eapply Permutation_in; [|exact I'].
      apply Permutation_map, Permutation_sym, PM. }
  assert (KI : exists s, In (k, s) keys).
  { unfold names in K. apply in_map_iff in K. destruct K as ((k', s) & <- & I). eauto. }
  destruct KI as (s & KI).
  assert (Same : (forall w cap, s = Word w cap -> words_of s1 k = words_of s2 k) /\
                 (s = Number -> num_of s1 k = num_of s2 k) /\
                 (s = Integer -> int_of s1 k = int_of s2 k)).
  { repeat split.
    - intros w cap ->. destruct (file_word _ _ _ _ _ _ S1 KI E1) as (A1 & B1).
      destruct (file_word _ _ _ _ _ _ S2 KI E2) as (A2 & B2).
      destruct C as [(v & L1 & L2)|(N1 & N2)].
      + rewrite (A1 v), (A2 v) by (apply last_value_given; auto). reflexivity.
      + rewrite B1, B2 by (apply quiet_pairs; auto). reflexivity.
    - intros ->. destruct (file_num _ _ _ _ S1 KI E1) as (A1 & B1).
      destruct (file_num _ _ _ _ S2 KI E2) as (A2 & B2).
      destruct C as [(v & L1 & L2)|(N1 & N2)].
      + destruct (read_num v) as [x|] eqn:R.
        * rewrite (A1 x), (A2 x) by (eapply last_given_read; [|exact R]; apply last_value_given; auto).
          reflexivity.
        * assert (NR : forall l, Forall plain l -> NoDup (map fst l) -> last_value k l v ->
                    never_read read_num k (map line_of l)).
          { intros l Pl Nl Ll. unfold never_read. apply Forall_map, Forall_forall.
            intros (k', v') I v'' G. rewrite Forall_forall in Pl.
            apply (plain_gives (k', v') k v'' (Pl _ I) K) in G. cbn [fst snd] in G.
            destruct G as (-> & ->). destruct Ll as (a & b & -> & _).
            rewrite map_app in Nl. cbn [map fst] in Nl.
            apply in_app_iff in I. destruct I as [I|[I|I]].
            - exfalso. apply NoDup_remove_2 in Nl. apply Nl, in_app_iff. left. apply in_map_iff. now exists (k', v').
            - injection I as <-. exact R.
            - exfalso. apply NoDup_remove_2 in Nl. apply Nl, in_app_iff. right. apply in_map_iff. now exists (k', v'). }
          rewrite B1, B2 by (apply NR; auto). reflexivity.
      + rewrite B1, B2 by (apply never_given_read, quiet_pairs; auto). reflexivity.
    - intros ->. destruct (file_int _ _ _ _ S1 KI E1) as (A1 & B1).
      destruct (file_int _ _ _ _ S2 KI E2) as (A2 & B2).
      destruct C as [(v & L1 & L2)|(N1 & N2)].
      + destruct (read_int v) as [x|] eqn:R.
        * rewrite (A1 x), (A2 x) by (eapply last_given_read; [|exact R]; apply last_value_given; auto).
          reflexivity.
        * assert (NR : forall l, Forall plain l -> NoDup (map fst l) -> last_value k l v ->
                    never_read read_int k (map line_of l)).
          { intros l Pl Nl Ll. unfold never_read. apply Forall_map, Forall_forall.
            intros (k', v') I v'' G. rewrite Forall_forall in Pl.
            apply (plain_gives (k', v') k v'' (Pl _ I) K) in G. cbn [fst snd] in G.
            destruct G as (-> & ->). destruct Ll as (a & b & -> & _).
            rewrite map_app in Nl. cbn [map fst] in Nl.
            apply in_app_iff in I. destruct I as [I|[I|I]].
            - exfalso. apply NoDup_remove_2 in Nl. apply Nl, in_app_iff. left. apply in_map_iff. now exists (k', v').
            - injection I as <-. exact R.
            - exfalso. apply NoDup_remove_2 in Nl. apply Nl, in_app_iff. right. apply in_map_iff. now exists (k', v'). }
          rewrite B1, B2 by (apply NR; auto). reflexivity.
      + rewrite B1, B2 by (apply never_given_read, quiet_pairs; auto). reflexivity. }
  destruct (scan_lines_kind _ _ _ E1) as (X1 & Y1 & Z1).
  destruct (scan_lines_kind _ _ _ E2) as (X2 & Y2 & Z2).
  destruct Same as (SW & SNum & SI).
  assert (U : forall t, In (k, t) keys -> t = s).
  { intros t T. pose proof key_names_nodup as NDK. fold names in NDK.
    apply in_split in KI. destruct KI as (a & b & KI). unfold names in NDK. rewrite KI in *.
    rewrite map_app in NDK. cbn [map fst] in NDK. apply NoDup_remove_2 in NDK.
    apply in_app_iff in T. destruct T as [T|[T|T]].
    - exfalso. apply NDK, in_app_iff. left. apply in_map_iff. now exists (k, t).
    - now injection T.
    - exfalso. apply NDK, in_app_iff. right. apply in_map_iff. now exists (k, t). }
  repeat split.
  - destruct s as [w cap| |]; [now apply (SW w cap)| |];
      (rewrite X1, X2; [reflexivity| |]; intros w cap H; apply U in H; discriminate).
  - destruct s as [w cap| |]; [|now apply SNum|];
      (rewrite Y1, Y2; [reflexivity| |]; intros H; apply U in H; discriminate).
  - destruct s as [w cap| |]; [| |now apply SI];
      (rewrite Z1, Z2; [reflexivity| |]; intros H; apply U in H; discriminate).
Qed.

(** C89: in such a file, with no parameter given twice, the order of the
    lines does not matter. *)
Theorem plain_file_order mem p kvs kvs' :
  Forall plain kvs -> Forall fitting kvs -> NoDup (map fst kvs) -> Permutation kvs kvs' ->
  parse_file mem p (print_lines kvs') = parse_file mem p (print_lines kvs).
Proof.
  intros P F ND PM.
  assert (P' : Forall plain kvs') by (eapply Permutation_Forall; eauto).
  assert (F' : Forall fitting kvs') by (eapply Permutation_Forall; eauto).
  unfold parse_file. rewrite !plain_text by assumption.
  destruct (plain_scan kvs (start mem p) P F) as (s1 & E1).
  destruct (plain_scan kvs' (start mem p) P' F') as (s2 & E2).
  rewrite E1, E2. cbn [bind]. f_equal. symmetry. apply attribute_ext.
  exact (plain_agree kvs kvs' _ s1 s2 P ND PM E1 E2).
Qed.

(** Three lines, in either order. *)
Example plain_file_case mem p :
  let kvs := [("ell1", "2"); ("binning", "log"); ("output_tag", "_x")] in
  Forall plain kvs /\ Forall fitting kvs /\
  exists q, parse_file mem p (print_lines kvs) = Ok q /\
    parse_file mem p (print_lines (rev kvs)) = Ok q /\
    ell1 (msr (core q)) = 2%Z /\ binning (msr (core q)) = "log" /\ output_tag (pths (core q)) = "_x" /\
    ell2 (msr (core q)) = ell2 (msr (core p)).
Proof.
  intros kvs. split; [|split].
  - apply Forall_forall. intros kv I.
    assert (C : forallb (fun kv => forallb (fun a => match sfind a (snd kv) with Some _ => false | None => true end) names) kvs = true)
      by reflexivity.
    pose proof (proj1 (forallb_forall _ _) C kv I) as C1. cbv beta in C1.
    assert (N : In (fst kv) names).
    { destruct I as [<-|[<-|[<-|[]]]];
        [apply (find_key_name _ Integer)|apply (find_key_name _ (Word wide 16))|apply (find_key_name _ (Word None 1024))];
        reflexivity. }
    split; [exact N|]. split.
    + destruct I as [<-|[<-|[<-|[]]]]; (split; [discriminate|simpl; auto 10]).
    + intros key K O. pose proof (proj1 (forallb_forall _ _) C1 key K) as C2. cbv beta in C2.
      destruct (sfind key (snd kv)) eqn:E; [discriminate|]. apply sfind_none in E. contradiction.
  - apply Forall_forall. intros kv I w cap K. unfold keys in K. cbn [In] in K.
    destruct I as [<-|[<-|[<-|[]]]]; cbn [fst snd] in K;
      repeat (destruct K as [K|K]; [try discriminate K; injection K as <- <-; reflexivity|]); contradiction.
  - eexists. split; [reflexivity|]. repeat split.
Qed.

(* ------------------------------------------------------------------ *)
(** * Names inside values, and comments *)

(** C89 as stated fails: a line that names one parameter also sets those
    named in its value. *)
Theorem line_sets_others_refuted :
  exists n v, In n names /\ word v /\
  forall mem p, exists q, parse_file mem p (print_lines [(n, v)]) = Ok q /\
    output_tag (pths (core q)) = v /\ n = "output_tag" /\ ell1 (msr (core q)) = 2%Z.
Proof.
  exists "output_tag", "2_ell1". split; [apply (find_key_name _ (Word None 1024)); reflexivity|].
  split; [split; [discriminate|simpl; auto 10]|]. intros mem p.
  eexists. split; [reflexivity|]. repeat split.
Qed.

(** Nor does a name have to be a parameter's: "assignment_order", which
    print_to_file writes, sets the assignment scheme. *)
Theorem assignment_order_sets_assignment mem p v :
  word v -> String.length v < 16 ->
  exists q, parse_file mem p (print_lines [("assignment_order", v)]) = Ok q /\
    assignment (smp (core q)) = v.
Proof.
  intros W L.
  assert (NW : word "assignment_order") by (split; [discriminate|simpl; auto 20]).
  assert (T : text_lines (print_lines [("assignment_order", v)]) = [line_of ("assignment_order", v)]).
  { apply print_lines_text. constructor; [|constructor]. split; [apply NW|apply W]. }
  assert (SN : sane (line_of ("assignment_order", v))).
  { apply line_sane; [exact NW|apply W|simpl; lia]. }
  unfold parse_file. rewrite T.
  assert (G0 : gives (line_of ("assignment_order", v)) "" v).
  { split; [reflexivity|]. split; [|exists "", (line_of ("assignment_order", v)); reflexivity].
    exists "assignment_order", []. now apply line_spells. }
  pose proof (line_effect _ v (start mem p) SN G0) as Q.
  cbn [scan_lines].
  destruct (scan_line _ (start mem p)) as [st|e]; cbn [bind].
  - eexists. split; [reflexivity|]. cbn [attribute core smp assignment].
    destruct Q as (A & _).
    destruct (A "assignment" wide 16%Z) as (-> & _).
    + apply find_key_in. reflexivity.
    + unfold line_of. cbn [fst snd]. exists "", ("_order" ++ " = " ++ v). reflexivity.
    + cbn [clip wide]. rewrite stake_all by lia. unfold if_given.
      destruct W as (N & _). apply String.eqb_neq in N. now rewrite N.
  - exfalso. destruct Q as (_ & k & w & cap & K & O & C).
    assert (KN : In k names) by (apply (in_map fst keys (k, Word w cap)), K).
    assert (Z.of_nat (String.length (clip w v)) <= Z.of_nat (String.length v))%Z as LC.
    { destruct w as [m|]; cbn [clip]; [|lia]. clear. revert v; induction m as [|m IH]; intros [|c v]; cbn [stake String.length]; try lia.
      specialize (IH v). lia. }
    assert (16 <= cap)%Z.
    { unfold keys in K. cbn [In] in K.
      repeat (destruct K as [K|K]; [try discriminate K; injection K as _ _ <-; lia|]). contradiction. }
    lia.
Qed.

(** Comments: a hash in the first column hides the line, and after a blank
    it does not. *)
Theorem comment_hidden n v key w : ~ gives (line_of ("#" ++ n, v)) key w.
Proof. intros (P & _). unfold line_of in P. cbn [fst append prefix] in P. destruct (ascii_dec "#" "#"); [|congruence]. destruct (n ++ _); discriminate. Qed.

Lemma spells_indent b ws s : blanks b -> spells ws s -> spells ws (b ++ s).
Proof.
  intros B S. destruct S as [b' B'|b' w ws r B' W E S].
  - constructor. now apply blanks_app.
  - rewrite <- sapp_assoc. constructor; auto. now apply blanks_app.
Qed.

Theorem indented_comment_refuted b n v :
  b <> "" -> blanks b -> In n names -> word v ->
  gives (b ++ line_of ("#" ++ n, v)) n v.
Proof.
  intros NB B N V. destruct (name_word n N) as ((N0 & NW) & _ & _). split.
  - destruct b as [|c b]; [congruence|]. simpl in B. destruct B as (C & _).
    cbn [append prefix]. destruct (ascii_dec "#" c) as [<-|]; [discriminate|reflexivity].
  - split.
    + exists ("#" ++ n), []. pose proof (line_spells ("#" ++ n) v) as S.
      assert (W : word ("#" ++ n)) by (split; [discriminate|simpl; auto]).
      exact (spells_indent b _ _ B (S W V)).
    + unfold line_of. cbn [fst snd]. exists (b ++ "#"), (" = " ++ v). now rewrite !sapp_assoc.
Qed.

(** In particular "  #ell1 = 3" sets ell1. *)
Example indented_comment_case mem p :
  exists q, parse_file mem p "  #ell1 = 3" = Ok q /\ ell1 (msr (core q)) = 3%Z.
Proof. eexists. split; [reflexivity|]. reflexivity. Qed.

(* ------------------------------------------------------------------ *)
(** * Parameters left out *)

(** C90 as stated fails: a file that leaves out the box size, which then
    should be unset (zero) and be found from the catalogue, gives a box of
    whatever size the memory held. *)
Theorem box_left_out_refuted mem p :
  exists q, parse_file mem p "" = Ok q /\
    boxsize (smp (core q)) = T3 (num_of mem "boxsize_x") (num_of mem "boxsize_y")
                                (num_of mem "boxsize_z") /\
    ngrid (smp (core q)) = T3 (int_of mem "ngrid_x") (int_of mem "ngrid_y")
                              (int_of mem "ngrid_z").
Proof. eexists. split; [reflexivity|]. split; reflexivity. Qed.

(* ------------------------------------------------------------------ *)
(** * Buffers *)

Lemma scan_lines_ends : forall ls st, Forall sane ls ->
    match scan_lines ls st with
    | Ok _ => forall l k v w cap, In l ls -> gives l k v -> In (k, Word w cap) keys ->
        (Z.of_nat (String.length (clip w v)) < cap)%Z
    | Err e => e = OutOfBounds /\ exists l k v w cap, In l ls /\ gives l k v /\
        In (k, Word w cap) keys /\ (cap <= Z.of_nat (String.length (clip w v)))%Z
    end.
Proof.
  induction ls as [|l ls IH]; intros st S; cbn [scan_lines]; [intros ? ? ? ? ? []|].
  inversion S as [|? ? Sl S']; subst.
  destruct (empty_or l) as [(v & GV)|N].
  - pose proof (line_effect l v st Sl GV) as Q. destruct (scan_line l st) as [s1|e]; cbn [bind].
    + specialize (IH s1 S'). destruct (scan_lines ls s1) as [s2|e].
      * intros l' k v' w cap [<-|I] GV' K; [|now apply (IH l' k v' w cap)].
        rewrite (gives_fun _ _ _ _ _ GV' GV). destruct Q as (A & _). apply (A k w cap K).
        now destruct GV' as (_ & _ & O).
      * destruct IH as (-> & l' & k & v' & w & cap & I & R). split; [reflexivity|].
        exists l', k, v', w, cap. split; [now right|exact R].
    + destruct Q as (-> & k & w & cap & K & O & C). split; [reflexivity|].
      exists l, k, v, w, cap. split; [now left|]. split; [now apply gives_occurs|]. auto.
  - rewrite other_lines_ignored by auto. cbn [bind]. specialize (IH st S').
    destruct (scan_lines ls st) as [s2|e].
    + intros l' k v' w cap [<-|I] GV' K; [now apply N in GV'|now apply (IH l' k v' w cap)].
    + destruct IH as (-> & l' & k & v' & w & cap & I & R). split; [reflexivity|].
      exists l', k, v', w, cap. split; [now right|exact R].
Qed.

(** C92: reading writes past a buffer exactly when some line gives a text
    parameter more characters than its buffer holds. *)
Theorem overflow_iff mem p text :
  Forall sane (text_lines text) ->
  parse_file mem p text = Err OutOfBounds <->
  exists l k v w cap, In l (text_lines text) /\ gives l k v /\
    In (k, Word w cap) keys /\ (cap <= Z.of_nat (String.length (clip w v)))%Z.
Proof.
  intros SN. unfold parse_file.
  pose proof (scan_lines_ends (text_lines text) (start mem p) SN) as G.
  destruct (scan_lines (text_lines text) (start mem p)) as [st|e]; cbn [bind].
  - split; [discriminate|]. intros (l & k & v & w & cap & I & GV & K & C).
    specialize (G l k v w cap I GV K). lia.
  - destruct G as (-> & G). split; auto.
Qed.

(** C92: and a file that never does so is read to the end. *)
Theorem fits_read mem p text :
  Forall sane (text_lines text) ->
  (forall l k v w cap, In l (text_lines text) -> gives l k v -> In (k, Word w cap) keys ->
     (Z.of_nat (String.length (clip w v)) < cap)%Z) ->
  exists q, parse_file mem p text = Ok q.
Proof.
  intros SN F. unfold parse_file. pose proof (scan_lines_ends (text_lines text) (start mem p) SN) as G.
  destruct (scan_lines (text_lines text) (start mem p)) as [st|e]; cbn [bind]; [eauto|].
  destruct G as (_ & l & k & v & w & cap & I & GV & K & C). specialize (F l k v w cap I GV K). lia.
Qed.

(** C92 as stated fails, for ordinary files: this directory is written into
    the 16 characters kept for the parameter `form`. *)
Theorem overflow_refuted mem p :
  parse_file mem p "catalogue_dir = /data/mocks/uniform" = Err OutOfBounds.
Proof. reflexivity. Qed.

Print Assumptions plain_file.
Print Assumptions plain_file_read.
Print Assumptions plain_file_order.
Print Assumptions line_sets_others_refuted.
Print Assumptions assignment_order_sets_assignment.
Print Assumptions comment_hidden.
Print Assumptions indented_comment_refuted.
Print Assumptions box_left_out_refuted.
Print Assumptions overflow_iff.
Print Assumptions fits_read.
Print Assumptions overflow_refuted.
