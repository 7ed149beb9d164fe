(* C94 (what a catalogue file holds and which particles it gives), C95 (a
   failed load), C96 (catalogues kept in several files). *)
From Coq Require Import String Ascii List Arith ZArith Reals Bool Lia Lra.
From Verif Require Import Base StrModel StrProps Dec ArrayModel ArrayProofs
  MeshModel ParamFileModel ParamFileProps ParamFilePrintProps ParamFileUseProps
  CatModel CatProps LoadModel.
Import ListNotations.
Local Open Scope nat_scope.
Local Open Scope string_scope.

(* ------------------------------------------------------------------ *)
(** * Vocabulary *)

(** Numerals: sign, digits, perhaps a point and digits, perhaps an exponent. *)
Inductive sign_text : string -> Z -> Prop :=
| sign_none : sign_text "" 1
| sign_plus : sign_text "+" 1
| sign_minus : sign_text "-" (-1).

Inductive exponent_text : string -> Z -> Prop :=
| exponent_none : exponent_text "" 0
| exponent_some e s g d n :
    e = "e" \/ e = "E" -> sign_text s g -> digits_value d = Some n ->
    exponent_text (e ++ s ++ d) (g * n).

Inductive fraction_text : string -> string -> Prop :=
| fraction_none : fraction_text "" ""
| fraction_some d : all_digits d -> fraction_text ("." ++ d) d.

Inductive numeral : string -> R -> Prop :=
| numeral_intro s g ip ft fp n et e :
    sign_text s g -> all_digits ip -> fraction_text ft fp ->
    digits_value (ip ++ fp) = Some n -> exponent_text et e ->
    numeral (s ++ ip ++ ft ++ et)
      (IZR g * (IZR n * / 10 ^ String.length fp) * powerRZ 10 e)%R.

(** A line of blank-separated numerals and its numbers. *)
Definition line_of_numbers (line : string) (row : list R) : Prop :=
  exists ws, spells ws line /\ Forall2 numeral ws row.

(** A text and its lines; a newline at the very end is optional. *)
Definition newline_free (s : string) : Prop := forall a b, s <> a ++ String newline b.

Fixpoint ended (lines : list string) : string :=
  match lines with
  | [] => ""
  | l :: ls => l ++ String newline (ended ls)
  end.

Definition holds (text : string) (lines : list string) : Prop :=
  Forall newline_free lines /\
  (text = ended lines \/
   exists ls l, lines = (ls ++ [l])%list /\ l <> "" /\ text = ended ls ++ l).

(** Lines passed over, and lines that are not. *)
Definition comment_or_empty (l : string) : Prop := l = "" \/ exists r, l = "#" ++ r.

(** The rows of numbers of a file, comments and empty lines left out. *)
Inductive rows_of : list string -> list (list R) -> Prop :=
| rows_nil : rows_of [] []
| rows_skip l ls rows : comment_or_empty l -> rows_of ls rows -> rows_of (l :: ls) rows
| rows_data l ls row rows : ~ comment_or_empty l -> line_of_numbers l row ->
    rows_of ls rows -> rows_of (l :: ls) (row :: rows).

(** [v] is the entry of [row] in the first column called [name]. *)
Definition column (name : string) (cols : list string) (row : list R) (v : R) : Prop :=
  exists a b r s, cols = (a ++ name :: b)%list /\ ~ In name a /\
    row = (r ++ v :: s)%list /\ length r = length a.

Definition named (name : string) (default : R) (cols : list string) (row : list R) (v : R) : Prop :=
  (In name cols -> column name cols row v) /\ (~ In name cols -> v = default).

(** The particle of a row. *)
Definition is_particle (cols : list string) (nz0 : R) (row : list R) (p : pdatum) : Prop :=
  column "x" cols row (ax0 (p_pos p)) /\ column "y" cols row (ax1 (p_pos p)) /\
  column "z" cols row (ax2 (p_pos p)) /\
  named "nz" nz0 cols row (p_nz p) /\ named "ws" 1 cols row (p_ws p) /\
  named "wc" 1 cols row (p_wc p) /\ p_w p = (p_ws p * p_wc p)%R.

(** The files of a path and what they hold. *)
Definition files (disk : string -> option string) (path : string) (contents : list string) : Prop :=
  Forall2 (fun p t => disk p = Some t) (split_string path "::") contents.

Definition text_path (path : string) : Prop :=
  has_extension path ".h5" = false /\ has_extension path ".hdf5" = false.

(** The names a column list is written from. *)
Definition comma_free (s : string) : Prop := forall a b, s <> a ++ String "," b.

(* ------------------------------------------------------------------ *)
(** * Numerals are read *)

Lemma digits_value_all s n : digits_value s = Some n -> all_digits s.
Proof. destruct s; [discriminate|]. apply digits_from_all. Qed.

Lemma all_digits_none s : digits_value s = None -> all_digits s -> s = "".
Proof.
  destruct s as [|c s]; [reflexivity|]. intros D A. exfalso. revert D. unfold digits_value.
  generalize 0%Z as acc. generalize (String c s) A. clear.
  intros t A. induction t as [|c t IH]; intros acc; simpl; [discriminate|].
  destruct A as (A & B). destruct (digit_value c); [|congruence]. apply IH, B.
Qed.

Lemma blank_not_digit c : is_blank_char c = true -> digit_value c = None.
Proof. destruct c as [[] [] [] [] [] [] [] []]; cbv; congruence. Qed.

(** What may follow a number. *)
Definition stops (r : string) : Prop :=
  match r with
  | "" => True
  | String c _ => digit_value c = None /\ c <> "."%char /\ c <> "e"%char /\ c <> "E"%char
  end.

Lemma ends_stops r : ends_here r -> stops r.
Proof.
  destruct r as [|c r]; [exact (fun x => x)|]. intros E. simpl in E. split; [now apply blank_not_digit|].
  repeat split; intros ->; discriminate E.
Qed.

Lemma ends_no_digit r : stops r -> no_digit_next r.
Proof. destruct r; [exact (fun x => x)|]. intros (A & _). exact A. Qed.

Lemma take_sign_text s g t :
  sign_text s g ->
  (s = "" -> match t with String "-" _ | String "+" _ => False | _ => True end) ->
  take_sign (s ++ t) = (g, t).
Proof.
  intros [] H; [|reflexivity|reflexivity]. specialize (H eq_refl). cbn [append].
  destruct t as [|c t]; [reflexivity|].
  destruct c as [[] [] [] [] [] [] [] []]; try reflexivity; destruct H.
Qed.

Lemma digit_not_sign s t : all_digits s -> s <> "" ->
  match s ++ t with String "-" _ | String "+" _ => False | _ => True end.
Proof.
  destruct s as [|c s]; [congruence|]. intros (A & _) _. cbn [append].
  destruct c as [[] [] [] [] [] [] [] []]; try exact I; apply A; reflexivity.
Qed.

Lemma stream_exponent_text et e r :
  exponent_text et e -> stops r -> stream_exponent (et ++ r) = Some (e, r).
Proof.
  intros [|l s g d n L S D] E.
  - cbn [append]. destruct r as [|c r]; [reflexivity|]. destruct E as (_ & _ & E1 & E2).
    destruct c as [[] [] [] [] [] [] [] []]; try reflexivity; congruence.
  - assert (A := digits_value_all d n D).
    assert (N : d <> "") by (intros ->; discriminate D).
    assert (H : forall t, t = s ++ d ++ r ->
      (let x := take_sign t in
       let dd := take_digits (snd x) in
       match digits_value (fst dd) with
       | Some v => Some ((fst x * v)%Z, snd dd)
       | None => None
       end) = Some ((g * n)%Z, r)).
    { intros t ->. rewrite (take_sign_text s g (d ++ r) S (fun _ => digit_not_sign d r A N)). cbn [fst snd].
      cbv zeta. cbn [fst snd]. rewrite take_digits_exact by (auto using ends_no_digit). cbn [fst snd].
      rewrite D. reflexivity. }
    destruct L as [-> | ->]; cbn [append]; unfold stream_exponent; rewrite sapp_assoc; now apply H.
Qed.

Lemma exponent_no_digit et e r : exponent_text et e -> stops r -> no_digit_next (et ++ r).
Proof. intros [|l s g d n [-> | ->] S D] E; cbn [append]; [now apply ends_no_digit|reflexivity|reflexivity]. Qed.

Lemma exponent_no_point et e r : exponent_text et e -> stops r ->
  match et ++ r with String "." t => take_digits t | x => ("", x) end = ("", et ++ r).
Proof.
  intros [|l s g d n [-> | ->] S D] E; cbn [append]; [|reflexivity|reflexivity].
  destruct r as [|c r]; [reflexivity|]. destruct E as (_ & E & _).
  destruct c as [[] [] [] [] [] [] [] []]; try reflexivity; congruence.
Qed.

Lemma numeral_value g n k e :
  (IZR (g * n) * powerRZ 10 (e - Z.of_nat k) = IZR g * (IZR n * / 10 ^ k) * powerRZ 10 e)%R.
Proof.
  rewrite mult_IZR. unfold Z.sub. rewrite powerRZ_add by lra.
  rewrite powerRZ_neg'. rewrite <- pow_powerRZ.
  field. apply pow_nonzero. lra.
Qed.

Lemma stream_numeral w v r : numeral w v -> stops r -> stream_num (w ++ r) = Some (v, r).
Proof.
  intros [s g ip ft fp n et e S I F D X] E. unfold stream_num.
  rewrite !sapp_assoc.
  assert (SG : take_sign (s ++ ip ++ ft ++ et ++ r) = (g, ip ++ ft ++ et ++ r)).
  { apply take_sign_text; [exact S|]. intros _. destruct ip as [|c ip].
    - cbn [append]. destruct F as [|d A]; [discriminate D|exact Logic.I].
    - apply digit_not_sign; [exact I|discriminate]. }
  rewrite SG. cbn [fst snd].
  destruct F as [|d A].
  - cbn [append]. rewrite take_digits_exact by (eauto using exponent_no_digit). cbn [fst snd].
    rewrite (exponent_no_point et e r X E). cbn [fst snd].
    rewrite D, (stream_exponent_text et e r X E). now rewrite numeral_value.
  - cbn [append]. rewrite take_digits_exact by (try exact I; reflexivity). cbn [fst snd].
    rewrite take_digits_exact by (eauto using exponent_no_digit). cbn [fst snd].
    rewrite D, (stream_exponent_text et e r X E). now rewrite numeral_value.
Qed.

Lemma spells_entries ws line : spells ws line -> forall row fuel,
  Forall2 numeral ws row -> String.length line < fuel -> entries fuel line = row.
Proof.
  induction 1 as [b B|b w ws r B W E SP IH]; intros row fuel F L.
  - inversion F; subst. destruct fuel; [lia|]. cbn [entries].
    rewrite <- (sapp_nil_r b), skip_blanks by exact B. reflexivity.
  - inversion F as [|? v ? vs N F']; subst. destruct fuel; [lia|]. cbn [entries].
    destruct W as (W1 & W2).
    rewrite skip_blanks, skip_blank_ink by assumption.
    rewrite (stream_numeral w v r N (ends_stops r E)). f_equal. apply IH; [exact F'|].
    rewrite !slength_app in L. destruct w; [congruence|]. simpl in L. lia.
Qed.

Lemma row_of_numbers line row : line_of_numbers line row -> row_of line = row.
Proof. intros (ws & S & F). unfold row_of. eapply spells_entries; eauto. Qed.

(* ------------------------------------------------------------------ *)
(** * Lines *)

Lemma text_lines_last l : newline_free l -> l <> "" -> text_lines l = [l].
Proof.
  induction l as [|c l IH]; [congruence|]. intros N _. cbn [text_lines].
  destruct (Ascii.eqb c newline) eqn:E.
  - apply Ascii.eqb_eq in E. subst. exfalso. now apply (N "" l).
  - destruct l as [|d l]; [reflexivity|]. rewrite IH; [reflexivity| |discriminate].
    intros a b H. apply (N (String c a) b). cbn [append]. now rewrite H.
Qed.

Lemma text_lines_ended lines r : Forall newline_free lines ->
  text_lines (ended lines ++ r) = (lines ++ text_lines r)%list.
Proof.
  induction 1 as [|l ls N F IH]; [reflexivity|]. cbn [ended].
  rewrite sapp_assoc. cbn [append]. rewrite text_lines_app by exact N.
  now rewrite IH.
Qed.

Lemma holds_lines text lines : holds text lines -> text_lines text = lines.
Proof.
  intros (F & [-> | (ls & l & -> & N & ->)]).
  - rewrite <- (sapp_nil_r (ended lines)), text_lines_ended by exact F. apply app_nil_r.
  - apply Forall_app in F as (F & G). rewrite text_lines_ended by exact F.
    rewrite text_lines_last; [reflexivity| |exact N]. now inversion G.
Qed.

Lemma is_data_spec l : is_data l = true <-> ~ comment_or_empty l.
Proof.
  unfold is_data, comment_or_empty. split.
  - intros H [-> | (r & ->)]; [discriminate H|]. cbn [append] in H.
    destruct r; discriminate H.
  - intros H. destruct l as [|c l]; [exfalso; auto|]. cbn [String.eqb prefix].
    destruct (ascii_dec "#" c) as [<-|N]; [exfalso; apply H; right; now exists l|reflexivity].
Qed.

Lemma rows_of_lines lines rows : rows_of lines rows -> map row_of (filter is_data lines) = rows.
Proof.
  induction 1 as [|l ls rows C R IH|l ls row rows C L R IH]; [reflexivity| |].
  - cbn [filter]. destruct (is_data l) eqn:E; [|exact IH]. apply is_data_spec in E. contradiction.
  - cbn [filter]. apply is_data_spec in C as ->. cbn [map]. rewrite IH. f_equal.
    now apply row_of_numbers.
Qed.

(* ------------------------------------------------------------------ *)
(** * Columns *)

Lemma find_index_some name cols a b : cols = (a ++ name :: b)%list -> ~ In name a ->
  find_index name cols = Some (length a).
Proof.
  intros ->. induction a as [|c a IH]; intros N; cbn [app find_index length].
  - now rewrite String.eqb_refl.
  - destruct (c =? name) eqn:E; [apply String.eqb_eq in E; exfalso; apply N; now left|].
    rewrite IH; [reflexivity|]. intros H. apply N. now right.
Qed.

Lemma find_index_none name cols : ~ In name cols -> find_index name cols = None.
Proof.
  induction cols as [|c cols IH]; intros N; cbn [find_index]; [reflexivity|].
  destruct (c =? name) eqn:E; [apply String.eqb_eq in E; exfalso; apply N; now left|].
  rewrite IH; [reflexivity|]. intros H. apply N. now right.
Qed.

Lemma first_of name (cols : list string) : In name cols ->
  exists a b, cols = (a ++ name :: b)%list /\ ~ In name a.
Proof.
  induction cols as [|c cols IH]; [intros []|]. intros H.
  destruct (string_dec c name) as [->|N]; [exists [], cols; auto|].
  destruct H as [->|H]; [congruence|]. destruct (IH H) as (a & b & -> & F).
  exists (c :: a), b. split; [reflexivity|]. intros [E|E]; [congruence|auto].
Qed.

Lemma at_index_column name cols row : In name cols -> length cols <= length row ->
  exists v, at_index row (find_index name cols) = Ok v /\ column name cols row v.
Proof.
  intros H L. destruct (first_of name cols H) as (a & b & E & N).
  rewrite (find_index_some name cols a b E N). unfold at_index.
  assert (LT : length a < length row) by (subst; rewrite app_length in L; simpl in L; lia).
  destruct (nth_error row (length a)) as [v|] eqn:X.
  - exists v. split; [reflexivity|]. destruct (nth_error_split row (length a) X) as (r & s & E1 & E2).
    now exists a, b, r, s.
  - apply nth_error_None in X. lia.
Qed.

Lemma or_default_named name d cols row : length cols <= length row ->
  exists v, or_default d row (find_index name cols) = Ok v /\ named name d cols row v.
Proof.
  intros L. destruct (in_dec string_dec name cols) as [H|H].
  - destruct (at_index_column name cols row H L) as (v & E & C). exists v.
    destruct (find_index name cols); [|discriminate E]. split; [exact E|]. split; [auto|contradiction].
  - exists d. rewrite (find_index_none name cols H). split; [reflexivity|]. split; [contradiction|auto].
Qed.

Lemma particle_of_row cols nz0 row :
  In "x" cols -> In "y" cols -> In "z" cols -> length cols <= length row ->
  exists p, particle_of cols nz0 row = Ok p /\ is_particle cols nz0 row p.
Proof.
  intros X Y Z L. unfold particle_of.
  destruct (at_index_column _ _ _ X L) as (x & -> & Cx).
  destruct (at_index_column _ _ _ Y L) as (y & -> & Cy).
  destruct (at_index_column _ _ _ Z L) as (z & -> & Cz).
  destruct (or_default_named "nz" nz0 _ _ L) as (nz & -> & Cnz).
  destruct (or_default_named "ws" 1 _ _ L) as (ws & -> & Cws).
  destruct (or_default_named "wc" 1 _ _ L) as (wc & -> & Cwc).
  cbn [bind]. eexists. split; [reflexivity|]. unfold is_particle. cbn. tauto.
Qed.

Lemma particles_of_rows cols nz0 rows :
  In "x" cols -> In "y" cols -> In "z" cols ->
  Forall (fun row => length cols <= length row) rows ->
  exists ps, sequence (map (particle_of cols nz0) rows) = Ok ps /\
    Forall2 (is_particle cols nz0) rows ps.
Proof.
  intros X Y Z. induction 1 as [|row rows L F (ps & E & G)]; [exists []; auto|].
  destruct (particle_of_row cols nz0 row X Y Z L) as (p & E1 & P). exists (p :: ps).
  cbn [map sequence]. rewrite E1, E. auto.
Qed.

Lemma particle_of_err cols nz0 row e : particle_of cols nz0 row = Err e -> e = OutOfBounds.
Proof.
  assert (A : forall i e, at_index row i = Err e -> e = OutOfBounds).
  { intros [k|] e' H; simpl in H; [destruct (nth_error row k)|]; congruence. }
  assert (D : forall d i e, or_default d row i = Err e -> e = OutOfBounds).
  { intros d [k|] e' H; [eapply A; exact H|discriminate H]. }
  unfold particle_of.
  destruct (at_index row (find_index "x" cols)) eqn:X; cbn [bind]; [|intros H; injection H as <-; eauto].
  destruct (at_index row (find_index "y" cols)) eqn:Y; cbn [bind]; [|intros H; injection H as <-; eauto].
  destruct (at_index row (find_index "z" cols)) eqn:Z; cbn [bind]; [|intros H; injection H as <-; eauto].
  destruct (or_default nz0 row (find_index "nz" cols)) eqn:N; cbn [bind]; [|intros H; injection H as <-; eauto].
  destruct (or_default 1 row (find_index "ws" cols)) eqn:S; cbn [bind]; [|intros H; injection H as <-; eauto].
  destruct (or_default 1 row (find_index "wc" cols)) eqn:C; cbn [bind]; [|intros H; injection H as <-; eauto].
  discriminate.
Qed.

(** The names of a column list, comma by comma. *)
Fixpoint commas (cols : list string) : string :=
  match cols with
  | [] => ""
  | [c] => c
  | c :: cs => c ++ String "," (commas cs)
  end.

Definition column_name (c : string) : Prop := comma_free c /\ c <> "".

Lemma pieces_app c r : comma_free c -> pieces "," (c ++ String "," r) = c :: pieces "," r.
Proof.
  induction c as [|x c IH]; intros N; cbn [append pieces].
  - reflexivity.
  - destruct (Ascii.eqb x ",") eqn:E; [apply Ascii.eqb_eq in E; subst; exfalso; now apply (N "" c)|].
    rewrite IH; [reflexivity|]. intros a b H. apply (N (String x a) b). cbn [append]. now rewrite H.
Qed.

Lemma pieces_one c : comma_free c -> c <> "" -> pieces "," c = [c].
Proof.
  induction c as [|x c IH]; intros N H; [congruence|]. cbn [pieces].
  destruct (Ascii.eqb x ",") eqn:E; [apply Ascii.eqb_eq in E; subst; exfalso; now apply (N "" c)|].
  destruct c as [|y c]; [reflexivity|]. rewrite IH; [reflexivity| |discriminate].
  intros a b G. apply (N (String x a) b). cbn [append]. now rewrite G.
Qed.

Lemma pieces_commas cols : Forall column_name cols -> pieces "," (commas cols) = cols.
Proof.
  induction 1 as [|c cols (N & H) F IH]; [reflexivity|]. destruct cols as [|d cols].
  - now apply pieces_one.
  - change (commas (c :: d :: cols)) with (c ++ String "," (commas (d :: cols))).
    now rewrite pieces_app, IH.
Qed.

(* ------------------------------------------------------------------ *)
(** * Files *)

Lemma open_all_files disk paths contents :
  Forall2 (fun p t => disk p = Some t) paths contents -> open_all disk paths = Ok contents.
Proof. induction 1 as [|p t ps ts E F IH]; [reflexivity|]. cbn [open_all]. now rewrite E, IH. Qed.

Lemma load_unfold disk path columns volume c contents :
  source c = "" -> text_path path -> files disk path contents ->
  load_catalogue_file disk path columns volume c =
  let r := read_texts (pieces "," columns) volume contents (body c) in
  ({| source := "extfile:" ++ path; body := fst r |}, snd r).
Proof.
  intros S (H1 & H2) F. unfold load_catalogue_file. rewrite S, H1, H2. cbn [String.eqb negb orb].
  now rewrite (open_all_files disk _ contents F).
Qed.

Lemma data_lines_holds contents texts : Forall2 holds contents texts ->
  concat (map data_lines contents) = filter is_data (concat texts).
Proof.
  induction 1 as [|t ls ts lss H F IH]; [reflexivity|]. cbn [map concat].
  rewrite IH, filter_app. unfold data_lines. now rewrite (holds_lines t ls H).
Qed.

(** The density of particles without a column for it. *)
Definition mean_density (n : nat) (volume nz : R) : Prop :=
  ((0 < volume)%R /\ (nz * volume = INR n)%R) \/ ((volume <= 0)%R /\ nz = 0%R).

Lemma default_nz_spec n volume nz : default_nz n volume = nz <-> mean_density n volume nz.
Proof.
  unfold default_nz, mean_density. destruct (Rltb 0 volume) eqn:E.
  - apply Rltb_spec in E. split.
    + intros <-. left. split; [exact E|]. field. lra.
    + intros [(_ & <-) | (A & _)]; [field; lra|lra].
  - apply Rltb_false in E. split; [intros <-; now right|intros [(A & _) | (_ & ->)]; [lra|reflexivity]].
Qed.

Lemma fill_catalogue c ps : ps <> [] ->
  exists s', (set_pdata 0 ps ;> calc_total_weights 0 ;> calc_pos_extents 0) (fun _ => c) = (s', Ok tt) /\
    pdata (s' 0) = Some ps /\ wtotal (s' 0) = rsum (map p_w ps) /\
    wstotal (s' 0) = rsum (map p_ws ps) /\ extents_current (s' 0).
Proof.
  intros N. unfold set_pdata, andthen, get, put. cbn [fst snd].
  unfold calc_total_weights, andthen, get, put. cbn [fst snd]. rewrite upd_same. cbn [pdata].
  set (s2 := upd (upd _ 0 _) 0 _).
  assert (H2 : has (s2 0) ps) by (unfold s2; rewrite upd_same; split; [reflexivity|exact N]).
  rewrite (extents_run s2 0 ps H2). eexists. split; [reflexivity|]. rewrite upd_same.
  split; [apply refresh_has, N|]. destruct (refresh_weights (s2 0) ps) as [-> ->].
  split; [unfold s2; rewrite upd_same; reflexivity|].
  split; [unfold s2; rewrite upd_same; reflexivity|]. apply refresh_current, N.
Qed.

(* ------------------------------------------------------------------ *)
(** * C94: the particles of a file *)

(** Every line of numbers is a particle, in the order of the files and lines. *)
Theorem load_rows :
  forall disk path cols volume c contents texts rows,
  source c = "" -> text_path path -> Forall column_name cols ->
  files disk path contents -> Forall2 holds contents texts ->
  rows_of (concat texts) rows -> rows <> [] ->
  Forall (fun row => length cols <= length row) rows ->
  In "x" cols -> In "y" cols -> In "z" cols ->
  exists c' ps nz0,
    load_catalogue_file disk path (commas cols) volume c = (c', Ok tt) /\
    source c' = "extfile:" ++ path /\ pdata (body c') = Some ps /\
    mean_density (length rows) volume nz0 /\ Forall2 (is_particle cols nz0) rows ps /\
    wtotal (body c') = rsum (map p_w ps) /\ wstotal (body c') = rsum (map p_ws ps) /\
    extents_current (body c').
Proof.
  intros disk path cols volume c contents texts rows S T K F H R NE L X Y Z.
  rewrite (load_unfold disk path (commas cols) volume c contents S T F).
  rewrite pieces_commas by exact K. unfold read_texts.
  rewrite (data_lines_holds contents texts H).
  assert (M : map row_of (filter is_data (concat texts)) = rows) by now apply rows_of_lines.
  assert (N : length (filter is_data (concat texts)) = length rows) by (rewrite <- M; now rewrite map_length).
  rewrite N. destruct (Nat.eqb_spec (length rows) 0) as [E|_]; [destruct rows; [congruence|discriminate E]|].
  set (nz0 := default_nz (length rows) volume).
  rewrite <- (map_map row_of (particle_of cols nz0)), M.
  destruct (particles_of_rows cols nz0 rows X Y Z L) as (ps & -> & G).
  assert (P : ps <> []).
  { intros ->. inversion G; subst. congruence. }
  destruct (fill_catalogue (body c) ps P) as (s' & E & A & B & C & D). rewrite E. cbv zeta. cbn [fst snd].
  exists {| source := "extfile:" ++ path; body := s' 0 |}, ps, nz0.
  split; [reflexivity|]. cbn [source body]. split; [reflexivity|]. split; [exact A|].
  split; [now apply default_nz_spec|]. auto.
Qed.

Lemma app_mid_inj {A} (a a' b b' : list A) x x' :
  (a ++ x :: b)%list = (a' ++ x' :: b')%list -> length a = length a' -> a = a' /\ x = x' /\ b = b'.
Proof.
  revert a'. induction a as [|y a IH]; intros [|y' a'] E L; try discriminate L.
  - injection E as -> ->. auto.
  - injection E as -> E. injection L as L. destruct (IH a' E L) as (-> & -> & ->). auto.
Qed.

Lemma first_unique (name : string) a b a' b' :
  (a ++ name :: b)%list = (a' ++ name :: b')%list -> ~ In name a -> ~ In name a' -> length a = length a'.
Proof.
  revert a'. induction a as [|y a IH]; intros [|y' a'] E N N'; try reflexivity.
  - injection E as -> _. exfalso. apply N'. now left.
  - injection E as -> _. exfalso. apply N. now left.
  - injection E as -> E. simpl. f_equal. apply (IH a' E); intros H; [apply N|apply N']; now right.
Qed.

(** A row has one entry under a name. *)
Theorem column_functional : forall name cols row v v',
  column name cols row v -> column name cols row v' -> v = v'.
Proof.
  intros name cols row v v' (a & b & r & s & -> & N & -> & L) (a' & b' & r' & s' & E & N' & E' & L').
  assert (Q := first_unique name a b a' b' E N N').
  destruct (app_mid_inj r r' s s' v v' E') as (_ & H & _); [congruence|exact H].
Qed.

(** The order of the columns does not matter: files giving the same entries
    under the same names give the same particles. *)
Definition same_entries (cols cols' : list string) (row row' : list R) : Prop :=
  forall name v, column name cols row v <-> column name cols' row' v.

Lemma is_particle_same cols cols' row row' nz0 p p' :
  (forall name, In name cols <-> In name cols') -> same_entries cols cols' row row' ->
  is_particle cols nz0 row p -> is_particle cols' nz0 row' p' -> p = p'.
Proof.
  intros I S (X & Y & Z & (N1 & N2) & (S1 & S2) & (C1 & C2) & W)
             (X' & Y' & Z' & (N1' & N2') & (S1' & S2') & (C1' & C2') & W').
  assert (E : forall name v v', column name cols row v -> column name cols' row' v' -> v = v').
  { intros name v v' A B. apply (S name v) in A. eapply column_functional; eauto. }
  assert (D : forall name d v v', named name d cols row v -> named name d cols' row' v' -> v = v').
  { intros name d v v' (A1 & A2) (B1 & B2). destruct (in_dec string_dec name cols) as [H|H].
    - eapply E; [now apply A1|]. apply B1. now apply I.
    - rewrite A2, B2; [reflexivity| |exact H]. intros G. apply H. now apply I. }
  assert (nz_eq : p_nz p = p_nz p') by (eapply (D "nz" nz0); split; assumption).
  assert (ws_eq : p_ws p = p_ws p') by (eapply (D "ws" 1%R); split; assumption).
  assert (wc_eq : p_wc p = p_wc p') by (eapply (D "wc" 1%R); split; assumption).
  assert (x_eq := E _ _ _ X X'). assert (y_eq := E _ _ _ Y Y'). assert (z_eq := E _ _ _ Z Z').
  destruct p as [[x y z] nz ws wc w], p' as [[x' y' z'] nz' ws' wc' w']. cbn in *. subst. reflexivity.
Qed.

Theorem load_column_order :
  forall disk path path' cols cols' volume c c' contents contents' texts texts' rows rows',
  source c = "" -> source c' = "" -> text_path path -> text_path path' ->
  Forall column_name cols -> Forall column_name cols' ->
  files disk path contents -> files disk path' contents' ->
  Forall2 holds contents texts -> Forall2 holds contents' texts' ->
  rows_of (concat texts) rows -> rows_of (concat texts') rows' -> rows <> [] ->
  Forall (fun row => length cols <= length row) rows ->
  Forall (fun row => length cols' <= length row) rows' ->
  In "x" cols -> In "y" cols -> In "z" cols ->
  (forall name, In name cols <-> In name cols') ->
  Forall2 (same_entries cols cols') rows rows' ->
  snd (load_catalogue_file disk path (commas cols) volume c) = Ok tt /\
  snd (load_catalogue_file disk path' (commas cols') volume c') = Ok tt /\
  pdata (body (fst (load_catalogue_file disk path (commas cols) volume c))) =
  pdata (body (fst (load_catalogue_file disk path' (commas cols') volume c'))).
Proof.
  intros disk path path' cols cols' volume c c' contents contents' texts texts' rows rows'
    S S' T T' K K' F F' H H' R R' NE L L' X Y Z I SE.
  assert (LEN : length rows = length rows') by (clear - SE; induction SE; simpl; congruence).
  destruct (load_rows disk path cols volume c contents texts rows S T K F H R NE L X Y Z)
    as (d & ps & nz0 & -> & _ & P & M & G & _).
  destruct (load_rows disk path' cols' volume c' contents' texts' rows' S' T' K' F' H' R')
    as (d' & ps' & nz0' & -> & _ & P' & M' & G' & _).
  { intros ->. destruct rows; [congruence|discriminate LEN]. }
  { exact L'. } { now apply I. } { now apply I. } { now apply I. }
  cbn [fst snd]. split; [reflexivity|]. split; [reflexivity|]. rewrite P, P'. f_equal.
  rewrite <- LEN in M'. apply default_nz_spec in M, M'. rewrite M in M'. subst nz0'.
  clear - I SE G G'. revert ps ps' G G'.
  induction SE as [|row row' rows rows' E SE IH]; intros ps ps' G G'; inversion G; inversion G'; subst; [reflexivity|].
  f_equal; [eapply is_particle_same; eauto|auto].
Qed.

(** What goes wrong, and how. *)

Lemma sequence_err {A} (l : list (res A)) e :
  In (Err e) l -> (forall e', In (Err e') l -> e' = e) -> sequence l = Err e.
Proof.
  induction l as [|x l IH]; [intros []|]. intros H U. cbn [sequence].
  destruct x as [v|e'].
  - cbn [bind]. destruct H as [H|H]; [discriminate H|]. rewrite IH; [reflexivity|exact H|].
    intros e' G. apply U. now right.
  - cbn [bind]. f_equal. apply U. now left.
Qed.

Lemma read_texts_bad cols volume contents texts c l :
  Forall2 holds contents texts -> In l (concat texts) -> ~ comment_or_empty l ->
  (forall nz0, particle_of cols nz0 (row_of l) = Err OutOfBounds) ->
  read_texts cols volume contents c = (c, Err OutOfBounds).
Proof.
  intros H I N E. unfold read_texts. rewrite (data_lines_holds contents texts H).
  assert (J : In l (filter is_data (concat texts))) by (apply filter_In; split; [exact I|now apply is_data_spec]).
  destruct (Nat.eqb_spec (length (filter is_data (concat texts))) 0) as [Z|_].
  - apply length_zero_iff_nil in Z. rewrite Z in J. destruct J.
  - rewrite (sequence_err _ OutOfBounds); [reflexivity| |].
    + apply in_map_iff. exists l. split; [apply E|exact J].
    + intros e' G. apply in_map_iff in G as (l' & G & _). eapply particle_of_err; exact G.
Qed.

(** A coordinate without a column: every catalogue with a data line fails,
    reading outside the row. *)
Theorem load_needs_coordinates :
  forall disk path cols volume c contents texts l name,
  source c = "" -> text_path path -> Forall column_name cols ->
  files disk path contents -> Forall2 holds contents texts ->
  In l (concat texts) -> ~ comment_or_empty l ->
  In name ["x"; "y"; "z"] -> ~ In name cols ->
  snd (load_catalogue_file disk path (commas cols) volume c) = Err OutOfBounds.
Proof.
  intros disk path cols volume c contents texts l name S T K F H I D N A.
  rewrite (load_unfold disk path (commas cols) volume c contents S T F).
  rewrite pieces_commas by exact K.
  rewrite (read_texts_bad cols volume contents texts (body c) l H I D); [reflexivity|].
  intros nz0. destruct (particle_of cols nz0 (row_of l)) as [p|e] eqn:E.
  - exfalso. revert E. unfold particle_of.
    destruct N as [<-|[<-|[<-|[]]]]; rewrite (find_index_none _ cols A);
      repeat (match goal with |- context [at_index (row_of l) ?i] =>
        destruct (at_index (row_of l) i) eqn:?; cbn [bind]; try discriminate end).
  - f_equal. eapply particle_of_err; exact E.
Qed.

(** A line of too few numbers for a column that is asked for: the same. *)
Theorem load_short_line :
  forall disk path cols volume c contents texts l row name a b,
  source c = "" -> text_path path -> Forall column_name cols ->
  files disk path contents -> Forall2 holds contents texts ->
  In l (concat texts) -> ~ comment_or_empty l -> line_of_numbers l row ->
  In name ["x"; "y"; "z"; "nz"; "ws"; "wc"] -> cols = (a ++ name :: b)%list -> ~ In name a ->
  length row <= length a ->
  snd (load_catalogue_file disk path (commas cols) volume c) = Err OutOfBounds.
Proof.
  intros disk path cols volume c contents texts l row name a b S T K F H I D LN N E A SH.
  rewrite (load_unfold disk path (commas cols) volume c contents S T F).
  rewrite pieces_commas by exact K.
  rewrite (read_texts_bad cols volume contents texts (body c) l H I D); [reflexivity|].
  intros nz0. rewrite (row_of_numbers l row LN).
  assert (X : at_index row (find_index name cols) = Err OutOfBounds).
  { rewrite (find_index_some name cols a b E A). unfold at_index.
    apply nth_error_None in SH. now rewrite SH. }
  assert (Y : forall d, or_default d row (find_index name cols) = Err OutOfBounds).
  { intros d. rewrite <- X. rewrite (find_index_some name cols a b E A). reflexivity. }
  destruct (particle_of cols nz0 row) as [p|e] eqn:Q.
  - exfalso. revert Q. unfold particle_of.
    destruct N as [<-|[<-|[<-|[<-|[<-|[<-|[]]]]]]];
      rewrite ?X, ?Y;
      repeat (match goal with
        |- context [bind ?m _] => destruct m eqn:?; cbn [bind]; try discriminate end).
  - f_equal. eapply particle_of_err; exact Q.
Qed.

(** In particular a line of blanks, such as the carriage return that ends
    an empty line of a file with CRLF line ends. *)
Theorem load_blank_line :
  forall disk path cols volume c contents texts l,
  source c = "" -> text_path path -> Forall column_name cols ->
  files disk path contents -> Forall2 holds contents texts ->
  In l (concat texts) -> l <> "" -> blanks l ->
  snd (load_catalogue_file disk path (commas cols) volume c) = Err OutOfBounds.
Proof.
  intros disk path cols volume c contents texts l S T K F H I NE B.
  assert (D : ~ comment_or_empty l).
  { intros [-> | (r & ->)]; [congruence|]. destruct B as (B & _). discriminate B. }
  assert (LN : line_of_numbers l []) by (exists []; split; [now constructor|constructor]).
  destruct (in_dec string_dec "x" cols) as [X|X].
  - destruct (first_of "x" cols X) as (a & b & E & A).
    eapply (load_short_line disk path cols volume c contents texts l [] "x" a b); eauto; [now left|simpl; lia].
  - eapply (load_needs_coordinates disk path cols volume c contents texts l "x"); eauto. now left.
Qed.

(** Commas do not separate numbers: only the first number of a line is read,
    so a comma-separated file fails whatever its columns are. *)
Lemma numeral_word w v : numeral w v -> word w.
Proof.
  assert (AD : forall d, all_digits d -> blank_free d).
  { induction d as [|c d IH]; [auto|]. intros (A & B). split; [|auto].
    destruct (is_blank_char c) eqn:E; [|reflexivity]. apply blank_not_digit in E. contradiction. }
  assert (SG : forall s g, sign_text s g -> blank_free s) by (intros s g []; repeat split).
  intros [s g ip ft fp n et e S I F D X]. split.
  - intros E. destruct s; [|discriminate E]. destruct ip; [|discriminate E].
    destruct F; [discriminate D|discriminate E].
  - rewrite !blank_free_app. split; [eauto|]. split; [auto|]. split.
    + destruct F; [exact Logic.I|]. split; [reflexivity|auto].
    + destruct X as [|l s' g' d n' L S' D']; [exact Logic.I|].
      rewrite !blank_free_app. split; [destruct L as [-> | ->]; repeat split|]. split; [eauto|].
      apply AD. eapply digits_value_all; exact D'.
Qed.

Lemma row_of_commas w v r : numeral w v -> row_of (w ++ "," ++ r) = [v].
Proof.
  intros N. unfold row_of. destruct (numeral_word w v N) as (W1 & W2).
  destruct w as [|c w]; [congruence|].
  cbn [append String.length]. change (String c (w ++ String "," r)) with (String c w ++ String "," r).
  cbn [entries]. rewrite skip_blank_ink by assumption.
  rewrite (stream_numeral (String c w) v (String "," r) N) by (repeat split; try discriminate).
  reflexivity.
Qed.

Theorem load_comma_separated :
  forall disk path cols volume c contents texts l w v r,
  source c = "" -> text_path path -> Forall column_name cols ->
  files disk path contents -> Forall2 holds contents texts ->
  In l (concat texts) -> numeral w v -> l = w ++ "," ++ r ->
  snd (load_catalogue_file disk path (commas cols) volume c) = Err OutOfBounds.
Proof.
  intros disk path cols volume c contents texts l w v r S T K F H I N ->.
  assert (D : ~ comment_or_empty (w ++ "," ++ r)).
  { intros [E | (t & E)]; [destruct w; discriminate E|].
    destruct N as [s g ip ft fp n et e SG A FT DV X].
    destruct SG; [|discriminate E|discriminate E]. destruct ip as [|ch ip].
    - destruct FT; [discriminate DV|discriminate E].
    - cbn [append] in E. injection E as -> _. destruct A as (A & _). now apply A. }
  destruct (in_dec string_dec "x" cols) as [X|X];
    [|eapply (load_needs_coordinates disk path cols volume c contents texts _ "x"); eauto; now left].
  destruct (in_dec string_dec "y" cols) as [Y|Y];
    [|eapply (load_needs_coordinates disk path cols volume c contents texts _ "y"); eauto; right; now left].
  rewrite (load_unfold disk path (commas cols) volume c contents S T F).
  rewrite pieces_commas by exact K.
  rewrite (read_texts_bad cols volume contents texts (body c) _ H I D); [reflexivity|].
  intros nz0. rewrite (row_of_commas w v r N).
  destruct (first_of "x" cols X) as (a & b & E & A). destruct (first_of "y" cols Y) as (a' & b' & E' & A').
  assert (O : length a <> 0 \/ length a' <> 0).
  { destruct a as [|? a]; [|left; discriminate]. destruct a' as [|? a']; [|right; discriminate].
    rewrite E in E'. discriminate E'. }
  unfold particle_of. rewrite (find_index_some "x" cols a b E A), (find_index_some "y" cols a' b' E' A').
  unfold at_index at 1. destruct (length a) as [|k]; cbn [nth_error bind].
  - unfold at_index at 1. destruct (length a') as [|k']; [destruct O; congruence|].
    cbn [nth_error]. destruct k'; reflexivity.
  - destruct k; reflexivity.
Qed.

(** No line of numbers at all. *)
Theorem load_no_rows :
  forall disk path columns volume c contents texts,
  source c = "" -> text_path path ->
  files disk path contents -> Forall2 holds contents texts ->
  Forall comment_or_empty (concat texts) ->
  snd (load_catalogue_file disk path columns volume c) = Err InvalidParameter.
Proof.
  intros disk path columns volume c contents texts S T F H A.
  rewrite (load_unfold disk path columns volume c contents S T F).
  unfold read_texts. rewrite (data_lines_holds contents texts H).
  replace (filter is_data (concat texts)) with (@nil string); [reflexivity|].
  symmetry. induction A as [|l ls C A IH]; [reflexivity|]. cbn [filter].
  destruct (is_data l) eqn:E; [apply is_data_spec in E; contradiction|]. clear - A.
  induction A as [|l' ls' C' A IH]; [reflexivity|]. cbn [filter].
  destruct (is_data l') eqn:E; [apply is_data_spec in E; contradiction|exact IH].
Qed.

(** A file that is not there. *)
Theorem load_missing_file :
  forall disk path columns volume c p,
  source c = "" -> text_path path -> In p (split_string path "::") -> disk p = None ->
  snd (load_catalogue_file disk path columns volume c) = Err IOErr.
Proof.
  intros disk path columns volume c p S (H1 & H2) I N. unfold load_catalogue_file.
  rewrite S, H1, H2. cbn [String.eqb negb orb].
  replace (open_all disk (split_string path "::")) with (@Err (list string) IOErr); [reflexivity|].
  induction (split_string path "::") as [|q qs IH]; [destruct I|]. cbn [open_all].
  destruct I as [->|I]; [now rewrite N|]. destruct (disk q); [|reflexivity].
  rewrite <- IH by exact I. reflexivity.
Qed.

(* ------------------------------------------------------------------ *)
(** * C95: after a load *)

(** Whatever came of it, a catalogue a file was loaded into takes no other. *)
Theorem load_twice :
  forall disk disk' path path' columns columns' volume volume' c,
  let c1 := fst (load_catalogue_file disk path columns volume c) in
  load_catalogue_file disk' path' columns' volume' c1 = (c1, Err InvalidData).
Proof.
  intros disk disk' path path' columns columns' volume volume' c c1.
  assert (S : source c1 <> "").
  { unfold c1, load_catalogue_file. destruct (source c =? "") eqn:E; cbn [negb].
    - destruct (has_extension path ".h5" || has_extension path ".hdf5"); [discriminate|].
      destruct (open_all disk (split_string path "::")); discriminate.
    - cbn [fst]. now apply String.eqb_neq. }
  unfold load_catalogue_file at 1. apply String.eqb_neq in S. now rewrite S.
Qed.

(** Checking literals. *)
Fixpoint avoids (ch : ascii) (s : string) : bool :=
  match s with
  | "" => true
  | String c t => negb (Ascii.eqb c ch) && avoids ch t
  end.

Lemma avoids_free ch s : avoids ch s = true -> forall a b, s <> a ++ String ch b.
Proof.
  induction s as [|c s IH]; intros H a b E; [destruct a; discriminate E|].
  cbn [avoids] in H. apply andb_true_iff in H as (H1 & H2).
  destruct a as [|x a]; cbn [append] in E; injection E as -> E.
  - rewrite Ascii.eqb_refl in H1. discriminate H1.
  - exact (IH H2 a b E).
Qed.

Lemma names_ok cols :
  forallb (fun c => avoids "," c && negb (c =? "")) cols = true -> Forall column_name cols.
Proof.
  rewrite forallb_forall, Forall_forall. intros H c I. specialize (H c I).
  apply andb_true_iff in H as (A & B). split; [exact (avoids_free _ c A)|].
  intros ->. discriminate B.
Qed.

Lemma ended_holds lines : forallb (avoids newline) lines = true -> holds (ended lines) lines.
Proof.
  intros H. split; [|now left]. rewrite forallb_forall in H. apply Forall_forall.
  intros l I. exact (avoids_free _ l (H l I)).
Qed.

Lemma numeral_digits w n : digits_value w = Some n -> numeral w (IZR n).
Proof.
  intros D. replace (IZR n) with (IZR 1 * (IZR n * / 10 ^ String.length "") * powerRZ 10 0)%R
    by (simpl; field).
  replace w with ("" ++ w ++ "" ++ "") by (rewrite !sapp_nil_r; reflexivity).
  apply numeral_intro; try constructor.
  - eapply digits_value_all; exact D.
  - now rewrite sapp_nil_r.
Qed.

Lemma one_two_three : line_of_numbers "1 2 3" [1; 2; 3]%R.
Proof.
  exists ["1"; "2"; "3"]. split.
  - apply (spells_cons "" "1" _ " 2 3"); try exact I; try reflexivity; [repeat split; discriminate|].
    apply (spells_cons " " "2" _ " 3"); try (repeat split; discriminate); try exact I; try reflexivity.
    apply (spells_cons " " "3" _ ""); try (repeat split; discriminate); try exact I; try reflexivity.
    constructor. exact I.
  - repeat constructor; apply numeral_digits; reflexivity.
Qed.

Lemma one_file_loads disk path volume : disk path = Some (ended ["1 2 3"]) ->
  split_string path "::" = [path] -> text_path path ->
  snd (load_catalogue_file disk path "x,y,z" volume fresh) = Ok tt.
Proof.
  intros D P T.
  destruct (load_rows disk path ["x"; "y"; "z"] volume fresh [ended ["1 2 3"]] [["1 2 3"]] [[1; 2; 3]%R])
    as (c' & ps & nz0 & E & _).
  - reflexivity.
  - exact T.
  - now apply names_ok.
  - unfold files. rewrite P. auto.
  - constructor; [now apply ended_holds|constructor].
  - apply rows_data; [|exact one_two_three|constructor].
    intros [E|(r & E)]; discriminate E.
  - discriminate.
  - repeat constructor.
  - now left.
  - right; now left.
  - right; right; now left.
  - change (commas ["x"; "y"; "z"]) with "x,y,z" in E. now rewrite E.
Qed.

(** So a load that failed cannot be made good with the same object: the
    particles are as before, yet the files are refused. *)
Theorem failed_load_repeated_refuted :
  ~ (forall disk disk' path columns volume c,
       snd (load_catalogue_file disk path columns volume fresh) = Err IOErr ->
       c = fst (load_catalogue_file disk path columns volume fresh) ->
       snd (load_catalogue_file disk' path columns volume fresh) = Ok tt ->
       snd (load_catalogue_file disk' path columns volume c) = Ok tt).
Proof.
  intros H.
  set (d := fun p : string => if p =? "cat" then Some (ended ["1 2 3"]) else None).
  assert (S : snd (load_catalogue_file d "cat" "x,y,z" 0 fresh) = Ok tt).
  { apply one_file_loads; [reflexivity|reflexivity|split; reflexivity]. }
  specialize (H (fun _ => None) d "cat" "x,y,z" 0%R _ eq_refl eq_refl S).
  rewrite load_twice in H. discriminate H.
Qed.

(** Nothing of the particles, totals or extents changes when a load fails. *)
Theorem failed_load_keeps_particles :
  forall disk path columns volume c e,
  snd (load_catalogue_file disk path columns volume c) = Err e ->
  body (fst (load_catalogue_file disk path columns volume c)) = body c.
Proof.
  intros disk path columns volume c e. unfold load_catalogue_file.
  destruct (source c =? ""); cbn [negb]; [|reflexivity].
  destruct (has_extension path ".h5" || has_extension path ".hdf5"); [reflexivity|].
  destruct (open_all disk (split_string path "::")) as [ts|e']; [|reflexivity].
  cbv zeta. cbn [fst snd body]. unfold read_texts.
  destruct (Nat.eqb_spec (length (concat (map data_lines ts))) 0) as [E|NE]; [reflexivity|].
  destruct (sequence _) as [ps|e'] eqn:Q; [|reflexivity].
  assert (P : ps <> []).
  { intros ->. apply NE. revert Q. generalize (default_nz (length (concat (map data_lines ts))) volume).
    intros nz0. destruct (concat (map data_lines ts)); [reflexivity|]. cbn [map sequence].
    destruct (particle_of _ _ _); [|discriminate]. cbn [bind].
    destruct (sequence _); cbn [bind]; discriminate. }
  destruct (fill_catalogue (body c) ps P) as (s' & -> & _). cbn [fst snd]. discriminate.
Qed.

(* ------------------------------------------------------------------ *)
(** * C96: a catalogue in several files *)

(** A text that ends with a newline, or is empty. *)
Definition closed_text (t : string) : Prop := t = "" \/ exists u, t = u ++ String newline "".

Lemma text_lines_closed t r : closed_text t ->
  text_lines (t ++ r) = (text_lines t ++ text_lines r)%list.
Proof.
  intros [-> | (u & ->)]; [reflexivity|]. rewrite sapp_assoc. cbn [append].
  induction u as [|c u IH]; cbn [append text_lines]; [reflexivity|].
  destruct (Ascii.eqb c newline); [now rewrite IH|]. rewrite IH.
  destruct (text_lines (u ++ String newline "")) as [|l ls] eqn:E; [|reflexivity].
  exfalso. clear - E. destruct u as [|d u]; [discriminate E|]. cbn [append text_lines] in E.
  destruct (Ascii.eqb d newline); [discriminate E|]. destruct (text_lines _); discriminate E.
Qed.

Lemma data_lines_join contents : Forall closed_text contents ->
  concat (map data_lines contents) = data_lines (fold_right append "" contents).
Proof.
  induction 1 as [|t ts C F IH]; [reflexivity|]. cbn [map concat fold_right].
  unfold data_lines at 1 3. rewrite text_lines_closed, filter_app by exact C. now rewrite IH.
Qed.

(** Files joined with `::` give what one file with all their text gives. *)
Theorem load_parts :
  forall disk path whole columns volume c contents,
  text_path path -> text_path whole ->
  files disk path contents -> Forall closed_text contents ->
  files disk whole [fold_right append "" contents] ->
  let r := load_catalogue_file disk path columns volume c in
  let r' := load_catalogue_file disk whole columns volume c in
  snd r = snd r' /\ body (fst r) = body (fst r').
Proof.
  intros disk path whole columns volume c contents T T' F C F' r r'. subst r r'.
  destruct (source c =? "") eqn:S.
  - apply String.eqb_eq in S.
    rewrite (load_unfold disk path columns volume c contents S T F).
    rewrite (load_unfold disk whole columns volume c _ S T' F').
    assert (E : read_texts (pieces "," columns) volume contents (body c) =
                read_texts (pieces "," columns) volume [fold_right append "" contents] (body c)).
    { unfold read_texts. rewrite (data_lines_join contents C).
      cbn [map concat]. rewrite app_nil_r. reflexivity. }
    rewrite E. auto.
  - unfold load_catalogue_file. rewrite S. auto.
Qed.

(** A part without its last newline still ends its line: that is one row
    more than the joined texts have. *)
Theorem load_parts_unclosed_refuted :
  ~ (forall disk path whole columns volume c contents,
     text_path path -> text_path whole ->
     files disk path contents -> files disk whole [fold_right append "" contents] ->
     snd (load_catalogue_file disk path columns volume c) =
     snd (load_catalogue_file disk whole columns volume c) /\
     body (fst (load_catalogue_file disk path columns volume c)) =
     body (fst (load_catalogue_file disk whole columns volume c))).
Proof.
  intros H.
  set (d := fun p : string =>
     if p =? "a" then Some "1 2 3" else if p =? "b" then Some "4 5 6"
     else if p =? "c" then Some "1 2 34 5 6" else None).
  specialize (H d "a::b" "c" "x,y,z" 0%R fresh ["1 2 3"; "4 5 6"]).
  destruct H as (_ & H).
  - split; reflexivity.
  - split; reflexivity.
  - repeat constructor.
  - repeat constructor.
  - apply (f_equal pdata) in H. apply (f_equal (option_map (@length pdatum))) in H.
    revert H. rewrite (load_unfold d "a::b" "x,y,z" 0%R fresh ["1 2 3"; "4 5 6"]); [|reflexivity|split; reflexivity|repeat constructor].
    rewrite (load_unfold d "c" "x,y,z" 0%R fresh ["1 2 34 5 6"]); [|reflexivity|split; reflexivity|repeat constructor].
    unfold read_texts.
    change (concat (map data_lines ["1 2 3"; "4 5 6"])) with ["1 2 3"; "4 5 6"].
    change (concat (map data_lines ["1 2 34 5 6"])) with ["1 2 34 5 6"].
    cbn [length Nat.eqb]. change (pieces "," "x,y,z") with ["x"; "y"; "z"].
    generalize (default_nz 2 0) (default_nz 1 0). intros u v.
    cbn. discriminate.
Qed.

(* ------------------------------------------------------------------ *)
(** * The claim for any file of numbers, and cases *)

(** A file with an empty line between two rows, written with CRLF. *)
Definition crlf : string := String "013" (String newline "").

Theorem load_any_line_ends_refuted :
  ~ (forall disk path volume rows text,
       disk path = Some text -> split_string path "::" = [path] -> text_path path ->
       Forall (fun l => l = "1 2 3" \/ l = "") rows -> rows <> [] -> In "1 2 3" rows ->
       text = fold_right (fun l t => l ++ crlf ++ t) "" rows ->
       snd (load_catalogue_file disk path "x,y,z" volume fresh) = Ok tt).
Proof.
  intros H.
  set (text := fold_right (fun l t => l ++ crlf ++ t) "" ["1 2 3"; ""; "1 2 3"]).
  specialize (H (fun p => if p =? "cat" then Some text else None) "cat" 0%R ["1 2 3"; ""; "1 2 3"] text).
  assert (E : snd (load_catalogue_file (fun p => if p =? "cat" then Some text else None) "cat"
                     (commas ["x"; "y"; "z"]) 0%R fresh) = Err OutOfBounds).
  { apply (load_blank_line _ _ _ _ _ [text] [["1 2 3" ++ String "013" ""; String "013" ""; "1 2 3" ++ String "013" ""]]
             (String "013" "")).
    - reflexivity.
    - split; reflexivity.
    - now apply names_ok.
    - repeat constructor.
    - constructor; [|constructor]. change text with
        (ended ["1 2 3" ++ String "013" ""; String "013" ""; "1 2 3" ++ String "013" ""]).
      now apply ended_holds.
    - right; now left.
    - discriminate.
    - repeat split. }
  change (commas ["x"; "y"; "z"]) with "x,y,z" in E. rewrite H in E; [discriminate E|..]; try reflexivity.
  - split; reflexivity.
  - repeat (constructor; [now (left + right)|]). constructor.
  - discriminate.
  - now left.
Qed.

Example numeral_case : numeral "-12.50e+2" (-1250).
Proof.
  replace (-1250)%R with (IZR (-1) * (IZR 1250 * / 10 ^ String.length "50") * powerRZ 10 (1 * 2))%R
    by (simpl; field).
  change "-12.50e+2" with ("-" ++ "12" ++ ("." ++ "50") ++ ("e" ++ "+" ++ "2")).
  apply numeral_intro; try constructor; try reflexivity; try (repeat split; discriminate).
  - now left.
  - constructor.
Qed.

(** Two files, a comment, a column that is not used, and the default density:
    two particles in a volume of four. *)
Example load_case :
  exists c' ps,
    load_catalogue_file
      (fun p => if p =? "a.txt" then Some (ended ["# z id x y"; "3 7 1 2"])
                else if p =? "b.txt" then Some (ended [""; "6 8 4 5"]) else None)
      "a.txt::b.txt" "z,id,x,y" 4 fresh = (c', Ok tt) /\
    pdata (body c') = Some ps /\
    map p_pos ps = [T3 1 2 3; T3 4 5 6]%R /\ map p_nz ps = [/ 2; / 2]%R /\ map p_w ps = [1; 1]%R /\
    wtotal (body c') = 2%R.
Proof.
  set (disk := fun p : string => _).
  assert (R1 : line_of_numbers "3 7 1 2" [3; 7; 1; 2]%R).
  { exists ["3"; "7"; "1"; "2"]. split; [|repeat constructor; apply numeral_digits; reflexivity].
    apply (spells_cons "" "3" _ " 7 1 2"); try (repeat split; discriminate); try exact I; try reflexivity.
    apply (spells_cons " " "7" _ " 1 2"); try (repeat split; discriminate); try exact I; try reflexivity.
    apply (spells_cons " " "1" _ " 2"); try (repeat split; discriminate); try exact I; try reflexivity.
    apply (spells_cons " " "2" _ ""); try (repeat split; discriminate); try exact I; try reflexivity.
    constructor. exact I. }
  assert (R2 : line_of_numbers "6 8 4 5" [6; 8; 4; 5]%R).
  { exists ["6"; "8"; "4"; "5"]. split; [|repeat constructor; apply numeral_digits; reflexivity].
    apply (spells_cons "" "6" _ " 8 4 5"); try (repeat split; discriminate); try exact I; try reflexivity.
    apply (spells_cons " " "8" _ " 4 5"); try (repeat split; discriminate); try exact I; try reflexivity.
    apply (spells_cons " " "4" _ " 5"); try (repeat split; discriminate); try exact I; try reflexivity.
    apply (spells_cons " " "5" _ ""); try (repeat split; discriminate); try exact I; try reflexivity.
    constructor. exact I. }
  destruct (load_rows disk "a.txt::b.txt" ["z"; "id"; "x"; "y"] 4 fresh
              [ended ["# z id x y"; "3 7 1 2"]; ended [""; "6 8 4 5"]]
              [["# z id x y"; "3 7 1 2"]; [""; "6 8 4 5"]] [[3; 7; 1; 2]; [6; 8; 4; 5]]%R)
    as (c' & ps & nz0 & E & _ & P & M & G & W & _).
  - reflexivity.
  - split; reflexivity.
  - now apply names_ok.
  - repeat constructor.
  - repeat (constructor; [now apply ended_holds|]). constructor.
  - apply rows_skip; [right; now exists " z id x y"|].
    apply rows_data; [intros [Q|(r & Q)]; discriminate Q|exact R1|].
    apply rows_skip; [now left|].
    apply rows_data; [intros [Q|(r & Q)]; discriminate Q|exact R2|constructor].
  - discriminate.
  - repeat constructor.
  - right; right; now left.
  - do 3 right; now left.
  - now left.
  - exists c', ps. split; [exact E|]. split; [exact P|].
    assert (N : nz0 = (/ 2)%R).
    { destruct M as [(_ & M) | (M & _)]; [cbn in M|exfalso]; lra. }
    subst nz0.
    assert (U : forall name v v' row, column name ["z"; "id"; "x"; "y"] row v ->
      (exists k, find_index name ["z"; "id"; "x"; "y"] = Some k /\ nth_error row k = Some v') -> v = v').
    { intros name v v' row (a & b & r & s & Q & A & -> & L) (k & K1 & K2).
      rewrite (find_index_some name _ a b Q A) in K1. injection K1 as <-.
      rewrite <- L, nth_error_app2, Nat.sub_diag in K2 by lia. now injection K2. }
    inversion G as [|? p1 ? ps1 G1 H1]; subst. inversion H1 as [|? p2 ? ps2 G2 H2]; subst. inversion H2; subst.
    destruct G1 as (X1 & Y1 & Z1 & (_ & N1) & (_ & S1) & (_ & C1) & W1).
    destruct G2 as (X2 & Y2 & Z2 & (_ & N2) & (_ & S2) & (_ & C2) & W2).
    assert (NI : forall n, In n ["nz"; "ws"; "wc"] -> ~ In n ["z"; "id"; "x"; "y"]).
    { intros n A B. repeat (destruct A as [<-|A]; [now repeat (destruct B as [B|B]; [discriminate B|])|]).
      destruct A. }
    apply (U _ _ 1%R) in X1; [|exists 2; split; reflexivity]. apply (U _ _ 2%R) in Y1; [|exists 3; split; reflexivity].
    apply (U _ _ 3%R) in Z1; [|exists 0; split; reflexivity].
    apply (U _ _ 4%R) in X2; [|exists 2; split; reflexivity]. apply (U _ _ 5%R) in Y2; [|exists 3; split; reflexivity].
    apply (U _ _ 6%R) in Z2; [|exists 0; split; reflexivity].
    specialize (N2 (NI "nz" (or_introl eq_refl))).
    specialize (S1 (NI "ws" (or_intror (or_introl eq_refl)))). specialize (S2 (NI "ws" (or_intror (or_introl eq_refl)))).
    specialize (C1 (NI "wc" (or_intror (or_intror (or_introl eq_refl))))). specialize (C2 (NI "wc" (or_intror (or_intror (or_introl eq_refl))))).
    specialize (N1 (NI "nz" (or_introl eq_refl))).
    rewrite S1, C1 in W1. rewrite S2, C2 in W2. rewrite W. cbn [map]. unfold rsum. cbn [fold_right].
    rewrite W1, W2, N1, N2. destruct (p_pos p1) as [x y z], (p_pos p2) as [x2 y2 z2]. cbn [ax0 ax1 ax2] in *.
    subst. rewrite Rmult_1_l. repeat split. lra.
Qed.

(* ------------------------------------------------------------------ *)
(** * Numbers in parameter files (C89) *)

(** The same numerals are read as the same numbers in parameter files. *)
Theorem param_numeral : forall w v r, numeral w v -> stops r -> read_num (w ++ r) = Some v.
Proof.
  assert (X : forall s e r, stream_exponent s = Some (e, r) -> read_exponent s = Some e).
  { intros s e r. unfold stream_exponent, read_exponent, read_int.
    destruct s as [|c t]; [intros H; injection H as <- _; reflexivity|].
    destruct c as [[] [] [] [] [] [] [] []]; try (intros H; injection H as <- _; reflexivity);
      destruct (digits_value _); intros H; try discriminate H; injection H as <- _; reflexivity. }
  intros w v r N E. pose proof (stream_numeral w v r N E) as H. revert H.
  unfold stream_num, read_num. cbv zeta.
  set (x := take_sign (w ++ r)). set (ip := take_digits (snd x)).
  set (fp := match snd ip with String "." t => take_digits t | q => ("", q) end).
  destruct (digits_value (fst ip ++ fst fp)) as [n|]; [|discriminate].
  destruct (stream_exponent (snd fp)) as [(e & q)|] eqn:Q; [|discriminate].
  rewrite (X _ _ _ Q). intros H. injection H as H _. now rewrite H.
Qed.

Example param_numeral_case : read_num "2.5E-1" = Some (/ 4)%R /\ read_num "250" = Some 250%R.
Proof.
  split.
  - replace (/ 4)%R with (IZR 1 * (IZR 25 * / 10 ^ String.length "5") * powerRZ 10 (-1 * 1))%R
      by (simpl; field).
    change "2.5E-1" with (("" ++ "2" ++ ("." ++ "5") ++ ("E" ++ "-" ++ "1")) ++ "").
    apply param_numeral; [|exact I]. apply numeral_intro; try constructor; try reflexivity; try (repeat split; discriminate).
    + now right.
    + constructor.
  - change "250" with ("250" ++ ""). apply param_numeral; [now apply numeral_digits|exact I].
Qed.

Print Assumptions param_numeral.
Print Assumptions load_rows.
Print Assumptions load_column_order.
Print Assumptions load_comma_separated.
Print Assumptions load_parts.
Print Assumptions failed_load_keeps_particles.
