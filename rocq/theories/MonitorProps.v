(* C50 (elapsed time), C51 (log levels) and C52 (progress bar). *)
From Coq Require Import String Ascii List ZArith Reals Lra Lia Bool Sorting.Sorted.
From Flocq Require Import Core.
From Verif Require Import Base StrModel StrProps Dec ArrayModel ArrayProofs MonitorModel.
Import ListNotations.
Local Open Scope string_scope.

(* ------------------------------------------------------------------ *)
(** * C50: elapsed time *)

Local Open Scope Z_scope.

(** A time of day "hh:mm:ss": two-digit minutes and seconds below sixty, at
    least two digits of hours; [n] is the number of seconds it stands for. *)
Definition clock_text (str : string) (n : Z) : Prop :=
  exists hh mm ss h m s,
    str = hh ++ ":" ++ mm ++ ":" ++ ss /\
    digits_value hh = Some h /\ digits_value mm = Some m /\
    digits_value ss = Some s /\
    (2 <= String.length hh)%nat /\ String.length mm = 2%nat /\
    String.length ss = 2%nat /\
    0 <= h /\ 0 <= m < 60 /\ 0 <= s < 60 /\ 3600 * h + 60 * m + s = n.

Lemma pad_small n : 0 <= n < 100 ->
  exists t, pad2 (to_string n) = Ok t /\ fmt02d n = t /\
    digits_value t = Some n /\ String.length t = 2%nat.
Proof.
  intros H. rewrite to_string_nonneg by lia. unfold fmt02d.
  rewrite to_string_nonneg by lia.
  pose proof (dec_value n (proj1 H)) as V.
  destruct (Z_lt_le_dec n 10) as [L|L].
  - rewrite dec_small in * by lia. cbn [pad2 String.length].
    eexists; split; [reflexivity|]. split; [reflexivity|]. split; [|reflexivity].
    unfold digits_value in *. cbn [append]. cbn [digits_from] in *.
    change (digit_value "0"%char) with (Some 0). cbn match. exact V.
  - rewrite dec_two in * by lia. eexists; split; [reflexivity|].
    split; [reflexivity|]. split; [exact V | reflexivity].
Qed.

Lemma pad_hours n : 0 <= n ->
  exists t, (if (String.length (to_string n) <? 2)%nat then pad2 (to_string n)
             else Ok (to_string n)) = Ok t /\ fmt02d n = t /\
    digits_value t = Some n /\ (2 <= String.length t)%nat.
Proof.
  intros H. destruct (Nat.ltb_spec (String.length (to_string n)) 2) as [L|L].
  - destruct (Z_lt_le_dec n 100) as [K|K].
    + destruct (pad_small n) as (t & A & B & C & D); [lia|].
      exists t. rewrite D. auto.
    + exfalso. rewrite to_string_nonneg in L by lia.
      pose proof (dec_value n H) as V.
      destruct (dec n) as [|c [|d x]] eqn:E; simpl in L; try lia.
      * now apply dec_nonempty in E.
      * cbn in V. unfold digit_value in V.
        destruct (_ && _)%bool eqn:G; [|discriminate]. injection V as V.
        apply andb_true_iff in G. destruct G as (_ & G). apply Z.leb_le in G. lia.
  - exists (to_string n). split; [reflexivity|]. split.
    + unfold fmt02d. destruct (Nat.ltb_spec (String.length (to_string n)) 2); [lia | reflexivity].
    + rewrite to_string_nonneg by lia. rewrite to_string_nonneg in L by lia.
      split; [now apply dec_value | exact L].
Qed.

Lemma hms_parts n : 0 <= n ->
  let h := Z.quot n 3600 in let m := Z.quot (Z.rem n 3600) 60 in
  let s := Z.rem n 60 in
  0 <= h /\ 0 <= m < 60 /\ 0 <= s < 60 /\ 3600 * h + 60 * m + s = n.
Proof.
  intros N h m s. subst h m s.
  pose proof (Z.rem_bound_pos n 3600 N ltac:(lia)) as B.
  rewrite (Z.quot_div_nonneg n 3600), (Z.rem_mod_nonneg n 3600) in * by lia.
  rewrite (Z.rem_mod_nonneg n 60) by lia. rewrite Z.quot_div_nonneg by lia.
  pose proof (Z.div_mod n 3600 ltac:(lia)) as D1.
  pose proof (Z.div_mod (n mod 3600) 60 ltac:(lia)) as D2.
  assert (E : (n mod 3600) mod 60 = n mod 60).
  { replace 3600 with (60 * 60) by lia. rewrite Z.rem_mul_r by lia.
    rewrite <- Zplus_mod_idemp_r, (Z.mul_comm 60), Z_mod_mult, Z.add_0_r.
    apply Z.mod_mod. lia. }
  pose proof (Z.mod_pos_bound n 60 ltac:(lia)).
  assert (0 <= n / 3600) by (apply Z.div_pos; lia).
  assert (0 <= n mod 3600 / 60 < 60).
  { split; [apply Z.div_pos; lia | apply Z.div_lt_upper_bound; lia]. }
  repeat split; try lia.
Qed.

(** C50: the text shown for a duration is a time of day standing for its
    whole number of seconds. *)
Theorem elapsed_text (t : R) :
  (0 <= t)%R ->
  exists str n, show_elapsed_time t = Ok str /\ clock_text str n /\
    (IZR n <= t < IZR n + 1)%R.
Proof.
  intros T. unfold show_elapsed_time. rewrite Ztrunc_floor by exact T. cbv zeta.
  assert (N : 0 <= Zfloor t) by (apply Zfloor_lub; exact T).
  destruct (hms_parts _ N) as (H1 & H2 & H3 & H4). cbv zeta in *.
  destruct (pad_hours _ H1) as (hh & A1 & _ & A3 & A4). rewrite A1.
  destruct (pad_small (Z.quot (Z.rem (Zfloor t) 3600) 60)) as (mm & B1 & _ & B3 & B4); [lia|].
  destruct (pad_small (Z.rem (Zfloor t) 60)) as (ss & C1 & _ & C3 & C4); [lia|].
  rewrite B1, C1. cbn [bind]. eexists; exists (Zfloor t). split; [reflexivity|]. split.
  - exists hh, mm, ss. do 3 eexists. split; [reflexivity|].
    split; [exact A3|]. split; [exact B3|]. split; [exact C3|]. auto 10.
  - split; [apply Zfloor_lb | apply Zfloor_ub].
Qed.

(** C50: the Python log shows the same text, in brackets with a plus. *)
Theorem elapsed_agree (t : R) :
  (0 <= t)%R ->
  exists str, show_elapsed_time t = Ok str /\ py_elapsed t = "(+" ++ str ++ ")".
Proof.
  intros T. unfold show_elapsed_time. rewrite Ztrunc_floor by exact T. cbv zeta.
  set (n := Zfloor t). assert (N : 0 <= n) by (apply Zfloor_lub; exact T).
  destruct (hms_parts _ N) as (H1 & H2 & H3 & H4). cbv zeta in *.
  destruct (pad_hours _ H1) as (hh & A1 & A2 & A3 & A4). rewrite A1.
  destruct (pad_small (Z.quot (Z.rem n 3600) 60)) as (mm & B1 & B2 & B3 & B4); [lia|].
  destruct (pad_small (Z.rem n 60)) as (ss & C1 & C2 & C3 & C4); [lia|].
  rewrite B1, C1. cbn [bind]. eexists; split; [reflexivity|].
  assert (L := Zfloor_lb t). assert (U := Zfloor_ub t). fold n in L, U.
  set (h := Z.quot n 3600) in *. set (m := Z.quot (Z.rem n 3600) 60) in *.
  set (s := Z.rem n 60) in *.
  assert (E : (IZR n = 3600 * IZR h + 60 * IZR m + IZR s)%R).
  { rewrite <- H4, !plus_IZR, !mult_IZR. reflexivity. }
  assert (S0 : (0 <= IZR s <= 59)%R) by (split; apply IZR_le; lia).
  assert (M0 : (0 <= IZR m <= 59)%R) by (split; apply IZR_le; lia).
  unfold py_elapsed.
  assert (Eh : Zfloor (t / 3600) = h) by (apply Zfloor_imp; rewrite plus_IZR; lra).
  rewrite Eh.
  assert (Em : Zfloor ((t - 3600 * IZR h) / 60) = m) by (apply Zfloor_imp; rewrite plus_IZR; lra).
  rewrite Em.
  assert (Es : Ztrunc (t - 3600 * IZR h - 60 * IZR m) = s).
  { rewrite Ztrunc_floor by lra. apply Zfloor_imp; rewrite plus_IZR; lra. }
  rewrite Es, A2, B2, C2. rewrite !sapp_assoc. reflexivity.
Qed.

(** Outside the property's range: a negative duration makes the C++ routine
    throw (the padding length wraps around). *)
Theorem elapsed_negative_throws (n : Z) :
  10 <= n < 60 -> show_elapsed_time (- IZR n) = Err ValueError.
Proof.
  intros H. unfold show_elapsed_time. rewrite <- opp_IZR, Ztrunc_IZR. cbv zeta.
  assert (E : In n (map Z.of_nat (seq 10 50))).
  { rewrite <- (Z2Nat.id n) by lia. apply in_map, in_seq. lia. }
  cbn in E. repeat (destruct E as [<-|E]; [reflexivity|]). contradiction.
Qed.

Example elapsed_case :
  show_elapsed_time 3725.9 = Ok "01:02:05" /\ py_elapsed 3725.9 = "(+01:02:05)" /\
  show_elapsed_time 360000 = Ok "100:00:00".
Proof.
  assert (A : show_elapsed_time 3725.9 = Ok "01:02:05").
  { unfold show_elapsed_time. replace (Ztrunc 3725.9) with 3725; [reflexivity|].
    symmetry. rewrite Ztrunc_floor by lra. apply Zfloor_imp. rewrite plus_IZR. lra. }
  split; [exact A|]. split.
  - destruct (elapsed_agree 3725.9) as (str & S1 & S2); [lra|].
    rewrite A in S1. injection S1 as <-. exact S2.
  - unfold show_elapsed_time. rewrite Ztrunc_IZR. reflexivity.
Qed.

(* ------------------------------------------------------------------ *)
(** * C51: log levels *)

(** The levels and their tags. *)
Inductive level_tag : Z -> string -> Prop :=
| tag_dbug : level_tag 10 "DBUG"
| tag_stat : level_tag 20 "STAT"
| tag_info : level_tag 30 "INFO"
| tag_warn : level_tag 40 "WARN"
| tag_erro : level_tag 50 "ERRO".

(** C51: the five named methods print, under their own tag and with their
    arguments, exactly when the threshold is not above their level. *)
Theorem named_levels limit fmt n :
  forall f level tag,
    In (f, level, tag)
      [(log_debug, 10, "DBUG"); (log_stat, 20, "STAT"); (log_info, 30, "INFO");
       (log_warn, 40, "WARN"); (log_error, 50, "ERRO")] ->
    level_tag level tag /\
    (limit <= level -> f limit fmt n = Printed tag fmt n) /\
    (level < limit -> f limit fmt n = Silent).
Proof.
  intros f level tag H. simpl in H.
  repeat (destruct H as [H|H]; [injection H as <- <- <-;
    (split; [constructor|]);
    unfold log_debug, log_stat, log_info, log_warn, log_error, DBUG, STAT, INFO, WARN, ERRO;
    split; intros L;
    [ match goal with |- context [?a <=? ?b] => destruct (Z.leb_spec a b); [reflexivity | lia] end
    | match goal with |- context [?a <=? ?b] => destruct (Z.leb_spec a b); [lia | reflexivity] end ] | ]).
  contradiction.
Qed.

(** A threshold silences a method exactly when it silences all lower ones. *)
Theorem levels_ordered limit fmt n :
  log_error limit fmt n = Silent -> log_warn limit fmt n = Silent /\
  log_info limit fmt n = Silent /\ log_stat limit fmt n = Silent /\
  log_debug limit fmt n = Silent.
Proof.
  unfold log_debug, log_stat, log_info, log_warn, log_error, DBUG, STAT, INFO, WARN, ERRO.
  destruct (Z.leb_spec limit 50); [discriminate|]. intros _.
  destruct (Z.leb_spec limit 40), (Z.leb_spec limit 30), (Z.leb_spec limit 20),
    (Z.leb_spec limit 10); try lia; auto.
Qed.

(** C51, as stated, fails for the generic method: at every named level above
    the threshold it throws instead of printing, because the level is divided
    by ten before being compared with the undivided constants. *)
Theorem log_generic_refuted limit level tag fmt n :
  level_tag level tag -> limit <= level ->
  log_int limit level fmt n = Threw InvalidParameter /\
  log_level limit level fmt n = Threw InvalidParameter.
Proof.
  intros T L. unfold log_level, log_int. destruct (Z.leb_spec limit level); [|lia].
  destruct T; split; reflexivity.
Qed.

(** What the generic method does: below the threshold nothing; otherwise it
    prints only for the levels around zero (without tag) and around ten times
    the named ones. *)
Theorem log_int_exact limit level fmt n :
  log_int limit level fmt n = Silent <-> level < limit.
Proof.
  unfold log_int. destruct (Z.leb_spec limit level) as [L|L].
  - split; [|lia]. repeat (destruct (_ =? _); [discriminate|]). discriminate.
  - tauto.
Qed.

Local Ltac one level Q E c T :=
    destruct (Z.eqb_spec (Z.quot level 10) c) as [E|E];
    [ rewrite (Q c ltac:(lia)) in E; split;
      [ intros P; injection P as <- <-; split; [reflexivity|]; right; exists c; split; [constructor|lia]
      | intros (-> & [(-> & ?)|(l & T & B)]); [exfalso; lia|]; destruct T; try (exfalso; lia); reflexivity ]
    | rewrite (Q c ltac:(lia)) in E ].

Theorem log_int_printed limit level fmt n tag k :
  limit <= level ->
  (log_int limit level fmt n = Printed tag fmt k <->
   k = n /\ ((tag = "" /\ -10 < level < 10) \/
             exists l, level_tag l tag /\ 10 * l <= level < 10 * l + 10)).
Proof.
  intros L. unfold log_int, NSET, DBUG, STAT, INFO, WARN, ERRO.
  destruct (Z.leb_spec limit level); [|lia].
  assert (Q : forall c, 0 < c -> (Z.quot level 10 = c <-> 10 * c <= level < 10 * c + 10)).
  { intros c C. destruct (Z_le_gt_dec 0 level).
    - rewrite Z.quot_div_nonneg by lia. pose proof (Z.div_mod level 10 ltac:(lia)).
      pose proof (Z.mod_pos_bound level 10 ltac:(lia)). split; intros; lia.
    - pose proof (Z.quot_opp_l level 10 ltac:(lia)).
      assert (0 <= Z.quot (- level) 10) by (apply Z.quot_pos; lia). lia. }
  assert (Q0 : Z.quot level 10 = 0 <-> -10 < level < 10).
  { rewrite Z.quot_small_iff by lia. lia. }
  destruct (Z.eqb_spec (Z.quot level 10) 0) as [E|E].
  { rewrite Q0 in E. split.
    - intros P; injection P as <- <-. split; [reflexivity|]. left. auto.
    - intros (-> & [(-> & _)|(l & T & B)]); [reflexivity|]. exfalso. destruct T; lia. }
  one level Q E10 10 T. one level Q E20 20 T. one level Q E30 30 T. one level Q E40 40 T. one level Q E50 50 T.
  split; [discriminate|]. rewrite Q0 in E. intros (_ & [(_ & B)|(l & T & B)]); [lia|].
  destruct T; lia.
Qed.

(** The overload taking a level drops the arguments of the format string. *)
Theorem log_level_args_refuted :
  exists limit level fmt, log_level limit level fmt 2 = Printed "" fmt 0.
Proof. exists 0, 0, "%s: %d". reflexivity. Qed.

Example log_case :
  log_warn 20 "x" 0 = Printed "WARN" "x" 0 /\ log_warn 50 "x" 0 = Silent /\
  log_int 20 40 "x" 0 = Threw InvalidParameter /\
  log_int 0 400 "x" 0 = Printed "WARN" "x" 0.
Proof. repeat split. Qed.

(* ------------------------------------------------------------------ *)
(** * C52: progress bar *)

Local Open Scope R_scope.

Lemma Rleb_true x y : Rleb x y = true <-> x <= y.
Proof. apply Rleb_spec. Qed.
Lemma Rltb_true x y : Rltb x y = true <-> x < y.
Proof. apply Rltb_spec. Qed.

(** Nodes as documented up to order: none above 1 and the last one is 1. *)
Definition good_nodes (ns : list R) : Prop :=
  Forall (fun x => x <= 1) ns /\ exists front, ns = (front ++ [1])%list.

(** Percentage displayed for [k] tasks out of [n]. *)
Definition shown_for (n k : Z) (o : option Z) : Prop :=
  match o with
  | None => True
  | Some pc => IZR pc <= 100 * IZR k / IZR n < IZR pc + 1
  end.

Lemma update_step b k :
  good_nodes (nodes b) -> (1 <= task_count b)%Z -> (0 <= k <= task_count b)%Z ->
  (next_node b < List.length (nodes b))%nat ->
  exists b' o, update_task b k = Ok (b', o) /\ nodes b' = nodes b /\
    task_count b' = task_count b /\ shown_for (task_count b) k o /\
    ((k < task_count b)%Z -> (next_node b' < List.length (nodes b))%nat) /\
    (k = task_count b -> o = Some 100%Z).
Proof.
  intros (G1 & front & G2) C K N. unfold update_task, update_progress. cbn [nodes next_node task_count task_idx].
  set (n := task_count b) in *. assert (C' : 1 <= IZR n) by (apply IZR_le; exact C).
  assert (P0 : 0 <= IZR k / IZR n).
  { apply Rmult_le_pos; [apply IZR_le; lia | left; apply Rinv_0_lt_compat; lra]. }
  assert (P1 : IZR k / IZR n <= 1).
  { apply Rmult_le_reg_r with (IZR n); [lra|]. unfold Rdiv.
    rewrite Rmult_assoc, Rinv_l by lra. rewrite Rmult_1_r, Rmult_1_l. apply IZR_le; lia. }
  rewrite (proj2 (Rleb_true _ _) P1).
  destruct (nth_error (nodes b) (next_node b)) as [x|] eqn:X;
    [|apply nth_error_None in X; lia].
  assert (X1 : x <= 1) by (rewrite Forall_forall in G1; eapply G1, nth_error_In, X).
  destruct (Rleb x (IZR k / IZR n)) eqn:L.
  - do 2 eexists. split; [reflexivity|]. cbn [nodes task_count next_node].
    split; [reflexivity|]. split; [reflexivity|]. split.
    + unfold shown_for. rewrite Ztrunc_floor by lra.
      replace (100 * IZR k / IZR n) with (IZR k / IZR n * 100) by (unfold Rdiv; ring).
      split; [apply Zfloor_lb | apply Zfloor_ub].
    + split.
      * intros Kn. apply Rleb_true in L.
        assert (Q : IZR k / IZR n < 1).
        { apply Rmult_lt_reg_r with (IZR n); [lra|]. unfold Rdiv.
          rewrite Rmult_assoc, Rinv_l by lra. rewrite Rmult_1_r, Rmult_1_l. apply IZR_lt; lia. }
        destruct (Nat.eq_dec (S (next_node b)) (List.length (nodes b))) as [E|E]; [|lia].
        exfalso. rewrite G2 in X, E. rewrite app_length in E. cbn [List.length] in E.
        rewrite nth_error_app2 in X by lia.
        replace (next_node b - List.length front)%nat with 0%nat in X by lia.
        simpl in X. injection X as <-. lra.
      * intros ->. f_equal. unfold Rdiv. rewrite Rinv_r by lra. rewrite Rmult_1_l.
        apply Ztrunc_IZR.
  - apply Rleb_false in L. do 2 eexists. split; [reflexivity|]. cbn [nodes task_count next_node].
    split; [reflexivity|]. split; [reflexivity|]. split; [exact I|]. split; [auto|].
    intros ->. exfalso. unfold Rdiv in L. rewrite Rinv_r in L by lra. lra.
Qed.

Lemma run_updates ks : forall b,
  good_nodes (nodes b) -> (1 <= task_count b)%Z ->
  StronglySorted Z.lt ks -> Forall (fun k => 0 <= k <= task_count b)%Z ks ->
  (next_node b < List.length (nodes b))%nat ->
  exists b' os, update_tasks b ks = Ok (b', os) /\
    Forall2 (shown_for (task_count b)) ks os /\
    (forall i, nth_error ks i = Some (task_count b) -> nth_error os i = Some (Some 100%Z)).
Proof.
  induction ks as [|k ks IH]; intros b G C S K N; cbn [update_tasks].
  - exists b, []. split; [reflexivity|]. split; [constructor|]. intros [|i] H; discriminate.
  - inversion_clear K as [|? ? K1 K2]. inversion_clear S as [|? ? S1 S2].
    destruct (update_step b k G C K1 N) as (b1 & o & E & E1 & E2 & SH & NX & FIN).
    rewrite E. cbn [bind fst snd].
    destruct ks as [|k2 ks].
    + exists b1, [o]. split; [reflexivity|]. split; [repeat constructor; exact SH|].
      intros [|[|i]] H; simpl in *; try discriminate. injection H as H. now rewrite FIN.
    + assert (KN : (k < task_count b)%Z).
      { inversion_clear S2 as [|? ? S3 _]. inversion_clear K2 as [|? ? K3 _]. lia. }
      destruct (IH b1) as (b2 & os & F & F1 & F2).
      * now rewrite E1.
      * now rewrite E2.
      * exact S1.
      * now rewrite E2.
      * rewrite E1. auto.
      * rewrite F. cbn [bind fst snd]. exists b2, (o :: os). split; [reflexivity|].
        rewrite E2 in F1, F2. split; [constructor; assumption|].
        intros [|i] H; simpl in *; [injection H as H; lia | auto].
Qed.

Lemma shown_bounds n k pc : (1 <= n)%Z -> (0 <= k <= n)%Z -> shown_for n k (Some pc) -> (0 <= pc <= 100)%Z.
Proof.
  intros C K (L & U). assert (C' : 1 <= IZR n) by (apply IZR_le; exact C).
  assert (P0 : 0 <= 100 * IZR k / IZR n).
  { apply Rmult_le_pos; [|left; apply Rinv_0_lt_compat; lra].
    apply Rmult_le_pos; [lra | apply IZR_le; lia]. }
  assert (P1 : 100 * IZR k / IZR n <= 100).
  { apply Rmult_le_reg_r with (IZR n); [lra|]. unfold Rdiv.
    rewrite Rmult_assoc, Rinv_l by lra. rewrite Rmult_1_r.
    apply Rmult_le_compat_l; [lra|]. apply IZR_le; lia. }
  split.
  - assert (-1 < IZR pc) by lra. apply (lt_IZR (-1)) in H. lia.
  - apply le_IZR. lra.
Qed.

Lemma shown_mono n k k' pc pc' : (1 <= n)%Z -> (k <= k')%Z ->
  shown_for n k (Some pc) -> shown_for n k' (Some pc') -> (pc <= pc')%Z.
Proof.
  intros C K (L & U) (L' & U'). assert (C' : 1 <= IZR n) by (apply IZR_le; exact C).
  assert (100 * IZR k / IZR n <= 100 * IZR k' / IZR n).
  { apply Rmult_le_compat_r; [left; apply Rinv_0_lt_compat; lra|].
    apply Rmult_le_compat_l; [lra | apply IZR_le; exact K]. }
  assert (IZR pc < IZR pc' + 1) by lra. rewrite <- plus_IZR in H0. apply lt_IZR in H0. lia.
Qed.

Lemma Forall2_nth {A B} (P : A -> B -> Prop) l l' i b :
  Forall2 P l l' -> nth_error l' i = Some b -> exists a, nth_error l i = Some a /\ P a b.
Proof.
  intros F; revert i; induction F as [|x y l l' H F IH]; intros [|i] E; simpl in *; try discriminate.
  - injection E as <-. eauto.
  - auto.
Qed.

Lemma sorted_nth ks i j a b :
  StronglySorted Z.lt ks -> (i <= j)%nat -> nth_error ks i = Some a -> nth_error ks j = Some b ->
  (a <= b)%Z.
Proof.
  intros S; revert i j; induction S as [|k ks S IH H]; intros i j L I J.
  - destruct i; discriminate.
  - destruct i as [|i], j as [|j]; simpl in *; try lia.
    + injection I as <-. injection J as <-. lia.
    + injection I as <-. rewrite Forall_forall in H. apply nth_error_In in J.
      specialize (H _ J). lia.
    + eapply IH; [|exact I|exact J]. lia.
Qed.

(** C52: with nodes up to 1, any increasing sequence of task numbers within
    the total runs without error; percentages shown are those of the tasks
    done, between 0 and 100, never decrease, and the update with all tasks
    done shows 100%. *)
Theorem progress_run b ks :
  good_nodes (nodes b) -> (1 <= task_count b)%Z -> next_node b = 0%nat ->
  StronglySorted Z.lt ks -> Forall (fun k => 0 <= k <= task_count b)%Z ks ->
  exists b' os, update_tasks b ks = Ok (b', os) /\
    Forall2 (shown_for (task_count b)) ks os /\
    (forall i pc, nth_error os i = Some (Some pc) -> (0 <= pc <= 100)%Z) /\
    (forall i j p q, (i <= j)%nat -> nth_error os i = Some (Some p) ->
       nth_error os j = Some (Some q) -> (p <= q)%Z) /\
    (forall i, nth_error ks i = Some (task_count b) -> nth_error os i = Some (Some 100%Z)).
Proof.
  intros G C N0 S K.
  destruct (run_updates ks b G C S K) as (b' & os & E & F & L).
  { rewrite N0. destruct G as (_ & front & ->). rewrite app_length. simpl. lia. }
  exists b', os. split; [exact E|]. split; [exact F|]. split; [|split; [|exact L]].
  - intros i pc H. destruct (Forall2_nth _ _ _ _ _ F H) as (k & K1 & K2).
    eapply shown_bounds; [exact C| |exact K2]. rewrite Forall_forall in K.
    exact (K _ (nth_error_In _ _ K1)).
  - intros i j p q IJ P Q. destruct (Forall2_nth _ _ _ _ _ F P) as (k & K1 & K2).
    destruct (Forall2_nth _ _ _ _ _ F Q) as (k' & K1' & K2').
    eapply shown_mono; [exact C| |exact K2|exact K2']. eapply sorted_nth; eauto.
Qed.

(** The default nodes and the nodes built from an interval qualify. *)
Theorem default_nodes_good : good_nodes default_nodes.
Proof.
  split.
  - unfold default_nodes. apply Forall_app. split.
    + apply Forall_forall. intros x H. apply repeat_spec in H. lra.
    + apply Forall_forall. intros x H. apply in_map_iff in H. destruct H as (i & <- & H).
      apply in_seq in H. assert (INR i <= INR 100) by (apply le_INR; lia).
      rewrite (INR_IZR_INZ 100) in H0. simpl in H0. lra.
  - exists (repeat 0 101 ++ map (fun i => INR i / 100) (seq 0 100))%list.
    unfold default_nodes. rewrite <- app_assoc. f_equal.
    change 101%nat with (100 + 1)%nat. rewrite seq_app, map_app. f_equal.
    cbn [map seq Nat.add]. f_equal. rewrite INR_IZR_INZ. simpl. lra.
Qed.

(** C52, as stated, fails: completing a second time reads past the nodes. *)
Theorem progress_repeat_refuted :
  exists b b', new_bar 2 = Ok b /\ set_nodes b [1] = Ok b' /\
    update_tasks b' [2%Z; 2%Z] = Err OutOfBounds.
Proof.
  do 2 eexists. split; [reflexivity|]. split; [reflexivity|].
  cbn [update_tasks]. unfold update_task at 1, update_progress at 1.
  cbn [task_count task_idx progress nodes next_node nth_error].
  assert (E : Rleb (2 / 2) 1 = true) by (apply Rleb_true; lra). rewrite E.
  assert (E' : Rleb 1 (2 / 2) = true) by (apply Rleb_true; lra). rewrite E'.
  cbn [bind fst snd]. unfold update_task, update_progress.
  cbn [task_count task_idx progress nodes next_node nth_error]. rewrite E. reflexivity.
Qed.

(** Nor need the last node be 1: nodes ending below it, which the
    documentation allows, are overrun before the end. *)
Theorem progress_short_nodes_refuted :
  exists b b', new_bar 4 = Ok b /\ set_nodes b [1/2] = Ok b' /\
    update_tasks b' [2%Z; 3%Z] = Err OutOfBounds /\
    set_progress b' (3/4) = Err OutOfBounds.
Proof.
  do 2 eexists. split; [reflexivity|]. split; [reflexivity|].
  assert (E1 : Rleb (2 / 4) 1 = true) by (apply Rleb_true; lra).
  assert (E2 : Rleb (3 / 4) 1 = true) by (apply Rleb_true; lra).
  assert (E3 : Rleb (1 / 2) (2 / 4) = true) by (apply Rleb_true; lra).
  split.
  - cbn [update_tasks]. unfold update_task at 1, update_progress at 1.
    cbn [task_count task_idx progress nodes next_node nth_error]. rewrite E1, E3.
    cbn [bind fst snd]. unfold update_task, update_progress.
    cbn [task_count task_idx progress nodes next_node nth_error]. rewrite E2. reflexivity.
  - unfold set_progress. cbn [nodes].
    rewrite (proj2 (Rltb_false (3/4) 0)) by lra. rewrite (proj2 (Rltb_false 1 (3/4))) by lra.
    cbn [orb next_from]. rewrite (proj2 (Rltb_true (1/2) (3/4))) by lra. reflexivity.
Qed.

(** Reporting more tasks than announced throws. *)
Theorem progress_overrun b k :
  (1 <= task_count b < k)%Z -> update_task b k = Err InvalidData.
Proof.
  intros H. unfold update_task, update_progress.
  assert (P : 1 < IZR k / IZR (task_count b)).
  { assert (1 <= IZR (task_count b)) by (apply IZR_le; lia).
    assert (IZR (task_count b) < IZR k) by (apply IZR_lt; lia).
    apply Rmult_lt_reg_r with (IZR (task_count b)); [lra|]. unfold Rdiv.
    rewrite Rmult_assoc, Rinv_l by lra. lra. }
  now rewrite (proj2 (Rleb_false _ _) P).
Qed.

(** Setting the position puts the next node at the first one not behind. *)
Lemma next_from_spec p ns i :
  (exists x, In x ns /\ p <= x) ->
  exists j x, next_from p ns i = Ok (i + j)%nat /\ nth_error ns j = Some x /\ p <= x /\
    forall j' x', (j' < j)%nat -> nth_error ns j' = Some x' -> x' < p.
Proof.
  revert i; induction ns as [|y ns IH]; intros i (x & X & P); [contradiction|].
  cbn [next_from]. destruct (Rltb y p) eqn:L.
  - apply Rltb_true in L. destruct X as [->|X]; [lra|].
    destruct (IH (S i)) as (j & z & E & Z1 & Z2 & Z3); [eauto|].
    exists (S j), z. split; [rewrite E; f_equal; lia|]. split; [exact Z1|]. split; [exact Z2|].
    intros [|j'] x' J X'; simpl in X'; [now injection X' as <-|]. eapply Z3; [|exact X']. lia.
  - apply Rltb_false in L. exists 0%nat, y. split; [f_equal; lia|].
    split; [reflexivity|]. split; [exact L|]. intros; lia.
Qed.

Theorem set_progress_spec b p :
  good_nodes (nodes b) -> 0 <= p <= 1 ->
  exists b' x, set_progress b p = Ok b' /\ progress b' = p /\
    nth_error (nodes b') (next_node b') = Some x /\ p <= x /\
    forall j y, (j < next_node b')%nat -> nth_error (nodes b') j = Some y -> y < p.
Proof.
  intros (_ & front & G) P. unfold set_progress.
  rewrite (proj2 (Rltb_false p 0)) by lra. rewrite (proj2 (Rltb_false 1 p)) by lra. cbn [orb].
  destruct (next_from_spec p (nodes b) 0) as (j & x & E & X1 & X2 & X3).
  { exists 1. split; [rewrite G; apply in_or_app; right; now left | lra]. }
  rewrite E. cbn [bind Nat.add]. do 2 eexists. split; [reflexivity|].
  cbn [nodes next_node progress]. eauto.
Qed.

(** Nodes from an interval, in exact arithmetic: the multiples of the
    interval below 1, then 1. *)
Lemma nodes_loop_spec iv : 0 < iv -> forall m back,
  1 <= back + INR m * iv -> back < 1 -> 0 < back ->
  exists r, nodes_loop (fun x => x) m iv back = Ok r /\
    exists j, (1 <= j)%nat /\ r = (map (fun i => back + INR i * iv) (seq 1 (j - 1)) ++ [1])%list /\
      back + INR (j - 1) * iv < 1 <= back + INR j * iv.
Proof.
  intros IV. induction m as [|m IH]; intros back M B B0.
  - simpl in M. lra.
  - cbn [nodes_loop]. rewrite (proj2 (Rltb_true _ _) B).
    destruct (Rltb (back + iv) 1) eqn:L.
    + apply Rltb_true in L. destruct (IH (back + iv)) as (r & E & j & J & -> & K); [| lra | lra |].
      { rewrite S_INR in M. lra. }
      rewrite E. cbn [bind]. eexists. split; [reflexivity|].
      exists (S j). split; [lia|]. split.
      * replace (S j - 1)%nat with (S (j - 1)) by lia. cbn [seq map app].
        f_equal; [simpl; ring|]. f_equal. rewrite <- (seq_shift _ 1), map_map. apply map_ext.
        intros i. rewrite S_INR. ring.
      * replace (S j - 1)%nat with (S (j - 1)) by lia. rewrite !S_INR. lra.
    + apply Rltb_false in L. cbn [bind].
      destruct m as [|m]; cbn [nodes_loop];
        rewrite (proj2 (Rltb_false 1 1)) by lra; cbn [bind];
        (eexists; split; [reflexivity|]; exists 1%nat; split; [lia|]; split;
         [reflexivity | simpl; lra]).
Qed.

Theorem interval_nodes x :
  0 < x < 100 ->
  exists fuel0, forall fuel, (fuel0 <= fuel)%nat ->
    exists j, set_nodes_by_str (fun y => y) fuel (Number x) =
      Ok (map (fun i => INR i * (x / 100)) (seq 1 j) ++ [1])%list /\
      INR j * (x / 100) < 1 <= INR (S j) * (x / 100).
Proof.
  intros X. set (iv := x / 100). assert (IV : 0 < iv < 1) by (unfold iv; lra).
  destruct (archimed (1 / iv)) as (A & _). set (z := up (1 / iv)) in *.
  assert (Z0 : (0 <= z)%Z).
  { apply le_IZR. assert (0 < 1 / iv) by (apply Rdiv_lt_0_compat; lra). lra. }
  exists (Z.to_nat z). intros fuel F.
  destruct (nodes_loop_spec iv ltac:(lra) fuel iv) as (r & E & j & J & R & K); [| lra | lra |].
  { assert (IZR z <= INR fuel).
    { rewrite INR_IZR_INZ. apply IZR_le. lia. }
    assert (1 / iv * iv = 1) by (field; lra).
    assert (1 / iv * iv < INR fuel * iv) by (apply Rmult_lt_compat_r; lra). lra. }
  exists j. split.
  - unfold set_nodes_by_str. rewrite (proj2 (Rltb_true 0 x)) by lra.
    rewrite (proj2 (Rltb_true x 100)) by lra. cbn [andb negb]. fold iv. rewrite E. cbn [bind].
    f_equal. rewrite R. rewrite app_comm_cons. f_equal.
    destruct j as [|j]; [lia|]. replace (S j - 1)%nat with j by lia. cbn [seq map].
    f_equal; [simpl; ring|]. rewrite <- (seq_shift _ 1), map_map. apply map_ext. intros i.
    rewrite S_INR. ring.
  - destruct j as [|j]; [lia|]. replace (S j - 1)%nat with j in K by lia.
    rewrite S_INR. rewrite !S_INR in *. lra.
Qed.

Theorem interval_nodes_good x j :
  0 < x < 100 -> INR j * (x / 100) < 1 ->
  good_nodes (map (fun i => INR i * (x / 100)) (seq 1 j) ++ [1])%list.
Proof.
  intros X J. split; [|now eexists]. apply Forall_app. split; [|repeat constructor; lra].
  apply Forall_forall. intros y H. apply in_map_iff in H. destruct H as (i & <- & H).
  apply in_seq in H. assert (INR i <= INR j) by (apply le_INR; lia).
  assert (INR i * (x / 100) <= INR j * (x / 100)) by (apply Rmult_le_compat_r; lra). lra.
Qed.

(** C52, in binary32: a small interval never reaches 1, because adding it
    stops changing the last node; the loop does not end. *)
Local Instance prec24 : Prec_gt_0 24 := eq_refl.

Lemma round32_half : round32 (1 / 2 + bpow radix2 (-30)) = 1 / 2.
Proof.
  unfold round32, round, scaled_mantissa, cexp, F2R. cbn [Fnum Fexp].
  assert (M : mag radix2 (1 / 2 + bpow radix2 (-30)) = 0%Z :> Z).
  { apply mag_unique_pos. simpl (bpow _ (-30)). simpl (bpow _ (0 - 1)). simpl (bpow _ 0). lra. }
  rewrite M. change (FLT_exp (-149) 24 0) with (-24)%Z.
  replace ((1 / 2 + bpow radix2 (-30)) * bpow radix2 (- -24)) with (IZR (2 ^ 23) + / IZR (2 ^ 6)).
  2:{ simpl. lra. }
  rewrite (Znearest_imp (fun x => negb (Z.even x)) _ (2 ^ 23)).
  - simpl. lra.
  - replace (IZR (2 ^ 23) + / IZR (2 ^ 6) - IZR (2 ^ 23)) with (/ IZR (2 ^ 6)) by ring.
    simpl. rewrite Rabs_pos_eq; lra.
Qed.

Lemma round32_mono x y : x <= y -> round32 x <= round32 y.
Proof. intros H. unfold round32. apply round_le; [typeclasses eauto | typeclasses eauto | exact H]. Qed.

Lemma nodes_stuck fuel back :
  back <= 1 / 2 -> nodes_loop round32 fuel (bpow radix2 (-30)) back = Err OutOfFuel.
Proof.
  revert back; induction fuel as [|f IH]; intros back B; cbn [nodes_loop];
    rewrite (proj2 (Rltb_true back 1)) by lra; [reflexivity|].
  assert (H : round32 (back + bpow radix2 (-30)) <= 1 / 2).
  { rewrite <- round32_half. apply round32_mono. lra. }
  rewrite (proj2 (Rltb_true _ 1)) by lra. rewrite IH by exact H. reflexivity.
Qed.

Theorem interval_nodes_refuted :
  exists x, 0 < x < 100 /\ forall fuel, set_nodes_by_str round32 fuel (Number x) = Err OutOfFuel.
Proof.
  exists (100 * bpow radix2 (-30)).
  assert (B : 0 < bpow radix2 (-30) < 1 / 4) by (simpl; lra). split; [lra|]. intros fuel.
  unfold set_nodes_by_str. rewrite (proj2 (Rltb_true 0 _)) by lra.
  rewrite (proj2 (Rltb_true _ 100)) by lra. cbn [andb negb].
  replace (100 * bpow radix2 (-30) / 100) with (bpow radix2 (-30)) by (unfold Rdiv; field).
  assert (E : round32 (bpow radix2 (-30)) = bpow radix2 (-30)).
  { apply round_generic; [typeclasses eauto|]. apply generic_format_bpow.
    unfold FLT_exp. lia. }
  rewrite E. rewrite nodes_stuck by lra. reflexivity.
Qed.

(** The bispectrum's own updates: strictly increasing, within the announced
    number of tasks, and complete except for form 'row'. *)
Lemma sorted_app (l1 l2 : list Z) :
  StronglySorted Z.lt l1 -> StronglySorted Z.lt l2 ->
  (forall a b, In a l1 -> In b l2 -> (a < b)%Z) -> StronglySorted Z.lt (l1 ++ l2).
Proof.
  intros S1 S2 H. induction S1 as [|a l S IH F]; [exact S2|]. simpl. constructor.
  - apply IH. intros; apply H; [now right | assumption].
  - apply Forall_app. split; [exact F|]. apply Forall_forall. intros b B.
    apply H; [now left | exact B].
Qed.

Lemma sorted_map (f : nat -> Z) i n :
  (forall a b, (a < b)%nat -> (f a < f b)%Z) -> StronglySorted Z.lt (map f (seq i n)).
Proof.
  intros F. revert i; induction n as [|n IH]; intros i; simpl; constructor; [apply IH|].
  apply Forall_forall. intros x H. apply in_map_iff in H. destruct H as (k & <- & K).
  apply in_seq in K. apply F. lia.
Qed.

Theorem bispec_updates_sorted row dv :
  (1 <= dv)%nat ->
  StronglySorted Z.lt (bispec_updates row dv) /\
  Forall (fun k => 0 <= k <= bispec_task_count dv)%Z (bispec_updates row dv).
Proof.
  intros D. unfold bispec_updates, bispec_task_count. cbv zeta. split.
  - apply sorted_app; [repeat constructor| |].
    + apply sorted_app; [apply sorted_map; destruct row; lia| |].
      * apply sorted_app; [repeat constructor| apply sorted_map; lia |].
        intros a b [<-|[]] B. apply in_map_iff in B. destruct B as (i & <- & I).
        apply in_seq in I. lia.
      * intros a b A B. apply in_map_iff in A. destruct A as (i & <- & I). apply in_seq in I.
        apply in_app_or in B. destruct B as [[<-|[]]|B]; [destruct row; lia|].
        apply in_map_iff in B. destruct B as (j & <- & J). apply in_seq in J. destruct row; lia.
    + intros a b [<-|[]] B. apply in_app_or in B. destruct B as [B|B].
      * apply in_map_iff in B. destruct B as (i & <- & I). apply in_seq in I. destruct row; lia.
      * apply in_app_or in B. destruct B as [[<-|[]]|B]; [destruct row; lia|].
        apply in_map_iff in B. destruct B as (j & <- & J). apply in_seq in J. destruct row; lia.
  - apply Forall_forall. intros x H. apply in_app_or in H.
    destruct H as [[<-|[]]|H]; [lia|]. apply in_app_or in H. destruct H as [H|H].
    + apply in_map_iff in H. destruct H as (i & <- & I). apply in_seq in I. destruct row; lia.
    + apply in_app_or in H. destruct H as [[<-|[]]|H]; [destruct row; lia|].
      apply in_map_iff in H. destruct H as (i & <- & I). apply in_seq in I. destruct row; lia.
Qed.

Theorem bispec_progress_complete dv :
  (1 <= dv)%nat ->
  exists i, nth_error (bispec_updates false dv) i = Some (bispec_task_count dv).
Proof.
  intros D. apply In_nth_error. unfold bispec_updates, bispec_task_count. cbv zeta.
  apply in_or_app. right. apply in_or_app. right. apply in_or_app. right.
  apply in_map_iff. exists dv. split; [lia|]. apply in_seq. lia.
Qed.

(** C52, as stated, fails for form 'row': the bar stops short of 100%. *)
Theorem bispec_row_refuted dv :
  (2 <= dv)%nat -> Forall (fun k => k < bispec_task_count dv)%Z (bispec_updates true dv).
Proof.
  intros D. unfold bispec_updates, bispec_task_count. cbv zeta. apply Forall_forall. intros x H.
  apply in_app_or in H.
  destruct H as [[<-|[]]|H]; [lia|]. apply in_app_or in H. destruct H as [H|H].
  + apply in_map_iff in H. destruct H as (i & <- & I). apply in_seq in I. lia.
  + apply in_app_or in H. destruct H as [[<-|[]]|H]; [lia|].
    apply in_map_iff in H. destruct H as (i & <- & I). apply in_seq in I. lia.
Qed.

Example progress_case :
  exists b b' os, new_bar (bispec_task_count 2) = Ok b /\
    update_tasks b (bispec_updates false 2) = Ok (b', os) /\
    nth_error os 5 = Some (Some 100%Z) /\
    bispec_updates false 2 = [2; 4; 6; 8; 9; 10]%Z.
Proof.
  eexists. assert (U : bispec_updates false 2 = [2; 4; 6; 8; 9; 10]%Z) by reflexivity.
  set (b := {| task_count := 10; task_idx := 0; progress := 0; nodes := default_nodes; next_node := 0 |}).
  destruct (bispec_updates_sorted false 2 ltac:(lia)) as (S & F).
  destruct (progress_run b (bispec_updates false 2) default_nodes_good ltac:(simpl; lia) eq_refl S F)
    as (b' & os & E & _ & _ & _ & L).
  exists b', os. split; [reflexivity|]. split; [exact E|]. split; [|exact U].
  apply L. rewrite U. reflexivity.
Qed.

Print Assumptions elapsed_text.
Print Assumptions elapsed_agree.
Print Assumptions elapsed_negative_throws.
Print Assumptions named_levels.
Print Assumptions log_generic_refuted.
Print Assumptions log_int_exact.
Print Assumptions log_int_printed.
Print Assumptions progress_run.
Print Assumptions default_nodes_good.
Print Assumptions progress_repeat_refuted.
Print Assumptions set_progress_spec.
Print Assumptions interval_nodes.
Print Assumptions interval_nodes_refuted.
Print Assumptions bispec_updates_sorted.
Print Assumptions bispec_row_refuted.
