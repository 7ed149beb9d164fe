(* C130: how environment variables choose GPUs and colours. *)
From Coq Require Import String Ascii List ZArith Lia Bool.
From Verif Require Import Base StrModel StrProps Dec EnvModel.
Import ListNotations.
Local Open Scope string_scope.
Local Open Scope Z_scope.

(* ------------------------------------------------------------------ *)
(* Vocabulary                                                          *)

(** The ten digits and decimal numerals, read from the left. *)
Definition figures : list (ascii * Z) :=
  [("0",0); ("1",1); ("2",2); ("3",3); ("4",4); ("5",5); ("6",6); ("7",7); ("8",8);
   ("9",9)]%char.

Inductive numeral : string -> Z -> Prop :=
| one_figure c d : In (c, d) figures -> numeral (String c "") d
| more_figures s n c d :
    numeral s n -> In (c, d) figures -> numeral (s ++ String c "") (10 * n + d).

Definition unset (m : machine) (v : string) : Prop := getenv m v = None.
Definition set_to (m : machine) (v s : string) : Prop := getenv m v = Some s.

(** The limit the user sets: none, or a number. *)
Definition no_limit (m : machine) : Prop :=
  forall s, set_to m "TRV_GPU_MAXNUM" s -> forall n, ~ numeral s n.
Definition limit (m : machine) (n : Z) : Prop :=
  exists s, set_to m "TRV_GPU_MAXNUM" s /\ numeral s n.

(** The user asks for no GPU, and for colours. *)
Definition declined (m : machine) : Prop :=
  exists s, set_to m "TRV_GPU_MODE" s /\ In s ["false"; "no"; "off"; "0"].
Definition colour_terminal (m : machine) : Prop :=
  exists t a b, set_to m "TERM" t /\ t = a ++ "color" ++ b.
Definition asked_colours (m : machine) : Prop :=
  exists s, set_to m "TRV_INTERACTIVE" s /\ In s ["true"; "yes"; "1"; "on"].

(* ------------------------------------------------------------------ *)
(* Numerals                                                            *)

Lemma figure_value c d : In (c, d) figures <-> digit_value c = Some d.
Proof.
  split.
  - intros H. repeat (destruct H as [H|H]; [injection H as <- <-; reflexivity|]). destruct H.
  - unfold digit_value. intros H.
    destruct c as [[] [] [] [] [] [] [] []]; cbn in H; try discriminate H;
      injection H as <-; cbn; tauto.
Qed.

Lemma numeral_value s n : numeral s n -> digits_value s = Some n.
Proof.
  induction 1 as [c d H|s n c d N IH H]; apply figure_value in H.
  - cbn [digits_value digits_from]. rewrite H. reflexivity.
  - assert (D : digits_from 0 s = Some n) by (destruct s; [discriminate IH|exact IH]).
    assert (E : digits_from 0 (s ++ String c "") = Some (10 * n + d)).
    { rewrite digits_from_app, D. cbn [digits_from]. now rewrite H. }
    destruct s; exact E.
Qed.

Lemma last_char s : s <> "" -> exists t c, s = t ++ String c "".
Proof.
  induction s as [|c s IH]; intros N; [congruence|].
  destruct s as [|c' s']; [now exists "", c|].
  destruct IH as (t & x & E); [congruence|]. rewrite E. now exists (String c t), x.
Qed.

Lemma only_digits_app a b : only_digits (a ++ b) = only_digits a && only_digits b.
Proof. induction a as [|c a IH]; cbn; [reflexivity|]. destruct (digit_value c); auto. Qed.

Lemma length_app a b : String.length (a ++ b) = (String.length a + String.length b)%nat.
Proof. induction a; cbn; congruence. Qed.

Lemma re_int_numeral s : re_int s = true <-> exists n, numeral s n.
Proof.
  split.
  - unfold re_int. intros H. apply andb_true_iff in H as (N & D).
    apply negb_true_iff, String.eqb_neq in N.
    remember (String.length s) as k eqn:K. revert s K N D.
    induction k as [k IH] using lt_wf_ind. intros s K N D.
    destruct (last_char s N) as (t & c & ->).
    rewrite only_digits_app in D. apply andb_true_iff in D as (D & C). cbn in C.
    destruct (digit_value c) as [d|] eqn:V; [|discriminate C]. apply figure_value in V.
    destruct t as [|c' t'].
    + exists d. now constructor.
    + destruct (IH (String.length (String c' t'))) with (s := String c' t') as (n & M);
        [rewrite K, length_app; cbn; lia|reflexivity|congruence|exact D|].
      exists (10 * n + d). now constructor.
  - intros (n & H). unfold re_int. induction H as [c d H|s n c d N IH H]; apply figure_value in H.
    + cbn. now rewrite H.
    + apply andb_true_iff in IH as (A & B). apply andb_true_iff. split.
      * destruct s; [discriminate A|reflexivity].
      * rewrite only_digits_app, B. cbn. now rewrite H.
Qed.

(* ------------------------------------------------------------------ *)
(* C130                                                                *)

(** The number of GPUs in the system does not depend on the environment; the
    number used is that, or the limit set by the user if it is smaller; a
    setting that is no numeral is ignored, and one beyond the range of `int`
    ends the program. *)
Theorem gpu_count_exact m :
  get_gpu_count m true = Ok (devices m) /\
  (no_limit m -> get_gpu_count m false = Ok (devices m)) /\
  (forall n, limit m n -> n <= 2147483647 ->
             get_gpu_count m false = Ok (Z.min n (devices m))) /\
  (forall n, limit m n -> 2147483647 < n -> get_gpu_count m false = Err Terminated).
Proof.
  repeat split; unfold get_gpu_count.
  - intros L. unfold no_limit, set_to in L.
    destruct (getenv m "TRV_GPU_MAXNUM") as [s|].
    + destruct (re_int s) eqn:E.
      * apply re_int_numeral in E as (n & E). destruct (L s eq_refl n E).
      * cbn. now rewrite Z.ltb_irrefl.
    + cbn. now rewrite Z.ltb_irrefl.
  - intros n (s & E & N) L. rewrite E.
    replace (re_int s) with true by (symmetry; apply re_int_numeral; now exists n).
    unfold stoi_digits. rewrite (numeral_value s n N).
    replace (INT_MAX <? n) with false by (symmetry; apply Z.ltb_ge; exact L). cbn.
    destruct (Z.ltb_spec n (devices m)); f_equal; lia.
  - intros n (s & E & N) L. rewrite E.
    replace (re_int s) with true by (symmetry; apply re_int_numeral; now exists n).
    unfold stoi_digits. rewrite (numeral_value s n N).
    replace (INT_MAX <? n) with true by (symmetry; apply Z.ltb_lt; exact L). reflexivity.
Qed.

(** One of the three cases always holds, and a limit is unique. *)
Theorem limit_cases m :
  no_limit m \/ exists n, limit m n /\ forall n', limit m n' -> n' = n.
Proof.
  destruct (getenv m "TRV_GPU_MAXNUM") as [s|] eqn:G.
  - destruct (re_int s) eqn:E.
    + apply re_int_numeral in E as (n & N). right. exists n. split; [now exists s|].
      intros n' (s' & E' & N'). unfold set_to in E'. rewrite G in E'. injection E' as <-.
      apply numeral_value in N, N'. congruence.
    + left. intros s' E' n N. unfold set_to in E'. rewrite G in E'. injection E' as <-.
      assert (re_int s = true) by (apply re_int_numeral; now exists n). congruence.
  - left. intros s' E'. unfold set_to in E'. congruence.
Qed.

(** The indices are 0, 1, ... up to the number used. *)
Lemma ids_loop_spec m n : get_gpu_count m false = Ok n ->
  forall k fuel i l, i + Z.of_nat k = Z.max i n -> (k < fuel)%nat ->
  ids_loop fuel m i l = Ok (l ++ map (fun j => i + Z.of_nat j) (seq 0 k))%list.
Proof.
  intros G. induction k as [|k IH]; intros fuel i l K F; (destruct fuel as [|f]; [lia|]); cbn [ids_loop];
    rewrite G; cbn [bind].
  - destruct (Z.ltb_spec i n); [lia|]. cbn. now rewrite app_nil_r.
  - destruct (Z.ltb_spec i n); [|lia].
    rewrite IH by lia. rewrite <- app_assoc. do 2 f_equal. cbn [seq map app].
    replace (i + Z.of_nat 0) with i by lia. f_equal. rewrite <- seq_shift, map_map. apply map_ext. intros j. lia.
Qed.

Theorem gpu_ids_exact m n : get_gpu_count m false = Ok n ->
  forall fuel, (Z.to_nat n < fuel)%nat ->
  get_gpu_ids fuel m = Ok (map Z.of_nat (seq 0 (Z.to_nat n))).
Proof.
  intros G fuel F. unfold get_gpu_ids. rewrite (ids_loop_spec m n G (Z.to_nat n)) by lia.
  reflexivity.
Qed.

(** GPU mode is on exactly when at least one GPU may be used and the user has
    not declined; then there is a GPU, and the list of indices is not empty. *)
Theorem gpu_enabled_exact m n : get_gpu_count m false = Ok n ->
  (is_gpu_enabled m = Ok true <-> 0 < n /\ ~ declined m) /\
  (is_gpu_enabled m = Ok true \/ is_gpu_enabled m = Ok false) /\
  (is_gpu_single m = Ok true <-> n = 1).
Proof.
  intros G. split; [|split].
  - unfold is_gpu_enabled. rewrite G. cbn [bind].
    destruct (Z.ltb_spec 0 n) as [P|P]; cbn [negb].
    + unfold declined, set_to. destruct (getenv m "TRV_GPU_MODE") as [s|].
      * destruct (_ || _)%bool eqn:E.
        -- split; [discriminate|]. intros (_ & D). destruct D. exists s. split; [reflexivity|].
           rewrite !orb_true_iff, !String.eqb_eq in E. cbn. intuition congruence.
        -- split; [|reflexivity]. intros _. split; [exact P|]. intros (s' & [= <-] & I).
           rewrite !orb_false_iff, !String.eqb_neq in E. cbn in I. intuition congruence.
      * split; [|reflexivity]. intros _. split; [exact P|]. intros (s' & X & _). discriminate X.
    + split; [discriminate|]. intros (H & _). lia.
  - unfold is_gpu_enabled. rewrite G. cbn [bind].
    destruct (negb _); [now right|]. destruct (getenv _ _); [|now left].
    destruct (_ || _)%bool; [now right|now left].
  - unfold is_gpu_single. rewrite G. cbn [bind]. split.
    + intros [= E]. now apply Z.eqb_eq.
    + intros ->. reflexivity.
Qed.

Theorem gpu_available_exact m :
  (is_gpu_available m = Ok true <-> 0 < devices m) /\
  (is_gpu_available m = Ok true \/ is_gpu_available m = Ok false).
Proof.
  unfold is_gpu_available. cbn. destruct (Z.ltb_spec 0 (devices m)) as [P|P].
  - split; [now split|now left].
  - split; [split; [discriminate|lia]|now right].
Qed.

Theorem enabled_available m : is_gpu_enabled m = Ok true -> is_gpu_available m = Ok true.
Proof.
  intros H. destruct (get_gpu_count m false) as [n|e] eqn:G.
  - destruct (proj1 (proj1 (gpu_enabled_exact m n G)) H) as (P & _).
    unfold is_gpu_available. cbn. f_equal. apply Z.ltb_lt.
    destruct (limit_cases m) as [L|(k & L & _)].
    + destruct (gpu_count_exact m) as (_ & A & _). rewrite (A L) in G. injection G as <-. exact P.
    + destruct (Z.le_gt_cases k 2147483647) as [B|B].
      * destruct (gpu_count_exact m) as (_ & _ & A & _). rewrite (A k L B) in G.
        injection G as <-. lia.
      * destruct (gpu_count_exact m) as (_ & _ & _ & A). rewrite (A k L) in G by lia. discriminate G.
  - unfold is_gpu_enabled in H. rewrite G in H. discriminate H.
Qed.

(** Colours in the C++ log. *)
Lemma occurs_find d t : (exists n, sfind d t = Some n) <-> exists a b, t = a ++ d ++ b.
Proof.
  split.
  - intros (n & H). destruct (sfind_some _ _ _ H) as ((E & _) & _). eauto.
  - intros (a & b & E). destruct (sfind d t) as [n|] eqn:H; [eauto|].
    apply sfind_none in H. destruct H. now exists a, b.
Qed.

Theorem colours_exact m :
  is_colourable m = true <-> colour_terminal m /\ asked_colours m.
Proof.
  unfold is_colourable, colour_terminal, asked_colours, set_to.
  destruct (getenv m "TERM") as [t|].
  2:{ split; [discriminate|]. intros ((t & _ & _ & X & _) & _). discriminate X. }
  destruct (getenv m "TRV_INTERACTIVE") as [s|].
  2:{ split; [discriminate|]. intros (_ & s & X & _). discriminate X. }
  destruct (sfind "color" t) as [n|] eqn:F.
  - rewrite !orb_true_iff, !String.eqb_eq. split.
    + intros H. split.
      * destruct (proj1 (occurs_find "color" t)) as (a & b & E); [eauto|]. now exists t, a, b.
      * exists s. split; [reflexivity|]. cbn. intuition congruence.
    + intros (_ & s' & [= <-] & I). cbn in I. intuition congruence.
  - split; [discriminate|]. intros ((t' & a & b & [= <-] & E) & _).
    destruct (proj2 (occurs_find "color" t)) as (n & X); [eauto|]. congruence.
Qed.

(** The Python log is coloured whenever the C++ log is ... *)
Theorem python_colours_exact m :
  py_colourable m = true <-> colour_terminal m /\ ~ unset m "TRV_INTERACTIVE".
Proof.
  unfold py_colourable, colour_terminal, unset, set_to.
  destruct (getenv m "TERM") as [t|].
  - destruct (sfind "color" t) as [n|] eqn:F.
    + destruct (proj1 (occurs_find "color" t)) as (a & b & E); [eauto|].
      destruct (getenv m "TRV_INTERACTIVE") as [s|].
      * split; [|reflexivity]. intros _. split; [now exists t, a, b|discriminate].
      * split; [discriminate|]. intros (_ & X). congruence.
    + split; [discriminate|]. intros ((t' & a & b & [= <-] & E) & _).
      destruct (proj2 (occurs_find "color" t)) as (n & X); [eauto|]. congruence.
  - cbn. split; [discriminate|]. intros ((t & a & b & X & _) & _). discriminate X.
Qed.

Theorem colours_agree m : is_colourable m = true -> py_colourable m = true.
Proof.
  intros H. apply colours_exact in H as (T & s & E & _). apply python_colours_exact.
  split; [exact T|]. unfold unset. unfold set_to in E. congruence.
Qed.

(** ... but also when the user asks for no colours. *)
Definition with_vars (n : Z) (l : list (string * string)) : machine :=
  mk_machine n (fun v => match find (fun kv => (fst kv =? v)%string) l with
                         | Some kv => Some (snd kv)
                         | None => None
                         end).

Theorem colours_refuted :
  exists m, set_to m "TRV_INTERACTIVE" "false" /\ py_colourable m = true /\
            is_colourable m = false.
Proof.
  exists (with_vars 0 [("TERM", "xterm-256color"); ("TRV_INTERACTIVE", "false")]).
  repeat split.
Qed.

(** A limit beyond `int` ends a program that has no GPU to limit. *)
Theorem limit_refuted :
  exists m, devices m = 0 /\ limit m 3000000000 /\ is_gpu_available m = Ok false /\
            is_gpu_enabled m = Err Terminated.
Proof.
  exists (with_vars 0 [("TRV_GPU_MAXNUM", "3000000000")]). repeat split.
  exists "3000000000". split; [reflexivity|].
  destruct (proj1 (re_int_numeral "3000000000") eq_refl) as (n & N).
  pose proof (numeral_value _ _ N) as V. vm_compute in V. injection V as <-. exact N.
Qed.

(** GPU mode stays on under "False" or "OFF". *)
Theorem mode_refuted :
  exists m m', set_to m "TRV_GPU_MODE" "False" /\ set_to m' "TRV_GPU_MODE" "OFF" /\
               is_gpu_enabled m = Ok true /\ is_gpu_enabled m' = Ok true.
Proof.
  exists (with_vars 2 [("TRV_GPU_MODE", "False")]), (with_vars 2 [("TRV_GPU_MODE", "OFF")]).
  repeat split.
Qed.

(** Four devices limited to two; the same declined; a limit that is none. *)
Example gpu_case :
  get_gpu_count (with_vars 4 [("TRV_GPU_MAXNUM", "02")]) false = Ok 2 /\
  get_gpu_ids 9 (with_vars 4 [("TRV_GPU_MAXNUM", "02")]) = Ok [0; 1] /\
  is_gpu_enabled (with_vars 4 [("TRV_GPU_MAXNUM", "02"); ("TRV_GPU_MODE", "off")]) = Ok false /\
  get_gpu_count (with_vars 4 [("TRV_GPU_MAXNUM", "-1")]) false = Ok 4 /\
  is_gpu_enabled (with_vars 4 [("TRV_GPU_MAXNUM", "0")]) = Ok false /\
  is_gpu_single (with_vars 4 [("TRV_GPU_MAXNUM", "1")]) = Ok true /\
  is_colourable (with_vars 0 [("TERM", "xterm-256color"); ("TRV_INTERACTIVE", "yes")]) = true.
Proof. repeat split. Qed.

Print Assumptions gpu_count_exact.
Print Assumptions limit_cases.
Print Assumptions gpu_ids_exact.
Print Assumptions gpu_enabled_exact.
Print Assumptions gpu_available_exact.
Print Assumptions enabled_available.
Print Assumptions colours_exact.
Print Assumptions python_colours_exact.
Print Assumptions colours_agree.
Print Assumptions colours_refuted.
Print Assumptions limit_refuted.
Print Assumptions mode_refuted.
