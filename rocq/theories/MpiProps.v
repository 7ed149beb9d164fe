(* Claims C01, C02, C03: MPI task handling (see MpiModel for the model). *)
From Coq Require Import String ZArith List Lia Bool Permutation Sorted.
From Verif Require Import Base MpiModel MpiProofs.
Import ListNotations.
Open Scope Z_scope.

(** ** C01 *)

(** The value of an argument that [allocate_tasks] accepts as an integer. *)
Definition task_arg (a : pyarg) (t : Z) : Prop := a = PyInt t \/ a = NpInt t.

(** Complete and balanced: one count per process, all tasks given out, no
    two processes differ by more than one, later ranks never get fewer. *)
Theorem allocate_tasks_balanced :
  forall a t p fuel, task_arg a t -> 0 < t -> 0 < p -> (Z.to_nat p < fuel)%nat ->
  exists l, allocate_tasks fuel a (PyInt p) = Ok l /\
    Z.of_nat (length l) = p /\
    fold_right Z.add 0 l = t /\
    Forall (fun x => 0 <= x) l /\
    (forall x y, In x l -> In y l -> Z.abs (x - y) <= 1) /\
    (forall i j x y, (i <= j)%nat -> nth_error l i = Some x -> nth_error l j = Some y -> x <= y).
Proof.
  intros a t p fuel Ha Ht Hp Hf.
  eexists. split; [exact (allocate_tasks_closed fuel t p Ht Hp Hf a Ha)|].
  destruct (Z.to_nat p) as [|n] eqn:En; [lia|].
  assert (Ep : p = Z.of_nat (S n)) by lia.
  assert (B : forall x, In x (map (fun i => (t + Z.of_nat i) / p) (seq 0 (S n))) ->
            0 <= t / p <= x /\ x <= t / p + 1).
  { intros x Hx. apply in_map_iff in Hx as (i & <- & Hi). apply in_seq in Hi.
    apply closed_bounds; lia. }
  split; [rewrite map_length, seq_length; lia|].
  split; [subst p; apply (closed_sum n t Ht)|].
  split; [apply Forall_forall; intros x Hx; apply B in Hx; lia|].
  split; [intros x y Hx Hy; apply B in Hx; apply B in Hy; lia|].
  intros i j x y Hij Hx Hy.
  rewrite nth_error_map in Hx, Hy.
  assert (G : forall k z, option_map (fun i => (t + Z.of_nat i) / p) (nth_error (seq 0 (S n)) k) = Some z ->
            z = (t + Z.of_nat k) / p).
  { intros k z Hk. destruct (nth_error (seq 0 (S n)) k) eqn:E; [|discriminate].
    assert (Hl : (k < length (seq 0 (S n)))%nat) by (apply nth_error_Some; congruence).
    rewrite (nth_error_nth' _ 0%nat Hl) in E. rewrite seq_length in Hl.
    rewrite seq_nth in E by exact Hl. injection E as <-. simpl in Hk. congruence. }
  rewrite (G _ _ Hx), (G _ _ Hy). apply Z.div_le_mono; lia.
Qed.

Example allocate_tasks_balanced_case :
  allocate_tasks 5 (PyInt 10) (PyInt 4) = Ok [2; 2; 3; 3]
  /\ allocate_tasks 5 (NpInt 2) (PyInt 4) = Ok [0; 0; 1; 1].
Proof. split; reflexivity. Qed.

(** Rank [i] of [p] gets exactly [(t + i) / p] tasks. *)
Theorem allocate_tasks_exact :
  forall a t p fuel i, task_arg a t -> 0 < t -> 0 < p -> (Z.to_nat p < fuel)%nat ->
  0 <= i < p ->
  exists l, allocate_tasks fuel a (PyInt p) = Ok l /\
    nth_error l (Z.to_nat i) = Some ((t + i) / p).
Proof.
  intros a t p fuel i Ha Ht Hp Hf Hi.
  eexists. split; [exact (allocate_tasks_closed fuel t p Ht Hp Hf a Ha)|].
  rewrite nth_error_map, (nth_error_nth' _ 0%nat) by (rewrite seq_length; lia).
  rewrite seq_nth by lia. simpl. do 3 f_equal. lia.
Qed.

Example allocate_tasks_exact_case :
  nth_error [2; 2; 3; 3] (Z.to_nat 2) = Some ((10 + 2) / 4).
Proof. reflexivity. Qed.

(** Rejections, for every argument: exactly the non-integers are a TypeError
    and exactly the non-positive integers a ValueError; nothing else fails
    (in particular the loop neither divides by zero nor runs forever). *)
Theorem allocate_tasks_outcome :
  forall a b fuel,
    (forall t p, task_arg a t -> b = PyInt p -> 0 < t -> 0 < p -> (Z.to_nat p < fuel)%nat ->
       exists l, allocate_tasks fuel a b = Ok l) /\
    (forall t p, task_arg a t -> b = PyInt p -> (t <= 0 \/ p <= 0) ->
       allocate_tasks fuel a b = Err ValueError) /\
    ((a = PyOther \/ forall p, b <> PyInt p) -> allocate_tasks fuel a b = Err TypeError).
Proof.
  intros a b fuel. split; [|split].
  - intros t p Ha -> Ht Hp Hf. eexists. exact (allocate_tasks_closed fuel t p Ht Hp Hf a Ha).
  - intros t p Ha -> H.
    assert (E : (t <=? 0) || (p <=? 0) = true).
    { apply orb_true_intro. destruct H; [left|right]; now apply Z.leb_le. }
    destruct Ha; subst a; simpl; now rewrite E.
  - intros [->|Hb]; [reflexivity|].
    destruct a; destruct b; simpl; try reflexivity; exfalso; eapply Hb; reflexivity.
Qed.

Example allocate_tasks_outcome_case :
  allocate_tasks 9 (PyInt 7) (PyInt 0) = Err ValueError
  /\ allocate_tasks 9 (PyInt 7) (NpInt 3) = Err TypeError
  /\ allocate_tasks 9 (PyInt 7) (PyInt 3) = Ok [2; 2; 3].
Proof. repeat split. Qed.

(** ** C02 *)

(** [segs] tile [0, t): consecutive, starting at 0, ending at t. *)
Fixpoint chain (from : Z) (segs : list (Z * Z)) (to : Z) : Prop :=
  match segs with
  | [] => from = to
  | (a, b) :: rest => a = from /\ a <= b /\ chain b rest to
  end.

Lemma chain_seg_of l : Forall (fun a => 0 <= a) l -> forall c,
  chain c (map (fun i => (c + fst (seg_of l i), c + snd (seg_of l i))) (seq 0 (List.length l)))
    (c + zsum l).
Proof.
  induction 1 as [|a l Ha Hl IH]; intros c.
  - simpl. lia.
  - cbn [List.length seq map chain].
    change (seg_of (a :: l) 0) with (0, a + 0). cbn [fst snd zsum fold_right].
    split; [lia|split; [lia|]].
    rewrite <- seq_shift, map_map.
    specialize (IH (c + a)).
    replace (c + (a + 0)) with (c + a) by lia.
    replace (c + (a + fold_right Z.add 0 l)) with (c + a + zsum l) by (unfold zsum; lia).
    erewrite map_ext; [exact IH|].
    intros i. rewrite seg_cons_shift. cbn [fst snd]. f_equal; lia.
Qed.

Lemma distribute_of_list fuel l tt :
  l <> [] ->
  distribute_tasks fuel (Some l) tt PyOther = Ok (map (seg_of l) (seq 0 (List.length l))).
Proof.
  intros H. destruct l as [|a l]; [congruence|].
  unfold distribute_tasks. cbn [bind truthy_int].
  rewrite Nat2Z.id. apply segments_map. lia.
Qed.

(** Segments tile the task range for every task and process count, whether
    the counts are computed inside [distribute_tasks] or passed on from
    [allocate_tasks] (as [gen_winconv_mat] does). *)
Theorem distribute_tasks_tiles :
  forall a t p fuel, task_arg a t -> 0 < t -> 0 < p -> (Z.to_nat p < fuel)%nat ->
  exists l segs, allocate_tasks fuel a (PyInt p) = Ok l /\
    distribute_tasks fuel (Some l) PyOther PyOther = Ok segs /\
    distribute_tasks fuel None a (PyInt p) = Ok segs /\
    Z.of_nat (List.length segs) = p /\
    chain 0 segs t /\
    (forall i n s, nth_error l i = Some n -> nth_error segs i = Some s -> snd s - fst s = n) /\
    (forall k, 0 <= k < t ->
       exists! i, exists s, nth_error segs i = Some s /\ fst s <= k < snd s).
Proof.
  intros a t p fuel Ha Ht Hp Hf.
  destruct (allocate_tasks_balanced a t p fuel Ha Ht Hp Hf)
    as (l & El & Hlen & Hsum & Hnn & _ & _).
  exists l, (map (seg_of l) (seq 0 (List.length l))).
  split; [exact El|].
  assert (Hl : l <> []) by (intros ->; simpl in Hlen; lia).
  split; [now apply distribute_of_list|].
  split.
  { unfold distribute_tasks. rewrite El. cbn [bind truthy_int].
    destruct (p =? 0) eqn:E; [apply Z.eqb_eq in E; lia|].
    rewrite segments_map by lia. rewrite <- Hlen, Nat2Z.id. reflexivity. }
  split; [now rewrite map_length, seq_length|].
  assert (Hc : chain 0 (map (seg_of l) (seq 0 (List.length l))) t).
  { pose proof (chain_seg_of l Hnn 0) as C. simpl in C. fold (zsum l) in Hsum.
    rewrite Hsum in C. erewrite map_ext; [exact C|].
    intros i. symmetry; apply surjective_pairing. }
  split; [exact Hc|]. split.
  - intros i n s Hn Hs. rewrite nth_error_map in Hs.
    assert (Hi : (i < List.length l)%nat) by (apply nth_error_Some; congruence).
    rewrite (nth_error_nth' _ 0%nat) in Hs by (now rewrite seq_length).
    rewrite seq_nth in Hs by exact Hi. simpl in Hs. injection Hs as <-.
    unfold seg_of. cbn [fst snd].
    clear - Hn. revert i Hn. induction l as [|b l IH]; intros [|i] Hn; simpl in *; try discriminate.
    + injection Hn as ->. lia.
    + specialize (IH i Hn). simpl in IH. lia.
  - intros k Hk. revert Hc Hk.
    generalize (map (seg_of l) (seq 0 (List.length l))) as segs. intros segs.
    generalize 0 as c.
    assert (M : forall segs c, chain c segs t -> forall i s, nth_error segs i = Some s -> c <= fst s).
    { clear. induction segs as [|[x y] segs IH]; intros c Hc [|i] s Hs; simpl in *; try discriminate.
      - injection Hs as <-. simpl. lia.
      - destruct Hc as (-> & Hxy & Hc). specialize (IH y Hc i s Hs). lia. }
    induction segs as [|[x y] segs IH]; intros c Hc Hk; simpl in Hc; [lia|].
    destruct Hc as (-> & Hxy & Hc).
    destruct (Z_lt_le_dec k y) as [Hky|Hky].
    + exists 0%nat. split; [exists (c, y); split; [reflexivity|simpl; lia]|].
      intros [|i] (s & Hs & Hr); [reflexivity|].
      simpl in Hs. pose proof (M segs y Hc i s Hs). lia.
    + destruct (IH y Hc ltac:(lia)) as (i & (s & Hs & Hr) & U).
      exists (S i). split; [exists s; auto|].
      intros [|j] (s' & Hs' & Hr'); simpl in Hs'.
      * injection Hs' as <-. simpl in Hr'. lia.
      * f_equal. apply U. exists s'; auto.
Qed.

Example distribute_tasks_tiles_case :
  distribute_tasks 5 None (PyInt 10) (PyInt 4) = Ok [(0, 2); (2, 4); (4, 7); (7, 10)]
  /\ chain 0 [(0, 2); (2, 4); (4, 7); (7, 10)] 10.
Proof. split; [reflexivity|]. simpl. lia. Qed.

(** A gathered parallel run is the serial run: for every number of tasks and
    processes, every work function, every arrival order of the messages and
    whatever the receive buffer held. *)
Theorem parallel_gather_is_serial :
  forall (A : Type) (work : Z -> list A) a t p fuel l segs buf msgs,
  task_arg a t -> 0 < t -> 0 < p -> (Z.to_nat p < fuel)%nat ->
  allocate_tasks fuel a (PyInt p) = Ok l ->
  distribute_tasks fuel (Some l) PyOther PyOther = Ok segs ->
  let sent := map (rank_result work) segs in
  List.length buf = list_sum (map (@List.length A) sent) ->
  Permutation msgs (combine (gather_offsets (map (@List.length A) sent)) sent) ->
  gatherv buf msgs = concat (map work (map Z.of_nat (seq 0 (Z.to_nat t)))).
Proof.
  intros A work a t p fuel l segs buf msgs Ha Ht Hp Hf El Es sent Hbuf HP.
  destruct (allocate_tasks_balanced a t p fuel Ha Ht Hp Hf)
    as (l' & El' & Hlen & Hsum & Hnn & _ & _).
  rewrite El in El'. injection El' as <-.
  assert (Hl : l <> []) by (intros ->; simpl in Hlen; lia).
  rewrite (distribute_of_list fuel l PyOther Hl) in Es. injection Es as <-.
  rewrite (gatherv_concat sent buf msgs).
  - unfold sent. rewrite map_map. unfold rank_result.
    fold (zsum l) in Hsum. rewrite <- Hsum, <- (segments_tile l Hnn).
    rewrite concat_map, map_map.
    generalize (seq 0 (List.length l)) as idx. clear.
    induction idx as [|i idx IH]; [reflexivity|].
    cbn [map concat]. rewrite concat_app, IH. reflexivity.
  - rewrite Hbuf. pose proof (concat_firstn_length sent (List.length sent)) as E.
    rewrite !firstn_all in E. rewrite firstn_all2 in E by (rewrite map_length; lia).
    now rewrite E.
  - exact HP.
Qed.

Example parallel_gather_is_serial_case :
  (* two processes, three tasks of two values each; the second message arrives first *)
  gatherv [9; 9; 9; 9; 9; 9]
    [(2%nat, rank_result (fun i => [10 * i; 10 * i + 1]) (1, 3));
     (0%nat, rank_result (fun i => [10 * i; 10 * i + 1]) (0, 1))]
  = [0; 1; 10; 11; 20; 21].
Proof. reflexivity. Qed.

(** The docstring says [proc_total] is ignored when [ntasks] is given.  It is
    not: a smaller value drops segments and a larger one raises IndexError. *)
Theorem distribute_proc_total_ignored_refuted :
  exists l q, 0 < q /\ Forall (fun x => 0 <= x) l /\ l <> [] /\
    distribute_tasks 0 (Some l) PyOther (PyInt q) <> distribute_tasks 0 (Some l) PyOther PyOther.
Proof.
  exists [2; 3], 1. repeat split; try lia; try discriminate.
  repeat constructor; lia.
Qed.

(** What does happen, for every list of counts and every [proc_total]. *)
Theorem distribute_proc_total_effect :
  forall l q fuel tt, l <> [] -> 0 < q ->
  (q <= Z.of_nat (List.length l) ->
     exists segs, distribute_tasks fuel (Some l) tt PyOther = Ok segs /\
       distribute_tasks fuel (Some l) tt (PyInt q) = Ok (firstn (Z.to_nat q) segs)) /\
  (Z.of_nat (List.length l) < q ->
     distribute_tasks fuel (Some l) tt (PyInt q) = Err IndexError).
Proof.
  intros l q fuel tt Hl Hq. split; intros H.
  - eexists. split; [now apply distribute_of_list|].
    destruct l as [|x l]; [congruence|].
    unfold distribute_tasks. cbn [bind truthy_int].
    destruct (q =? 0) eqn:E; [apply Z.eqb_eq in E; lia|].
    rewrite segments_map by lia. f_equal.
    rewrite firstn_map. f_equal.
    replace (List.length (x :: l)) with (Z.to_nat q + (List.length (x :: l) - Z.to_nat q))%nat by lia.
    rewrite seq_app, firstn_app, seq_length.
    rewrite Nat.sub_diag. simpl firstn at 2. rewrite app_nil_r.
    symmetry. apply firstn_all2. rewrite seq_length. lia.
  - destruct l as [|x l]; [congruence|].
    unfold distribute_tasks. cbn [bind truthy_int].
    destruct (q =? 0) eqn:E; [apply Z.eqb_eq in E; lia|].
    apply segments_err. lia.
Qed.

Example distribute_proc_total_effect_case :
  distribute_tasks 0 (Some [2; 3]) PyOther (PyInt 1) = Ok [(0, 2)]
  /\ distribute_tasks 0 (Some [2; 3]) PyOther (PyInt 3) = Err IndexError.
Proof. split; reflexivity. Qed.

(** ** C03 *)

(** [sub] is a subsequence of [l]: same order, elements left out only. *)
Inductive subsequence {A : Type} : list A -> list A -> Prop :=
| sub_nil : forall l, subsequence [] l
| sub_take : forall a s l, subsequence s l -> subsequence (a :: s) (a :: l)
| sub_skip : forall a s l, subsequence s l -> subsequence s (a :: l).

(** Position-wise: the kept records are exactly the first occurrences. *)
Definition first_occurrence {K P} (l : list (K * P)) (r : K * P) : Prop :=
  exists l1 l2, l = l1 ++ r :: l2 /\ ~ In (fst r) (map fst l1).

Lemma restore_loop_sub {K P} (eqb : K -> K -> bool) : forall (l : list (K * P)) seen,
  subsequence (restore_loop eqb l [] seen) l.
Proof.
  induction l as [|r t IH]; intros seen; simpl; [constructor|].
  destruct (existsb _ _); [constructor; apply IH|].
  rewrite restore_loop_acc. simpl. constructor. apply IH.
Qed.

Lemma restore_loop_keys {K P} (eqb : K -> K -> bool)
  (Heq : forall a b, eqb a b = true <-> a = b) : forall (l : list (K * P)) seen,
  NoDup (map fst (restore_loop eqb l [] seen)) /\
  (forall r, In r (restore_loop eqb l [] seen) -> ~ In (fst r) seen) /\
  (forall r, In r (restore_loop eqb l [] seen) <->
     exists l1 l2, l = l1 ++ r :: l2 /\ ~ In (fst r) (map fst l1) /\ ~ In (fst r) seen) /\
  (forall r, In r l -> In (fst r) seen \/ In (fst r) (map fst (restore_loop eqb l [] seen))).
Proof.
  induction l as [|r t IH]; intros seen; simpl.
  - repeat split; try (constructor; fail); try tauto.
    intros (l1 & l2 & E & _). now destruct l1.
  - destruct (existsb (eqb (fst r)) seen) eqn:E.
    + apply (existsb_eqb eqb Heq) in E.
      destruct (IH seen) as (I1 & I2 & I3 & I4). repeat split; auto.
      * intros Hr. apply I3 in Hr as (l1 & l2 & -> & N1 & N2).
        exists (r :: l1), l2. split; [reflexivity|]. split; [|exact N2].
        simpl. intros [H|H]; [rewrite <- H in N2|]; tauto.
      * intros (l1 & l2 & El & N1 & N2). apply I3.
        destruct l1 as [|x l1]; simpl in El; injection El as -> ->; [tauto|].
        exists l1, l2. simpl in N1. tauto.
      * intros x [->|Hx]; [tauto|]. auto.
    + assert (E' : ~ In (fst r) seen).
      { intros H. apply (existsb_eqb eqb Heq) in H. congruence. }
      rewrite restore_loop_acc. cbn [app map].
      destruct (IH (fst r :: seen)) as (I1 & I2 & I3 & I4). repeat split.
      * constructor; [|exact I1]. intros H. apply in_map_iff in H as (x & Ex & Hx).
        apply I2 in Hx. apply Hx. left. congruence.
      * intros x [<-|Hx]; [exact E'|]. apply I2 in Hx. simpl in Hx. tauto.
      * intros [<-|Hr].
        -- exists [], t. simpl. tauto.
        -- apply I3 in Hr as (l1 & l2 & -> & N1 & N2).
           exists (r :: l1), l2. split; [reflexivity|]. simpl in *. tauto.
      * intros (l1 & l2 & El & N1 & N2).
        destruct l1 as [|x l1]; simpl in El; injection El as -> ->; [left; reflexivity|].
        right. apply I3. exists l1, l2. simpl in *. tauto.
      * intros x [->|Hx]; [right; now left|].
        destruct (I4 x Hx) as [[H|H]|H]; [right; now left| now left | right; now right].
Qed.

(** With [unique=True] the result keeps order, holds no duplicate, and
    consists of exactly the first record of each distinct warning. *)
Theorem restore_warnings_unique :
  forall (K P : Type) (eqb : K -> K -> bool), (forall a b, eqb a b = true <-> a = b) ->
  forall (captured : list (K * P)) show comm root,
  let kept := fst (restore_warnings eqb captured true show comm root) in
  subsequence kept captured /\
  NoDup (map fst kept) /\
  (forall r, In r kept <-> first_occurrence captured r) /\
  (forall r, In r captured -> In (fst r) (map fst kept)).
Proof.
  intros K P eqb Heq captured show comm root kept.
  unfold kept, restore_warnings. cbn [fst].
  destruct (restore_loop_keys eqb Heq captured []) as (I1 & I2 & I3 & I4).
  split; [apply restore_loop_sub|]. split; [exact I1|]. split.
  - intros r. rewrite I3. unfold first_occurrence. split.
    + intros (l1 & l2 & H & N & _). eauto.
    + intros (l1 & l2 & H & N). exists l1, l2. simpl. tauto.
  - intros r Hr. destruct (I4 r Hr) as [[]|H]. exact H.
Qed.

Example restore_warnings_unique_case :
  fst (restore_warnings Nat.eqb [(1%nat, "a"%string); (2%nat, "b"%string); (1%nat, "c"%string)] true true None 0)
  = [(1%nat, "a"%string); (2%nat, "b"%string)].
Proof. reflexivity. Qed.

(** All warnings kept with [unique=False]; shown exactly on the root (or
    without a communicator), and then exactly what is returned. *)
Theorem restore_warnings_shown :
  forall (K P : Type) (eqb : K -> K -> bool) (captured : list (K * P)) unique show comm root,
  let out := restore_warnings eqb captured unique show comm root in
  (unique = false -> fst out = captured) /\
  (show = true -> (comm = None \/ comm = Some root) -> snd out = fst out) /\
  (show = false \/ (exists r, comm = Some r /\ r <> root) -> snd out = []).
Proof.
  intros K P eqb captured unique show comm root out. unfold out, restore_warnings.
  cbn [fst snd]. repeat split.
  - now intros ->.
  - intros -> [->| ->]; simpl; [reflexivity|]. now rewrite Z.eqb_refl.
  - intros [->|(r & -> & N)]; [reflexivity|].
    apply Z.eqb_neq in N. rewrite N, andb_false_r. reflexivity.
Qed.

Example restore_warnings_shown_case :
  snd (restore_warnings Nat.eqb [(1%nat, tt); (1%nat, tt)] true true (Some 3) 3) = [(1%nat, tt)]
  /\ snd (restore_warnings Nat.eqb [(1%nat, tt); (1%nat, tt)] true true (Some 2) 3) = [].
Proof. split; reflexivity. Qed.

Print Assumptions allocate_tasks_balanced.
Print Assumptions allocate_tasks_exact.
Print Assumptions allocate_tasks_outcome.
Print Assumptions distribute_tasks_tiles.
Print Assumptions parallel_gather_is_serial.
Print Assumptions distribute_proc_total_ignored_refuted.
Print Assumptions distribute_proc_total_effect.
Print Assumptions restore_warnings_unique.
Print Assumptions restore_warnings_shown.
