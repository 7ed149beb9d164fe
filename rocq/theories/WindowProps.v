(* Three-point window functions: subselection and resampling (C46). *)
From Coq Require Import Reals ZArith List Lia Lra Bool Sorting.Sorted.
From Verif Require Import Base ArrayModel ArrayProofs Array2dModel ReshapeModel
  MultipoleModel WinMatProps WindowModel.
Import ListNotations.
Local Open Scope R_scope.

(* ------------------------------------------------------------------ *)
(* Vocabulary                                                          *)

(** A usable window: points for each multipole, and as many rows and columns
    of samples. *)
Definition usable (w : window) : Prop :=
  exists d, w_r w = ByPole d
  /\ NoDup (w_multipoles w)
  /\ NoDup (map fst (w_Q w))
  /\ (forall m, In m (map fst (w_Q w)) <-> In m (w_multipoles w))
  /\ forall m, In m (w_multipoles w) ->
     exists r q, lookup d m = Ok r /\ lookup (w_Q w) m = Ok q
       /\ square (length r) q /\ Forall (fun x => 0 <= x) r.

(** The point x is within the requested range. *)
Definition within (lo hi : option R) (x : R) : Prop :=
  (forall a, lo = Some a -> a <= x) /\ (forall b, hi = Some b -> x <= b).

(** Index i of n is within `slice(start, stop)`. *)
Definition in_slice (n : nat) (start stop : option Z) (i : nat) : Prop :=
  let from_end z := (if z <? 0 then z + Z.of_nat n else z)%Z in
  (forall s, start = Some s -> from_end s <= Z.of_nat i)%Z
  /\ (forall e, stop = Some e -> Z.of_nat i < from_end e)%Z.

(** What a range asks of a point of multipole m. *)
Definition wants (rr : rrange_arg) (m : list Z) (x : R) : Prop :=
  match rr with
  | RNone => True
  | RTuple lo hi => within lo hi x
  | RDict l => forall lo hi, In (MCopy m, (lo, hi)) l -> within lo hi x
  end.

Definition wants_idx (ir : idx_arg) (n i : nat) : Prop :=
  match ir with
  | INone => True
  | ITuple s e => in_slice n s e i
  | IDict _ => False
  end.

(** Ranges that are treated as written: no upper end of zero; in a dictionary,
    `Multipole` keys, one entry for every multipole of the window, and both
    ends given. *)
Definition honoured (w : window) (rr : rrange_arg) : Prop :=
  match rr with
  | RNone => True
  | RTuple _ hi => hi <> Some 0
  | RDict l =>
      exists ms, map fst l = map MCopy ms /\ NoDup ms
        /\ (forall m, In m ms <-> In m (w_multipoles w))
        /\ Forall (fun e => exists a b, snd e = (Some a, Some b)) l
  end.

Definition not_dict (ir : idx_arg) : Prop :=
  match ir with IDict _ => False | _ => True end.

(** [w'] holds, of the samples of multipole m of w, those at the indices I. *)
Definition holds_at (w w' : window) (m : list Z) (I : list nat) : Prop :=
  forall r q, r_of w m = Ok r -> lookup (w_Q w) m = Ok q ->
    r_of w' m = Ok (map (fun i => nth i r 0) I)
    /\ lookup (w_Q w') m = Ok (map (fun i => map (fun j => nth j (nth i q []) 0) I) I)
    /\ lookup (w_Q_diag w') m = Ok (map (fun i => nth i (nth i q []) 0) I).

(* ------------------------------------------------------------------ *)
(* Dictionaries and masks                                              *)

Lemma meq_spec a b : meq a b = true <-> a = b.
Proof.
  revert b; induction a as [|x a IH]; intros [|y b]; cbn; split; try discriminate; try reflexivity.
  - intros H. apply andb_true_iff in H as [H1 H2]. apply Z.eqb_eq in H1. apply IH in H2. congruence.
  - intros H. injection H as -> ->. rewrite Z.eqb_refl. cbn. now apply IH.
Qed.

Lemma meq_refl a : meq a a = true.
Proof. now apply meq_spec. Qed.

Lemma meq_neq a b : a <> b -> meq a b = false.
Proof. intros H. destruct (meq a b) eqn:E; [|reflexivity]. apply meq_spec in E. contradiction. Qed.

Lemma lookup_in {A} (d : mdict A) k : In k (map fst d) <-> exists a, lookup d k = Ok a.
Proof.
  induction d as [|[k' a'] d IH]; cbn [map fst lookup In].
  - split; [tauto|]. intros [a H]. discriminate.
  - destruct (meq k' k) eqn:E.
    + apply meq_spec in E. split; [eauto|]. now left.
    + rewrite <- IH. split; [|now right]. intros [->|H]; [|exact H]. now rewrite meq_refl in E.
Qed.

Lemma lookup_none {A} (d : mdict A) k : ~ In k (map fst d) -> lookup d k = Err KeyError.
Proof.
  induction d as [|[k' a'] d IH]; cbn [map fst lookup In]; intros H; [reflexivity|].
  rewrite meq_neq by tauto. apply IH. tauto.
Qed.

Lemma lookup_some_in {A} (d : mdict A) k a : lookup d k = Ok a -> In (k, a) d.
Proof.
  induction d as [|[k' a'] d IH]; cbn [lookup]; [discriminate|].
  destruct (meq k' k) eqn:E; intros H.
  - apply meq_spec in E. injection H as ->. subst. now left.
  - right. auto.
Qed.

Lemma in_lookup {A} (d : mdict A) k a : NoDup (map fst d) -> In (k, a) d -> lookup d k = Ok a.
Proof.
  induction d as [|[k' a'] d IH]; cbn [map fst lookup In]; intros N H; [contradiction|].
  inversion N as [|? ? N1 N2]; subst. destruct H as [H|H].
  - injection H as -> ->. now rewrite meq_refl.
  - rewrite meq_neq; [auto|]. intros ->. apply N1. apply in_map_iff. now exists (k, a).
Qed.

Lemma store_new {A} (d : mdict A) k a : ~ In k (map fst d) -> store d k a = d ++ [(k, a)].
Proof.
  induction d as [|[k' a'] d IH]; cbn [map fst store In]; intros H; [reflexivity|].
  rewrite meq_neq by tauto. cbn [app]. now rewrite IH by tauto.
Qed.

Lemma lookup_store {A} (d : mdict A) k a k' :
  lookup (store d k a) k' = if meq k k' then Ok a else lookup d k'.
Proof.
  induction d as [|[k0 a0] d IH]; cbn [store lookup].
  - reflexivity.
  - destruct (meq k0 k) eqn:E.
    + apply meq_spec in E. subst k0. cbn [lookup]. destruct (meq k k') eqn:E2; reflexivity.
    + cbn [lookup]. rewrite IH. destruct (meq k0 k') eqn:E2; [|reflexivity].
      apply meq_spec in E2. subst k0. rewrite meq_neq; [reflexivity|].
      intros ->. now rewrite meq_refl in E.
Qed.

Lemma store_all {A} (l d : mdict A) :
  NoDup (map fst (d ++ l)) ->
  fold_left (fun d kb => store d (fst kb) (snd kb)) l d = d ++ l.
Proof.
  revert d; induction l as [|[k a] l IH]; intros d N; cbn [fold_left fst snd].
  - now rewrite app_nil_r.
  - rewrite store_new.
    + rewrite IH; rewrite <- app_assoc; [reflexivity|exact N].
    + rewrite map_app in N. cbn [map fst] in N. apply NoDup_remove_2 in N.
      rewrite in_app_iff in N. tauto.
Qed.

Lemma map_key {A B} (f : A -> B) (l : mdict A) :
  map fst (map (fun ka => (fst ka, f (snd ka))) l) = map fst l.
Proof. rewrite map_map. reflexivity. Qed.

Lemma map_pair_key {B} (g : list Z -> B) ks : map fst (map (fun k => (k, g k)) ks) = ks.
Proof. rewrite map_map. apply map_id. Qed.

Lemma sequence_map_ok {A B} (f : A -> res B) (g : A -> B) l :
  (forall a, In a l -> f a = Ok (g a)) -> sequence (map f l) = Ok (map g l).
Proof.
  intros H. induction l as [|a l IH]; [reflexivity|]. cbn [map sequence].
  rewrite H by now left. cbn [bind]. rewrite IH; [reflexivity|]. intros b Hb. apply H. now right.
Qed.

Lemma on_keys_ok {B} (f : list Z -> res B) (g : list Z -> B) ks : NoDup ks ->
  (forall k, In k ks -> f k = Ok (g k)) -> on_keys f ks = Ok (map (fun k => (k, g k)) ks).
Proof.
  intros N H. unfold on_keys.
  rewrite (sequence_map_ok _ (fun k => (k, g k))).
  - cbn [bind]. rewrite store_all; [reflexivity|]. cbn [app]. now rewrite map_pair_key.
  - intros k Hk. now rewrite H.
Qed.

Lemma lookup_on_keys {B} (g : list Z -> B) ks k : NoDup ks -> In k ks ->
  lookup (map (fun k => (k, g k)) ks) k = Ok (g k).
Proof.
  intros N H. apply in_lookup; [now rewrite map_pair_key|]. apply in_map_iff. now exists k.
Qed.

Lemma on_items_ok {A B} (f : list Z -> A -> res B) (g : list Z -> A -> B) (d : mdict A) :
  (forall k a, In (k, a) d -> f k a = Ok (g k a)) ->
  on_items f d = Ok (map (fun ka => (fst ka, g (fst ka) (snd ka))) d).
Proof.
  intros H. unfold on_items. apply sequence_map_ok. intros [k a] Hk. cbn [fst snd].
  now rewrite (H k a).
Qed.

Lemma lookup_items {A B} (g : list Z -> A -> B) (d : mdict A) k :
  lookup (map (fun ka => (fst ka, g (fst ka) (snd ka))) d) k
  = match lookup d k with Ok a => Ok (g k a) | Err e => Err e end.
Proof.
  induction d as [|[k' a'] d IH]; cbn [map lookup fst snd]; [reflexivity|].
  destruct (meq k' k) eqn:E; [apply meq_spec in E; now subst|exact IH].
Qed.

Lemma list_nth_seq {A} (a : list A) d : a = map (fun i => nth i a d) (seq 0 (length a)).
Proof.
  induction a as [|x a IH]; [reflexivity|]. cbn [length seq map nth]. f_equal.
  rewrite <- seq_shift, map_map. exact IH.
Qed.

Lemma map_by_index {A B} (f : A -> B) (a : list A) d :
  map f a = map (fun i => f (nth i a d)) (seq 0 (length a)).
Proof. rewrite (list_nth_seq a d) at 1. apply map_map. Qed.

Lemma mask_and_map {A} (p q : A -> bool) l :
  mask_and (map p l) (map q l) = map (fun x => p x && q x) l.
Proof. unfold mask_and. induction l as [|x l IH]; cbn; [reflexivity|]. now rewrite IH. Qed.

Lemma filter_combine {A B} (p : A -> bool) (f : A -> B) l :
  map snd (filter fst (combine (map p l) (map f l))) = map f (filter p l).
Proof.
  induction l as [|x l IH]; cbn [map combine filter fst]; [reflexivity|].
  destruct (p x); cbn [map snd]; now rewrite IH.
Qed.

Lemma keep_map {A} (p : nat -> bool) (a : list A) d :
  keep (map p (seq 0 (length a))) a
  = Ok (map (fun i => nth i a d) (filter p (seq 0 (length a)))).
Proof.
  unfold keep. rewrite map_length, seq_length, Nat.eqb_refl. f_equal.
  rewrite (list_nth_seq a d) at 2. apply filter_combine.
Qed.

Lemma keep2_map (p : nat -> bool) n (q : matrix) : square n q ->
  let I := filter p (seq 0 n) in
  keep2 (map p (seq 0 n)) q
  = Ok (map (fun i => map (fun j => nth j (nth i q []) 0) I) I).
Proof.
  intros [L F] I. unfold keep2. rewrite <- L at 1. rewrite (keep_map p q []). cbn [bind].
  rewrite map_map. rewrite L. fold I. apply sequence_map_ok. intros i Hi.
  apply filter_In in Hi as [Hi _]. apply in_seq in Hi.
  assert (Hl : length (nth i q []) = n).
  { rewrite Forall_forall in F. apply F. apply nth_In. lia. }
  rewrite <- Hl at 1. rewrite (keep_map p _ 0). now rewrite Hl.
Qed.

Lemma diag_square (f : nat -> nat -> R) I :
  diag (map (fun i => map (fun j => f i j) I) I) = map (fun i => f i i) I.
Proof.
  unfold diag. rewrite map_length.
  destruct I as [|i0 I0] eqn:EI; [reflexivity|]. rewrite <- EI.
  replace (length (nth 0 _ _)) with (length I).
  2:{ rewrite EI. cbn [map nth length]. now rewrite map_length. }
  rewrite Nat.min_id. rewrite (map_by_index (fun i => f i i) I 0%nat). apply map_ext_in. intros k Hk.
  apply in_seq in Hk.
  rewrite (nth_indep _ [] (map (fun j => f 0%nat j) I)) by (rewrite map_length; lia).
  rewrite (map_nth (fun i => map (fun j => f i j) I)).
  rewrite (nth_indep _ 0 (f (nth k I 0%nat) 0%nat)) by (rewrite map_length; lia).
  now rewrite (map_nth (fun j => f (nth k I 0%nat) j)).
Qed.

Lemma filter_seq_sorted p a n : StronglySorted lt (filter p (seq a n)).
Proof.
  revert a; induction n as [|n IH]; intros a; cbn [seq filter]; [constructor|].
  destruct (p a); [|apply IH]. constructor; [apply IH|].
  apply Forall_forall. intros x Hx. apply filter_In in Hx as [Hx _]. apply in_seq in Hx. lia.
Qed.

(* ------------------------------------------------------------------ *)
(* The masks                                                           *)

Definition points_at (w : window) (m : list Z) : list R :=
  match r_of w m with Ok r => r | Err _ => [] end.

Lemma usable_points w m : usable w -> In m (w_multipoles w) ->
  r_of w m = Ok (points_at w m) /\ Forall (fun x => 0 <= x) (points_at w m).
Proof.
  intros (d & E & _ & _ & _ & H) Hm. destruct (H m Hm) as (r & q & Hr & _ & _ & P).
  unfold points_at, r_of. rewrite E, Hr. now split.
Qed.

(** A mask dictionary that, for each multipole, is the mask [p m] by index. *)
Definition masks (w : window) (d : mdict (list bool)) (p : list Z -> nat -> bool) : Prop :=
  forall m, In m (w_multipoles w) ->
    lookup d m = Ok (map (p m) (seq 0 (length (points_at w m)))).

Lemma Rleb_iff x y : Rleb x y = true <-> x <= y.
Proof. unfold Rleb. destruct (Rle_dec x y); split; try tauto; discriminate. Qed.

Lemma on_keys_masks w (f : list R -> list bool) (g : list Z -> nat -> bool) : usable w ->
  (forall m, In m (w_multipoles w) ->
     f (points_at w m) = map (g m) (seq 0 (length (points_at w m)))) ->
  exists d, on_keys (fun m => r <- r_of w m ;; Ok (f r)) (w_multipoles w) = Ok d /\ masks w d g.
Proof.
  intros U H. exists (map (fun m => (m, f (points_at w m))) (w_multipoles w)).
  pose proof U as (d & _ & N & _). split.
  - apply on_keys_ok; [exact N|]. intros m Hm. destruct (usable_points w m U Hm) as [-> _].
    reflexivity.
  - intros m Hm. rewrite (lookup_on_keys (fun m => f (points_at w m))) by assumption.
    f_equal. now apply H.
Qed.

Lemma lower_or_le lo x : 0 <= x -> (lower_or lo <= x <-> forall a, lo = Some a -> a <= x).
Proof.
  intros P. destruct lo as [a|]; cbn [lower_or].
  - unfold Reqb. destruct (Req_EM_T a 0) as [->|].
    + split; [intros _ a Ha; injection Ha as <-; exact P|intros _; exact P].
    + split; [intros H b Hb; injection Hb as <-; exact H|intros H; now apply H].
  - split; [intros _ a Ha; discriminate|intros _; exact P].
Qed.

Lemma upper_or_le hi x : hi <> Some 0 ->
  (below x (upper_or hi) = true <-> forall b, hi = Some b -> x <= b).
Proof.
  intros N. destruct hi as [b|]; cbn [upper_or].
  - unfold Reqb. destruct (Req_EM_T b 0) as [->|]; [congruence|]. cbn [below].
    rewrite Rleb_iff. split; [intros H c Hc; injection Hc as <-; exact H|intros H; now apply H].
  - cbn. split; [intros _ b Hb; discriminate|reflexivity].
Qed.

Lemma select_range_spec w rr : usable w -> honoured w rr ->
  exists d g, select_range w rr = Ok d /\ masks w d g
  /\ forall m i, In m (w_multipoles w) -> (i < length (points_at w m))%nat ->
     (g m i = true <-> wants rr m (nth i (points_at w m) 0)).
Proof.
  intros U Hh. destruct rr as [|lo hi|l]; cbn [select_range honoured wants] in *.
  - destruct (on_keys_masks w (map (fun _ => true)) (fun _ _ => true) U) as (d & E & M).
    { intros m Hm. now rewrite (map_by_index _ _ 0). }
    exists d, (fun _ _ => true). tauto.
  - destruct (on_keys_masks w (map (fun x => Rleb (lower_or lo) x && below x (upper_or hi)))
      (fun m i => Rleb (lower_or lo) (nth i (points_at w m) 0)
                  && below (nth i (points_at w m) 0) (upper_or hi)) U) as (d & E & M).
    { intros m Hm. now rewrite (map_by_index _ _ 0). }
    exists d, (fun m i => Rleb (lower_or lo) (nth i (points_at w m) 0)
                  && below (nth i (points_at w m) 0) (upper_or hi)).
    split; [exact E|]. split; [exact M|]. intros m i Hm Hi.
    destruct (usable_points w m U Hm) as [_ P]. rewrite Forall_forall in P.
    assert (P1 : 0 <= nth i (points_at w m) 0) by (apply P, nth_In, Hi).
    rewrite andb_true_iff, Rleb_iff, lower_or_le, upper_or_le by assumption.
    reflexivity.
  - destruct Hh as (ms & Ek & N & Hms & F).
    pose (bnd := fun e : mlike * (option R * option R) =>
      match snd e with (Some a, Some b) => (a, b) | _ => (0, 0) end).
    pose (idx := fun k : mlike => match k with MCopy m => m | _ => [] end).
    pose (row := fun e : mlike * (option R * option R) => (idx (fst e),
      map (fun x => Rleb (fst (bnd e)) x && Rleb x (snd (bnd e))) (points_at w (idx (fst e))))).
    assert (Ki : map (fun e => idx (fst e)) l = ms).
    { rewrite <- (map_map fst idx), Ek, map_map. cbn [idx]. apply map_id. }
    assert (Es : sequence (map (fun e =>
               m <- multipole (fst e) ;;
               r <- r_raw w (fst e) ;;
               match snd e with
               | (Some lo, Some hi) => Ok (m, map (fun x => Rleb lo x && Rleb x hi) r)
               | _ => Err TypeError
               end) l) = Ok (map row l)).
    { apply sequence_map_ok. intros [k [lo hi]] He. cbn [fst snd].
      rewrite Forall_forall in F. destruct (F _ He) as (a & b & Eab). cbn [snd] in Eab.
      injection Eab as -> ->.
      assert (Hk : In k (map MCopy ms)) by (rewrite <- Ek; apply in_map_iff; now exists (k, (Some a, Some b))).
      apply in_map_iff in Hk as (m & <- & Hm). cbn [multipole bind r_raw].
      destruct (usable_points w m U (proj1 (Hms m) Hm)) as [-> _]. reflexivity. }
    pose (findb := fun m => match lookup (map (fun e => (idx (fst e), bnd e)) l) m with
                            | Ok ab => ab | Err _ => (0, 0) end).
    exists (map row l), (fun m i => Rleb (fst (findb m)) (nth i (points_at w m) 0)
                          && Rleb (nth i (points_at w m) 0) (snd (findb m))).
    assert (Nr : NoDup (map fst (map row l))).
    { rewrite map_map. cbn [row fst]. rewrite Ki. exact N. }
    split; [|split].
    + rewrite Es. cbn [bind]. rewrite store_all; [reflexivity|]. exact Nr.
    + intros m Hm. apply Hms in Hm. rewrite <- Ki in Hm. apply in_map_iff in Hm as (e & Ee & He).
      apply in_lookup; [exact Nr|]. apply in_map_iff. exists e. split; [|exact He].
      unfold row. rewrite Ee. f_equal.
      assert (Ef : findb m = bnd e).
      { unfold findb. erewrite in_lookup with (a := bnd e); [reflexivity| |].
        - rewrite map_map. cbn [fst]. rewrite Ki. exact N.
        - apply in_map_iff. exists e. split; [now rewrite Ee|exact He]. }
      rewrite Ef. rewrite (map_by_index _ _ 0). reflexivity.
    + intros m i Hm Hi. apply Hms in Hm. rewrite <- Ki in Hm. apply in_map_iff in Hm as (e & Ee & He).
      assert (Ef : findb m = bnd e).
      { unfold findb. erewrite in_lookup with (a := bnd e); [reflexivity| |].
        - rewrite map_map. cbn [fst]. rewrite Ki. exact N.
        - apply in_map_iff. exists e. split; [now rewrite Ee|exact He]. }
      rewrite Ef, andb_true_iff, !Rleb_iff.
      rewrite Forall_forall in F. destruct (F _ He) as (a & b & Eab).
      unfold bnd. rewrite Eab. cbn [fst snd].
      assert (Eu : forall lo hi, In (MCopy m, (lo, hi)) l -> (lo, hi) = (Some a, Some b)).
      { intros lo hi Hin.
        assert (L1 : lookup (map (fun e => (idx (fst e), snd e)) l) m = Ok (snd e)).
        { apply in_lookup; [rewrite map_map; cbn [fst]; rewrite Ki; exact N|].
          apply in_map_iff. exists e. split; [now rewrite Ee|exact He]. }
        assert (L2 : lookup (map (fun e => (idx (fst e), snd e)) l) m = Ok (lo, hi)).
        { apply in_lookup; [rewrite map_map; cbn [fst]; rewrite Ki; exact N|].
          apply in_map_iff. exists (MCopy m, (lo, hi)). now split. }
        rewrite L1 in L2. injection L2 as L2. congruence. }
      assert (Eme : e = (MCopy m, (Some a, Some b))).
      { destruct e as [k ab]. cbn [fst snd] in *. subst ab.
        assert (Hk : In k (map MCopy ms)) by (rewrite <- Ek; apply in_map_iff; now exists (k, (Some a, Some b))).
        apply in_map_iff in Hk as (m' & <- & _). cbn in Ee. now subst. }
      split.
      * intros [H1 H2] lo hi Hin. specialize (Eu _ _ Hin). injection Eu as -> ->.
        split; intros c Hc; injection Hc as <-; assumption.
      * intros H. rewrite Eme in He. destruct (H _ _ He) as [H1 H2]. split; [now apply H1|now apply H2].
Qed.

Lemma slice_mask_spec n s e i : (i < n)%nat ->
  exists p, slice_mask n s e = map p (seq 0 n) /\ (p i = true <-> in_slice n s e i).
Proof.
  intros Hi. eexists. split; [reflexivity|]. cbn beta. rewrite andb_true_iff, Z.leb_le, Z.ltb_lt.
  unfold in_slice, clip. destruct s as [s|], e as [e|]; split.
  all: try (intros [H1 H2]; split; intros z Hz; [|]; try discriminate; injection Hz as <-).
  all: try (intros [H1 H2]; try specialize (H1 _ eq_refl); try specialize (H2 _ eq_refl)).
  all: repeat match goal with |- context[(?a <? 0)%Z] => destruct (Z.ltb_spec a 0)
         | H : context[(?a <? 0)%Z] |- _ => destruct (Z.ltb_spec a 0) end.
  all: try lia.
Qed.

Definition slice_pred (n : nat) (s e : option Z) (i : nat) : bool :=
  nth i (slice_mask n s e) false.

Lemma select_idx_spec h w ir : usable w -> not_dict ir ->
  exists d g, select_idx h w ir = Ok d /\ masks w d g
  /\ forall m i, In m (w_multipoles w) -> (i < length (points_at w m))%nat ->
     (g m i = true <-> wants_idx ir (length (points_at w m)) i).
Proof.
  intros U Hn. destruct ir as [|s e|l]; [| |contradiction]; cbn [select_idx wants_idx].
  - destruct (on_keys_masks w (map (fun _ => true)) (fun _ _ => true) U) as (d & E & M).
    { intros m Hm. now rewrite (map_by_index _ _ 0). }
    exists d, (fun _ _ => true). tauto.
  - destruct (on_keys_masks w (fun r => slice_mask (length r) s e)
      (fun m => slice_pred (length (points_at w m)) s e) U) as (d & E & M).
    { intros m Hm. unfold slice_pred. etransitivity; [apply (list_nth_seq _ false)|].
      unfold slice_mask at 2. now rewrite map_length, seq_length. }
    exists d, (fun m => slice_pred (length (points_at w m)) s e).
    split; [exact E|]. split; [exact M|]. intros m i Hm Hi.
    destruct (slice_mask_spec (length (points_at w m)) s e i Hi) as (p & Ep & Hp).
    unfold slice_pred. rewrite Ep. rewrite (nth_indep _ false (p 0%nat)) by (rewrite map_length, seq_length; lia).
    rewrite map_nth, seq_nth by lia. exact Hp.
Qed.

Lemma selectors_spec h w rr ir : usable w -> honoured w rr -> not_dict ir ->
  exists d g, selectors h w rr ir = Ok d /\ masks w d g
  /\ forall m i, In m (w_multipoles w) -> (i < length (points_at w m))%nat ->
     (g m i = true <-> wants rr m (nth i (points_at w m) 0)
                       /\ wants_idx ir (length (points_at w m)) i).
Proof.
  intros U Hh Hn.
  destruct (select_range_spec w rr U Hh) as (d1 & g1 & E1 & M1 & S1).
  destruct (select_idx_spec h w ir U Hn) as (d2 & g2 & E2 & M2 & S2).
  unfold selectors. rewrite E1, E2. cbn [bind].
  pose proof U as (d & _ & N & _).
  exists (map (fun m => (m, map (fun i => g1 m i && g2 m i) (seq 0 (length (points_at w m)))))
              (w_multipoles w)), (fun m i => g1 m i && g2 m i).
  split; [|split].
  - apply on_keys_ok; [exact N|]. intros m Hm. rewrite (M1 m Hm), (M2 m Hm). cbn [bind].
    now rewrite mask_and_map.
  - intros m Hm. now rewrite (lookup_on_keys
      (fun m => map (fun i => g1 m i && g2 m i) (seq 0 (length (points_at w m))))).
  - intros m i Hm Hi. rewrite andb_true_iff, (S1 m i Hm Hi), (S2 m i Hm Hi). reflexivity.
Qed.

(** The indices kept, and the dictionary of samples kept. *)
Definition kept (w : window) (g : list Z -> nat -> bool) (m : list Z) : list nat :=
  filter (g m) (seq 0 (length (points_at w m))).

Definition kept_mat (w : window) (g : list Z -> nat -> bool) (m : list Z) (q : matrix) : matrix :=
  map (fun i => map (fun j => nth j (nth i q []) 0) (kept w g m)) (kept w g m).

Definition kept_Q (w : window) (g : list Z -> nat -> bool) : mdict matrix :=
  map (fun mq => (fst mq, kept_mat w g (fst mq) (snd mq))) (w_Q w).

Lemma kept_Q_ok w d g : usable w -> masks w d g ->
  on_items (fun m q => b <- lookup d m ;; keep2 b q) (w_Q w) = Ok (kept_Q w g).
Proof.
  intros U M. pose proof U as (dr & Er & N & NQ & K & H).
  apply (on_items_ok _ (kept_mat w g)).
  intros m q Hmq.
  assert (Hm : In m (w_multipoles w)).
  { apply K. apply in_map_iff. now exists (m, q). }
  rewrite (M m Hm). cbn [bind]. apply keep2_map.
  destruct (H m Hm) as (r & q' & Hr & Hq & Sq & _).
  rewrite (in_lookup _ _ _ NQ Hmq) in Hq. injection Hq as <-.
  unfold points_at, r_of. rewrite Er, Hr. exact Sq.
Qed.

Lemma kept_Q_holds w g r' : usable w ->
  (forall m, In m (w_multipoles w) ->
     r_of r' m = Ok (map (fun i => nth i (points_at w m) 0) (kept w g m))) ->
  w_Q r' = kept_Q w g -> w_Q_diag r' = diags (kept_Q w g) ->
  forall m, In m (w_multipoles w) -> holds_at w r' m (kept w g m).
Proof.
  intros U Hr EQ ED m Hm r q E1 E2. rewrite (Hr m Hm), EQ, ED.
  replace (points_at w m) with r by (unfold points_at; now rewrite E1).
  assert (L : lookup (kept_Q w g) m
    = Ok (map (fun i => map (fun j => nth j (nth i q []) 0) (kept w g m)) (kept w g m))).
  { unfold kept_Q. rewrite (lookup_items (kept_mat w g)). now rewrite E2. }
  split; [reflexivity|]. split; [exact L|].
  unfold diags. rewrite (lookup_items (fun _ q => diag q)), L. f_equal.
  apply (diag_square (fun i j => nth j (nth i q []) 0)).
Qed.

(* ------------------------------------------------------------------ *)
(* Theorems                                                            *)

(** In-place selection.  For every window, every range honoured and every
    index range other than a dictionary, the window is left with exactly the
    samples asked for, in their order: points, samples and diagonals. *)
Theorem inplace_exact h w rr ir : usable w -> honoured w rr -> not_dict ir ->
  exists w', subselect_inplace h w rr ir = Ok w'
  /\ w_multipoles w' = w_multipoles w
  /\ forall m, In m (w_multipoles w) -> exists I, StronglySorted lt I
     /\ (forall i, In i I <-> (i < length (points_at w m))%nat
           /\ wants rr m (nth i (points_at w m) 0)
           /\ wants_idx ir (length (points_at w m)) i)
     /\ holds_at w w' m I.
Proof.
  intros U Hh Hn. destruct (selectors_spec h w rr ir U Hh Hn) as (d & g & E & M & Sp).
  pose proof U as (dr & Er & N & _).
  unfold subselect_inplace. rewrite E. cbn [bind].
  rewrite (on_keys_ok _ (fun m => map (fun i => nth i (points_at w m) 0) (kept w g m))); [|exact N|].
  2:{ intros m Hm. destruct (usable_points w m U Hm) as [Ep _]. rewrite Ep. cbn [bind].
      rewrite (M m Hm). cbn [bind]. apply keep_map. }
  cbn [bind]. rewrite (kept_Q_ok w d g U M). cbn [bind].
  eexists. split; [reflexivity|]. split; [reflexivity|].
  intros m Hm. exists (kept w g m). split; [apply filter_seq_sorted|]. split.
  - intros i. unfold kept. rewrite filter_In, in_seq. split.
    + intros [Hi Hg]. split; [lia|]. apply Sp; [exact Hm|lia|exact Hg].
    + intros [Hi Hw]. split; [lia|]. now apply Sp.
  - apply kept_Q_holds; [exact U| |reflexivity|reflexivity|exact Hm].
    intros m' Hm'. unfold r_of. cbn [w_r].
    now apply (lookup_on_keys (fun m => map (fun i => nth i (points_at w m) 0) (kept w g m))).
Qed.

(** The default mode raises NameError, unless an index range is given as a
    tuple as well. *)
Theorem new_fails h w rr : usable w -> honoured w rr ->
  subselect_new h w rr INone = Err NameError.
Proof.
  intros U Hh. destruct (selectors_spec h w rr INone U Hh Logic.I) as (d & g & E & _).
  unfold subselect_new. now rewrite E.
Qed.

(** With a tuple of indices the samples are the ones asked for, but the points
    of the new window are those of the last multipole only, and not filed
    under any multipole: asking for them raises IndexError. *)
Theorem new_points_lost h w rr s e w' : usable w -> honoured w rr ->
  subselect_new h w rr (ITuple s e) = Ok w' ->
  exists a, w_r w' = OneArray a
  /\ (forall m, r_of w' m = Err IndexError)
  /\ forall w2, subselect_inplace h w rr (ITuple s e) = Ok w2 ->
     w_Q w' = w_Q w2 /\ w_Q_diag w' = w_Q_diag w2
     /\ exists m, In m (w_multipoles w) /\ r_of w2 m = Ok a.
Proof.
  intros U Hh E.
  destruct (selectors_spec h w rr (ITuple s e) U Hh Logic.I) as (d & g & Es & M & _).
  pose proof U as (dr & Er & N & _).
  unfold subselect_new in E. rewrite Es in E. cbn [bind leaked] in E.
  destruct (rev (w_multipoles w)) as [|m0 rest] eqn:Erev; [discriminate|]. cbn [bind] in E.
  assert (Hm0 : In m0 (w_multipoles w)) by (apply in_rev; rewrite Erev; now left).
  destruct (usable_points w m0 U Hm0) as [Ep _]. rewrite Ep, (M m0 Hm0) in E. cbn [bind] in E.
  rewrite (keep_map _ _ 0), (kept_Q_ok w d g U M) in E. cbn [bind] in E.
  unfold load_from_dict in E. destruct (msorted _) as [ms|] eqn:Ems; [|discriminate].
  injection E as <-. eexists. split; [reflexivity|]. split; [reflexivity|].
  intros w2 E2. unfold subselect_inplace in E2. rewrite Es in E2. cbn [bind] in E2.
  rewrite (on_keys_ok _ (fun m => map (fun i => nth i (points_at w m) 0) (kept w g m))) in E2; [|exact N|].
  2:{ intros m Hm. destruct (usable_points w m U Hm) as [Ep' _]. rewrite Ep'. cbn [bind].
      rewrite (M m Hm). cbn [bind]. apply keep_map. }
  cbn [bind] in E2. rewrite (kept_Q_ok w d g U M) in E2. injection E2 as <-.
  cbn [w_Q w_Q_diag]. split; [reflexivity|]. split; [reflexivity|].
  exists m0. split; [exact Hm0|]. unfold r_of. cbn [w_r].
  now apply (lookup_on_keys (fun m => map (fun i => nth i (points_at w m) 0) (kept w g m))).
Qed.

(** A dictionary of index ranges is never honoured: TypeError where slices
    cannot be keys. *)
Theorem idx_dict_fails w rr k b l : usable w -> honoured w rr -> In k (w_multipoles w) ->
  subselect_inplace false w rr (IDict ((MCopy k, b) :: l)) = Err TypeError.
Proof.
  intros U Hh Hk.
  destruct (select_range_spec w rr U Hh) as (d1 & g1 & E1 & _).
  unfold subselect_inplace, selectors. rewrite E1. cbn [bind].
  cbn [select_idx].
  destruct (on_keys_masks w (map (fun _ => true)) (fun _ _ => true) U) as (d & E & M).
  { intros m Hm. now rewrite (map_by_index _ _ 0). }
  rewrite E. cbn [bind fold_left fst multipole].
  destruct (usable_points w k U Hk) as [-> _]. cbn [bind].
  assert (F : forall l0 : list (mlike * (option Z * option Z)), fold_left
     (fun acc e => d <- acc ;; m <- multipole (fst e) ;; r <- r_of w m ;;
        if false then Ok (store d m (map (fun _ => false) r)) else Err TypeError) l0
     (Err TypeError) = Err (A := mdict (list bool)) TypeError).
  { induction l0 as [|x l0 IH]; [reflexivity|]. cbn [fold_left bind]. exact IH. }
  now rewrite F.
Qed.

(** Where they can be, every sample of the multipole named is dropped,
    whatever range was asked for it. *)
Theorem idx_dict_empties w rr k b w' : usable w -> honoured w rr -> In k (w_multipoles w) ->
  subselect_inplace true w rr (IDict [(MCopy k, b)]) = Ok w' -> r_of w' k = Ok [].
Proof.
  intros U Hh Hk.
  destruct (select_range_spec w rr U Hh) as (d1 & g1 & E1 & M1 & _).
  pose proof U as (dr & Er & N & _).
  unfold subselect_inplace, selectors. rewrite E1. cbn [bind]. cbn [select_idx].
  destruct (on_keys_masks w (map (fun _ => true)) (fun _ _ => true) U) as (d & E & M).
  { intros m Hm. now rewrite (map_by_index _ _ 0). }
  rewrite E. cbn [bind fold_left fst multipole].
  pose proof (usable_points w k U Hk) as [Ep _]. rewrite Ep. cbn [bind].
  pose (g2 := fun m (i : nat) => negb (meq k m)).
  rewrite (on_keys_ok _ (fun m => map (fun i => g1 m i && g2 m i) (seq 0 (length (points_at w m)))));
    [|exact N|].
  2:{ intros m Hm. rewrite (M1 m Hm), lookup_store. cbn [bind]. unfold g2.
      destruct (meq k m) eqn:Ek.
      - apply meq_spec in Ek. subst m. cbn [bind]. rewrite (map_by_index _ (points_at w k) 0).
        now rewrite mask_and_map.
      - rewrite (M m Hm). cbn [bind]. now rewrite mask_and_map. }
  cbn [bind].
  rewrite (on_keys_ok _ (fun m => map (fun i => nth i (points_at w m) 0)
     (kept w (fun m i => g1 m i && g2 m i) m))); [|exact N|].
  2:{ intros m Hm. pose proof (usable_points w m U Hm) as [Epm _]. rewrite Epm. cbn [bind].
      rewrite (lookup_on_keys (fun m => map (fun i => g1 m i && g2 m i)
        (seq 0 (length (points_at w m))))) by assumption. cbn [bind]. apply keep_map. }
  cbn [bind]. destruct (on_items _ _) as [Q'|] eqn:EQ; [|discriminate]. cbn [bind].
  intros Hw. injection Hw as <-. unfold r_of. cbn [w_r].
  rewrite (lookup_on_keys (fun m => map (fun i => nth i (points_at w m) 0)
     (kept w (fun m i => g1 m i && g2 m i) m))) by assumption.
  f_equal. unfold kept. replace (filter _ _) with (@nil nat); [reflexivity|].
  symmetry. clear. induction (seq 0 (length (points_at w k))) as [|i l IH]; [reflexivity|].
  cbn [filter]. unfold g2 at 1. rewrite meq_refl. cbn [negb]. rewrite andb_false_r. exact IH.
Qed.

(** A dictionary of ranges keyed by anything but `Multipole` objects, such as
    the strings and tuples the documentation allows, raises KeyError. *)
Theorem range_key_fails h w k m b l ir : usable w -> multipole k = Ok m ->
  (forall i, k <> MCopy i) ->
  subselect_inplace h w (RDict ((k, b) :: l)) ir = Err KeyError.
Proof.
  intros (d & Er & _) Hm Hk. unfold subselect_inplace, selectors. cbn [select_range map sequence fst].
  rewrite Hm. cbn [bind].
  replace (r_raw w k) with (Err (A := list R) KeyError); [reflexivity|].
  unfold r_raw. rewrite Er. destruct k; try reflexivity. now specialize (Hk index).
Qed.

(** An upper end of zero asks for nothing beyond zero, and gets everything. *)
Theorem zero_upper_ignored h w lo ir :
  subselect_inplace h w (RTuple lo (Some 0)) ir = subselect_inplace h w (RTuple lo None) ir.
Proof.
  unfold subselect_inplace, selectors. cbn [select_range upper_or]. unfold Reqb.
  destruct (Req_EM_T 0 0); [reflexivity|contradiction].
Qed.

(* ------------------------------------------------------------------ *)
(* Resampling                                                          *)

(** The points of [num] log-spaced samples between a and b. *)
Definition log_spaced (a b : R) (num : nat) (l : list R) : Prop :=
  length l = num /\
  forall i, (i < num)%nat ->
    nth i l 0 = a * Rpower (b / a) (INR i / INR (num - 1)).

Lemma Rpower_log10 x : 0 < x -> Rpower 10 (log10 x) = x.
Proof.
  intros H. unfold Rpower, log10. replace (ln x / ln 10 * ln 10) with (ln x).
  - now apply exp_ln.
  - field. apply Rgt_not_eq. rewrite <- ln_1. apply ln_increasing; lra.
Qed.

Lemma logspace_spec a b num l : logspace a b num = Ok l ->
  (2 <= num)%Z -> log_spaced a b (Z.to_nat num) l.
Proof.
  unfold logspace. destruct (num <? 0)%Z eqn:E0; [discriminate|].
  destruct (Rleb a 0) eqn:Ea; [discriminate|]. destruct (Rleb b 0) eqn:Eb; [discriminate|].
  cbn [orb]. unfold linspace. rewrite E0. intros H Hn.
  replace (num =? 1)%Z with false in H by (symmetry; apply Z.eqb_neq; lia).
  cbn [bind] in H. injection H as <-.
  assert (Pa : 0 < a) by (unfold Rleb in Ea; destruct (Rle_dec a 0); [discriminate|lra]).
  assert (Pb : 0 < b) by (unfold Rleb in Eb; destruct (Rle_dec b 0); [discriminate|lra]).
  split; [now rewrite !map_length, seq_length|].
  intros i Hi.
  rewrite (nth_indep _ 0 (Rpower 10 0)) by (rewrite !map_length, seq_length; exact Hi).
  rewrite map_nth.
  set (f := fun k : nat => log10 a + IZR (Z.of_nat k) * ((log10 b - log10 a) / IZR (num - 1))).
  rewrite (nth_indep _ 0 (f 0%nat)) by (rewrite map_length, seq_length; exact Hi).
  rewrite map_nth, seq_nth by exact Hi. cbn [Nat.add]. unfold f.
  rewrite Rpower_plus, Rpower_log10 by exact Pa. f_equal.
  unfold Rpower, log10. f_equal.
  replace (b / a) with (b * / a) by reflexivity.
  rewrite ln_mult by (try apply Rinv_0_lt_compat; assumption).
  rewrite ln_Rinv by exact Pa.
  rewrite INR_IZR_INZ. rewrite (INR_IZR_INZ (Z.to_nat num - 1)).
  replace (Z.of_nat (Z.to_nat num - 1)) with (num - 1)%Z by lia.
  assert (ln 10 <> 0) by (apply Rgt_not_eq; rewrite <- ln_1; apply ln_increasing; lra).
  assert (IZR (num - 1) <> 0) by (apply not_0_IZR; lia).
  field. now split.
Qed.

Lemma logspace_one a b l : logspace a b 1 = Ok l -> l = [a].
Proof.
  unfold logspace. cbn [Z.ltb Z.compare]. destruct (Rleb a 0) eqn:Ea; [discriminate|].
  destruct (Rleb b 0); [discriminate|]. cbn [orb linspace Z.ltb Z.eqb Z.compare Pos.eqb bind map].
  intros H. injection H as <-. f_equal. apply Rpower_log10.
  unfold Rleb in Ea. destruct (Rle_dec a 0); [discriminate|lra].
Qed.

Section WithSpline.
Variable spline : list R -> matrix -> res (R -> R -> R).

Lemma sequence_ok_in {A B} (f : A -> res B) l l' : sequence (map f l) = Ok l' ->
  Forall2 (fun a b => f a = Ok b) l l'.
Proof.
  revert l'; induction l as [|a l IH]; intros l' H; cbn [map sequence] in H.
  - injection H as <-. constructor.
  - destruct (f a) as [b|] eqn:E; [|discriminate]. cbn [bind] in H.
    destruct (sequence (map f l)) as [bs|]; [|discriminate]. injection H as <-.
    constructor; auto.
Qed.

Lemma on_items_lookup {A B} (f : list Z -> A -> res B) d d' k a :
  on_items f d = Ok d' -> lookup d k = Ok a ->
  exists b, f k a = Ok b /\ lookup d' k = Ok b.
Proof.
  intros H. apply sequence_ok_in in H. intros Hk. induction H as [|[k0 a0] [k1 b1] l l' Hf H IH].
  - discriminate.
  - cbn [fst snd] in Hf. destruct (f k0 a0) as [b|] eqn:E; [|discriminate].
    injection Hf as <- <-. cbn [lookup] in Hk |- *. destruct (meq k0 k) eqn:Ek; [|auto].
    apply meq_spec in Ek. subst k0. injection Hk as ->. exists b. now split.
Qed.

Lemma resample_lookup w s size w' m q : resample spline w s size = Ok w' ->
  lookup (w_Q w) m = Ok q ->
  exists r r' q', r_of w m = Ok r /\ resampler spline s r q size = Ok (r', q')
    /\ r_of w' m = Ok r' /\ lookup (w_Q w') m = Ok q'.
Proof.
  intros H Hq. unfold resample in H.
  assert (Hs : exists rQ, on_items (fun m q => r <- r_of w m ;; resampler spline s r q size) (w_Q w)
            = Ok rQ /\ w_r w' = ByPole (map (fun kv => (fst kv, fst (snd kv))) rQ)
              /\ w_Q w' = map (fun kv => (fst kv, snd (snd kv))) rQ).
  { destruct s; [| |discriminate]; destruct (on_items _ _) as [rQ|]; try discriminate;
      cbn [bind] in H; injection H as <-; exists rQ; now repeat split. }
  destruct Hs as (rQ & E & Er & EQ).
  destruct (on_items_lookup _ _ _ _ _ E Hq) as ([r' q'] & Hf & L).
  destruct (r_of w m) as [r|] eqn:Hr; [|discriminate]. cbn [bind] in Hf.
  exists r, r', q'. repeat split; try assumption.
  - unfold r_of. rewrite Er. rewrite (lookup_items (fun _ (v : list R * matrix) => fst v)). now rewrite L.
  - rewrite EQ. rewrite (lookup_items (fun _ (v : list R * matrix) => snd v)). now rewrite L.
Qed.

(** Resampling to a size of two or more: that many log-spaced points from the
    first to the last, and a square table of interpolated values. *)
Theorem resample_exact w size w' m q r : resample spline w LgLin size = Ok w' ->
  lookup (w_Q w) m = Ok q -> r_of w m = Ok r -> (2 <= size_or size (length r))%Z ->
  exists f r', spline r q = Ok f /\ r_of w' m = Ok r'
  /\ log_spaced (nth 0 r 0) (nth (length r - 1) r 0) (Z.to_nat (size_or size (length r))) r'
  /\ lookup (w_Q w') m = Ok (map (fun x => map (fun y => f x y) r') r').
Proof.
  intros H Hq Hr Hs. destruct (resample_lookup _ _ _ _ _ _ H Hq) as (ro & r' & q' & E & Hf & L1 & L2).
  rewrite Hr in E. injection E as <-. unfold resampler in Hf.
  destruct (length q =? 1)%nat; [discriminate|]. destruct r as [|x r0] eqn:Er; [discriminate|].
  rewrite <- Er in *. destruct (logspace _ _ _) as [rs|] eqn:El; [|discriminate]. cbn [bind] in Hf.
  destruct (spline r q) as [f|] eqn:Ef; [|discriminate]. cbn [bind] in Hf.
  injection Hf as <- <-. exists f, rs. repeat split; try assumption; apply (logspace_spec _ _ _ _ El Hs).
Qed.

(** Resampling to size one leaves a single sample, at the first point. *)
Theorem resample_one w w' m q r : resample spline w LgLin (Some 1%Z) = Ok w' ->
  lookup (w_Q w) m = Ok q -> r_of w m = Ok r ->
  exists v, r_of w' m = Ok [nth 0 r 0] /\ lookup (w_Q w') m = Ok [[v]].
Proof.
  intros H Hq Hr. destruct (resample_lookup _ _ _ _ _ _ H Hq) as (ro & r' & q' & E & Hf & L1 & L2).
  rewrite Hr in E. injection E as <-. unfold resampler in Hf.
  destruct (length q =? 1)%nat; [discriminate|]. destruct r as [|x r0] eqn:Er; [discriminate|].
  rewrite <- Er in *. cbn [size_or] in Hf.
  destruct (logspace _ _ _) as [rs|] eqn:El; [|discriminate]. cbn [bind] in Hf.
  apply logspace_one in El. subst rs.
  destruct (spline r q) as [f|] eqn:Ef; [|discriminate]. cbn [bind map] in Hf.
  injection Hf as <- <-. exists (f (at0 r) (at0 r)). now split.
Qed.

(** The spacing that construction asks for. *)
Definition spaced (l : list R) : Prop := check_1d_array false false false true l = Ok l.

Lemma check_points_spaced d : check_points d = Ok tt -> Forall (fun kr => spaced (snd kr)) d.
Proof.
  unfold check_points. destruct (sequence _) as [l|] eqn:E; [|discriminate]. intros _.
  apply sequence_ok_in in E. induction E as [|a b l0 l' H _ IH]; constructor; [|exact IH].
  unfold spaced. rewrite H. unfold check_1d_array in H |- *.
  repeat match type of H with (if ?c then _ else _) = _ => destruct c; [discriminate|] end.
  exact (eq_sym H).
Qed.

(** What construction without resampling holds: for multipoles that are all
    different, the points and the samples of each, the samples scaled by the
    square of the contrast. *)
Theorem init_exact poles alpha w (ms : list (list Z)) :
  init spline poles alpha (ABool false) = Ok w ->
  Forall2 (fun p m => multipole (fst p) = Ok m) poles ms -> NoDup ms ->
  forall p m, In (p, m) (combine poles ms) ->
  exists sym r q q', issym m = Ok sym
  /\ reshape_threept_datatab true (fst (snd p)) (snd (snd p)) (if sym : bool then Triu else Full) = Ok (r, q)
  /\ r_of w m = Ok r /\ lookup (w_Q w) m = Ok q'
  /\ length q' = length q /\ (forall i, length (nth i q' []) = length (nth i q []))
  /\ forall i j, nth j (nth i q' []) 0 = alpha * alpha * nth j (nth i q []) 0.
Proof.
  intros H F N p m Hin. unfold init in H.
  destruct (sequence _) as [l|] eqn:E; [|discriminate]. cbn [bind] in H.
  destruct (msorted _) as [so|]; [|discriminate]. cbn [bind] in H.
  apply sequence_ok_in in E.
  assert (K : map fst l = ms).
  { clear -E F. revert l E; induction F as [|p m ps ms Hm F IH]; intros l E; inversion E as [|? e ? l' He El]; subst.
    - reflexivity.
    - cbn [map]. rewrite Hm in He. cbn [bind] in He. destruct (issym m) as [sy|]; [|discriminate].
      cbn [bind] in He. destruct (reshape_threept_datatab _ _ _ _); [|discriminate]. injection He as <-.
      cbn [fst]. f_equal. now apply IH. }
  rewrite store_all in H by (cbn [app]; now rewrite K). cbn [app] in H.
  assert (L : exists sym r q, issym m = Ok sym
     /\ reshape_threept_datatab true (fst (snd p)) (snd (snd p)) (if sym : bool then Triu else Full) = Ok (r, q)
     /\ lookup l m = Ok (r, map (map (fun x => alpha ^ 2 * x)) q)).
  { clear H. revert l E K N; induction F as [|p0 m0 ps ms Hm F IH]; intros l E K N; [contradiction|].
    inversion E as [|? e ? l' He El]; subst. cbn [map] in K. injection K as Ke Kl. cbn [combine] in Hin.
    rewrite Hm in He. cbn [bind] in He. destruct (issym m0) as [sy|] eqn:Es; [|discriminate].
    cbn [bind] in He. destruct (reshape_threept_datatab _ _ _ _) as [[r q]|] eqn:Er; [|discriminate].
    injection He as <-. cbn [fst snd] in *. inversion N as [|? ? N1 N2]; subst.
    destruct Hin as [Hin|Hin].
    - injection Hin as -> ->. exists sy, r, q. cbn [lookup]. rewrite meq_refl. auto.
    - cbn [lookup]. rewrite meq_neq; [now apply IH|]. intros ->.
      apply N1. now apply in_combine_r in Hin. }
  destruct L as (sym & r & q & L1 & L2 & L3). exists sym, r, q, (map (map (fun x => alpha ^ 2 * x)) q).
  assert (W : w = mk_window (ByPole (map (fun kv => (fst kv, fst (snd kv))) l))
      (map (fun kv => (fst kv, snd (snd kv))) l) (diags (map (fun kv => (fst kv, snd (snd kv))) l)) so).
  { unfold loglin_step in H. destruct (check_points _) as [|e]; [now injection H|].
    destruct e; try discriminate; cbn [truthy] in H; now injection H. }
  subst w. split; [exact L1|]. split; [exact L2|]. unfold r_of. cbn [w_r w_Q]. split; [|split; [|split; [|split]]].
  - pose proof (lookup_items (fun _ (v : list R * matrix) => fst v) l m) as X.
    unfold matrix, mdict in *. rewrite L3 in X. exact X.
  - pose proof (lookup_items (fun _ (v : list R * matrix) => snd v) l m) as X.
    unfold matrix, mdict in *. rewrite L3 in X. exact X.
  - apply map_length.
  - intros i. change (@nil R) with (map (fun x => alpha ^ 2 * x) []) at 1. now rewrite map_nth, map_length.
  - intros i j. change (@nil R) with (map (fun x => alpha ^ 2 * x) []) at 1. rewrite map_nth.
    replace 0 with (alpha ^ 2 * 0) at 1 by lra. rewrite (map_nth (fun x => alpha ^ 2 * x)). lra.
Qed.

(** Construction, with and without resampling.  [make_loglin=False] keeps the
    samples as they are.  The default gives either the same window, when all
    its points are log-spaced, or a window of a single sample for every
    multipole. *)
Theorem default_loses_samples poles alpha w :
  init spline poles alpha (ABool true) = Ok w ->
  exists w0, init spline poles alpha (ABool false) = Ok w0
  /\ ((w = w0 /\ forall m r, r_of w m = Ok r -> spaced r)
      \/ (forall m r q, r_of w0 m = Ok r -> lookup (w_Q w0) m = Ok q ->
            exists v, r_of w m = Ok [nth 0 r 0] /\ lookup (w_Q w) m = Ok [[v]])).
Proof.
  unfold init. destruct (sequence _) as [l|]; [|discriminate]. cbn [bind].
  destruct (msorted _) as [ms|]; [|discriminate]. cbn [bind]. unfold loglin_step.
  set (d := map _ _). set (w0 := mk_window _ _ _ _).
  destruct (check_points d) as [u|e] eqn:E.
  - intros H. injection H as <-. exists w0. split; [reflexivity|]. left. split; [reflexivity|].
    destruct u. apply check_points_spaced in E. intros m r Hr. unfold w0, r_of in Hr. cbn [w_r] in Hr.
    apply lookup_some_in in Hr. rewrite Forall_forall in E. exact (E _ Hr).
  - destruct e; try discriminate; cbn [truthy loglin_size]; intros H; exists w0;
      (split; [reflexivity|]); right; intros m r q Hr Hq; eapply resample_one; eassumption.
Qed.

(** A size given as an integer of two or more is honoured. *)
Theorem sized_resampling poles alpha n w : (2 <= n)%Z ->
  init spline poles alpha (AInt n) = Ok w ->
  exists w0, init spline poles alpha (ABool false) = Ok w0
  /\ ((w = w0 /\ forall m r, r_of w m = Ok r -> spaced r)
      \/ (forall m r q, r_of w0 m = Ok r -> lookup (w_Q w0) m = Ok q ->
            exists r' q', r_of w m = Ok r' /\ lookup (w_Q w) m = Ok q'
            /\ log_spaced (nth 0 r 0) (nth (length r - 1) r 0) (Z.to_nat n) r'
            /\ square (Z.to_nat n) q')).
Proof.
  intros Hn. unfold init. destruct (sequence _) as [l|]; [|discriminate]. cbn [bind].
  destruct (msorted _) as [ms|]; [|discriminate]. cbn [bind]. unfold loglin_step.
  set (d := map _ _). set (w0 := mk_window _ _ _ _).
  destruct (check_points d) as [u|e] eqn:E.
  - intros H. injection H as <-. exists w0. split; [reflexivity|]. left. split; [reflexivity|].
    destruct u. apply check_points_spaced in E. intros m r Hr. unfold w0, r_of in Hr. cbn [w_r] in Hr.
    apply lookup_some_in in Hr. rewrite Forall_forall in E. exact (E _ Hr).
  - assert (Hs : forall k, size_or (Some n) k = n) by (intros k; cbn; destruct n; [lia|reflexivity|reflexivity]).
    assert (R : resample spline w0 LgLin (Some n) = Ok w -> forall m r q, r_of w0 m = Ok r -> lookup (w_Q w0) m = Ok q ->
            exists r' q', r_of w m = Ok r' /\ lookup (w_Q w) m = Ok q'
            /\ log_spaced (nth 0 r 0) (nth (length r - 1) r 0) (Z.to_nat n) r'
            /\ square (Z.to_nat n) q').
    { intros H m r q Hr Hq.
      destruct (resample_exact _ _ _ _ _ _ H Hq Hr) as (f & r' & _ & L1 & Ls & L2); [rewrite Hs; exact Hn|].
      rewrite Hs in Ls. exists r', (map (fun x => map (fun y => f x y) r') r').
      split; [exact L1|]. split; [exact L2|]. split; [exact Ls|]. destruct Ls as [Ls _].
      split; [now rewrite map_length|]. apply Forall_forall. intros row Hrow.
      apply in_map_iff in Hrow as (x & <- & _). now rewrite map_length. }
    assert (T : truthy (AInt n) = true) by (cbn; destruct (Z.eqb_spec n 0); [lia|reflexivity]).
    rewrite T. cbn [truthy].
    destruct e; try discriminate; intros H; exists w0; (split; [reflexivity|]); right; now apply R.
Qed.

End WithSpline.

(* ------------------------------------------------------------------ *)
(* A concrete window                                                   *)

(** A monopole (000) at separations 1, 2, 3, 4 and samples x * y. *)
Definition tab4 : list (list R) :=
  [[1; 1]; [1; 2]; [1; 3]; [1; 4]; [2; 2]; [2; 3]; [2; 4]; [3; 3]; [3; 4]; [4; 4]].
Definition flat4 : list R := [1; 2; 3; 4; 4; 6; 8; 9; 12; 16].

Definition mono : list Z := [0; 0; 0]%Z.
Definition quad : list Z := [2; 0; 2]%Z.

Definition win2 : window :=
  mk_window (ByPole [(mono, [1; 2; 3]); (quad, [1; 2])])
    [(mono, [[1; 2; 3]; [4; 5; 6]; [7; 8; 9]]); (quad, [[1; 2]; [3; 4]])]
    [] [mono; quad].

Lemma win2_usable : usable win2.
Proof.
  eexists. split; [reflexivity|]. split; [|split; [|split]].
  - repeat constructor; cbn; intuition discriminate.
  - repeat constructor; cbn; intuition discriminate.
  - reflexivity.
  - intros m [<-|[<-|[]]]; eexists; eexists; (split; [reflexivity|]); (split; [reflexivity|]);
      split; try (split; [reflexivity|]); repeat constructor; lra.
Qed.

(** Selecting separations of at least 2 in place, of all but the last index. *)
Example inplace_case : exists w', subselect_inplace false win2 (RTuple (Some 2) None) (ITuple None (Some (-1)%Z)) = Ok w'
  /\ r_of w' mono = Ok [2] /\ lookup (w_Q w') mono = Ok [[5]] /\ r_of w' quad = Ok [].
Proof.
  assert (R1 : Rleb 2 1 = false) by (unfold Rleb; destruct (Rle_dec 2 1); [lra|reflexivity]).
  assert (R2 : Rleb 2 2 = true) by (unfold Rleb; destruct (Rle_dec 2 2); [reflexivity|lra]).
  assert (R3 : Rleb 2 3 = true) by (unfold Rleb; destruct (Rle_dec 2 3); [reflexivity|lra]).
  assert (E : lower_or (Some 2) = 2) by (cbn; unfold Reqb; destruct (Req_EM_T 2 0); [lra|reflexivity]).
  unfold subselect_inplace, selectors, select_range. rewrite E.
  eexists. split; [|split; [|split]].
  - cbv -[Rleb IZR]. rewrite R1, R2, R3. reflexivity.
  - reflexivity.
  - reflexivity.
  - reflexivity.
Qed.

(** The same call in the default mode, and without the index range. *)
Example new_case : subselect_new false win2 (RTuple (Some 2) None) INone = Err NameError.
Proof. apply new_fails; [apply win2_usable|]. discriminate. Qed.

(** C46 fails as stated: the default mode returns no window. *)
Theorem subselect_refuted : exists w rr, usable w /\ honoured w rr
  /\ forall h w', subselect_new h w rr INone <> Ok w'.
Proof.
  exists win2, (RTuple (Some 2) None). split; [apply win2_usable|]. split; [discriminate|].
  intros h w'. rewrite new_fails; [discriminate|apply win2_usable|discriminate].
Qed.

Lemma spacing_1234 : check_1d_array false false false true [1; 2; 3; 4] = Err SpacingError.
Proof.
  unfold check_1d_array. cbn [length Nat.ltb Nat.leb andb].
  assert (E : epsign_ok true [1; 2; 3; 4] = true).
  { unfold epsign_ok, at0, at1, atm1, atm2, Rltb. cbn [nth length Nat.sub].
    destruct (Rlt_dec 0 (1 * 2)); [|lra]. destruct (Rlt_dec 0 (4 * 3)); [reflexivity|lra]. }
  rewrite E. cbn [negb].
  assert (H : allclose (map ln (ratios [1; 2; 3; 4])) (rmean (map ln (ratios [1; 2; 3; 4]))) = false).
  { unfold allclose. cbn [ratios map forallb]. 
    replace (rmean [ln (2 / 1); ln (3 / 2); ln (4 / 3)]) with (2 / 3 * ln 2).
    2:{ unfold rmean, rsum. cbn [fold_right length INR]. unfold Rdiv.
        rewrite !ln_mult, !ln_Rinv, ln_1 by lra.
        replace (ln 4) with (2 * ln 2); [lra|]. replace 4 with (2 * 2) by lra. rewrite ln_mult by lra. lra. }
    assert (L : / 2 < ln 2).
    { rewrite <- (ln_exp (/ 2)). apply ln_increasing; [apply exp_pos|].
      assert (E1 : exp (/ 2) * exp (/ 2) = exp 1) by (rewrite <- exp_plus; f_equal; lra).
      pose proof exp_le_3. pose proof (exp_pos (/ 2)). nra. }
    replace (ln (2 / 1)) with (ln 2) by (f_equal; lra).
    unfold Rleb. rewrite !Rabs_pos_eq by lra.
    match goal with |- context[Rle_dec ?a ?b] => destruct (Rle_dec a b) end; [lra|reflexivity]. }
  rewrite H. cbn [negb]. rewrite !orb_true_r. reflexivity.
Qed.

Lemma reshape_4 : exists q, reshape_threept_datatab true tab4 flat4 Triu = Ok ([1; 2; 3; 4], q)
  /\ length q = 4%nat.
Proof.
  unfold reshape_threept_datatab. cbn [negb].
  replace (INR (length tab4)) with 10 by (cbn; lra).
  replace (8 * 10 + 1) with (9 * 9) by lra. rewrite sqrt_square by lra.
  replace ((9 - 1) / 2) with (IZR 4) by lra.
  assert (E : Int_part (IZR 4) = 4%Z).
  { unfold Int_part. rewrite <- (tech_up 4 5); [reflexivity| |]; lra. }
  rewrite E. unfold isclose.
  replace (Rleb _ _) with true.
  2:{ symmetry. apply Rleb_iff. rewrite Rminus_diag_eq by reflexivity. rewrite Rabs_R0.
      pose proof (Rabs_pos (IZR 4)). lra. }
  cbn. eexists. split; reflexivity.
Qed.

(** C46 fails as stated for resampling too: with every argument at its default,
    four samples become one. *)
Theorem resampling_refuted : exists spline poles w0 w q,
  init spline poles 1 (ABool false) = Ok w0 /\ r_of w0 mono = Ok [1; 2; 3; 4]
  /\ init spline poles 1 (ABool true) = Ok w /\ r_of w mono = Ok [1]
  /\ lookup (w_Q w) mono = Ok q /\ length q = 1%nat.
Proof.
  destruct reshape_4 as (q & E & Lq).
  exists (fun _ _ => Ok (fun x y => x * y)), [(MSeq mono, (tab4, flat4))].
  set (q1 := map (map (fun x => 1 ^ 2 * x)) q).
  set (w0 := mk_window (ByPole [(mono, [1; 2; 3; 4])]) [(mono, q1)] [(mono, diag q1)] [mono]).
  assert (I : forall sp a, init sp [(MSeq mono, (tab4, flat4))] 1 a
            = loglin_step sp w0 [(mono, [1; 2; 3; 4])] a).
  { intros sp a. unfold init. cbn [map sequence fst snd multipole bind issym mono].
    cbn [Z.eqb]. rewrite E. reflexivity. }
  assert (Ck : check_points [(mono, [1; 2; 3; 4])] = Err SpacingError).
  { unfold check_points. cbn [map snd sequence]. now rewrite spacing_1234. }
  assert (R : exists w, resample (fun _ _ => Ok (fun x y => x * y)) w0 LgLin (Some 1%Z) = Ok w).
  { unfold resample, on_items. change (w_Q w0) with [(mono, q1)]. cbn [map fst snd sequence].
    assert (Er : r_of w0 mono = Ok [1; 2; 3; 4]) by reflexivity. rewrite Er. cbn [bind].
    unfold resampler. replace (length q1 =? 1)%nat with false
      by (unfold q1; now rewrite map_length, Lq).
    unfold at0, atm1. cbn [nth length Nat.sub size_or]. unfold logspace. cbn [Z.ltb Z.compare].
    assert (E1 : Rleb 1 0 = false) by (unfold Rleb; destruct (Rle_dec 1 0); [lra|reflexivity]).
    assert (E4 : Rleb 4 0 = false) by (unfold Rleb; destruct (Rle_dec 4 0); [lra|reflexivity]).
    rewrite E1, E4. cbn [orb linspace bind Z.ltb Z.eqb Z.compare Pos.eqb map sequence].
    eexists. reflexivity. }
  destruct R as (w & R). exists w0, w.
  destruct (resample_one _ _ _ mono q1 [1; 2; 3; 4] R eq_refl eq_refl) as (v & L1 & L2).
  exists [[v]]. rewrite !I. unfold loglin_step. rewrite Ck. cbn [truthy loglin_size].
  repeat split; assumption || reflexivity.
Qed.

Print Assumptions inplace_exact.
Print Assumptions resampling_refuted.
Print Assumptions new_points_lost.
Print Assumptions idx_dict_empties.
Print Assumptions default_loses_samples.
Print Assumptions sized_resampling.
