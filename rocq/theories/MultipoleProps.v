(* What the comparison of multipoles and their strings guarantee (C42, C43). *)
From Coq Require Import String Ascii.
From Coq Require Import ZArith List Lia Bool Permutation.
From Verif Require Import Base StrProps Dec PyParamModel MultipoleModel.
Import ListNotations.
Local Open Scope Z_scope.

(* ------------------------------------------------------------------ *)
(* Vocabulary                                                          *)

(** The degree in position i. *)
Definition at_ (a : list Z) (i : nat) : Z := nth i a 0.

(** "a is before b" as the class compares them: by the last degree, then by
    the first position, other than the last two, in which they differ. *)
Definition before (a b : list Z) : Prop :=
  let n := List.length a in
  at_ a (n - 1) < at_ b (n - 1)
  \/ at_ a (n - 1) = at_ b (n - 1)
     /\ exists i, (i + 2 < n)%nat /\ at_ a i < at_ b i
                  /\ forall j, (j < i)%nat -> at_ a j = at_ b j.

(** Multipoles no method of the class puts in order. *)
Definition tied (a b : list Z) : Prop :=
  List.length a = List.length b
  /\ forall i, (i < List.length a)%nat -> (i + 2 <> List.length a)%nat -> at_ a i = at_ b i.

Lemma last_index_at a : a <> [] -> last_index a = Ok (at_ a (List.length a - 1)).
Proof.
  intros N. destruct (exists_last N) as [a' [z E]]. subst a.
  unfold last_index, at_. rewrite rev_app_distr. cbn [rev app].
  rewrite app_length. cbn [List.length]. rewrite app_nth2 by lia.
  replace (_ - 1 - _)%nat with 0%nat by lia. reflexivity.
Qed.

Lemma last_index_nil a : last_index a = Err IndexError <-> a = [].
Proof.
  split; [|intros ->; reflexivity].
  intros H. destruct a as [|x a]; [reflexivity|].
  rewrite last_index_at in H by discriminate. discriminate.
Qed.

Lemma zip_lt_spec : forall a b, List.length a = List.length b ->
  (zip_lt a b = true <->
   exists i, (i < List.length a)%nat /\ at_ a i < at_ b i
             /\ forall j, (j < i)%nat -> at_ a j = at_ b j).
Proof.
  induction a as [|x a IH]; intros [|y b] E; try discriminate E; cbn [zip_lt List.length].
  - split; [discriminate|]. intros (i & H & _). cbn in H. lia.
  - destruct (Z.ltb_spec x y) as [L|L].
    + split; [intros _|reflexivity]. exists 0%nat. repeat split; [lia|exact L|lia].
    + destruct (Z.ltb_spec y x) as [G|G].
      * split; [discriminate|]. intros ([|i] & Hi & H & HJ).
        -- unfold at_ in H. cbn in H. lia.
        -- specialize (HJ 0%nat ltac:(lia)). unfold at_ in HJ. cbn in HJ. lia.
      * assert (x = y) by lia. subst y. injection E as E. rewrite (IH b E). split.
        -- intros (i & Hi & H & HJ). exists (S i). repeat split; [lia|exact H|].
           intros [|j] Hj; [reflexivity|]. apply (HJ j). lia.
        -- intros ([|i] & Hi & H & HJ).
           ++ unfold at_ in H. cbn in H. lia.
           ++ exists i. repeat split; [lia|exact H|].
              intros j Hj. apply (HJ (S j)). lia.
Qed.

Lemma zip_gt_lt : forall a b, zip_gt a b = zip_lt b a.
Proof.
  induction a as [|x a IH]; intros [|y b]; try reflexivity.
  cbn [zip_gt zip_lt]. now rewrite IH.
Qed.

Lemma but_two_at a i : (i < List.length a - 2)%nat -> at_ (but_two a) i = at_ a i.
Proof.
  intros H. unfold at_, but_two. remember (List.length a - 2)%nat as n eqn:E.
  transitivity (nth i (firstn n a ++ skipn n a) 0).
  - rewrite app_nth1; [reflexivity|]. rewrite firstn_length. lia.
  - now rewrite firstn_skipn.
Qed.

Lemma but_two_len a : List.length (but_two a) = (List.length a - 2)%nat.
Proof. unfold but_two. rewrite firstn_length. lia. Qed.

(** How two multipoles of one length compare: the answer of `<` is [before],
    `>` is `<` the other way round, and `<=`/`>=` add only equality. *)
Theorem order_exact a b : List.length a = List.length b -> a <> [] ->
  (exists t, mlt a b = Ok t /\ (t = true <-> before a b))
  /\ (exists t, mgt a b = Ok t /\ (t = true <-> before b a))
  /\ (exists t, mle a b = Ok t /\ (t = true <-> before a b \/ a = b))
  /\ (exists t, mge a b = Ok t /\ (t = true <-> before b a \/ a = b)).
Proof.
  intros E N.
  assert (Nb : b <> []) by (intros ->; destruct a; [contradiction|discriminate]).
  assert (MEQ : forall a b, meq a b = true <-> a = b).
  { clear. induction a as [|x a IH]; intros [|y b]; cbn [meq]; try (split; congruence).
    rewrite andb_true_iff, Z.eqb_eq, IH. split; [intros [-> ->]; reflexivity|].
    intros H. injection H as -> ->. tauto. }
  assert (W : forall a b, List.length a = List.length b -> a <> [] -> b <> [] ->
            (if at_ a (List.length a - 1) <? at_ b (List.length b - 1) then true
             else if at_ b (List.length b - 1) <? at_ a (List.length a - 1) then false
             else zip_lt (but_two a) (but_two b)) = true <-> before a b).
  { clear. intros a b E N Nb. unfold before. rewrite <- E.
    destruct (Z.ltb_spec (at_ a (List.length a - 1)) (at_ b (List.length a - 1))) as [L|L];
      [tauto|].
    destruct (Z.ltb_spec (at_ b (List.length a - 1)) (at_ a (List.length a - 1))) as [G|G].
    { split; [discriminate|]. intros [H|[H _]]; lia. }
    rewrite zip_lt_spec by (rewrite !but_two_len; lia).
    rewrite but_two_len. split.
    - intros (i & Hi & H & HJ). right. split; [lia|]. exists i. split; [lia|].
      rewrite !but_two_at in H by lia. split; [exact H|].
      intros j Hj. specialize (HJ j Hj). rewrite !but_two_at in HJ by lia. exact HJ.
    - intros [H|[_ (i & Hi & H & HJ)]]; [lia|]. exists i. split; [lia|].
      rewrite !but_two_at by lia. split; [exact H|].
      intros j Hj. rewrite !but_two_at by lia. apply HJ; exact Hj. }
  assert (LT : forall a b, List.length a = List.length b -> a <> [] -> b <> [] ->
               exists t, mlt a b = Ok t /\ (t = true <-> before a b)).
  { intros a' b' E' N' Nb'. unfold mlt, iscomp. rewrite E', Nat.eqb_refl. cbn [bind].
    rewrite !last_index_at by assumption. cbn [bind].
    eexists. split; [reflexivity|]. apply W; assumption. }
  assert (GT : forall a b, List.length a = List.length b -> a <> [] -> b <> [] ->
               mgt a b = mlt b a).
  { intros a' b' E' N' Nb'. unfold mlt, mgt, iscomp. rewrite E', Nat.eqb_refl. cbn [bind].
    rewrite !last_index_at by assumption. cbn [bind]. now rewrite zip_gt_lt. }
  destruct (LT a b E N Nb) as (t & Ht & St).
  destruct (LT b a (eq_sym E) Nb N) as (u & Hu & Su).
  split; [eauto|]. split; [rewrite GT by assumption; eauto|].
  unfold mle, mge. rewrite GT by assumption. rewrite Ht, Hu. cbn [bind].
  split; (eexists; split; [reflexivity|]); rewrite orb_true_iff, MEQ.
  - rewrite St. tauto.
  - rewrite Su. tauto.
Qed.

(** Multipoles of different lengths are never compared. *)
Theorem order_lengths a b : List.length a <> List.length b ->
  mlt a b = Err ValueError /\ mgt a b = Err ValueError
  /\ mle a b = Err ValueError /\ mge a b = Err ValueError.
Proof.
  intros N. unfold mle, mge, mlt, mgt, iscomp.
  apply Nat.eqb_neq in N. rewrite N. cbn [bind]. repeat split; reflexivity.
Qed.

(* ------------------------------------------------------------------ *)
(* What kind of order it is                                            *)

Lemma before_irrefl a : ~ before a a.
Proof. intros [H|[_ (i & _ & H & _)]]; lia. Qed.

(** `<` is transitive. *)
Theorem order_trans a b c :
  List.length a = List.length b -> List.length b = List.length c ->
  before a b -> before b c -> before a c.
Proof.
  intros E F. unfold before. rewrite <- E.
  intros [H|[H (i & Hi & HL & HJ)]] [G|[G (k & Hk & GL & GJ)]]; try (left; lia).
  right. split; [lia|].
  destruct (Nat.lt_trichotomy i k) as [L|[L|L]].
  - exists i. split; [lia|]. split; [rewrite <- GJ by lia; exact HL|].
    intros j Hj. rewrite HJ by lia. apply GJ. lia.
  - subst k. exists i. split; [lia|]. split; [lia|].
    intros j Hj. rewrite HJ by lia. apply GJ. lia.
  - exists k. split; [lia|]. split; [rewrite HJ by lia; exact GL|].
    intros j Hj. rewrite HJ by lia. apply GJ. lia.
Qed.

Lemma first_diff (a b : list Z) (n : nat) :
  (forall i, (i < n)%nat -> at_ a i = at_ b i)
  \/ exists i, (i < n)%nat /\ at_ a i <> at_ b i
               /\ forall j, (j < i)%nat -> at_ a j = at_ b j.
Proof.
  induction n as [|n [IH|(i & Hi & D & J)]].
  - left. lia.
  - destruct (Z.eq_dec (at_ a n) (at_ b n)) as [E|E].
    + left. intros i Hi. destruct (Nat.eq_dec i n) as [->|]; [exact E|]. apply IH. lia.
    + right. exists n. split; [lia|]. split; [exact E|exact IH].
  - right. exists i. split; [lia|]. split; assumption.
Qed.

(** Of two multipoles of one length exactly one of: a is before b, b is
    before a, or they agree except perhaps in the last position but one. *)
Theorem order_three a b : List.length a = List.length b -> a <> [] ->
  (before a b /\ ~ before b a /\ ~ tied a b)
  \/ (before b a /\ ~ before a b /\ ~ tied a b)
  \/ (tied a b /\ ~ before a b /\ ~ before b a).
Proof.
  intros E N.
  assert (P : (0 < List.length a)%nat) by (destruct a; [contradiction|cbn; lia]).
  set (n := List.length a) in *.
  assert (NT : forall c d, List.length c = n -> List.length d = n ->
               before c d -> ~ before d c /\ ~ tied c d /\ ~ tied d c).
  { intros c d Lc Ld B. split; [|split].
    - intros B'. apply (before_irrefl c). apply order_trans with d; congruence.
    - intros [_ T]. destruct B as [B|[_ (i & Hi & B & _)]].
      + rewrite Lc in *. specialize (T (n - 1)%nat). lia.
      + rewrite Lc in *. specialize (T i). lia.
    - intros [_ T]. destruct B as [B|[_ (i & Hi & B & _)]].
      + rewrite Lc, Ld in *. specialize (T (n - 1)%nat). lia.
      + rewrite Lc, Ld in *. specialize (T i). lia. }
  assert (TS : tied a b -> tied b a).
  { intros [T1 T2]. split; [congruence|]. intros i Hi Hn. symmetry. apply T2; lia. }
  destruct (Z.lt_trichotomy (at_ a (n - 1)) (at_ b (n - 1))) as [L|[L|L]].
  - left. assert (B : before a b) by (left; exact L).
    destruct (NT a b eq_refl (eq_sym E) B) as (? & ? & ?). tauto.
  - destruct (first_diff a b (n - 2)) as [A|(i & Hi & D & J)].
    + right. right. split; [split; [exact E|]|].
      * intros i Hi Hn. fold n in Hi, Hn.
        destruct (Nat.eq_dec i (n - 1)) as [->|]; [exact L|]. apply A. lia.
      * unfold before. rewrite <- E. fold n.
        split; (intros [H|[_ (i & Hi & H & _)]]; [lia|]; specialize (A i); lia).
    + destruct (Z.lt_trichotomy (at_ a i) (at_ b i)) as [M|[M|M]]; [|contradiction|].
      * left. assert (B : before a b).
        { right. fold n. split; [exact L|]. exists i. split; [lia|]. split; assumption. }
        destruct (NT a b eq_refl (eq_sym E) B) as (? & ? & ?). tauto.
      * right. left. assert (B : before b a).
        { right. rewrite <- E. fold n. split; [lia|]. exists i. split; [lia|].
          split; [exact M|]. intros j Hj. symmetry. apply J. exact Hj. }
        destruct (NT b a (eq_sym E) eq_refl B) as (? & ? & ?). tauto.
  - right. left. assert (B : before b a) by (left; rewrite <- E; fold n; exact L).
    destruct (NT b a (eq_sym E) eq_refl B) as (? & ? & ?). tauto.
Qed.

(** A two-point multipole has one degree, and there the order is total. *)
Theorem order_total_2pt a b : List.length a = 1%nat -> List.length b = 1%nat ->
  tied a b -> a = b.
Proof.
  destruct a as [|x [|]], b as [|y [|]]; try discriminate. intros _ _ [_ T].
  specialize (T 0%nat). cbn in T. unfold at_ in T. cbn in T. f_equal. lia.
Qed.

(** A three-point multipole: the degree ell2 plays no part. *)
Theorem tied_3pt x y z x' y' z' : tied [x; y; z] [x'; y'; z'] <-> x = x' /\ z = z'.
Proof.
  split.
  - intros [_ T]. split; [apply (T 0%nat)|apply (T 2%nat)]; cbn; lia.
  - intros [-> ->]. split; [reflexivity|]. cbn [List.length].
    intros [|[|[|i]]] Hi Hn; try reflexivity; lia.
Qed.

(** A three-point multipole with a non-vanishing coupling: degrees that form
    a triangle with even perimeter. *)
Definition coupling (a : list Z) : Prop :=
  exists x y z, a = [x; y; z] /\ 0 <= x /\ 0 <= y /\ 0 <= z
    /\ x <= y + z /\ y <= x + z /\ z <= x + y /\ Z.even (x + y + z) = true.

(** C42 as stated fails: two allowed three-point multipoles for which none of
    `<`, `==` and `>` holds... *)
Theorem order_refuted : exists a b, coupling a /\ coupling b /\ a <> b
  /\ mlt a b = Ok false /\ mgt a b = Ok false /\ mle a b = Ok false /\ mge a b = Ok false.
Proof.
  exists [2; 0; 2], [2; 2; 2].
  split; [exists 2, 0, 2; repeat split; lia|].
  split; [exists 2, 2, 2; repeat split; lia|].
  split; [discriminate|]. repeat split; reflexivity.
Qed.

(** ...so that a list of them is sorted differently from its reverse. *)
Theorem sorted_refuted : exists l l', Permutation l l' /\ Forall coupling l
  /\ NoDup l /\ is_ok (msorted l) /\ is_ok (msorted l') /\ msorted l <> msorted l'.
Proof.
  exists [[2; 0; 2]; [2; 2; 2]; [0; 0; 0]], [[2; 2; 2]; [0; 0; 0]; [2; 0; 2]].
  split. { apply (Permutation_middle [[2;2;2];[0;0;0]] [] [2;0;2]). }
  split.
  { repeat constructor; [exists 2, 0, 2|exists 2, 2, 2|exists 0, 0, 0]; repeat split; lia. }
  split.
  { repeat constructor; cbn; intuition discriminate. }
  split; [eexists; reflexivity|]. split; [eexists; reflexivity|]. discriminate.
Qed.

(* ------------------------------------------------------------------ *)
(* Sorting                                                             *)

Fixpoint agree (a b : list Z) : bool :=
  match a, b with
  | [], [] => true
  | x :: a', y :: b' =>
      (Z.eqb x y || (List.length a =? 2)%nat) && agree a' b'
  | _, _ => false
  end.

(** A decision of [tied], used to pick out the members tied with one. *)
Lemma agree_spec : forall a b, agree a b = true <-> tied a b.
Proof.
  induction a as [|x a IH]; intros [|y b].
  - split; [intros _|reflexivity]. split; [reflexivity|]. cbn. lia.
  - split; [discriminate|]. intros [E _]. discriminate E.
  - split; [discriminate|]. intros [E _]. discriminate E.
  - cbn [agree]. rewrite andb_true_iff, orb_true_iff, Z.eqb_eq, Nat.eqb_eq, IH.
    unfold tied. cbn [List.length]. split.
    + intros [H [E T]]. split; [lia|]. intros [|i] Hi Hn.
      * unfold at_. cbn [nth]. destruct H as [H|H]; [exact H|]. lia.
      * unfold at_. cbn [nth]. apply T; lia.
    + intros [E T]. split.
      * destruct (Nat.eq_dec (S (List.length a)) 2) as [D|D]; [right; exact D|left].
        apply (T 0%nat); lia.
      * split; [lia|]. intros i Hi Hn. apply (T (S i)); lia.
Qed.

(** A list in ascending order: nothing stands in front of something that is
    before it. *)
Definition ascending (l : list (list Z)) : Prop :=
  forall i j, (i < j < List.length l)%nat -> ~ before (nth j l []) (nth i l []).

(** The order among tied members is that of the input. *)
Definition stable (l r : list (list Z)) : Prop :=
  forall x, filter (agree x) r = filter (agree x) l.

Lemma ascending_cons x l :
  ascending (x :: l) <-> (forall y, In y l -> ~ before y x) /\ ascending l.
Proof.
  unfold ascending. cbn [List.length]. split.
  - intros H. split.
    + intros y Hy. destruct (In_nth l y [] Hy) as (k & Hk & <-).
      apply (H 0%nat (S k)). lia.
    + intros i j L. apply (H (S i) (S j)). lia.
  - intros [H1 H2] [|i] [|j] L; try lia; cbn [nth].
    + apply H1. apply nth_In. lia.
    + apply H2. lia.
Qed.

Lemma tied_refl a : tied a a.
Proof. split; [reflexivity|]. reflexivity. Qed.

Lemma tied_sym a b : tied a b -> tied b a.
Proof.
  intros [E T]. split; [congruence|]. intros i Hi Hn. symmetry. apply T; lia.
Qed.

Lemma tied_trans a b c : tied a b -> tied b c -> tied a c.
Proof.
  intros [E T] [F U]. split; [congruence|]. intros i Hi Hn.
  rewrite T by assumption. apply U; lia.
Qed.

Lemma agree_refl a : agree a a = true.
Proof. apply agree_spec, tied_refl. Qed.

(** Lists of multipoles that may be compared with each other. *)
Definition of_length (n : nat) (l : list (list Z)) : Prop :=
  forall a, In a l -> List.length a = n.

(** There is one ascending, stable arrangement of a list at most. *)
Theorem stable_unique n r r' : (0 < n)%nat -> of_length n r ->
  Permutation r r' -> ascending r -> ascending r' -> stable r r' -> r = r'.
Proof.
  intros Hn. revert r'. induction r as [|x r IH]; intros r' L P A A' S.
  - symmetry. now apply Permutation_nil.
  - destruct r' as [|y r'].
    { symmetry in P. apply Permutation_nil in P. discriminate. }
    apply ascending_cons in A. apply ascending_cons in A'.
    destruct A as [A1 A2], A' as [B1 B2].
    assert (Ly : List.length y = n).
    { apply L. apply (Permutation_in _ (Permutation_sym P)). now left. }
    assert (Lx : List.length x = n) by (apply L; now left).
    assert (E : x = y).
    { destruct (list_eq_dec Z.eq_dec x y) as [|D]; [assumption|exfalso].
      assert (Iy : In y r).
      { destruct (Permutation_in y (Permutation_sym P) (or_introl eq_refl)) as [C|C];
          [destruct (D C)|exact C]. }
      assert (Ix : In x r').
      { destruct (Permutation_in x P (or_introl eq_refl)) as [C|C];
          [destruct (D (eq_sym C))|exact C]. }
      assert (T : tied x y).
      { destruct (order_three x y) as [(B & _)|[(B & _)|(T & _)]]; try assumption.
        - congruence.
        - intros ->. cbn in Lx. lia.
        - destruct (B1 x Ix B).
        - destruct (A1 y Iy B). }
      specialize (S x). cbn [filter] in S. rewrite agree_refl in S.
      apply agree_spec in T. rewrite T in S. injection S as S _. congruence. }
    subst y. f_equal. apply IH; try assumption.
    + intros a Ha. apply L. now right.
    + now apply Permutation_cons_inv in P.
    + intros z. specialize (S z). cbn [filter] in S.
      destruct (agree z x); [injection S as S|]; exact S.
Qed.

Lemma mlt_ok n a b : (0 < n)%nat -> List.length a = n -> List.length b = n ->
  exists t, mlt a b = Ok t /\ (t = true <-> before a b).
Proof.
  intros Hn La Lb. apply order_exact; [congruence|]. intros ->. cbn in La. lia.
Qed.

Lemma insert_ok n x l : (0 < n)%nat -> of_length n (x :: l) -> ascending l ->
  exists r, insert x l = Ok r /\ Permutation (x :: l) r /\ ascending r
            /\ stable (x :: l) r.
Proof.
  intros Hn. induction l as [|y l IH]; intros L A.
  - exists [x]. split; [reflexivity|]. split; [reflexivity|]. split; [|intros z; reflexivity].
    intros i j H. cbn in H. lia.
  - cbn [insert].
    assert (Lx : List.length x = n) by (apply L; now left).
    assert (Ly : List.length y = n) by (apply L; right; now left).
    destruct (mlt_ok n y x Hn Ly Lx) as (t & -> & Ht). cbn [bind].
    pose proof A as A0. apply ascending_cons in A0. destruct A0 as [A1 A2].
    destruct t.
    + assert (B : before y x) by now apply Ht.
      destruct IH as (r & -> & P & Ar & Sr); [|exact A2|].
      { intros a [->|Ha]; apply L; [now left|right; now right]. }
      cbn [bind]. exists (y :: r). split; [reflexivity|].
      split; [rewrite perm_swap; now constructor|]. split.
      * apply ascending_cons. split; [|exact Ar].
        intros z Hz. apply (Permutation_in _ (Permutation_sym P)) in Hz.
        destruct Hz as [<-|Hz]; [|now apply A1].
        intros C. apply (before_irrefl y). apply order_trans with x; congruence.
      * intros z. specialize (Sr z). cbn [filter] in Sr |- *.
        destruct (agree z y) eqn:Ey, (agree z x) eqn:Ex; try (now rewrite Sr).
        apply agree_spec in Ey. apply agree_spec in Ex. exfalso.
        assert (T : tied y x) by (apply tied_trans with z; [apply tied_sym|]; assumption).
        destruct (order_three y x) as [(_ & _ & C)|[(_ & C & _)|(_ & C & _)]];
          try tauto; [congruence|]. intros ->. cbn in Ly. lia.
    + assert (B : ~ before y x).
      { intros B. apply Ht in B. discriminate. }
      exists (x :: y :: l). split; [reflexivity|]. split; [reflexivity|].
      split; [|intros z; reflexivity].
      apply ascending_cons. split; [|exact A].
      intros z [<-|Hz]; [exact B|]. intros C.
      assert (Lz : List.length z = n) by (apply L; right; now right).
      destruct (order_three x y) as [(D & _)|[(D & _)|([_ T] & _)]]; try tauto.
      * congruence.
      * intros ->. cbn in Lx. lia.
      * apply (A1 z Hz). apply order_trans with x; congruence.
      * apply (A1 z Hz). clear - C T Lx Ly Lz Hn.
        assert (Q : forall i, (i < n)%nat -> (i + 2 <> n)%nat -> at_ x i = at_ y i).
        { intros i H1 H2. apply T; lia. }
        destruct C as [C|[C (i & Hi & C1 & C2)]]; rewrite Lz in *.
        -- left. rewrite Lz. rewrite <- Q by lia. exact C.
        -- right. rewrite Lz. rewrite <- Q by lia. split; [exact C|].
           exists i. split; [exact Hi|]. rewrite <- Q by lia. split; [exact C1|].
           intros j Hj. rewrite <- Q by lia. apply C2. exact Hj.
Qed.

(** What `sorted` returns: the ascending arrangement that keeps tied members
    in the order they came in. *)
Theorem sorted_exact n l : (0 < n)%nat -> of_length n l ->
  exists r, msorted l = Ok r /\ Permutation l r /\ ascending r /\ stable l r.
Proof.
  intros Hn. induction l as [|x l IH]; intros L.
  - exists []. split; [reflexivity|]. split; [reflexivity|]. split; [|intros z; reflexivity].
    intros i j H. cbn in H. lia.
  - cbn [msorted]. destruct IH as (s & -> & P & A & S).
    { intros a Ha. apply L. now right. }
    cbn [bind]. destruct (insert_ok n x s) as (r & -> & Pr & Ar & Sr); try assumption.
    { intros a [->|Ha]; [apply L; now left|]. apply L. right.
      now apply (Permutation_in _ (Permutation_sym P)). }
    exists r. split; [reflexivity|]. split; [rewrite <- Pr; now constructor|].
    split; [exact Ar|]. intros z. rewrite Sr. cbn [filter]. now rewrite (S z).
Qed.

(** Sorted lists do not depend on the input order exactly as long as no two
    members differ in the last degree but one alone. *)
Theorem sorted_order_free n l l' : (0 < n)%nat -> of_length n l -> Permutation l l' ->
  (forall a b, In a l -> In b l -> tied a b -> a = b) ->
  msorted l = msorted l'.
Proof.
  intros Hn L P U.
  destruct (sorted_exact n l Hn L) as (r & -> & Pr & Ar & _).
  destruct (sorted_exact n l' Hn) as (r' & -> & Pr' & Ar' & _).
  { intros a Ha. apply L. now apply (Permutation_in _ (Permutation_sym P)). }
  f_equal. assert (Q : Permutation r r') by (rewrite <- Pr, <- Pr'; exact P).
  assert (Lr : of_length n r).
  { intros a Ha. apply L. now apply (Permutation_in _ (Permutation_sym Pr)). }
  assert (Ur : forall a b, In a r -> In b r -> tied a b -> a = b).
  { intros a b Ha Hb. apply U; now apply (Permutation_in _ (Permutation_sym Pr)). }
  clear - Hn Q Lr Ur Ar Ar'. revert r' Q Ar'.
  induction r as [|x r IH]; intros r' P A'.
  - symmetry. f_equal. now apply Permutation_nil.
  - destruct r' as [|y r'].
    { symmetry in P. apply Permutation_nil in P. discriminate. }
    apply ascending_cons in Ar. apply ascending_cons in A'.
    destruct Ar as [A1 A2], A' as [B1 B2].
    assert (Iy : In y (x :: r)) by (apply (Permutation_in _ (Permutation_sym P)); now left).
    assert (E : x = y).
    { destruct (list_eq_dec Z.eq_dec x y) as [|D]; [assumption|].
      destruct Iy as [|Iy]; [assumption|].
      assert (Ix : In x r').
      { destruct (Permutation_in x P (or_introl eq_refl)) as [C|C];
          [destruct (D (eq_sym C))|exact C]. }
      assert (Lx : List.length x = n) by (apply Lr; now left).
      assert (Ly : List.length y = n) by (apply Lr; now right).
      apply Ur; [now left|now right|].
      destruct (order_three x y) as [(B & _)|[(B & _)|(T & _)]]; try assumption.
      - congruence.
      - intros ->. cbn in Lx. lia.
      - destruct (B1 x Ix B).
      - destruct (A1 y Iy B). }
    subst y. f_equal. apply IH; try assumption.
    + intros a Ha. apply Lr. now right.
    + intros a b Ha Hb. apply Ur; now right.
    + now apply Permutation_cons_inv in P.
Qed.

(** ...and a pair that differs there alone always comes out as it went in. *)
Theorem sorted_tie n a b : (0 < n)%nat -> List.length a = n -> tied a b ->
  msorted [a; b] = Ok [a; b] /\ msorted [b; a] = Ok [b; a].
Proof.
  intros Hn La T. assert (Lb : List.length b = n) by (destruct T; congruence).
  destruct (order_three a b) as [(_ & _ & C)|[(_ & _ & C)|(_ & B & C)]]; try tauto.
  { congruence. } { intros ->. cbn in La. lia. }
  cbn [msorted bind insert].
  destruct (mlt_ok n a b Hn La Lb) as (t & -> & Ht).
  destruct (mlt_ok n b a Hn Lb La) as (u & -> & Hu). cbn [bind].
  destruct t; [destruct B; now apply Ht|]. destruct u; [destruct C; now apply Hu|].
  split; reflexivity.
Qed.

(** The multipoles of the named formula 'sugiyama+19' (window factors) sorted. *)
Example sorted_case :
  msorted [[0;0;0]; [1;1;0]; [2;0;2]; [1;1;2]; [0;2;2]]
  = Ok [[0;0;0]; [1;1;0]; [0;2;2]; [1;1;2]; [2;0;2]]
  /\ (forall a b, In a [[0;0;0]; [1;1;0]; [2;0;2]; [1;1;2]; [0;2;2]] ->
      In b [[0;0;0]; [1;1;0]; [2;0;2]; [1;1;2]; [0;2;2]] -> tied a b -> a = b).
Proof.
  split; [reflexivity|]. intros a b Ha Hb T. apply agree_spec in T.
  cbn [In] in Ha, Hb.
  repeat match goal with H : _ \/ _ |- _ => destruct H as [<-|H] end; try contradiction;
    try reflexivity; discriminate T.
Qed.

(* ------------------------------------------------------------------ *)
(* Strings (C43)                                                       *)

Local Open Scope string_scope.

Fixpoint no_comma (s : string) : Prop :=
  match s with
  | "" => True
  | String c r => c <> ","%char /\ no_comma r
  end.

Lemma all_digits_no_comma s : all_digits s -> no_comma s.
Proof.
  induction s as [|c s IH]; cbn [all_digits no_comma]; [trivial|].
  intros [H1 H2]. split; [|now apply IH]. intros ->. now apply H1.
Qed.

Lemma to_string_no_comma z : no_comma (to_string z).
Proof.
  unfold to_string. destruct (Z.ltb_spec z 0) as [L|L].
  - split; [discriminate|]. apply all_digits_no_comma, dec_digits. lia.
  - apply all_digits_no_comma, dec_digits. lia.
Qed.

Lemma split_comma_one s : no_comma s -> split_comma s = [s].
Proof.
  induction s as [|c s IH]; cbn [split_comma no_comma]; [reflexivity|].
  intros [H1 H2]. rewrite (proj2 (Ascii.eqb_neq c ",") H1). now rewrite IH.
Qed.

Lemma split_comma_app s t : no_comma s ->
  split_comma (s ++ String "," t) = s :: split_comma t.
Proof.
  induction s as [|c s IH]; cbn [split_comma no_comma append]; [reflexivity|].
  intros [H1 H2]. rewrite (proj2 (Ascii.eqb_neq c ",") H1). now rewrite IH.
Qed.

Lemma split_comma_mstr idx : idx <> [] -> split_comma (mstr idx) = map to_string idx.
Proof.
  induction idx as [|z [|y idx] IH]; intros N; [contradiction| |].
  - apply split_comma_one, to_string_no_comma.
  - change (mstr (z :: y :: idx)) with (to_string z ++ String "," (mstr (y :: idx))).
    rewrite split_comma_app by apply to_string_no_comma.
    rewrite IH by discriminate. reflexivity.
Qed.

Lemma digits_value_first s v : digits_value s = Some v ->
  exists c r, s = String c r /\ digit_value c <> None.
Proof.
  destruct s as [|c r]; [discriminate|]. intros H. exists c, r. split; [reflexivity|].
  cbn in H. destruct (digit_value c); [discriminate|]. discriminate H.
Qed.

Lemma int_piece_to_string z : int_piece (to_string z) = Ok z.
Proof.
  unfold int_piece, int_of_str, to_string. destruct (Z.ltb_spec z 0) as [L|L].
  - cbn [append]. rewrite Ascii.eqb_refl. rewrite dec_value by lia. f_equal. lia.
  - pose proof (dec_value z L) as V. destruct (digits_value_first _ _ V) as (c & r & E & D).
    rewrite E in *.
    destruct (Ascii.eqb_spec c "-") as [->|_]; [now destruct D|].
    destruct (Ascii.eqb_spec c "+") as [->|_]; [now destruct D|].
    now rewrite V.
Qed.

Lemma sequence_ints idx : sequence (map int_piece (map to_string idx)) = Ok idx.
Proof.
  induction idx as [|z idx IH]; [reflexivity|]. cbn [map sequence].
  rewrite int_piece_to_string. cbn [bind]. rewrite IH. reflexivity.
Qed.

(** A multipole with two or more degrees is recovered from its string, be
    they negative or of many digits; so is the empty one. *)
Theorem roundtrip_many idx : List.length idx <> 1%nat ->
  multipole (MStr (mstr idx)) = Ok idx.
Proof.
  intros N. destruct idx as [|x [|y idx]].
  - reflexivity.
  - now destruct N.
  - unfold multipole. rewrite split_comma_mstr by discriminate.
    rewrite <- (sequence_ints (x :: y :: idx)). reflexivity.
Qed.

(** Reading a string without commas: every character must be a digit, and
    each becomes a degree of its own. *)
Fixpoint digit_values (s : string) : option (list Z) :=
  match s with
  | "" => Some []
  | String c r =>
      match digit_value c, digit_values r with
      | Some d, Some l => Some (d :: l)
      | _, _ => None
      end
  end.

Lemma int_piece_char c :
  int_piece (String c "") = match digit_value c with Some d => Ok d | None => Err ValueError end.
Proof.
  unfold int_piece, int_of_str.
  destruct (Ascii.eqb_spec c "-") as [->|_]; [reflexivity|].
  destruct (Ascii.eqb_spec c "+") as [->|_]; [reflexivity|].
  unfold digits_value, digits_from. now destruct (digit_value c).
Qed.

Theorem read_plain s : no_comma s ->
  multipole (MStr s) = match digit_values s with Some l => Ok l | None => Err ValueError end.
Proof.
  intros N. unfold multipole. rewrite split_comma_one by exact N. clear N.
  induction s as [|c s IH]; [reflexivity|].
  cbn [chars map sequence digit_values]. rewrite int_piece_char.
  destruct (digit_value c); [|reflexivity]. cbn [bind]. rewrite IH.
  destruct (digit_values s); reflexivity.
Qed.

Lemma digit_values_app s t a b : digit_values s = Some a -> digit_values t = Some b ->
  digit_values (s ++ t) = Some (a ++ b)%list.
Proof.
  revert a. induction s as [|c s IH]; intros a Hs Ht; cbn [digit_values append] in *.
  - injection Hs as <-. exact Ht.
  - destruct (digit_value c); [|discriminate]. destruct (digit_values s) as [l|]; [|discriminate].
    injection Hs as <-. now rewrite (IH l eq_refl Ht).
Qed.

(** So an abbreviated string of single-digit degrees is read back in full. *)
Theorem roundtrip_abstr idx : (forall z, In z idx -> (0 <= z < 10)%Z) ->
  multipole (MStr (abstr idx)) = Ok idx.
Proof.
  intros H.
  assert (D : digit_values (abstr idx) = Some idx /\ no_comma (abstr idx)).
  { induction idx as [|z idx IH]; [split; reflexivity|]. cbn [abstr].
    destruct IH as [IH1 IH2]; [intros y Hy; apply H; now right|].
    assert (Hz : (0 <= z < 10)%Z) by (apply H; now left).
    rewrite to_string_nonneg, dec_small by lia. cbn [append digit_values no_comma].
    rewrite digit_value_digit by lia. rewrite IH1. split; [reflexivity|].
    split; [|exact IH2]. intros C.
    pose proof (digit_value_digit z Hz) as V. rewrite C in V. discriminate V. }
  rewrite read_plain by apply D. now rewrite (proj1 D).
Qed.

Lemma digit_values_length s l : digit_values s = Some l -> List.length l = String.length s.
Proof.
  revert l. induction s as [|c s IH]; intros l H; cbn [digit_values] in H.
  - injection H as <-. reflexivity.
  - destruct (digit_value c); [|discriminate]. destruct (digit_values s) as [r|]; [|discriminate].
    injection H as <-. cbn. f_equal. now apply IH.
Qed.

Lemma digit_values_all s : all_digits s -> exists l, digit_values s = Some l.
Proof.
  induction s as [|c s IH]; cbn [all_digits digit_values]; [eauto|].
  intros [H1 H2]. destruct (IH H2) as [l ->]. destruct (digit_value c); [eauto|now destruct H1].
Qed.

(** The number whose decimal digits are l. *)
Definition number (l : list Z) : Z := fold_left (fun acc d => 10 * acc + d)%Z l 0%Z.

Lemma digits_from_fold s : forall acc v l, digits_from acc s = Some v ->
  digit_values s = Some l -> fold_left (fun acc d => 10 * acc + d)%Z l acc = v.
Proof.
  induction s as [|c s IH]; intros acc v l Hv Hl; cbn [digits_from digit_values] in *.
  - injection Hl as <-. now injection Hv.
  - destruct (digit_value c); [|discriminate]. destruct (digit_values s) as [r|] eqn:E; [|discriminate].
    injection Hl as <-. cbn [fold_left]. now apply IH.
Qed.

Lemma digit_values_range s : forall l, digit_values s = Some l -> Forall (fun d => (0 <= d < 10)%Z) l.
Proof.
  induction s as [|c s IH]; intros l H; cbn [digit_values] in H.
  - injection H as <-. constructor.
  - destruct (digit_value c) as [d|] eqn:D; [|discriminate].
    destruct (digit_values s) as [r|]; [|discriminate]. injection H as <-.
    constructor; [|now apply IH]. unfold digit_value in D.
    destruct ((48 <=? Z.of_nat (nat_of_ascii c)) && (Z.of_nat (nat_of_ascii c) <=? 57))%Z eqn:B;
      [|discriminate]. injection D as <-.
    apply andb_true_iff in B. destruct B as [B1 B2].
    apply Z.leb_le in B1. apply Z.leb_le in B2. lia.
Qed.

(** A single degree read back from its string: the same degree if it has one
    digit, the digits one by one if it has more, and ValueError if it is
    negative. *)
Theorem roundtrip_one z :
  ((0 <= z < 10)%Z -> multipole (MStr (mstr [z])) = Ok [z])
  /\ ((10 <= z)%Z -> exists l, multipole (MStr (mstr [z])) = Ok l /\ number l = z
        /\ Forall (fun d => (0 <= d < 10)%Z) l /\ (2 <= List.length l)%nat)
  /\ ((z < 0)%Z -> multipole (MStr (mstr [z])) = Err ValueError).
Proof.
  cbn [mstr]. split; [|split]; intros H.
  - pose proof (roundtrip_abstr [z]) as R. cbn [abstr] in R.
    rewrite sapp_nil_r in R. apply R. intros y [<-|[]]. exact H.
  - rewrite read_plain by apply to_string_no_comma. rewrite to_string_nonneg by lia.
    destruct (digit_values_all (dec z)) as [l E]; [apply dec_digits; lia|].
    rewrite E. exists l. split; [reflexivity|].
    pose proof (dec_value z ltac:(lia)) as V.
    assert (N : number l = z).
    { unfold digits_value in V. destruct (dec z) as [|c s] eqn:Dz; [discriminate|].
      unfold number. apply (digits_from_fold (String c s)); assumption. }
    pose proof (digit_values_range _ _ E) as F. split; [exact N|]. split; [exact F|].
    destruct l as [|d [|e l]].
    + unfold number in N. cbn in N. lia.
    + unfold number in N. cbn in N. inversion F; subst. lia.
    + cbn. lia.
  - rewrite read_plain by apply to_string_no_comma. unfold to_string.
    destruct (Z.ltb_spec z 0); [|lia]. reflexivity.
Qed.

(** C43 as stated fails for a two-point multipole of degree ten or more. *)
Theorem roundtrip_refuted : exists z, (0 <= z)%Z
  /\ multipole (MInt z) = Ok [z] /\ multipole (MStr (mstr [z])) = Ok [1; 0]%Z
  /\ [z] <> [1; 0]%Z.
Proof.
  exists 10%Z. split; [lia|]. split; [reflexivity|]. split; [reflexivity|discriminate].
Qed.

(** Different multipoles print differently. *)
Theorem mstr_inj a b : mstr a = mstr b -> a = b.
Proof.
  intros E. destruct a as [|x a], b as [|y b]; [reflexivity| | |].
  - exfalso. assert (L : List.length (split_comma (mstr (y :: b))) = List.length (y :: b))
      by (rewrite split_comma_mstr by discriminate; apply map_length).
    rewrite <- E in L. cbn in L. destruct b; [|discriminate L].
    cbn [mstr] in E. unfold to_string in E. destruct (y <? 0)%Z; [discriminate|].
    now apply (dec_nonempty y).
  - exfalso. assert (L : List.length (split_comma (mstr (x :: a))) = List.length (x :: a))
      by (rewrite split_comma_mstr by discriminate; apply map_length).
    rewrite E in L. cbn in L. destruct a; [|discriminate L].
    cbn [mstr] in E. unfold to_string in E. destruct (x <? 0)%Z; [discriminate|].
    now apply (dec_nonempty x).
  - assert (M : map to_string (x :: a) = map to_string (y :: b))
      by (rewrite <- !split_comma_mstr by discriminate; now rewrite E).
    revert M. generalize (x :: a) (y :: b). clear.
    induction l as [|x a IH]; intros [|y b] M; try discriminate; [reflexivity|].
    cbn in M. injection M as M1 M2. f_equal; [now apply to_string_inj|now apply IH].
Qed.

(** The abbreviated form, which column names and files carry, is not. *)
Theorem abstr_refuted : exists a b, List.length a = List.length b /\ a <> b
  /\ Forall (fun z => (0 <= z)%Z) a /\ Forall (fun z => (0 <= z)%Z) b /\ abstr a = abstr b.
Proof.
  exists [1; 10; 9]%Z, [11; 0; 9]%Z. split; [reflexivity|]. split; [discriminate|].
  split; [repeat constructor; lia|]. split; [repeat constructor; lia|]. reflexivity.
Qed.

Example strings_case :
  multipole (MStr "202") = Ok [2; 0; 2]%Z
  /\ multipole (MStr "10,-1,3") = Ok [10; -1; 3]%Z
  /\ mstr [10; -1; 3]%Z = "10,-1,3"
  /\ multipole (MStr "2,0,") = Err ValueError /\ multipole (MStr "2a0") = Err ValueError.
Proof. repeat split; reflexivity. Qed.

Print Assumptions order_exact.
Print Assumptions order_three.
Print Assumptions stable_unique.
Print Assumptions sorted_exact.
Print Assumptions sorted_order_free.
Print Assumptions roundtrip_many.
Print Assumptions roundtrip_one.
Print Assumptions roundtrip_abstr.
Print Assumptions mstr_inj.
