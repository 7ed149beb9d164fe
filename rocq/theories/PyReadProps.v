(* Catalogues read from files in Python (C127). *)
From Coq Require Import Reals ZArith String Ascii List Bool Lia Lra.
From Verif Require Import Base ArrayModel MeshModel CatModel PyCatModel PyReadModel.
Import ListNotations.
Local Open Scope R_scope.

(* ------------------------------------------------------------------ *)
(* Vocabulary                                                          *)

(** The names of a table or dictionary. *)
Definition keys {A} (t : list (string * A)) : list string := map fst t.

(** Column [n] of the file is [l]. *)
Definition file_column (t : table) (n : string) (l : list R) : Prop := In (n, l) t.

(** A file: names told apart, columns of [r] rows. *)
Definition file (t : table) (r : nat) : Prop :=
  NoDup (keys t) /\ t <> [] /\ forall n l, file_column t n l -> length l = r.

(** A mapping, from the names wanted to names in the file: a dictionary, each
    field of the file asked for once. *)
Definition request (m : list (string * string)) (t : table) : Prop :=
  NoDup (map fst m) /\ NoDup (map snd m) /\ forall s, In s (map snd m) -> In s (keys t).

(** No name wanted is taken when its turn comes: it is not in the file, or was
    moved away before. *)
Definition names_free (m : list (string * string)) (t : table) : Prop :=
  forall pre n s post, m = pre ++ (n, s) :: post -> n = s \/ ~ In n (keys t) \/ In n (map snd pre).

(** What is asked for under a name [n]: the field the mapping says, or else the
    field called [n] unless it was mapped to another name. *)
Definition wanted (m : list (string * string)) (t : table) (n : string) (l : list R) : Prop :=
  (exists s, In (n, s) m /\ file_column t s l) \/ (~ In n (map fst m) /\ ~ In n (map snd m) /\ file_column t n l).

(** As [wanted], with fields staying under their own names as well. *)
Definition wanted_kept (m : list (string * string)) (t : table) (n : string) (l : list R) : Prop :=
  (exists s, In (n, s) m /\ file_column t s l) \/ (~ In n (map fst m) /\ file_column t n l).

(** The mandatory or defaulted columns of a catalogue against a relation that
    says what each name gives. *)
Definition or_default (w : string -> list R -> Prop) (n : string) (r : nat) (d : R) (l : list R) : Prop :=
  w n l \/ ((forall l', ~ w n l') /\ l = repeat d r).

(** [warned] names exactly the columns that took defaults, in order. *)
Definition defaults_named (w : string -> list R -> Prop) (ws : list string) : Prop :=
  ws = filter (fun n => existsb (String.eqb n) ws) ["nz"; "ws"; "wc"]%string /\
  forall n, In n ["nz"; "ws"; "wc"]%string -> (In n ws <-> forall l, ~ w n l).

(** The catalogue made from the columns that [w] gives. *)
Definition made_from (w : string -> list R -> Prop) (r : nat) (c : pycat) : Prop :=
  w "x"%string (col_x c) /\ w "y"%string (col_y c) /\ w "z"%string (col_z c) /\
  or_default w "nz" r 0 (col_nz c) /\ or_default w "ws" r 1 (col_ws c) /\ or_default w "wc" r 1 (col_wc c) /\
  py_new (col_x c) (Array (col_y c)) (Array (col_z c)) (Some (Array (col_nz c))) (Array (col_ws c)) (Array (col_wc c)) = Ok c.

(* ------------------------------------------------------------------ *)
(* Columns                                                             *)

Lemma look_in {A} n (t : list (string * A)) v : NoDup (keys t) -> look n t = Some v <-> In (n, v) t.
Proof.
  induction t as [|[k w] t IH]; intros ND; cbn; [split; [discriminate|tauto]|]. inversion ND as [|? ? NI ND']; subst.
  destruct (String.eqb_spec n k) as [->|X].
  - split; [intros [= ->]; now left|]. intros [[= ->]|H]; [reflexivity|]. elim NI. apply (in_map fst) in H. exact H.
  - rewrite IH by exact ND'. split; [now right|]. intros [[= ? ?]|H]; [congruence|exact H].
Qed.

Lemma look_none {A} n (t : list (string * A)) : look n t = None <-> ~ In n (keys t).
Proof.
  induction t as [|[k w] t IH]; cbn; [tauto|]. destruct (String.eqb_spec n k) as [->|X].
  - split; [discriminate|]. intros H. elim H. now left.
  - rewrite IH. intuition congruence.
Qed.

Lemma has_in {A} n (t : list (string * A)) : has n t = true <-> In n (keys t).
Proof.
  unfold has. destruct (look n t) eqn:E.
  - split; [intros _|reflexivity]. destruct (in_dec string_dec n (keys t)) as [H|H]; [exact H|]. apply look_none in H. congruence.
  - apply look_none in E. split; [discriminate|tauto].
Qed.

(** Renaming is possible exactly onto free names. *)
Lemma rename_done (t : table) old new t' : NoDup (keys t) -> rename_column t old new = Done t' <->
  In old (keys t) /\ (new = old \/ ~ In new (keys t)) /\
  t' = map (fun kv => if String.eqb (fst kv) old then (new, snd kv) else kv) t.
Proof.
  intros ND. unfold rename_column. destruct (has old t) eqn:HO; cbn [negb].
  - apply has_in in HO. destruct (String.eqb_spec old new) as [->|X].
    + assert (map (fun kv => if String.eqb (fst kv) new then (new, snd kv) else kv) t = t) as ->.
      { rewrite <- (map_id t) at 2. apply map_ext. intros [k v]. cbn. destruct (String.eqb_spec k new); congruence. }
      split; [intros [= ->]; auto|]. now intros (_ & _ & ->).
    + destruct (has new t) eqn:HN.
      * apply has_in in HN. split; [discriminate|]. intros (_ & [H|H] & _); congruence.
      * assert (~ In new (keys t)) by (rewrite <- has_in; congruence). split; [intros [= <-]; auto|]. now intros (_ & _ & ->).
  - split; [discriminate|]. intros (H & _). apply has_in in H. congruence.
Qed.

Lemma renamed_in (t : table) old new n l : In (n, l) (map (fun kv => if String.eqb (fst kv) old then (new, snd kv) else kv) t) <->
  (n = new /\ In (old, l) t) \/ (n <> old /\ In (n, l) t).
Proof.
  rewrite in_map_iff. split.
  - intros ([k v] & E & H). cbn in E. destruct (String.eqb_spec k old) as [->|X]; injection E as <- <-; [now left|now right].
  - intros [[-> H]|[X H]].
    + exists (old, l). cbn. rewrite String.eqb_refl. auto.
    + exists (n, l). cbn. destruct (String.eqb_spec n old); [contradiction|auto].
Qed.

Lemma keys_in {A} n (t : list (string * A)) : In n (keys t) <-> exists l, In (n, l) t.
Proof.
  unfold keys. rewrite in_map_iff. split; [intros ([k v] & <- & H); eauto|]. intros [l H]. now exists (n, l).
Qed.

Lemma renamed_nodup (t : table) old new : NoDup (keys t) -> (new = old \/ ~ In new (keys t)) ->
  NoDup (keys (map (fun kv => if String.eqb (fst kv) old then (new, snd kv) else kv) t)).
Proof.
  intros ND F. unfold keys in *. rewrite map_map. induction t as [|[k v] t IH]; cbn in *; [constructor|].
  inversion ND as [|? ? NI ND']; subst.
  assert (IN : forall x, In x (map (fun kv => fst (if String.eqb (fst kv) old then (new, snd kv) else kv)) t) -> x = new /\ In old (map fst t) \/ x <> old /\ In x (map fst t)).
  { intros x Hx. apply in_map_iff in Hx as ([k' v'] & E & H'). cbn in E. destruct (String.eqb_spec k' old) as [->|]; cbn in E; subst x.
    - left. split; [reflexivity|]. apply (in_map fst) in H'. exact H'.
    - right. split; [assumption|]. apply (in_map fst) in H'. exact H'. }
  constructor; [|apply IH; [exact ND'|tauto]]. intros H. apply IN in H. destruct (String.eqb_spec k old) as [->|X]; cbn in H.
  - destruct H as [[_ H]|[H1 H2]]; [contradiction|]. destruct F as [->|F]; [contradiction|]. apply F. now right.
  - destruct H as [[-> H]|[_ H]]; [|contradiction]. destruct F as [->|F]; [contradiction|]. apply F. now left.
Qed.

(** Renaming by a mapping each of whose sources is still there. *)
Lemma rename_all_wanted m : forall t : table, NoDup (keys t) -> request m t ->
  (names_free m t <-> exists t', rename_all t m = Done t') /\
  forall t', rename_all t m = Done t' -> NoDup (keys t') /\ forall n l, In (n, l) t' <-> wanted m t n l.
Proof.
  induction m as [|[k s] m IH]; intros t ND (NK & NS & IS).
  - split; [split; [intros _; now exists t|intros _ [|] n s post; discriminate]|]. cbn. intros t' [= <-]. split; [exact ND|].
    intros n l. unfold wanted, file_column. cbn. split; [right; tauto|]. intros [[s [[] _]]|H]; tauto.
  - cbn [rename_all]. cbn [map fst snd] in *. inversion NK as [|? ? NIK NK']; subst. inversion NS as [|? ? NIS NS']; subst.
    set (t1 := map (fun kv => if String.eqb (fst kv) s then (k, snd kv) else kv) t).
    assert (ST : In s (keys t)) by (apply IS; now left).
    assert (C : (k = s \/ ~ In k (keys t)) \/ (k <> s /\ In k (keys t))).
    { destruct (in_dec string_dec k (keys t)), (string_dec k s); tauto. }
    destruct C as [FREE|[KS KT]].
    2:{ assert (NO : forall t', next (rename_column t s k) (fun t => rename_all t m) <> Done t').
        { intros t' H. destruct (rename_column t s k) as [t2|] eqn:E; [|discriminate].
          apply rename_done in E as (_ & [?|?] & _); [congruence|contradiction|exact ND]. }
        split; [split; [intros F; destruct (F [] k s m eq_refl) as [H|[H|[]]]; contradiction|intros [t' H]; elim (NO t' H)]|].
        intros t' H. elim (NO t' H). }
    assert (E : rename_column t s k = Done t1) by (apply rename_done; auto). rewrite E. cbn [next].
    assert (ND1 : NoDup (keys t1)) by (now apply renamed_nodup).
    assert (K1 : forall n, In n (keys t1) <-> n = k \/ (n <> s /\ In n (keys t))).
    { intros n. rewrite !keys_in. split.
      - intros [l H]. apply renamed_in in H as [[-> H]|[H1 H2]]; [now left|right; split; [exact H1|now exists l]].
      - intros [->|[H1 [l H2]]]; [apply keys_in in ST as [l H]; exists l; apply renamed_in; now left|exists l; apply renamed_in; now right]. }
    assert (R1 : request m t1).
    { split; [exact NK'|]. split; [exact NS'|]. intros u U. apply K1. right. split; [intros ->; contradiction|apply IS; now right]. }
    assert (KN : ~ In k (map snd m)).
    { intros Q. destruct FREE as [->|FREE]; [contradiction|]. apply FREE, IS. now right. }
    destruct (IH t1 ND1 R1) as [IF IW]. split.
    + rewrite <- IF. split.
      * intros F pre n u post ->. rewrite map_app in NIK. destruct (string_dec n k) as [->|NK1].
        { elim NIK. apply in_or_app. right. now left. }
        destruct (F ((k, s) :: pre) n u post eq_refl) as [H|[H|[H|H]]].
        -- now left.
        -- right. left. intros Q. apply K1 in Q as [Q|[_ Q]]; contradiction.
        -- cbn in H. subst n. right. left. intros Q. apply K1 in Q as [Q|[Q _]]; congruence.
        -- right. right. exact H.
      * intros F pre n u post X. destruct pre as [|[k' s'] pre]; cbn [app] in X; injection X as <- <- X.
        -- subst. tauto.
        -- subst m. destruct (F pre n u post eq_refl) as [H|[H|H]]; [now left| |right; right; now right].
           right. destruct (in_dec string_dec n (keys t)) as [NT|NT]; [right|now left].
           destruct (string_dec n s) as [->|NS1]; [now left|]. elim H. apply K1. right. now split.
    + intros t' H. destruct (IW t' H) as [W1 W2]. split; [exact W1|].
      intros n l. rewrite W2. unfold wanted, file_column. cbn [map fst snd]. split.
      * intros [[u [U1 U2]]|(U1 & U2 & U3)].
        -- assert (US : In u (map snd m)) by (apply (in_map snd) in U1; exact U1).
           left. exists u. split; [now right|]. apply renamed_in in U2 as [[-> U2]|[_ U2]]; [contradiction|exact U2].
        -- apply renamed_in in U3 as [[-> U3]|[U4 U5]]; [left; exists s; split; [now left|exact U3]|].
           destruct (string_dec n k) as [->|NK1].
           { left. exists s. split; [now left|]. destruct FREE as [->|FREE]; [contradiction|]. elim FREE. apply keys_in. now exists l. }
           right. split; [intros [Q|Q]; congruence|]. split; [intros [Q|Q]; congruence|exact U5].
      * intros [[u [[U1|U1] U2]]|(U1 & U2 & U3)].
        -- injection U1 as <- <-. right. split; [exact NIK|]. split; [exact KN|]. apply renamed_in. left. now split.
        -- left. exists u. split; [exact U1|]. apply renamed_in. right. split; [|exact U2]. intros ->. apply NIS. apply (in_map snd) in U1. exact U1.
        -- right. split; [intros Q; apply U1; now right|]. split; [intros Q; apply U2; now right|]. apply renamed_in. right.
           split; [intros ->; apply U2; now left|exact U3].
Qed.

(* ------------------------------------------------------------------ *)
(* Columns set on an nbodykit catalogue                                *)

(** Every source is read before its name is written. *)
Definition read_first (m : list (string * string)) : Prop :=
  forall pre n s post, m = pre ++ (n, s) :: post -> ~ In s (map fst pre) \/ In (s, s) pre.

Definition nbk_columns (c : nbk) (n : string) (l : list R) : Prop := of_nbk c n = Some l.

Lemma nbk_map_kept m : forall t o, NoDup (keys t) -> NoDup (map fst m) -> (forall s, In s (map snd m) -> In s (keys t)) ->
  (forall n s, In (n, s) m -> ~ In n (keys o) /\ (forall l, of_nbk (Nbk t o) s = Some l <-> In (s, l) t)) ->
  read_first m -> exists c, nbk_map (Nbk t o) m = Done c /\
  forall n l, of_nbk c n = Some l <-> (exists s, In (n, s) m /\ In (s, l) t) \/ (~ In n (map fst m) /\ of_nbk (Nbk t o) n = Some l).
Proof.
  induction m as [|[k s] m IH]; intros t o ND NK IS FR RF.
  - exists (Nbk t o). split; [reflexivity|]. intros n l. cbn. split; [right; tauto|]. intros [[? [[] _]]|[_ H]]; exact H.
  - cbn [map fst snd] in *. inversion NK as [|? ? NIK NK']; subst. assert (ST : In s (keys t)) by (apply IS; now left).
    destruct (proj1 (keys_in s t) ST) as [v V]. destruct (FR k s (or_introl eq_refl)) as [KO SV].
    assert (G : nbk_get (Nbk t o) s = Done v).
    { apply SV in V. unfold of_nbk in V. destruct (nbk_get (Nbk t o) s); congruence. }
    cbn [nbk_map]. rewrite G. cbn [next]. unfold nbk_del, nbk_set. cbn [hard overrides]. apply has_in in ST as ST'. rewrite ST'.
    assert (NEW : forall n, of_nbk (Nbk t ((k, v) :: o)) n = if String.eqb n k then Some v else of_nbk (Nbk t o) n).
    { intros n. unfold of_nbk, nbk_get. cbn. destruct (String.eqb n k); reflexivity. }
    destruct (IH t ((k, v) :: o) ND NK') as (c & C1 & C2).
    + intros u U. apply IS. now right.
    + intros n u U. assert (NK1 : n <> k). { intros ->. apply NIK. apply (in_map fst) in U. exact U. }
      split.
      * intros [Q|Q]; [cbn in Q; congruence|]. destruct (FR n u (or_intror U)) as [H _]. contradiction.
      * intros l. rewrite NEW. destruct (FR n u (or_intror U)) as [_ H]. destruct (String.eqb_spec u k) as [->|X]; [|apply H].
        apply in_split in U as (p1 & p2 & ->). destruct (RF ((k, s) :: p1) n k p2 eq_refl) as [Q|Q]; [elim Q; now left|].
        destruct Q as [Q|Q].
        -- injection Q as ->. split; [intros [= <-]; exact V|]. intros Hl. f_equal. apply look_in in V; [|exact ND]. apply look_in in Hl; [|exact ND]. congruence.
        -- elim NIK. rewrite map_app. apply in_or_app. left. apply (in_map fst) in Q. exact Q.
    + intros pre n u post ->. destruct (RF ((k, s) :: pre) n u post eq_refl) as [Q|[Q|Q]].
      * left. intros H. apply Q. now right.
      * injection Q as -> ->. left. intros H. apply NIK. rewrite map_app. apply in_or_app. now left.
      * now right.
    + exists c. split; [exact C1|]. intros n l. rewrite C2, NEW. split.
      * intros [[u [U1 U2]]|[U1 U2]]; [left; exists u; split; [now right|exact U2]|].
        destruct (String.eqb_spec n k) as [->|X]; [injection U2 as <-; left; exists s; split; [now left|exact V]|].
        right. split; [intros [Q|Q]; congruence|exact U2].
      * intros [[u [[U1|U1] U2]]|[U1 U2]].
        -- injection U1 as <- <-. right. split; [exact NIK|]. rewrite String.eqb_refl. f_equal.
           apply look_in in V; [|exact ND]. apply look_in in U2; [|exact ND]. congruence.
        -- left. now exists u.
        -- right. split; [intros Q; apply U1; now right|]. destruct (String.eqb_spec n k) as [->|X]; [elim U1; now left|exact U2].
Qed.

Lemma nbk_map_wanted m t : NoDup (keys t) -> NoDup (map fst m) -> (forall s, In s (map snd m) -> In s (keys t)) -> read_first m ->
  exists c, nbk_map (Nbk t []) m = Done c /\ forall n l, of_nbk c n = Some l <-> wanted_kept m t n l.
Proof.
  intros ND NK IS RF.
  assert (OT : forall n l, of_nbk (Nbk t []) n = Some l <-> In (n, l) t).
  { intros n l. rewrite <- (look_in n t l ND). unfold of_nbk, nbk_get. cbn. destruct (look n t); split; congruence. }
  destruct (nbk_map_kept m t [] ND NK IS) as (c & C1 & C2); [|exact RF|].
  - intros n s _. split; [intros []|apply OT].
  - exists c. split; [exact C1|]. intros n l. rewrite C2, OT. reflexivity.
Qed.

(* ------------------------------------------------------------------ *)
(* From columns to the catalogue                                       *)

Definition rectangular (w : string -> list R -> Prop) (r : nat) : Prop := forall n l, w n l -> length l = r.

Lemma finish_made (c : columns) w r : (forall n l, c n = Some l <-> w n l) -> rectangular w r ->
  (forall k, fst (finish r c) = Done k -> made_from w r k /\ defaults_named w (snd (finish r c))) /\
  ((exists x y z, w "x"%string x /\ w "y"%string y /\ w "z"%string z) -> (1 <= r)%nat -> exists k, fst (finish r c) = Done k) /\
  (forall n, In n ["x"; "y"; "z"]%string -> (forall l, ~ w n l) -> exists a, fst (finish r c) = Failed (MissingValue a) /\ forall l, ~ w a l).
Proof.
  intros CW RE.
  assert (NO : forall n, c n = None <-> forall l, ~ w n l).
  { intros n. split; [intros E l H; apply CW in H; congruence|]. intros H. destruct (c n) as [l|] eqn:E; [|reflexivity]. apply CW in E. elim (H l E). }
  assert (LEN : forall n l, c n = Some l -> length l = r) by (intros n l E; apply (RE n), CW, E).
  unfold finish. destruct (c "x"%string) as [x|] eqn:X.
  2:{ split; [discriminate|]. split; [intros (x & _ & _ & H & _); apply CW in H; congruence|]. intros n _ _. exists "x"%string. split; [reflexivity|]. now apply NO. }
  destruct (c "y"%string) as [y|] eqn:Y.
  2:{ split; [discriminate|]. split; [intros (_ & y & _ & _ & H & _); apply CW in H; congruence|]. intros n _ _. exists "y"%string. split; [reflexivity|]. now apply NO. }
  destruct (c "z"%string) as [z|] eqn:Z.
  2:{ split; [discriminate|]. split; [intros (_ & _ & z & _ & _ & H); apply CW in H; congruence|]. intros n _ _. exists "z"%string. split; [reflexivity|]. now apply NO. }
  cbn [fst snd]. set (fill := fun (o : option (list R)) (v : R) => match o with Some l => l | None => repeat v r end).
  set (nz := fill (c "nz"%string) 0). set (ws := fill (c "ws"%string) 1). set (wc := fill (c "wc"%string) 1).
  change (match c "nz"%string with Some l => l | None => repeat 0 r end) with nz.
  change (match c "ws"%string with Some l => l | None => repeat 1 r end) with ws.
  change (match c "wc"%string with Some l => l | None => repeat 1 r end) with wc.
  assert (FL : forall n v, length (fill (c n) v) = r).
  { intros n v. unfold fill. destruct (c n) as [l|] eqn:E; [now apply (LEN n)|apply repeat_length]. }
  assert (FD : forall n v, or_default w n r v (fill (c n) v)).
  { intros n v. unfold fill, or_default. destruct (c n) as [l|] eqn:E; [left; now apply CW|right]. split; [now apply NO|reflexivity]. }
  split; [|split].
  - intros k H. unfold next, of_res in H. destruct (calc_bounds _) as [k0|] eqn:B; [|discriminate]. injection H as <-.
    pose proof B as B'. unfold calc_bounds in B'. cbn [col_x col_y col_z col_nz col_ws col_wc] in B'.
    destruct (bound x) as [bx|]; [|discriminate]. destruct (bound y) as [by_|]; [|discriminate]. destruct (bound z) as [bz|]; [|discriminate].
    cbn [bind] in B'. injection B' as <-. cbn [col_x col_y col_z col_nz col_ws col_wc bounds spans ntotal py_wtotal py_wstotal] in *.
    split.
    + unfold made_from. cbn [col_x col_y col_z col_nz col_ws col_wc].
      split; [now apply CW|]. split; [now apply CW|]. split; [now apply CW|]. split; [apply FD|]. split; [apply FD|]. split; [apply FD|].
      unfold py_new, column. rewrite (LEN _ x X), (LEN _ y Y), (LEN _ z Z). unfold nz, ws, wc. rewrite !FL, Nat.eqb_refl. cbn [bind].
      unfold nz, ws, wc in B. rewrite B. cbn [bind col_x col_y col_z col_nz col_ws col_wc bounds spans]. reflexivity.
    + unfold defaults_named. destruct (c "nz"%string) as [?|] eqn:E1, (c "ws"%string) as [?|] eqn:E2, (c "wc"%string) as [?|] eqn:E3;
        (split; [reflexivity|]); intros n [<-|[<-|[<-|[]]]]; rewrite <- NO; rewrite ?E1, ?E2, ?E3; cbn; split; intros H;
        try congruence; try tauto; repeat (destruct H as [H|H]; try congruence; try tauto).
  - intros _ R. assert (XB : forall n l, c n = Some l -> exists b, bound l = Ok b).
    { intros n l E. apply LEN in E. destruct l as [|a l]; [cbn in E; lia|]. unfold bound, col_min, col_max. cbn [bind]. eauto. }
    destruct (XB _ _ X) as [bx BX]. destruct (XB _ _ Y) as [by_ BY]. destruct (XB _ _ Z) as [bz BZ].
    unfold calc_bounds. cbn [col_x col_y col_z]. rewrite BX, BY, BZ. cbn [bind of_res next]. eauto.
  - intros n [<-|[<-|[<-|[]]]] H; apply NO in H; congruence.
Qed.

(* ------------------------------------------------------------------ *)
(* C127                                                                *)

Section Reading.
Context {K : Type}.
Variable table_read : string -> string -> list (string * K) -> outcome table.
Variable nbk_read : string -> string -> K -> outcome table.

(** The format handed to astropy. *)
Definition format_meant (format : string) (f : string) : Prop :=
  (format = "text" /\ f = "ascii")%string \/ (format <> "text"%string /\ f = format).
Definition is_ascii (f : string) : Prop := exists s, f = ("ascii" ++ s)%string.

(** Keyword arguments [d'] are [d] with [names] as given, for text files. *)
Definition with_names (f : string) (names : K) (d d' : list (string * K)) : Prop :=
  forall k, look k d' = if string_dec k "names" then (if prefix "ascii" f then Some names else look k d) else look k d.

Lemma prefix_is s f : prefix s f = true <-> exists r, f = (s ++ r)%string.
Proof.
  revert f. induction s as [|a s IH]; intros f; [split; [now exists f|now destruct f]|]. destruct f as [|b f]; cbn.
  - split; [discriminate|]. intros [r E]. discriminate.
  - destruct (ascii_dec a b) as [->|X].
    + rewrite IH. split; intros [r E]; exists r; congruence.
    + split; [discriminate|]. intros [r E]. congruence.
Qed.

(** Names are given to the reader of text files, and of those only. *)
Theorem names_for_text f names d d' : with_names f names d d' -> (is_ascii f -> look "names" d' = Some names) /\ (~ is_ascii f -> look "names" d' = look "names" d).
Proof.
  intros W. specialize (W "names"%string). destruct (string_dec "names" "names") as [_|X]; [|congruence]. unfold is_ascii. rewrite <- prefix_is.
  destruct (prefix "ascii" f); split; intros H; try exact W; congruence.
Qed.

Lemma look_update (d : list (string * K)) k v n : look n (update d k v) = if string_dec n k then Some v else look n d.
Proof.
  induction d as [|[k' v'] d IH]; cbn.
  - destruct (String.eqb_spec n k), (string_dec n k); congruence.
  - destruct (String.eqb_spec k k') as [<-|X]; cbn.
    + destruct (String.eqb_spec n k), (string_dec n k); congruence.
    + rewrite IH. destruct (String.eqb_spec n k') as [->|]; [|reflexivity]. destruct (string_dec k' k); congruence.
Qed.

Definition astropy_used (imported : bool) (reader : string) : Prop :=
  lower reader = "astropy"%string \/ (lower reader = "nbodykit"%string /\ imported = false).

(** The table handed over by astropy when asked as the call says. *)
Definition astropy_gives (path format : string) (names : K) (kwargs : option (list (string * K))) (t : table) : Prop :=
  forall f d, format_meant format f -> with_names f names (match kwargs with Some d => d | None => [] end) d -> table_read path f d = Done t.

Lemma astropy_call imported reader path names format m kwargs t : astropy_used imported reader -> astropy_gives path format names kwargs t ->
  exists w after, read_from_file K table_read nbk_read imported path reader names format m kwargs =
  match rename_all t m with
  | Failed f => Report K (Failed f) w after
  | Done t' => Report K (fst (finish (rows t) (of_table t'))) (w ++ snd (finish (rows t) (of_table t'))) after
  end.
Proof.
  intros U G. unfold read_from_file. set (f := if String.eqb format "text" then "ascii"%string else format).
  set (d := if prefix "ascii" f then _ else _).
  assert (T : table_read path f d = Done t).
  { apply G.
    - unfold f, format_meant. destruct (String.eqb_spec format "text"); tauto.
    - intros k. unfold d. destruct (prefix "ascii" f); [rewrite look_update|]; destruct (string_dec k "names"); reflexivity. }
  rewrite T. cbn [next].
  set (after := match kwargs with Some _ => Some d | None => None end).
  destruct U as [E|[E ->]]; rewrite E; [exists [], after|exists [unavailable], after]; cbn [String.eqb Ascii.eqb Bool.eqb app];
    destruct (rename_all t m) as [t'|]; cbn [next]; try reflexivity; destruct (finish (rows t) (of_table t')); reflexivity.
Qed.

Lemma rows_of t r : file t r -> rows t = r.
Proof. intros (_ & NE & L). destruct t as [|[n l] t]; [congruence|]. cbn. apply (L n). now left. Qed.

Lemma wanted_rect m t r : file t r -> rectangular (wanted m t) r.
Proof. intros (_ & _ & L) n l [(s & _ & H)|(_ & _ & H)]; eapply L; exact H. Qed.
Lemma kept_rect m t r : file t r -> rectangular (wanted_kept m t) r.
Proof. intros (_ & _ & L) n l [(s & _ & H)|(_ & H)]; eapply L; exact H. Qed.

(** A file read with astropy: the catalogue is that of the columns asked for,
    warnings name the columns that took defaults, and a catalogue comes back
    exactly when the names asked for are free and the coordinates there. *)
Theorem read_astropy imported reader path names format m kwargs t r :
  astropy_used imported reader -> astropy_gives path format names kwargs t -> file t r -> (1 <= r)%nat -> request m t ->
  let out := read_from_file K table_read nbk_read imported path reader names format m kwargs in
  (forall c, result K out = Done c -> made_from (wanted m t) r c /\ ntotal c = r /\
     exists w, defaults_named (wanted m t) w /\ warned K out = (if String.eqb (lower reader) "nbodykit" then [unavailable] else []) ++ w) /\
  ((exists c, result K out = Done c) <-> names_free m t /\ forall n, In n ["x"; "y"; "z"]%string -> exists l, wanted m t n l).
Proof.
  intros U G F R RQ out. pose proof F as (ND & _). destruct (rename_all_wanted m t ND RQ) as [NF W].
  assert (O : exists w after, w = (if String.eqb (lower reader) "nbodykit" then [unavailable] else []) /\ out =
     match rename_all t m with
     | Failed f => Report K (Failed f) w after
     | Done t' => Report K (fst (finish r (of_table t'))) (w ++ snd (finish r (of_table t'))) after
     end).
  { destruct (astropy_call imported reader path names format m kwargs t U G) as (w & after & E). fold out in E. rewrite (rows_of t r F) in E.
    exists (if String.eqb (lower reader) "nbodykit" then [unavailable] else []), (kwargs_after K out). split; [reflexivity|].
    assert (w = if String.eqb (lower reader) "nbodykit" then [unavailable] else []) as <-; [|rewrite E at 1; rewrite E; destruct (rename_all t m); reflexivity].
    clear NF W. unfold out, read_from_file in E. set (f := if String.eqb format "text" then "ascii"%string else format) in E.
    set (d := if prefix "ascii" f then _ else _) in E.
    assert (T : table_read path f d = Done t).
    { apply G.
      - unfold f, format_meant. destruct (String.eqb_spec format "text"); tauto.
      - intros k. unfold d. destruct (prefix "ascii" f); [rewrite look_update|]; destruct (string_dec k "names"); reflexivity. }
    rewrite T in E. cbn [next] in E.
    destruct U as [X|[X ->]]; rewrite X in *; cbn [String.eqb Ascii.eqb Bool.eqb] in *; destruct (rename_all t m) as [t'|]; cbn [next] in E;
      rewrite ?(rows_of t r F) in E; try (destruct (finish r (of_table t')) as [a b]; cbn [fst snd] in E; injection E as Ew _; cbn [app] in Ew).
    all: try (injection E as <- _; reflexivity).
    - destruct w; [reflexivity|]. exfalso. apply (f_equal (@length string)) in Ew. cbn in Ew. rewrite app_length in Ew. lia.
    - apply (app_inv_tail b). symmetry. exact Ew. }
  destruct O as (w & after & -> & ->). destruct (rename_all t m) as [t'|f] eqn:E.
  - destruct (W t' eq_refl) as [ND' W']. destruct (finish_made (of_table t') (wanted m t) r) as (A & B & C).
    { intros n l. unfold of_table. rewrite look_in by exact ND'. apply W'. }
    { now apply wanted_rect. }
    cbn [result warned]. split.
    + intros c H. destruct (A c H) as [M D]. split; [exact M|]. split; [|exists (snd (finish r (of_table t'))); now split].
      destruct M as (MX & _ & _ & _ & _ & _ & M). unfold py_new in M. repeat (apply bind_ok in M as (? & _ & M)). injection M as <-. cbn.
      apply (wanted_rect m t r F) in MX. exact MX.
    + split.
      * intros [c H]. split; [apply NF; now exists t'|]. destruct (A c H) as [(MX & MY & MZ & _) _].
        intros n [<-|[<-|[<-|[]]]]; eauto.
      * intros [_ H]. apply B; [|exact R]. destruct (H "x"%string) as [x X]; [cbn; tauto|]. destruct (H "y"%string) as [y Y]; [cbn; tauto|].
        destruct (H "z"%string) as [z Z]; [cbn; tauto|]. exists x, y, z. auto.
  - cbn [result]. split; [discriminate|]. split; [intros [c H]; discriminate|]. intros [H _]. apply NF in H as [t' H]. discriminate.
Qed.

(** A file read with nbodykit, no field being read after its name was written:
    fields keep their own names as well. *)
Theorem read_nbodykit path reader names format m kwargs t r :
  lower reader = "nbodykit"%string -> In format ["text"; "binary"; "hdf5"]%string -> nbk_read path format names = Done t -> file t r -> (1 <= r)%nat ->
  NoDup (map fst m) -> (forall s, In s (map snd m) -> In s (keys t)) -> read_first m ->
  let out := read_from_file K table_read nbk_read true path reader names format m kwargs in
  (forall c, result K out = Done c -> made_from (wanted_kept m t) r c /\ defaults_named (wanted_kept m t) (warned K out)) /\
  ((exists c, result K out = Done c) <-> forall n, In n ["x"; "y"; "z"]%string -> exists l, wanted_kept m t n l) /\ kwargs_after K out = kwargs.
Proof.
  intros E FM T F R NK IS RF out. pose proof F as (ND & _). destruct (nbk_map_wanted m t ND NK IS RF) as (c0 & C1 & C2).
  assert (O : out = Report K (fst (finish r (of_nbk c0))) (snd (finish r (of_nbk c0))) kwargs).
  { unfold out, read_from_file. rewrite E. cbn [String.eqb Ascii.eqb Bool.eqb].
    destruct (String.eqb_spec format "fits") as [->|_]; [exfalso; cbn in FM; intuition discriminate|].
    assert ((String.eqb format "text" || String.eqb format "binary" || String.eqb format "hdf5")%bool = true) as ->.
    { destruct FM as [<-|[<-|[<-|[]]]]; reflexivity. }
    rewrite T. cbn [next]. rewrite C1. cbn [next]. rewrite (rows_of t r F). destruct (finish r (of_nbk c0)); reflexivity. }
  rewrite O. cbn [result warned kwargs_after]. destruct (finish_made (of_nbk c0) (wanted_kept m t) r C2 (kept_rect m t r F)) as (A & B & C).
  split; [exact A|]. split; [|reflexivity]. split.
  - intros [c H]. destruct (A c H) as [(MX & MY & MZ & _) _]. intros n [<-|[<-|[<-|[]]]]; eauto.
  - intros H. apply B; [|exact R]. destruct (H "x"%string) as [x X]; [cbn; tauto|]. destruct (H "y"%string) as [y Y]; [cbn; tauto|].
    destruct (H "z"%string) as [z Z]; [cbn; tauto|]. exists x, y, z. auto.
Qed.

Lemma made_same w w' r c c' : (forall n, In n ["x"; "y"; "z"; "nz"; "ws"; "wc"]%string -> forall l, w n l <-> w' n l) ->
  (forall n l l', w n l -> w n l' -> l = l') -> made_from w r c -> made_from w' r c' -> c = c'.
Proof.
  intros S FN (X & Y & Z & A & B & C & P) (X' & Y' & Z' & A' & B' & C' & P').
  assert (OD : forall n d l l', In n ["x"; "y"; "z"; "nz"; "ws"; "wc"]%string -> or_default w n r d l -> or_default w' n r d l' -> l = l').
  { intros n d l l' I [H|[H ->]] [H'|[H' ->]]; [|exfalso; apply (H' l), S; auto|exfalso; apply (H l'), S; auto|reflexivity].
    apply (FN n); [exact H|]. now apply S. }
  assert (XX : col_x c = col_x c') by (apply (FN "x"%string); [exact X|apply S; [cbn; tauto|exact X']]).
  assert (YY : col_y c = col_y c') by (apply (FN "y"%string); [exact Y|apply S; [cbn; tauto|exact Y']]).
  assert (ZZ : col_z c = col_z c') by (apply (FN "z"%string); [exact Z|apply S; [cbn; tauto|exact Z']]).
  assert (AA : col_nz c = col_nz c') by (apply (OD "nz"%string 0); [cbn; tauto|exact A|exact A']).
  assert (BB : col_ws c = col_ws c') by (apply (OD "ws"%string 1); [cbn; tauto|exact B|exact B']).
  assert (CC : col_wc c = col_wc c') by (apply (OD "wc"%string 1); [cbn; tauto|exact C|exact C']).
  rewrite XX, YY, ZZ, AA, BB, CC, P' in P. now injection P.
Qed.

(** Both readers give the same catalogue when no column of a catalogue is
    mapped away without another taking its name. *)
Theorem readers_agree path names format m kwargs t r c c' :
  astropy_gives path format names kwargs t -> nbk_read path format names = Done t -> In format ["text"; "binary"; "hdf5"]%string ->
  file t r -> (1 <= r)%nat -> request m t -> read_first m ->
  (forall n, In n ["x"; "y"; "z"; "nz"; "ws"; "wc"]%string -> In n (map snd m) -> In n (map fst m)) ->
  result K (read_from_file K table_read nbk_read true path "astropy" names format m kwargs) = Done c ->
  result K (read_from_file K table_read nbk_read true path "nbodykit" names format m kwargs) = Done c' -> c = c'.
Proof.
  intros G T FM F R RQ RF CL A B. pose proof RQ as (NK & NS & IS). pose proof F as (ND & _).
  destruct (read_astropy true "astropy" path names format m kwargs t r (or_introl eq_refl) G F R RQ) as [MA _].
  destruct (read_nbodykit path "nbodykit" names format m kwargs t r eq_refl FM T F R NK IS RF) as [MB _].
  destruct (MA c A) as [MA' _]. destruct (MB c' B) as [MB' _].
  apply (made_same (wanted m t) (wanted_kept m t) r); [|  |exact MA'|exact MB'].
  - intros n N l. unfold wanted, wanted_kept. specialize (CL n N). tauto.
  - assert (FF : forall s l l', file_column t s l -> file_column t s l' -> l = l').
    { intros s l l' H H'. apply look_in in H; [|exact ND]. apply look_in in H'; [|exact ND]. congruence. }
    intros n l l' [(s & S1 & S2)|(S1 & S2 & S3)] [(s' & S1' & S2')|(S1' & S2' & S3')].
    + assert (s = s') as <-; [|now apply (FF s)].
      apply look_in in S1; [|exact NK]. apply look_in in S1'; [|exact NK]. congruence.
    + elim S1'. apply (in_map fst) in S1. exact S1.
    + elim S1. apply (in_map fst) in S1'. exact S1'.
    + now apply (FF n).
Qed.

(** The dictionary given for `Table.read` comes back with the names in it. *)
Theorem kwargs_changed imported reader path names format m d :
  astropy_used imported reader -> (format = "text"%string \/ is_ascii format) ->
  exists d', kwargs_after K (read_from_file K table_read nbk_read imported path reader names format m (Some d)) = Some d' /\
  look "names" d' = Some names /\ forall k, k <> "names"%string -> look k d' = look k d.
Proof.
  intros U A. unfold read_from_file. set (f := if String.eqb format "text" then "ascii"%string else format).
  assert (P : prefix "ascii" f = true).
  { unfold f. destruct (String.eqb_spec format "text") as [->|N]; [reflexivity|]. apply prefix_is. destruct A; [contradiction|assumption]. }
  rewrite P. exists (update d "names" names). split.
  - destruct U as [E|[E ->]]; rewrite E; cbn [String.eqb Ascii.eqb Bool.eqb];
      destruct (table_read _ _ _) as [t|]; cbn [next]; try reflexivity; destruct (rename_all t m) as [t'|]; cbn [next]; try reflexivity;
      destruct (finish _ _); reflexivity.
  - split; [rewrite look_update; destruct (string_dec "names" "names"); congruence|]. intros k N. rewrite look_update. destruct (string_dec k "names"); congruence.
Qed.

(** An unknown reader is refused; an unknown format is refused with a message
    that shows the path instead. *)
Theorem read_refused imported path reader names format m kwargs :
  let out := read_from_file K table_read nbk_read imported path reader names format m kwargs in
  (lower reader <> "astropy"%string -> lower reader <> "nbodykit"%string -> result K out = Failed (BadReader reader)) /\
  (lower reader = "nbodykit"%string -> imported = true -> ~ In format ["text"; "binary"; "hdf5"; "fits"]%string -> result K out = Failed (BadFormat path)) /\
  (lower reader = "nbodykit"%string -> imported = true -> format = "fits"%string -> result K out = Failed BrokenFits).
Proof.
  intros out. unfold out, read_from_file. split; [|split].
  - intros A B. destruct (String.eqb_spec (lower reader) "nbodykit"); [contradiction|]. destruct (String.eqb_spec (lower reader) "astropy"); [contradiction|reflexivity].
  - intros -> -> F. cbn [String.eqb Ascii.eqb Bool.eqb]. destruct (String.eqb_spec format "fits") as [->|_]; [elim F; cbn; tauto|].
    destruct (String.eqb_spec format "text") as [->|_]; [elim F; cbn; tauto|]. destruct (String.eqb_spec format "binary") as [->|_]; [elim F; cbn; tauto|].
    destruct (String.eqb_spec format "hdf5") as [->|_]; [elim F; cbn; tauto|]. reflexivity.
  - intros -> -> ->. reflexivity.
Qed.

End Reading.

(* ------------------------------------------------------------------ *)
(* Cases                                                               *)

Local Open Scope string_scope.

(** A file that any reader gives, and readers of it. *)
Definition gives (t : table) : string -> string -> list (string * nat) -> outcome table := fun _ _ _ => Done t.
Definition nbk_gives (t : table) : string -> string -> nat -> outcome table := fun _ _ _ => Done t.
Definition read (t : table) (reader format : string) (m : list (string * string)) : report nat :=
  read_from_file nat (gives t) (nbk_gives t) true "f" reader 0%nat format m None.

Definition survey : table :=
  [("X", [1; 2]); ("Y", [3; 4]); ("Z", [5; 6]); ("NZ", [7; 8]); ("W", [9; 10])]%R.
Definition survey_names : list (string * string) := [("x", "X"); ("y", "Y"); ("z", "Z"); ("nz", "NZ"); ("ws", "W")].

Lemma survey_file : file survey 2.
Proof.
  split; [repeat constructor; cbn; intuition discriminate|]. split; [discriminate|].
  intros n l H. unfold file_column in H. cbn in H. repeat destruct H as [H|H]; try (injection H as <- <-; reflexivity); contradiction.
Qed.

Lemma survey_request : request survey_names survey.
Proof.
  split; [repeat constructor; cbn; intuition discriminate|]. split; [repeat constructor; cbn; intuition discriminate|].
  intros s H. cbn in *. intuition.
Qed.

(** A survey file under its own names is read; weights not in it are unity. *)
Example read_case : exists c, result nat (read survey "AstroPy" "fits" survey_names) = Done c /\ col_ws c = [9; 10]%R /\ col_wc c = [1; 1]%R /\
  col_nz c = [7; 8]%R /\ py_wstotal c = 19%R /\ warned nat (read survey "AstroPy" "fits" survey_names) = ["wc"].
Proof.
  eexists. split; [reflexivity|]. cbn [col_ws col_wc col_nz py_wstotal]. repeat (split; [reflexivity|]). split; [unfold rsum; cbn; lra|reflexivity].
Qed.

Example read_theorem_case : names_free survey_names survey /\ (exists c, result nat (read survey "astropy" "fits" survey_names) = Done c) /\ read_first survey_names.
Proof.
  assert (NF : names_free survey_names survey).
  { intros pre n s post E. right. left. assert (I : In (n, s) survey_names) by (rewrite E; apply in_or_app; right; now left).
    cbn in *. intuition congruence. }
  split; [exact NF|]. split.
  - apply (read_astropy (gives survey) (nbk_gives survey) true "astropy" "f" 0%nat "fits" survey_names None survey 2);
      [now left|now intros f d _ _|apply survey_file|lia|apply survey_request|]. split; [exact NF|].
    intros n [<-|[<-|[<-|[]]]]; eexists; left; eexists; (split; [cbn; eauto 10|]); unfold file_column; cbn; eauto 10.
  - intros pre n s post E. left. intros H. assert (I : In s (map fst survey_names)).
    { rewrite E, map_app. apply in_or_app. now left. }
    assert (J : In (n, s) survey_names) by (rewrite E; apply in_or_app; right; now left). cbn in *. intuition congruence.
Qed.

(** Two columns exchanged: astropy refuses, nbodykit gives one of them twice. *)
Definition crossed : table := [("x", [1]); ("y", [2]); ("z", [3]); ("nz", [4]); ("ws", [5]); ("wc", [6])]%R.

Theorem exchange_refuted : exists m, request m crossed /\
  result nat (read crossed "astropy" "hdf5" m) = Failed (ColumnExists "ws") /\
  exists c, result nat (read crossed "nbodykit" "hdf5" m) = Done c /\ col_ws c = [6]%R /\ col_wc c = [6]%R /\ ~ wanted_kept m crossed "wc" (col_wc c).
Proof.
  exists [("ws", "wc"); ("wc", "ws")]. split.
  { split; [repeat constructor; cbn; intuition discriminate|]. split; [repeat constructor; cbn; intuition discriminate|]. intros s H. cbn in *. intuition. }
  split; [reflexivity|]. eexists. split; [reflexivity|]. split; [reflexivity|]. split; [reflexivity|].
  cbn [col_wc]. unfold wanted_kept, file_column. cbn. intros [(u & [H|[H|[]]] & S)|[H _]]; [discriminate| |intuition congruence].
  injection H as <-. repeat destruct S as [S|S]; try contradiction; injection S; intros; try discriminate; lra.
Qed.

(** A field mapped to another name: with astropy it leaves its own name, with
    nbodykit it stays there as well. *)
Definition one_weight : table := [("x", [1]); ("y", [2]); ("z", [3]); ("nz", [4]); ("wc", [6])]%R.

Theorem readers_agree_refuted : exists m c c', request m one_weight /\ names_free m one_weight /\ read_first m /\
  result nat (read one_weight "astropy" "hdf5" m) = Done c /\ result nat (read one_weight "nbodykit" "hdf5" m) = Done c' /\
  col_ws c = [6]%R /\ col_ws c' = [6]%R /\ col_wc c = [1]%R /\ col_wc c' = [6]%R.
Proof.
  exists [("ws", "wc")]. eexists. eexists. split.
  { split; [repeat constructor; cbn; intuition discriminate|]. split; [repeat constructor; cbn; intuition discriminate|]. intros s H. cbn in *. intuition. }
  split. { intros [|[? ?] [|? ?]] n u post E; try discriminate. injection E as <- <- <-. right. left. cbn. intuition discriminate. }
  split. { intros [|[? ?] [|? ?]] n u post E; try discriminate. left. intros []. }
  repeat (split; [reflexivity|]). reflexivity.
Qed.

(** A field that is not in the file is found when another was given its name
    before. *)
Definition unnamed : table := [("x", [1]); ("y", [2]); ("z", [3]); ("W", [6])]%R.

Theorem absent_field_refuted : exists m, (exists s, In s (map snd m) /\ ~ In s (keys unnamed)) /\
  exists c, result nat (read unnamed "astropy" "hdf5" m) = Done c /\ col_ws c = [6]%R /\ col_wc c = [1]%R.
Proof.
  exists [("wc", "W"); ("ws", "wc")]. split; [exists "wc"; split; [cbn; tauto|cbn; intuition discriminate]|].
  eexists. split; [reflexivity|]. split; reflexivity.
Qed.

(** Names among the arguments for `Table.read` are dropped for text files. *)
Theorem names_dropped_refuted : exists d d', kwargs_after nat (read_from_file nat (gives survey) (nbk_gives survey) true "f" "astropy" 0%nat "text" survey_names (Some d)) = Some d' /\
  look "names" d = Some 1%nat /\ look "names" d' = Some 0%nat.
Proof. exists [("names", 1%nat)]. eexists. split; [reflexivity|]. split; reflexivity. Qed.

Print Assumptions names_for_text.
Print Assumptions read_astropy.
Print Assumptions read_nbodykit.
Print Assumptions readers_agree.
Print Assumptions kwargs_changed.
Print Assumptions read_refused.
Print Assumptions exchange_refuted.
Print Assumptions readers_agree_refuted.
Print Assumptions absent_field_refuted.
Print Assumptions names_dropped_refuted.
