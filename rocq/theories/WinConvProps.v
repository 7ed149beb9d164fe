(* Window convolution: sample points, sums, integral constraint and ranges
   (C61-C66). *)
From Coq Require Import String.
From Coq Require Import Reals ZArith List Lia Lra Bool Permutation.
From Coquelicot Require Import Complex.
From Verif Require Import Base ArrayModel ArrayProofs Array2dModel RSum MultipoleModel
  WindowModel WindowProps WinFormulaModel WinConvModel.
Import ListNotations.
Local Open Scope R_scope.

(* ------------------------------------------------------------------ *)
(* Vocabulary                                                          *)

(** The formula for the windowed multipole m holds the term t. *)
Definition uses (f : formulae) (m : list Z) (t : cterm) : Prop :=
  exists ts, lookup (f_dict f) m = Ok ts /\ In t ts.

(** The keys of a dictionary as the caller wrote them, read as multipoles. *)
Definition keys_of {A} (l : list (mlike * A)) (ks : list (list Z)) : Prop :=
  sequence (map (fun ka => multipole (fst ka)) l) = Ok ks.

(** Every point of rc lies within the range of rs, up to the tolerance. *)
Definition within (rc rs : list R) : Prop :=
  forall x, In x rc ->
    (exists y, In y rs /\ (1 - 1 / 100000) * y <= x)
    /\ (exists y, In y rs /\ x <= (1 + 1 / 100000) * y).

(** No array of the points is empty. *)
Definition filled (a : sampts) : Prop :=
  match a with One r => r <> [] | Each l => forall k r, In (k, r) l -> r <> [] end.

(* ------------------------------------------------------------------ *)
(* Formulae                                                            *)

Lemma insert_perm x l s : insert x l = Ok s -> Permutation (x :: l) s.
Proof.
  revert s; induction l as [|y l IH]; cbn [insert]; intros s H.
  - injection H as <-. reflexivity.
  - apply bind_ok in H as (b & _ & H). destruct b.
    + apply bind_ok in H as (r & H1 & H). injection H as <-.
      apply IH in H1. rewrite perm_swap. now constructor.
    + injection H as <-. reflexivity.
Qed.

Lemma msorted_perm l s : msorted l = Ok s -> Permutation l s.
Proof.
  revert s; induction l as [|x l IH]; cbn [msorted]; intros s H.
  - injection H as <-. reflexivity.
  - apply bind_ok in H as (r & H1 & H). apply insert_perm in H. rewrite <- H.
    constructor. now apply IH.
Qed.

Lemma store_keys {A} (d : mdict A) k a k' :
  In k' (map fst (store d k a)) <-> k = k' \/ In k' (map fst d).
Proof.
  rewrite !lookup_in. rewrite lookup_store. destruct (meq k k') eqn:E.
  - apply meq_spec in E. split; [now left|eauto].
  - split; [now right|]. intros [H|H]; [|exact H]. subst. now rewrite meq_refl in E.
Qed.

Lemma store_nodup {A} (d : mdict A) k a : NoDup (map fst d) -> NoDup (map fst (store d k a)).
Proof.
  induction d as [|[k' a'] d IH]; cbn [store map fst]; intros N.
  - constructor; [tauto|constructor].
  - inversion N as [|? ? N1 N2]; subst. destruct (meq k' k) eqn:E; cbn [map fst].
    + now constructor.
    + constructor; [|auto]. rewrite store_keys. intros [->|H]; [|contradiction].
      now rewrite meq_refl in E.
Qed.

Lemma fold_store {A} (l d : mdict A) : NoDup (map fst d) ->
  NoDup (map fst (fold_left (fun d kb => store d (fst kb) (snd kb)) l d))
  /\ forall k, In k (map fst (fold_left (fun d kb => store d (fst kb) (snd kb)) l d))
       <-> In k (map fst d) \/ In k (map fst l).
Proof.
  revert d; induction l as [|[k a] l IH]; intros d N; cbn [fold_left fst snd map In].
  - split; [exact N|]. intros k. tauto.
  - destruct (IH (store d k a) (store_nodup d k a N)) as [H1 H2]. split; [exact H1|].
    intros k'. rewrite H2, store_keys. intuition congruence.
Qed.

Lemma sequence_ok_len {A} (l : list (res A)) r : sequence l = Ok r -> length r = length l.
Proof.
  revert r; induction l as [|x l IH]; cbn [sequence]; intros r H.
  - now injection H as <-.
  - apply bind_ok in H as (a & _ & H). apply bind_ok in H as (s & H1 & H).
    injection H as <-. cbn [length]. f_equal. auto.
Qed.

(** What the formulae need is what the object lists. *)
Theorem formulae_requirements raw f : build_formulae raw = Ok f ->
  NoDup (f_poles f) /\ NoDup (f_Q f) /\ NoDup (f_Z f) /\ NoDup (map fst (f_dict f))
  /\ (forall m, In m (f_poles f) <-> exists ts, lookup (f_dict f) m = Ok ts)
  /\ (forall q, In q (f_Q f) <-> exists m t, uses f m t /\ t_Q t = q)
  /\ (forall z, In z (f_Z f) <-> exists m t, uses f m t /\ t_Z t = ZPole z)
  /\ (f_ic f = true <-> exists m t, uses f m t /\ t_Z t = ZIc).
Proof.
  unfold build_formulae. intros H. apply bind_ok in H as (l & _ & H).
  destruct (fold_store l [] (NoDup_nil _)) as [N _].
  revert N H. generalize (fold_left (fun (d : mdict (list cterm)) kb => store d (fst kb) (snd kb)) l []).
  intros d N H. cbv zeta in H.
  set (ts := flat_map snd d) in *.
  apply bind_ok in H as (ps & Hp & H). apply bind_ok in H as (qs & Hq & H).
  apply bind_ok in H as (zs & Hz & H). injection H as <-.
  apply msorted_perm in Hp. apply msorted_perm in Hq. apply msorted_perm in Hz.
  cbn [f_poles f_Q f_Z f_ic f_dict].
  assert (U : forall t, In t ts <-> exists m, uses (mk_formulae d ps qs zs (has_ic ts)) m t).
  { intros t. unfold ts, uses. cbn [f_dict]. rewrite in_flat_map. split.
    - intros ([k a] & H1 & H2). exists k, a. split; [now apply in_lookup|exact H2].
    - intros (m & a & H1 & H2). exists (m, a). split; [now apply lookup_some_in|exact H2]. }
  split; [eapply Permutation_NoDup; eassumption|].
  split; [eapply Permutation_NoDup; [eassumption|apply NoDup_nodup]|].
  split; [eapply Permutation_NoDup; [eassumption|apply NoDup_nodup]|].
  split; [exact N|].
  split; [|split; [|split]].
  - intros m. rewrite <- lookup_in. split; apply Permutation_in; [now symmetry|assumption].
  - intros q. transitivity (In q (map t_Q ts)).
    + rewrite <- (nodup_In (list_eq_dec Z.eq_dec) (map t_Q ts)).
      split; apply Permutation_in; [symmetry; exact Hq|exact Hq].
    + rewrite in_map_iff. split.
      * intros (t & E & H). apply U in H as [m H]. eauto.
      * intros (m & t & H & E). exists t. split; [exact E|]. apply U. eauto.
  - intros z. transitivity (In z (true_Z ts)).
    + rewrite <- (nodup_In (list_eq_dec Z.eq_dec) (true_Z ts)).
      split; apply Permutation_in; [symmetry; exact Hz|exact Hz].
    + unfold true_Z. rewrite in_flat_map. split.
      * intros (t & H & E). apply U in H as [m H]. exists m, t. split; [exact H|].
        destruct (t_Z t); cbn in E; [|contradiction]. now destruct E as [->|[]].
      * intros (m & t & H & E). exists t. split; [apply U; eauto|]. rewrite E. now left.
  - unfold has_ic. rewrite existsb_exists. split.
    + intros (t & H & E). apply U in H as [m H]. exists m, t. split; [exact H|].
      now destruct (t_Z t).
    + intros (m & t & H & E). exists t. split; [apply U; eauto|]. now rewrite E.
Qed.

(** The named three-point formulae build. *)
Lemma sugiyama_builds : exists f, build_formulae sugiyama19 = Ok f.
Proof. eexists. vm_compute. reflexivity. Qed.

(* ------------------------------------------------------------------ *)
(* Sample points                                                       *)

Lemma keys_combine {A} (l : list (mlike * A)) ks : keys_of l ks ->
  sequence (map (fun ka => k <- multipole (fst ka) ;; Ok (k, snd ka)) l)
  = Ok (combine ks (map snd l)).
Proof.
  unfold keys_of. revert ks; induction l as [|[k a] l IH]; cbn [map sequence fst snd]; intros ks H.
  - injection H as <-. reflexivity.
  - apply bind_ok in H as (k' & E & H). apply bind_ok in H as (r & E2 & H).
    injection H as <-. rewrite E. cbn [bind]. rewrite (IH r E2). reflexivity.
Qed.

Lemma keys_length {A} (l : list (mlike * A)) ks : keys_of l ks -> length ks = length l.
Proof. unfold keys_of. intros H. apply sequence_ok_len in H. now rewrite map_length in H. Qed.

Lemma map_fst_combine {A B} (l : list A) (r : list B) : length l = length r ->
  map fst (combine l r) = l.
Proof.
  revert r; induction l as [|x l IH]; intros [|y r] H; try discriminate; [reflexivity|].
  cbn. f_equal. apply IH. now injection H.
Qed.

(** Reading the keys of a dictionary. *)
Lemma coerce_keys {A} (l : list (mlike * A)) ks : keys_of l ks ->
  exists d, coerce l = Ok d /\ NoDup (map fst d) /\ (forall k, In k (map fst d) <-> In k ks).
Proof.
  intros H. unfold coerce. rewrite (keys_combine l ks H). cbn [bind].
  destruct (fold_store (combine ks (map snd l)) [] (NoDup_nil _)) as [H1 H2].
  eexists. split; [reflexivity|]. split; [exact H1|]. intros k. rewrite H2.
  rewrite map_fst_combine by (rewrite map_length; apply (keys_length l ks H)). cbn. tauto.
Qed.

Lemma coerce_plain {A} (l : list (mlike * A)) ks : keys_of l ks -> NoDup ks ->
  coerce l = Ok (combine ks (map snd l)).
Proof.
  intros H N. unfold coerce. rewrite (keys_combine l ks H). cbn [bind].
  rewrite store_all; [reflexivity|]. cbn [app].
  now rewrite map_fst_combine by (rewrite map_length; apply (keys_length l ks H)).
Qed.

Lemma multipole_err m e : multipole m = Err e -> e = ValueError.
Proof.
  assert (S : forall l e, sequence (map int_piece l) = Err e -> e = ValueError).
  { clear. induction l as [|x l IH]; cbn [map sequence]; intros e H; [discriminate|].
    unfold int_piece in H at 1. destruct (PyParamModel.int_of_str x); [|now injection H as <-].
    cbn [bind] in H. destruct (sequence (map int_piece l)) eqn:E; [discriminate|].
    cbn [bind] in H. injection H as <-. now apply IH. }
  destruct m as [i|s|l|z|]; cbn [multipole]; intros H; try discriminate; [|now injection H as <-].
  destruct (split_comma s) as [|p [|p' ps]]; eapply S; eassumption.
Qed.

Lemma coerce_err {A} (l : list (mlike * A)) e : coerce l = Err e -> e = ValueError.
Proof.
  unfold coerce. intros H.
  assert (K : sequence (map (fun ka => k <- multipole (fst ka) ;; Ok (k, snd ka)) l) = Err e).
  { destruct (sequence _); [discriminate|exact H]. }
  clear H. revert e K. induction l as [|[k a] l IH]; cbn [map sequence fst snd]; intros e K;
    [discriminate|].
  destruct (multipole k) eqn:E; cbn [bind] in K.
  - destruct (sequence _) eqn:E2; [discriminate|]. cbn [bind] in K. injection K as <-. auto.
  - injection K as <-. eapply multipole_err; eassumption.
Qed.

Lemma coerce_ok_keys {A} (l : list (mlike * A)) d : coerce l = Ok d -> exists ks, keys_of l ks.
Proof.
  unfold coerce, keys_of. intros H. apply bind_ok in H as (r & H & _). revert r H.
  induction l as [|[k a] l IH]; cbn [map sequence fst snd]; intros r H.
  - eauto.
  - apply bind_ok in H as (x & H1 & H). apply bind_ok in H as (y & H2 & H).
    apply bind_ok in H1 as (k' & E & _). destruct (IH y H2) as [ks E2].
    rewrite E, E2. cbn [bind]. eauto.
Qed.

Lemma has_key_spec {A} (d : mdict A) k : has_key d k = true <-> In k (map fst d).
Proof.
  unfold has_key. rewrite existsb_exists, in_map_iff. split.
  - intros (x & H & E). apply meq_spec in E. eauto.
  - intros (x & E & H). exists x. split; [exact H|]. now apply meq_spec.
Qed.

Lemma subset_keys_spec {A} ks (d : mdict A) :
  subset_keys ks d = true <-> forall k, In k ks -> In k (map fst d).
Proof.
  unfold subset_keys. rewrite forallb_forall. split; intros H k Hk.
  - now apply has_key_spec, H.
  - now apply has_key_spec, H.
Qed.

Lemma base_init_err {A} f ws (wm : list (mlike * A)) e :
  base_init f ws wm = Err e -> e = ValueError.
Proof.
  unfold base_init. destruct (f_Z f); [now intros [= <-]|]. intros H.
  destruct ws as [?|?].
  all: match type of H with bind ?x _ = _ => destruct x as [rQ|e'] eqn:E end; cbn [bind] in H;
    [|injection H as <-; eapply coerce_err; eassumption].
  all: destruct (coerce wm) as [Q|e'] eqn:E'; cbn [bind] in H;
    [|injection H as <-; eapply coerce_err; eassumption].
  all: destruct (subset_keys (f_Q f) rQ); cbn [negb] in H; [|now injection H as <-].
  all: destruct (subset_keys (f_Q f) Q); cbn [negb] in H; [discriminate|now injection H as <-].
Qed.

(** What a base that was built holds. *)
Lemma base_init_ok {A} f ws (wm : list (mlike * A)) rQ Q :
  base_init f ws wm = Ok (rQ, Q) ->
  (forall q, In q (f_Q f) -> exists r v, lookup rQ q = Ok r /\ lookup Q q = Ok v).
Proof.
  unfold base_init. destruct (f_Z f); [discriminate|]. intros H.
  apply bind_ok in H as (rQ' & E & H). apply bind_ok in H as (Q' & E' & H).
  destruct (subset_keys (f_Q f) rQ') eqn:S1; cbn [negb] in H; [|discriminate].
  destruct (subset_keys (f_Q f) Q') eqn:S2; cbn [negb] in H; [|discriminate].
  injection H as -> ->. pose proof (proj1 (subset_keys_spec _ _) S1) as K1. pose proof (proj1 (subset_keys_spec _ _) S2) as K2.
  intros q Hq. destruct (proj1 (lookup_in _ _) (K1 q Hq)) as [r Hr].
  destruct (proj1 (lookup_in _ _) (K2 q Hq)) as [v Hv]. eauto.
Qed.

Lemma zeq_spec a b : zeq a b = true <-> a = b.
Proof.
  destruct a, b; cbn [zeq]; try rewrite meq_spec; intuition congruence.
Qed.

Lemma existsb_zpole f k : existsb (zeq (ZPole k)) (f_zkeys f) = true <-> In k (f_Z f).
Proof.
  rewrite existsb_exists. unfold f_zkeys. split.
  - intros (z & H & E). apply zeq_spec in E. subst z. apply in_app_iff in H as [H|H].
    + apply in_map_iff in H as (i & E & H). now injection E as <-.
    + destruct (f_ic f); cbn in H; intuition discriminate.
  - intros H. exists (ZPole k). split; [|now apply zeq_spec].
    apply in_app_iff. left. now apply in_map.
Qed.

Lemma zlookup_poles {A} (d : mdict A) k :
  zlookup (map (fun kv => (ZPole (fst kv), snd kv)) d) (ZPole k) = lookup d k.
Proof.
  induction d as [|[k' a] d IH]; [reflexivity|]. cbn [map zlookup lookup fst snd zeq].
  now rewrite IH.
Qed.

Lemma input_points_each f l d : coerce l = Ok d ->
  (forall k, In k (map fst d) -> In k (f_Z f)) ->
  input_points f (Each l) = Ok (map (fun kv => (ZPole (fst kv), snd kv)) d).
Proof.
  intros H K. cbn [input_points]. rewrite H. cbn [bind].
  rewrite (proj2 (forallb_forall _ _)); [reflexivity|].
  intros kv Hk. apply existsb_zpole, K. now apply in_map.
Qed.

Lemma input_points_extra f l d k : coerce l = Ok d -> In k (map fst d) -> ~ In k (f_Z f) ->
  input_points f (Each l) = Err ValueError.
Proof.
  intros H K N. cbn [input_points]. rewrite H. cbn [bind].
  destruct (forallb _ d) eqn:E; [|reflexivity]. exfalso. apply N.
  apply in_map_iff in K as (kv & <- & K). rewrite forallb_forall in E.
  apply existsb_zpole. now apply E.
Qed.

(** A dictionary holding a multipole the formulae do not need is refused,
    whatever else it holds. *)
Theorem extra_points_refused {A} f ws (wm : list (mlike * A)) l ks k r_out s :
  keys_of l ks -> In k ks -> ~ In k (f_Z f) ->
  new_conv f ws wm (Each l) r_out s = Err ValueError.
Proof.
  intros K1 K2 N. destruct (coerce_keys l ks K1) as (d & Hd & _ & Hk).
  unfold new_conv. destruct (base_init f ws wm) as [b|e] eqn:E; cbn [bind].
  - unfold initialise_sampts. rewrite (input_points_extra f l d k Hd); [reflexivity| |exact N].
    now apply Hk.
  - now rewrite (base_init_err f ws wm e E).
Qed.

Lemma fold_min r x : (In (fold_left Rmin r x) (x :: r))
  /\ forall y, In y (x :: r) -> fold_left Rmin r x <= y.
Proof.
  revert x; induction r as [|z r IH]; intros x; cbn [fold_left].
  - split; [now left|]. intros y [->|[]]. lra.
  - destruct (IH (Rmin x z)) as [H1 H2]. split.
    + destruct H1 as [H1|H1]; [|right; now right]. rewrite <- H1.
      unfold Rmin. destruct (Rle_dec x z); [now left|right; now left].
    + intros y [<-|[<-|H]].
      * apply Rle_trans with (Rmin x z); [apply H2; now left|apply Rmin_l].
      * apply Rle_trans with (Rmin x z); [apply H2; now left|apply Rmin_r].
      * apply H2. now right.
Qed.

Lemma fold_max r x : (In (fold_left Rmax r x) (x :: r))
  /\ forall y, In y (x :: r) -> y <= fold_left Rmax r x.
Proof.
  revert x; induction r as [|z r IH]; intros x; cbn [fold_left].
  - split; [now left|]. intros y [->|[]]. lra.
  - destruct (IH (Rmax x z)) as [H1 H2]. split.
    + destruct H1 as [H1|H1]; [|right; now right]. rewrite <- H1.
      unfold Rmax. destruct (Rle_dec x z); [right; now left|now left].
    + intros y [<-|[<-|H]].
      * apply Rle_trans with (Rmax x z); [apply Rmax_l|apply H2; now left].
      * apply Rle_trans with (Rmax x z); [apply Rmax_r|apply H2; now left].
      * apply H2. now right.
Qed.

Lemma amin_spec a : a <> [] ->
  exists m, amin a = Ok m /\ In m a /\ forall y, In y a -> m <= y.
Proof.
  destruct a as [|x r]; [congruence|]. intros _. eexists. split; [reflexivity|]. apply fold_min.
Qed.

Lemma amax_spec a : a <> [] ->
  exists m, amax a = Ok m /\ In m a /\ forall y, In y a -> y <= m.
Proof.
  destruct a as [|x r]; [congruence|]. intros _. eexists. split; [reflexivity|]. apply fold_max.
Qed.

(** The coverage check decides whether the range is covered. *)
Theorem covered_spec rc rs : rc <> [] -> rs <> [] ->
  exists b, covered rc rs = Ok b /\ (b = true <-> within rc rs).
Proof.
  intros Hc Hs. destruct (amin_spec rs Hs) as (a & Ea & Ia & Ma).
  destruct (amin_spec rc Hc) as (b & Eb & Ib & Mb).
  destruct (amax_spec rc Hc) as (c & Ec & Ic & Mc).
  destruct (amax_spec rs Hs) as (d & Ed & Id & Md).
  unfold covered. rewrite Ea, Eb, Ec, Ed. cbn [bind]. unfold RTOL, within.
  destruct (Rleb ((1 - 1 / 100000) * a) b) eqn:E1.
  - apply Rleb_iff in E1. eexists. split; [reflexivity|]. rewrite Rleb_iff. split.
    + intros E2 x Hx. split.
      * exists a. split; [exact Ia|]. specialize (Mb x Hx). lra.
      * exists d. split; [exact Id|]. specialize (Mc x Hx). lra.
    + intros H. destruct (H c Ic) as [_ (y & Hy & E)]. specialize (Md y Hy). lra.
  - exists false. split; [reflexivity|]. split; [discriminate|]. intros H.
    destruct (H b Ib) as [(y & Hy & E) _]. specialize (Ma y Hy).
    enough (Rleb ((1 - 1 / 100000) * a) b = true) by congruence. apply Rleb_iff. lra.
Qed.

Lemma sequence_key {A} (l : list (res A)) :
  (forall x, In x l -> x = Err KeyError \/ exists a, x = Ok a) ->
  In (Err KeyError) l -> sequence l = Err KeyError.
Proof.
  induction l as [|x l IH]; intros H I; [contradiction|]. cbn [sequence].
  destruct (H x (or_introl eq_refl)) as [->|[a ->]]; [reflexivity|]. cbn [bind].
  destruct I as [I|I]; [discriminate|].
  rewrite IH; [reflexivity| |exact I]. intros y Hy. apply H. now right.
Qed.

(** One term, when everything it asks for is there. *)
Lemma term_cov_ok rQ ri ro m t a q : lookup ro m = Ok a -> a <> [] ->
  lookup rQ (t_Q t) = Ok q -> q <> [] ->
  (forall i, t_Z t = ZPole i -> exists r, zlookup ri (ZPole i) = Ok r /\ r <> []) ->
  exists w, term_coverage rQ ri ro m t = Ok w
    /\ (forall m' q', In (ByWindow m' q') w <-> m' = m /\ q' = t_Q t /\ ~ within a q)
    /\ (forall m' i, In (ByInput m' i) w <->
          m' = m /\ t_Z t = ZPole i /\ forall r, zlookup ri (ZPole i) = Ok r -> ~ within a r).
Proof.
  intros Ea Na Eq Nq Hz. unfold term_coverage. rewrite Ea, Eq. cbn [bind].
  destruct (covered_spec a q Na Nq) as (b & Eb & Sb). rewrite Eb. cbn [bind].
  destruct (t_Z t) as [i|] eqn:Et.
  - destruct (Hz i eq_refl) as (r & Er & Nr). rewrite Er. cbn [bind].
    destruct (covered_spec a r Na Nr) as (b' & Eb' & Sb'). rewrite Eb'. cbn [bind].
    eexists. split; [reflexivity|]. split.
    + intros m' q'. transitivity (b = false /\ m' = m /\ q' = t_Q t).
      * rewrite in_app_iff. destruct b, b'; cbn [In]; intuition (try congruence).
      * rewrite <- Sb. destruct b; intuition congruence.
    + intros m' i'. transitivity (b' = false /\ m' = m /\ i' = i).
      * rewrite in_app_iff. destruct b, b'; cbn [In]; intuition (try congruence).
      * split.
        -- intros (E & -> & ->). split; [reflexivity|split; [reflexivity|]].
           intros r' Er'. rewrite Er in Er'. injection Er' as <-. rewrite <- Sb'. congruence.
        -- intros (-> & E & H). split; [|split; [reflexivity|congruence]].
           destruct b'; [|reflexivity]. exfalso. injection E as E. subst i'.
           apply (H r Er). now apply Sb'.
  - eexists. split; [reflexivity|]. split.
    + intros m' q'. destruct b; cbn [In].
      * split; [tauto|]. intros (_ & _ & H). exfalso. now apply H, Sb.
      * split.
        -- intros [H|[]]. injection H as <- <-. split; [reflexivity|split; [reflexivity|]].
           intros K; apply Sb in K; discriminate.
        -- intros (-> & -> & _). now left.
    + intros m' i'. split; [|intros (_ & E & _); discriminate].
      destruct b; cbn [In]; intuition discriminate.
Qed.

(** The whole check, when everything is there. *)
Lemma coverage_ok raw f rQ ri ro : build_formulae raw = Ok f ->
  (forall m, In m (f_poles f) -> exists a, lookup ro m = Ok a /\ a <> []) ->
  (forall q, In q (f_Q f) -> exists a, lookup rQ q = Ok a /\ a <> []) ->
  (forall z, In z (f_Z f) -> exists r, zlookup ri (ZPole z) = Ok r /\ r <> []) ->
  exists w, coverage f rQ ri ro = Ok w
    /\ (forall m q, In (ByWindow m q) w <-> exists t, uses f m t /\ t_Q t = q
          /\ forall a r, lookup ro m = Ok a -> lookup rQ q = Ok r -> ~ within a r)
    /\ (forall m i, In (ByInput m i) w <-> exists t, uses f m t /\ t_Z t = ZPole i
          /\ forall a r, lookup ro m = Ok a -> zlookup ri (ZPole i) = Ok r -> ~ within a r).
Proof.
  intros B Ho HQ Hz.
  destruct (formulae_requirements raw f B) as (_ & _ & _ & _ & Rp & RQ & RZ & _).
  pose (tw := fun m t => match term_coverage rQ ri ro m t with Ok w => w | Err _ => [] end).
  pose (mw := fun m => match lookup (f_dict f) m with
                       | Ok ts => concat (map (tw m) ts) | Err _ => [] end).
  assert (T : forall m t, uses f m t -> exists a q, lookup ro m = Ok a
     /\ lookup rQ (t_Q t) = Ok q
     /\ term_coverage rQ ri ro m t = Ok (tw m t)
     /\ (forall m' q', In (ByWindow m' q') (tw m t) <-> m' = m /\ q' = t_Q t /\ ~ within a q)
     /\ (forall m' i, In (ByInput m' i) (tw m t) <->
          m' = m /\ t_Z t = ZPole i /\ forall r, zlookup ri (ZPole i) = Ok r -> ~ within a r)).
  { intros m t U. destruct (Ho m) as (a & Ea & Na).
    { apply Rp. destruct U as (ts & E & _). eauto. }
    destruct (HQ (t_Q t)) as (q & Eq & Nq). { apply RQ. eauto. }
    destruct (term_cov_ok rQ ri ro m t a q Ea Na Eq Nq) as (w & Ew & W1 & W2).
    { intros i Ei. apply Hz. apply RZ. eauto. }
    exists a, q. unfold tw. rewrite Ew. auto. }
  assert (M : forall m, In m (f_poles f) ->
     (ts <- lookup (f_dict f) m ;;
      us <- sequence (map (term_coverage rQ ri ro m) ts) ;; Ok (concat us)) = Ok (mw m)).
  { intros m Hm. apply Rp in Hm as [ts Ets]. unfold mw. rewrite Ets. cbn [bind].
    rewrite (sequence_map_ok _ (tw m)); [reflexivity|].
    intros t Ht. destruct (T m t) as (a & q & _ & _ & E & _); [exists ts; auto|exact E]. }
  exists (concat (map mw (f_poles f))). unfold coverage.
  rewrite (sequence_map_ok _ mw) by exact M. split; [reflexivity|].
  assert (I : forall u, In u (concat (map mw (f_poles f))) <->
                exists m t, uses f m t /\ In u (tw m t)).
  { intros u. rewrite in_concat. split.
    - intros (x & Hx & Hu). apply in_map_iff in Hx as (m & <- & Hm).
      unfold mw in Hu. destruct (lookup (f_dict f) m) as [ts|] eqn:E; [|contradiction].
      apply in_concat in Hu as (y & Hy & Hu). apply in_map_iff in Hy as (t & <- & Ht).
      exists m, t. split; [exists ts; auto|exact Hu].
    - intros (m & t & (ts & E & Ht) & Hu). exists (mw m). split.
      + apply in_map, Rp. eauto.
      + unfold mw. rewrite E. apply in_concat. exists (tw m t). split; [now apply in_map|exact Hu]. }
  split.
  - intros m q. rewrite I. split.
    + intros (m' & t & U & H). destruct (T m' t U) as (a & r & Ea & Er & _ & W & _).
      apply (proj1 (W _ _)) in H. destruct H as (E1 & E2 & H). subst m' q. exists t. split; [exact U|]. split; [reflexivity|].
      intros a' r' E E'. replace a' with a by congruence. replace r' with r by congruence. exact H.
    + intros (t & U & <- & H). exists m, t. split; [exact U|].
      destruct (T m t U) as (a & r & Ea & Er & _ & W & _). apply W. auto.
  - intros m i. rewrite I. split.
    + intros (m' & t & U & H). destruct (T m' t U) as (a & r & Ea & Er & _ & _ & W).
      apply (proj1 (W _ _)) in H. destruct H as (E1 & Ei & H). subst m'. exists t. split; [exact U|]. split; [exact Ei|].
      intros a' r' E E'. replace a' with a by congruence. auto.
    + intros (t & U & Ei & H). exists m, t. split; [exact U|].
      destruct (T m t U) as (a & r & Ea & Er & _ & _ & W). apply W. eauto.
Qed.

Lemma fold_store_vals {A} (l d : mdict A) k a :
  In (k, a) (fold_left (fun d kb => store d (fst kb) (snd kb)) l d) ->
  (exists k', In (k', a) d) \/ (exists k', In (k', a) l).
Proof.
  revert d; induction l as [|[k1 a1] l IH]; intros d H; cbn [fold_left fst snd] in H.
  - left. eauto.
  - apply IH in H as [[k' H]|[k' H]]; [|right; exists k'; now right].
    assert (S : exists k'', In (k'', a) d \/ a = a1).
    { clear IH. revert H. induction d as [|[k2 a2] d IH]; cbn [store].
      - intros [H|[]]. injection H as <- <-. exists k1. now right.
      - destruct (meq k2 k1); cbn [In]; intros [H|H].
        + injection H as <- <-. exists k1. now right.
        + exists k'. left. now right.
        + injection H as <- <-. exists k2. left. now left.
        + destruct (IH H) as [k'' [K|K]]; exists k''; [left; now right|now right]. }
    destruct S as [k'' [S| ->]]; [left; eauto|]. right. exists k1. now left.
Qed.

Lemma coerce_vals {A} (l : list (mlike * A)) d k a : coerce l = Ok d -> In (k, a) d ->
  exists k', In (k', a) l.
Proof.
  unfold coerce. intros H I. apply bind_ok in H as (r & Hr & H). injection H as <-.
  apply fold_store_vals in I as [[k' []]|[k' I]].
  clear k. revert r Hr I. induction l as [|[k0 a0] l IH]; cbn [map sequence fst snd]; intros r Hr I.
  - injection Hr as <-. contradiction.
  - apply bind_ok in Hr as (x & Hx & Hr). apply bind_ok in Hr as (y & Hy & Hr).
    injection Hr as <-. apply bind_ok in Hx as (k1 & _ & Hx). injection Hx as <-.
    destruct I as [I|I].
    + injection I as <- <-. exists k0. now left.
    + destruct (IH y Hy I) as [k2 H]. exists k2. now right.
Qed.

Lemma filled_lookup l d k a : filled (Each l) -> coerce l = Ok d -> lookup d k = Ok a -> a <> [].
Proof.
  intros F H E. apply lookup_some_in in E. destruct (coerce_vals l d k a H E) as [k' H'].
  exact (F k' a H').
Qed.

Lemma base_filled {A} f ws (wm : list (mlike * A)) rQ Q : filled ws ->
  base_init f ws wm = Ok (rQ, Q) ->
  forall q, In q (f_Q f) -> exists a, lookup rQ q = Ok a /\ a <> [].
Proof.
  intros F H q Hq. destruct (base_init_ok f ws wm rQ Q H q Hq) as (a & v & Ea & _).
  exists a. split; [exact Ea|]. unfold base_init in H. destruct (f_Z f) as [|z0 zs0]; [discriminate|].
  apply bind_ok in H as (rQ' & E & H). apply bind_ok in H as (Q' & E' & H).
  destruct (negb (subset_keys (f_Q f) rQ')); [discriminate|].
  destruct (negb (subset_keys (f_Q f) Q')); [discriminate|]. injection H as -> ->.
  destruct ws as [r|l].
  - eapply (filled_lookup (map (fun kv => (fst kv, r)) wm)); [|exact E|exact Ea].
    intros k x I. apply in_map_iff in I as ([k1 x1] & I & _). injection I as _ <-. exact F.
  - eapply (filled_lookup l); eassumption.
Qed.

Lemma combine_in {A} (l : list (mlike * A)) ks key r k : keys_of l ks ->
  In (key, r) l -> multipole key = Ok k -> In (k, r) (combine ks (map snd l)).
Proof.
  unfold keys_of. revert ks. induction l as [|[k0 a0] l IH]; intros ks K I E; [contradiction|].
  cbn [map sequence fst snd] in *. apply bind_ok in K as (k1 & E1 & K).
  apply bind_ok in K as (k2 & E2 & K). injection K as <-. cbn [combine].
  destruct I as [I|I]; [|right; now apply IH]. injection I as -> ->. left. congruence.
Qed.

(** A dictionary holding just the multipoles needed is accepted, kept as
    given, and warned about exactly where a range is not covered. *)
Theorem points_accepted {A} raw f ws (wm : list (mlike * A)) rQ Q l ks ro s :
  build_formulae raw = Ok f -> base_init f ws wm = Ok (rQ, Q) -> filled ws ->
  keys_of l ks -> NoDup ks -> (forall k, In k ks <-> In k (f_Z f)) -> filled (Each l) ->
  ro <> [] ->
  exists c w, new_conv f ws wm (Each l) (Some (One ro)) s = Ok (c, w)
    /\ c_f c = f /\ c_rQ c = rQ /\ c_Q c = Q /\ c_spline c = s
    /\ (forall key r k, In (key, r) l -> multipole key = Ok k ->
          zlookup (c_rin c) (ZPole k) = Ok r)
    /\ (forall m, In m (f_poles f) -> lookup (c_rout c) m = Ok ro)
    /\ (forall m q, In (ByWindow m q) w <-> exists t r, uses f m t /\ t_Q t = q
          /\ lookup rQ q = Ok r /\ ~ within ro r)
    /\ (forall m i, In (ByInput m i) w <-> exists t r, uses f m t /\ t_Z t = ZPole i
          /\ zlookup (c_rin c) (ZPole i) = Ok r /\ ~ within ro r).
Proof.
  intros B Hb Fw K N KZ Fl Hro. pose proof (coerce_plain l ks K N) as Hd.
  set (d := combine ks (map snd l)) in *.
  assert (Dk : map fst d = ks).
  { apply map_fst_combine. rewrite map_length. apply (keys_length l ks K). }
  destruct (formulae_requirements raw f B) as (Np & _ & _ & _ & Rp & RQ & RZ & _).
  set (ri := map (fun kv : list Z * list R => (ZPole (fst kv), snd kv)) d).
  set (rod := map (fun m : list Z => (m, ro)) (f_poles f)).
  assert (HQ := base_filled f ws wm rQ Q Fw Hb).
  assert (Ho : forall m, In m (f_poles f) -> lookup rod m = Ok ro).
  { intros m Hm. now apply (lookup_on_keys (fun _ => ro)). }
  assert (Hz : forall z, In z (f_Z f) -> exists r, zlookup ri (ZPole z) = Ok r /\ r <> []).
  { intros z Hz. apply KZ in Hz. rewrite <- Dk in Hz. apply lookup_in in Hz as [r Er].
    exists r. unfold ri. rewrite zlookup_poles. split; [exact Er|]. eapply filled_lookup; eassumption. }
  destruct (coverage_ok raw f rQ ri rod B) as (w & Ew & W1 & W2); [|exact HQ|exact Hz|].
  { intros m Hm. exists ro. auto. }
  exists (mk_conv f rQ Q ri rod s), w. cbn [c_f c_rQ c_Q c_spline c_rin c_rout].
  split.
  { unfold new_conv. rewrite Hb. cbn [bind fst snd]. unfold initialise_sampts.
    rewrite (input_points_each f l d Hd) by (intros k; rewrite Dk; apply KZ).
    cbn [bind]. fold ri. cbn [output_points bind]. fold rod. rewrite Ew. reflexivity. }
  do 4 (split; [reflexivity|]). split; [|split; [exact Ho|split]].
  - intros key r k I E. unfold ri. rewrite zlookup_poles.
    apply in_lookup; [now rewrite Dk|]. now apply (combine_in l ks key r k).
  - intros m q. rewrite W1. split.
    + intros (t & U & <- & H). destruct (HQ (t_Q t)) as (r & Er & _). { apply RQ. eauto. }
      exists t, r. repeat (split; [assumption || reflexivity|]). apply H; [|exact Er].
      apply Ho, Rp. destruct U as (ts & E & _). eauto.
    + intros (t & r & U & <- & Er & H). exists t. split; [exact U|]. split; [reflexivity|].
      intros a r' Ea Er'. rewrite Ho in Ea by (apply Rp; destruct U as (ts & E & _); eauto).
      replace a with ro by congruence. now replace r' with r by congruence.
  - intros m i. rewrite W2. split.
    + intros (t & U & Ei & H). destruct (Hz i) as (r & Er & _). { apply RZ. eauto. }
      exists t, r. repeat (split; [assumption || reflexivity|]). apply H; [|exact Er].
      apply Ho, Rp. destruct U as (ts & E & _). eauto.
    + intros (t & r & U & Ei & Er & H). exists t. split; [exact U|]. split; [exact Ei|].
      intros a r' Ea Er'. rewrite Ho in Ea by (apply Rp; destruct U as (ts & E & _); eauto).
      replace a with ro by congruence. now replace r' with r by congruence.
Qed.

(** A dictionary that lacks a multipole the formulae need is not refused by
    the check meant for it: a KeyError surfaces from the check of ranges. *)
Theorem missing_points_error {A} raw f ws (wm : list (mlike * A)) rQ Q l ks ro s z :
  build_formulae raw = Ok f -> base_init f ws wm = Ok (rQ, Q) -> filled ws ->
  keys_of l ks -> (forall k, In k ks -> In k (f_Z f)) -> filled (Each l) ->
  ro <> [] -> In z (f_Z f) -> ~ In z ks ->
  new_conv f ws wm (Each l) (Some (One ro)) s = Err KeyError.
Proof.
  intros B Hb Fw K KZ Fl Hro Hz Nz. destruct (coerce_keys l ks K) as (d & Hd & Nd & Dk).
  destruct (formulae_requirements raw f B) as (Np & _ & _ & _ & Rp & RQ & RZ & _).
  set (ri := map (fun kv : list Z * list R => (ZPole (fst kv), snd kv)) d).
  set (rod := map (fun m : list Z => (m, ro)) (f_poles f)).
  assert (HQ := base_filled f ws wm rQ Q Fw Hb).
  assert (Ho : forall m, In m (f_poles f) -> lookup rod m = Ok ro).
  { intros m Hm. now apply (lookup_on_keys (fun _ => ro)). }
  assert (T : forall m t, uses f m t ->
     (term_coverage rQ ri rod m t = Err KeyError \/ exists w, term_coverage rQ ri rod m t = Ok w)
     /\ (t_Z t = ZPole z -> term_coverage rQ ri rod m t = Err KeyError)).
  { intros m t U. assert (Hm : In m (f_poles f)) by (apply Rp; destruct U as (ts & E & _); eauto).
    destruct (HQ (t_Q t)) as (q & Eq & Nq). { apply RQ. eauto. }
    unfold term_coverage. rewrite (Ho m Hm), Eq. cbn [bind].
    destruct (covered_spec ro q Hro Nq) as (b & -> & _). cbn [bind].
    destruct (t_Z t) as [i|] eqn:Et; [|split; [right; eauto|discriminate]].
    unfold ri. rewrite zlookup_poles. destruct (lookup d i) as [r|e] eqn:E.
    - assert (Nr : r <> []) by (eapply filled_lookup; eassumption).
      destruct (covered_spec ro r Hro Nr) as (b' & Eb' & _). cbn [bind]. rewrite Eb'. cbn [bind].
      split; [right; eauto|]. intros H. injection H as ->. exfalso. apply Nz, Dk, lookup_in. eauto.
    - assert (e = KeyError) as ->.
      { rewrite lookup_none in E; [congruence|]. intros I. apply lookup_in in I as [x I]. congruence. }
      split; [now left|reflexivity]. }
  unfold new_conv. rewrite Hb. cbn [bind fst snd]. unfold initialise_sampts.
  rewrite (input_points_each f l d Hd) by (intros k Hk; apply KZ, Dk, Hk).
  cbn [bind]. fold ri. cbn [output_points bind]. fold rod.
  assert (E : coverage f rQ ri rod = Err KeyError); [|now rewrite E].
  unfold coverage. rewrite sequence_key; [reflexivity| |].
  - intros x Hx. apply in_map_iff in Hx as (m & <- & Hm). apply Rp in Hm as [ts Ets].
    rewrite Ets. cbn [bind].
    destruct (sequence (map (term_coverage rQ ri rod m) ts)) as [us|e] eqn:E; cbn [bind]; [right; eauto|].
    left. f_equal. assert (F : forall t, In t ts -> term_coverage rQ ri rod m t = Err KeyError
        \/ exists w, term_coverage rQ ri rod m t = Ok w).
    { intros t Ht. apply T. exists ts. auto. }
    clear - E F. revert e E. induction ts as [|t ts IH]; cbn [map sequence]; intros e E; [discriminate|].
    destruct (F t (or_introl eq_refl)) as [H|[w H]]; rewrite H in E; cbn [bind] in E; [congruence|].
    destruct (sequence (map _ ts)) eqn:E2; [discriminate|]. cbn [bind] in E. injection E as <-.
    apply IH; [|reflexivity]. intros t' Ht'. apply F. now right.
  - apply RZ in Hz as (m & t & U & Et). apply in_map_iff. exists m.
    destruct U as (ts & Ets & Ht). split; [|apply Rp; eauto].
    rewrite Ets. cbn [bind]. rewrite sequence_key; [reflexivity| |].
    + intros x Hx. apply in_map_iff in Hx as (t' & <- & Ht'). apply T. exists ts. auto.
    + apply in_map_iff. exists t. split; [|exact Ht]. apply T; [exists ts; auto|exact Et].
Qed.

Lemma zlookup_one f (r : list R) z : In z (f_zkeys f) ->
  zlookup (map (fun z => (z, r)) (f_zkeys f)) z = Ok r.
Proof.
  induction (f_zkeys f) as [|k ks IH]; [contradiction|]. cbn [map zlookup In].
  intros H. destruct (zeq k z) eqn:E; [reflexivity|]. apply IH. destruct H as [->|H]; [|exact H].
  now rewrite (proj2 (zeq_spec z z) eq_refl) in E.
Qed.

Lemma zlookup_one_none f (r : list R) z : ~ In z (f_zkeys f) ->
  zlookup (map (fun z => (z, r)) (f_zkeys f)) z = Err KeyError.
Proof.
  induction (f_zkeys f) as [|k ks IH]; [reflexivity|]. cbn [map zlookup In]. intros H.
  destruct (zeq k z) eqn:E; [apply zeq_spec in E; tauto|]. apply IH. tauto.
Qed.

Lemma in_zkeys f k : In (ZPole k) (f_zkeys f) <-> In k (f_Z f).
Proof.
  rewrite <- existsb_zpole, existsb_exists. split.
  - intros H. exists (ZPole k). split; [exact H|]. now apply zeq_spec.
  - intros (z & H & E). apply zeq_spec in E. now subst.
Qed.

Lemma on_keys_key {B} (g : list Z -> res B) ks :
  (forall k, In k ks -> g k = Err KeyError \/ exists b, g k = Ok b) ->
  (exists k, In k ks /\ g k = Err KeyError) -> on_keys g ks = Err KeyError.
Proof.
  intros H (k & Hk & E). unfold on_keys. rewrite sequence_key; [reflexivity| |].
  - intros x Hx. apply in_map_iff in Hx as (k' & <- & Hk').
    destruct (H k' Hk') as [->|[b ->]]; cbn [bind]; eauto.
  - apply in_map_iff. exists k. split; [|exact Hk]. now rewrite E.
Qed.

(** One array for every input multipole and no output points: the output
    points are that array, when every output multipole is an input one, and
    otherwise the refusal is a ValueError. *)
Theorem array_points {A} raw f ws (wm : list (mlike * A)) rQ Q r s :
  build_formulae raw = Ok f -> base_init f ws wm = Ok (rQ, Q) -> filled ws -> r <> [] ->
  ((forall m, In m (f_poles f) -> In m (f_Z f)) ->
     exists c w, new_conv f ws wm (One r) None s = Ok (c, w)
       /\ c_f c = f /\ c_rQ c = rQ /\ c_Q c = Q /\ c_spline c = s
       /\ (forall z, In z (f_zkeys f) -> zlookup (c_rin c) z = Ok r)
       /\ (forall m, In m (f_poles f) -> lookup (c_rout c) m = Ok r))
  /\ ((exists m, In m (f_poles f) /\ ~ In m (f_Z f)) ->
     new_conv f ws wm (One r) None s = Err ValueError).
Proof.
  intros B Hb Fw Hr.
  destruct (formulae_requirements raw f B) as (Np & _ & _ & _ & Rp & RQ & RZ & _).
  assert (HQ := base_filled f ws wm rQ Q Fw Hb).
  set (ri := map (fun z : zkey => (z, r)) (f_zkeys f)).
  unfold new_conv. rewrite Hb. cbn [bind fst snd]. unfold initialise_sampts.
  cbn [input_points bind]. fold ri. unfold output_points. split.
  - intros HZ. rewrite (on_keys_ok _ (fun _ => r) _ Np).
    2: { intros k Hk. apply zlookup_one, in_zkeys, HZ, Hk. }
    cbn [key_to_value bind].
    destruct (coverage_ok raw f rQ ri (map (fun m => (m, r)) (f_poles f)) B) as (w & Ew & _).
    + intros m Hm. exists r. split; [now apply (lookup_on_keys (fun _ => r))|exact Hr].
    + exact HQ.
    + intros z Hz. exists r. split; [now apply zlookup_one, in_zkeys|exact Hr].
    + rewrite Ew. cbn [bind]. do 2 eexists. split; [reflexivity|]. cbn [c_f c_rQ c_Q c_spline c_rin c_rout fst snd].
      do 4 (split; [reflexivity|]). split; [intros z Hz; now apply zlookup_one|].
      intros m Hm. now apply (lookup_on_keys (fun _ => r)).
  - intros (m & Hm & Nm). rewrite on_keys_key; [reflexivity| |].
    + intros k Hk. destruct (in_dec (list_eq_dec Z.eq_dec) k (f_Z f)) as [I|I].
      * right. exists r. now apply zlookup_one, in_zkeys.
      * left. apply zlookup_one_none. now rewrite in_zkeys.
    + exists m. split; [exact Hm|]. apply zlookup_one_none. now rewrite in_zkeys.
Qed.

(** The named two-point formulae as the dictionary literal. *)
Definition wilson_raw : list (mlike * list raw_term) :=
  map (fun l => (MInt (Z.of_nat l),
        match wilson16 l with
        | Ok ts => map (fun t => let '(q, z, c) := t in
                          (MInt (Z.of_nat q), MInt (Z.of_nat z), c)) ts
        | Err _ => []
        end)) [0%nat; 2%nat; 4%nat].

Definition wilson_window : list (mlike * list R) :=
  map (fun q => (MInt q, [1; 1])) [0; 2; 4; 6; 8]%Z.

(** As stated the property fails both ways: with the named two-point formulae,
    points given for a multipole more than needed are refused, and points
    lacking a multipole that is needed are not refused with ValueError. *)
Theorem points_refuted : exists f,
  build_formulae wilson_raw = Ok f /\ f_Z f = [[0]; [2]; [4]]%Z
  /\ new_conv f (One [1; 2]) wilson_window
       (Each (map (fun k => (MInt k, [1; 2])) [0; 2; 4; 6]%Z)) (Some (One [1; 2])) 1
     = Err ValueError
  /\ new_conv f (One [1; 2]) wilson_window
       (Each (map (fun k => (MInt k, [1; 2])) [0; 2]%Z)) (Some (One [1; 2])) 1
     = Err KeyError.
Proof.
  destruct (build_formulae wilson_raw) as [f|e] eqn:B; [|vm_compute in B; discriminate].
  exists f. split; [reflexivity|].
  assert (Z : f_Z f = [[0]; [2]; [4]]%Z) by (vm_compute in B; now injection B as <-).
  split; [exact Z|]. split.
  - apply (extra_points_refused f _ _ _ [[0]; [2]; [4]; [6]]%Z [6]%Z); [reflexivity|cbn; tauto|].
    rewrite Z. cbn. intuition congruence.
  - destruct (base_init f (One [1; 2]) wilson_window) as [[rQ Q]|e] eqn:Hb.
    + apply (missing_points_error wilson_raw f _ _ rQ Q _ [[0]; [2]]%Z [1; 2] 1 [4]%Z B Hb);
        rewrite ?Z; try (cbn; intuition congruence); try reflexivity.
    + vm_compute in B. injection B as <-. vm_compute in Hb. discriminate.
Qed.

Print Assumptions formulae_requirements.
Print Assumptions extra_points_refused.
Print Assumptions covered_spec.
Print Assumptions points_accepted.
Print Assumptions missing_points_error.
Print Assumptions array_points.
Print Assumptions points_refuted.
