(* Window convolution: the sums and the integral constraint (C62, C63). *)
From Coq Require Import String.
From Coq Require Import Reals ZArith List Lia Lra Bool Permutation.
From Coquelicot Require Import Complex.
From Verif Require Import Base ArrayModel ArrayProofs Array2dModel RSum MultipoleModel
  WindowModel WindowProps WinFormulaModel WinConvModel WinConvProps.
Import ListNotations.
Local Open Scope R_scope.

(* ------------------------------------------------------------------ *)
(* Vocabulary                                                          *)

Definition lincomb (a : R) (x : list R) (b : R) (y : list R) : list R :=
  map (fun p => a * fst p + b * snd p) (combine x y).

(** Assumptions on interpolation, each made only where it is named: linear in
    the samples; through the samples; constant for constant samples. *)
Definition linear1 (spl1 : nat -> bool -> list R -> list R -> res (R -> R)) : Prop :=
  forall k e x y z fy fz a b, spl1 k e x y = Ok fy -> spl1 k e x z = Ok fz ->
    exists g, spl1 k e x (lincomb a y b z) = Ok g /\ forall r, g r = a * fy r + b * fz r.
Definition exact1 (spl1 : nat -> bool -> list R -> list R -> res (R -> R)) : Prop :=
  forall k e x y f, spl1 k e x y = Ok f -> length y = length x
    /\ forall i, (i < length x)%nat -> f (nth i x 0) = nth i y 0.
Definition const1 (spl1 : nat -> bool -> list R -> list R -> res (R -> R)) : Prop :=
  forall k e x c f, spl1 k e x (repeat c (length x)) = Ok f -> forall r, f r = c.

(** The product of a term at a separation, without its coefficient: the
    splines through the window and the input multipole. *)
Definition product2 (spl1 : nat -> bool -> list R -> list R -> res (R -> R))
    (c : conv (list R)) (xi : list (mlike * list R)) (t : cterm) (g : R -> R) : Prop :=
  exists rq q fq rz x fz,
    lookup (c_rQ c) (t_Q t) = Ok rq /\ lookup (c_Q c) (t_Q t) = Ok q
    /\ spl1 (c_spline c) true rq q = Ok fq
    /\ zlookup (c_rin c) (t_Z t) = Ok rz /\ raw_lookup xi (t_Z t) = Ok x
    /\ spl1 (c_spline c) false rz x = Ok fz
    /\ forall r, g r = fq r * fz r.

(* ------------------------------------------------------------------ *)
(* Sums of arrays                                                      *)

Lemma on_keys_inv {B} (g : list Z -> res B) ks out : NoDup ks -> on_keys g ks = Ok out ->
  map fst out = ks /\ forall k, In k ks -> exists b, g k = Ok b /\ lookup out k = Ok b.
Proof.
  intros N H. unfold on_keys in H. apply bind_ok in H as (l & Hl & H).
  assert (E : map fst l = ks /\ forall k, In k ks -> exists b, g k = Ok b /\ In (k, b) l).
  { clear H N. revert l Hl. induction ks as [|k ks IH]; cbn [map sequence]; intros l H.
    - injection H as <-. split; [reflexivity|]. intros k [].
    - apply bind_ok in H as (kb & E & H). apply bind_ok in E as (b & E & Eb). injection Eb as <-.
      apply bind_ok in H as (l' & El & H). injection H as <-.
      destruct (IH l' El) as [H1 H2]. split; [cbn [map fst]; now f_equal|].
      intros k' [<-|Hk]; [exists b; split; [exact E|now left]|].
      destruct (H2 k' Hk) as (b' & Eb' & I). exists b'. split; [exact Eb'|now right]. }
  destruct E as [E1 E2]. rewrite store_all in H by (cbn [app]; now rewrite E1).
  cbn [app] in H. injection H as <-. split; [exact E1|]. intros k Hk.
  destruct (E2 k Hk) as (b & Eb & I). exists b. split; [exact Eb|].
  apply in_lookup; [now rewrite E1|exact I].
Qed.

Lemma vsum_map (hs : list (R -> R)) ro : hs <> [] ->
  vsum (map (fun h => map h ro) hs) = map (fun r => rsum (map (fun h => h r) hs)) ro.
Proof.
  intros N. unfold vsum.
  replace (length (nth 0 (map (fun h => map h ro) hs) [])) with (length ro)
    by (destruct hs; [congruence|cbn [map nth]; now rewrite map_length]).
  rewrite (map_by_index (fun r => rsum (map (fun h => h r) hs)) ro 0).
  apply map_ext_in. intros i Hi. apply in_seq in Hi. rewrite map_map. f_equal.
  apply map_ext. intros h. rewrite (nth_indep (map h ro) 0 (h 0)) by (rewrite map_length; lia).
  apply map_nth.
Qed.

Lemma grid_row h ro i : (i < length ro)%nat ->
  nth i (grid h ro) [] = map (h (nth i ro 0)) ro.
Proof.
  intros Hi. unfold grid.
  rewrite (nth_indep (map (fun x => map (fun y => h x y) ro) ro) [] (map (fun y => h 0 y) ro))
    by (rewrite map_length; exact Hi).
  apply (map_nth (fun x => map (fun y => h x y) ro) ro 0 i).
Qed.

Lemma msum_grid (hs : list (R -> R -> R)) ro : hs <> [] ->
  msum (map (fun h => grid h ro) hs) = grid (fun x y => rsum (map (fun h => h x y) hs)) ro.
Proof.
  intros N. unfold msum.
  replace (length (nth 0 (map (fun h => grid h ro) hs) [])) with (length ro)
    by (destruct hs; [congruence|cbn [map nth]; unfold grid; now rewrite map_length]).
  unfold grid at 2. rewrite (map_by_index (fun x => map _ ro) ro 0).
  apply map_ext_in. intros i Hi. apply in_seq in Hi. rewrite map_map.
  rewrite (map_ext_in _ (fun h => map (h (nth i ro 0)) ro))
    by (intros h _; apply grid_row; lia).
  rewrite <- (map_map (fun h => h (nth i ro 0)) (fun g => map g ro)).
  rewrite vsum_map by (destruct hs; [congruence|discriminate]).
  apply map_ext. intros y. now rewrite map_map.
Qed.

Lemma Forall2_exists {A B} (P : A -> B -> Prop) l :
  (forall a, In a l -> exists b, P a b) -> exists bs, Forall2 P l bs.
Proof.
  induction l as [|a l IH]; intros H; [exists []; constructor|].
  destruct (H a (or_introl eq_refl)) as [b Hb]. destruct IH as [bs Hbs].
  - intros x Hx. apply H. now right.
  - exists (b :: bs). now constructor.
Qed.

Lemma sequence_forall2 {A B} (g : A -> res B) l bs :
  sequence (map g l) = Ok bs <-> Forall2 (fun a b => g a = Ok b) l bs.
Proof.
  revert bs; induction l as [|a l IH]; cbn [map sequence]; intros bs; split; intros H.
  - injection H as <-. constructor.
  - now inversion H.
  - apply bind_ok in H as (b & E & H). apply bind_ok in H as (bs' & E' & H). injection H as <-.
    constructor; [exact E|]. now apply IH.
  - inversion H as [|? b ? bs' E H']; subst. rewrite E. cbn [bind].
    rewrite (proj2 (IH bs') H'). reflexivity.
Qed.

Section Two.
Variable spl1 : nat -> bool -> list R -> list R -> res (R -> R).

Lemma summand2_ok c xi m t v : summand2 spl1 c xi m t = Ok v <->
  exists g ro, product2 spl1 c xi t g /\ lookup (c_rout c) m = Ok ro
    /\ v = map (fun r => t_c t * g r) ro.
Proof.
  unfold summand2, product2. split.
  - intros H. apply bind_ok in H as (rq & E1 & H). apply bind_ok in H as (q & E2 & H).
    apply bind_ok in H as (fq & E3 & H). apply bind_ok in H as (ro & E4 & H).
    apply bind_ok in H as (rz & E5 & H). apply bind_ok in H as (x & E6 & H).
    apply bind_ok in H as (fz & E7 & H). injection H as <-.
    exists (fun r => fq r * fz r), ro. split; [|split; [exact E4|]].
    + exists rq, q, fq, rz, x, fz. auto 10.
    + apply map_ext. intros r. ring.
  - intros (g & ro & (rq & q & fq & rz & x & fz & E1 & E2 & E3 & E5 & E6 & E7 & Eg) & E4 & ->).
    rewrite E1, E2. cbn [bind]. rewrite E3, E4, E5. cbn [bind]. rewrite E6. cbn [bind].
    rewrite E7. cbn [bind]. f_equal. apply map_ext. intros r. rewrite Eg. ring.
Qed.

(** Every output multipole is, at every output separation, the sum over the
    terms of its formula of coefficient times window times input; and the
    convolution succeeds as soon as every term can be read. *)
Theorem convolve2_sum raw c xi : build_formulae raw = Ok (c_f c) ->
  (forall out, convolve2 spl1 c xi = Ok out ->
     map fst out = f_poles (c_f c)
     /\ forall m ts, lookup (f_dict (c_f c)) m = Ok ts -> ts <> [] ->
        exists ro gs, lookup (c_rout c) m = Ok ro /\ Forall2 (product2 spl1 c xi) ts gs
          /\ lookup out m
             = Ok (map (fun r => rsum (map (fun tg => t_c (fst tg) * snd tg r) (combine ts gs))) ro))
  /\ ((forall m t, uses (c_f c) m t -> exists g, product2 spl1 c xi t g) ->
      (forall m, In m (f_poles (c_f c)) -> exists ro, lookup (c_rout c) m = Ok ro) ->
      exists out, convolve2 spl1 c xi = Ok out).
Proof.
  intros B. destruct (formulae_requirements raw _ B) as (Np & _ & _ & _ & Rp & _).
  split.
  - intros out H. unfold convolve2 in H. destruct (on_keys_inv _ _ _ Np H) as [H1 H2].
    split; [exact H1|]. intros m ts Ets Nts.
    destruct (H2 m) as (v & Ev & Lv); [apply Rp; eauto|]. rewrite Ets in Ev. cbn [bind] in Ev.
    apply bind_ok in Ev as (ss & Es & Ev). injection Ev as <-.
    apply sequence_forall2 in Es.
    assert (K : exists ro, lookup (c_rout c) m = Ok ro).
    { destruct Es as [|t s ts ss E _]; [congruence|]. apply summand2_ok in E as (g & ro & _ & E & _). eauto. }
    destruct K as [ro Ero].
    assert (G : exists gs, Forall2 (product2 spl1 c xi) ts gs
       /\ ss = map (fun h => map h ro) (map (fun tg r => t_c (fst tg) * snd tg r) (combine ts gs))).
    { clear - Es Ero. induction Es as [|t s ts ss E _ (gs & IH1 & IH2)].
      - exists []. split; [constructor|reflexivity].
      - apply summand2_ok in E as (g & ro' & P & E & ->). exists (g :: gs).
        split; [now constructor|]. cbn [combine map fst snd]. rewrite <- IH2.
        f_equal. now replace ro' with ro by congruence. }
    destruct G as (gs & G & ->). exists ro, gs. split; [exact Ero|]. split; [exact G|].
    rewrite Lv. f_equal. rewrite vsum_map.
    + apply map_ext. intros r. now rewrite map_map.
    + destruct G; [congruence|discriminate].
  - intros HT HO. unfold convolve2.
    assert (K : forall m, In m (f_poles (c_f c)) -> exists v,
      (ts <- lookup (f_dict (c_f c)) m ;;
       ss <- sequence (map (summand2 spl1 c xi m) ts) ;; Ok (vsum ss)) = Ok v).
    { intros m Hm. destruct (HO m Hm) as [ro Ero]. apply Rp in Hm as [ts Ets].
      rewrite Ets. cbn [bind].
      destruct (Forall2_exists (fun t s => summand2 spl1 c xi m t = Ok s) ts) as [ss Hss].
      - intros t Ht. destruct (HT m t) as [g Hg]; [exists ts; auto|].
        eexists. apply summand2_ok. exists g, ro. auto.
      - apply sequence_forall2 in Hss. rewrite Hss. cbn [bind]. eauto. }
    revert K. generalize (f_poles (c_f c)). intros ks K. unfold on_keys.
    destruct (Forall2_exists (fun k b =>
       (x <- (ts <- lookup (f_dict (c_f c)) k ;;
         ss <- sequence (map (summand2 spl1 c xi k) ts) ;; Ok (vsum ss)) ;; Ok (k, x)) = Ok b) ks) as [bs Hbs].
    { intros k Hk. destruct (K k Hk) as [v Ev]. exists (k, v). now rewrite Ev. }
    apply sequence_forall2 in Hbs. rewrite Hbs. cbn [bind]. eauto.
Qed.

Lemma raw_as_keys {A} (d : mdict A) k : raw_lookup (as_keys d) (ZPole k) = lookup d k.
Proof.
  induction d as [|[k' a] d IH]; [reflexivity|].
  cbn [as_keys map raw_lookup lookup samekey fst snd]. unfold as_keys in IH. now rewrite IH.
Qed.

Lemma raw_as_keys_ic {A} (d : mdict A) : raw_lookup (as_keys d) ZIc = Err KeyError.
Proof. induction d as [|[k' a] d IH]; [reflexivity|]. exact IH. Qed.

(** The convolution is linear in the input multipoles. *)
Theorem convolve2_linear raw c a b xi xj xk u v : build_formulae raw = Ok (c_f c) ->
  linear1 spl1 ->
  (forall k x y, lookup xi k = Ok x -> lookup xj k = Ok y -> lookup xk k = Ok (lincomb a x b y)) ->
  convolve2 spl1 c (as_keys xi) = Ok u -> convolve2 spl1 c (as_keys xj) = Ok v ->
  exists w, convolve2 spl1 c (as_keys xk) = Ok w
    /\ forall m x y, lookup u m = Ok x -> lookup v m = Ok y ->
         lookup w m = Ok (lincomb a x b y).
Proof.
  intros B L HK Hu Hv.
  destruct (formulae_requirements raw _ B) as (Np & _ & _ & _ & Rp & _).
  assert (P : forall m t ro x y, summand2 spl1 c (as_keys xi) m t = Ok x ->
     summand2 spl1 c (as_keys xj) m t = Ok y -> lookup (c_rout c) m = Ok ro ->
     exists hx hy, x = map hx ro /\ y = map hy ro /\
       summand2 spl1 c (as_keys xk) m t = Ok (map (fun r => a * hx r + b * hy r) ro)).
  { intros m t ro x y Ex Ey Ero. apply summand2_ok in Ex as (g & ro1 & Px & E1 & ->).
    apply summand2_ok in Ey as (h & ro2 & Py & E2 & ->).
    replace ro1 with ro by congruence. replace ro2 with ro by congruence.
    destruct Px as (rq & q & fq & rz & x & fz & A1 & A2 & A3 & A5 & A6 & A7 & Ag).
    destruct Py as (rq' & q' & fq' & rz' & y & fz' & B1 & B2 & B3 & B5 & B6 & B7 & Bg).
    rewrite A1 in B1. injection B1 as <-. rewrite A2 in B2. injection B2 as <-.
    rewrite A3 in B3. injection B3 as <-. rewrite A5 in B5. injection B5 as <-.
    destruct (L _ _ _ _ _ _ _ a b A7 B7) as (k & Ek & Kk).
    do 2 eexists. split; [reflexivity|]. split; [reflexivity|]. apply summand2_ok.
    exists (fun r => fq r * k r), ro. split; [|split; [exact Ero|]].
    - destruct (t_Z t) as [i|] eqn:Et; [|now rewrite raw_as_keys_ic in A6].
      rewrite raw_as_keys in A6, B6.
      exists rq, q, fq, rz, (lincomb a x b y), k. rewrite Et, raw_as_keys.
      repeat (split; [auto|]). reflexivity.
    - apply map_ext. intros r. cbv beta. rewrite Ag, Bg, Kk. ring. }
  unfold convolve2 in Hu, Hv.
  destruct (on_keys_inv _ _ _ Np Hu) as [U1 U2]. destruct (on_keys_inv _ _ _ Np Hv) as [V1 V2].
  assert (K : forall m, In m (f_poles (c_f c)) -> exists x y,
     lookup u m = Ok x /\ lookup v m = Ok y /\
     (ts <- lookup (f_dict (c_f c)) m ;;
       ss <- sequence (map (summand2 spl1 c (as_keys xk) m) ts) ;; Ok (vsum ss))
     = Ok (lincomb a x b y)).
  { intros m Hm. destruct (U2 m Hm) as (x & Ex & Lx). destruct (V2 m Hm) as (y & Ey & Ly).
    exists x, y. split; [exact Lx|]. split; [exact Ly|]. clear U2 V2 Lx Ly.
    apply Rp in Hm as [ts Ets]. rewrite Ets in Ex, Ey. rewrite Ets. cbn [bind] in *.
    apply bind_ok in Ex as (sx & Sx & Ex). apply bind_ok in Ey as (sy & Sy & Ey).
    injection Ex as <-. injection Ey as <-. apply sequence_forall2 in Sx, Sy. clear Ets.
    destruct ts as [|t0 ts0].
    { inversion Sx. inversion Sy. reflexivity. }
    assert (Ero : exists ro, lookup (c_rout c) m = Ok ro).
    { inversion Sx as [|? ? ? ? E _]; subst. apply summand2_ok in E as (g & ro & _ & E & _). eauto. }
    destruct Ero as [ro Ero].
    assert (G : exists hx hy, length hx = length hy /\ length hx = length (t0 :: ts0)
       /\ sx = map (fun h => map h ro) hx /\ sy = map (fun h => map h ro) hy
       /\ sequence (map (summand2 spl1 c (as_keys xk) m) (t0 :: ts0))
          = Ok (map (fun h => map h ro) (map (fun p r => a * fst p r + b * snd p r) (combine hx hy)))).
    { revert Sx Sy. generalize (t0 :: ts0). intros ts Sx. revert sy.
      induction Sx as [|t x ts sx E _ IH]; intros sy Sy; inversion Sy as [|? y ? sy' F Sy']; subst.
      - exists [], []. repeat split; reflexivity.
      - destruct (IH sy' Sy') as (hx & hy & Q1 & Q2 & -> & -> & Q3).
        destruct (P m t ro x y E F Ero) as (f & g & -> & -> & Q).
        exists (f :: hx), (g :: hy). cbn [length map combine fst snd sequence].
        rewrite Q. cbn [bind]. rewrite Q3. cbn [bind].
        repeat split; congruence. }
    destruct G as (hx & hy & Q1 & Q2 & -> & -> & ->). cbn [bind].
    assert (hx <> []) by (destruct hx; discriminate).
    rewrite !vsum_map; try assumption.
    2: { destruct hy; destruct hx; discriminate. }
    2: { destruct hx; [congruence|]. destruct hy; discriminate. }
    unfold lincomb. f_equal.
    clear - Q1. induction ro as [|r ro IH]; [reflexivity|]. cbn [map combine fst snd].
    rewrite IH. f_equal. clear IH. rewrite map_map. cbv beta.
    revert hy Q1. induction hx as [|f hx IH]; intros [|g hy] Q1; try discriminate.
    - cbn [combine map]. rewrite !rsum_nil. ring.
    - cbn [combine map fst snd]. rewrite !rsum_cons, IH by (now injection Q1). ring. }
  pose (wv := fun k => match lookup u k, lookup v k with
                       | Ok x, Ok y => lincomb a x b y | _, _ => [] end).
  exists (map (fun k => (k, wv k)) (f_poles (c_f c))). split.
  - unfold convolve2. apply on_keys_ok; [exact Np|]. intros k Hk.
    destruct (K k Hk) as (x & y & Ex & Ey & E). rewrite E. unfold wv. now rewrite Ex, Ey.
  - intros m x y Ex Ey. assert (Hm : In m (f_poles (c_f c))).
    { rewrite <- U1. apply lookup_in. eauto. }
    rewrite (lookup_on_keys wv) by assumption. unfold wv. now rewrite Ex, Ey.
Qed.

(** The monopole of a window of ones: a formula acts as the identity on it
    when its only term with that multipole is the input multipole itself. *)
Definition unit_formula (mono : list Z) (f : formulae) (m : list Z) : Prop :=
  forall ts, lookup (f_dict f) m = Ok ts ->
    filter (fun t => meq (t_Q t) mono) ts = [mk_cterm mono (ZPole m) 1].

Lemma rsum_filter {A} (p : A -> bool) (g : A -> R) l :
  (forall a, In a l -> p a = false -> g a = 0) ->
  rsum (map g l) = rsum (map g (filter p l)).
Proof.
  induction l as [|a l IH]; intros H; [reflexivity|]. cbn [map filter].
  rewrite rsum_cons. rewrite IH by (intros b Hb; apply H; now right).
  destruct (p a) eqn:E.
  - cbn [map]. now rewrite rsum_cons.
  - rewrite (H a (or_introl eq_refl) E). ring.
Qed.

(** With no window (a monopole of ones and nothing else) every multipole comes
    out as it was, read at the output separations; at the input separations
    themselves it comes out unchanged. *)
Theorem convolve2_unit raw c xi out mono m rm x : build_formulae raw = Ok (c_f c) ->
  const1 spl1 -> In m (f_poles (c_f c)) -> unit_formula mono (c_f c) m ->
  (forall q rq, lookup (c_rQ c) q = Ok rq -> In q (f_Q (c_f c)) ->
     lookup (c_Q c) q = Ok (repeat (if meq q mono then 1 else 0) (length rq))) ->
  convolve2 spl1 c (as_keys xi) = Ok out ->
  zlookup (c_rin c) (ZPole m) = Ok rm -> lookup xi m = Ok x ->
  exists ro fz, lookup (c_rout c) m = Ok ro /\ spl1 (c_spline c) false rm x = Ok fz
    /\ lookup out m = Ok (map fz ro)
    /\ (exact1 spl1 -> ro = rm -> lookup out m = Ok x).
Proof.
  intros B C Hm UF W Hout Erm Ex.
  destruct (formulae_requirements raw _ B) as (Np & _ & _ & _ & Rp & RQ & _).
  destruct (proj1 (convolve2_sum raw c (as_keys xi) B) out Hout) as [_ S].
  destruct (proj1 (Rp m) Hm) as [ts Ets]. specialize (UF ts Ets).
  assert (Nts : ts <> []) by (intros ->; discriminate).
  destruct (S m ts Ets Nts) as (ro & gs & Ero & G & Eout). clear S.
  assert (QV : forall t g, In t ts -> product2 spl1 c (as_keys xi) t g ->
     exists fz rz z, zlookup (c_rin c) (t_Z t) = Ok rz /\ raw_lookup (as_keys xi) (t_Z t) = Ok z
       /\ spl1 (c_spline c) false rz z = Ok fz
       /\ forall r, g r = (if meq (t_Q t) mono then 1 else 0) * fz r).
  { intros t g Ht (rq & q & fq & rz & z & fz & A1 & A2 & A3 & A5 & A6 & A7 & Ag).
    exists fz, rz, z. repeat (split; [assumption|]). intros r. rewrite Ag. f_equal.
    rewrite (W (t_Q t) rq A1) in A2 by (apply RQ; exists m, t; split; [exists ts; auto|reflexivity]).
    injection A2 as <-. exact (C _ _ _ _ _ A3 r). }
  assert (F : exists fz, spl1 (c_spline c) false rm x = Ok fz).
  { assert (I : In (mk_cterm mono (ZPole m) 1) ts).
    { assert (I : In (mk_cterm mono (ZPole m) 1) (filter (fun t => meq (t_Q t) mono) ts))
        by (rewrite UF; now left). apply filter_In in I. tauto. }
    assert (K : exists g, product2 spl1 c (as_keys xi) (mk_cterm mono (ZPole m) 1) g).
    { clear - G I. induction G; [contradiction|]. destruct I as [->|I]; eauto. }
    destruct K as [g K]. destruct (QV _ g I K) as (fz & rz & z & E1 & E2 & E3 & _).
    cbn [t_Z] in E1, E2. rewrite raw_as_keys in E2. exists fz. congruence. }
  destruct F as [fz Efz]. exists ro, fz. split; [exact Ero|]. split; [exact Efz|].
  assert (V : lookup out m = Ok (map fz ro)).
  { rewrite Eout. f_equal. apply map_ext. intros r.
    rewrite (rsum_filter (fun tg => meq (t_Q (fst tg)) mono)).
    - assert (K : Forall2 (product2 spl1 c (as_keys xi)) (filter (fun t => meq (t_Q t) mono) ts)
          (map snd (filter (fun tg => meq (t_Q (fst tg)) mono) (combine ts gs)))).
      { clear - G. induction G as [|t g ts gs P _ IH]; [constructor|].
        cbn [filter combine fst]. destruct (meq (t_Q t) mono); [|exact IH].
        cbn [map snd]. now constructor. }
      assert (K2 : map fst (filter (fun tg : cterm * (R -> R) => meq (t_Q (fst tg)) mono) (combine ts gs))
                   = filter (fun t => meq (t_Q t) mono) ts).
      { clear - G. induction G as [|t g ts gs P _ IH]; [reflexivity|].
        cbn [filter combine fst]. destruct (meq (t_Q t) mono); [|exact IH].
        cbn [map fst]. now f_equal. }
      revert K K2. generalize (filter (fun tg : cterm * (R -> R) => meq (t_Q (fst tg)) mono) (combine ts gs)).
      intros l K K2. rewrite UF in K, K2. destruct l as [|[t g] [|]]; try discriminate.
      cbn [map fst] in K2. injection K2 as ->. cbn [map snd] in K.
      inversion K as [|? ? ? ? K3 _]; subst. cbn [map fst snd t_c]. rewrite rsum_cons, rsum_nil.
      assert (I : In (mk_cterm mono (ZPole m) 1) ts).
      { assert (I : In (mk_cterm mono (ZPole m) 1) (filter (fun t => meq (t_Q t) mono) ts))
          by (rewrite UF; now left). apply filter_In in I. tauto. }
      destruct (QV _ g I K3) as (fz' & rz & z & E1 & E2 & E3 & Eg).
      cbn [t_Z t_Q] in E1, E2, Eg. rewrite raw_as_keys in E2.
      replace fz' with fz in Eg by congruence. rewrite Eg, meq_refl. ring.
    - intros [t g] I E. cbn [fst snd] in *.
      assert (P : product2 spl1 c (as_keys xi) t g /\ In t ts).
      { clear - G I. induction G as [|t' g' ts gs P _ IH]; [contradiction|].
        destruct I as [I|I]; [injection I as -> ->; split; [exact P|now left]|].
        destruct (IH I). split; [assumption|now right]. }
      destruct P as [P It]. destruct (QV t g It P) as (fz' & _ & _ & _ & _ & _ & Eg).
      rewrite Eg, E. ring. }
  split; [exact V|]. intros EX ->. rewrite V. f_equal.
  destruct (EX _ _ _ _ _ Efz) as [Elen Ek].
  rewrite (map_by_index fz rm 0), (list_nth_seq x 0), Elen.
  apply map_ext_in. intros i Hi. apply in_seq in Hi. apply Ek. lia.
Qed.

(** The keys of the input samples are not coerced: a dictionary keyed by
    strings, tuples or integers is never found to hold a multipole. *)
Definition no_multipole_keys {A} (d : list (mlike * A)) : Prop :=
  forall k a, In (k, a) d -> forall i, k <> MCopy i.

Lemma raw_no_keys {A} (d : list (mlike * A)) i : no_multipole_keys d ->
  raw_lookup d (ZPole i) = Err KeyError.
Proof.
  induction d as [|[k a] d IH]; intros H; [reflexivity|]. cbn [raw_lookup].
  replace (samekey k (ZPole i)) with false.
  - apply IH. intros k' a' H'. apply (H k' a'). now right.
  - destruct k; try reflexivity. exfalso. exact (H _ a (or_introl eq_refl) index eq_refl).
Qed.

Lemma raw_reads_ic {A} (d : list (mlike * A)) x : raw_lookup d ZIc = Ok x ->
  In (MStr "ic", x) d.
Proof.
  induction d as [|[k a] d IH]; cbn [raw_lookup]; [discriminate|].
  destruct k; cbn [samekey]; try (intros H; right; now apply IH).
  destruct (String.eqb s "ic") eqn:E; intros H; [|right; now apply IH].
  apply String.eqb_eq in E. subst. injection H as <-. now left.
Qed.

(** So the documented keys other than `Multipole` objects always fail, and so
    does a formula with the integral constraint, unless the samples hold an
    entry 'ic'. *)
Theorem convolve2_keys raw c xi out : build_formulae raw = Ok (c_f c) ->
  convolve2 spl1 c xi = Ok out ->
  (f_Z (c_f c) <> [] -> ~ no_multipole_keys xi)
  /\ (f_ic (c_f c) = true -> exists x r, In (MStr "ic", x) xi /\ zlookup (c_rin c) ZIc = Ok r).
Proof.
  intros B H. destruct (formulae_requirements raw _ B) as (Np & _ & _ & _ & Rp & _ & RZ & Ric).
  destruct (proj1 (convolve2_sum raw c xi B) out H) as [_ S].
  assert (K : forall m t, uses (c_f c) m t -> exists g, product2 spl1 c xi t g).
  { intros m t (ts & E & Ht). destruct (S m ts E) as (ro & gs & _ & G & _).
    - intros ->. contradiction.
    - clear - G Ht. induction G; [contradiction|]. destruct Ht as [->|Ht]; eauto. }
  split.
  - intros N NK. destruct (f_Z (c_f c)) as [|z zs] eqn:E; [congruence|].
    destruct (proj1 (RZ z)) as (m & t & U & Et); [now left|].
    destruct (K m t U) as (g & rq & q & fq & rz & x & fz & _ & _ & _ & _ & A & _).
    rewrite Et, raw_no_keys in A by exact NK. discriminate.
  - intros Hic. destruct (proj1 Ric Hic) as (m & t & U & Et).
    destruct (K m t U) as (g & rq & q & fq & rz & x & fz & _ & _ & _ & A0 & A & _).
    rewrite Et in A, A0. exists x, rz. split; [now apply raw_reads_ic|exact A0].
Qed.

Corollary convolve2_keys_refused raw c xi : build_formulae raw = Ok (c_f c) ->
  f_Z (c_f c) <> [] -> no_multipole_keys xi -> forall out, convolve2 spl1 c xi <> Ok out.
Proof. intros B N K out H. exact (proj1 (convolve2_keys raw c xi out B H) N K). Qed.

End Two.

(* ------------------------------------------------------------------ *)
(* Three-point convolution                                             *)

Definition const_matrix (c : R) (n : nat) : matrix := repeat (repeat c n) n.

Definition exact2 (spl2 : nat -> list R -> matrix -> res (R -> R -> R)) : Prop :=
  forall k x z f, spl2 k x z = Ok f ->
    forall i j, (i < length x)%nat -> (j < length x)%nat ->
      f (nth i x 0) (nth j x 0) = nth j (nth i z []) 0.
Definition const2 (spl2 : nat -> list R -> matrix -> res (R -> R -> R)) : Prop :=
  forall k x c f, spl2 k x (const_matrix c (length x)) = Ok f -> forall a b, f a b = c.
(** Integration is homogeneous in the samples. *)
Definition homogeneous (simpson : list R -> list R -> R) : Prop :=
  forall x y c, simpson x (map (fun v => c * v) y) = c * simpson x y.

(** The product of a term at a pair of separations, without its coefficient;
    the value of the integral constraint stands for its multipole. *)
Definition product3 (spl2 : nat -> list R -> matrix -> res (R -> R -> R))
    (c : conv matrix) (zeta : list (mlike * cmatrix)) (ic : option R)
    (t : cterm) (g : R -> R -> R) : Prop :=
  exists rq q fq, lookup (c_rQ c) (t_Q t) = Ok rq /\ lookup (c_Q c) (t_Q t) = Ok q
    /\ spl2 (c_spline c) rq q = Ok fq
    /\ match t_Z t with
       | ZIc => exists v, ic = Some v /\ forall x y, g x y = fq x y * v
       | ZPole i => exists rz z fz,
           zlookup (c_rin c) (ZPole i) = Ok rz /\ raw_lookup zeta (ZPole i) = Ok z
           /\ spl2 (c_spline c) rz (real_part z) = Ok fz
           /\ forall x y, g x y = fq x y * fz x y
       end.

Section Three.
Variable spl1 : nat -> bool -> list R -> list R -> res (R -> R).
Variable spl2 : nat -> list R -> matrix -> res (R -> R -> R).
Variable simpson : list R -> list R -> R.
Variable wigner : Z -> Z -> Z -> R.

Lemma summand3_ok c zeta ic m t v : summand3 spl2 c zeta ic m t = Ok v ->
  exists g ro, product3 spl2 c zeta ic t g /\ lookup (c_rout c) m = Ok ro
    /\ v = grid (fun x y => t_c t * g x y) ro.
Proof.
  unfold summand3, product3. intros H.
  apply bind_ok in H as (rq & E1 & H). apply bind_ok in H as (q & E2 & H).
  apply bind_ok in H as (fq & E3 & H). apply bind_ok in H as (ro & E4 & H).
  apply bind_ok in H as (fz & E5 & H). injection H as <-.
  exists (fun x y => fq x y * fz x y), ro. split; [|split; [exact E4|]].
  - exists rq, q, fq. repeat (split; [assumption|]).
    destruct (t_Z t) as [i|].
    + apply bind_ok in E5 as (rz & A1 & E5). apply bind_ok in E5 as (z & A2 & E5).
      exists rz, z, fz. repeat (split; [assumption|]). split; [|reflexivity].
      destruct (spl2 (c_spline c) rz (real_part z)) as [f|[]]; cbn [index_to_value] in E5; congruence.
    + destruct ic as [v|]; [|discriminate]. injection E5 as <-. exists v. split; [reflexivity|].
      intros x y. ring.
  - unfold grid. apply map_ext. intros x. apply map_ext. intros y. ring.
Qed.

(** Every output multipole is, at every pair of output separations, the sum
    over the terms of its formula of coefficient times window times input. *)
Theorem convolve3_sum raw c zeta ic out : build_formulae raw = Ok (c_f c) ->
  convolve3 spl2 simpson wigner c zeta ic = Ok out ->
  exists icv, the_ic spl2 simpson wigner c zeta ic = Ok icv
  /\ map fst out = f_poles (c_f c)
  /\ forall m ts, lookup (f_dict (c_f c)) m = Ok ts -> ts <> [] ->
     exists ro gs, lookup (c_rout c) m = Ok ro /\ Forall2 (product3 spl2 c zeta icv) ts gs
       /\ lookup out m
          = Ok (grid (fun x y => rsum (map (fun tg => t_c (fst tg) * snd tg x y) (combine ts gs))) ro).
Proof.
  intros B H. destruct (formulae_requirements raw _ B) as (Np & _ & _ & _ & Rp & _).
  unfold convolve3 in H. apply bind_ok in H as (icv & Eic & H). exists icv. split; [exact Eic|].
  destruct (on_keys_inv _ _ _ Np H) as [H1 H2]. split; [exact H1|]. intros m ts Ets Nts.
  destruct (H2 m) as (v & Ev & Lv); [apply Rp; eauto|]. rewrite Ets in Ev. cbn [bind] in Ev.
  apply bind_ok in Ev as (ss & Es & Ev). injection Ev as <-.
  apply sequence_forall2 in Es.
  assert (K : exists ro, lookup (c_rout c) m = Ok ro).
  { destruct Es as [|t s ts ss E _]; [congruence|]. apply summand3_ok in E as (g & ro & _ & E & _). eauto. }
  destruct K as [ro Ero].
  assert (G : exists gs, Forall2 (product3 spl2 c zeta icv) ts gs
     /\ ss = map (fun h => grid h ro) (map (fun tg x y => t_c (fst tg) * snd tg x y) (combine ts gs))).
  { clear - Es Ero. induction Es as [|t s ts ss E _ (gs & IH1 & IH2)].
    - exists []. split; [constructor|reflexivity].
    - apply summand3_ok in E as (g & ro' & P & E & ->). exists (g :: gs).
      split; [now constructor|]. cbn [combine map fst snd]. rewrite <- IH2.
      f_equal. now replace ro' with ro by congruence. }
  destruct G as (gs & G & ->). exists ro, gs. split; [exact Ero|]. split; [exact G|].
  rewrite Lv. f_equal. rewrite msum_grid.
  - unfold grid. apply map_ext. intros x. apply map_ext. intros y. now rewrite map_map.
  - destruct G; [congruence|discriminate].
Qed.

(** A given integral constraint is used as it is; one that is asked for but
    not given is computed with cubic splines whatever the order of the
    convolution. *)
Theorem ic_used c zeta :
  (forall v, the_ic spl2 simpson wigner c zeta (Some v) = Ok (Some v))
  /\ (f_ic (c_f c) = true -> forall v w,
       calc_threept_ic spl2 simpson wigner (Each (as_keys (c_rQ c))) (as_keys (c_Q c))
         (Each (zas_keys (c_rin c))) zeta CNone false 3 = Ok (v, w) ->
       convolve3 spl2 simpson wigner c zeta None
       = convolve3 spl2 simpson wigner c zeta (Some v))
  /\ (f_ic (c_f c) = true -> forall e,
       calc_threept_ic spl2 simpson wigner (Each (as_keys (c_rQ c))) (as_keys (c_Q c))
         (Each (zas_keys (c_rin c))) zeta CNone false 3 = Err e ->
       convolve3 spl2 simpson wigner c zeta None = Err e).
Proof.
  split; [reflexivity|]. split; intros Hic; intros; unfold convolve3; cbn [the_ic]; rewrite Hic, H;
    reflexivity.
Qed.

Lemma coerce_as_keys {A} (d : mdict A) : NoDup (map fst d) -> coerce (as_keys d) = Ok d.
Proof.
  intros N. assert (K : keys_of (as_keys d) (map fst d)).
  { unfold keys_of, as_keys. rewrite map_map. cbn [fst multipole].
    clear N. induction d as [|[k a] d IH]; [reflexivity|]. cbn [map sequence fst bind].
    rewrite IH. reflexivity. }
  rewrite (coerce_plain _ _ K N). unfold as_keys. rewrite map_map. cbn [snd]. f_equal.
  clear. induction d as [|[k a] d IH]; [reflexivity|]. cbn [map combine fst snd]. now f_equal.
Qed.

Lemma coerce_ic {A} (d : zdict A) x : In (ZIc, x) d -> coerce (zas_keys d) = Err ValueError.
Proof.
  intros I. unfold coerce.
  enough (E : sequence (map (fun ka : mlike * A => k <- multipole (fst ka) ;; Ok (k, snd ka)) (zas_keys d))
          = Err ValueError) by now rewrite E.
  unfold zas_keys. induction d as [|[k a] d IH]; [contradiction|].
  cbn [map sequence fst snd]. destruct k as [i|].
  - cbn [multipole bind]. destruct I as [I|I]; [discriminate|]. now rewrite (IH I).
  - reflexivity.
Qed.

(** With one array of input separations and a formula that asks for the
    integral constraint, a convolution without one given always fails: the
    array is also filed under 'ic', which is no multipole. *)
Theorem ic_array_refused raw ws (wm : list (mlike * matrix)) r r_out s c w :
  build_formulae raw = Ok (c_f c) -> f_ic (c_f c) = true ->
  new_conv (c_f c) ws wm (One r) r_out s = Ok (c, w) ->
  forall zeta, convolve3 spl2 simpson wigner c zeta None = Err ValueError.
Proof.
  intros B Hic H zeta. unfold new_conv in H. apply bind_ok in H as (b & Hb & H).
  apply bind_ok in H as (st & Hs & H). injection H as Hc _.
  unfold initialise_sampts in Hs. cbn [input_points bind] in Hs.
  apply bind_ok in Hs as (ro & _ & Hs). apply bind_ok in Hs as (ww & _ & Hs). injection Hs as <-.
  cbn [fst snd] in Hc.
  assert (Er : c_rin c = map (fun z => (z, r)) (f_zkeys (c_f c))) by (now rewrite <- Hc).
  unfold convolve3. cbn [the_ic]. rewrite Hic. unfold calc_threept_ic at 1.
  assert (E : coerce (zas_keys (c_rin c)) = Err ValueError).
  { apply (coerce_ic _ r). rewrite Er. apply in_map_iff. exists ZIc. split; [reflexivity|].
    unfold f_zkeys. rewrite Hic. apply in_app_iff. right. now left. }
  destruct (coerce (as_keys (c_Q c))) as [x1|e1] eqn:E1; cbn [bind];
    [|apply coerce_err in E1; now subst].
  destruct (coerce zeta) as [x2|e2] eqn:E2; cbn [bind]; [|apply coerce_err in E2; now subst].
  destruct (coerce (as_keys (c_rQ c))) as [x3|e3] eqn:E3; cbn [bind];
    [|apply coerce_err in E3; now subst].
  rewrite E. reflexivity.
Qed.

(** The keys of the input samples are not coerced here either. *)
Theorem convolve3_keys_refused raw c zeta ic : build_formulae raw = Ok (c_f c) ->
  f_Z (c_f c) <> [] -> no_multipole_keys zeta ->
  forall out, convolve3 spl2 simpson wigner c zeta ic <> Ok out.
Proof.
  intros B N NK out H. destruct (formulae_requirements raw _ B) as (Np & _ & _ & _ & Rp & _ & RZ & _).
  destruct (convolve3_sum raw c zeta ic out B H) as (icv & _ & _ & S).
  destruct (f_Z (c_f c)) as [|z zs] eqn:E; [congruence|].
  destruct (proj1 (RZ z)) as (m & t & (ts & Ets & Ht) & Et); [now left|].
  destruct (S m ts Ets) as (ro & gs & _ & G & _). { intros ->. contradiction. }
  assert (K : exists g, product3 spl2 c zeta icv t g).
  { clear - G Ht. induction G; [contradiction|]. destruct Ht as [->|Ht]; eauto. }
  destruct K as (g & rq & q & fq & _ & _ & _ & K). rewrite Et in K.
  destruct K as (rz & x & fz & _ & K & _). rewrite raw_no_keys in K by exact NK. discriminate.
Qed.

(** The points an argument gives for a multipole. *)
Definition points_for (r : sampts) (k : list Z) (a : list R) : Prop :=
  match r with
  | One b => a = b
  | Each l => exists d, coerce l = Ok d /\ lookup d k = Ok a
  end.

Lemma integrate_scaled a f c : homogeneous simpson ->
  integrate2 simpson a a (mmul (grid f a) (grid (fun _ _ => c) a))
  = c * integrate2 simpson a a (grid f a).
Proof.
  intros Hs. unfold integrate2. rewrite <- Hs. f_equal. rewrite map_map. unfold mmul, grid.
  assert (In1 : forall l (g h : R -> list R),
    combine l (map (fun rs : list R * list R => map (fun xy => fst xy * snd xy) (combine (fst rs) (snd rs)))
                 (combine (map g l) (map h l)))
    = map (fun x => (x, map (fun xy => fst xy * snd xy) (combine (g x) (h x)))) l).
  { intros l g h. induction l as [|x l IH]; [reflexivity|]. cbn [map combine fst snd]. now rewrite IH. }
  assert (In2 : forall l (g : R -> list R), combine l (map g l) = map (fun x => (x, g x)) l).
  { intros l g. induction l as [|x l IH]; [reflexivity|]. cbn [map combine]. now rewrite IH. }
  rewrite In1, In2, !map_map. apply map_ext. intros x. cbn [fst snd].
  rewrite <- !Rmult_assoc. f_equal. f_equal. rewrite <- Hs. f_equal. rewrite map_map.
  generalize a. intros b. induction b as [|y b IH]; [reflexivity|].
  cbn [map combine fst snd]. rewrite IH. f_equal. ring.
Qed.

Lemma rsum_single (ks : list (list Z)) k0 (g : list Z -> R) : NoDup ks -> In k0 ks ->
  (forall k, In k ks -> k <> k0 -> g k = 0) -> rsum (map g ks) = g k0.
Proof.
  induction ks as [|k ks IH]; intros N I H; [contradiction|]. inversion N as [|? ? N1 N2]; subst.
  cbn [map]. rewrite rsum_cons. destruct (list_eq_dec Z.eq_dec k k0) as [->|D].
  - rewrite (rsum_map_zero g ks); [ring|]. intros k Hk. apply H; [now right|]. intros ->. contradiction.
  - destruct I as [I|I]; [contradiction|]. rewrite IH; [|exact N2|exact I|].
    + rewrite (H k (or_introl eq_refl) D). ring.
    + intros k' Hk. apply H. now right.
Qed.

(** The integral constraint of a constant correlation function is that
    constant, whatever the window. *)
Theorem ic_constant ws wm r zeta rc approx k v w zd cst :
  const2 spl2 -> homogeneous simpson -> wigner 0 0 0 = 1 ->
  coerce zeta = Ok zd ->
  (forall m z, lookup zd m = Ok z -> exists a, points_for r m a
     /\ real_part z = const_matrix (if meq m monopole then cst else 0) (length a)) ->
  calc_threept_ic spl2 simpson wigner ws wm r zeta rc approx k = Ok (v, w) -> v = cst.
Proof.
  intros C2 Hs Hw Hz HC H. unfold calc_threept_ic in H.
  apply bind_ok in H as (wd & Ewd & H). rewrite Hz in H. cbn [bind] in H.
  apply bind_ok in H as (wsd & Ews & H). apply bind_ok in H as (rd & Erd & H).
  assert (Nw : NoDup (map fst wd)).
  { unfold coerce in Ewd. apply bind_ok in Ewd as (l & _ & E). injection E as <-.
    apply fold_store. constructor. }
  set (ms := if approx then [monopole] else filter (has_key zd) (map fst wd)) in *.
  assert (Nms : NoDup ms).
  { unfold ms. destruct approx; [constructor; [tauto|constructor]|]. now apply NoDup_filter. }
  destruct (negb approx && negb (existsb (meq monopole) ms)) eqn:Em; [discriminate|].
  assert (Im : In monopole ms).
  { unfold ms in Em |- *. destruct approx; [now left|]. cbn [negb andb] in Em.
    apply negb_false_iff in Em. apply existsb_exists in Em as (x & I & E).
    apply meq_spec in E. now subst x. }
  clear Em. destruct (negb (subset_keys ms wsd)); [discriminate|].
  destruct (negb (subset_keys ms rd)); [discriminate|]. cbv zeta in H.
  match type of H with context [covered_all ?x rd] => set (rcd := x) in * end.
  clearbody rcd. clearbody ms.
  apply bind_ok in H as (w1 & _ & H). apply bind_ok in H as (w2 & _ & H).
  apply bind_ok in H as (Qd & EQ & H). apply bind_ok in H as (Zd & EZ & H).
  apply bind_ok in H as (ns & Ens & H). apply bind_ok in H as (a0 & Ea0 & H).
  apply bind_ok in H as (q0 & Eq0 & H).
  destruct (Reqb (integrate2 simpson a0 a0 q0) 0) eqn:Ed; [discriminate|]. injection H as <- _.
  destruct (on_keys_inv _ _ _ Nms EQ) as [_ KQ]. destruct (on_keys_inv _ _ _ Nms EZ) as [_ KZ].
  (* every product of samples is a multiple of the window *)
  assert (P : forall m, In m ms -> exists a f, raw_lookup rcd (ZPole m) = Ok a
     /\ lookup Qd m = Ok (grid f a)
     /\ lookup Zd m = Ok (grid (fun _ _ => if meq m monopole then cst else 0) a)).
  { intros m Hm. destruct (KQ m Hm) as (q & Eq & Lq). destruct (KZ m Hm) as (z & Ez & Lz).
    apply bind_ok in Eq as (rw & _ & Eq). apply bind_ok in Eq as (qm & _ & Eq).
    apply bind_ok in Eq as (f & _ & Eq). apply bind_ok in Eq as (a & Ea & Eq). injection Eq as <-.
    apply bind_ok in Ez as (rz & Erz & Ez). apply bind_ok in Ez as (zm & Ezm & Ez).
    apply bind_ok in Ez as (fz & Efz & Ez). rewrite Ea in Ez. cbn [bind] in Ez. injection Ez as <-.
    exists a, f. split; [exact Ea|]. split; [exact Lq|]. rewrite Lz. f_equal.
    destruct (HC m zm Ezm) as (b & Hb & Rz).
    assert (b = rz) as ->.
    { destruct r as [b'|l]; cbn [points_for] in Hb.
      - subst b'. injection Erd as <-. apply lookup_some_in, in_map_iff in Erz as (kv & E & _).
        congruence.
      - destruct Hb as (d & E & L). congruence. }
    rewrite Rz in Efz. unfold grid. apply map_ext. intros x. apply map_ext. intros y.
    exact (C2 _ _ _ _ Efz x y). }
  assert (Ens' : exists I : list Z -> R, (exists F : list Z -> R, F monopole = 1
      /\ ns = map (fun m => F m * ((if meq m monopole then cst else 0) * I m)) ms)
      /\ I monopole = integrate2 simpson a0 a0 q0).
  { exists (fun m => match raw_lookup rcd (ZPole m), lookup Qd m with
                     | Ok a, Ok q => integrate2 simpson a a q | _, _ => 0 end).
    split; [|now rewrite Ea0, Eq0].
    exists (fun m => match ic_factor wigner m with Ok x => x | Err _ => 0 end). split.
    - unfold monopole. cbn [ic_factor]. rewrite Hw.
      change ((2 * 0 + 1) * (2 * 0 + 1) * (2 * 0 + 1))%Z with 1%Z. ring.
    - apply sequence_forall2 in Ens. clear - Ens P Hs. induction Ens as [|m n ms' ns E _ IH]; [reflexivity|].
      cbn [map]. f_equal.
      + destruct (P m (or_introl eq_refl)) as (a & f & Ea & Eq & Ez).
        apply bind_ok in E as (fm & Ef & E). apply bind_ok in E as (a' & Ea' & E).
        apply bind_ok in E as (q' & Eq' & E). apply bind_ok in E as (z' & Ez' & E).
        injection E as <-.
        assert (a' = a) as -> by congruence. assert (q' = grid f a) as -> by congruence.
        rewrite Ez in Ez'. injection Ez' as <-.
        rewrite Ef, Ea, Eq. f_equal. now apply integrate_scaled.
      + apply IH. intros m' Hm'. apply P. now right. }
  destruct Ens' as (I & (F & F1 & ->) & I1).
  rewrite (rsum_single ms monopole); [|exact Nms|exact Im|].
  - rewrite meq_refl, F1, <- I1. field. intros E. rewrite I1 in E.
    unfold Reqb in Ed. destruct (Req_EM_T (integrate2 simpson a0 a0 q0) 0); [discriminate|contradiction].
  - intros m _ D. rewrite meq_neq by exact D. ring.
Qed.

(** The double integral with the weights of the separations. *)
Definition double_integral (a : list R) (g : R -> R -> R) : R :=
  simpson a (map (fun x => simpson a (map (fun y => g x y * y ^ 2) a) * x ^ 2) a).

Lemma combine_map_self {B} (l : list R) (g : R -> B) : combine l (map g l) = map (fun x => (x, g x)) l.
Proof. induction l as [|x l IH]; [reflexivity|]. cbn [map combine]. now rewrite IH. Qed.

Lemma integrate_grid a g : integrate2 simpson a a (grid g a) = double_integral a g.
Proof.
  unfold integrate2, double_integral, grid. f_equal. rewrite combine_map_self, map_map.
  apply map_ext. intros x. cbn [fst snd]. rewrite combine_map_self, map_map.
  rewrite Rmult_assoc. f_equal; [|ring]. f_equal. apply map_ext. intros y. cbn [fst snd]. ring.
Qed.

Lemma mmul_grid f g a : mmul (grid f a) (grid g a) = grid (fun x y => f x y * g x y) a.
Proof.
  unfold mmul, grid.
  assert (C : forall (l : list R) (g h : R -> list R), combine (map g l) (map h l) = map (fun x => (g x, h x)) l).
  { intros l g' h'. induction l as [|x l IH]; [reflexivity|]. cbn [map combine]. now rewrite IH. }
  assert (C1 : forall (l : list R) (g h : R -> R), combine (map g l) (map h l) = map (fun x => (g x, h x)) l).
  { intros l g' h'. induction l as [|x l IH]; [reflexivity|]. cbn [map combine]. now rewrite IH. }
  rewrite C, map_map. apply map_ext. intros x. cbn [fst snd]. rewrite C1, map_map. reflexivity.
Qed.

(** The value of the integral constraint on common separations: the sum over
    the multipoles that window and correlation function share. *)
Definition shared (wd : mdict matrix) (zd : mdict cmatrix) : list (list Z) :=
  filter (fun m => existsb (meq m) (map fst zd)) (map fst wd).
Definition ic_weight (m : list Z) : R :=
  IZR ((2 * nth 0 m 0 + 1) * (2 * nth 1 m 0 + 1) * (2 * nth 2 m 0 + 1))%Z
  * (wigner (nth 0 m 0%Z) (nth 1 m 0%Z) (nth 2 m 0%Z)) ^ 2.

Theorem ic_value ws wm r zeta a k v w wd zd :
  coerce wm = Ok wd -> coerce zeta = Ok zd ->
  calc_threept_ic spl2 simpson wigner ws wm r zeta (COne a) false k = Ok (v, w) ->
  exists fq fz : list Z -> R -> R -> R,
    In monopole (shared wd zd)
    /\ (forall m, In m (shared wd zd) -> length m = 3%nat /\
         (exists rw q, points_for ws m rw /\ lookup wd m = Ok q /\ spl2 k rw q = Ok (fq m))
         /\ (exists rz z, points_for r m rz /\ lookup zd m = Ok z /\ spl2 k rz (real_part z) = Ok (fz m)))
    /\ double_integral a (fq monopole) <> 0
    /\ v * double_integral a (fq monopole)
       = rsum (map (fun m => ic_weight m * double_integral a (fun x y => fq m x y * fz m x y))
                   (shared wd zd)).
Proof.
  intros Ewd Hz H. unfold calc_threept_ic in H. rewrite Ewd, Hz in H. cbn [bind] in H.
  apply bind_ok in H as (wsd & Ews & H). apply bind_ok in H as (rd & Erd & H).
  assert (Nw : NoDup (map fst wd)).
  { unfold coerce in Ewd. apply bind_ok in Ewd as (l & _ & E). injection E as <-.
    apply fold_store. constructor. }
  assert (Ems : filter (has_key zd) (map fst wd) = shared wd zd).
  { unfold shared. apply filter_ext. intros m. unfold has_key.
    induction zd as [|[k' z] zd' IH] in |- *; [reflexivity|]. cbn [map existsb fst].
    f_equal; [|exact IH]. destruct (meq k' m) eqn:E; symmetry.
    - apply meq_spec in E. subst. apply meq_refl.
    - destruct (meq m k') eqn:E'; [|reflexivity]. apply meq_spec in E'. subst.
      now rewrite meq_refl in E. }
  rewrite Ems in H. set (ms := shared wd zd) in *.
  assert (Nms : NoDup ms) by (unfold ms, shared; now apply NoDup_filter).
  destruct (negb false && negb (existsb (meq monopole) ms)) eqn:Em; [discriminate|].
  assert (Im : In monopole ms).
  { cbn [negb andb] in Em. apply negb_false_iff in Em. apply existsb_exists in Em as (x & I & E).
    apply meq_spec in E. now subst x. }
  clear Em. destruct (negb (subset_keys ms wsd)); [discriminate|].
  destruct (negb (subset_keys ms rd)); [discriminate|]. cbv zeta in H.
  assert (Erc : forall m, In m ms -> raw_lookup (map (fun m => (MCopy m, a)) ms) (ZPole m) = Ok a).
  { clear. intros m I. induction ms as [|m0 ms IH]; [contradiction|]. cbn [map raw_lookup samekey].
    destruct (meq m0 m) eqn:E; [reflexivity|]. apply IH. destruct I as [->|I]; [|exact I].
    now rewrite meq_refl in E. }
  set (rcd := map (fun m => (MCopy m, a)) ms) in *. clearbody rcd. clearbody ms.
  apply bind_ok in H as (w1 & _ & H). apply bind_ok in H as (w2 & _ & H).
  apply bind_ok in H as (Qd & EQ & H). apply bind_ok in H as (Zd & EZ & H).
  apply bind_ok in H as (ns & Ens & H). apply bind_ok in H as (a0 & Ea0 & H).
  apply bind_ok in H as (q0 & Eq0 & H).
  rewrite (Erc monopole Im) in Ea0. injection Ea0 as <-.
  destruct (Reqb (integrate2 simpson a a q0) 0) eqn:Ed; [discriminate|]. injection H as <- _.
  destruct (on_keys_inv _ _ _ Nms EQ) as [_ KQ]. destruct (on_keys_inv _ _ _ Nms EZ) as [_ KZ].
  pose (fq := fun m => match lookup wsd m, lookup wd m with
    | Ok rw, Ok q => match spl2 k rw q with Ok f => f | Err _ => fun _ _ => 0 end
    | _, _ => fun _ _ => 0 end).
  pose (fz := fun m => match lookup rd m, lookup zd m with
    | Ok rz, Ok z => match spl2 k rz (real_part z) with Ok f => f | Err _ => fun _ _ => 0 end
    | _, _ => fun _ _ => 0 end).
  assert (P : forall m, In m ms ->
     lookup Qd m = Ok (grid (fq m) a) /\ lookup Zd m = Ok (grid (fz m) a)
     /\ (exists rw q, lookup wsd m = Ok rw /\ lookup wd m = Ok q /\ spl2 k rw q = Ok (fq m))
     /\ (exists rz z, lookup rd m = Ok rz /\ lookup zd m = Ok z /\ spl2 k rz (real_part z) = Ok (fz m))).
  { intros m Hm. destruct (KQ m Hm) as (q & Eq & Lq). destruct (KZ m Hm) as (z & Ez & Lz).
    apply bind_ok in Eq as (rw & E1 & Eq). apply bind_ok in Eq as (qm & E2 & Eq).
    apply bind_ok in Eq as (f & E3 & Eq). rewrite (Erc m Hm) in Eq. cbn [bind] in Eq. injection Eq as <-.
    apply bind_ok in Ez as (rz & F1 & Ez). apply bind_ok in Ez as (zm & F2 & Ez).
    apply bind_ok in Ez as (g & F3 & Ez). rewrite (Erc m Hm) in Ez. cbn [bind] in Ez. injection Ez as <-.
    assert (Ef : fq m = f). { unfold fq. now rewrite E1, E2, E3. }
    assert (Eg : fz m = g). { unfold fz. now rewrite F1, F2, F3. }
    rewrite Ef, Eg. split; [exact Lq|]. split; [exact Lz|]. split.
    - exists rw, qm. auto.
    - exists rz, zm. auto. }
  assert (W1 : forall m rw, lookup wsd m = Ok rw -> points_for ws m rw).
  { intros m rw L. destruct ws as [b|l]; cbn [points_for].
    - injection Ews as <-. apply lookup_some_in, in_map_iff in L as (kv & E & _). congruence.
    - exists wsd. auto. }
  assert (W2 : forall m rz, lookup rd m = Ok rz -> points_for r m rz).
  { intros m rz L. destruct r as [b|l]; cbn [points_for].
    - injection Erd as <-. apply lookup_some_in, in_map_iff in L as (kv & E & _). congruence.
    - exists rd. auto. }
  assert (Q0 : q0 = grid (fq monopole) a).
  { destruct (P monopole Im) as (E & _). congruence. }
  clearbody fq fz. rewrite Q0, integrate_grid in Ed |- *.
  assert (D0 : double_integral a (fq monopole) <> 0).
  { unfold Reqb in Ed. destruct (Req_EM_T _ 0); [discriminate|assumption]. }
  apply sequence_forall2 in Ens.
  assert (L3 : forall m, In m ms -> length m = 3%nat).
  { intros m Hm. clear - Ens Hm. induction Ens as [|m' n ms' ns E _ IH]; [contradiction|].
    destruct Hm as [->|Hm]; [|exact (IH Hm)]. apply bind_ok in E as (fm & Ef & _).
    unfold ic_factor in Ef. destruct m as [|x [|y [|z [|? ?]]]]; try discriminate. reflexivity. }
  exists fq, fz. split; [exact Im|]. split; [|split; [exact D0|]].
  - intros m Hm. destruct (P m Hm) as (_ & _ & (rw & q & E1 & E2 & E3) & (rz & z & F1 & F2 & F3)).
    split; [now apply L3|]. split; [exists rw, q; auto|exists rz, z; auto].
  - unfold Rdiv. rewrite Rmult_assoc, Rinv_l by exact D0. rewrite Rmult_1_r. f_equal.
    clear - Ens P Erc. induction Ens as [|m n ms' ns E _ IH]; [reflexivity|].
    cbn [map]. f_equal.
    + destruct (P m (or_introl eq_refl)) as (Eq & Ez & _).
      apply bind_ok in E as (fm & Ef & E). 
      apply bind_ok in E as (a' & Ea' & E). 
      apply bind_ok in E as (q' & Eq' & E). apply bind_ok in E as (z' & Ez' & E).
      injection E as <-. rewrite Eq in Eq'. injection Eq' as <-. rewrite Ez in Ez'. injection Ez' as <-.
      assert (a' = a) as -> by (rewrite (Erc m (or_introl eq_refl)) in Ea'; congruence).
      rewrite mmul_grid, integrate_grid. f_equal. unfold ic_factor in Ef.
      destruct m as [|x [|y [|z [|? ?]]]]; try discriminate. injection Ef as <-. reflexivity.
    + apply IH; intros m' Hm'; [apply Erc|apply P]; now right.
Qed.

(** Each occurrence of the input monopole is cancelled by the integral
    constraint. *)
Definition balanced (f : formulae) : Prop :=
  forall m ts q, lookup (f_dict f) m = Ok ts ->
    rsum (map t_c (filter (fun t => meq (t_Q t) q
                    && (zeq (t_Z t) (ZPole monopole) || zeq (t_Z t) ZIc)) ts)) = 0.

Lemma grouped_zero (F : list Z -> R) (ts : list cterm) :
  (forall q, rsum (map t_c (filter (fun t => meq (t_Q t) q) ts)) = 0) ->
  rsum (map (fun t => t_c t * F (t_Q t)) ts) = 0.
Proof.
  remember (length ts) as n eqn:En. assert (Hn : (length ts <= n)%nat) by lia. clear En.
  revert ts Hn. induction n as [|n IH]; intros ts Hn H.
  - destruct ts; [reflexivity|cbn in Hn; lia].
  - destruct ts as [|t0 ts]; [reflexivity|]. set (q0 := t_Q t0).
    assert (S : forall l, rsum (map (fun t => t_c t * F (t_Q t)) l)
      = F q0 * rsum (map t_c (filter (fun t => meq (t_Q t) q0) l))
        + rsum (map (fun t => t_c t * F (t_Q t)) (filter (fun t => negb (meq (t_Q t) q0)) l))).
    { induction l as [|t l IHl]; [cbn [map filter]; rewrite !rsum_nil; ring|].
      cbn [map filter]. rewrite rsum_cons, IHl. destruct (meq (t_Q t) q0) eqn:E; cbn [negb map].
      - apply meq_spec in E. rewrite rsum_cons, E. ring.
      - rewrite rsum_cons. ring. }
    rewrite S, H, IH; [ring| |].
    + cbn [filter]. unfold q0 at 1. rewrite meq_refl. cbn [negb].
      assert (L : forall p : cterm -> bool, (length (filter p ts) <= length ts)%nat).
      { intros p. clear. induction ts as [|t l IHl]; [auto|]. cbn [filter]. destruct (p t); cbn [length]; lia. }
      specialize (L (fun t => negb (meq (t_Q t) q0))). cbn [length] in Hn. lia.
    + intros q. destruct (list_eq_dec Z.eq_dec q q0) as [->|D].
      * replace (filter (fun t => meq (t_Q t) q0) _) with (@nil cterm); [reflexivity|].
        clear. induction (t0 :: ts) as [|t l IHl]; [reflexivity|]. cbn [filter].
        destruct (meq (t_Q t) q0) eqn:E; cbn [negb]; [exact IHl|]. cbn [filter]. now rewrite E.
      * rewrite <- (H q). f_equal. f_equal. clear - D.
        induction (t0 :: ts) as [|t l IHl]; [reflexivity|]. cbn [filter].
        destruct (meq (t_Q t) q0) eqn:E; cbn [negb].
        -- apply meq_spec in E. rewrite E, meq_neq by congruence. exact IHl.
        -- cbn [filter]. destruct (meq (t_Q t) q); [now f_equal|exact IHl].
Qed.

(** A constant correlation function leaves nothing behind: with formulae that
    balance, and points given multipole by multipole, it convolves to zero. *)
Theorem constant_removed raw ws wm l r_out s c w zd cst out :
  build_formulae raw = Ok (c_f c) -> f_ic (c_f c) = true -> balanced (c_f c) ->
  const2 spl2 -> homogeneous simpson -> wigner 0 0 0 = 1 ->
  new_conv (c_f c) ws wm (Each l) r_out s = Ok (c, w) ->
  NoDup (map fst zd) ->
  (forall m z, lookup zd m = Ok z -> exists a, points_for (Each l) m a
     /\ real_part z = const_matrix (if meq m monopole then cst else 0) (length a)) ->
  convolve3 spl2 simpson wigner c (as_keys zd) None = Ok out ->
  forall m x ts, lookup (f_dict (c_f c)) m = Ok ts -> ts <> [] -> lookup out m = Ok x ->
    exists ro, lookup (c_rout c) m = Ok ro /\ x = const_matrix 0 (length ro).
Proof.
  intros B Hic Bal C2 Hs Hw Hc Nz0 HC H m x ts Ets Nts Ex.
  pose proof (coerce_as_keys zd Nz0) as Nz.
  destruct (convolve3_sum raw c _ None out B H) as (icv & Eic & _ & S).
  assert (HR : exists d, coerce l = Ok d
     /\ c_rin c = map (fun kv => (ZPole (fst kv), snd kv)) d /\ NoDup (map fst d)).
  { unfold new_conv in Hc. apply bind_ok in Hc as (b & _ & Hc). apply bind_ok in Hc as (st & Hst & Hc).
    injection Hc as Hc _. unfold initialise_sampts in Hst. apply bind_ok in Hst as (ri & Eri & Hst).
    apply bind_ok in Hst as (ro & _ & Hst). apply bind_ok in Hst as (ww & _ & Hst). injection Hst as <-.
    cbn [input_points] in Eri. apply bind_ok in Eri as (d & Ed & Eri).
    destruct (forallb _ d); [|discriminate]. injection Eri as <-. exists d. split; [exact Ed|].
    split; [now rewrite <- Hc|]. unfold coerce in Ed. apply bind_ok in Ed as (l' & _ & E).
    injection E as <-. apply fold_store. constructor. }
  destruct HR as (d & Ed & Er & Nd).
  assert (Hv : icv = Some cst).
  { cbn [the_ic] in Eic. rewrite Hic in Eic. apply bind_ok in Eic as ([v wv] & Ev & Eic).
    injection Eic as <-. cbn [fst]. f_equal.
    assert (Ek : zas_keys (c_rin c) = as_keys d).
    { rewrite Er. unfold zas_keys, as_keys. rewrite map_map. reflexivity. }
    rewrite Ek in Ev.
    eapply (ic_constant _ _ (Each (as_keys d)) _ _ _ _ v wv zd cst C2 Hs Hw Nz); [|exact Ev].
    intros m' z Ez. destruct (HC m' z Ez) as (a & (d' & Ed' & La) & R). exists a. split; [|exact R].
    cbn [points_for]. exists d. split; [now apply coerce_as_keys|congruence]. }
  subst icv. destruct (S m ts Ets Nts) as (ro & gs & Ero & G & Eo). rewrite Eo in Ex. injection Ex as <-.
  exists ro. split; [exact Ero|].
  assert (Z0 : forall a b, rsum (map (fun tg => t_c (fst tg) * snd tg a b) (combine ts gs)) = 0).
  { intros a b.
    pose (F := fun q => match lookup (c_rQ c) q, lookup (c_Q c) q with
                | Ok rq, Ok qv => match spl2 (c_spline c) rq qv with Ok f => f a b | Err _ => 0 end
                | _, _ => 0 end).
    pose (p := fun t => zeq (t_Z t) (ZPole monopole) || zeq (t_Z t) ZIc).
    assert (V : rsum (map (fun tg => t_c (fst tg) * snd tg a b) (combine ts gs))
      = rsum (map (fun t => t_c t * (if p t then F (t_Q t) * cst else 0)) ts)).
    { clear - G HC C2 Ed Er. induction G as [|t g ts gs P _ IH]; [reflexivity|].
      cbn [combine map fst snd]. rewrite !rsum_cons, IH. f_equal. f_equal. clear IH.
      destruct P as (rq & q & fq & E1 & E2 & E3 & P).
      assert (EF : F (t_Q t) = fq a b) by (unfold F; now rewrite E1, E2, E3). rewrite EF. unfold p.
      destruct (t_Z t) as [i|]; cbn [zeq orb].
      - destruct P as (rz & z & fz & A1 & A2 & A3 & Ag). rewrite Ag, orb_false_r.
        rewrite raw_as_keys in A2. destruct (HC i z A2) as (pts & (d' & Ed' & La) & R).
        rewrite Er, zlookup_poles in A1. replace pts with rz in R by congruence. rewrite R in A3.
        rewrite (C2 _ _ _ _ A3). destruct (meq i monopole); ring.
      - destruct P as (v & Ev & Ag). injection Ev as <-. apply Ag. }
    rewrite V.
    rewrite (rsum_filter p) by (intros t _ E; rewrite E; ring).
    transitivity (rsum (map (fun t => t_c t * (fun q => F q * cst) (t_Q t)) (filter p ts))).
    - f_equal. apply map_ext_in. intros t Ht. apply filter_In in Ht as [_ ->]. reflexivity.
    - apply (grouped_zero (fun q => F q * cst)). intros q. rewrite <- (Bal m ts q Ets). f_equal. f_equal.
      clear. induction ts as [|t l IH]; [reflexivity|]. cbn [filter]. unfold p at 1.
      destruct (zeq (t_Z t) (ZPole monopole) || zeq (t_Z t) ZIc) eqn:E; cbn [filter].
      + destruct (meq (t_Q t) q); cbn [andb]; [now f_equal|exact IH].
      + rewrite andb_false_r. exact IH. }
  unfold grid, const_matrix. rewrite (map_ext_in _ (fun _ => repeat 0 (length ro))).
  - clear. generalize (repeat 0 (length ro)). intros row. induction ro; [reflexivity|]. cbn [map length repeat]. now f_equal.
  - intros a _. rewrite (map_ext_in _ (fun _ => 0)) by (intros b _; apply Z0).
    clear. induction ro; [reflexivity|]. cbn [map length repeat]. now f_equal.
Qed.

(** Without the monopole, of the input or of the window, there is no integral
    constraint. *)
Theorem ic_needs_monopole ws wm r zeta rc k wd zd :
  coerce wm = Ok wd -> coerce zeta = Ok zd ->
  ~ In monopole (map fst wd) \/ ~ In monopole (map fst zd) ->
  calc_threept_ic spl2 simpson wigner ws wm r zeta rc false k = Err ValueError.
Proof.
  intros E1 E2 N. unfold calc_threept_ic. rewrite E1, E2. cbn [bind].
  assert (M : existsb (meq monopole) (filter (has_key zd) (map fst wd)) = false).
  { destruct (existsb _ _) eqn:E; [|reflexivity]. exfalso.
    apply existsb_exists in E as (x & I & E). apply meq_spec in E. subst x.
    apply filter_In in I as [I J]. apply has_key_spec in J. tauto. }
  rewrite M. cbn [negb andb].
  destruct ws as [a|lw]; [|destruct (coerce lw) as [x|e] eqn:Ew; [|apply coerce_err in Ew; subst]];
    cbn [bind]; try reflexivity.
  all: destruct r as [b|lr]; [|destruct (coerce lr) as [y|e] eqn:Er; [|apply coerce_err in Er; subst]];
    cbn [bind]; reflexivity.
Qed.

(** Only the real part of the input matters. *)
Theorem convolve3_real c zeta zeta' ic :
  (forall k, raw_lookup zeta' (ZPole k)
     = match raw_lookup zeta (ZPole k) with
       | Ok z => Ok (map (map (fun x : C => RtoC (fst x))) z)
       | Err e => Err e
       end) ->
  convolve3 spl2 simpson wigner c zeta' (Some ic) = convolve3 spl2 simpson wigner c zeta (Some ic).
Proof.
  intros H. unfold convolve3. cbn [the_ic bind]. unfold on_keys. f_equal. f_equal.
  apply map_ext. intros m. destruct (lookup (f_dict (c_f c)) m) as [ts|e]; [|reflexivity].
  cbn [bind]. f_equal. f_equal. f_equal. apply map_ext. intros t. unfold summand3.
  destruct (lookup (c_rQ c) (t_Q t)) as [rq|]; [|reflexivity]. cbn [bind].
  destruct (lookup (c_Q c) (t_Q t)) as [q|]; [|reflexivity]. cbn [bind].
  destruct (spl2 (c_spline c) rq q); [|reflexivity]. cbn [bind].
  destruct (lookup (c_rout c) m); [|reflexivity]. cbn [bind].
  destruct (t_Z t) as [i|]; [|reflexivity].
  destruct (zlookup (c_rin c) (ZPole i)) as [rz|]; [|reflexivity]. cbn [bind].
  rewrite H. unfold cmatrix. destruct (raw_lookup zeta (ZPole i)) as [z|]; [|reflexivity]. cbn [bind].
  replace (real_part (map (map (fun x : C => RtoC (fst x))) z)) with (real_part z); [reflexivity|].
  unfold real_part. rewrite map_map. apply map_ext. intros row. rewrite map_map. reflexivity.
Qed.

(** The diagonal convolution: refused without the integral constraint where
    the formulae ask for it; otherwise, on common separations, the diagonal of
    the convolution. *)
Theorem diag_needs_ic c zeta : f_ic (c_f c) = true ->
  convolve_diag spl1 c zeta None = Err ValueError.
Proof. intros H. unfold convolve_diag. now rewrite H. Qed.

Lemma summand_diag_ok c zeta ic m t v : summand_diag spl1 c zeta ic m t = Ok v ->
  exists ro rq q fq, lookup (c_rout c) m = Ok ro
    /\ lookup (c_rQ c) (t_Q t) = Ok rq /\ lookup (c_Q c) (t_Q t) = Ok q
    /\ spl1 (c_spline c) true rq (diag q) = Ok fq
    /\ exists fz, v = map (fun r => t_c t * (fq r * fz r)) ro
    /\ match t_Z t with
       | ZIc => exists x, ic = Some x /\ forall r, fz r = x
       | ZPole i => exists rz z, zlookup (c_rin c) (ZPole i) = Ok rz
           /\ raw_lookup zeta (ZPole i) = Ok z /\ spl1 (c_spline c) false rz z = Ok fz
       end.
Proof.
  unfold summand_diag. intros H.
  apply bind_ok in H as (rq & E1 & H). apply bind_ok in H as (q & E2 & H).
  apply bind_ok in H as (fq & E3 & H). apply bind_ok in H as (ro & E4 & H).
  apply bind_ok in H as (fz & E5 & H). injection H as <-.
  exists ro, rq, q, fq. repeat (split; [assumption|]). exists fz. split.
  - apply map_ext. intros r. ring.
  - destruct (t_Z t) as [i|].
    + apply bind_ok in E5 as (rz & A1 & E5). apply bind_ok in E5 as (z & A2 & E5).
      exists rz, z. repeat (split; [assumption|]).
      destruct (spl1 (c_spline c) false rz z) as [f|[]]; cbn [index_to_value] in E5; congruence.
    + destruct ic as [v|]; [|discriminate]. injection E5 as <-. exists v. auto.
Qed.

Definition square_of (n : nat) (m : matrix) : Prop :=
  length m = n /\ forall row, In row m -> length row = n.

Lemma diag_nth n m i : square_of n m -> (i < n)%nat -> nth i (diag m) 0 = nth i (nth i m []) 0.
Proof.
  intros [L R] Hi. unfold diag.
  assert (E : Nat.min (length m) (length (nth 0 m [])) = n).
  { rewrite L. rewrite (R (nth 0 m [])); [lia|]. apply nth_In. lia. }
  rewrite E. rewrite (nth_indep _ 0 (nth 0 (nth 0 m []) 0)) by (rewrite map_length, seq_length; lia).
  rewrite (map_nth (fun i => nth i (nth i m []) 0)). rewrite seq_nth by lia. reflexivity.
Qed.

Lemma diag_grid h ro : diag (grid h ro) = map (fun r => h r r) ro.
Proof.
  unfold diag. destruct ro as [|r0 ro']; [reflexivity|]. set (ro := r0 :: ro').
  replace (Nat.min (length (grid h ro)) (length (nth 0 (grid h ro) []))) with (length ro).
  - rewrite (map_by_index (fun r => h r r) ro 0). apply map_ext_in. intros i Hi. apply in_seq in Hi.
    rewrite grid_row by lia.
    rewrite (nth_indep (map (h (nth i ro 0)) ro) 0 (h (nth i ro 0) 0)) by (rewrite map_length; lia).
    apply map_nth.
  - rewrite grid_row by (unfold ro; cbn; lia). unfold grid. rewrite !map_length. lia.
Qed.

Theorem diag_agrees raw c r zeta zd v out outd :
  build_formulae raw = Ok (c_f c) -> exact1 spl1 -> exact2 spl2 ->
  (forall q rq, lookup (c_rQ c) q = Ok rq -> rq = r) ->
  (forall k rz, zlookup (c_rin c) (ZPole k) = Ok rz -> rz = r) ->
  (forall m ro, lookup (c_rout c) m = Ok ro -> ro = r) ->
  (forall q x, lookup (c_Q c) q = Ok x -> square_of (length r) x) ->
  (forall k z, raw_lookup zeta (ZPole k) = Ok z -> square_of (length r) (real_part z)
     /\ raw_lookup zd (ZPole k) = Ok (diag (real_part z))) ->
  convolve3 spl2 simpson wigner c zeta (Some v) = Ok out ->
  convolve_diag spl1 c zd (Some v) = Ok outd ->
  forall m x, lookup out m = Ok x -> (forall ts, lookup (f_dict (c_f c)) m = Ok ts -> ts <> []) ->
    lookup outd m = Ok (diag x).
Proof.
  intros B X1 X2 HQ HZ HO SQ SZ H Hd m x Ex Nt.
  destruct (formulae_requirements raw _ B) as (Np & _ & _ & _ & Rp & _).
  destruct (convolve3_sum raw c zeta (Some v) out B H) as (icv & Eic & Ek & S).
  cbn [the_ic] in Eic. injection Eic as <-.
  assert (Hm : In m (f_poles (c_f c))). { rewrite <- Ek. apply lookup_in. eauto. }
  destruct (proj1 (Rp m) Hm) as [ts Ets]. specialize (Nt ts Ets).
  destruct (S m ts Ets Nt) as (ro & gs & Ero & G & Eo). rewrite Eo in Ex. injection Ex as <-.
  unfold convolve_diag in Hd. rewrite andb_false_r in Hd.
  destruct (on_keys_inv _ _ _ Np Hd) as [_ D]. destruct (D m Hm) as (y & Ey & Ly).
  rewrite Ets in Ey. cbn [bind] in Ey. apply bind_ok in Ey as (ss & Es & Ey). injection Ey as <-.
  rewrite Ly. f_equal. rewrite diag_grid. rewrite (HO m ro Ero).
  apply sequence_forall2 in Es.
  assert (K : exists hs, ss = map (fun h => map h r) hs /\ length hs = length ts
     /\ forall i, (i < length r)%nat ->
        rsum (map (fun h => h (nth i r 0)) hs)
        = rsum (map (fun tg => t_c (fst tg) * snd tg (nth i r 0) (nth i r 0)) (combine ts gs))).
  { clear - G Es X1 X2 HQ HZ HO SQ SZ. revert ss Es.
    induction G as [|t g ts gs P _ IH]; intros ss Es; inversion Es as [|? s ? ss' E Es']; subst.
    - exists []. repeat split; reflexivity.
    - destruct (IH ss' Es') as (hs & -> & L & K).
      apply summand_diag_ok in E as (ro & rq & q & fq & A1 & A2 & A3 & A4 & fz & -> & A5).
      exists ((fun r => t_c t * (fq r * fz r)) :: hs). split; [|split].
      + cbn [map]. f_equal. now rewrite (HO m ro A1).
      + cbn [length]. now rewrite L.
      + intros i Hi. cbn [map combine fst snd]. rewrite !rsum_cons, (K i Hi). f_equal. f_equal.
        destruct P as (rq' & q' & fq' & B1 & B2 & B3 & B4).
        rewrite A2 in B1. injection B1 as <-. rewrite A3 in B2. injection B2 as <-.
        rewrite (HQ _ rq A2) in *.
        assert (Fq : fq (nth i r 0) = fq' (nth i r 0) (nth i r 0)).
        { destruct (X1 _ _ _ _ _ A4) as [_ E1]. rewrite (E1 i Hi), (X2 _ _ _ _ B3 i i Hi Hi).
          apply (diag_nth (length r)); [exact (SQ _ _ A3)|exact Hi]. }
        destruct (t_Z t) as [k|].
        * destruct A5 as (rz & z & C1 & C2 & C3). destruct B4 as (rz' & z' & fz' & D1 & D2 & D3 & Eg).
          rewrite C1 in D1. injection D1 as <-. rewrite (HZ k rz C1) in *.
          destruct (SZ k z' D2) as [Sq Ezd]. rewrite Ezd in C2. injection C2 as <-.
          rewrite Eg, Fq. f_equal. destruct (X1 _ _ _ _ _ C3) as [_ E1].
          rewrite (E1 i Hi), (X2 _ _ _ _ D3 i i Hi Hi). now apply (diag_nth (length r)).
        * destruct A5 as (y & Ey & Fz). destruct B4 as (y' & Ey' & Eg). rewrite Eg, Fq, Fz. congruence. }
  destruct K as (hs & -> & L & K).
  assert (Nh : hs <> []). { destruct hs; [|discriminate]. destruct ts; [congruence|discriminate]. }
  rewrite vsum_map by exact Nh.
  rewrite (map_by_index (fun r => rsum (map (fun h => h r) hs)) r 0).
  rewrite (map_by_index (fun a => rsum _) r 0).
  apply map_ext_in. intros i Hi. apply in_seq in Hi. apply K. lia.
Qed.
End Three.

Print Assumptions convolve2_sum.
Print Assumptions convolve2_linear.
Print Assumptions convolve2_unit.
Print Assumptions convolve2_keys.
Print Assumptions convolve2_keys_refused.
Print Assumptions convolve3_sum.
Print Assumptions ic_used.
Print Assumptions ic_array_refused.
Print Assumptions convolve3_keys_refused.
Print Assumptions ic_value.
Print Assumptions ic_constant.
Print Assumptions constant_removed.
Print Assumptions ic_needs_monopole.
Print Assumptions convolve3_real.
Print Assumptions diag_needs_ic.
Print Assumptions diag_agrees.
