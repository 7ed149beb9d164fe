(* Claim C27: how the mixed-mesh normalisation depends on the weights of both catalogues. *)
From Coq Require Import Reals ZArith List Lia Lra Bool Permutation.
From Verif Require Import Base ArrayModel ArrayProofs RSum MeshModel MeshProofs MeshProps CatModel CatProps NormModel NormProps.
Import ListNotations.
Open Scope R_scope.

(** [qs] are the particles [ps] with their weights multiplied by [k]. *)
Definition reweighted (k : R) (ps qs : list pdatum) : Prop :=
  Forall2 (fun p q => p_pos q = p_pos p /\ p_w q = k * p_w p) ps qs.

Definition times (k : R) (p : pdatum) : pdatum :=
  PDatum (p_pos p) (p_nz p) (p_ws p) (p_wc p) (k * p_w p).

Lemma weigh_reweighted k d ps qs : reweighted k ps qs ->
  map weigh (map (shift_pos d) qs) = map weigh (map (times k) (map (shift_pos d) ps)).
Proof.
  induction 1 as [|p q ps qs [E1 E2] F IH]; [reflexivity|]. cbn [map]. rewrite IH. f_equal.
  unfold weigh, times, shift_pos. cbn [p_pos p_w]. rewrite E1, E2. reflexivity.
Qed.

Lemma mixed_sum_scale sch g d ka kb psa psb qsa qsb :
  reweighted ka psa qsa -> reweighted kb psb qsb ->
  mixed_sum sch g (map (shift_pos d) qsa) (map (shift_pos d) qsb) =
  ka * kb * mixed_sum sch g (map (shift_pos d) psa) (map (shift_pos d) psb).
Proof.
  intros A B. unfold mixed_sum. rewrite (weigh_reweighted ka d psa qsa A), (weigh_reweighted kb d psb qsb B).
  rewrite <- rsum_map_scal. apply rsum_map_ext. intros gid _.
  rewrite (assign_scale sch g ka (times ka)), (assign_scale sch g kb (times kb)); [ring| |];
    intros p _; split; reflexivity.
Qed.

Lemma extremes_reweighted k ps qs i lo hi : reweighted k ps qs -> extremes i ps lo hi -> extremes i qs lo hi.
Proof.
  intros F. assert (G : forall p, In p ps -> exists q, In q qs /\ p_pos q = p_pos p).
  { induction F as [|p q ps qs [E _] F IH]; [contradiction|]. intros x [<-|I].
    - exists q. split; [left; reflexivity|exact E].
    - destruct (IH x I) as [y [Y Q]]. exists y. split; [right; exact Y|exact Q]. }
  assert (H : forall q, In q qs -> exists p, In p ps /\ p_pos q = p_pos p).
  { clear G. induction F as [|p q ps qs [E _] F IH]; [contradiction|]. intros x [<-|I].
    - exists p. split; [left; reflexivity|exact E].
    - destruct (IH x I) as [y [Y Q]]. exists y. split; [right; exact Y|exact Q]. }
  intros [[p [Ip Ep]] [[p' [Ip' Ep']] B]]. split; [|split].
  - destruct (G p Ip) as [q [Iq Eq]]. exists q. rewrite Eq. auto.
  - destruct (G p' Ip') as [q [Iq Eq]]. exists q. rewrite Eq. auto.
  - intros q Iq. destruct (H q Iq) as [x [Ix Ex]]. rewrite Ex. apply B, Ix.
Qed.

(** Multiplying the data weights by [ka], the random weights by [kb] and the contrast by [t]
    divides the mixed-mesh normalisation by the product of the three: it is linear in each of
    the two fields, whatever the alignment, mesh and assignment scheme. *)
Theorem mixed_norm_scale :
  forall s s' a b al sch g padfactor alpha t ka kb psa psb qsa qsb s1 v,
  reached s -> reached s' -> a <> b ->
  has (s a) psa -> has (s b) psb -> has (s' a) qsa -> has (s' b) qsb ->
  reweighted ka psa qsa -> reweighted kb psb qsb -> t <> 0 -> ka <> 0 -> kb <> 0 ->
  mixed_norm a b al sch g padfactor alpha s = (s1, Ok (Ok v)) ->
  exists s2, mixed_norm a b al sch g padfactor (t * alpha) s' = (s2, Ok (Ok (v / (t * ka * kb)))).
Proof.
  intros s s' a b al sch g pf alpha t ka kb psa psb qsa qsb s1 v R R' N Ha Hb Ha' Hb' A B T Ka Kb E.
  destruct (catalogues_in_step s R a) as [_ [Xa _]]. destruct (catalogues_in_step s R b) as [_ [Xb _]].
  destruct (catalogues_in_step s' R' a) as [_ [Xa' _]]. destruct (catalogues_in_step s' R' b) as [_ [Xb' _]].
  destruct (mixed_norm_run s a b al sch g pf alpha psa psb N Ha Hb Xa Xb) as [s3 [E3 _]].
  destruct (mixed_norm_run s' a b al sch g pf (t * alpha) qsa qsb N Ha' Hb' Xa' Xb') as [s2 [E2 _]].
  exists s2. rewrite E2. rewrite E3 in E. injection E as _ E.
  assert (D : align_shift al g pf (s' b) = align_shift al g pf (s b)).
  { unfold extents_current in Xb, Xb'. rewrite (proj1 Hb) in Xb. rewrite (proj1 Hb') in Xb'.
    assert (Q : forall i, at_axis i (pos_min (s' b)) = at_axis i (pos_min (s b)) /\
                          at_axis i (pos_max (s' b)) = at_axis i (pos_max (s b))).
    { intros i. apply (extremes_unique i qsb _ _ _ _ (proj1 (Xb' i))).
      apply (extremes_reweighted kb psb), (proj1 (Xb i)). exact B. }
    assert (Q1 : pos_min (s' b) = pos_min (s b)) by (apply triple_ext; intros i; apply Q).
    assert (Q2 : pos_max (s' b) = pos_max (s b)) by (apply triple_ext; intros i; apply Q).
    unfold align_shift. rewrite Q1, Q2. reflexivity. }
  rewrite D, (mixed_sum_scale sch g _ ka kb psa psb qsa qsb A B).
  set (S := mixed_sum _ _ _ _) in *. clearbody S.
  unfold recip in E. destruct (Reqb (alpha * vol_cell g * S) 0) eqn:Z; [discriminate|].
  apply Reqb_false in Z. injection E as <-.
  assert (alpha <> 0) by (intros Y; apply Z; rewrite Y; ring).
  assert (vol_cell g <> 0) by (intros Y; apply Z; rewrite Y; ring).
  assert (S <> 0) by (intros Y; apply Z; rewrite Y; ring).
  rewrite recip_ok; [do 3 f_equal; field; repeat split; assumption|].
  replace (t * alpha * vol_cell g * (ka * kb * S)) with ((t * ka * kb) * (alpha * vol_cell g * S)) by ring.
  apply Rmult_integral_contrapositive_currified; [|exact Z].
  apply Rmult_integral_contrapositive_currified; [|exact Kb].
  apply Rmult_integral_contrapositive_currified; assumption.
Qed.

(** The overload with its own box is the normalisation on a cubic mesh of an even number of cells
    of the side asked for, each of the volume of a cube of that side, which holds both catalogues
    with the padding asked for. *)
Theorem mixed_norm_box_mesh :
  forall s a b al sch padfactor alpha padding cellsize psa psb i,
  reached s -> has (s a) psa -> has (s b) psb -> 0 < cellsize -> 0 <= padding ->
  0 < at_axis i (pos_span (s a)) \/ 0 < at_axis i (pos_span (s b)) ->
  exists n, (0 < n)%Z /\ (exists k, n = 2 * k)%Z /\
    (forall j, (1 + padding) * at_axis j (pos_span (s a)) <= IZR n * cellsize /\
               (1 + padding) * at_axis j (pos_span (s b)) <= IZR n * cellsize) /\
    mixed_norm_box a b al sch padfactor alpha padding cellsize s =
    mixed_norm a b al sch
      (MeshParams (T3 n n n) (T3 (IZR n * cellsize) (IZR n * cellsize) (IZR n * cellsize)) (cellsize ^ 3))
      padfactor alpha s.
Proof.
  intros s a b al sch pf alpha pad h psa psb i R Ha Hb Hh Hp Hi.
  assert (Sp : forall c ps, has (s c) ps -> forall j, 0 <= at_axis j (pos_span (s c))).
  { intros c ps H j. destruct (catalogues_in_step s R c) as [_ [X _]]. unfold extents_current in X.
    rewrite (proj1 H) in X. destruct (X j) as [[[p [I _]] [_ B]] ->]. assert (Q := B p I). lra. }
  unfold mixed_norm_box. unfold andthen at 1, get at 1. cbn [fst snd]. unfold andthen at 1, get at 1. cbn [fst snd].
  destruct (norm_box (pos_span (s a)) (pos_span (s b)) pad h) as [n l] eqn:E.
  destruct (norm_box_covers _ _ _ _ _ _ E Hh) as [Ev [-> [Cov _]]]; [|exact Hp|].
  { intros j. split; [apply (Sp a psa Ha)|apply (Sp b psb Hb)]. }
  assert (P : (0 < n)%Z).
  { apply lt_IZR. apply (Rmult_lt_reg_r h); [exact Hh|]. rewrite Rmult_0_l. destruct (Cov i) as [C1 C2].
    destruct Hi as [Hi|Hi]; [eapply Rlt_le_trans; [|exact C1]|eapply Rlt_le_trans; [|exact C2]];
      apply Rmult_lt_0_compat; lra. }
  exists n. split; [exact P|]. split; [exact Ev|]. split; [exact Cov|].
  assert (Nz : IZR n <> 0) by (apply not_0_IZR; lia).
  replace (IZR n * h * (IZR n * h) * (IZR n * h) / IZR (n * n * n)) with (h ^ 3); [reflexivity|].
  rewrite !mult_IZR. field. exact Nz.
Qed.

(** The two fields enter alike. *)
Theorem mixed_sum_sym sch g psa psb : mixed_sum sch g psa psb = mixed_sum sch g psb psa.
Proof. unfold mixed_sum. apply rsum_map_ext. intros gid _. ring. Qed.

(** The sum is not zero for a catalogue of one particle of weight 2 against itself. *)
Example mixed_sum_case :
  let g := MeshParams (T3 4%Z 4%Z 4%Z) (T3 4 4 4) 1 in
  let p := PDatum (T3 1 1 1) 1 1 1 2 in
  forall sch, mixed_sum sch g [p] [p] <> 0.
Proof.
  intros g p sch Z.
  assert (V : valid g) by (repeat split; cbn; (lia || lra)).
  assert (W := assign_conserves_weight sch g (map weigh [p]) V). 
  assert (I : forall q, In q (map weigh [p]) -> in_box g q).
  { intros q [<-|[]]. repeat split; cbn; lra. }
  specialize (W I false). unfold mesh_total in W. unfold mixed_sum in Z.
  assert (Q : forall gid, In gid (arange 0 (nmesh g)) -> assign_main sch g (map weigh [p]) gid false = 0).
  { revert Z. generalize (arange 0 (nmesh g)). intros l. induction l as [|x l IH]; [contradiction|].
    cbn [map]. rewrite rsum_cons. intros Z.
    set (f := fun gid => assign_main sch g (map weigh [p]) gid false * assign_main sch g (map weigh [p]) gid false) in *.
    change (f x + rsum (map f l) = 0) in Z.
    assert (P : 0 <= rsum (map f l)).
    { clear. induction l as [|y l IH]; cbn [map]; [rewrite rsum_nil; lra|]. rewrite rsum_cons.
      assert (0 <= f y) by apply Rle_0_sqr. lra. }
    assert (P' : 0 <= f x) by apply Rle_0_sqr.
    assert (f x = 0) by lra. assert (rsum (map f l) = 0) by lra.
    intros gid [<-|J]; [|apply IH; assumption].
    unfold f in H. apply Rmult_integral in H. tauto. }
  cbn [map] in W, Q. rewrite rsum_map_zero in W; [|intros gid J; rewrite (Q gid J); ring].
  rewrite rsum_cons, rsum_nil in W. cbn in W. lra.
Qed.

Print Assumptions mixed_norm_scale.
Print Assumptions mixed_sum_sym.
Print Assumptions mixed_norm_box_mesh.
