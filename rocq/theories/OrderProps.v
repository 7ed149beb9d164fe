(* Claim C25: the loops over spherical orders give the sum over all orders. *)
From Coq Require Import Reals ZArith List Lia Lra Bool Permutation.
From Coquelicot Require Import Complex.
From Verif Require Import Base ArrayModel ArrayProofs RSum CSum BinVecModel BinVecProps ThreePtModel.
Import ListNotations.
Open Scope Z_scope.

(** ** Specification vocabulary *)

Definition mirrored (t : triplet) : triplet := let '(m1, m2, M) := t in (- m1, - m2, - M).
Definition in_range (l1 l2 L : Z) (t : triplet) : Prop :=
  let '(m1, m2, M) := t in - l1 <= m1 <= l1 /\ - l2 <= m2 <= l2 /\ - L <= M <= L.

(** All orders, and those with [M = 0]. *)
Definition all_orders (l1 l2 L : Z) : list triplet :=
  flat_map (fun m1 => flat_map (fun m2 => map (fun M => (m1, m2, M)) (arange (- L) (L + 1)))
    (arange (- l2) (l2 + 1))) (arange (- l1) (l1 + 1)).

(** The weight of the component at given orders. *)
Definition weight (l1 l2 L : Z) (w : triplet -> R) (t : triplet) : R :=
  ((2 * IZR l1 + 1) * (2 * IZR l2 + 1) * (2 * IZR L + 1) * w (0, 0, 0)%Z * w t)%R.
Definition weighted_sum (l1 l2 L : Z) (w : triplet -> R) (v : triplet -> C) (ts : list triplet) : C :=
  csum (map (fun t => (RtoC (weight l1 l2 L w t) * v t)%C) ts).

(** Wigner 3-j symbols as a function of the orders change by a sign under the
    reversal of all orders. *)
Definition reversal_symmetric (l1 l2 L : Z) (w : triplet -> R) : Prop :=
  forall t, w (mirrored t) = (sign (l1 + l2 + L) * w t)%R.
(** No coupling lies between zero and the threshold. *)
Definition well_separated (l1 l2 L : Z) (w : triplet -> R) : Prop :=
  forall t, in_range l1 l2 L t -> (weight l1 l2 L w t = 0 \/ eps_coupling < Rabs (weight l1 l2 L w t))%R.

(** ** Proof support *)
Lemma mirrored_inv t : mirrored (mirrored t) = t.
Proof. destruct t as [[a b] c]. cbn. now rewrite !Z.opp_involutive. Qed.
Lemma is_inverse_spec t u : is_inverse t u = true <-> u = mirrored t.
Proof.
  destruct t as [[a b] c], u as [[a' b'] c']. cbn. rewrite !andb_true_iff, !Z.eqb_eq. split.
  - intros [[H1 H2] H3]. repeat f_equal; lia.
  - intros E. injection E as -> -> ->. lia.
Qed.
Lemma is_zeros_spec t : is_zeros t = true <-> t = mirrored t.
Proof.
  destruct t as [[a b] c]. cbn. rewrite !andb_true_iff, !Z.eqb_eq. split.
  - intros [[-> ->] ->]. reflexivity.
  - intros E. injection E as E1 E2 E3. lia.
Qed.
Lemma mirrored_range l1 l2 L t : in_range l1 l2 L t -> in_range l1 l2 L (mirrored t).
Proof. destruct t as [[a b] c]. cbn. lia. Qed.

Lemma In_all_orders l1 l2 L t : In t (all_orders l1 l2 L) <-> in_range l1 l2 L t.
Proof.
  destruct t as [[a b] c]. unfold all_orders. rewrite in_flat_map. cbn [in_range]. split.
  - intros (m1 & H1 & H). apply in_flat_map in H. destruct H as (m2 & H2 & H). apply in_map_iff in H.
    destruct H as (M & E & H3). injection E as -> -> ->. apply In_arange in H1, H2, H3. lia.
  - intros (H1 & H2 & H3). exists a. split; [apply In_arange; lia|]. apply in_flat_map. exists b.
    split; [apply In_arange; lia|]. apply in_map_iff. exists c. split; [reflexivity|apply In_arange; lia].
Qed.
Lemma NoDup_orders (ms1 ms2 : list Z) (ok : Z -> Z -> bool) (Ms : list Z) :
  NoDup ms1 -> NoDup ms2 -> NoDup Ms ->
  NoDup (flat_map (fun m1 => flat_map (fun m2 => if ok m1 m2 then map (fun M => (m1, m2, M)) Ms else []) ms2) ms1).
Proof.
  intros N1 N2 N3. apply NoDup_flat_map; [exact N1| |].
  - intros a Ha. apply NoDup_flat_map; [exact N2| |].
    + intros b Hb. destruct (ok a b); [|constructor]. apply FinFun.Injective_map_NoDup; [|exact N3].
      intros x y E. now injection E.
    + intros b b' x Hb Hb' H H'. destruct (ok a b); [|contradiction]. destruct (ok a b'); [|contradiction].
      apply in_map_iff in H, H'. destruct H as (? & <- & _), H' as (? & E & _). now injection E.
  - intros a a' x Ha Ha' H H'. apply in_flat_map in H, H'. destruct H as (b & _ & H), H' as (b' & _ & H').
    destruct (ok a b); [|contradiction]. destruct (ok a' b'); [|contradiction].
    apply in_map_iff in H, H'. destruct H as (? & <- & _), H' as (? & E & _). now injection E.
Qed.
Lemma NoDup_all_orders l1 l2 L : NoDup (all_orders l1 l2 L).
Proof.
  unfold all_orders.
  exact (NoDup_orders _ _ (fun _ _ => true) _ (NoDup_arange _ _) (NoDup_arange _ _) (NoDup_arange _ _)).
Qed.

Section loop.
Variable c : triplet -> R.
Variable mirror : R.
Variable v : triplet -> C.
Let good t := negb (Rltb (Rabs (c t)) eps_coupling).
Let term t := (RtoC (c t) * (v t + RtoC (if is_zeros t then 0%R else mirror) * Cconj (v t)))%C.

Lemma order_loop_inv V : NoDup V ->
  exists K, fst (order_loop c mirror v V) = K /\
    snd (order_loop c mirror v V) = csum (map term K) /\ NoDup K /\
    (forall t, In t K -> In t V /\ good t = true /\ (is_zeros t = false -> ~ In (mirrored t) K)) /\
    (forall t, In t V -> good t = true -> In t K \/ In (mirrored t) K).
Proof.
  induction V as [|t V IH] using rev_ind; intros N.
  - exists []. unfold order_loop. cbn. split; [reflexivity|]. split; [reflexivity|]. split; [constructor|]. tauto.
  - assert (N' : NoDup V /\ ~ In t V).
    { apply NoDup_remove in N. rewrite app_nil_r in N. exact N. }
    destruct N' as [NV NT]. destruct (IH NV) as (K & E1 & E2 & NK & H1 & H2).
    unfold order_loop in *. rewrite fold_left_app. cbn [fold_left].
    destruct (fold_left (order_step c mirror v) V ([], RtoC 0)) as [computed acc]. cbn [fst snd] in *. subst computed.
    unfold order_step at 1 2. destruct (existsb (is_inverse t) K) eqn:Ex.
    + exists K. cbn [fst snd]. split; [reflexivity|]. split; [exact E2|]. split; [exact NK|]. split.
      * intros u Hu. destruct (H1 u Hu) as (A & B & D). split; [apply in_or_app; now left|tauto].
      * intros u Hu G. apply in_app_or in Hu. destruct Hu as [Hu|[<-|[]]]; [now apply H2|].
        right. apply existsb_exists in Ex. destruct Ex as (x & Hx & Ix). apply is_inverse_spec in Ix. now subst x.
    + assert (NI : ~ In (mirrored t) K).
      { intros H. assert (existsb (is_inverse t) K = true); [|congruence]. apply existsb_exists.
        exists (mirrored t). split; [exact H|]. now apply is_inverse_spec. }
      destruct (Rltb (Rabs (c t)) eps_coupling) eqn:G.
      * exists K. cbn [fst snd]. split; [reflexivity|]. split; [exact E2|]. split; [exact NK|]. split.
        -- intros u Hu. destruct (H1 u Hu) as (A & B & D). split; [apply in_or_app; now left|tauto].
        -- intros u Hu Gu. apply in_app_or in Hu. destruct Hu as [Hu|[<-|[]]]; [now apply H2|].
           unfold good in Gu. rewrite G in Gu. discriminate.
      * exists (K ++ [t]). cbn [fst snd]. split; [reflexivity|]. split.
        { rewrite map_app, csum_app, E2. f_equal. cbn [map csum fold_right]. now rewrite Cplus_0_r. }
        split.
        { apply NoDup_app_intro; [exact NK|repeat constructor; intros []|].
          intros u Hu [<-|[]]. apply NT. now apply H1. }
        split.
        -- intros u Hu. apply in_app_or in Hu. destruct Hu as [Hu|[<-|[]]].
           ++ destruct (H1 u Hu) as (A & B & D). split; [apply in_or_app; now left|]. split; [exact B|].
              intros Z Hm. apply in_app_or in Hm. destruct Hm as [Hm|[Em|[]]]; [now apply D|].
              apply NI. rewrite Em, mirrored_inv. exact Hu.
           ++ split; [apply in_or_app; right; now left|]. split; [unfold good; now rewrite G|].
              intros Z Hm. apply in_app_or in Hm. destruct Hm as [Hm|[Em|[]]]; [now apply NI|].
              apply is_zeros_spec in Em. congruence.
        -- intros u Hu Gu. apply in_app_or in Hu. destruct Hu as [Hu|[<-|[]]].
           ++ destruct (H2 u Hu Gu); [left|right]; apply in_or_app; now left.
           ++ left. apply in_or_app. right. now left.
Qed.

Lemma order_loop_total V All : NoDup V -> NoDup All ->
  (forall t, In t V -> In t All) ->
  (forall t, In t All -> In (mirrored t) All) ->
  (forall t, In t All -> c t <> 0%R -> In t V) ->
  (forall t, In t All -> c t = 0%R \/ (eps_coupling < Rabs (c t))%R) ->
  (forall t, In t All -> c (mirrored t) = c t) ->
  (forall t, In t All -> c t <> 0%R -> v (mirrored t) = (RtoC mirror * Cconj (v t))%C) ->
  snd (order_loop c mirror v V) = csum (map (fun t => (RtoC (c t) * v t)%C) All).
Proof.
  intros NV NA VA MA AV SEP CM VM. destruct (order_loop_inv V NV) as (K & _ & E & NK & H1 & H2). rewrite E.
  assert (GOOD : forall t, In t All -> good t = true <-> c t <> 0%R).
  { intros t Ht. unfold good. rewrite negb_true_iff, Rltb_false. destruct (SEP t Ht) as [Z|P].
    - rewrite Z, Rabs_R0. split; [|tauto]. unfold eps_coupling. intros; lra.
    - split; [|intros; lra]. intros _ Z. rewrite Z, Rabs_R0 in P. unfold eps_coupling in P. lra. }
  rewrite <- (csum_filter good (fun t => (RtoC (c t) * v t)%C) All).
  2: { intros t Ht G. assert (Z : c t = 0%R); [|rewrite Z; apply Cmult_0_l].
       destruct (Req_dec (c t) 0) as [Z|Z]; [exact Z|]. apply GOOD in Z; [congruence|exact Ht]. }
  set (nz := fun t => negb (is_zeros t)).
  assert (P : Permutation (filter good All) (K ++ map mirrored (filter nz K))).
  { apply NoDup_Permutation.
    - now apply NoDup_filter.
    - apply NoDup_app_intro; [exact NK| |].
      + apply FinFun.Injective_map_NoDup; [|now apply NoDup_filter].
        intros x y Exy. rewrite <- (mirrored_inv x), <- (mirrored_inv y). now f_equal.
      + intros x Hx Hm. apply in_map_iff in Hm. destruct Hm as (y & <- & Hy). apply filter_In in Hy.
        destruct Hy as [Hy Zy]. destruct (H1 y Hy) as (_ & _ & D). apply D; [|exact Hx].
        unfold nz in Zy. now apply negb_true_iff in Zy.
    - intros t. rewrite filter_In, in_app_iff, in_map_iff. split.
      + intros [Ht G]. destruct (H2 t) as [H|H]; [apply AV; [exact Ht|now apply GOOD]|exact G|now left|].
        destruct (is_zeros t) eqn:Z.
        * apply is_zeros_spec in Z. rewrite <- Z in H. now left.
        * right. exists (mirrored t). split; [apply mirrored_inv|]. apply filter_In. split; [exact H|].
          unfold nz. apply negb_true_iff. destruct (is_zeros (mirrored t)) eqn:Zm; [|reflexivity].
          apply is_zeros_spec in Zm. rewrite mirrored_inv in Zm. symmetry in Zm. apply is_zeros_spec in Zm. congruence.
      + intros [H|(u & <- & H)].
        * destruct (H1 t H) as (A & B & _). auto.
        * apply filter_In in H. destruct H as [H _]. destruct (H1 u H) as (A & B & _). split; [auto|].
          unfold good in *. rewrite CM; auto. }
  rewrite (csum_perm _ _ (Permutation_map _ P)), map_app, csum_app, map_map.
  set (g := fun t => (RtoC (c t) * (RtoC (if is_zeros t then 0%R else mirror) * Cconj (v t)))%C).
  transitivity (csum (map (fun t => (RtoC (c t) * v t)%C) K) + csum (map g K))%C.
  { rewrite <- csum_map_plus. apply csum_map_ext. intros t _. unfold term, g. ring. }
  f_equal. rewrite <- (csum_filter nz g K).
  - apply csum_map_ext. intros t Ht. apply filter_In in Ht. destruct Ht as [Ht Z].
    unfold nz in Z. apply negb_true_iff in Z. destruct (H1 t Ht) as (A & B & _). unfold g. rewrite Z, CM by auto.
    rewrite VM; [reflexivity|auto|]. apply GOOD; auto.
  - intros t _ Z. unfold nz in Z. apply negb_false_iff in Z. unfold g. rewrite Z. ring.
Qed.
End loop.

Lemma weight_coupling l1 l2 L w t : coupling_3pt l1 l2 L w t = weight l1 l2 L w t.
Proof. unfold coupling_3pt, weight. rewrite !plus_IZR, !mult_IZR. reflexivity. Qed.

(** The condition on the degrees makes their sum even. *)
Lemma validated_even l1 l2 L w : validate_coupling w = Ok tt -> reversal_symmetric l1 l2 L w ->
  sign (l1 + l2 + L) = 1%R.
Proof.
  intros V S. unfold validate_coupling in V. destruct (Rltb (Rabs (w (0, 0, 0))) eps_coupling) eqn:E; [discriminate|].
  apply Rltb_false in E. assert (E0 := S (0, 0, 0)). cbn [mirrored Z.opp] in E0.
  destruct (sign_cases (l1 + l2 + L)) as [H|H]; [exact H|]. rewrite H in E0.
  assert (Z : w (0, 0, 0) = 0%R) by lra. rewrite Z, Rabs_R0 in E. unfold eps_coupling in E. lra.
Qed.

Lemma weight_mirrored l1 l2 L w t : validate_coupling w = Ok tt -> reversal_symmetric l1 l2 L w ->
  weight l1 l2 L w (mirrored t) = weight l1 l2 L w t.
Proof. intros V S. unfold weight. rewrite (S t), (validated_even l1 l2 L w V S). ring. Qed.

Lemma visited_survey_spec l1 l2 L w t : In t (visited_survey l1 l2 L w) <->
  in_range l1 l2 L t /\ exists M, - L <= M <= L /\
    (eps_coupling < Rabs (weight l1 l2 L w (fst (fst t), snd (fst t), M)))%R.
Proof.
  destruct t as [[a b] c]. unfold visited_survey. rewrite in_flat_map. cbn [in_range fst snd]. split.
  - intros (m1 & H1 & H). apply in_flat_map in H. destruct H as (m2 & H2 & H).
    destruct (existsb _ _) eqn:Ex in H; [|contradiction]. apply in_map_iff in H.
    destruct H as (M & E & H3). injection E as -> -> ->. apply In_arange in H1, H2, H3.
    apply existsb_exists in Ex. destruct Ex as (M' & HM & R). apply In_arange in HM. rewrite weight_coupling in R.
    apply Rltb_spec in R. split; [lia|]. exists M'. split; [lia|exact R].
  - intros ((H1 & H2 & H3) & M & HM & R). exists a. split; [apply In_arange; lia|]. apply in_flat_map. exists b.
    split; [apply In_arange; lia|].
    replace (existsb _ _) with true.
    + apply in_map_iff. exists c. split; [reflexivity|apply In_arange; lia].
    + symmetry. apply existsb_exists. exists M. split; [apply In_arange; lia|]. rewrite weight_coupling. now apply Rltb_spec.
Qed.

Lemma survey_total l1 l2 L w v mirror :
  validate_coupling w = Ok tt -> reversal_symmetric l1 l2 L w -> well_separated l1 l2 L w ->
  (forall t, in_range l1 l2 L t -> weight l1 l2 L w t <> 0%R -> v (mirrored t) = (RtoC mirror * Cconj (v t))%C) ->
  snd (order_loop (coupling_3pt l1 l2 L w) mirror v (visited_survey l1 l2 L w)) =
  weighted_sum l1 l2 L w v (all_orders l1 l2 L).
Proof.
  intros V S W Hv. unfold weighted_sum.
  rewrite (order_loop_total (coupling_3pt l1 l2 L w) mirror v (visited_survey l1 l2 L w) (all_orders l1 l2 L)).
  - apply csum_map_ext. intros t _. now rewrite weight_coupling.
  - apply NoDup_orders; apply NoDup_arange.
  - apply NoDup_all_orders.
  - intros t H. apply visited_survey_spec in H. apply In_all_orders. tauto.
  - intros t H. apply In_all_orders in H. apply In_all_orders. now apply mirrored_range.
  - intros t H Z. apply In_all_orders in H. rewrite weight_coupling in Z. apply visited_survey_spec. split; [exact H|].
    destruct t as [[a b] c]. exists c. split; [exact (proj2 (proj2 H))|]. cbn [fst snd].
    destruct (W (a, b, c) H) as [Z'|P]; [contradiction|exact P].
  - intros t H. rewrite weight_coupling. apply W. now apply In_all_orders.
  - intros t H. rewrite !weight_coupling. now apply weight_mirrored.
  - intros t H. rewrite weight_coupling. apply Hv. now apply In_all_orders.
Qed.

(** ** C25 *)

(** Raw statistic from survey-like catalogues: when the component at mirrored orders
    is the conjugate times [(-1)^L], the loops with skipped orders give the sum over
    all orders. *)
Theorem raw_sum_complete :
  forall l1 l2 L w v,
  validate_coupling w = Ok tt -> reversal_symmetric l1 l2 L w -> well_separated l1 l2 L w ->
  (forall t, in_range l1 l2 L t -> weight l1 l2 L w t <> 0%R ->
     v (mirrored t) = (RtoC (sign L) * Cconj (v t))%C) ->
  raw_survey l1 l2 L w v = Ok (weighted_sum l1 l2 L w v (all_orders l1 l2 L)).
Proof.
  intros l1 l2 L w v V S W Hv. unfold raw_survey. rewrite V. cbn [bind]. f_equal. now apply survey_total.
Qed.

(** Shot noise: when the component at mirrored orders is the conjugate. *)
Theorem shot_sum_complete :
  forall l1 l2 L w v,
  validate_coupling w = Ok tt -> reversal_symmetric l1 l2 L w -> well_separated l1 l2 L w ->
  (forall t, in_range l1 l2 L t -> weight l1 l2 L w t <> 0%R -> v (mirrored t) = Cconj (v t)) ->
  shot_survey l1 l2 L w v = Ok (weighted_sum l1 l2 L w v (all_orders l1 l2 L)).
Proof.
  intros l1 l2 L w v V S W Hv. unfold shot_survey. rewrite V. cbn [bind]. f_equal. apply survey_total; auto.
  intros t R Z. rewrite Hv by auto. ring.
Qed.

(** Box: the sum over the orders with [M = 0]. *)
Theorem box_sum_complete :
  forall l1 l2 L w v, 0 <= L ->
  validate_coupling w = Ok tt -> reversal_symmetric l1 l2 L w -> well_separated l1 l2 L w ->
  (forall t, in_range l1 l2 0 t -> weight l1 l2 L w t <> 0%R ->
     v (mirrored t) = (RtoC (sign L) * Cconj (v t))%C) ->
  raw_box l1 l2 L w v = Ok (weighted_sum l1 l2 L w v (all_orders l1 l2 0)).
Proof.
  intros l1 l2 L w v HL V S W Hv. unfold raw_box. rewrite V. cbn [bind]. f_equal.
  assert (E : visited_box l1 l2 = all_orders l1 l2 0).
  { unfold visited_box, all_orders. apply flat_map_ext. intros m1. generalize (arange (- l2) (l2 + 1)).
    intros l. induction l as [|b l IH]; [reflexivity|]. cbn [map flat_map]. rewrite IH. reflexivity. }
  rewrite E. unfold weighted_sum.
  rewrite (order_loop_total (coupling_3pt l1 l2 L w) (powerRZ (-1) L) v (all_orders l1 l2 0) (all_orders l1 l2 0)).
  - apply csum_map_ext. intros t _. now rewrite weight_coupling.
  - apply NoDup_all_orders.
  - apply NoDup_all_orders.
  - auto.
  - intros t H. apply In_all_orders in H. apply In_all_orders. now apply mirrored_range.
  - auto.
  - intros t H. apply In_all_orders in H. rewrite weight_coupling. apply W. destruct t as [[a b] c]. cbn in *. lia.
  - intros t H. rewrite !weight_coupling. now apply weight_mirrored.
  - intros t H. rewrite weight_coupling. apply Hv. now apply In_all_orders.
Qed.

(** Vanishing coupling at zero orders is rejected. *)
Theorem orders_rejected :
  forall l1 l2 L w v, (Rabs (w (0, 0, 0)%Z) < eps_coupling)%R ->
  raw_survey l1 l2 L w v = Err InvalidParameter /\ shot_survey l1 l2 L w v = Err InvalidParameter /\
  raw_box l1 l2 L w v = Err InvalidParameter.
Proof.
  intros l1 l2 L w v H. apply Rltb_spec in H. unfold raw_survey, shot_survey, raw_box, validate_coupling.
  rewrite H. repeat split.
Qed.

(** Every pair of mirrored orders is computed once. *)
Theorem orders_computed_once :
  forall l1 l2 L w v mirror, let K := fst (order_loop (coupling_3pt l1 l2 L w) mirror v (visited_survey l1 l2 L w)) in
  NoDup K /\ (forall t, In t K -> t <> mirrored t -> ~ In (mirrored t) K) /\
  (forall t, In t K -> in_range l1 l2 L t /\ (eps_coupling <= Rabs (weight l1 l2 L w t))%R) /\
  (well_separated l1 l2 L w -> forall t, in_range l1 l2 L t -> weight l1 l2 L w t <> 0%R -> In t K \/ In (mirrored t) K).
Proof.
  intros l1 l2 L w v mirror K.
  destruct (order_loop_inv (coupling_3pt l1 l2 L w) mirror v (visited_survey l1 l2 L w)) as (K' & E & _ & N & H1 & H2).
  { apply NoDup_orders; apply NoDup_arange. }
  fold K in E. subst K'. split; [exact N|]. split; [|split].
  - intros t Ht NZ. apply (H1 t Ht). destruct (is_zeros t) eqn:Z; [|reflexivity].
    apply is_zeros_spec in Z. contradiction.
  - intros t Ht. destruct (H1 t Ht) as (A & B & _). apply visited_survey_spec in A. split; [tauto|].
    apply negb_true_iff, Rltb_false in B. rewrite weight_coupling in B. exact B.
  - intros W t R Z. apply H2.
    + apply visited_survey_spec. split; [exact R|]. destruct t as [[a b] c]. exists c.
      split; [exact (proj2 (proj2 R))|]. destruct (W (a, b, c) R); [contradiction|assumption].
    + apply negb_true_iff, Rltb_false. rewrite weight_coupling. destruct (W t R); [contradiction|lra].
Qed.

Print Assumptions raw_sum_complete.
Print Assumptions shot_sum_complete.
Print Assumptions box_sum_complete.
Print Assumptions orders_computed_once.
