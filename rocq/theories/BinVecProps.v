(* Claims C22 and C23: which mesh vectors are binned where. *)
From Coq Require Import Reals ZArith List Lia Lra Bool Permutation Sorted.
From Flocq Require Import Core.Raux.
From Verif Require Import Base ArrayModel ArrayProofs RSum MeshModel BinningModel BinningProps BinVecModel.
Import ListNotations.
Open Scope R_scope.

(** ** Specification vocabulary *)

(** Grid numbers and box sizes are positive. *)
Definition grid_ok (g : mesh_params) : Prop :=
  (0 < ax0 (ngrid g))%Z /\ (0 < ax1 (ngrid g))%Z /\ (0 < ax2 (ngrid g))%Z /\
  0 < ax0 (boxsize g) /\ 0 < ax1 (boxsize g) /\ 0 < ax2 (boxsize g).

(** Grid step of an axis in the space of the binning: the cell size or the
    fundamental wavenumber. *)
Definition axis_step (sp : space) (n : Z) (l : R) : R :=
  match sp with Config => l / IZR n | _ => 2 * PI / l end.
Definition grid_steps (sp : space) (g : mesh_params) : triple R :=
  T3 (axis_step sp (ax0 (ngrid g)) (ax0 (boxsize g)))
     (axis_step sp (ax1 (ngrid g)) (ax1 (boxsize g)))
     (axis_step sp (ax2 (ngrid g)) (ax2 (boxsize g))).

(** [n] ordered bins with [n + 1] edges, none beyond the stated maximum. *)
Definition bins_ok (n : nat) (b : cpp_binning) : Prop :=
  c_num b = Z.of_nat n /\ length (c_edges b) = S n /\
  (forall i, (i < n)%nat -> nth i (c_edges b) 0 <= nth (S i) (c_edges b) 0) /\
  nth n (c_edges b) 0 <= c_max b.

(** Length [s] lies in bin [i]: lower edge included, upper edge excluded. *)
Definition inside (b : cpp_binning) (i : nat) (s : R) : bool :=
  if Rle_dec (nth i (c_edges b) 0) s then
    if Rlt_dec s (nth (S i) (c_edges b) 0) then true else false
  else false.

(** The record of cell [c] in bin [i]. *)
Definition record_of (ng : triple Z) (d : triple R) (b : cpp_binning) (i : nat) (c : cell) : bvec :=
  let '(x, y, z) := c in
  BVec (Z.of_nat i) (nth i (c_edges b) 0) (nth (S i) (c_edges b) 0)
       (grid_vector (ax0 ng) (ax0 d) x) (grid_vector (ax1 ng) (ax1 d) y)
       (grid_vector (ax2 ng) (ax2 d) z).

Definition cells_in_bin (ng : triple Z) (d : triple R) (b : cpp_binning) (i : nat) : list cell :=
  filter (fun c => inside b i (cell_len ng d c)) (all_cells ng).

(** Every bin with every cell of the whole mesh that lies in it, once. *)
Definition expected (ng : triple Z) (d : triple R) (b : cpp_binning) (n : nat) : list bvec :=
  flat_map (fun i => map (record_of ng d b i) (cells_in_bin ng d b i)) (seq 0 n).

(** ** List lemmas *)
Lemma In_loop3 is js ks i j k : In (i, j, k) (loop3 is js ks) <-> In i is /\ In j js /\ In k ks.
Proof.
  unfold loop3. rewrite in_flat_map. split.
  - intros (i' & Hi & H). apply in_flat_map in H. destruct H as (j' & Hj & H).
    apply in_map_iff in H. destruct H as (k' & E & Hk). injection E as -> -> ->. auto.
  - intros (Hi & Hj & Hk). exists i. split; [exact Hi|]. apply in_flat_map. exists j. split; [exact Hj|].
    apply in_map_iff. exists k. auto.
Qed.

Lemma NoDup_flat_map {A C} (f : A -> list C) l :
  NoDup l -> (forall x, In x l -> NoDup (f x)) ->
  (forall x y z, In x l -> In y l -> In z (f x) -> In z (f y) -> x = y) -> NoDup (flat_map f l).
Proof.
  induction l as [|a l IH]; intros N H1 H2; [constructor|]. inversion N as [|? ? N1 N2]; subst. cbn [flat_map].
  apply NoDup_app_intro.
  - apply H1. now left.
  - apply IH; [exact N2| |]; intros; [apply H1; now right|]. eapply H2; eauto; now right.
  - intros z Hz Hz'. apply in_flat_map in Hz'. destruct Hz' as (y & Hy & Hz').
    assert (a = y) by (eapply H2; eauto; [now left|now right]). subst. contradiction.
Qed.

Lemma NoDup_loop3 is js ks : NoDup is -> NoDup js -> NoDup ks -> NoDup (loop3 is js ks).
Proof.
  intros Ni Nj Nk. unfold loop3. apply NoDup_flat_map; [exact Ni| |].
  - intros i _. apply NoDup_flat_map; [exact Nj| |].
    + intros j _. apply FinFun.Injective_map_NoDup; [|exact Nk]. intros x y E. now injection E.
    + intros x y z _ _ H H'. apply in_map_iff in H. apply in_map_iff in H'.
      destruct H as (k & <- & _). destruct H' as (k' & E & _). now injection E.
  - intros x y z _ _ H H'. apply in_flat_map in H. apply in_flat_map in H'.
    destruct H as (j & _ & H). destruct H' as (j' & _ & H').
    apply in_map_iff in H. apply in_map_iff in H'.
    destruct H as (k & <- & _). destruct H' as (k' & E & _). now injection E.
Qed.

Lemma flat_map_nil {A C} (f : A -> list C) l : (forall x, In x l -> f x = []) -> flat_map f l = [].
Proof.
  induction l as [|a l IH]; intros H; [reflexivity|]. cbn [flat_map].
  rewrite (H a) by now left. apply IH. intros. apply H. now right.
Qed.

Lemma flat_map_perm {A C} (f : A -> list C) l1 l2 : Permutation l1 l2 ->
  Permutation (flat_map f l1) (flat_map f l2).
Proof.
  induction 1; cbn [flat_map].
  - constructor.
  - now apply Permutation_app_head.
  - rewrite !app_assoc. apply Permutation_app_tail, Permutation_app_comm.
  - etransitivity; eassumption.
Qed.

Lemma cell_eq_dec : forall x y : cell, {x = y} + {x <> y}.
Proof. repeat decide equality. Qed.

(** Dropping elements that contribute nothing. *)
Lemma flat_map_sublist {C} (f : cell -> list C) l L : NoDup l -> NoDup L -> incl l L ->
  (forall x, In x L -> ~ In x l -> f x = []) -> Permutation (flat_map f l) (flat_map f L).
Proof.
  intros Nl NL I H.
  set (rest := filter (fun x => if in_dec cell_eq_dec x l then false else true) L).
  assert (P : Permutation (l ++ rest) L).
  { apply NoDup_Permutation; [|exact NL|].
    - apply NoDup_app_intro; [exact Nl|now apply NoDup_filter|].
      intros x Hx Hr. apply filter_In in Hr. destruct Hr as [_ Hr].
      destruct (in_dec cell_eq_dec x l); [discriminate|contradiction].
    - intros x. rewrite in_app_iff. unfold rest. rewrite filter_In. split.
      + intros [Hx|[Hx _]]; auto.
      + intros Hx. destruct (in_dec cell_eq_dec x l); auto. }
  rewrite <- (flat_map_perm f _ _ P). rewrite flat_map_app.
  rewrite (flat_map_nil f rest); [now rewrite app_nil_r|].
  intros x Hx. apply filter_In in Hx. destruct Hx as [Hx Hr].
  destruct (in_dec cell_eq_dec x l); [discriminate|]. now apply H.
Qed.

Lemma flat_map_swap {A C D} (f : A -> C -> list D) la lc :
  Permutation (flat_map (fun a => flat_map (f a) lc) la) (flat_map (fun c => flat_map (fun a => f a c) la) lc).
Proof.
  induction la as [|a la IH]; cbn [flat_map].
  - now rewrite flat_map_nil.
  - etransitivity; [apply Permutation_app_head; exact IH|]. clear IH.
    induction lc as [|c lc IH]; cbn [flat_map]; [constructor|].
    rewrite <- app_assoc. rewrite <- app_assoc. apply Permutation_app_head.
    rewrite app_assoc. rewrite (Permutation_app_comm (flat_map (f a) lc)).
    rewrite <- app_assoc. apply Permutation_app_head. exact IH.
Qed.

Lemma flat_map_filter {A C} (p : A -> bool) (m : A -> C) l :
  flat_map (fun a => if p a then [m a] else []) l = map m (filter p l).
Proof. induction l as [|a l IH]; [reflexivity|]. cbn [flat_map filter]. rewrite IH. destruct (p a); reflexivity. Qed.

(** Sorting exists. *)
Lemma sorted_insert (key : nat -> Z) a l : StronglySorted (fun x y => ~ (key y < key x)%Z) l ->
  exists l', Permutation l' (a :: l) /\ StronglySorted (fun x y => ~ (key y < key x)%Z) l'.
Proof.
  induction l as [|b l IH]; intros H.
  - exists [a]. split; [reflexivity|]. repeat constructor.
  - inversion H as [|? ? H1 H2]; subst. destruct (Z_lt_le_dec (key b) (key a)) as [L|L].
    + destruct (IH H1) as (l' & P & Sl). exists (b :: l'). split.
      * rewrite P. constructor.
      * constructor; [exact Sl|]. apply Forall_forall. intros x Hx. apply (Permutation_in _ P) in Hx.
        destruct Hx as [<-|Hx]; [lia|]. rewrite Forall_forall in H2. now apply H2.
    + exists (a :: b :: l). split; [reflexivity|]. constructor; [exact H|]. constructor; [lia|].
      rewrite Forall_forall in *. intros x Hx. specialize (H2 x Hx). lia.
Qed.

Lemma sorting_exists keys : exists idx, sorting_of idx keys.
Proof.
  unfold sorting_of. induction (seq 0 (length keys)) as [|a l (l' & P & Sl)].
  - exists []. split; constructor.
  - destruct (sorted_insert (fun i => nth i keys 0%Z) a l' Sl) as (l'' & P' & S'). exists l''. split; [|exact S'].
    rewrite P'. now constructor.
Qed.

Lemma map_nth_seq {A} (dflt : A) es : map (fun i => nth i es dflt) (seq 0 (length es)) = es.
Proof.
  apply nth_ext with (d := dflt) (d' := dflt); [now rewrite map_length, seq_length|].
  intros i Hi. rewrite map_length, seq_length in Hi.
  rewrite (nth_indep _ dflt (nth 0 es dflt)) by (now rewrite map_length, seq_length).
  rewrite (map_nth (fun i => nth i es dflt) (seq 0 (length es)) 0%nat i). rewrite seq_nth by exact Hi. reflexivity.
Qed.

Lemma gather_perm es idx : sorting_of idx (map v_bin es) -> Permutation (gather es idx) es.
Proof.
  intros [P _]. rewrite map_length in P. unfold gather.
  rewrite (Permutation_map _ P). rewrite map_nth_seq. reflexivity.
Qed.

Lemma gather_sorted es idx : sorting_of idx (map v_bin es) ->
  StronglySorted (fun a c => (v_bin a <= v_bin c)%Z) (gather es idx).
Proof.
  intros [P H]. rewrite map_length in P.
  assert (I : forall i, In i idx -> (i < length es)%nat).
  { intros i Hi. apply (Permutation_in _ P) in Hi. apply in_seq in Hi. lia. }
  clear P. unfold gather. induction H as [|i idx H IH F]; [constructor|]. cbn [map]. constructor.
  - apply IH. intros. apply I. now right.
  - rewrite Forall_forall in *. intros e He. apply in_map_iff in He. destruct He as (j & <- & Hj).
    specialize (F j Hj).
    assert (V : forall m, In m (i :: idx) -> nth m (map v_bin es) 0%Z = v_bin (nth m es (BVec 0 0 0 0 0 0))).
    { intros m Hm. rewrite <- (map_nth v_bin). apply nth_indep. rewrite map_length. now apply I. }
    rewrite (V j) in F by now right. rewrite (V i) in F by now left. lia.
Qed.

(** ** Index ranges *)
Lemma Zceil_half_lt n : IZR (Zceil (IZR n / 2)) < IZR n / 2 + 1.
Proof. assert (H := Zceil_lb (IZR n / 2)). lra. Qed.

Lemma axis_range_sub sp b n l i : (0 < n)%Z -> In i (axis_range sp b n l) -> (0 <= i < n)%Z.
Proof.
  intros Hn. unfold axis_range, generate_range. set (x := bin_extent sp b n l).
  assert (R0 : (0 <= Zfloor (IZR n / 2))%Z).
  { apply Zfloor_lub. assert (IZR 1 <= IZR n) by (apply IZR_le; lia). lra. }
  destruct (lrange_upper x n <? rrange_lower x n)%Z eqn:E; rewrite ?in_app_iff, ?In_arange.
  - apply Z.ltb_lt in E. unfold rrange_lower, lrange_upper in *.
    intros [H|H]; [|lia]. split; [lia|].
    destruct (Rle_lt_dec 0 x) as [Hx|Hx].
    + assert (Zfloor (IZR n - x) <= n)%Z.
      { apply le_IZR. assert (F := Zfloor_lb (IZR n - x)). lra. }
      assert (Zfloor (IZR n / 2) <= n)%Z.
      { apply le_IZR. assert (F := Zfloor_lb (IZR n / 2)). assert (IZR 1 <= IZR n) by (apply IZR_le; lia). lra. }
      lia.
    + assert (Zceil x <= 0)%Z by (apply Zceil_glb; simpl; lra). lia.
  - intros H. lia.
Qed.

Lemma axis_range_NoDup sp b n l : NoDup (axis_range sp b n l).
Proof.
  unfold axis_range, generate_range. set (x := bin_extent sp b n l).
  destruct (lrange_upper x n <? rrange_lower x n)%Z eqn:E; [|apply NoDup_arange].
  apply Z.ltb_lt in E. apply NoDup_app_intro; try apply NoDup_arange.
  intros y H H'. apply In_arange in H. apply In_arange in H'. lia.
Qed.

(** An index left out belongs to a component larger than the maximum. *)
Lemma axis_range_complete sp b n l i : (0 < n)%Z -> 0 < l -> (0 <= i < n)%Z ->
  ~ In i (axis_range sp b n l) -> b < Rabs (grid_vector n (axis_step sp n l) i).
Proof.
  intros Hn Hl Hi. unfold axis_range, generate_range. set (x := bin_extent sp b n l).
  assert (Pn : 0 < IZR n) by (apply IZR_lt; lia). assert (PIp := PI_RGT_0).
  assert (Hd : 0 < axis_step sp n l) by (destruct sp; unfold axis_step; apply Rdiv_lt_0_compat; lra).
  assert (Eb : b = x * axis_step sp n l).
  { unfold x. destruct sp; unfold bin_extent, axis_step; field; lra. }
  destruct (lrange_upper x n <? rrange_lower x n)%Z eqn:E; rewrite ?in_app_iff, ?In_arange; [|intros; lia].
  apply Z.ltb_lt in E. intros H. assert (Hi1 : (lrange_upper x n < i < rrange_lower x n)%Z) by lia.
  clear H E. unfold lrange_upper, rrange_lower in Hi1.
  assert (C := Zceil_ub x). assert (C2 := Zceil_half_lt n). assert (C3 := Zceil_ub (IZR n / 2)).
  assert (F := Zfloor_lb (IZR n - x)). assert (F1 := Zfloor_ub (IZR n - x)).
  assert (F2 := Zfloor_lb (IZR n / 2)). assert (C4 := Zceil_lb x).
  assert (Hr : IZR i < IZR n - x /\ x < IZR i).
  { destruct (Z.max_spec (Zfloor (IZR n - x)) (Zfloor (IZR n / 2))) as [[_ M]|[_ M]]; rewrite M in Hi1;
    destruct (Z.min_spec (Zceil x) (Zceil (IZR n / 2))) as [[_ M']|[_ M']]; rewrite M' in Hi1;
    destruct Hi1 as [A1 A2].
    - assert (IZR (Zceil x) + 1 <= IZR i) by (rewrite <- plus_IZR; apply IZR_le; lia).
      assert (IZR i + 1 <= IZR (Zfloor (IZR n / 2))) by (rewrite <- plus_IZR; apply IZR_le; lia). lra.
    - assert (IZR (Zceil (IZR n / 2)) + 1 <= IZR i) by (rewrite <- plus_IZR; apply IZR_le; lia).
      assert (IZR i + 1 <= IZR (Zfloor (IZR n / 2))) by (rewrite <- plus_IZR; apply IZR_le; lia). lra.
    - assert (IZR (Zceil x) + 1 <= IZR i) by (rewrite <- plus_IZR; apply IZR_le; lia).
      assert (IZR i + 1 <= IZR (Zfloor (IZR n - x))) by (rewrite <- plus_IZR; apply IZR_le; lia). lra.
    - assert (IZR (Zceil (IZR n / 2)) + 1 <= IZR i) by (rewrite <- plus_IZR; apply IZR_le; lia).
      assert (IZR i + 1 <= IZR (Zfloor (IZR n - x))) by (rewrite <- plus_IZR; apply IZR_le; lia). lra. }
  rewrite Eb. unfold grid_vector. destruct (i <? n / 2)%Z.
  - rewrite Rabs_mult, (Rabs_right (axis_step sp n l)) by lra.
    apply Rmult_lt_compat_r; [exact Hd|]. apply Rlt_le_trans with (IZR i); [lra|apply Rle_abs].
  - rewrite Rabs_mult, (Rabs_right (axis_step sp n l)) by lra.
    apply Rmult_lt_compat_r; [exact Hd|]. rewrite minus_IZR.
    apply Rlt_le_trans with (- (IZR i - IZR n)); [lra|]. rewrite <- Rabs_Ropp. apply Rle_abs.
Qed.

Lemma magnitude_ge x y z : Rabs x <= magnitude x y z /\ Rabs y <= magnitude x y z /\ Rabs z <= magnitude x y z.
Proof.
  unfold magnitude. rewrite <- !sqrt_Rsqr_abs. unfold Rsqr.
  repeat split; apply sqrt_le_1_alt; nra.
Qed.

(** ** Bins *)
Lemma edges_le n b i j : bins_ok n b -> (i <= j <= n)%nat -> nth i (c_edges b) 0 <= nth j (c_edges b) 0.
Proof.
  intros (_ & _ & M & _) [H1 H2]. induction j as [|j IH].
  - replace i with 0%nat by lia. lra.
  - destruct (Nat.eq_dec i (S j)) as [->|D]; [lra|]. specialize (IH ltac:(lia) ltac:(lia)).
    specialize (M j ltac:(lia)). lra.
Qed.

Lemma inside_spec b i s : inside b i s = true <-> nth i (c_edges b) 0 <= s < nth (S i) (c_edges b) 0.
Proof.
  unfold inside. destruct (Rle_dec _ s); [destruct (Rlt_dec s _)|]; split; intros; try lra; try discriminate; auto.
Qed.

Lemma inside_unique n b i j s : bins_ok n b -> (i < n)%nat -> (j < n)%nat ->
  inside b i s = true -> inside b j s = true -> i = j.
Proof.
  intros Hb Hi Hj A C. apply inside_spec in A. apply inside_spec in C.
  destruct (Nat.lt_trichotomy i j) as [L|[L|L]]; [|exact L|].
  - assert (E := edges_le n b (S i) j Hb ltac:(lia)). lra.
  - assert (E := edges_le n b (S j) i Hb ltac:(lia)). lra.
Qed.

Definition cell_records ng d b n (c : cell) : list bvec :=
  flat_map (fun i => if inside b i (cell_len ng d c) then [record_of ng d b i c] else []) (seq 0 n).

Lemma find_bin_ok b m : forall lo s, (length (c_edges b) > lo + m)%nat ->
  find_bin (map Z.of_nat (seq lo m)) (c_edges b) s =
  Ok (match find (fun i => inside b i s) (seq lo m) with
      | Some i => Some (Z.of_nat i, nth i (c_edges b) 0, nth (S i) (c_edges b) 0)
      | None => None end).
Proof.
  induction m as [|m IH]; intros lo s HL; [reflexivity|]. cbn [seq map find_bin find].
  rewrite Nat2Z.id. rewrite (nth_error_nth' _ 0) by lia. rewrite (nth_error_nth' _ 0) by lia.
  replace (lo + 1)%nat with (S lo) by lia.
  replace (Rleb _ s && Rltb s _) with (inside b lo s).
  - destruct (inside b lo s); [reflexivity|]. apply IH. lia.
  - unfold inside, Rleb, Rltb. destruct (Rle_dec _ s); [|reflexivity]. now destruct (Rlt_dec s _).
Qed.

Lemma arange_seq n : arange 0 (Z.of_nat n) = map Z.of_nat (seq 0 n).
Proof. unfold arange. rewrite Z.sub_0_r, Nat2Z.id. apply map_ext. intros. lia. Qed.

Lemma find_flat_map {C} (p : nat -> bool) (f : nat -> C) l : NoDup l ->
  (forall i j, In i l -> In j l -> p i = true -> p j = true -> i = j) ->
  flat_map (fun i => if p i then [f i] else []) l =
  match find p l with Some i => [f i] | None => [] end.
Proof.
  induction l as [|a l IH]; intros N H; [reflexivity|]. inversion N as [|? ? N1 N2]; subst. cbn [flat_map find].
  destruct (p a) eqn:E.
  - rewrite flat_map_nil; [reflexivity|]. intros x Hx. destruct (p x) eqn:Ex; [|reflexivity].
    assert (a = x) by (apply H; auto; [now left|now right]). subst. contradiction.
  - simpl. apply IH; [exact N2|]. intros. apply H; auto; now right.
Qed.

Lemma bin_cell_ok n b ng d c : bins_ok n b -> bin_cell ng d b c = Ok (cell_records ng d b n c).
Proof.
  intros Hb. destruct (Hb) as (En & El & _). unfold bin_cell, cell_records, cell_len. destruct c as [[i j] k].
  cbn [cell_vec].
  rewrite En, arange_seq, find_bin_ok by (rewrite El; lia). cbn [bind].
  rewrite find_flat_map.
  - destruct (find _ _); reflexivity.
  - apply seq_NoDup.
  - intros p q Hp Hq A C. apply in_seq in Hp. apply in_seq in Hq.
    eapply (inside_unique n b); eauto; lia.
Qed.

Lemma run_bin_ok n b ng d order : bins_ok n b ->
  run_bin ng d b order = Ok (flat_map (cell_records ng d b n) order).
Proof.
  intros Hb. induction order as [|c t IH]; [reflexivity|]. cbn [run_bin flat_map].
  rewrite (bin_cell_ok n) by exact Hb. cbn [bind]. rewrite IH. reflexivity.
Qed.

Lemma steps_ok sp g : sp = Config \/ sp = Fourier -> steps sp g = Ok (grid_steps sp g).
Proof. intros [->| ->]; reflexivity. Qed.

Lemma outside_no_record n b g c : grid_ok g -> bins_ok n b ->
  In c (all_cells (ngrid g)) -> ~ In c (restricted_cells g b) ->
  cell_records (ngrid g) (grid_steps (c_space b) g) b n c = [].
Proof.
  intros (N0 & N1 & N2 & L0 & L1 & L2) Hb Hc Hr. destruct c as [[i j] k].
  unfold all_cells in Hc. apply In_loop3 in Hc. rewrite !In_arange in Hc. destruct Hc as (Hi & Hj & Hk).
  assert (G : c_max b < cell_len (ngrid g) (grid_steps (c_space b) g) (i, j, k)).
  { unfold cell_len. cbn [cell_vec].
    set (vx := grid_vector _ _ i). set (vy := grid_vector _ _ j). set (vz := grid_vector _ _ k).
    destruct (magnitude_ge vx vy vz) as (Mx & My & Mz). unfold restricted_cells in Hr. rewrite In_loop3 in Hr.
    destruct (in_dec Z.eq_dec i (axis_range (c_space b) (c_max b) (ax0 (ngrid g)) (ax0 (boxsize g)))) as [Ii|Ii].
    - destruct (in_dec Z.eq_dec j (axis_range (c_space b) (c_max b) (ax1 (ngrid g)) (ax1 (boxsize g)))) as [Ij|Ij].
      + destruct (in_dec Z.eq_dec k (axis_range (c_space b) (c_max b) (ax2 (ngrid g)) (ax2 (boxsize g)))) as [Ik|Ik].
        * tauto.
        * apply axis_range_complete in Ik; [|assumption..]. unfold vz in *. cbn [grid_steps ax2] in *. lra.
      + apply axis_range_complete in Ij; [|assumption..]. unfold vy in *. cbn [grid_steps ax1] in *. lra.
    - apply axis_range_complete in Ii; [|assumption..]. unfold vx in *. cbn [grid_steps ax0] in *. lra. }
  apply flat_map_nil. intros p Hp. apply in_seq in Hp.
  destruct (inside b p _) eqn:E; [|reflexivity]. exfalso. apply inside_spec in E.
  assert (M := edges_le n b (S p) n Hb ltac:(lia)). destruct Hb as (_ & _ & _ & Hm). lra.
Qed.

Lemma all_cells_NoDup ng : NoDup (all_cells ng).
Proof. apply NoDup_loop3; apply NoDup_arange. Qed.

Lemma restricted_sub g b : grid_ok g -> incl (restricted_cells g b) (all_cells (ngrid g)).
Proof.
  intros (N0 & N1 & N2 & _) [[i j] k] H. unfold restricted_cells in H. apply In_loop3 in H.
  destruct H as (Hi & Hj & Hk). unfold all_cells. apply In_loop3. rewrite !In_arange.
  repeat split; first [eapply axis_range_sub; eassumption | idtac];
  try (eapply (axis_range_sub _ _ _ _ _ N0); eassumption);
  try (eapply (axis_range_sub _ _ _ _ _ N1); eassumption);
  try (eapply (axis_range_sub _ _ _ _ _ N2); eassumption).
Qed.

(** ** C22 *)

(** Any run, whatever the order in which the threads process the cells, lists
    for every bin every vector of the full mesh in that bin exactly once, with its
    bin index and edges, and nothing else, sorted by bin; and runs exist. *)
Theorem binned_vectors_exact :
  forall g b n, grid_ok g -> (c_space b = Config \/ c_space b = Fourier) -> bins_ok n b ->
  let d := grid_steps (c_space b) g in
  (exists out, record_binned_vectors g b out) /\
  forall out, record_binned_vectors g b out ->
    exists es, out = Ok es /\
      Permutation es (expected (ngrid g) d b n) /\
      StronglySorted (fun e e' => (v_bin e <= v_bin e')%Z) es.
Proof.
  intros g b n Hg Hsp Hb d. unfold record_binned_vectors. rewrite steps_ok by exact Hsp. fold d. split.
  - destruct (sorting_exists (map v_bin (flat_map (cell_records (ngrid g) d b n) (restricted_cells g b)))) as (idx & Hi).
    eexists. exists (restricted_cells g b). split; [reflexivity|].
    rewrite (run_bin_ok n) by exact Hb. exists idx. split; [exact Hi|reflexivity].
  - intros out (order & P & H). rewrite (run_bin_ok n) in H by exact Hb. destruct H as (idx & Hi & ->).
    eexists. split; [reflexivity|]. split; [|now apply gather_sorted].
    rewrite (gather_perm _ _ Hi). rewrite (flat_map_perm _ _ _ P).
    rewrite (flat_map_sublist _ (restricted_cells g b) (all_cells (ngrid g))).
    + unfold cell_records, expected, cells_in_bin.
      rewrite (flat_map_swap (fun c i => if inside b i (cell_len (ngrid g) d c) then [record_of (ngrid g) d b i c] else [])).
      erewrite (flat_map_ext (fun i => map _ _)); [reflexivity|]. intros i. symmetry.
      apply (flat_map_filter (fun c => inside b i (cell_len (ngrid g) d c)) (record_of (ngrid g) d b i)).
    + apply NoDup_loop3; apply axis_range_NoDup.
    + apply all_cells_NoDup.
    + now apply restricted_sub.
    + intros c Hc Hr. now apply outside_no_record.
Qed.

(** The specification list itself: its entries are exactly the pairs of a bin
    and a mesh vector in it. *)
Theorem expected_entries :
  forall ng d b n e, In e (expected ng d b n) <->
  exists i x y z, (i < n)%nat /\ (0 <= x < ax0 ng)%Z /\ (0 <= y < ax1 ng)%Z /\ (0 <= z < ax2 ng)%Z /\
    let vx := grid_vector (ax0 ng) (ax0 d) x in
    let vy := grid_vector (ax1 ng) (ax1 d) y in
    let vz := grid_vector (ax2 ng) (ax2 d) z in
    nth i (c_edges b) 0 <= sqrt (vx ^ 2 + vy ^ 2 + vz ^ 2) < nth (S i) (c_edges b) 0 /\
    e = BVec (Z.of_nat i) (nth i (c_edges b) 0) (nth (S i) (c_edges b) 0) vx vy vz.
Proof.
  intros ng d b n e. unfold expected, cells_in_bin. rewrite in_flat_map. split.
  - intros (i & Hi & H). apply in_seq in Hi. apply in_map_iff in H. destruct H as ([[x y] z] & <- & H).
    apply filter_In in H. destruct H as [H1 H2]. unfold all_cells in H1. apply In_loop3 in H1. rewrite !In_arange in H1.
    apply inside_spec in H2. exists i, x, y, z. repeat (split; [lia|]). cbn zeta. split; [|reflexivity].
    unfold cell_len, magnitude in H2. cbn [cell_vec] in H2.
    replace (_ ^ 2 + _ ^ 2 + _ ^ 2) with
      (grid_vector (ax0 ng) (ax0 d) x * grid_vector (ax0 ng) (ax0 d) x +
       grid_vector (ax1 ng) (ax1 d) y * grid_vector (ax1 ng) (ax1 d) y +
       grid_vector (ax2 ng) (ax2 d) z * grid_vector (ax2 ng) (ax2 d) z) by ring. exact H2.
  - intros (i & x & y & z & Hi & Hx & Hy & Hz & H & ->). exists i. split; [apply in_seq; lia|].
    apply in_map_iff. exists (x, y, z). split; [reflexivity|]. apply filter_In. split.
    + unfold all_cells. apply In_loop3. rewrite !In_arange. auto.
    + apply inside_spec. unfold cell_len, magnitude. cbn [cell_vec].
      replace (grid_vector (ax0 ng) (ax0 d) x * grid_vector (ax0 ng) (ax0 d) x +
       grid_vector (ax1 ng) (ax1 d) y * grid_vector (ax1 ng) (ax1 d) y +
       grid_vector (ax2 ng) (ax2 d) z * grid_vector (ax2 ng) (ax2 d) z) with
      (grid_vector (ax0 ng) (ax0 d) x ^ 2 + grid_vector (ax1 ng) (ax1 d) y ^ 2 +
       grid_vector (ax2 ng) (ax2 d) z ^ 2) by ring. exact H.
Qed.

(** The hypotheses on the bins hold for every binning whose edges describe [n] bins
    up to its maximum, in particular after a successful [set_bins] of the linear and
    logarithmic schemes and for increasing custom bins. *)
Lemma described_bins_ok n lo b : describes n lo (c_max b) (c_edges b, c_centres b, c_widths b) ->
  c_num b = Z.of_nat n -> bins_ok n b.
Proof.
  intros (L & _ & _ & _ & E & M) H. split; [exact H|]. split; [exact L|]. split; [|rewrite E; lra].
  intros i Hi. destruct (M i Hi) as (Hm & _). lra.
Qed.

Theorem binned_vectors_lin_log :
  forall g sp sc lo hi n, grid_ok g -> (sp = Config \/ sp = Fourier) ->
  (sc = Lin /\ 0 <= lo \/ sc = Log /\ 0 < lo) -> lo < hi -> (0 < n)%nat ->
  let (s, thrown) := py_set_bins (py_new sp sc) lo hi (Z.of_nat n) in
  let b := p_cpp s in
  thrown = None /\
  forall out, record_binned_vectors g b out ->
    exists es, out = Ok es /\ Permutation es (expected (ngrid g) (grid_steps sp g) b n).
Proof.
  intros g sp sc lo hi n Hg Hsp Hsc Hlt Hn.
  destruct (set_bins_lin_log sp sc lo hi n Hsc Hlt Hn) as (s & E & P1 & P2 & P3 & D & _). rewrite E.
  split; [reflexivity|]. intros out H.
  assert (Sy := binning_success_in_sync sp sc [] (CallSet lo hi (Z.of_nat n))). cbn [run fold_left do_call] in Sy.
  rewrite E in Sy. cbn [fst snd] in Sy. specialize (Sy eq_refl).
  destruct Sy as (Y1 & Y2 & Y3 & Y4 & Y5 & Y6 & Y7).
  rewrite P2 in Y2. rewrite P3 in Y3. injection Y2 as Y2. injection Y3 as Y3.
  rewrite Y4, Y5, Y6 in D. rewrite Y2 in D.
  assert (Hsp' : c_space (p_cpp s) = sp).
  { unfold py_set_bins, cpp_set_bins, cpp_set_bins0 in E. cbn [py_new p_cpp cpp_ctor] in E.
    destruct (Rltb lo 0); [discriminate|]. destruct (Z.of_nat n <=? 0)%Z; [discriminate|].
    destruct (compute_bins _) as [[[e c] w]|x]; [|discriminate]. injection E as <-. reflexivity. }
  destruct (binned_vectors_exact g (p_cpp s) n Hg) as [_ X].
  - rewrite Hsp'. exact Hsp.
  - eapply described_bins_ok; [exact D|now symmetry].
  - destruct (X out H) as (es & -> & P & _). exists es. split; [reflexivity|]. rewrite <- Hsp'. exact P.
Qed.

(** A binning space other than the two named ones is rejected. *)
Theorem binned_vectors_bad_space :
  forall g b out, c_space b = OtherSpace -> record_binned_vectors g b out -> out = Err InvalidData.
Proof. intros g b out E H. unfold record_binned_vectors in H. rewrite E in H. exact H. Qed.

(** Every listed vector comes from the restricted index ranges, whatever the bins. *)
Lemma listed_in_range g b d es order : run_bin (ngrid g) d b order = Ok es ->
  forall e, In e es -> exists i j k, In (i, j, k) order /\ v_x e = grid_vector (ax0 (ngrid g)) (ax0 d) i.
Proof.
  revert es. induction order as [|c t IH]; intros es H e He.
  - injection H as <-. contradiction.
  - cbn [run_bin] in H. apply bind_ok in H. destruct H as (r & E1 & H). apply bind_ok in H. destruct H as (r' & E2 & H).
    injection H as <-. apply in_app_iff in He. destruct He as [He|He].
    + destruct c as [[i j] k]. exists i, j, k. split; [now left|].
      unfold bin_cell in E1. cbn [cell_vec] in E1. apply bind_ok in E1. destruct E1 as ([[[ib lo] hi]|] & _ & E1);
      injection E1 as <-; [destruct He as [<-|[]]; reflexivity|destruct He].
    + destruct (IH r' E2 e He) as (i & j & k & Hi & Hv). exists i, j, k. split; [now right|exact Hv].
Qed.

(** For padded bins that the parameter validation accepts but whose padding
    reaches beyond the maximum, vectors inside a bin are left out. *)
Theorem binned_vectors_padded_refuted :
  exists g bin_min bin_max num_bins,
    params_accepted LinPad bin_min bin_max num_bins = true /\ grid_ok g /\
    exists b, cpp_set_bins0 (cpp_ctor_params Fourier LinPad bin_min bin_max num_bins
                               (ax0 (boxsize g)) (ax0 (ngrid g))) = (b, None) /\
    exists e, In e (expected (ngrid g) (grid_steps Fourier g) b (Z.to_nat num_bins)) /\
      forall es, record_binned_vectors g b (Ok es) -> ~ In e es.
Proof.
  exists (MeshParams (T3 8 8 8)%Z (T3 (2 * PI) (2 * PI) (2 * PI)) 1), 0, 2, 7%Z.
  assert (Q := PI_RGT_0).
  assert (Est : grid_steps Fourier (MeshParams (T3 8 8 8)%Z (T3 (2 * PI) (2 * PI) (2 * PI)) 1) = T3 1 1 1).
  { unfold grid_steps, axis_step. cbn [boxsize ngrid ax0 ax1 ax2]. replace (2 * PI / (2 * PI)) with 1 by (field; lra). reflexivity. }
  split; [|split].
  - unfold params_accepted. rewrite (proj2 (Rltb_false 0 0)) by lra.
    rewrite (proj2 (Rleb_false 2 0)) by lra. reflexivity.
  - unfold grid_ok. cbn [boxsize ngrid ax0 ax1 ax2]. repeat split; lia || lra.
  - unfold cpp_set_bins0, compute_bins. cbn [c_scheme c_space cpp_ctor_params boxsize ngrid ax0 ax1 ax2 bind c_pad_fourier].
    replace ((1 + 5 / 1000) * (2 * PI) / (2 * PI)) with (1005 / 1000) by (field; lra).
    eexists. split; [reflexivity|].
    exists (BVec 2 (2010 / 1000) (3015 / 1000) 3 0 0). split.
    + rewrite Est. apply expected_entries. exists 2%nat, 3%Z, 0%Z, 0%Z. cbn [ngrid ax0 ax1 ax2].
      split; [lia|]. split; [lia|]. split; [lia|]. split; [lia|].
      unfold linpad_bins, pad_bins. cbn [c_edges c_max c_num]. unfold irange, nbin_pad. rewrite !pad_app.
      cbn [Nat.ltb Nat.leb]. unfold grid_vector. change (3 <? 8 / 2)%Z with true. change (0 <? 8 / 2)%Z with true. cbn zeta iota.
      replace (IZR (Z.of_nat 2)) with 2 by reflexivity. replace (IZR (Z.of_nat 3)) with 3 by reflexivity.
      replace ((3 * 1) ^ 2 + (0 * 1) ^ 2 + (0 * 1) ^ 2) with (3 * 3) by ring. rewrite sqrt_square by lra.
      split; [lra|]. f_equal; try lra; reflexivity.
    + intros es H HIn. unfold record_binned_vectors in H. cbn [c_space] in H. rewrite steps_ok in H by now right. rewrite Est in H.
      destruct H as (order & P & H).
      destruct (run_bin _ _ _ order) as [es'|x] eqn:Er; [|discriminate].
      destruct H as (idx & Hi & E). injection E as ->. apply (Permutation_in _ (gather_perm _ _ Hi)) in HIn.
      destruct (listed_in_range _ _ _ _ _ Er _ HIn) as (i & j & k & Hc & Hv).
      apply (Permutation_in _ P) in Hc. unfold restricted_cells in Hc. apply In_loop3 in Hc. destruct Hc as (Hc & _).
      cbn [c_space c_max ngrid boxsize ax0 cpp_ctor_params] in *. unfold axis_range, bin_extent in Hc.
      replace (2 * (2 * PI) / (2 * PI)) with 2 in Hc by (field; lra).
      unfold generate_range, lrange_upper, rrange_lower in Hc.
      replace (8 / 2) with 4 in Hc by lra. replace (8 - 2) with 6 in Hc by lra.
      rewrite (Zceil_IZR 2), (Zceil_IZR 4), (Zfloor_IZR 6), (Zfloor_IZR 4) in Hc. cbn in Hc.
      cbn [v_x] in Hv. unfold grid_vector in Hv.
      destruct Hc as [<-|[<-|[<-|[<-|[<-|[]]]]]]; cbn in Hv; lra.
Qed.

(** ** C23 *)

(** Wavenumber (or separation) rounded down to a multiple of the fine step. *)
Definition sampled (d s : R) : R := IZR (Zfloor (s / d)) * d.

(** Modes which the code counts for the bin [lo, hi). *)
Definition counted (d lo hi : R) (len : cell -> R) (cells : list cell) : list cell :=
  filter (fun c => (Zfloor (len c / d) <? n_sample)%Z && Rleb lo (sampled d (len c)) &&
                   Rltb (sampled d (len c)) hi) cells.

Lemma fine_value d len f order : forall s i,
  fold_left (add_sample d len f) order s i =
  s i + rsum (map (fun c => if ((0 <=? Ztrunc (len c / d)) && (Ztrunc (len c / d) <? n_sample))%Z
                            then (if (i =? Ztrunc (len c / d))%Z then f c else 0) else 0) order).
Proof.
  induction order as [|c t IH]; intros s i; cbn [fold_left map].
  - rewrite rsum_nil. ring.
  - rewrite IH, rsum_cons. unfold add_sample at 1.
    destruct ((0 <=? Ztrunc (len c / d)) && (Ztrunc (len c / d) <? n_sample))%Z; [|ring].
    destruct (i =? Ztrunc (len c / d))%Z; ring.
Qed.

Lemma fold_bin (p : Z -> bool) (s : Z -> R) l : forall acc,
  fold_left (fun acc i => if p i then acc + s i else acc) l acc =
  acc + rsum (map (fun i => if p i then s i else 0) l).
Proof.
  induction l as [|a l IH]; intros acc; cbn [fold_left map]; [rewrite rsum_nil; ring|].
  rewrite IH, rsum_cons. destruct (p a); ring.
Qed.

Lemma rsum_filter {A} (p : A -> bool) (f : A -> R) l :
  rsum (map f (filter p l)) = rsum (map (fun x => if p x then f x else 0) l).
Proof.
  induction l as [|a l IH]; [reflexivity|]. cbn [filter map]. rewrite rsum_cons.
  destruct (p a); cbn [map]; rewrite ?rsum_cons, IH; ring.
Qed.

Lemma bin_total d lo hi len f order : 0 < d -> (forall c, In c order -> 0 <= len c) ->
  bin_samples d lo hi (fine_samples d len f order) = rsum (map f (counted d lo hi len order)).
Proof.
  intros Hd Hl. unfold bin_samples. cbn zeta.
  rewrite (fold_bin (fun i => Rleb lo (IZR i * d) && Rltb (IZR i * d) hi)). rewrite Rplus_0_l.
  unfold counted. rewrite rsum_filter. unfold fine_samples.
  rewrite (rsum_map_ext _ (fun i => rsum (map (fun c =>
     if (i =? Ztrunc (len c / d))%Z then
       (if ((0 <=? Ztrunc (len c / d)) && (Ztrunc (len c / d) <? n_sample))%Z
             && (Rleb lo (IZR i * d) && Rltb (IZR i * d) hi) then f c else 0) else 0) order))).
  - rewrite (rsum_swap (fun i c => if (i =? Ztrunc (len c / d))%Z then
       (if ((0 <=? Ztrunc (len c / d)) && (Ztrunc (len c / d) <? n_sample))%Z
             && (Rleb lo (IZR i * d) && Rltb (IZR i * d) hi) then f c else 0) else 0)).
    apply rsum_map_ext. intros c Hc.
    rewrite (rsum_arange_pick (fun i => if ((0 <=? Ztrunc (len c / d)) && (Ztrunc (len c / d) <? n_sample))%Z
             && (Rleb lo (IZR i * d) && Rltb (IZR i * d) hi) then f c else 0)).
    assert (P : 0 <= len c / d) by (apply Rmult_le_pos; [now apply Hl|left; now apply Rinv_0_lt_compat]).
    rewrite (Ztrunc_floor _ P). unfold sampled.
    assert (Z0 : (0 <= Zfloor (len c / d))%Z) by (apply Zfloor_lub; exact P).
    rewrite (proj2 (Z.leb_le _ _) Z0). cbn [andb].
    destruct (Zfloor (len c / d) <? n_sample)%Z; reflexivity.
  - intros i _. rewrite fine_value. rewrite Rplus_0_l.
    destruct (Rleb lo (IZR i * d) && Rltb (IZR i * d) hi).
    + apply rsum_map_ext. intros c _. rewrite andb_true_r.
      destruct ((0 <=? Ztrunc (len c / d)) && (Ztrunc (len c / d) <? n_sample))%Z; [reflexivity|].
      now destruct (i =? Ztrunc (len c / d))%Z.
    + symmetry. apply rsum_map_zero. intros c _. rewrite andb_false_r. now destruct (i =? Ztrunc (len c / d))%Z.
Qed.

Lemma counted_perm d lo hi len l1 l2 : Permutation l1 l2 ->
  Permutation (counted d lo hi len l1) (counted d lo hi len l2).
Proof.
  intros P. unfold counted. induction P; cbn [filter].
  - constructor.
  - destruct (_ && _); [now constructor|exact IHP].
  - destruct (_ && _); destruct (_ && _); try constructor; reflexivity.
  - etransitivity; eassumption.
Qed.

(** What each bin holds after any (parallel) run: the number of modes of the
    mesh whose rounded-down wavenumber is in the bin and below the cutoff, and the
    mean over these modes; the default in an empty bin. *)
Theorem fine_binning_exact :
  forall d ng lo hi default len f order,
  0 < d -> (forall c, In c (all_cells ng) -> 0 <= len c) -> Permutation order (all_cells ng) ->
  let modes := counted d lo hi len (all_cells ng) in
  bin_result d lo hi default len f order =
  (INR (length modes),
   if (length modes =? 0)%nat then default else rsum (map f modes) / INR (length modes)).
Proof.
  intros d ng lo hi default len f order Hd Hl P modes. unfold bin_result.
  assert (Hl' : forall c, In c order -> 0 <= len c) by (intros c Hc; apply Hl; now apply (Permutation_in _ P)).
  rewrite !bin_total by assumption. rewrite rsum_const, Rmult_1_r.
  assert (PC := counted_perm d lo hi len _ _ P). fold modes in PC.
  rewrite (Permutation_length PC). rewrite (rsum_map_perm f _ _ PC). f_equal.
  unfold bin_mean, Reqb. destruct (Req_EM_T (INR (length modes)) 0) as [E|E].
  - assert (length modes = 0%nat) by (now apply INR_eq). rewrite H. reflexivity.
  - destruct (length modes =? 0)%nat eqn:E'; [|reflexivity].
    apply Nat.eqb_eq in E'. rewrite E' in E. now destruct E.
Qed.

Lemma cell_len_nonneg ng d c : 0 <= cell_len ng d c.
Proof. unfold cell_len. destruct (cell_vec ng d c) as [[x y] z]. apply sqrt_pos. Qed.

Lemma sampled_bounds d s : 0 < d -> sampled d s <= s < sampled d s + d.
Proof.
  intros Hd. unfold sampled. assert (A := Zfloor_lb (s / d)). assert (C := Zfloor_ub (s / d)).
  assert (E : s = s / d * d) by (field; lra). split; [rewrite E at 2|rewrite E at 1]; nra.
Qed.

(** A counted mode is off its bin by less than one fine step; a mode in the
    bin by at least one fine step and below the cutoff is counted. *)
Theorem fine_binning_tolerance :
  forall d lo hi len cells c, 0 < d -> In c cells ->
  (In c (counted d lo hi len cells) -> lo <= len c < hi + d /\ len c < IZR n_sample * d) /\
  (lo + d <= len c < hi -> len c < IZR n_sample * d -> In c (counted d lo hi len cells)).
Proof.
  intros d lo hi len cells c Hd Hc. assert (B := sampled_bounds d (len c) Hd).
  assert (N : len c < IZR n_sample * d <-> (Zfloor (len c / d) < n_sample)%Z).
  { split.
    - intros H. apply lt_IZR. apply Rle_lt_trans with (len c / d); [apply Zfloor_lb|].
      apply Rmult_lt_reg_r with d; [exact Hd|]. replace (len c / d * d) with (len c) by (field; lra). exact H.
    - intros H. assert (IZR (Zfloor (len c / d)) + 1 <= IZR n_sample) by (rewrite <- plus_IZR; apply IZR_le; lia).
      unfold sampled in B. nra. }
  unfold counted. rewrite filter_In, !andb_true_iff, Z.ltb_lt, Rleb_spec, Rltb_spec. split.
  - intros (_ & (A1 & A2) & A3). split; [lra|now apply N].
  - intros A1 A2. split; [exact Hc|]. split; [split; [now apply N|lra]|lra].
Qed.

(** Each mode is counted in at most one of the ordered bins. *)
Theorem fine_binning_one_bin :
  forall d n b len cells i j c, bins_ok n b -> (i < n)%nat -> (j < n)%nat ->
  let bin m := counted d (nth m (c_edges b) 0) (nth (S m) (c_edges b) 0) len cells in
  In c (bin i) -> In c (bin j) -> i = j.
Proof.
  intros d n b len cells i j c Hb Hi Hj bin A C. unfold bin, counted in A, C.
  rewrite filter_In, !andb_true_iff, Rleb_spec, Rltb_spec in A, C.
  apply (inside_unique n b i j (sampled d (len c))); auto; apply inside_spec; lra.
Qed.

(** When the edges are multiples of the fine step and below the cutoff, the bin
    holds exactly the modes with wavenumber in the bin. *)
Theorem fine_binning_aligned :
  forall d p q len cells, 0 < d -> (q <= n_sample)%Z ->
  counted d (IZR p * d) (IZR q * d) len cells =
  filter (fun c => Rleb (IZR p * d) (len c) && Rltb (len c) (IZR q * d)) cells.
Proof.
  intros d p q len cells Hd Hq. unfold counted. apply filter_ext. intros c.
  assert (B := sampled_bounds d (len c) Hd).
  assert (E : len c = len c / d * d) by (field; lra).
  assert (F1 := Zfloor_lb (len c / d)). assert (F2 := Zfloor_ub (len c / d)). unfold sampled in *.
  destruct (Rleb (IZR p * d) (len c)) eqn:E1; destruct (Rltb (len c) (IZR q * d)) eqn:E2; cbn [andb].
  - apply Rleb_spec in E1. apply Rltb_spec in E2. rewrite !andb_true_iff, Z.ltb_lt, Rleb_spec, Rltb_spec.
    assert (Hp : (p <= Zfloor (len c / d))%Z).
    { apply Zfloor_lub. apply Rmult_le_reg_r with d; [exact Hd|]. lra. }
    assert (Hq' : (Zfloor (len c / d) < q)%Z).
    { apply lt_IZR. apply Rmult_lt_reg_r with d; [exact Hd|]. nra. }
    repeat split; [lia| |lra]. apply Rmult_le_compat_r; [lra|]. now apply IZR_le.
  - apply Rltb_false in E2. apply andb_false_iff. right. apply Rltb_false.
    apply Rmult_le_compat_r; [lra|]. apply IZR_le. apply Zfloor_lub. apply Rmult_le_reg_r with d; [exact Hd|]. lra.
  - apply Rleb_false in E1. apply andb_false_iff. left. apply andb_false_iff. right. apply Rleb_false. lra.
  - apply Rleb_false in E1. apply andb_false_iff. left. apply andb_false_iff. right. apply Rleb_false. lra.
Qed.

(** Then the number of modes of each bin is the number of vectors recorded for it. *)
Definition vectors_of_bin (es : list bvec) (i : nat) : list bvec :=
  filter (fun e => (v_bin e =? Z.of_nat i)%Z) es.

Lemma vectors_of_bin_perm es es' i : Permutation es es' ->
  length (vectors_of_bin es i) = length (vectors_of_bin es' i).
Proof.
  unfold vectors_of_bin. induction 1; cbn [filter]; try destruct (_ =? _)%Z; try destruct (_ =? _)%Z; simpl; congruence.
Qed.

Lemma expected_count ng d b n i : (i < n)%nat ->
  length (vectors_of_bin (expected ng d b n) i) = length (cells_in_bin ng d b i).
Proof.
  intros Hi. unfold expected, vectors_of_bin.
  assert (G : forall l, NoDup l -> length (filter (fun e => (v_bin e =? Z.of_nat i)%Z)
      (flat_map (fun j => map (record_of ng d b j) (cells_in_bin ng d b j)) l)) =
      if in_dec Nat.eq_dec i l then length (cells_in_bin ng d b i) else 0%nat).
  { induction l as [|j l IH]; intros N; [reflexivity|]. inversion N as [|? ? N1 N2]; subst. cbn [flat_map].
    rewrite filter_app, app_length, IH by exact N2.
    assert (Hv : forall l', length (filter (fun e => (v_bin e =? Z.of_nat i)%Z) (map (record_of ng d b j) l')) =
                            if Nat.eq_dec j i then length l' else 0%nat).
    { induction l' as [|[[x y] z] l' IH']; cbn [map filter]; [now destruct (Nat.eq_dec j i)|].
      cbn [record_of v_bin]. destruct (Nat.eq_dec j i) as [->|D].
      - rewrite Z.eqb_refl. cbn [length]. now rewrite IH'.
      - rewrite (proj2 (Z.eqb_neq _ _)) by lia. exact IH'. }
    rewrite Hv. destruct (in_dec Nat.eq_dec i (j :: l)) as [I|I]; destruct (in_dec Nat.eq_dec i l) as [I'|I'];
    destruct (Nat.eq_dec j i) as [E|E]; subst; try contradiction; try lia.
    all: simpl in *; intuition congruence. }
  rewrite (G _ (seq_NoDup n 0)). destruct (in_dec Nat.eq_dec i (seq 0 n)) as [_|I]; [reflexivity|].
  exfalso. apply I. apply in_seq. lia.
Qed.

Theorem mode_counts_match_recorded :
  forall g b n i p q order es default f,
  grid_ok g -> c_space b = Fourier -> bins_ok n b -> (i < n)%nat ->
  nth i (c_edges b) 0 = IZR p * dk_sample -> nth (S i) (c_edges b) 0 = IZR q * dk_sample -> (q <= n_sample)%Z ->
  Permutation order (all_cells (ngrid g)) -> record_binned_vectors g b (Ok es) ->
  fst (bin_result dk_sample (nth i (c_edges b) 0) (nth (S i) (c_edges b) 0) default
         (cell_len (ngrid g) (grid_steps Fourier g)) f order) =
  INR (length (vectors_of_bin es i)).
Proof.
  intros g b n i p q order es default f Hg Hsp Hb Hi Ep Eq Hq P H.
  assert (Hd : 0 < dk_sample) by (unfold dk_sample; lra).
  rewrite (fine_binning_exact dk_sample (ngrid g)); [|exact Hd|intros; apply cell_len_nonneg|exact P]. cbn [fst]. f_equal.
  destruct (binned_vectors_exact g b n Hg (or_intror Hsp) Hb) as [_ X].
  destruct (X _ H) as (es' & E & PE & _). injection E as <-.
  rewrite (vectors_of_bin_perm _ _ i PE), expected_count by exact Hi. rewrite Ep, Eq.
  rewrite fine_binning_aligned by assumption. unfold cells_in_bin. f_equal. apply filter_ext. intros c.
  unfold inside, Rleb, Rltb. rewrite Hsp, Ep, Eq. destruct (Rle_dec _ _); [|reflexivity]. now destruct (Rlt_dec _ _).
Qed.

(** Otherwise a mode can be counted in the bin below its own: here the mode with
    wavenumber 1.000005, in the second of the bins [0.5, 1.000002), [1.000002, 2). *)
Theorem mode_bin_refuted :
  exists L c, 0 < L /\ In c (all_cells (T3 4 4 4)%Z) /\
    let k := cell_len (T3 4 4 4)%Z (T3 (2 * PI / L) (2 * PI / L) (2 * PI / L)) in
    let edge := 1000002 / 1000000 in
    edge <= k c < 2 /\ In c (counted dk_sample (1 / 2) edge k (all_cells (T3 4 4 4)%Z)) /\
    ~ In c (counted dk_sample edge 2 k (all_cells (T3 4 4 4)%Z)).
Proof.
  exists (2 * PI / (1000005 / 1000000)), (1, 0, 0)%Z. assert (Q := PI_RGT_0).
  split; [apply Rdiv_lt_0_compat; lra|]. split; [vm_compute; tauto|]. cbn zeta.
  replace (2 * PI / (2 * PI / (1000005 / 1000000))) with (1000005 / 1000000) by (field; lra).
  set (k := cell_len _ _).
  assert (Ek : k (1, 0, 0)%Z = 1000005 / 1000000).
  { unfold k, cell_len. cbn [cell_vec ax0 ax1 ax2]. unfold grid_vector, magnitude. cbn -[Rdiv].
    rewrite !Rmult_0_l, !Rmult_1_l, !Rplus_0_r. apply sqrt_square. lra. }
  assert (Ef : Zfloor (k (1, 0, 0)%Z / dk_sample) = 100000%Z).
  { apply Zfloor_imp. rewrite Ek. unfold dk_sample. rewrite plus_IZR. lra. }
  assert (HI : In (1, 0, 0)%Z (all_cells (T3 4 4 4)%Z)) by (vm_compute; tauto).
  split; [rewrite Ek; lra|]. unfold counted. rewrite !filter_In. unfold sampled. rewrite Ef. unfold dk_sample.
  split.
  - split; [exact HI|]. rewrite !andb_true_iff, Rleb_spec, Rltb_spec. split; [split; [reflexivity|lra]|lra].
  - intros (_ & H). rewrite !andb_true_iff, Rleb_spec, Rltb_spec in H. lra.
Qed.

(** ** Cases *)

(** 8x8x8 mesh with fundamental wavenumber 1 and the bins [0, 1/2), [1/2, 3/2):
    the list has both bins, e.g. the zero vector in the first and (-1, 0, 0) in the
    second. *)
Example binned_vectors_case :
  let g := MeshParams (T3 8 8 8)%Z (T3 (2 * PI) (2 * PI) (2 * PI)) 1 in
  let b := mkCpp Fourier Lin 0 (3 / 2) 2 [0; 1 / 2; 3 / 2] [1 / 4; 1] [1 / 2; 1] 0 0 in
  grid_ok g /\ bins_ok 2 b /\
  In (BVec 0 0 (1 / 2) 0 0 0) (expected (ngrid g) (grid_steps Fourier g) b 2) /\
  In (BVec 1 (1 / 2) (3 / 2) (- 1) 0 0) (expected (ngrid g) (grid_steps Fourier g) b 2).
Proof.
  assert (Q := PI_RGT_0). cbn zeta.
  assert (Est : grid_steps Fourier (MeshParams (T3 8 8 8)%Z (T3 (2 * PI) (2 * PI) (2 * PI)) 1) = T3 1 1 1).
  { unfold grid_steps, axis_step. cbn [boxsize ngrid ax0 ax1 ax2]. replace (2 * PI / (2 * PI)) with 1 by (field; lra). reflexivity. }
  rewrite Est. split; [unfold grid_ok; cbn [boxsize ngrid ax0 ax1 ax2]; repeat split; lia || lra|].
  split.
  - unfold bins_ok. cbn [c_num c_edges c_max]. repeat split.
    + intros i Hi. destruct i as [|[|i]]; [simpl; lra|simpl; lra|lia].
    + simpl. lra.
  - split; apply expected_entries; cbn [ngrid ax0 ax1 ax2 c_edges].
    + exists 0%nat, 0%Z, 0%Z, 0%Z. repeat (split; [lia|]). unfold grid_vector. cbn -[Rdiv pow].
      replace ((0 * 1) ^ 2 + (0 * 1) ^ 2 + (0 * 1) ^ 2) with (0 * 0) by ring. rewrite sqrt_square by lra.
      split; [lra|]. f_equal; lra.
    + exists 1%nat, 7%Z, 0%Z, 0%Z. repeat (split; [lia|]). unfold grid_vector. cbn -[Rdiv pow].
      replace ((-1 * 1) ^ 2 + (0 * 1) ^ 2 + (0 * 1) ^ 2) with (1 * 1) by ring. rewrite sqrt_square by lra.
      split; [lra|]. f_equal; lra.
Qed.

(** The usual bins 0, 0.01, 0.02 are multiples of the fine step. *)
Example aligned_case : 1 / 100 = IZR 1000 * dk_sample /\ 2 / 100 = IZR 2000 * dk_sample /\ (2000 <= n_sample)%Z.
Proof. unfold dk_sample, n_sample. split; [lra|split; [lra|lia]]. Qed.

Print Assumptions binned_vectors_exact.
Print Assumptions binned_vectors_lin_log.
Print Assumptions binned_vectors_padded_refuted.
Print Assumptions fine_binning_exact.
Print Assumptions mode_counts_match_recorded.
Print Assumptions mode_bin_refuted.
