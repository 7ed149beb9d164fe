(* The window convolution matrix (C45). *)
From Coq Require Import Reals ZArith List Lia Lra Bool Permutation.
From Coquelicot Require Import Complex.
From Verif Require Import Base MpiModel MpiProofs MpiProps CSum WinMatModel.
Import ListNotations.
Local Open Scope nat_scope.

(* ------------------------------------------------------------------ *)
(* Vocabulary                                                          *)

(** An array of [d] rows of [d] entries. *)
Definition square {A} (d : nat) (m : list (list A)) : Prop :=
  List.length m = d /\ Forall (fun r => List.length r = d) m.

(** Input multipoles sampled at [dims] points each. *)
Definition shaped (dims : list nat) (ms : list rmat) : Prop := Forall2 square dims ms.

(** A model as one vector: the multipoles one after the other, each row by
    row, as the documentation of the method lays it out. *)
Definition flatten (ms : list rmat) : list R := concat (map (@concat R) ms).

(** A convolution that accepts every model and returns [npole] multipoles
    sampled at [nk] points. *)
Definition total (conv : convolver) (dims : list nat) (npole nk : nat) : Prop :=
  forall ms, shaped dims ms ->
  exists out, conv ms = Ok out /\ List.length out = npole /\ Forall (square nk) out.

(** Sample (i, i') of output multipole k. *)
Definition sample (out : list cmat) (k i i' : nat) : C :=
  nth i' (nth i (nth k out []) []) (RtoC 0).

Definition unit_vector (n j : nat) (v : list R) : Prop :=
  List.length v = n /\ forall i, i < n -> nth i v 0%R = if i =? j then 1%R else 0%R.

(** [T k r j]: what row r, column j of the matrix of multipole k must hold:
    sample (i, i') of the convolution of the j-th unit model. *)
Definition responses (conv : convolver) (dims : list nat) (npole nk : nat)
    (T : nat -> nat -> nat -> C) : Prop :=
  forall j, j < dim_2d dims ->
  exists ms out, shaped dims ms /\ unit_vector (dim_2d dims) j (flatten ms)
    /\ conv ms = Ok out
    /\ forall k i i', k < npole -> i < nk -> i' < nk ->
       T k (i * nk + i') j = sample out k i i'.

Lemma concat_square {A} d (m : list (list A)) : square d m -> List.length (concat m) = d * d.
Proof.
  intros [L F]. rewrite <- L at 1. clear L. induction F as [|r m Hr F IH]; [reflexivity|].
  cbn [concat List.length]. rewrite app_length, IH, Hr. lia.
Qed.

Lemma chunks_concat {A} d (m : list (list A)) : Forall (fun r => List.length r = d) m ->
  chunks (List.length m) d (concat m) = m.
Proof.
  induction 1 as [|r m Hr F IH]; [reflexivity|]. cbn [concat List.length chunks].
  rewrite firstn_app, skipn_app, Hr, Nat.sub_diag, firstn_O, skipn_O, app_nil_r.
  rewrite firstn_all2, skipn_all2 by lia. cbn [app]. now rewrite IH.
Qed.

Lemma reshape_square {A} d (m : list (list A)) : square d m -> reshape d (concat m) = Ok m.
Proof.
  intros S. unfold reshape. rewrite (concat_square d m S), Nat.eqb_refl.
  destruct S as [L F]. rewrite <- L at 1. now rewrite chunks_concat.
Qed.

Lemma unreshape {A} d (v : list A) : List.length v = d * d ->
  exists m, square d m /\ concat m = v.
Proof.
  intros L. exists (chunks d d v). unfold square.
  assert (G : forall n (w : list A), List.length w = n * d ->
            List.length (chunks n d w) = n /\ Forall (fun r => List.length r = d) (chunks n d w)
            /\ concat (chunks n d w) = w).
  { induction n as [|n IH]; intros w Lw; cbn [chunks concat List.length].
    - split; [reflexivity|]. split; [constructor|]. symmetry. now apply length_zero_iff_nil.
    - destruct (IH (skipn d w)) as (A1 & A2 & A3). { rewrite skipn_length. lia. }
      split; [lia|]. split.
      + constructor; [rewrite firstn_length; lia|exact A2].
      + rewrite A3. apply firstn_skipn. }
  destruct (G d v L) as (A1 & A2 & A3). tauto.
Qed.

Lemma flatten_length dims ms : shaped dims ms -> List.length (flatten ms) = dim_2d dims.
Proof.
  induction 1 as [|d m dims ms S F IH]; [reflexivity|].
  unfold flatten, dim_2d in *. cbn [map concat list_sum fold_right].
  rewrite app_length, IH, (concat_square d m S). reflexivity.
Qed.

(** Every vector of the right length is a model. *)
Lemma unflatten dims : forall v, List.length v = dim_2d dims ->
  exists ms, shaped dims ms /\ flatten ms = v.
Proof.
  induction dims as [|d dims IH]; intros v L.
  - exists []. split; [constructor|]. symmetry. now apply length_zero_iff_nil.
  - unfold dim_2d in L. cbn [map list_sum fold_right] in L. fold (dim_2d dims) in L.
    destruct (unreshape d (firstn (d * d) v)) as (m & Sm & Em).
    { rewrite firstn_length. unfold dim_2d in *. cbn in *. lia. }
    destruct (IH (skipn (d * d) v)) as (ms & Sms & Ems).
    { rewrite skipn_length. unfold dim_2d, list_sum in *. lia. }
    exists (m :: ms). split; [now constructor|]. unfold flatten in *. cbn [map concat].
    rewrite Em, Ems. apply firstn_skipn.
Qed.

Lemma split_pieces {A} (ps : list (list A)) : forall pre,
  split_from (List.length pre) (nodes_from (List.length pre) (map (@List.length A) ps))
    (pre ++ concat ps) = ps ++ [[]].
Proof.
  induction ps as [|p ps IH]; intros pre; cbn [map nodes_from split_from concat app].
  - rewrite app_nil_r, skipn_all. reflexivity.
  - f_equal.
    + rewrite skipn_app, skipn_all, Nat.sub_diag, skipn_O. cbn [app].
      replace (List.length pre + List.length p - List.length pre) with (List.length p) by lia.
      rewrite firstn_app, Nat.sub_diag, firstn_all, firstn_O. apply app_nil_r.
    + rewrite <- (app_length pre p), app_assoc. apply IH.
Qed.

Lemma sequence_ok_all {A B} (f : A -> res B) (g : A -> B) l :
  (forall x, In x l -> f x = Ok (g x)) -> sequence (map f l) = Ok (map g l).
Proof.
  induction l as [|x l IH]; intros H; [reflexivity|]. cbn [map sequence].
  rewrite H by now left. cbn [bind]. rewrite IH; [reflexivity|]. intros y Hy. apply H. now right.
Qed.

(** The vectorised convolution is the convolution. *)
Lemma vectorised conv dims ms : shaped dims ms ->
  win_convolve_vector conv dims (flatten ms)
  = (out <- conv ms ;; Ok (map (@concat C) out)).
Proof.
  intros S. unfold win_convolve_vector.
  assert (E : map (fun d => d * d) dims = map (@List.length R) (map (@concat R) ms)).
  { clear conv. induction S as [|d m dims ms Sm F IH]; [reflexivity|]. cbn [map].
    now rewrite IH, (concat_square d m Sm). }
  rewrite E. unfold flatten.
  pose proof (split_pieces (map (@concat R) ms) []) as P. cbn [List.length app] in P.
  rewrite P. clear P E.
  assert (Q : sequence (map (fun pd => reshape (snd pd) (fst pd))
                (combine (map (@concat R) ms ++ [[]]) dims)) = Ok ms).
  { induction S as [|d m dims ms Sm F IH]; [reflexivity|].
    cbn [map app combine sequence fst snd]. rewrite (reshape_square d m Sm). cbn [bind].
    now rewrite IH. }
  rewrite Q. reflexivity.
Qed.

Lemma basis_length n j : List.length (basis_vector n j) = n.
Proof. unfold basis_vector. now rewrite map_length, seq_length. Qed.

Lemma basis_unit n j : unit_vector n j (basis_vector n j).
Proof.
  split; [apply basis_length|]. intros i H. unfold basis_vector.
  set (f := fun i => if i =? j then 1%R else 0%R).
  rewrite (nth_indep _ 0%R (f 0)) by (rewrite map_length, seq_length; exact H).
  rewrite map_nth, seq_nth by exact H. reflexivity.
Qed.

(** Flattened output multipole k of the convolution of the j-th unit model. *)
Definition column (conv : convolver) (dims : list nat) (j : nat) : list (list C) :=
  match win_convolve_vector conv dims (basis_vector (dim_2d dims) j) with
  | Ok c => c
  | Err _ => []
  end.

Lemma column_ok conv dims npole nk j : total conv dims npole nk ->
  win_convolve_vector conv dims (basis_vector (dim_2d dims) j) = Ok (column conv dims j)
  /\ List.length (column conv dims j) = npole
  /\ Forall (fun c => List.length c = nk * nk) (column conv dims j)
  /\ exists ms out, shaped dims ms /\ flatten ms = basis_vector (dim_2d dims) j
     /\ conv ms = Ok out /\ List.length out = npole /\ Forall (square nk) out
     /\ column conv dims j = map (@concat C) out.
Proof.
  intros T. unfold column.
  destruct (unflatten dims (basis_vector (dim_2d dims) j) (basis_length _ _)) as (ms & S & E).
  rewrite <- E, (vectorised conv dims ms S).
  destruct (T ms S) as (out & Eo & Lo & Fo). rewrite Eo. cbn [bind].
  split; [reflexivity|]. split; [now rewrite map_length|]. split.
  - apply Forall_map. eapply Forall_impl; [|exact Fo]. intros m Hm. now apply concat_square.
  - exists ms, out. rewrite E. tauto.
Qed.

(** The matrix of multipole k, by rows. *)
Definition full_matrix (npole nk n : nat) (T : nat -> nat -> nat -> C) (k : nat) : cmat :=
  map (fun r => map (fun j => T k r j) (seq 0 n)) (seq 0 (nk * nk)).

(** Its rows for the diagonal samples (i, i). *)
Definition diag_matrix (npole nk n : nat) (T : nat -> nat -> nat -> C) (k : nat) : cmat :=
  map (fun i => map (fun j => T k (i * nk + i) j) (seq 0 n)) (seq 0 nk).

Lemma nth_concat_square {A} (d : nat) (m : list (list A)) i i' x : square d m ->
  i < d -> i' < d -> nth (i * d + i') (concat m) x = nth i' (nth i m []) x.
Proof.
  intros [L F] Hi Hi'. assert (G : i < List.length m) by lia. clear L Hi.
  revert i G. induction F as [|r m Hr F IH]; intros i G; [cbn in G; lia|].
  cbn [concat]. destruct i as [|i]; cbn [nth].
  - rewrite app_nth1 by lia. f_equal.
  - rewrite app_nth2 by lia. rewrite Hr. rewrite <- IH by (cbn in G; lia). f_equal. lia.
Qed.

Lemma responses_exist conv dims npole nk : total conv dims npole nk ->
  responses conv dims npole nk (fun k r j => nth r (nth k (column conv dims j) []) (RtoC 0)).
Proof.
  intros T j Hj. destruct (column_ok conv dims npole nk j T) as (_ & _ & _ & ms & out & S & E & Eo & Lo & Fo & Ec).
  exists ms, out. split; [exact S|]. split; [rewrite E; apply basis_unit|]. split; [exact Eo|].
  intros k i i' Hk Hi Hi'. rewrite Ec. unfold sample.
  rewrite (nth_indep _ [] (concat [])) by (rewrite map_length; unfold cmat in *; lia).
  rewrite map_nth. apply nth_concat_square; try assumption.
  apply (proj1 (Forall_forall _ _) Fo). apply nth_In. lia.
Qed.

Lemma map_seq_ext {B} (f g : nat -> B) n : (forall i, i < n -> f i = g i) ->
  map f (seq 0 n) = map g (seq 0 n).
Proof. intros H. apply map_ext_in. intros i Hi. apply in_seq in Hi. apply H. lia. Qed.

Lemma deravel_cols n w (cols : list (list C)) : 0 < n -> List.length cols = n ->
  Forall (fun c => List.length c = w) cols ->
  deravel n (concat cols)
  = Ok (map (fun i => map (fun c => nth i c (RtoC 0)) cols) (seq 0 w)).
Proof.
  intros Hn L F. assert (E : List.length (concat cols) = n * w).
  { rewrite <- L. clear - F. induction F as [|c cols Hc F IH]; [reflexivity|].
    cbn [concat List.length]. rewrite app_length, IH, Hc. lia. }
  unfold deravel. rewrite E. rewrite (Nat.mul_comm n w), Nat.div_mul by lia.
  rewrite (Nat.mul_comm w n), Nat.eqb_refl.
  subst n. now rewrite chunks_concat.
Qed.

Lemma map_of_nat_seq n : map Z.to_nat (map Z.of_nat (seq 0 n)) = seq 0 n.
Proof.
  rewrite map_map. rewrite (map_ext _ (fun i => i)); [apply map_id|]. intros. apply Nat2Z.id.
Qed.

(** The root has something to do exactly when there are not too many
    processes: rank r of p gets (n + r) / p of the n basis vectors. *)
Definition root_busy (n root : nat) (np : Z) : Prop :=
  (Z.of_nat root < np <= Z.of_nat n + Z.of_nat root)%Z.

Lemma slice_indices_nil s : slice_indices s = [] <-> (snd s <= fst s)%Z.
Proof.
  unfold slice_indices. split.
  - intros H. apply map_eq_nil in H. destruct (Z.to_nat (snd s - fst s)) eqn:E; [lia|discriminate].
  - intros H. replace (Z.to_nat (snd s - fst s)) with 0 by lia. reflexivity.
Qed.

Lemma seg_width l i x : nth_error l i = Some x -> (snd (seg_of l i) - fst (seg_of l i) = x)%Z.
Proof.
  revert i. induction l as [|a l IH]; intros [|i] H; try discriminate H.
  - cbn in H. injection H as <-. unfold seg_of. cbn. lia.
  - rewrite seg_cons_shift. cbn [fst snd]. specialize (IH i H). lia.
Qed.

(** C45 with MPI: on any number of processes that leaves the root something to
    do, in whatever order messages arrive, with and without [concat] and
    [diag], the result holds the responses to the unit models, and the
    warning flag is put back. *)
Theorem mpi_exact conv dims npole nk cat diag np root arrive flag :
  total conv dims npole nk -> 0 < dim_2d dims -> root_busy (dim_2d dims) root np ->
  (forall k m, Permutation m (arrive k m)) ->
  exists T, responses conv dims npole nk T
  /\ gen_mpi conv dims npole nk cat diag np root arrive flag
     = {| result := Ok (let ms := map ((if diag then diag_matrix else full_matrix)
                                         npole nk (dim_2d dims) T) (seq 0 npole) in
                        if cat then Stacked (concat ms) else PerPole ms);
          catch_left := flag |}.
Proof.
  intros T Hn [Hr1 Hr2] HA. set (n := dim_2d dims) in *.
  exists (fun k r j => nth r (nth k (column conv dims j) []) (RtoC 0)).
  split; [now apply responses_exist|].
  unfold gen_mpi. fold n.
  set (fuel := S (S (Z.to_nat np))).
  assert (Ha : task_arg (NpInt (Z.of_nat n)) (Z.of_nat n)) by now right.
  destruct (allocate_tasks_balanced (NpInt (Z.of_nat n)) (Z.of_nat n) np fuel Ha)
    as (l & El & Hlen & Hsum & Hnn & _ & _); [lia|lia|unfold fuel; lia|].
  rewrite El. cbn [bind].
  assert (Hl : l <> []) by (intros ->; cbn in Hlen; lia).
  rewrite (distribute_of_list fuel l PyOther Hl). cbn [bind].
  set (segs := map (seg_of l) (seq 0 (List.length l))).
  assert (Esub : sequence (map (rank_columns conv dims) segs)
                 = Ok (map (fun s => map (fun j => column conv dims (Z.to_nat j))
                                         (slice_indices s)) segs)).
  { apply sequence_ok_all. intros s _. unfold rank_columns. apply sequence_ok_all.
    intros j _. apply (column_ok conv dims npole nk _ T). }
  rewrite Esub. cbn [bind].
  assert (Eroot : match nth root (map (fun s => map (fun j => column conv dims (Z.to_nat j))
                                         (slice_indices s)) segs) []
                  with [] => Err RuntimeError | _ => Ok tt end = Ok tt).
  { destruct (allocate_tasks_exact (NpInt (Z.of_nat n)) (Z.of_nat n) np fuel (Z.of_nat root) Ha)
      as (l' & El' & Hx); [lia|lia|unfold fuel; lia|lia|].
    rewrite El in El'. injection El' as <-. rewrite Nat2Z.id in Hx.
    assert (Hroot : root < List.length l) by lia.
    set (f := fun s => map (fun j => column conv dims (Z.to_nat j)) (slice_indices s)).
    rewrite (nth_indep _ [] (f (0, 0)%Z))
      by (unfold segs; rewrite !map_length, seq_length; exact Hroot).
    rewrite map_nth. unfold segs, f.
    rewrite (nth_indep _ (0, 0)%Z (seg_of l 0)) by (rewrite map_length, seq_length; exact Hroot).
    rewrite map_nth, seq_nth by exact Hroot. cbn [plus].
    pose proof (seg_width l root _ Hx) as W.
    assert (1 <= (Z.of_nat n + Z.of_nat root) / np)%Z by (apply Z.div_le_lower_bound; lia).
    destruct (slice_indices (seg_of l root)) eqn:E; [|reflexivity].
    apply slice_indices_nil in E. lia. }
  rewrite Eroot. cbn [bind].
  assert (Emats : sequence (map (fun k =>
              let parts := map (fun cols => concat (map (fun c => nth k c []) cols))
                 (map (fun s => map (fun j => column conv dims (Z.to_nat j)) (slice_indices s)) segs) in
              let msgs := combine (gather_offsets (map (@List.length C) parts)) parts in
              deravel n (gathered parts (arrive k msgs))) (seq 0 npole))
            = Ok (map (full_matrix npole nk n
                        (fun k r j => nth r (nth k (column conv dims j) []) (RtoC 0))) (seq 0 npole))).
  { apply sequence_ok_all. intros k Hk. apply in_seq in Hk. cbv zeta.
    set (work := fun j : Z => nth k (column conv dims (Z.to_nat j)) []).
    assert (Ep : map (fun cols => concat (map (fun c => nth k c []) cols))
                 (map (fun s => map (fun j => column conv dims (Z.to_nat j)) (slice_indices s)) segs)
                 = map (rank_result work) segs).
    { rewrite map_map. apply map_ext. intros s. rewrite map_map. reflexivity. }
    rewrite Ep. unfold gathered.
    assert (Eg : gatherv (repeat (RtoC 0) (list_sum (map (@List.length C) (map (rank_result work) segs))))
                   (arrive k (combine (gather_offsets (map (@List.length C) (map (rank_result work) segs)))
                                      (map (rank_result work) segs)))
                 = concat (map work (map Z.of_nat (seq 0 n)))).
    { rewrite <- (Nat2Z.id n) at 1.
      apply (parallel_gather_is_serial C work (NpInt (Z.of_nat n)) (Z.of_nat n) np fuel l segs); try assumption.
      - lia. - lia. - unfold fuel. lia.
      - unfold segs. now rewrite (distribute_of_list fuel l PyOther Hl).
      - apply repeat_length.
      - symmetry. apply HA. }
    rewrite Eg. rewrite map_map.
    assert (Ew : map (fun x => work (Z.of_nat x)) (seq 0 n) = map (fun j => nth k (column conv dims j) []) (seq 0 n)).
    { apply map_ext. intros j. unfold work. now rewrite Nat2Z.id. }
    rewrite Ew. rewrite (deravel_cols n (nk * nk)).
    - unfold full_matrix. f_equal. apply map_ext. intros i. rewrite map_map. reflexivity.
    - exact Hn.
    - now rewrite map_length, seq_length.
    - apply Forall_map, Forall_forall. intros j _.
      destruct (column_ok conv dims npole nk j T) as (_ & Lc & Fc & _).
      apply (proj1 (Forall_forall _ _) Fc). apply nth_In. lia. }
  cbv zeta in Emats |- *. rewrite Emats. cbn [bind]. unfold return_wcmat.
  assert (Esel : sequence (map (select_rows nk diag)
      (map (full_matrix npole nk n (fun k r j => nth r (nth k (column conv dims j) []) (RtoC 0))) (seq 0 npole)))
    = Ok (map ((if diag then diag_matrix else full_matrix) npole nk n
             (fun k r j => nth r (nth k (column conv dims j) []) (RtoC 0))) (seq 0 npole))).
  { rewrite map_map. apply sequence_ok_all. intros k _. unfold select_rows. destruct diag; [|reflexivity].
    unfold diag_matrix. apply sequence_ok_all. intros i Hi. apply in_seq in Hi.
    unfold full_matrix. rewrite nth_error_map.
    assert (Hb : i * (nk + 1) < nk * nk) by nia.
    rewrite (nth_error_nth' _ 0) by (rewrite seq_length; exact Hb).
    rewrite seq_nth by exact Hb. cbn [option_map plus].
    replace (i * (nk + 1)) with (i * nk + i) by lia. reflexivity. }
  rewrite Esel. cbn [bind]. reflexivity.
Qed.

(** A linear convolution. *)
Definition linear (conv : convolver) (dims : list nat) (npole nk : nat) : Prop :=
  forall a ms ms1 ms2 out out1 out2,
  shaped dims ms -> shaped dims ms1 -> shaped dims ms2 ->
  conv ms = Ok out -> conv ms1 = Ok out1 -> conv ms2 = Ok out2 ->
  (forall i, i < dim_2d dims ->
     nth i (flatten ms) 0%R = (nth i (flatten ms1) 0 + a * nth i (flatten ms2) 0)%R) ->
  forall k i i', k < npole -> i < nk -> i' < nk ->
  sample out k i i' = (sample out1 k i i' + RtoC a * sample out2 k i i')%C.

(** C45, what the matrix is for: its product with a flattened model is the
    flattened convolution of the model. *)
Theorem matrix_product conv dims npole nk T :
  total conv dims npole nk -> linear conv dims npole nk -> responses conv dims npole nk T ->
  forall ms out k i i', shaped dims ms -> conv ms = Ok out ->
  k < npole -> i < nk -> i' < nk ->
  csum (map (fun j => (T k (i * nk + i')%nat j * RtoC (nth j (flatten ms) 0%R))%C)
            (seq 0 (dim_2d dims)))
  = sample out k i i'.
Proof.
  intros HT HL HR ms out k i i' Sms Eo Hk Hi Hi'. set (n := dim_2d dims) in *.
  assert (G : forall m, m <= n -> forall ms out, shaped dims ms -> conv ms = Ok out ->
            (forall j, m <= j < n -> nth j (flatten ms) 0%R = 0%R) ->
            csum (map (fun j => (T k (i * nk + i')%nat j * RtoC (nth j (flatten ms) 0%R))%C)
                      (seq 0 m)) = sample out k i i').
  { clear ms out Sms Eo. induction m as [|m IH]; intros Hm ms out Sms Eo Z.
    - cbn [seq map]. cbn.
      assert (E : sample out k i i' = (sample out k i i' + RtoC (-1) * sample out k i i')%C).
      { apply (HL (-1)%R ms ms ms out out out); try assumption.
        intros j Hj. rewrite Z by (fold n in Hj; lia). ring. }
      revert E. generalize (sample out k i i'). intros [x y] E. symmetry.
      unfold Cplus, Cmult, RtoC in *. cbn [fst snd] in E. injection E as E1 E2. f_equal; lra.
    - destruct (HR m ltac:(fold n; lia)) as (mu & ou & Su & [Lu Uu] & Eu & Tu). fold n in Lu, Uu.
      (* the model with entry m put to zero *)
      set (v := map (fun j => if j =? m then 0%R else nth j (flatten ms) 0%R) (seq 0 n)).
      assert (Lv : List.length v = n) by (unfold v; now rewrite map_length, seq_length).
      assert (Nv : forall j, j < n -> nth j v 0%R = if j =? m then 0%R else nth j (flatten ms) 0%R).
      { intros j Hj. unfold v. set (f := fun j => if j =? m then 0%R else nth j (flatten ms) 0%R).
        rewrite (nth_indep _ 0%R (f 0)) by (rewrite map_length, seq_length; exact Hj).
        rewrite map_nth, seq_nth by exact Hj. reflexivity. }
      destruct (unflatten dims v Lv) as (m1 & S1 & E1).
      destruct (HT m1 S1) as (o1 & Eo1 & _ & _).
      assert (Es : sample out k i i'
                   = (sample o1 k i i' + RtoC (nth m (flatten ms) 0%R) * sample ou k i i')%C).
      { apply (HL (nth m (flatten ms) 0%R) ms m1 mu out o1 ou); try assumption.
        intros j Hj. fold n in Hj. rewrite E1, Nv, Uu by exact Hj.
        destruct (Nat.eqb_spec j m) as [->|]; ring. }
      rewrite Es. rewrite seq_S, map_app, csum_app. cbn [plus map]. rewrite csum_cons.
      rewrite <- (Tu k i i') by assumption.
      rewrite <- (IH ltac:(lia) m1 o1 S1 Eo1).
      + assert (Em : csum (map (fun j => (T k (i * nk + i')%nat j * RtoC (nth j (flatten m1) 0%R))%C) (seq 0 m))
                     = csum (map (fun j => (T k (i * nk + i')%nat j * RtoC (nth j (flatten ms) 0%R))%C) (seq 0 m))).
        { apply csum_map_ext. intros j Hj. apply in_seq in Hj. rewrite E1, Nv by lia.
          destruct (Nat.eqb_spec j m); [lia|reflexivity]. }
        rewrite Em. cbn [csum fold_right]. ring.
      + intros j Hj. rewrite E1, Nv by lia.
        destruct (Nat.eqb_spec j m); [reflexivity|]. apply Z. lia. }
  apply (G n (le_n n) ms out Sms Eo). intros j Hj. lia.
Qed.

(** C45 as stated fails: without MPI the call never returns a matrix, for any
    convolution and any sizes, and leaves the warning flag switched off... *)
Theorem serial_never conv dims npole :
  (forall m, result (gen_serial conv dims npole) <> Ok m)
  /\ catch_left (gen_serial conv dims npole) = false.
Proof.
  split; [|reflexivity]. intros m. unfold gen_serial. cbn [result].
  destruct (sequence _) as [cols|e]; [|discriminate]. cbn [bind].
  destruct (sequence _) as [x|e]; discriminate.
Qed.

(** ...the exception being the TypeError of the call with a missing argument,
    raised after all the work is done, even when every convolution succeeds. *)
Theorem serial_refuted conv dims npole nk :
  total conv dims npole nk -> 0 < dim_2d dims ->
  result (gen_serial conv dims npole) = Err TypeError.
Proof.
  intros T Hn. unfold gen_serial. cbn [result].
  rewrite (sequence_ok_all _ (column conv dims))
    by (intros j _; apply (column_ok conv dims npole nk j T)). cbn [bind].
  set (cols := map (column conv dims) (seq 0 (dim_2d dims))).
  assert (E : exists ms, sequence (map (fun k => column_stack (map (fun c => nth k c []) cols))
                       (seq 0 npole)) = Ok ms).
  { eexists. apply (sequence_ok_all _ (fun k => match column_stack (map (fun c => nth k c []) cols)
                                                with Ok m => m | Err _ => [] end)).
    intros k Hk. apply in_seq in Hk.
    assert (F : Forall (fun c => List.length c = nk * nk) (map (fun c => nth k c []) cols)).
    { apply Forall_map, Forall_forall. intros c Hc. unfold cols in Hc.
      apply in_map_iff in Hc as (j & <- & _).
      destruct (column_ok conv dims npole nk j T) as (_ & Lc & Fc & _).
      apply (proj1 (Forall_forall _ _) Fc). apply nth_In. lia. }
    unfold cols in *. destruct (dim_2d dims) as [|n]; [lia|]. cbn [seq map] in *.
    unfold column_stack. inversion F as [|c0 l0 H0 H1 EE]; subst.
    rewrite (proj2 (forallb_forall _ _)); [reflexivity|].
    intros c Hc. apply Nat.eqb_eq. rewrite H0. apply (proj1 (Forall_forall _ _) F). exact Hc. }
  destruct E as [ms ->]. reflexivity.
Qed.

(** With more processes than basis vectors (counting the rank of the root) the
    root has none, and the gather fails. *)
Theorem mpi_idle_root conv dims npole nk cat diag np root arrive flag :
  total conv dims npole nk -> 0 < dim_2d dims ->
  (Z.of_nat (dim_2d dims) + Z.of_nat root < np)%Z ->
  result (gen_mpi conv dims npole nk cat diag np root arrive flag) = Err RuntimeError
  /\ catch_left (gen_mpi conv dims npole nk cat diag np root arrive flag) = false.
Proof.
  intros T Hn Hr. set (n := dim_2d dims) in *.
  assert (E : result (gen_mpi conv dims npole nk cat diag np root arrive flag) = Err RuntimeError).
  2:{ split; [exact E|]. unfold gen_mpi in *. cbn [result catch_left] in *. now rewrite E. }
  unfold gen_mpi. fold n. cbn [result].
  set (fuel := S (S (Z.to_nat np))).
  assert (Ha : task_arg (NpInt (Z.of_nat n)) (Z.of_nat n)) by now right.
  destruct (allocate_tasks_exact (NpInt (Z.of_nat n)) (Z.of_nat n) np fuel (Z.of_nat root) Ha)
    as (l & El & Hx); [lia|lia|unfold fuel; lia|lia|].
  rewrite El. cbn [bind]. rewrite Nat2Z.id in Hx.
  assert (Hroot : root < List.length l) by (apply nth_error_Some; congruence).
  assert (Hl : l <> []) by (intros ->; cbn in Hroot; lia).
  rewrite (distribute_of_list fuel l PyOther Hl). cbn [bind].
  set (segs := map (seg_of l) (seq 0 (List.length l))).
  set (f := fun s => map (fun j => column conv dims (Z.to_nat j)) (slice_indices s)).
  assert (Esub : sequence (map (rank_columns conv dims) segs) = Ok (map f segs)).
  { apply sequence_ok_all. intros s _. unfold rank_columns. apply sequence_ok_all.
    intros j _. apply (column_ok conv dims npole nk _ T). }
  rewrite Esub. cbn [bind].
  assert (En : nth root (map f segs) [] = []).
  { rewrite (nth_indep _ [] (f (0, 0)%Z))
      by (unfold segs; rewrite !map_length, seq_length; exact Hroot).
    rewrite map_nth. unfold segs.
    rewrite (nth_indep _ (0, 0)%Z (seg_of l 0)) by (rewrite map_length, seq_length; exact Hroot).
    rewrite map_nth, seq_nth by exact Hroot. cbn [plus]. unfold f.
    pose proof (seg_width l root _ Hx) as W.
    rewrite Z.div_small in W by lia.
    rewrite (proj2 (slice_indices_nil (seg_of l root))) by lia. reflexivity. }
  rewrite En. reflexivity.
Qed.

(** Two input multipoles of one sample each, one output multipole holding the
    first plus twice the second, on two processes. *)
Definition demo_conv : convolver := fun ms =>
  match ms with
  | [[[a]]; [[b]]] => Ok [[[RtoC (a + 2 * b)]]]
  | _ => Err ValueError
  end.

Lemma demo_total : total demo_conv [1; 1] 1 1.
Proof.
  intros ms S. inversion S as [|d m ds r [L1 F1] S1]; subst.
  inversion S1 as [|d m' ds' r' [L2 F2] S2]; subst. inversion S2; subst.
  destruct m as [|[|a [|]] [|]]; try discriminate L1; try (inversion F1; discriminate).
  destruct m' as [|[|b [|]] [|]]; try discriminate L2; try (inversion F2; discriminate).
  eexists. split; [reflexivity|]. split; [reflexivity|]. repeat constructor.
Qed.

Example mpi_case :
  result (gen_mpi demo_conv [1; 1] 1 1 true true 2 0 (fun _ m => rev m) true)
  = Ok (Stacked [[RtoC (1 + 2 * 0); RtoC (0 + 2 * 1)]])
  /\ result (gen_mpi demo_conv [1; 1] 1 1 true true 3 0 (fun _ m => m) true) = Err RuntimeError
  /\ result (gen_serial demo_conv [1; 1] 1) = Err TypeError.
Proof. repeat split; reflexivity. Qed.

Print Assumptions mpi_exact.
Print Assumptions matrix_product.
Print Assumptions serial_never.
Print Assumptions serial_refuted.
Print Assumptions mpi_idle_root.
