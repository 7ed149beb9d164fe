(* C34: what assigning a column or the mean density does to a Python catalogue. *)
From Coq Require Import Reals ZArith List Lia Lra Bool Arith.
From Verif Require Import Base ArrayModel ArrayProofs MeshModel CatModel PyCatModel.
Import ListNotations.
Local Open Scope R_scope.

(** The columns and attributes as read back. *)
Definition read (c : pycat) (k : colname) : option (list R) :=
  match k with
  | NX => Some (col_x c) | NY => Some (col_y c) | NZ => Some (col_z c)
  | NNz => Some (col_nz c) | NWs => Some (col_ws c) | NWc => Some (col_wc c)
  | NOther => None
  end.
Definition same_attributes (c c' : pycat) : Prop :=
  bounds c' = bounds c /\ spans c' = spans c /\ ntotal c' = ntotal c /\
  py_wtotal c' = py_wtotal c /\ py_wstotal c' = py_wstotal c.

(** [l] is the value [v] as a column of [n] rows. *)
Definition is_column (n : nat) (v : colarg) (l : list R) : Prop :=
  length l = n /\
  match v with
  | Scalar r => forall i, (i < n)%nat -> nth i l 0 = r
  | Array a => l = a
  end.

Lemma column_is n v l : column n v = Ok l -> is_column n v l.
Proof.
  unfold is_column. destruct v as [r|a]; cbn [column].
  - intros E. injection E as <-. split; [apply repeat_length|]. intros i H.
    revert i H. induction n as [|n IH]; intros i H; [lia|]. destruct i; [reflexivity|]. cbn. apply IH. lia.
  - destruct (Nat.eqb_spec (length a) n) as [H|H]; [|discriminate]. intros E. injection E as <-. auto.
Qed.

(** Assigning a column gives that column the value, leaves the others and all
    attributes, and is refused for an array of another length only. *)
Theorem setitem_exact : forall c k v,
  (forall l, v = Array l -> length l <> length (col_x c) -> py_setitem c k v = Err ValueError) /\
  ((forall l, v = Array l -> length l = length (col_x c)) ->
   exists c', py_setitem c k v = Ok c' /\ same_attributes c c' /\
     (forall j, j <> k -> read c' j = read c j) /\
     (k <> NOther -> exists l, read c' k = Some l /\ is_column (length (col_x c)) v l)).
Proof.
  intros c k v. split.
  - intros l -> H. unfold py_setitem. cbn [column]. destruct (Nat.eqb_spec (length l) (length (col_x c))); [contradiction|reflexivity].
  - intros H. assert (E : exists l, column (length (col_x c)) v = Ok l).
    { destruct v as [r|a]; cbn [column]; [eauto|]. rewrite (proj2 (Nat.eqb_eq _ _) (H a eq_refl)). eauto. }
    destruct E as [l E]. pose proof (column_is _ _ _ E) as I.
    unfold py_setitem. rewrite E. cbn [bind].
    destruct k; (eexists; split; [reflexivity|]; split; [now repeat split|]; split;
      [intros j; destruct j; intros N; try reflexivity; now elim N|];
      intros N; first [exists l; split; [reflexivity|exact I] | now elim N]).
Qed.

(** The mean density assigned is the number of particles over the volume given,
    or over that of the box if it is absent or zero. *)
Theorem density_exact : forall c volume boxsize v,
  (volume = Some v \/ ((volume = None \/ volume = Some 0) /\
                       exists l, boxsize = Some l /\ v = ax0 l * ax1 l * ax2 l)) ->
  v <> 0 ->
  exists c', mean_density c volume boxsize = Ok c' /\ same_attributes c c' /\
    (forall j, j <> NNz -> read c' j = read c j) /\
    length (col_nz c') = length (col_x c) /\
    forall i, (i < length (col_x c))%nat -> nth i (col_nz c') 0 * v = INR (ntotal c).
Proof.
  intros c volume boxsize v H N.
  destruct (setitem_exact c NNz (Scalar (INR (ntotal c) / v))) as [_ S].
  destruct S as (c' & E & A & R & L); [intros l K; discriminate K|].
  destruct L as (l & L1 & L2 & L3); [discriminate|]. injection L1 as <-.
  exists c'. split.
  - assert (Z : Reqb v 0 = false).
    { destruct (Reqb v 0) eqn:Z; [apply Reqb_spec in Z; contradiction|reflexivity]. }
    unfold mean_density. destruct H as [->|[[->| ->] (b & -> & ->)]].
    + rewrite Z. exact E.
    + rewrite Z. exact E.
    + rewrite (proj2 (Reqb_spec 0 0) eq_refl), Z. exact E.
  - split; [exact A|]. split; [exact R|]. split; [exact L2|].
    intros i Hi. rewrite L3 by exact Hi. field. exact N.
Qed.

(** A completeness weight of two particles set, and their density in a box of 8. *)
Example column_case : forall c c', py_new [1; 3] (Array [2; 0]) (Scalar 0) None (Array [1; 2]) (Scalar 3) = Ok c ->
  py_setitem c NWc (Array [5; 7]) = Ok c' -> col_wc c' = [5; 7] /\ col_ws c' = [1; 2] /\
  exists c'', mean_density c' None (Some (T3 2 2 2)) = Ok c'' /\ nth 1 (col_nz c'') 0 * 8 = 2.
Proof.
  intros c c' E E'. unfold py_new in E. cbn in E. injection E as <-. cbn in E'. injection E' as <-.
  split; [reflexivity|]. split; [reflexivity|].
  eexists. split.
  - unfold mean_density. destruct (Reqb (ax0 (T3 2 2 2) * ax1 (T3 2 2 2) * ax2 (T3 2 2 2)) 0) eqn:Z.
    + apply Reqb_spec in Z. cbn in Z. lra.
    + reflexivity.
  - cbn. field.
Qed.

Print Assumptions setitem_exact.
Print Assumptions density_exact.
