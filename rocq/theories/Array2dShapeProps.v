(* Claim C06: the 2-d extrapolators refuse arrays that are not two-dimensional. *)
From Coq Require Import Reals ZArith List Lia Lra Bool.
From Verif Require Import Base ArrayModel Array2dModel Array2dProps.
Import ListNotations.
Open Scope R_scope.

(** An array with fewer than two rows or columns is a ShapeError in all three
    extrapolators, whatever the extensions and padding values. *)
Theorem extrap2d_refuses_thin : forall m r c n_ext p1 p2 p3 p4,
  shape m r c -> (r < 2 \/ c < 2)%nat ->
  extrap2d_lin m n_ext = Err ShapeError /\
  extrap2d_loglin m n_ext = Err ShapeError /\
  extrap2d_pad m n_ext p1 p2 p3 p4 = Err ShapeError.
Proof.
  intros m r c n_ext p1 p2 p3 p4 [Hr Hc] T.
  assert (E : ((nrows m <? 2) || (ncols m <? 2))%nat = true).
  { unfold nrows, ncols. rewrite Hr. apply orb_true_iff. rewrite !Nat.ltb_lt.
    destruct T as [T|T]; [left; exact T|].
    destruct m as [|row m]; [left; cbn in Hr; lia|right].
    cbn. inversion Hc; subst. assumption. }
  unfold extrap2d_lin, extrap2d_loglin, extrap2d_pad, check_2d_array. rewrite E.
  repeat split; reflexivity.
Qed.

(** Conversely linear extrapolation of an array with two rows and columns or
    more, by extensions that are not negative, never fails. *)
Theorem extrap2d_lin_shape : forall m r c nr nc,
  shape m r c -> (0 <= nr)%Z -> (0 <= nc)%Z ->
  ((exists out, extrap2d_lin m (ExtPair nr nc) = Ok out) <-> (2 <= r /\ 2 <= c)%nat).
Proof.
  intros m r c nr nc S Hr Hc. split.
  - intros [out E].
    destruct (Nat.lt_ge_cases r 2) as [L|L]; [|destruct (Nat.lt_ge_cases c 2) as [L'|L']; [|lia]].
    + destruct (extrap2d_refuses_thin m r c (ExtPair nr nc) (PadScalar 0) (PadScalar 0)
        (PadScalar 0) (PadScalar 0) S (or_introl L)) as [F _]. congruence.
    + destruct (extrap2d_refuses_thin m r c (ExtPair nr nc) (PadScalar 0) (PadScalar 0)
        (PadScalar 0) (PadScalar 0) S (or_intror L')) as [F _]. congruence.
  - intros [L L']. unfold extrap2d_lin, check_2d_array, nrows.
    rewrite (ncols_shape m r c S) by lia. destruct S as [S _]. rewrite S.
    destruct (Nat.ltb_spec r 2); [lia|]. destruct (Nat.ltb_spec c 2); [lia|].
    cbn [orb andb bind unpack_ext]. eexists. reflexivity.
Qed.

(** A single row of three and a single column of three. *)
Example thin_case :
  extrap2d_lin [[1; 2; 3]] (ExtInt 1) = Err ShapeError /\
  extrap2d_lin [[1]; [2]; [3]] (ExtInt 1) = Err ShapeError /\
  exists out, extrap2d_lin [[1; 2]; [3; 4]] (ExtPair 1 1) = Ok out.
Proof.
  split; [|split].
  - apply (extrap2d_refuses_thin _ 1 3 _ (PadScalar 0) (PadScalar 0) (PadScalar 0) (PadScalar 0));
      [split; repeat constructor|lia].
  - apply (extrap2d_refuses_thin _ 3 1 _ (PadScalar 0) (PadScalar 0) (PadScalar 0) (PadScalar 0));
      [split; repeat constructor|lia].
  - apply (extrap2d_lin_shape _ 2 2); [split; repeat constructor|lia|lia|lia].
Qed.

Print Assumptions extrap2d_refuses_thin.
Print Assumptions extrap2d_lin_shape.
