(* The two-point window convolution: the named formulae and the sum of
   `TwoPCFWinConv.convolve`.  /repo/src/triumvirate/winconv.py. *)
From Coq Require Import Reals ZArith List.
From Verif Require Import Base ArrayModel.
Import ListNotations.
Open Scope R_scope.

(** A term (multipole_Q, multipole_Z, coeff) of a formula. *)
Definition term : Type := nat * nat * R.
Definition tm (q z : nat) (c : R) : term := (q, z, c).

(** NAMED_FORMULAE['wilson+16'], winconv.py 107-133. *)
Definition wilson16 (ell : nat) : res (list term) :=
  match ell with
  | 0%nat => Ok [tm 0 0 (1); tm 2 2 (1 / 5); tm 4 4 (1 / 9)]
  | 2%nat => Ok [tm 2 0 (1); tm 0 2 (1); tm 2 2 (2 / 7); tm 4 2 (2 / 7);
                 tm 2 4 (2 / 7); tm 4 4 (100 / 693); tm 6 4 (25 / 143)]
  | 4%nat => Ok [tm 4 0 (1); tm 2 2 (18 / 35); tm 4 2 (20 / 77); tm 6 2 (45 / 143);
                 tm 0 4 (1); tm 2 4 (20 / 77); tm 4 4 (162 / 1001); tm 6 4 (20 / 143);
                 tm 8 4 (490 / 2431)]
  | _ => Err KeyError
  end.

(** One output sample of `TwoPCFWinConv.convolve`, winconv.py 1862-1878, for
    the multipole ell at the separation r.  [interp xs ys r] stands for the
    spline through the samples, read at r; nothing is assumed of it.  A
    multipole missing from either dictionary is the KeyError of the lookup. *)
Definition convolve_at (formula : list term) (interp : list R -> list R -> R -> R)
    (window cf : nat -> option (list R * list R)) (r : R) : res R :=
  ts <- sequence
    (map (fun t : term =>
            let '(q, z, c) := t in
            match window q with
            | None => Err KeyError
            | Some (rq, vq) =>
                match cf z with
                | None => Err KeyError
                | Some (rz, vz) => Ok (c * interp rq vq r * interp rz vz r)
                end
            end) formula) ;;
  Ok (rsum ts).
