(* Model of /repo/src/triumvirate/src/dataobjs.cpp 130-249 (the bins made by
   `Binning::compute_binning`) with every operation rounded to binary64, the
   exponent unbounded, and `std::log` and `std::exp` any functions.
   BinningModel has the whole class over the reals. *)
From Coq Require Import Reals ZArith List Lia Lra Bool.
From Verif Require Import Base BinningModel ResampleModel.
Import ListNotations.
Local Open Scope R_scope.

(** A loop over bins. *)
Definition over (n : Z) {A} (f : Z -> A) : list A := map (fun i => f (Z.of_nat i)) (seq 0 (Z.to_nat n)).

(** 149-161, and 199-211 behind the padding: [n] bins from [lo], the last edge
    being [hi] itself. *)
Definition lin_bins_fl (lo hi : R) (n : Z) : bins :=
  let dbin := fl (fl (hi - lo) / IZR n) in
  let edge_left i := fl (lo + fl (dbin * IZR i)) in
  (over n edge_left ++ [hi], over n (fun i => fl (edge_left i + fl (dbin / 2))), over n (fun _ => dbin)).

(** 190-197 and 218-225. *)
Definition pad_bins_fl (dbin_pad : R) : bins :=
  let edge_left i := fl (dbin_pad * IZR i) in
  (over nbin_pad edge_left, over nbin_pad (fun i => fl (edge_left i + fl (dbin_pad / 2))), over nbin_pad (fun _ => dbin_pad)).

Definition join (a b : bins) : bins :=
  let '(e, c, w) := a in let '(e', c', w') := b in (e ++ e', c ++ c', w ++ w').

(** 189-213. *)
Definition linpad_bins_fl (dbin_pad hi : R) (n : Z) : bins :=
  join (pad_bins_fl dbin_pad) (lin_bins_fl (fl (dbin_pad * IZR nbin_pad)) hi (n - nbin_pad)).

Section Functions.
Variable std_log std_exp : R -> R.

(** 165-185, and 227-245 behind the padding. *)
Definition log_bins_fl (lo hi : R) (n : Z) : bins :=
  let dlnbin := fl (fl (std_log hi - std_log lo) / IZR n) in
  let edge_left i := fl (lo * std_exp (fl (dlnbin * IZR i))) in
  let edge_right i := fl (lo * std_exp (fl (dlnbin * IZR (i + 1)))) in
  (over n edge_left ++ [hi], over n (fun i => fl (fl (edge_left i + edge_right i) / 2)), over n (fun i => fl (edge_right i - edge_left i))).

(** 217-247. *)
Definition logpad_bins_fl (dbin_pad hi : R) (n : Z) : bins :=
  join (pad_bins_fl dbin_pad) (log_bins_fl (fl (dbin_pad * IZR nbin_pad)) hi (n - nbin_pad)).

End Functions.
