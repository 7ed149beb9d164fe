(* `BispecWinConv.gen_winconv_mat`, /repo/src/triumvirate/winconv.py
   2749-3072, of the convolution of FourierConvModel.v: how the model vectors
   become input multipoles and which integral constraint is passed on.  The
   loops over basis vectors are those of WinMatModel.v. *)
From Coq Require Import Reals ZArith List Bool.
From Coquelicot Require Import Complex.
From Verif Require Import Base MpiModel ArrayModel Array2dModel MultipoleModel WindowModel WinConvModel
  FftlogModel TransformModel FourierConvModel WinMatModel.
Import ListNotations.

(** `dims_1d`, 2810-2813. *)
Definition mat_dims (w : fconv dsbt matrix) : res (list nat) :=
  sequence (map (fun z => k <- zlookup (w_kin w) (ZPole z) ;; Ok (length k)) (f_Z (c_f (w_conv w)))).

(** `B_model`, 2821-2828: the multipoles of `_multipoles_Z_true` in order. *)
Definition model_dict (w : fconv dsbt matrix) (ms : list rmat) : list (mlike * samples (list (list C))) :=
  combine (map MCopy (f_Z (c_f (w_conv w)))) (map (fun m => (FloatArr, map (map RtoC) m)) ms).

(** `ic = 0. if ic is False else None`, 2803. *)
Definition passed_ic (ic : bool) : option R := if ic then None else Some 0%R.

Section Matrix.
Variable spl2 : nat -> list R -> matrix -> res (R -> R -> R).
Variable simpson : list R -> list R -> R.
Variable wigner : Z -> Z -> Z -> R.

(** `self.convolve(B_model, ic=ic)`, 2829, and its arrays, 2830-2833. *)
Definition model_conv (w : fconv dsbt matrix) (ic : bool) : convolver := fun ms =>
  out <- bispec_convolve spl2 simpson wigner w (model_dict w ms) (passed_ic ic) ;;
  sequence (map (lookup out) (f_poles (c_f (w_conv w)))).

(** A run: without MPI, or at the root of [np] processes. *)
Inductive comm :=
| Serial
| Mpi (np : Z) (root : nat) (arrive : nat -> list (nat * list C) -> list (nat * list C)).

Definition gen_winconv_mat (w : fconv dsbt matrix) (c : comm) (ic cat diag flag : bool) : outcome :=
  match mat_dims w with
  | Err e => {| result := Err e; catch_left := false |}
  | Ok dims =>
    let npole := length (f_poles (c_f (w_conv w))) in
    match c with
    | Serial => gen_serial (model_conv w ic) dims npole
    | Mpi np root arrive =>
      gen_mpi (model_conv w ic) dims npole (length (w_kout w)) cat diag np root arrive flag
    end
  end.

End Matrix.
